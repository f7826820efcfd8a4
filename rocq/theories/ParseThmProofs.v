(** From the instance file to the solution file. *)
From Coq Require Import List Bool Arith Lia Permutation.
From Verif Require Import Base Num GeoModel HazardModel QTModel TransfModel HpgModel CdeModel CdeSpec
  PolyModel ParserModel SimplModel SlotMapModel LayoutModel ProblemModel ProblemSpec LbfModel IoModel ParseModel
  BaseProofs Instances ParityProofs PipProofs NormProofs XformProofs ConstructProofs RigidProofs RegionProofs RectPolyProofs LayoutProofs ProblemProofs ProblemOpsProofs
  MirrorProofs LbfThmProofs LbfHistProofs FitProofs LbfStripThmProofs LbfSpProofs IoProofs IoThmProofs ParseProofs.
From Coq Require Import Reals Lra.
From Verif Require Import GeoModel HazardModel QTModel TransfModel HpgModel CdeModel CdeSpec GeoSpec PlaceSpec HpgSpec ShapeSpec SimplSpec LbfModel LbfSpec IoModel IoSpec ParseModel ParseSpec.
Import ListNotations.
Local Open Scope R_scope.
#[local] Existing Instance RTrig.

Lemma nth_error_Some_lt : forall {A} (l : list A) i x, nth_error l i = Some x -> (i < length l)%nat.
Proof. intros A l i x H. apply nth_error_Some. rewrite H. discriminate. Qed.
(** *** regions and shifts *)
Lemma shift_motion : forall dx dy, motion (transl_m (N := RNum) dx dy).
Proof. intros. exact (transl_affine dx dy). Qed.
Lemma map_shift : forall dx dy l, map (shifted dx dy) l = map (tr_point (N := RNum) (transl_m (N := RNum) dx dy)) l.
Proof. intros. apply map_ext. intros p. symmetry. apply tr_transl. Qed.
Lemma region_shift : forall dx dy l p, region l p -> region (map (shifted dx dy) l) (shifted dx dy p).
Proof.
  intros dx dy l p H. rewrite map_shift, <- tr_transl. apply region_moved; [exact (proj1 (shift_motion dx dy))|exact H].
Qed.
Lemma interior_shift : forall dx dy l p, interior (map (shifted dx dy) l) (shifted dx dy p) -> interior l p.
Proof.
  intros dx dy l p H. rewrite map_shift, <- tr_transl in H. apply (rigid_sets _ l p (proj1 (shift_motion dx dy))) in H. exact H.
Qed.
Lemma spikes_shift : forall dx dy l, no_spikes l -> no_spikes (map (shifted dx dy) l).
Proof.
  intros dx dy l H. rewrite map_shift. pose proof (proj1 (shift_motion dx dy)) as Rg. pose proof Rg as (_ & _ & N).
  rewrite (tr_map _ Rg). intros e f He Hf. rewrite ring_map in He, Hf.
  apply in_map_iff in He as (e' & <- & He). apply in_map_iff in Hf as (f' & <- & Hf).
  rewrite (edet_rot _ _ _ _ _ _ N), (edot_rot _ _ _ _ _ _ N). cbn [emap es ee]. intros K. apply (rot_inj _ _ _ _ N) in K.
  apply H; assumption.
Qed.
Lemma made_good : forall s, made s -> no_spikes (p_pts s) -> good_shape s.
Proof.
  intros s Md Sp. split; auto; try apply Md.
  destruct (md_poi _ Md) as (A & B & _). pose proof (md_radius _ Md). split; [|exact A].
  intros O. specialize (B _ O). assert (E : edist (ccen (p_poi s)) (ccen (p_poi s)) = 0).
  { unfold edist. match goal with |- sqrt ?x = 0 => replace x with 0 by ring end. apply sqrt_0. }
  lra.
Qed.
Lemma at_shift_good : forall dx dy o s, at_shift dx dy o s -> no_spikes o -> good_shape s.
Proof. intros dx dy o s (E & Md) Sp. apply made_good; [exact Md|]. rewrite E. apply spikes_shift. exact Sp. Qed.

(** *** exported placements *)
Lemma put_point : forall d p, put d p = tr_point (N := RNum) (compose (N := RNum) d) p.
Proof. intros. unfold compose. rewrite tr_rt. reflexivity. Qed.
Section E.
  Variable M : R.
  Local Notation NM := (RNumT Reqb M).
  Definition out (d : dtransf R) (i b : transf R) : dtransf R :=
    decompose (T := RTrig) (internal_to_absolute (N := RNum) d i b).
  Lemma out_point : forall d i b dx dy p, motion i -> motion b -> shift_by i dx dy ->
    tr_point (N := RNum) b (put (out d i b) p) = tr_point (N := RNum) (compose (N := RNum) d) (shifted dx dy p).
  Proof.
    intros d i b dx dy p I B Sh. rewrite put_point. unfold out. rewrite decompose_exact by (apply i2a_affine; assumption).
    rewrite i2a_point by assumption. rewrite inv_right by exact B. rewrite Sh. reflexivity.
  Qed.
  Lemma out_region : forall d i b dx dy o p, motion i -> motion b -> shift_by i dx dy ->
    region (map (put (out d i b)) o) p ->
    region (map (tr_point (N := RNum) (compose (N := RNum) d)) (map (shifted dx dy) o)) (tr_point (N := RNum) b p).
  Proof.
    intros d i b dx dy o p I B Sh H. apply (region_moved b _ _ (proj1 B)) in H. rewrite map_map in H. rewrite map_map.
    erewrite map_ext; [exact H|]. intros q. cbn beta. symmetry. apply out_point; assumption.
  Qed.
  Lemma out_turn : forall d i b dx dy bx by', motion i -> motion b -> shift_by i dx dy -> shift_by b bx by' ->
    cos (dt_rot (out d i b)) = cos (dt_rot d) /\ sin (dt_rot (out d i b)) = sin (dt_rot d).
  Proof.
    intros d i b dx dy bx by' I B Sh Sb.
    pose proof (out_point d i b dx dy (Pt 0 0) I B Sh) as E0. pose proof (out_point d i b dx dy (Pt 1 0) I B Sh) as E1.
    rewrite Sb in E0, E1. unfold compose in E0, E1. rewrite tr_rt in E0, E1.
    generalize dependent (out d i b). intros e E0 E1.
    unfold put, shifted, turned in E0, E1. cbn [px py] in E0, E1. injection E0 as A0 B0. injection E1 as A1 B1. split; lra.
  Qed.
End E.

Section P.
  Variable M : R.
  Context {X : Extra R} {ED : EqD (dtransf R)} {BS : BSearch} {G : Type} {RG : Rng R G}.
  Hypothesis BSok : bsearch_ok BS.
  Local Notation NM := (RNumT Reqb M).
  Instance NP : Num R := NM.
  Variable umax : nat.
  Variable pr : parser R.
  Hypothesis Ht : tol_ok (pr_simpl pr).
  Hypothesis Ep : @fPI R X = PI.
  Local Notation tol := (pr_simpl pr).
  Local Notation bin := (bin R (dtransf R)).
  Local Notation item := (item R).

  (** *** the lists of items and bins *)
  Definition item_centred (it : item) (dx dy : R) : Prop :=
    if pr_center pr then p_centroid (N := RNum) (it_shape it) = Pt 0 0 else dx = 0 /\ dy = 0.
  Lemma items_inv : forall l k xs, rmapM (fun p => parse_item pr (snd p) (fst p)) (combine (seq k (length l)) l) = Ok xs ->
    exists fs, Forall2 (item_of_file tol) l fs /\ length xs = length l /\
      forall i j, nth_error l i = Some j -> exists it pre f dx dy, nth_error xs i = Some (it, pre, ji_demand j) /\ nth_error fs i = Some f /\
        item_reads tol j (k + i) it pre dx dy (fi_outline f) /\ fi_orient f = ji_orient j /\ fi_quality f = ji_quality j /\ item_centred it dx dy.
  Proof.
    induction l as [|j l IH]; intros k xs H; cbn [length seq combine rmapM] in H.
    - injection H as <-. exists []. split; [constructor|]. split; [reflexivity|]. intros [|i] j H; discriminate.
    - apply rbind_ok in H as (x & Ex & H). apply rbind_ok in H as (r & Er & H). injection H as <-. cbn [fst snd] in Ex. destruct x as [[it pre] d].
      destruct (parse_item_inv M pr Ht Ep _ _ _ _ _ Ex) as (dx & dy & o & Rd & -> & Ce). destruct (IH _ _ Er) as (fs & F1 & L1 & K).
      exists (FI o (ji_orient j) (ji_quality j) :: fs). split; [constructor; [|exact F1]|].
      { split; [exact (ir_sketch _ _ _ _ _ _ _ _ Rd)|]. split; reflexivity. }
      split; [cbn [length]; lia|]. intros [|i] j' Hj.
      + injection Hj as <-. exists it, pre, (FI o (ji_orient j) (ji_quality j)), dx, dy. rewrite Nat.add_0_r. cbn [nth_error fi_outline fi_orient fi_quality].
        split; [reflexivity|]. split; [reflexivity|]. split; [exact Rd|]. split; [reflexivity|]. split; [reflexivity|exact Ce].
      + cbn [nth_error] in *. destruct (K i j' Hj) as (it' & pre' & f & dx' & dy' & A). exists it', pre', f, dx', dy'. rewrite Nat.add_succ_r. exact A.
  Qed.
  Definition stock_of (j : jbin R) : nat := match jb_stock j with Some n => n | None => umax end.
  Definition bin_centred (b : bin) (dx dy : R) : Prop :=
    if pr_center pr then p_centroid (N := RNum) (a_obj (bn_outer b)) = Pt 0 0 else dx = 0 /\ dy = 0.
  Lemma parse_bin_new : forall j id ptr b n, parse_bin umax pr j id ptr = Ok (b, n) ->
    exists id' outer value pre holes zs c, bin_new id' outer value pre holes zs c = Ok b.
  Proof.
    intros j id ptr b n H. unfold parse_bin in H. apply rbind_ok in H as (outer & Eo & H). apply rbind_ok in H as (holes & Eh & H).
    apply rbind_ok in H as (zs & Ez & H). apply rbind_ok in H as (base & Eb & H). apply rbind_ok in H as (b' & Ex & H). injection H as -> <-.
    destruct (pr_center pr).
    - unfold pretransform_bin, fresh_bin in Ex. eauto 10.
    - injection Ex as <-. unfold fresh_bin in Eb. eauto 10.
  Qed.
  Lemma bins_inv : forall l k ptr bs, parse_bins umax pr k ptr l = Ok bs ->
    exists cs, Forall2 (bin_of_file tol) l cs /\ length bs = length l /\
      forall i j, nth_error l i = Some j -> exists b c dx dy, nth_error bs i = Some (b, stock_of j) /\ nth_error cs i = Some c /\
        bin_reads tol j (k + i) b dx dy (fb_outer c) (fb_holes c) (fb_zones c) /\ bin_centred b dx dy /\
        exists id' outer value pre holes zs c, bin_new id' outer value pre holes zs c = Ok b.
  Proof.
    induction l as [|j l IH]; intros k ptr bs H; cbn [parse_bins] in H.
    - injection H as <-. exists []. split; [constructor|]. split; [reflexivity|]. intros [|i] j H; discriminate.
    - apply rbind_ok in H as ([b n] & Ex & H). apply rbind_ok in H as (r & Er & H). injection H as <-.
      destruct (parse_bin_inv M umax pr Ht _ _ _ _ _ Ex) as (dx & dy & o & hs & zs & Rd & -> & Ce). destruct (IH _ _ _ Er) as (cs & F1 & L1 & K).
      exists (FB o hs zs :: cs). split; [constructor; [|exact F1]|].
      { split; [exact (br_sketch _ _ _ _ _ _ _ _ _ Rd)|]. split; [exact (br_hole_sketches _ _ _ _ _ _ _ _ _ Rd)|exact (br_zone_sketches _ _ _ _ _ _ _ _ _ Rd)]. }
      split; [cbn [length]; lia|]. intros [|i] j' Hj.
      + injection Hj as <-. exists b, (FB o hs zs), dx, dy. rewrite Nat.add_0_r. cbn [nth_error fb_outer fb_holes fb_zones].
        split; [reflexivity|]. split; [reflexivity|]. split; [exact Rd|]. split; [exact Ce|]. exact (parse_bin_new _ _ _ _ _ Ex).
      + cbn [nth_error] in *. destruct (K i j' Hj) as (b' & c & dx' & dy' & A). exists b', c, dx', dy'. rewrite Nat.add_succ_r. exact A.
  Qed.

  (** *** packings *)
  Definition item_fits (it : item) (f : fitem) (t : transf R) : Prop :=
    exists dx dy, at_shift dx dy (fi_outline f) (it_shape it) /\ motion t /\ shift_by t dx dy /\
      (forall a, allowed (it_rot it) a -> angle_ok (fi_orient f) a) /\ it_quality it = fi_quality f.
  Lemma exported_in : forall pre (b : bin) pl x, In x (exported pre b pl) ->
    exists d, In (fst x, d) pl /\ snd x = out d (pre (fst x)) (bn_pre b).
  Proof. intros pre b pl x H. apply in_map_iff in H as ([i d] & <- & H). exists d. split; [exact H|reflexivity]. Qed.
  Lemma exported_nth : forall pre (b : bin) pl n x, nth_error (exported pre b pl) n = Some x ->
    exists d, nth_error pl n = Some (fst x, d) /\ snd x = out d (pre (fst x)) (bn_pre b).
  Proof.
    intros pre b pl n x H. unfold exported in H. rewrite nth_error_map in H. destruct (nth_error pl n) as [[i d]|]; [|discriminate].
    injection H as <-. exists d. split; reflexivity.
  Qed.
  Lemma packed_packing : forall (items : list (item * nat)) fs pre (b : bin) bx by' outer hs zs pl,
    length fs = length items ->
    (forall i it q f, nth_error items i = Some (it, q) -> nth_error fs i = Some f -> item_fits it f (pre i)) ->
    motion (bn_pre b) -> shift_by (bn_pre b) bx by' ->
    at_shift bx by' outer (a_obj (bn_outer b)) ->
    (forall h, In h hs -> exists k hz, In hz (bin_statics b) /\ h_ent hz = BinHole k /\ at_shift bx by' h (a_obj (h_shape hz))) ->
    (forall q z, In (q, z) zs -> exists k hz, In hz (bin_statics b) /\ h_ent hz = InferiorQualityZone q k /\ at_shift bx by' z (a_obj (h_shape hz))) ->
    packed items b pl -> packing fs outer hs zs (exported pre b pl).
  Proof.
    intros items fs pre b bx by' outer hs zs pl L Hi Mb Sb Ho Hh Hz (Nd & Ap & St & Tn).
    assert (Kn : forall i d, In (i, d) pl -> exists it q f, nth_error items i = Some (it, q) /\ nth_error fs i = Some f /\ item_fits it f (pre i) /\
        exists a, allowed (it_rot it) a /\ turns a (compose d)).
    { intros i d H. destruct (Tn _ H) as (it & q & a & Ni & Al & Tu). cbn [fst snd] in *. destruct (nth_error fs i) as [f|] eqn:Ef.
      - exists it, q, f. split; [exact Ni|]. split; [reflexivity|]. split; [exact (Hi _ _ _ _ Ni Ef)|]. eauto.
      - exfalso. apply nth_error_None in Ef. rewrite L in Ef. apply nth_error_Some_lt in Ni. lia. }
    assert (Cv : forall x d p, In (fst x, d) pl -> snd x = out d (pre (fst x)) (bn_pre b) -> occupies fs x p -> covers items (fst x, d) (tr_point (N := RNum) (bn_pre b) p)).
    { intros x d p Hx Ed (f & Ef & Rp). destruct (Kn _ _ Hx) as (it & q & f' & Ni & Ef' & Fi & _). rewrite Ef in Ef'. injection Ef' as <-.
      exists it, q. split; [exact Ni|]. cbn [snd]. destruct Fi as (dx & dy & (Ea & _) & Mt & Sh & _). unfold moved. rewrite Ea.
      rewrite Ed in Rp. exact (out_region d _ _ dx dy _ p Mt Mb Sh Rp). }
    assert (Ex : In (hazard_new BinExterior (bn_outer b)) (bin_statics b)) by (left; reflexivity).
    split.
    - intros x Hx. apply exported_in in Hx as (d & Hx & _). destruct (Kn _ _ Hx) as (it & q & f & _ & Ef & _). apply nth_error_Some_lt in Ef. exact Ef.
    - intros i j x y p Hx Hy Ne Ox Oy. apply exported_nth in Hx as (d & Hx & Ed). apply exported_nth in Hy as (e & Hy & Ee).
      apply Ne. rewrite NoDup_nth_error in Nd. apply Nd; [apply nth_error_Some_lt in Hx; exact Hx|]. rewrite Hx, Hy. f_equal.
      apply (Ap _ _ (tr_point (N := RNum) (bn_pre b) p)); [eapply nth_error_In; exact Hx|eapply nth_error_In; exact Hy| |].
      + exact (Cv x d p (nth_error_In _ _ Hx) Ed Ox).
      + exact (Cv y e p (nth_error_In _ _ Hy) Ee Oy).
    - intros x p Hx Ox. apply exported_in in Hx as (d & Hx & Ed). destruct (Kn _ _ Hx) as (it & q & f & Ni & _).
      assert (Nb : ~ blocked (fact_of (hazard_new (D := dtransf R) BinExterior (bn_outer b))) (tr_point (N := RNum) (bn_pre b) p)).
      { apply (St (fst x, d) it q _ _ Hx Ni Ex); [|exact (Cv x d p Hx Ed Ox)]. intros (k & i & E & _). discriminate E. }
      rewrite Sb in Nb. unfold blocked in Nb. cbn [fact_of f_ent f_poly fst snd hazard_new h_ent h_shape ent_position] in Nb.
      destruct Ho as (Eo & _). rewrite Eo in Nb. apply (interior_shift bx by'). split; [tauto|].
      destruct (even_odd _ _); [reflexivity|]. exfalso. tauto.
    - intros x h p Hx Hh' Ox Rp. apply exported_in in Hx as (d & Hx & Ed). destruct (Kn _ _ Hx) as (it & q & f & Ni & _).
      destruct (Hh _ Hh') as (k & hz & Hs & Eh & (Ea & _)).
      assert (Nb : ~ blocked (fact_of hz) (tr_point (N := RNum) (bn_pre b) p)).
      { apply (St (fst x, d) it q _ _ Hx Ni Hs); [|exact (Cv x d p Hx Ed Ox)]. intros (k' & i & E & _). rewrite Eh in E. discriminate E. }
      apply Nb. unfold blocked. cbn [fact_of f_ent f_poly fst snd]. rewrite Eh. cbn [ent_position]. rewrite Ea, Sb. apply region_shift. exact Rp.
    - intros x i q' z p Hx Ni' Hz' Ng Ox Rp. apply exported_in in Hx as (d & Hx & Ed). destruct (Kn _ _ Hx) as (it & q & f & Ni & Ef & Fi & _).
      rewrite Ni' in Ef. injection Ef as <-. destruct Fi as (dx & dy & _ & _ & _ & _ & Eq).
      destruct (Hz _ _ Hz') as (k & hz & Hs & Eh & (Ea & _)).
      assert (Nb : ~ blocked (fact_of hz) (tr_point (N := RNum) (bn_pre b) p)).
      { apply (St (fst x, d) it q _ _ Hx Ni Hs); [|exact (Cv x d p Hx Ed Ox)]. intros (k' & i' & E & Tq). rewrite Eh in E. injection E as <- <-. rewrite Eq in Tq. exact (Ng Tq). }
      apply Nb. unfold blocked. cbn [fact_of f_ent f_poly fst snd]. rewrite Eh. cbn [ent_position]. rewrite Ea, Sb. apply region_shift. exact Rp.
    - intros x i Hx Ni'. apply exported_in in Hx as (d & Hx & Ed). destruct (Kn _ _ Hx) as (it & q & f & Ni & Ef & Fi & a & Al & Tu).
      rewrite Ni' in Ef. injection Ef as <-. destruct Fi as (dx & dy & _ & Mt & Sh & An & _). exists a. split; [exact (An a Al)|].
      destruct (out_turn d _ _ dx dy bx by' Mt Mb Sh Sb) as (C & D). rewrite Ed, C, D. destruct Tu as (T0 & _ & T1 & _). split; [exact T0|exact T1].
  Qed.

  (** *** the hazards of a bin *)
  Lemma combine_seq_in : forall {A} (l : list A) n i x, nth_error l i = Some x -> In (n + i, x)%nat (combine (seq n (length l)) l).
  Proof.
    induction l as [|y l IH]; intros n [|i] x H; try discriminate; cbn [length seq combine].
    - injection H as ->. left. rewrite Nat.add_0_r. reflexivity.
    - right. rewrite Nat.add_succ_r. exact (IH (S n) i x H).
  Qed.
  Lemma in_combine_seq : forall {A} (l : list A) n i x, In (i, x) (combine (seq n (length l)) l) -> In x l.
  Proof. intros A l n i x H. apply in_combine_r in H. exact H. Qed.
  Lemma arcs_find : forall (P : list rpoint -> poly R -> Prop) mk os (arcs : list (arc R)) o, Forall2 P os (map (@a_obj R) arcs) -> In o os ->
    exists k hz, In hz (arcs_hazards (D := dtransf R) mk arcs) /\ h_ent hz = mk k /\ P o (a_obj (h_shape hz)).
  Proof.
    intros P mk os arcs o F Ho. apply In_nth_error in Ho as (n & Hn).
    assert (K : exists x, nth_error arcs n = Some x /\ P o (a_obj x)).
    { revert arcs n F Hn. induction os as [|o' os IH]; intros [|x arcs] n F Hn; cbn [map] in F; inversion F; subst; destruct n; try discriminate.
      - injection Hn as ->. exists x. split; [reflexivity|assumption].
      - exact (IH arcs n H4 Hn). }
    destruct K as (x & Hx & Px). exists n, (hazard_new (mk n) x). split; [|split; [reflexivity|exact Px]].
    unfold arcs_hazards. apply in_map_iff. exists (n, x). split; [reflexivity|]. exact (combine_seq_in arcs 0 n x Hx).
  Qed.
  Lemma arcs_all : forall (P : list rpoint -> poly R -> Prop) mk os (arcs : list (arc R)) hz, Forall2 P os (map (@a_obj R) arcs) ->
    In hz (arcs_hazards (D := dtransf R) mk arcs) -> exists o, In o os /\ P o (a_obj (h_shape hz)).
  Proof.
    intros P mk os arcs hz F H. unfold arcs_hazards in H. apply in_map_iff in H as ([i x] & <- & H). apply in_combine_seq in H.
    apply (in_map (@a_obj R)) in H. destruct (F2_in_r _ _ _ _ F H) as (o & Ho & Po). exists o. auto.
  Qed.
  Section B.
    Variables (j : jbin R) (id : nat) (b : bin) (dx dy : R) (c : fbin).
    Hypothesis Rd : bin_reads tol j id b dx dy (fb_outer c) (fb_holes c) (fb_zones c).
    Lemma reads_holes : forall h, In h (fb_holes c) -> exists k hz, In hz (bin_statics b) /\ h_ent hz = BinHole k /\ at_shift dx dy h (a_obj (h_shape hz)).
    Proof.
      intros h Hh. destruct (arcs_find _ (fun i => BinHole i) _ _ h (br_holes _ _ _ _ _ _ _ _ _ Rd) Hh) as (k & hz & A & B & C). exists k, hz.
      split; [|auto]. right. apply in_or_app. left. exact A.
    Qed.
    Lemma reads_zones : forall q z, In (q, z) (fb_zones c) -> exists k hz, In hz (bin_statics b) /\ h_ent hz = InferiorQualityZone q k /\ at_shift dx dy z (a_obj (h_shape hz)).
    Proof.
      intros q z Hz. destruct (br_zones _ _ _ _ _ _ _ _ _ Rd) as (l & El & Eq & K). pose proof (br_qualities _ _ _ _ _ _ _ _ _ Rd _ Hz) as Lq. cbn [fst] in Lq.
      assert (Hq : In q (map (@qz_quality R) l)) by (rewrite Eq; apply in_seq; lia). apply in_map_iff in Hq as (y & Ey & Hy).
      specialize (K y Hy). rewrite Ey in K.
      destruct (arcs_find _ (fun i => InferiorQualityZone (qz_quality y) i) _ _ z K) as (k & hz & A & B & C).
      { apply in_map_iff. exists (q, z). split; [reflexivity|]. apply filter_In. split; [exact Hz|]. apply Nat.eqb_refl. }
      exists k, hz. rewrite Ey in B. split; [|auto]. right. apply in_or_app. right. apply in_flat_map. exists y. split; [|exact A].
      rewrite El. rewrite omap_some. exact Hy.
    Qed.
    Lemma reads_all : forall hz, In hz (bin_statics b) -> exists o, at_shift dx dy o (a_obj (h_shape hz)) /\
      (o = fb_outer c \/ In o (fb_holes c) \/ exists q, In (q, o) (fb_zones c)).
    Proof.
      intros hz [<-|H].
      - exists (fb_outer c). split; [exact (br_outer _ _ _ _ _ _ _ _ _ Rd)|auto].
      - apply in_app_or in H as [H|H].
        + destruct (arcs_all _ _ _ _ hz (br_holes _ _ _ _ _ _ _ _ _ Rd) H) as (o & A & B). exists o. auto.
        + apply in_flat_map in H as (y & Hy & H). destruct (br_zones _ _ _ _ _ _ _ _ _ Rd) as (l & El & Eq & K). rewrite El, omap_some in Hy.
          destruct (arcs_all _ _ _ _ hz (K y Hy) H) as (o & A & B). exists o. split; [exact B|]. right. right.
          apply in_map_iff in A as ([q z] & <- & A). apply filter_In in A as (A & _). exists q. exact A.
    Qed.
    Lemma reads_fine : no_spikes (fb_outer c) -> (forall h, In h (fb_holes c) -> no_spikes h) -> (forall z, In z (fb_zones c) -> no_spikes (snd z)) ->
      Forall (fun h => good_shape (a_obj (h_shape h))) (bin_statics b).
    Proof.
      intros C1 C2 C3. apply Forall_forall. intros hz H. destruct (reads_all hz H) as (o & A & [->|[B|(q & B)]]); eapply at_shift_good; try exact A; auto.
      exact (C3 _ B).
    Qed.
  End B.
  Lemma fine_good : forall b : bin, (exists id' outer value pre holes zs c, bin_new id' outer value pre holes zs c = Ok b) ->
    Forall (fun h => good_shape (a_obj (h_shape h))) (bin_statics b) -> good_bin b.
  Proof.
    intros b Hn H. split; [exact Hn|]. eapply Forall_impl; [|exact H]. intros hz Gs. exact (good_wf _ Gs).
  Qed.

  (** *** reading a file *)
  Lemma pre_nth : forall (xs : list (item * transf R * nat)) i it pre d, nth_error xs i = Some (it, pre, d) -> pre_of (map (fun x => snd (fst x)) xs) i = pre.
  Proof.
    intros xs i it pre d H. unfold pre_of. apply (map_nth_error (fun x => snd (fst x))) in H. exact (nth_error_nth _ _ _ H).
  Qed.
  Definition items_ok (l : list (jitem R)) (items : list (item * nat)) (pres : list (transf R)) (fs : list fitem) : Prop :=
    Forall2 (item_of_file tol) l fs /\ length items = length l /\ length pres = length l /\
    forall i j, nth_error l i = Some j -> exists it f dx dy, nth_error items i = Some (it, ji_demand j) /\ nth_error fs i = Some f /\
      item_reads tol j i it (pre_of pres i) dx dy (fi_outline f) /\ fi_orient f = ji_orient j /\ fi_quality f = ji_quality j /\ item_centred it dx dy.
  Definition bins_ok (l : list (jbin R)) (bins : list (bin * nat)) (cs : list fbin) : Prop :=
    Forall2 (bin_of_file tol) l cs /\ length bins = length l /\
    forall i j, nth_error l i = Some j -> exists b c dx dy, nth_error bins i = Some (b, stock_of j) /\ nth_error cs i = Some c /\
      bin_reads tol j i b dx dy (fb_outer c) (fb_holes c) (fb_zones c) /\ bin_centred b dx dy /\
      exists id' outer value pre holes zs c, bin_new id' outer value pre holes zs c = Ok b.
  Lemma parse_inv : forall j ptr inst pres, parse umax pr j ptr = Ok (inst, pres) ->
    exists fs, items_ok (jn_items j) (inst_items inst) pres fs /\
    match inst with
    | IBP i => exists bs bins cs, jn_bins j = Some bs /\ jn_strip j = None /\ bpinst_new (inst_items inst) bins = Ok i /\ bins_ok bs bins cs
    | ISP i => exists h, jn_bins j = None /\ jn_strip j = Some h /\ spinst_new (inst_items inst) h = Ok i
    end.
  Proof.
    intros j ptr inst pres H. unfold parse in H. apply rbind_ok in H as (xs & Ex & H). destruct (items_inv _ _ _ Ex) as (fs & F & L & K).
    set (items := map (fun x => (fst (fst x), snd x)) xs) in *.
    assert (I : items_ok (jn_items j) items (map (fun x => snd (fst x)) xs) fs).
    { split; [exact F|]. unfold items. rewrite !map_length. split; [exact L|]. split; [exact L|]. intros i jj Hj. destruct (K i jj Hj) as (it & pre & f & dx & dy & E & A).
      exists it, f, dx, dy. rewrite (pre_nth _ _ _ _ _ E). split; [|exact A]. rewrite nth_error_map, E. reflexivity. }
    exists fs. destruct (jn_bins j) as [bs|], (jn_strip j) as [h|]; try discriminate.
    - apply rbind_ok in H as (bins & Eb & H). apply rbind_ok in H as (i & Ei & H). injection H as <- <-.
      cbn [inst_items]. destruct (inst_lists M _ _ _ Ei) as (E1 & E2). rewrite E1. split; [exact I|]. destruct (bins_inv _ _ _ _ Eb) as (cs & C). exists bs, bins, cs. auto.
    - apply rbind_ok in H as (i & Ei & H). injection H as <- <-. cbn [inst_items].
      assert (E1 : si_items i = items) by (unfold spinst_new in Ei; apply rbind_ok in Ei as (u & _ & Ei); injection Ei as <-; reflexivity).
      rewrite E1. split; [exact I|]. exists h. auto.
  Qed.

  Lemma items_fit : forall l items pres fs, items_ok l items pres fs -> length fs = length items /\
    forall i it q f, nth_error items i = Some (it, q) -> nth_error fs i = Some f -> item_fits it f (pre_of pres i).
  Proof.
    intros l items pres fs (F & L & _ & K). split; [rewrite L; symmetry; clear - F; induction F; cbn [length]; congruence|]. intros i it q f Hi Hf.
    destruct (nth_error l i) as [j|] eqn:Ej; [|exfalso; apply nth_error_None in Ej; apply nth_error_Some_lt in Hi; lia].
    destruct (K i j Ej) as (it' & f' & dx & dy & Hi' & Hf' & Rd & Eo & Eq & _). rewrite Hi in Hi'. injection Hi' as <- _. rewrite Hf in Hf'. injection Hf' as <-.
    exists dx, dy. split; [exact (ir_shape _ _ _ _ _ _ _ _ Rd)|]. split; [exact (ir_motion _ _ _ _ _ _ _ _ Rd)|]. split; [exact (ir_pre _ _ _ _ _ _ _ _ Rd)|]. split.
    - intros a A. rewrite Eo. apply (ir_turns _ _ _ _ _ _ _ _ Rd). exact A.
    - rewrite Eq. exact (ir_quality _ _ _ _ _ _ _ _ Rd).
  Qed.
  Lemma items_fine : forall l items pres fs, items_ok l items pres fs -> clean_items fs -> fine_items items.
  Proof.
    intros l items pres fs I C. destruct (items_fit _ _ _ _ I) as (L & K). apply Forall_forall. intros [it q] H. apply In_nth_error in H as (i & Hi).
    destruct (nth_error fs i) as [f|] eqn:Ef; [|exfalso; apply nth_error_None in Ef; apply nth_error_Some_lt in Hi; lia].
    destruct (K _ _ _ _ Hi Ef) as (dx & dy & A & _). eapply at_shift_good; [exact A|]. apply C. eapply nth_error_In. exact Ef.
  Qed.
  Lemma items_motion : forall l items pres fs, items_ok l items pres fs -> forall i, motion (pre_of pres i).
  Proof.
    intros l items pres fs (F & L & Lp & K) i. destruct (nth_error l i) as [j|] eqn:Ej.
    - destruct (K i j Ej) as (it & f & dx & dy & _ & _ & Rd & _). exact (ir_motion _ _ _ _ _ _ _ _ Rd).
    - apply nth_error_None in Ej. unfold pre_of. rewrite nth_overflow by (rewrite Lp; exact Ej). exact empty_affine.
  Qed.
  Lemma bins_nth : forall l bins cs i b n, bins_ok l bins cs -> nth_error bins i = Some (b, n) ->
    exists j c dx dy, nth_error l i = Some j /\ n = stock_of j /\ nth_error cs i = Some c /\ bin_reads tol j i b dx dy (fb_outer c) (fb_holes c) (fb_zones c) /\
      exists id' outer value pre holes zs c, bin_new id' outer value pre holes zs c = Ok b.
  Proof.
    intros l bins cs i b n (F & L & K) Hi. destruct (nth_error l i) as [j|] eqn:Ej; [|exfalso; apply nth_error_None in Ej; apply nth_error_Some_lt in Hi; lia].
    destruct (K i j Ej) as (b' & c & dx & dy & Hi' & Hc & Rd & _ & Nw). rewrite Hi in Hi'. injection Hi' as <- ->. exists j, c, dx, dy. auto.
  Qed.
  Lemma bins_fine : forall l bins cs, bins_ok l bins cs -> clean_bins cs -> fine_bins bins /\ Forall (fun b => good_bin (fst b)) bins.
  Proof.
    intros l bins cs B C. assert (K : forall x, In x bins -> Forall (fun h => good_shape (a_obj (h_shape h))) (bin_statics (fst x)) /\ good_bin (fst x)).
    { intros [b n] H. apply In_nth_error in H as (i & Hi). destruct (bins_nth _ _ _ _ _ _ B Hi) as (j & c & dx & dy & _ & _ & Hc & Rd & Nw).
      destruct (C c (nth_error_In _ _ Hc)) as (C1 & C2 & C3). pose proof (reads_fine _ _ _ _ _ _ Rd C1 C2 C3) as Fn. split; [exact Fn|]. apply fine_good; assumption. }
    split; apply Forall_forall; intros x Hx; apply K; exact Hx.
  Qed.

  (** *** end to end *)
  Lemma exported_ids : forall pre (b : bin) pl, map fst (exported pre b pl) = map fst pl.
  Proof. intros. unfold exported. rewrite map_map. reflexivity. Qed.
  Theorem e2e_bins : forall j ptr inst pres, parse umax pr j ptr = Ok (IBP inst, pres) ->
    exists bs fs cs, jn_bins j = Some bs /\ Forall2 (item_of_file tol) (jn_items j) fs /\ Forall2 (bin_of_file tol) bs cs /\
      (clean_items fs -> clean_bins cs -> forall cfg (g : G) ptr' p s p', lbf_bp inst cfg g ptr' = Ok (p, s, p') ->
       exists js, bp_export (pre_of pres) inst s = Ok js /\
         Forall (fun l => exists k c, jl_container l = JBin k /\ nth_error cs k = Some c /\ packs fs c (jl_items l) /\ jl_items l <> []) (js_layouts js) /\
         (forall i ji, nth_error (jn_items j) i = Some ji -> (item_copies i (js_layouts js) <= ji_demand ji)%nat) /\
         (forall b jb, nth_error bs b = Some jb -> (bins_used b (js_layouts js) <= stock_of jb)%nat)).
  Proof.
    intros j ptr inst pres H. destruct (parse_inv _ _ _ _ H) as (fs & I & bs & bins & cs & Eb & _ & Hn & B). cbn [inst_items] in *.
    exists bs, fs, cs. split; [exact Eb|]. split; [exact (proj1 I)|]. split; [exact (proj1 B)|]. intros Ci Cb cfg g ptr' p s p' Hr.
    pose proof (items_fine _ _ _ _ I Ci) as Fi. destruct (bins_fine _ _ _ B Cb) as (Fb & Gb). destruct (items_fit _ _ _ _ I) as (Lf & Kf).
    destruct (lbf_packs M BSok _ _ _ _ _ _ _ _ _ Hn Gb Fi Fb Hr) as (Pk & Cn & St).
    eexists. split; [apply export_ok|].
    { apply Forall_forall. intros i Hi. apply in_flat_map in Hi as (x & Hx & Hi). apply in_map_iff in Hx as (sn & <- & Hx).
      rewrite Forall_forall in Pk. destruct (Pk sn Hx) as ((_ & _ & _ & Tn) & _). 
      assert (Hs : exists d, In (i, d) (snap_placed sn)).
      { unfold c_list in Hi. cbn [snap_content snd] in Hi. apply in_map_iff in Hi as (pi & <- & Hi). exists (pi_dt pi). unfold snap_placed. apply in_map_iff. exists pi. auto. }
      destruct Hs as (d & Hs). destruct (Tn _ Hs) as (it & q & a & Ni & _). apply nth_error_Some_lt in Ni. exact Ni. }
    cbn [js_layouts]. split; [|split].
    - rewrite Forall_map. eapply Forall_impl; [|exact Pk]. intros sn (P & Hb & Ne). cbn [jl_container jl_items].
      apply in_map_iff in Hb as ([b n] & E & Hb). cbn [fst] in E. subst b. apply In_nth_error in Hb as (k & Hk).
      destruct (bins_nth _ _ _ _ _ _ B Hk) as (jb & c & dx & dy & _ & _ & Hc & Rd & _).
      exists k, c. split; [rewrite (br_id _ _ _ _ _ _ _ _ _ Rd); reflexivity|]. split; [exact Hc|]. split.
      + unfold packs. eapply packed_packing; [exact Lf|exact Kf|exact (br_motion _ _ _ _ _ _ _ _ _ Rd)|exact (br_pre _ _ _ _ _ _ _ _ _ Rd)|
          exact (br_outer _ _ _ _ _ _ _ _ _ Rd)|exact (reads_holes _ _ _ _ _ _ Rd)|exact (reads_zones _ _ _ _ _ _ Rd)|exact P].
      + intros E. apply Ne. unfold exported in E. apply map_eq_nil in E. exact E.
    - intros i ji Hj. destruct I as (_ & _ & _ & K). destruct (K i ji Hj) as (it & f & dx & dy & Hi & _). specialize (Cn _ _ _ Hi).
      unfold item_copies. rewrite flat_map_concat_map, map_map in *. cbn [jl_items]. unfold count, sol_items in Cn. rewrite flat_map_concat_map in Cn.
      erewrite map_ext; [exact Cn|]. intros sn. cbn beta. apply exported_ids.
    - intros b jb Hj. destruct B as (_ & _ & K). destruct (K b jb Hj) as (bb & c & dx & dy & Hb & _). specialize (St _ _ _ Hb).
      unfold bins_used. unfold count in St. clear - St. revert St. generalize (stock_of jb). induction (so_layouts s) as [|sn l IH]; intros n St; cbn [map filter] in *; [exact St|].
      cbn [jl_container]. destruct (Nat.eqb b (bn_id (ls_bin sn))); cbn [length] in *; [|exact (IH n St)].
      destruct n; [lia|]. specialize (IH n ltac:(lia)). lia.
  Qed.
End P.
