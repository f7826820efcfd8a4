(** Runs of the reference optimizer on bin packing instances do not panic. *)
From Coq Require Import List Bool Arith ZArith Lia Permutation.
From Verif Require Import Base Num GeoModel HazardModel QTModel TransfModel HpgModel CdeModel CdeSpec
  PolyModel SlotMapModel LayoutModel ProblemModel ProblemSpec LbfModel BaseProofs HazVecProofs QTProofs CdeProofs CdeOpsProofs CdeHistProofs CdeThmProofs SlotMapProofs ProblemProofs
  ProblemOpsProofs ProblemThmProofs LayoutProofs MirrorProofs Instances RigidProofs XformProofs RegionProofs GeoPrimProofs GeoRectProofs CdeGeoProofs CdeGeoThmProofs
  ParityProofs NormProofs HpgSpec LbfSpec LbfProofs LbfRunProofs LbfSamplerProofs LbfHistProofs LbfTotalProofs LbfBpProofs LbfThmProofs.
From Coq Require Import Reals Lra.
From Verif Require Import GeoModel HazardModel QTModel TransfModel HpgModel CdeModel CdeSpec GeoSpec PlaceSpec HpgSpec ShapeSpec LbfModel LbfSpec.
Import ListNotations.
Local Open Scope nat_scope.

Section L.
  Variable M : R.
  #[local] Instance NLY : Num R := RNumT Reqb M.
  #[local] Existing Instance RTrig.
  Context {ED : EqD (dtransf R)} {BS : BSearch}.
  Hypothesis BSok : bsearch_ok BS.
  Context {G : Type} {RG : Rng R G} {X : Extra R}.
  Hypothesis Pow : sane_extra X.
  Local Notation dtransf := (dtransf R).
  Local Notation layout := (layout R dtransf).
  Local Notation bp := (bp R dtransf).
  Variable inst : bpinst R dtransf.
  Hypothesis Ids : ids_ok inst.
  Hypothesis Snd : Forall (fun x => sound_item M (fst x)) (bi_items inst).
  Local Notation items := (bi_items inst).

  Context {h : list (solution R dtransf)}.
  Definition TIH (p : bp) : Prop :=
    BInv inst p h /\ PInv M inst p /\ no_debt p /\ Forall (HL M items) (bp_layouts p) /\ Forall (HL M items) (bp_templates p).

  Lemma find_total : forall ls it q cfg g, Forall (fun x => HL M items (snd x)) ls -> nth_error items (it_id it) = Some (it, q) -> lc_local cfg <= lc_samples cfg ->
    exists o g', find_placement ls it cfg g = Ok (o, g').
  Proof.
    induction ls as [|[li l] ls IH]; intros it q cfg g H Ni Lc; cbn [find_placement]; [eauto|]. inversion H as [|? ? H1 H2]; subst. cbn [snd] in H1.
    destruct (sample_total M BSok Pow items Snd li l it q cfg g H1 Ni Lc) as (o & g' & dr & E).
    assert (E' : sample_layout li l it cfg g = Ok (o, g', dr)) by exact E. rewrite E'. cbn [rbind]. destruct o as [o|]; [eauto|]. exact (IH it q cfg g' H2 Ni Lc).
  Qed.
  Lemma template_bin : forall p t l, BInv inst p h -> nth_error (bp_templates p) t = Some l -> bn_id (ly_bin l) < length (bp_bins p).
  Proof.
    intros p t l I Hl. rewrite (b_tmpl _ _ _ I) in Hl. apply nth_template in Hl as (b & q & Hb & ->). cbn [layout_new ly_bin].
    rewrite (proj2 Ids _ _ _ Hb). rewrite (proj1 (b_stock _ _ _ I)), map_length. apply nth_error_Some. congruence.
  Qed.
  Lemma candidates_total : forall p, BInv inst p h -> exists ls, bp_candidates p = Ok ls /\
    forall li l, In (li, l) ls -> match li with Real _ => True | Template t => exists n, nth_error (bp_bins p) (bn_id (ly_bin l)) = Some (S n) end.
  Proof.
    intros p I. unfold bp_candidates, templates_with_stock.
    assert (K : forall xs, (forall x, In x xs -> nth_error (bp_templates p) (fst x) = Some (snd x)) ->
      exists os, rmapM (fun x => q <- expect (nth_error (bp_bins p) (bn_id (ly_bin (snd x)))) ;; Ok (match q with 0 => None | _ => Some (Template (fst x)) end)) xs = Ok os /\
        forall li, In li (omap (fun x => x) os) -> exists t l n, li = Template t /\ nth_error (bp_templates p) t = Some l /\ nth_error (bp_bins p) (bn_id (ly_bin l)) = Some (S n)).
    { induction xs as [|[t l] xs IH]; intros H; cbn [rmapM].
      - exists []. split; [reflexivity|]. intros li [].
      - pose proof (H _ (or_introl eq_refl)) as Ht. cbn [fst snd] in *. pose proof (template_bin p t l I Ht) as Lt.
        destruct (nth_error (bp_bins p) (bn_id (ly_bin l))) as [n|] eqn:En; [|apply nth_error_None in En; lia]. cbn [expect rbind].
        destruct IH as (os & Eo & Ho); [intros x Hx; apply H; right; exact Hx|]. rewrite Eo. cbn [rbind]. eexists. split; [reflexivity|].
        destruct n as [|n]; cbn [omap]; [exact Ho|]. intros li [<-|Hl]; [|exact (Ho li Hl)]. exists t, l, n. auto. }
    destruct (K (combine (seq 0 (length (bp_templates p))) (bp_templates p))) as (os & Eo & Ho).
    { intros [t l] Hx. cbn [fst snd]. clear -Hx. apply In_nth_error in Hx as (i & Hi).
      destruct (nth_error (bp_templates p) i) as [l'|] eqn:El.
      - pose proof (nth_combine_seq (bp_templates p) 0 i l' El) as C. cbn in C. rewrite Hi in C. injection C as -> ->. exact El.
      - apply nth_error_None in El. assert (nth_error (combine (seq 0 (length (bp_templates p))) (bp_templates p)) i = None) as Hn.
        { apply nth_error_None. rewrite combine_length, seq_length, Nat.min_id. exact El. } congruence. }
    rewrite Eo. cbn [rbind].
    assert (L : forall xs, (forall li, In li xs -> exists l, target p li = Some l) ->
      exists ls, rmapM (fun li => l <- bp_get_layout p li ;; Ok (li, l)) xs = Ok ls /\ forall li l, In (li, l) ls -> In li xs /\ target p li = Some l).
    { induction xs as [|li xs IH]; intros H; cbn [rmapM].
      - exists []. split; [reflexivity|]. intros li l [].
      - destruct (H li (or_introl eq_refl)) as (l & El). assert (Eg : bp_get_layout p li = Ok l) by (destruct li; cbn [bp_get_layout target] in *; rewrite El; reflexivity).
        rewrite Eg. cbn [rbind]. destruct IH as (ls & Els & Hls); [intros x Hx; apply H; right; exact Hx|]. rewrite Els. cbn [rbind]. eexists. split; [reflexivity|].
        intros li' l' [Ex|Hx]; [injection Ex as <- <-; split; [left; reflexivity|exact El]|]. apply Hls in Hx as (A & B). split; [right; exact A|exact B]. }
    destruct (L (map Real (seq 0 (length (bp_layouts p))) ++ omap (fun x => x) os)) as (ls & Els & Hls).
    { intros li Hli. apply in_app_or in Hli as [Hli|Hli].
      - apply in_map_iff in Hli as (j & <- & Hj). apply in_seq in Hj. cbn [target]. destruct (nth_error (bp_layouts p) j) as [l|] eqn:E; [eauto|]. apply nth_error_None in E. lia.
      - destruct (Ho li Hli) as (t & l & n & -> & Et & _). cbn [target]. eauto. }
    exists ls. split; [exact Els|]. intros li l Hin. apply Hls in Hin as (A & B). destruct li as [j|t]; [exact Logic.I|].
    apply in_app_or in A as [A|A]; [apply in_map_iff in A as (j & Ej & _); discriminate|]. destruct (Ho _ A) as (t' & l' & n & Et & El & En).
    injection Et as <-. cbn [target] in B. rewrite El in B. injection B as <-. eauto.
  Qed.
  Lemma target_HL : forall p li l, TIH p -> target p li = Some l -> HL M items l.
  Proof.
    intros p [i|t] l (_ & _ & _ & Hl & Ht) E; cbn [target] in E; apply nth_error_In in E.
    - rewrite Forall_forall in Hl. exact (Hl l E).
    - rewrite Forall_forall in Ht. exact (Ht l E).
  Qed.
  Lemma fine_of : fine_items items.
  Proof. exact (Gi M items Snd). Qed.
  (** a placement the search returned is carried out *)
  Lemma place_total : forall p o ptr m, TIH p -> checked p o -> nth_error (bp_missing p) (po_item o) = Some m -> (0 < m)%Z ->
    match po_layout o with Real _ => True | Template t => forall l, target p (Template t) = Some l -> exists n, nth_error (bp_bins p) (bn_id (ly_bin l)) = Some (S n) end ->
    exists r p', bp_place p o ptr = Ok (r, p') /\ TIH p'.
  Proof.
    intros p o ptr m T Ch Em Pm St. pose proof T as (I & Pi & Nd & Hl & Ht). pose proof Ch as (l & it & q & irr & Tg & Ni & Tl & Ps & Tn).
    pose proof (target_HL p _ l T Tg) as HLl. rewrite (b_inst _ _ _ I) in Ni. pose proof (proj1 Ids _ _ _ Ni) as Eid.
    assert (Nin : ~ In (po_item o, po_dt o) (placed l)).
    { pose proof HLl as (L & Bf & _). assert (Pk : packed items (ly_bin l) (placed l)).
      { destruct Pi as [_ _ Pk Em']. destruct (po_layout o) as [j|t]; cbn [target] in Tg; apply nth_error_In in Tg.
        - rewrite Forall_forall in Pk. exact (Pk l Tg).
        - rewrite Forall_forall in Em'. rewrite (Em' l Tg). exact (packed_nil M items (ly_bin l)). }
      exact (proj1 (packed_cons M items fine_of l it irr q _ _ L Bf Pk Ni Tl Ps Tn)). }
    assert (E1 : exists j p1 l1, match po_layout o with
        | Real i => Ok (i, p)
        | Template t => tl <- expect (nth_error (bp_templates p) t) ;;
            bp_register_layout (BP (bp_inst p) (bp_layouts p) (bp_templates p) (bp_missing p) (bp_bins p) (S (bp_lctr p)) (bp_sctr p) (bp_unmod p) (bp_ref p) (bp_removed p)) (clone_with_id tl (S (bp_lctr p)))
        end = Ok (j, p1) /\ nth_error (bp_layouts p1) j = Some l1 /\ HL M items l1 /\ placed l1 = placed l /\ bp_inst p1 = bp_inst p /\ bp_missing p1 = bp_missing p /\ bp_templates p1 = bp_templates p /\ Forall (HL M items) (bp_layouts p1)).
    { destruct (po_layout o) as [j|t]; cbn [target] in Tg.
      - exists j, p, l. repeat (split; [auto; fail|]). exact Hl.
      - rewrite Tg. cbn [expect rbind]. unfold bp_register_layout. destruct (St l Tg) as (n & En). cbn [bp_bins bp_layouts bp_missing]. unfold register_bin.
        assert (En' : nth_error (bp_bins p) (bn_id (ly_bin (clone_with_id l (S (bp_lctr p))))) = Some (S n)) by exact En. rewrite En'. cbn [expect rbind].
        destruct Pi as [_ _ _ Em']. rewrite Forall_forall in Em'. pose proof (Em' l ltac:(eapply nth_error_In; exact Tg)) as Pl0.
        assert (V0 : sm_values (ly_items (clone_with_id l (S (bp_lctr p)))) = []) by (unfold placed in Pl0; apply map_eq_nil in Pl0; exact Pl0). rewrite V0. cbn [map rfold rbind].
        eexists _, _, (clone_with_id l (S (bp_lctr p))). split; [reflexivity|]. cbn [bp_layouts bp_inst bp_missing bp_templates]. 
        split; [rewrite nth_error_app2, Nat.sub_diag by lia; reflexivity|]. split; [apply HL_clone; exact HLl|]. split; [reflexivity|]. split; [reflexivity|]. split; [reflexivity|]. split; [reflexivity|].
        apply Forall_app. split; [exact Hl|]. constructor; [apply HL_clone; exact HLl|constructor]. }
    destruct E1 as (j & p1 & l1 & E1 & El & H1 & Pl & Ei & Emi & Etm & Hl1).
    rewrite <- Pl in Nin. rewrite <- Eid in Ni, Nin. destruct (HL_place M BSok items Snd l1 it q (po_dt o) ptr H1 Ni Nin) as (k & l' & Epl & H').
    assert (E : exists r p', bp_place p o ptr = Ok (r, p') /\ bp_layouts p' = vset j l' (bp_layouts p1) /\ bp_templates p' = bp_templates p).
    { unfold bp_place. rewrite E1. cbn [rbind]. rewrite El. cbn [expect rbind]. rewrite Ei, (b_inst _ _ _ I). unfold item_of. rewrite <- Eid, Ni. cbn [expect rbind fst].
      assert (Epl' : layout_place l1 it (po_dt o) ptr = Ok (k, l')) by exact Epl. rewrite Epl'. cbn [rbind]. unfold register_included, missing_add. rewrite Emi, Eid, Em. cbn [expect rbind].
      eexists _, _. split; [reflexivity|]. cbn [bp_layouts bp_templates]. auto. }
    destruct E as (r & p' & E & L1 & L2). exists r, p'. split; [exact E|].
    split; [exact (place_inv _ _ _ _ _ _ _ Ids I E)|]. split; [exact (proj1 (place_PI M BSok inst p o ptr r p' Ids fine_of Pi Ch E))|]. split.
    - destruct (place_missing M _ _ _ _ _ _ _ I E) as (x & Ex & Em1). rewrite Em in Ex. injection Ex as <-. exact (place_nonneg _ _ _ _ Nd Em Pm Em1).
    - rewrite L1, L2. split; [apply vset_forall; assumption|exact Ht].
  Qed.
  Lemma fill_total : forall cfg i it q, nth_error items i = Some (it, q) -> lc_local cfg <= lc_samples cfg -> forall fuel p g ptr m,
    TIH p -> nth_error (bp_missing p) i = Some m -> Z.to_nat m <= fuel ->
    exists p' g' ptr', bp_fill fuel cfg i it (p, g, ptr) = Ok (p', g', ptr') /\ TIH p'.
  Proof.
    intros cfg i it q Hi Lc. pose proof (proj1 Ids _ _ _ Hi) as Eid. induction fuel as [|fuel IH]; intros p g ptr m T Em Lm; cbn [bp_fill]; rewrite Em; cbn [expect rbind];
      destruct (Z.ltb_spec 0 m) as [Pm|Pm]; try lia; eauto.
    pose proof T as (I & _). destruct (candidates_total p I) as (ls & Els & Stk). rewrite Els. cbn [rbind].
    assert (Ni : nth_error items (it_id it) = Some (it, q)) by (rewrite Eid; exact Hi).
    assert (Hls : Forall (fun x => HL M items (snd x)) ls).
    { rewrite Forall_forall. intros [li l] Hx. apply (proj1 (candidates_ok p ls Els)) in Hx. exact (target_HL p li l T Hx). }
    destruct (find_total ls it q cfg g Hls Ni Lc) as (o & g1 & Ef). rewrite Ef. cbn [rbind]. destruct o as [o|]; [|eauto].
    assert (Ef' := Ef). apply (find_placement_ok M) in Ef' as (li & l & irr & Hin & Tl & Eli & Eit & Ps & Tn). pose proof (Stk li l Hin) as Sl. apply (proj1 (candidates_ok p ls Els)) in Hin.
    assert (Ch : checked p o) by (exists l, it, q, irr; rewrite Eli, (b_inst _ _ _ I), Eit; repeat (split; [assumption|]); exact Tn).
    assert (Em' : nth_error (bp_missing p) (po_item o) = Some m) by (rewrite Eit, Eid; exact Em).
    destruct (place_total p o ptr m T Ch Em' Pm) as (r & p' & Ep & T').
    { rewrite Eli. destruct li as [j|t]; [exact Logic.I|]. intros l' El'. rewrite Hin in El'. injection El' as <-. exact Sl. }
    rewrite Ep. cbn [rbind]. destruct (place_missing M _ _ _ _ _ _ _ I Ep) as (x & Ex & Em1). rewrite Em' in Ex. injection Ex as <-.
    apply (IH p' g1 (S ptr) (m - 1)%Z T').
    - rewrite Em1, Eit, Eid. apply nth_error_vset_eq. apply nth_error_Some. congruence.
    - lia.
  Qed.
  Lemma fills_total : forall cfg, lc_local cfg <= lc_samples cfg -> forall is p g ptr, (forall i, In i is -> i < length items) -> TIH p ->
    exists p' g' ptr', rfold (bp_fill_item cfg) is (p, g, ptr) = Ok (p', g', ptr') /\ TIH p'.
  Proof.
    intros cfg Lc. induction is as [|i is IH]; intros p g ptr Hi T; cbn [rfold]; [eauto 6|].
    pose proof T as (I & _). assert (Li : i < length items) by (apply Hi; left; reflexivity).
    destruct (nth_error items i) as [[it q]|] eqn:Ei; [|apply nth_error_None in Ei; lia].
    pose proof (proj2 (proj2 (b_miss _ _ _ I)) _ _ _ Ei) as Em.
    unfold bp_fill_item at 1. cbn [fst]. rewrite (b_inst _ _ _ I). unfold item_of. rewrite Ei. cbn [expect rbind fst]. rewrite Em. cbn [expect rbind].
    destruct (fill_total cfg i it q Ei Lc _ p g ptr _ T Em (Nat.le_refl _)) as (p1 & g1 & ptr1 & E1 & T1). rewrite E1. cbn [rbind].
    apply IH; [|exact T1]. intros j Hj. apply Hi. right. exact Hj.
  Qed.
  Lemma create_ok : forall p, BInv inst p h -> Forall (HL M items) (bp_layouts p) -> exists s p', bp_create p None = Ok (s, p').
  Proof.
    intros p I Hl. unfold bp_create, placed_qtys. rewrite (b_inst _ _ _ I).
    assert (K : forall xs, (forall x, In x xs -> fst x < length items) -> exists r, rmapM (fun x : nat * Z => q <- item_qty items (fst x) ;; Ok (Z.of_nat q - snd x)%Z) xs = Ok r).
    { induction xs as [|[i z] xs IH]; intros H; cbn [rmapM]; [eauto|]. unfold item_qty at 1. pose proof (H _ (or_introl eq_refl)) as L. cbn [fst] in L.
      cbn [fst]. destruct (nth_error items i) as [[it q]|] eqn:Ei; [|apply nth_error_None in Ei; lia]. cbn [expect rbind snd].
      destruct IH as (r & Er); [intros x Hx; apply H; right; exact Hx|]. rewrite Er. cbn [rbind]. eauto. }
    destruct (K (combine (seq 0 (length (bp_missing p))) (bp_missing p))) as (pl & Epl).
    { intros [i z] Hx. apply in_combine_l in Hx. apply in_seq in Hx. cbn [fst]. rewrite (proj1 (b_miss _ _ _ I)) in Hx. lia. }
    rewrite Epl. cbn [rbind option_map].
    assert (L : forall ls, Forall (HL M items) ls -> exists sl, rmapM (bp_snapshot_layout (bp_unmod p) None) ls = Ok sl).
    { induction 1 as [|l ls H _ IH]; cbn [rmapM]; [eauto|]. cbn [bp_snapshot_layout]. destruct (HL_snapshot M BSok items l H) as (s & l' & E).
      assert (E' : layout_snapshot l = Ok (s, l')) by exact E. rewrite E'. cbn [rbind]. destruct IH as (sl & Es). rewrite Es. cbn [rbind]. eauto. }
    destruct (L _ Hl) as (sl & Es). rewrite Es. cbn [rbind]. eauto.
  Qed.
  Lemma create_total : forall p, TIH p -> exists s p', bp_create p None = Ok (s, p').
  Proof. intros p (I & _ & _ & Hl & _). exact (create_ok p I Hl). Qed.
  Lemma order_total : hulls_constructible items -> exists order, item_order items = Ok order.
  Proof.
    intros H. unfold item_order. destruct (Nat.ltb (length items) 2) eqn:L; [eauto|]. apply Nat.ltb_ge in L. destruct H as [H|H]; [lia|].
    assert (K : forall xs : list (nat * (item R * nat)), (forall x, In x xs -> In (snd x) items) ->
      exists ks, rmapM (fun p => s <- poly_new (convex_hull (p_pts (it_shape (fst (snd p))))) ;; Ok (fst p, p_diam s)) xs = Ok ks).
    { induction xs as [|x xs IH]; intros Hx; cbn [rmapM]; [eauto|]. destruct (H _ (Hx x (or_introl eq_refl))) as (s & Es).
      rewrite Es. cbn [rbind]. destruct IH as (ks & Ek); [intros y Hy; apply Hx; right; exact Hy|]. rewrite Ek. cbn [rbind]. eauto. }
    destruct (K (combine (seq 0 (length items)) items)) as (ks & Ek); [intros [i y] Hx; apply in_combine_r in Hx; exact Hx|]. rewrite Ek. cbn [rbind]. eauto.
  Qed.
End L.
Section L2.
  Variable M : R.
  #[local] Instance NLY2 : Num R := RNumT Reqb M.
  #[local] Existing Instance RTrig.
  Context {ED : EqD (dtransf R)} {BS : BSearch}.
  Hypothesis BSok : bsearch_ok BS.
  Context {G : Type} {RG : Rng R G} {X : Extra R}.
  Hypothesis Pow : sane_extra X.
  Local Notation dtransf := (dtransf R).
  Local Notation bp := (bp R dtransf).
  Variable inst : bpinst R dtransf.
  Hypothesis Ids : ids_ok inst.
  Hypothesis Snd : Forall (fun x => sound_item M (fst x)) (bi_items inst).
  Local Notation items := (bi_items inst).
  (** no solution yet *)
  Definition TInv (p : bp) : Prop := TIH M inst (h := []) p.
  Hypothesis Gin : good_inst inst.
  Hypothesis Fb : fine_bins (bi_bins inst).
  Hypothesis Nc : Forall (fun b => cfg_cells (bn_cfg (fst b)) <> 0) (bi_bins inst).
  Lemma new_T : TInv (bp_new inst).
  Proof.
    split; [apply new_inv|]. split; [apply (new_PI M BSok); assumption|]. split.
    - intros i x Ex. cbn [bp_new bp_missing] in Ex. rewrite nth_error_map in Ex. destruct (nth_error items i); [|discriminate]. injection Ex as <-. lia.
    - split; [constructor|]. cbn [bp_new bp_templates]. rewrite Forall_map, Forall_forall. intros [i [b q]] Hx. apply in_combine_r in Hx. cbn [fst snd].
      destruct Gin as (_ & Gb). unfold fine_bins in Fb. rewrite Forall_forall in Gb, Fb, Nc. apply (HL_new M BSok items); [exact (Gb _ Hx)|exact (Fb _ Hx)|exact (Nc _ Hx)].
  Qed.
  Lemma lbf_bp_total : forall cfg g ptr, lc_local cfg <= lc_samples cfg -> 0 < lc_samples cfg -> hulls_constructible items ->
    exists p s p', lbf_bp inst cfg g ptr = Ok (p, s, p').
  Proof.
    intros cfg g ptr Lc Ls Hh. unfold lbf_bp. rewrite (proj2 (Nat.ltb_lt 0 (lc_samples cfg)) Ls). cbn [rassert rbind].
    destruct (order_total M inst Hh) as (order & Eo). assert (Eo' : item_order items = Ok order) by exact Eo. rewrite Eo'. cbn [rbind]. pose proof (order_perm M items order Eo) as Pm.
    destruct (fills_total M BSok Pow inst Ids Snd (h := []) cfg Lc order (bp_new inst) g ptr) as (p & g' & ptr' & E & T).
    - intros i Hi. apply (Permutation_in _ Pm) in Hi. apply in_seq in Hi. lia.
    - exact new_T.
    - assert (E' : rfold (bp_fill_item cfg) order (bp_new inst, g, ptr) = Ok (p, g', ptr')) by exact E. rewrite E'. cbn [rbind].
      destruct (create_total M BSok inst p T) as (s & p' & Ec). assert (Ec' : bp_create p None = Ok (s, p')) by exact Ec. rewrite Ec'. cbn [rbind]. eauto.
  Qed.
End L2.
Section T.
  Variable M : R.
  #[local] Instance NLY' : Num R := RNumT Reqb M.
  #[local] Existing Instance RTrig.
  Context {ED : EqD (dtransf R)} {BS : BSearch}.
  Hypothesis BSok : bsearch_ok BS.
  Context {G : Type} {RG : Rng R G} {X : Extra R}.
  Hypothesis Pow : sane_extra X.
  Lemma lbf_no_panic : forall items bins (inst : bpinst R (dtransf R)) cfg (g : G) ptr, bpinst_new items bins = Ok inst ->
    Forall (fun x => sound_item M (fst x)) items -> hulls_constructible items ->
    Forall (fun b => good_bin (fst b)) bins -> fine_bins bins -> Forall (fun b => cfg_cells (bn_cfg (fst b)) <> 0) bins ->
    0 < lc_samples cfg -> lc_local cfg <= lc_samples cfg ->
    exists p s p', lbf_bp inst cfg g ptr = Ok (p, s, p').
  Proof.
    intros items bins inst cfg g ptr Hn Hs Hh Gb Fb Nc Ls Lc. pose proof (inst_ids _ _ _ Hn) as Ids. destruct (inst_lists M _ _ _ Hn) as (Ei & Eb).
    refine (lbf_bp_total M BSok Pow inst Ids _ _ _ _ cfg g ptr Lc Ls _).
    - rewrite Ei. exact Hs.
    - split; [eauto|rewrite Eb; exact Gb].
    - rewrite Eb. exact Fb.
    - rewrite Eb. exact Nc.
    - rewrite Ei. exact Hh.
  Qed.
End T.
