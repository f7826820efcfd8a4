(** C62: what the optimizer needs of an instance holds of every instance that was read. *)
From Coq Require Import List Bool Arith Lia.
From Verif Require Import Base Num GeoModel HazardModel QTModel TransfModel PolyModel HpgModel CdeModel LayoutModel ProblemModel ParserModel SimplModel LbfModel IoModel ParseModel
  GeoSpec CdeSpec PlaceSpec ShapeSpec HpgSpec SimplSpec LbfSpec IoSpec ParseSpec BaseProofs PoleProofs ConstructProofs PipProofs ParityProofs NormProofs GeoPrimProofs XformProofs NoMaxProofs LayoutProofs ProblemProofs ProblemOpsProofs LbfThmProofs LbfSamplerProofs LbfBpTotalProofs LbfStripThmProofs
  ParseProofs ParseThmProofs ParseSpProofs ParseDrawnProofs RectPolyProofs.
From Coq Require Import Reals Lra.
From Verif Require Import GeoModel HazardModel QTModel TransfModel HpgModel CdeModel CdeSpec GeoSpec PlaceSpec HpgSpec ShapeSpec SimplSpec LbfModel LbfSpec IoModel IoSpec ParseModel ParseSpec.
Import ListNotations.
Local Open Scope R_scope.
#[local] Existing Instance RTrig.
#[local] Opaque next_pole MAX_POI_TREE_DEPTH.

(** *** the hull polygon is built with the surrogate *)
Section R1.
  #[local] Existing Instance RNum.
  Lemma indexed : forall (l h : list rpoint) idx hp, rmapM (fun p => expect (position (fun x => pt_eq x p) l)) h = Ok idx ->
    rmapM (fun i => expect (nth_error l i)) idx = Ok hp -> hp = h.
  Proof.
    intros l. induction h as [|p h IH]; intros idx hp E1 E2; cbn [rmapM] in E1.
    - injection E1 as <-. cbn in E2. injection E2 as <-. reflexivity.
    - apply rbind_ok in E1 as (i & Ei & E1). apply rbind_ok in E1 as (is & Eis & E1). injection E1 as <-. cbn [rmapM] in E2.
      apply rbind_ok in E2 as (q & Eq & E2). apply rbind_ok in E2 as (qs & Eqs & E2). injection E2 as <-. f_equal; [|eauto].
      apply expect_ok in Ei. apply expect_ok in Eq. apply position_some in Ei as (l1 & x & l2 & -> & <- & Ex & _). rewrite nth_error_app2, Nat.sub_diag in Eq by lia. injection Eq as <-. apply pt_eq_ok. exact Ex.
  Qed.
  Lemma hull_built : forall cfg sc s s', generate_surrogate cfg sc s = Ok s' -> exists h, poly_new (convex_hull (p_pts s')) = Ok h.
  Proof.
    intros cfg sc s s' E. unfold generate_surrogate in E. apply rbind_ok in E as (u & Eu & E). injection E as <-. cbn [p_pts]. unfold surrogate_new in Eu.
    apply rbind_ok in Eu as (hull & Eh & Eu). apply rbind_ok in Eu as (hp & Ehp & Eu). apply rbind_ok in Eu as (h & Ep & _).
    rewrite (indexed _ _ _ _ Eh Ehp) in Ep. eauto.
  Qed.
  Lemma pole_made : forall s, made s -> pole_disk s.
  Proof. intros s Md. split; [apply Rlt_le, (md_radius _ Md)|]. exact (gp_inside _ _ _ (clear_good _ _ _ (md_radius _ Md) (md_poi _ Md))). Qed.
  Lemma pole_across : forall s m, made s -> across m (p_pts s) -> crad (p_poi s) < m.
  Proof.
    intros s m Md A. destruct (pole_made s Md) as (_ & D). pose proof (md_radius _ Md) as R0. set (c := p_poi s) in *.
    destruct (nm_box _ (md_norm _ Md)) as (B & (p1 & H1 & E1) & (p2 & H2 & E2) & _). destruct (made_sound s Md) as (So & _).
    assert (K : forall x y, edist (Pt x y) (ccen c) = crad c -> x_min (p_bbox s) <= x <= x_max (p_bbox s)).
    { intros x y H. assert (I : in_disk c (Pt x y)) by (unfold in_disk; lra). apply D in I. apply (region_in_box (p_bbox s) (p_pts s) _ B) in I. apply I. }
    specialize (A p2 p1 H2 H1).
    assert (E : forall k, edist (Pt (px (ccen c) + k) (py (ccen c))) (ccen c) = Rabs k).
    { intros k. unfold edist. cbn [px py]. replace (_ + _) with (k * k) by ring. apply sqrt_Rsqr_abs. }
    pose proof (K _ _ (eq_trans (E (crad c)) (Rabs_right _ (Rle_ge _ _ (Rlt_le _ _ R0))))) as K1.
    pose proof (K (px (ccen c) + - crad c) (py (ccen c))) as K2. rewrite E, Rabs_Ropp, Rabs_right in K2 by lra. specialize (K2 eq_refl). lra.
  Qed.
End R1.
Section P.
  Variable M : R.
  Context {X : Extra R} {ED : EqD (dtransf R)} {BS : BSearch} {G : Type} {RG : Rng R G}.
  Hypothesis BSok : bsearch_ok BS.
  Local Notation NM := (RNumT Reqb M).
  Variable umax : nat.
  Variable pr : parser R.
  Hypothesis Ht : tol_ok (pr_simpl pr).
  Hypothesis Ep : @fPI R X = PI.
  Local Notation tol := (pr_simpl pr).
  Local Notation bin := (bin R (dtransf R)).
  Local Notation item := (item R).
  Lemma orient_some : forall o, orientations (N := NM) o <> RotDiscrete [].
  Proof. intros [[|a [|b l]]|]; cbn; try discriminate. destruct (Reqb a 0); discriminate. Qed.
  Lemma item_built : forall j id it pre d, parse_item (N := NM) pr j id = Ok (it, pre, d) ->
    exists s, made s /\ generate_surrogate (N := RNum) (pr_piers pr) (pr_surr pr) s = Ok (it_shape it) /\ it_rot it <> RotDiscrete [].
  Proof.
    intros j id it pre d H. unfold parse_item in H. apply rbind_ok in H as (s & Es & H). destruct (solid_inv M pr Ht _ _ _ Es) as (Md & _).
    apply rbind_ok in H as (base & Eb & H). unfold item_new in Eb. apply rbind_ok in Eb as (s' & Es' & Eb). injection Eb as <-. cbn [fst] in H.
    rewrite surrogate_M in Es'. destruct (surrogate_poles _ _ _ _ Md Es') as (Md' & _).
    apply rbind_ok in H as (x & Ex & H). injection H as -> <-. destruct (pr_center pr).
    - unfold pretransform_item, item_new in Ex. apply rbind_ok in Ex as (s2 & Es2 & Ex). injection Ex as <- <-.
      rewrite surrogate_M in Es2. cbn [it_shape it_id it_rot it_quality] in *. eexists. split; [|split; [exact Es2|apply orient_some]].
      set (c := centering_transformation (N := RNum) s'). exact (proj2 (at_shift_tr (dt_tx c) (dt_ty c) s' Md')).
    - injection Ex as <- <-. exists s. split; [exact Md|]. split; [exact Es'|apply orient_some].
  Qed.
  Lemma parsed_items : forall j ptr inst pres, parse (N := NM) umax pr j ptr = Ok (inst, pres) ->
    forall x, In x (inst_items inst) -> exists s, made s /\ generate_surrogate (N := RNum) (pr_piers pr) (pr_surr pr) s = Ok (it_shape (fst x)) /\ it_rot (fst x) <> RotDiscrete [].
  Proof.
    intros j ptr inst pres H. unfold parse in H. apply rbind_ok in H as (xs & Ex & H).
    assert (K : forall x, In x (map (fun x : item * transf R * nat => (fst (fst x), snd x)) xs) -> exists s, made s /\ generate_surrogate (N := RNum) (pr_piers pr) (pr_surr pr) s = Ok (it_shape (fst x)) /\ it_rot (fst x) <> RotDiscrete []).
    { intros x Hx. apply in_map_iff in Hx as ([[it pre] d] & <- & Hx). cbn [fst snd]. apply rmapM_F2 in Ex. destruct (F2_in_r _ _ _ _ Ex Hx) as ([k jj] & _ & E). cbn [fst snd] in E. exact (item_built _ _ _ _ _ E). }
    destruct (jn_bins j) as [bs|], (jn_strip j) as [h|]; try discriminate.
    - apply rbind_ok in H as (bins & Eb & H). apply rbind_ok in H as (i & Ei & H). injection H as <- <-. cbn [inst_items]. destruct (inst_lists M _ _ _ Ei) as (E1 & _). rewrite E1. exact K.
    - apply rbind_ok in H as (i & Ei & H). injection H as <- <-. cbn [inst_items]. unfold spinst_new in Ei. apply rbind_ok in Ei as (u & _ & Ei). injection Ei as <-. exact K.
  Qed.
  Lemma parsed_sound : forall j ptr inst pres fs, parse (N := NM) umax pr j ptr = Ok (inst, pres) -> items_ok M pr (jn_items j) (inst_items inst) pres fs -> Forall (tame M) fs ->
    Forall (fun x => sound_item M (fst x)) (inst_items inst) /\ hulls_constructible (N := NM) (inst_items inst).
  Proof.
    intros j ptr inst pres fs H (F & L & _ & K) T. pose proof (parsed_items _ _ _ _ H) as B. split.
    - apply Forall_forall. intros [it q] Hx. destruct (B _ Hx) as (s & Md & Eg & Rt). cbn [fst] in *.
      destruct (surrogate_poles _ _ _ _ Md Eg) as (Md' & Ep' & Pb & Pi & _ & u & Eu & _ & _ & En & _).
      apply In_nth_error in Hx as (i & Hi). destruct (nth_error (jn_items j) i) as [ji|] eqn:Ej; [|exfalso; apply nth_error_None in Ej; apply nth_error_Some_lt in Hi; lia].
      destruct (K i ji Ej) as (it' & f & dx & dy & Hi' & Hf & Rd & _ & Eq & _). rewrite Hi in Hi'. injection Hi' as <- _.
      destruct (proj1 (Forall_forall _ _) T f (nth_error_In _ _ Hf)) as (T1 & T2 & T3). pose proof (ir_shape _ _ _ _ _ _ _ _ Rd) as Sh.
      split; auto.
      + exact (at_shift_good _ _ _ _ Sh T1).
      + apply pole_made. exact Md'.
      + split; [apply (md_radius _ Md')|]. apply pole_across; [exact Md'|]. rewrite (proj1 Sh). intros p r Hp Hr.
        apply in_map_iff in Hp as (p' & <- & Hp). apply in_map_iff in Hr as (r' & <- & Hr). cbn [shifted px]. specialize (T2 p' r' Hp Hr). lra.
      + intros u' Eu'. rewrite Eu in Eu'. injection Eu' as <-. rewrite En. apply Nat.le_min_r.
      + intros k Hk. rewrite (ir_quality _ _ _ _ _ _ _ _ Rd), <- Eq in Hk. exact (T3 k Hk).
    - right. intros x Hx. destruct (B _ Hx) as (s & Md & Eg & _). destruct (hull_built _ _ _ _ Eg) as (h & Eh). exists h. rewrite poly_new_M. exact Eh.
  Qed.
  Lemma bins_cfg : forall l k ptr bs, parse_bins (N := NM) umax pr k ptr l = Ok bs -> Forall (fun b => bn_cfg (fst b) = pr_cfg pr) bs.
  Proof.
    induction l as [|j l IH]; intros k ptr bs H; cbn [parse_bins] in H; [injection H as <-; constructor|].
    apply rbind_ok in H as ([b n] & Eb & H). apply rbind_ok in H as (bs' & Ebs & H). injection H as <-. constructor; [|eauto]. cbn [fst].
    unfold parse_bin in Eb. apply rbind_ok in Eb as (outer & Eo & H). apply rbind_ok in H as (holes & Eh & H).
    apply rbind_ok in H as (zs & Ez & H). apply rbind_ok in H as (base & E & H). apply rbind_ok in H as (b' & Ex & H). injection H as -> <-.
    destruct (pr_center pr).
    - unfold pretransform_bin, fresh_bin in Ex. apply bin_new_spec in Ex. tauto.
    - injection Ex as <-. unfold fresh_bin in E. apply bin_new_spec in E. tauto.
  Qed.
  Theorem solves_bins : sane_extra X -> forall j ptr inst pres, parse (N := NM) umax pr j ptr = Ok (IBP inst, pres) ->
    exists bs fs cs, jn_bins j = Some bs /\ Forall2 (item_of_file tol) (jn_items j) fs /\ Forall2 (bin_of_file tol) bs cs /\
      (Forall (tame M) fs -> clean_bins cs -> cfg_cells (pr_cfg pr) <> 0%nat ->
       forall cfg (g : G) ptr', (0 < lc_samples cfg)%nat -> (lc_local cfg <= lc_samples cfg)%nat ->
       exists p s p', lbf_bp (N := NM) inst cfg g ptr' = Ok (p, s, p')).
  Proof.
    intros Pow j ptr inst pres H. destruct (parse_inv M umax pr Ht Ep _ _ _ _ H) as (fs & I & bs & bins & cs & Eb & _ & Hn & B).
    exists bs, fs, cs. split; [exact Eb|]. split; [exact (proj1 I)|]. split; [exact (proj1 B)|]. intros T Cb Nc cfg g ptr' Ls Lc.
    destruct (parsed_sound _ _ _ _ _ H I T) as (Snd & Hu). destruct (bins_fine M umax pr _ _ _ B Cb) as (Fb & Gb). cbn [inst_items] in *.
    destruct (inst_lists M _ _ _ Hn) as (E1 & E2).
    apply (lbf_no_panic M BSok Pow (bi_items inst) bins inst cfg g ptr' Hn Snd Hu Gb Fb); [|exact Ls|exact Lc].
    unfold parse in H. apply rbind_ok in H as (xs & _ & H). rewrite Eb in H. destruct (jn_strip j); [discriminate|]. apply rbind_ok in H as (bins' & Eb' & H). apply rbind_ok in H as (i & Ei & H).
    injection H as -> _. destruct (inst_lists M _ _ _ Ei) as (_ & E2'). rewrite E2 in E2'. subst bins'.
    eapply Forall_impl; [|exact (bins_cfg _ _ _ _ Eb')]. intros b Hb. cbn beta. rewrite Hb. exact Nc.
  Qed.
  Lemma area_pos : forall items : list (item * nat), (forall x, In x items -> 0 < p_area (it_shape (fst x))) -> (exists x, In x items /\ (0 < snd x)%nat) -> 0 < items_area (N := NM) items.
  Proof.
    intros items Hp He. set (f := fun p : item * nat => p_area (it_shape (fst p)) * INR (snd p)). change (0 < fold_left Rplus (map f items) 0).
    assert (K : forall l a, fold_left Rplus l a = a + fold_left Rplus l 0).
    { induction l as [|x l IH]; intros a; cbn [fold_left]; [ring|]. rewrite IH, (IH (0 + x)). ring. }
    assert (Z : forall l : list (item * nat), (forall x, In x l -> 0 < p_area (it_shape (fst x))) -> 0 <= fold_left Rplus (map f l) 0).
    { induction l as [|x l IH]; intros H; cbn [map fold_left]; [lra|]. rewrite K. specialize (IH (fun y Hy => H y (or_intror Hy))).
      specialize (H x (or_introl eq_refl)). pose proof (pos_INR (snd x)). assert (0 <= f x) by (apply Rmult_le_pos; lra). lra. }
    induction items as [|x items IH]; [destruct He as (x & [] & _)|]. cbn [map fold_left]. rewrite K.
    pose proof (Hp x (or_introl eq_refl)) as P1. pose proof (pos_INR (snd x)) as P2. pose proof (Z items (fun y Hy => Hp y (or_intror Hy))) as P3.
    destruct He as (y & [<-|Hy] & D).
    - apply lt_0_INR in D. assert (0 < f x) by (apply Rmult_lt_0_compat; assumption). lra.
    - specialize (IH (fun z Hz => Hp z (or_intror Hz)) (ex_intro _ y (conj Hy D))). assert (0 <= f x) by (apply Rmult_le_pos; lra). lra.
  Qed.
  Theorem solves_strip : sane_extra X -> forall j ptr inst pres, parse (N := NM) umax pr j ptr = Ok (ISP inst, pres) ->
    exists hgt fs, jn_strip j = Some hgt /\ Forall2 (item_of_file tol) (jn_items j) fs /\
      (Forall (tame M) fs -> (exists ji, In ji (jn_items j) /\ (0 < ji_demand ji)%nat) -> 0 < hgt ->
       forall fuel tl c cfg (g : G) ptr', 0 < tl -> cfg_cells c <> 0%nat -> strips_constructible (N := NM) c hgt -> (0 < lc_samples cfg)%nat -> (lc_local cfg <= lc_samples cfg)%nat ->
       exists o, lbf_sp (N := NM) fuel tl inst c cfg g ptr' = Ok o).
  Proof.
    intros Pow j ptr inst pres H. destruct (parse_inv M umax pr Ht Ep _ _ _ _ H) as (fs & I & hgt & _ & Es & Hn).
    exists hgt, fs. split; [exact Es|]. split; [exact (proj1 I)|]. intros T Dm Hh fuel tl c cfg g ptr' Htl Nc Con Ls Lc.
    destruct (parsed_sound _ _ _ _ _ H I T) as (Snd & Hu). cbn [inst_items] in *.
    apply (sp_no_panic M BSok (si_items inst) hgt inst fuel tl c cfg g ptr' Pow Hn Snd Hu Hh Htl Nc Con); [|exact Ls|exact Lc].
    unfold spinst_new in Hn. apply rbind_ok in Hn as (u & _ & Hn). injection Hn as Hn. rewrite <- Hn. cbn [si_area]. destruct Dm as (ji & Hj & Dp).
    apply In_nth_error in Hj as (i & Hi). destruct I as (_ & _ & _ & K). destruct (K i ji Hi) as (it & f & dx & dy & Hit & _). apply nth_error_In in Hit.
    apply area_pos; [|exists (it, ji_demand ji); auto].
    intros x Hx. destruct (parsed_items _ _ _ _ H _ Hx) as (s & Md & Eg & _). destruct (surrogate_poles _ _ _ _ Md Eg) as (Md' & _). apply (nm_positive _ (md_norm _ Md')).
  Qed.
End P.

Section D.
  Variable M : R.
  Context {X : Extra R} {ED : EqD (dtransf R)} {BS : BSearch} {G : Type} {RG : Rng R G}.
  Hypothesis BSok : bsearch_ok BS.
  Local Notation NM := (RNumT Reqb M).
  Variable umax : nat.
  Variable pr : parser R.
  Hypothesis Hs : pr_simpl pr = None.
  Hypothesis Ep : @fPI R X = PI.
  Hypothesis Pow : sane_extra X.
  Lemma like_tame : forall fs gs, Forall2 like_item fs gs -> Forall (tame M) gs -> Forall (tame M) fs.
  Proof.
    intros fs gs F C. rewrite Forall_forall in C. apply Forall_forall. intros f Hf. apply (F2_in_l _ _ _ _ F) in Hf as (g & Hg & L & _ & Q).
    destruct (C g Hg) as (C1 & C2 & C3). split; [exact (like_spikes _ _ L C1)|]. rewrite Q. split; [|exact C3].
    intros p q Hp Hq. destruct L as [E|E]; rewrite E in Hp, Hq; [|apply in_rev in Hp, Hq]; apply C2; assumption.
  Qed.
  Theorem drawn_solves : forall j ptr inst pres, parse (N := NM) umax pr j ptr = Ok (IBP inst, pres) ->
    exists bs, jn_bins j = Some bs /\
      (Forall (tame M) (map file_item (jn_items j)) -> clean_bins (map file_bin bs) -> cfg_cells (pr_cfg pr) <> 0%nat ->
       forall cfg (g : G) ptr', (0 < lc_samples cfg)%nat -> (lc_local cfg <= lc_samples cfg)%nat ->
       exists p s p' js, lbf_bp (N := NM) inst cfg g ptr' = Ok (p, s, p') /\ bp_export (N := NM) (pre_of (N := NM) pres) inst s = Ok js).
  Proof.
    intros j ptr inst pres H. destruct (solves_bins M BSok umax pr (none_ok pr Hs) Ep Pow _ _ _ _ H) as (bs & fs & cs & Eb & Fi & Fb & K). rewrite Hs in Fi, Fb.
    pose proof (F2_map_r _ _ _ _ _ item_like Fi) as Li. pose proof (F2_map_r _ _ _ _ _ bin_like Fb) as Lb.
    exists bs. split; [exact Eb|]. intros T Cb Nc cfg g ptr' Ls Lc.
    destruct (K (like_tame _ _ Li T) (like_clean_bins _ _ Lb Cb) Nc cfg g ptr' Ls Lc) as (p & s & p' & E).
    destruct (drawn_bins M BSok umax pr Hs Ep _ _ _ _ H) as (bs' & Eb' & K'). rewrite Eb in Eb'. injection Eb' as <-.
    destruct (K' (fun f Hf => proj1 (proj1 (Forall_forall _ _) T f Hf)) Cb cfg g ptr' p s p' E) as (js & Ej & _). exists p, s, p', js. split; [exact E|exact Ej].
  Qed.
End D.
