(** Runs of the reference optimizer on strip packing instances panic only if some strip
    cannot be built. *)
From Coq Require Import List Bool Arith ZArith Lia Permutation.
From Verif Require Import Base Num GeoModel HazardModel QTModel TransfModel HpgModel CdeModel CdeSpec
  PolyModel SlotMapModel LayoutModel ProblemModel ProblemSpec LbfModel BaseProofs HazVecProofs QTProofs CdeProofs CdeOpsProofs CdeHistProofs CdeThmProofs SlotMapProofs ProblemProofs
  ProblemOpsProofs ProblemThmProofs StripProofs LayoutProofs MirrorProofs MirrorThmProofs FitProofs Instances RigidProofs XformProofs RegionProofs GeoPrimProofs GeoRectProofs CdeGeoProofs CdeGeoThmProofs
  ParityProofs NormProofs PlaceExampleProofs RectPolyProofs HpgSpec LbfSpec LbfProofs LbfRunProofs LbfSamplerProofs LbfHistProofs LbfTotalProofs LbfBpProofs LbfThmProofs LbfBpTotalProofs LbfSpProofs.
From Coq Require Import Reals Lra.
From Verif Require Import GeoModel HazardModel QTModel TransfModel HpgModel CdeModel CdeSpec GeoSpec PlaceSpec HpgSpec ShapeSpec LbfModel LbfSpec.
Import ListNotations.
Local Open Scope R_scope.

Section L.
  Variable M : R.
  #[local] Instance NLT2 : Num R := RNumT Reqb M.
  #[local] Existing Instance RTrig.
  Context {ED : EqD (dtransf R)} {BS : BSearch}.
  Hypothesis BSok : bsearch_ok BS.
  Context {G : Type} {RG : Rng R G} {X : Extra R}.
  Hypothesis Pow : sane_extra X.
  Local Notation dtransf := (dtransf R).
  Local Notation layout := (layout R dtransf).
  Local Notation sp := (sp R dtransf).
  Local Notation bin := (bin R dtransf).
  Variable inst : spinst R.
  Hypothesis Ids : sids_ok inst.
  Hypothesis Snd : Forall (fun x => sound_item M (fst x)) (si_items inst).
  Local Notation items := (si_items inst).
  Variable c : cfg.
  Hypothesis Nc : cfg_cells c <> 0%nat.
  Hypothesis Con : strips_constructible c (si_height inst).
  Hypothesis Hh : 0 < si_height inst.

  Definition STI (p : sp) : Prop :=
    SPInv M inst p /\ HL M items (sp_layout p) /\ no_excess inst p /\ bn_cfg (ly_bin (sp_layout p)) = c /\
    y_min (strip_bbox p) = 0 /\ y_max (strip_bbox p) = si_height inst.

  Lemma strip_cfg : forall r c' ptr (b : bin), bin_from_strip r c' ptr = Ok b -> bn_cfg b = c'.
  Proof. intros r c' ptr b H. unfold bin_from_strip in H. apply rbind_ok in H as (s & _ & H). apply bin_new_spec in H. tauto. Qed.
  Lemma fine_it : fine_items items.
  Proof. exact (Gi M items Snd). Qed.
  Lemma strip_HL : forall id r ptr (b : bin), bin_from_strip r c ptr = Ok b -> HL M items (layout_new id b).
  Proof.
    intros id r ptr b E. apply (HL_new M BSok items).
    - eapply (strip_good (sym_R M)). exact E.
    - exact (strip_fine M _ _ _ _ E).
    - rewrite (strip_cfg _ _ _ _ E). exact Nc.
  Qed.
  Lemma new_total : forall w ptr, 0 < w -> exists p, sp_new inst w c ptr = Ok p /\ STI p.
  Proof.
    intros w ptr Hw. destruct (Con 0 w ptr Hw) as (b & Eb).
    assert (Er : Rc 0 0 (0 + w) (si_height inst) = Rc 0 0 w (si_height inst)) by (f_equal; lra). rewrite Er in Eb.
    assert (Eb' : bin_from_strip (Rc f0 f0 w (si_height inst)) c ptr = Ok b) by exact Eb.
    assert (E : sp_new inst w c ptr = Ok (ProblemModel.SP inst (layout_new 0 b) (map (fun p => Z.of_nat (snd p)) items) 0 0)) by (unfold sp_new; rewrite Eb'; reflexivity).
    eexists. split; [exact E|]. split; [exact (sp_new_SPInv M BSok _ _ _ _ _ E)|]. split; [exact (strip_HL _ _ _ _ Eb)|].
    split; [exact (new_excess M _ _ _ _ _ E)|]. split; [exact (strip_cfg _ _ _ _ Eb)|].
    unfold strip_bbox. cbn [sp_layout layout_new ly_bin]. rewrite (strip_box M _ _ _ _ Eb') by (split; cbn; assumption). split; reflexivity.
  Qed.

  (** *** placing *)
  Lemma splace_ok : forall (p : sp) i it q d ptr, SInv inst p [] -> HL M items (sp_layout p) -> nth_error items i = Some (it, q) -> ~ In (i, d) (placed (sp_layout p)) ->
    exists r p', sp_place p (PO (Real 0) i d) ptr = Ok (r, p') /\ HL M items (sp_layout p') /\ SInv inst p' [] /\
      Permutation (placed (sp_layout p')) ((i, d) :: placed (sp_layout p)) /\ ly_bin (sp_layout p') = ly_bin (sp_layout p).
  Proof.
    intros p i it q d ptr I H Ni Nin. pose proof (Ids _ _ _ Ni) as Eid.
    assert (Ni' : nth_error items (it_id it) = Some (it, q)) by (rewrite Eid; exact Ni).
    assert (Nin' : ~ In (it_id it, d) (placed (sp_layout p))) by (rewrite Eid; exact Nin).
    destruct (HL_place M BSok items Snd (sp_layout p) it q d ptr H Ni' Nin') as (k & l' & El & H').
    assert (E : exists r p', sp_place p (PO (Real 0) i d) ptr = Ok (r, p') /\ sp_layout p' = l').
    { unfold sp_place. cbn [po_layout is_strip rassert rbind po_item po_dt]. rewrite (s_inst _ _ _ I). unfold item_of. rewrite Ni. cbn [expect rbind fst].
      assert (El' : layout_place (sp_layout p) it d ptr = Ok (k, l')) by exact El. rewrite El'. cbn [rbind].
      unfold register_included, missing_add. rewrite (proj2 (proj2 (s_miss _ _ _ I)) _ _ _ Ni). cbn [expect rbind]. eexists _, _. split; reflexivity. }
    destruct E as (r & p' & E & El'). exists r, p'. split; [exact E|]. rewrite El'. split; [exact H'|]. split; [exact (sp_place_inv _ _ _ _ _ _ _ Ids I E)|].
    rewrite <- El'. split; [|exact (place_strip _ _ _ _ _ E)]. rewrite El'.
    apply place_content in El as (_ & _ & Ins). pose proof (insert_perm (ly_items (sp_layout p)) (pi_new it d ptr) (s_sm _ _ _ I)) as Pm. assert (Ins' : sm_insert (ly_items (sp_layout p)) (pi_new it d ptr) = (k, ly_items l')) by exact Ins. rewrite Ins' in Pm. cbn [snd] in Pm.
    unfold placed. rewrite Pm. cbn [map pi_new pi_item pi_dt]. rewrite Eid. reflexivity.
  Qed.
  Lemma place_STI : forall p o ptr, STI p -> schecked p o -> (exists m, nth_error (sp_missing p) (po_item o) = Some m /\ (0 < m)%Z) ->
    exists r p', sp_place p o ptr = Ok (r, p') /\ STI p'.
  Proof.
    intros p o ptr (Q & H & Ne & Ec & Y1 & Y2) Ch (m & Em & Pm). pose proof Ch as (it & q & irr & Eo & Ni & Tl & Ps & Tn).
    rewrite (s_inst _ _ _ (q_inv _ _ _ Q)) in Ni.
    destruct (packed_cons M _ fine_it (sp_layout p) it irr q (po_item o) (po_dt o) (proj1 H) (proj1 (proj2 H)) (q_packed _ _ _ Q) Ni Tl Ps Tn) as (Nin & _).
    destruct o as [li i d]. cbn [po_layout po_item po_dt] in *. subst li.
    destruct (splace_ok p i it q d ptr (q_inv _ _ _ Q) H Ni Nin) as (r & p' & E & H' & I' & Pl & Eb). exists r, p'. split; [exact E|].
    split; [exact (splace_SPInv M BSok _ _ _ _ _ _ Ids fine_it Q Ch E)|]. split; [exact H'|]. split.
    - intros j itj qj Hj. rewrite (count_perm _ _ _ (splace_lst M _ _ _ _ _ _ Ids (q_inv _ _ _ Q) E)). cbn [po_item]. unfold count. cbn [filter].
      destruct (Nat.eqb_spec j i) as [->|Hn]; [|exact (Ne _ _ _ Hj)]. cbn [length].
      rewrite (proj2 (proj2 (s_miss _ _ _ (q_inv _ _ _ Q))) _ _ _ Hj) in Em. injection Em as <-. unfold count in Pm. lia.
    - unfold strip_bbox in *. rewrite Eb. auto.
  Qed.

  (** *** a new strip *)
  Lemma collides_ok : forall l s irr, HL M items l -> good_poly s -> exists b, poly_collides (ly_cde l) s irr = Ok b.
  Proof.
    intros l s irr H Gs. pose proof (rl_inv _ _ _ _ _ _ _ (proj2 (proj2 (proj1 H)))) as Iv.
    pose proof (ask_answer _ _ _ (AskPoly s irr) Iv Gs) as Et. cbn [ask] in Et.
    destruct (poly_collides (ly_cde l) s irr) as [b|] eqn:Eb; [exists b; reflexivity|discriminate].
  Qed.
  Lemma replace_total : forall xs (p : sp), SInv inst p [] -> HL M items (sp_layout p) ->
    (forall x, In x xs -> exists it q, nth_error items (fst (fst x)) = Some (it, q)) ->
    NoDup (map fst xs) -> (forall x, In x (map fst xs) -> ~ In x (placed (sp_layout p))) ->
    exists p', rfold replace_item xs p = Ok p' /\ HL M items (sp_layout p').
  Proof.
    induction xs as [|[[i d] ptr] xs IH]; intros p I H Kn ND Fr; cbn [rfold]; [eauto|].
    destruct (Kn _ (or_introl eq_refl)) as (it & q & Ni). cbn [fst] in Ni. cbn [map fst] in ND, Fr. inversion ND as [|? ? N1 N2]; subst.
    unfold replace_item at 1. rewrite (s_inst _ _ _ I). unfold item_of. rewrite Ni. cbn [expect rbind fst].
    match goal with |- context [poly_collides (ly_cde (sp_layout p)) ?s ?ig] => set (sh := s); set (ign := ig) end.
    assert (Gs : good_poly sh) by exact (good_wf _ (good_tr_poly (compose d) _ (rigid_compose d) (so_shape _ _ (item_sound M items Snd _ _ _ Ni)))).
    destruct (collides_ok (sp_layout p) sh ign H Gs) as (b & Eb). assert (Eb' : poly_collides (ly_cde (sp_layout p)) sh ign = Ok b) by exact Eb. rewrite Eb'. cbn [rbind].
    destruct b; cbn [rbind].
    - apply (IH p I H); [intros x Hx; apply Kn; right; exact Hx|exact N2|intros x Hx; apply Fr; right; exact Hx].
    - destruct (splace_ok p i it q d ptr I H Ni (Fr _ (or_introl eq_refl))) as (r & p' & E & H' & I' & Pl & _). rewrite E. cbn [rbind].
      apply (IH p' I' H'); [intros x Hx; apply Kn; right; exact Hx|exact N2|].
      intros x Hx K. apply (Permutation_in x Pl) in K as [K|K]; [subst x; contradiction|]. exact (Fr x (or_intror Hx) K).
  Qed.
  Lemma modify_total : forall p a w ptr, STI p -> 0 < w -> exists p', modify_strip p (Rc a 0 (a + w) (si_height inst)) ptr = Ok p' /\ STI p'.
  Proof.
    intros p a w ptr T Hw. pose proof T as (Q & H & Ne & Ec & Y1 & Y2). pose proof (q_inv _ _ _ Q) as I. set (r := Rc a 0 (a + w) (si_height inst)).
    assert (E : exists p', modify_strip p r ptr = Ok p' /\ HL M items (sp_layout p')).
    { unfold modify_strip. change (map (fun pi : pitem R dtransf => (pi_item pi, pi_dt pi)) (sm_values (ly_items (sp_layout p)))) with (placed (sp_layout p)).
      set (pl := placed (sp_layout p)). rewrite (s_inst _ _ _ I).
      assert (Em : exists m, rmapM (fun i => q <- item_qty items i ;; Ok (Z.of_nat q)) (seq 0 (length (sp_missing p))) = Ok m).
      { rewrite (proj1 (s_miss _ _ _ I)). assert (K : forall l, (forall i, In i l -> (i < length items)%nat) -> exists m, rmapM (fun i => q <- item_qty items i ;; Ok (Z.of_nat q)) l = Ok m).
        { induction l as [|i l IH]; intros L; cbn [rmapM]; [eauto|]. unfold item_qty at 1. pose proof (L i (or_introl eq_refl)) as Li.
          destruct (nth_error items i) as [[it q]|] eqn:Ei; [|apply nth_error_None in Ei; lia]. cbn [expect rbind snd].
          destruct IH as (m & Em); [intros j Hj; apply L; right; exact Hj|]. rewrite Em. cbn [rbind]. eauto. }
        apply K. intros i Hi. apply in_seq in Hi. lia. }
      destruct Em as (m & Em). rewrite Em. cbn [rbind]. rewrite Ec. destruct (Con a w ptr Hw) as (b & Eb).
      assert (Eb' : bin_from_strip r c ptr = Ok b) by exact Eb. rewrite Eb'. cbn [rbind].
      assert (Ef : map fst (combine pl (seq (S ptr) (length pl))) = pl) by (apply combine_fst; rewrite seq_length; reflexivity).
      apply replace_total.
      - pose proof (fresh_strip_inv inst p [] m b I) as K. rewrite (s_inst _ _ _ I) in K. apply K. eapply all_missing; [exact (proj1 (s_miss _ _ _ I))|exact Em].
      - cbn [sp_layout]. exact (strip_HL _ _ _ _ Eb).
      - intros x Hx. apply (in_map fst) in Hx. rewrite Ef in Hx. exact (packed_known M _ _ (q_packed _ _ _ Q) _ Hx).
      - rewrite Ef. exact (proj1 (q_packed _ _ _ Q)).
      - intros x _ []. }
    destruct E as (p' & E & H'). exists p'. split; [exact E|]. destruct (modify_SPInv M BSok _ _ _ _ _ Ids fine_it Q E) as (Q' & b & keep & Eb & El & _).
    split; [exact Q'|]. split; [exact H'|]. split; [exact (modify_excess M _ _ _ _ _ Ids I Ne E)|]. rewrite Ec in Eb.
    split; [rewrite El; exact (strip_cfg _ _ _ _ Eb)|]. unfold strip_bbox. rewrite El, (strip_box M _ _ _ _ Eb) by (split; cbn; lra). split; reflexivity.
  Qed.
  Lemma width_pos : forall p, STI p -> 0 < x_max (strip_bbox p) - x_min (strip_bbox p).
  Proof.
    intros p (Q & H & _). pose proof (gs_proper _ (outer_good _ (proj1 (proj2 H)))) as (P1 & _). unfold strip_bbox. lra.
  Qed.
  Lemma back_total : forall p ptr, STI p -> exists p', modify_strip_in_back p (strip_width p * (fofN 11 / fofN 10))%num ptr = Ok p' /\ STI p'.
  Proof.
    intros p ptr T. pose proof (width_pos p T) as W. pose proof T as (_ & _ & _ & _ & Y1 & Y2). unfold modify_strip_in_back.
    set (w := (strip_width p * (fofN 11 / fofN 10))%num). assert (Hw : 0 < w).
    { unfold w, strip_width, r_width. cbn. lra. }
    rewrite Y1, Y2. exact (modify_total p (x_min (strip_bbox p)) w ptr T Hw).
  Qed.

  (** *** the loop *)
  Lemma sfill_total : forall cfg i it q, nth_error items i = Some (it, q) -> (lc_local cfg <= lc_samples cfg)%nat -> forall fuel p (g : G) ptr, STI p ->
    exists o, sp_fill fuel cfg i it (p, g, ptr) = Ok o /\ forall s, o = Some s -> STI (fst (fst s)).
  Proof.
    intros cfg i it q Hi Lc. pose proof (Ids _ _ _ Hi) as Eid. induction fuel as [|fuel IH]; intros p g ptr T; cbn [sp_fill];
      pose proof T as (Q & H & _); pose proof (q_inv _ _ _ Q) as I; pose proof (proj2 (proj2 (s_miss _ _ _ I)) _ _ _ Hi) as Em; set (m := (Z.of_nat q - _)%Z) in Em; rewrite Em; cbn [expect rbind];
      destruct (Z.ltb_spec 0 m) as [Pm|Pm]; try (eexists; split; [reflexivity|]; intros s Es; first [discriminate|injection Es as <-; exact T]).
    assert (Ni : nth_error items (it_id it) = Some (it, q)) by (rewrite Eid; exact Hi).
    assert (Hls : Forall (fun x : lidx * layout => HL M items (snd x)) [(Real 0, sp_layout p)]) by (constructor; [exact H|constructor]).
    destruct (find_total M BSok Pow (BPI items 0 []) Snd [(Real 0, sp_layout p)] it q cfg g Hls Ni Lc) as (o & g1 & Ef).
    assert (Ef0 : find_placement [(Real 0, sp_layout p)] it cfg g = Ok (o, g1)) by exact Ef. rewrite Ef0. cbn [rbind].
    destruct o as [o|].
    - apply (find_placement_ok M) in Ef as (li & l & irr & Hin & Tl & Eli & Eit & Ps & Tn). destruct Hin as [Hin|[]]. injection Hin as <- <-.
      assert (Ch : schecked p o) by (exists it, q, irr; rewrite (s_inst _ _ _ I), Eit; repeat (split; [assumption|]); exact Tn).
      destruct (place_STI p o ptr T Ch) as (r & p' & Ep & T'); [exists m; rewrite Eit, Eid; auto|].
      rewrite Ep. cbn [rbind]. exact (IH p' g1 (S ptr) T').
    - destruct (back_total p ptr T) as (p' & Ep & T'). rewrite Ep. cbn [rbind]. apply IH. exact T'.
  Qed.
  Lemma sfills_total : forall cfg fuel, (lc_local cfg <= lc_samples cfg)%nat -> forall order p (g : G) ptr, (forall i, In i order -> (i < length items)%nat) -> STI p ->
    exists o, sp_fill_all fuel cfg order (p, g, ptr) = Ok o /\ forall s, o = Some s -> STI (fst (fst s)).
  Proof.
    intros cfg fuel Lc. induction order as [|i order IH]; intros p g ptr Hi T; cbn [sp_fill_all fst].
    - eexists. split; [reflexivity|]. intros s Es. injection Es as <-. exact T.
    - pose proof T as (Q & _). rewrite (s_inst _ _ _ (q_inv _ _ _ Q)). unfold item_of. pose proof (Hi i (or_introl eq_refl)) as Li.
      destruct (nth_error items i) as [[it q]|] eqn:Ei; [|apply nth_error_None in Ei; lia]. cbn [expect rbind fst].
      destruct (sfill_total cfg i it q Ei Lc fuel p g ptr T) as (o & Eo & K). rewrite Eo. cbn [rbind]. destruct o as [[[p1 g1] ptr1]|].
      + apply IH; [intros j Hj; apply Hi; right; exact Hj|exact (K _ eq_refl)].
      + eexists. split; [reflexivity|]. discriminate.
  Qed.

  (** *** the final strip *)
  Lemma range_covers : forall (l : layout) a b, occupied_range l = Some (a, b) -> forall pi, In pi (sm_values (ly_items l)) ->
    a <= x_min (p_bbox (a_obj (pi_shape pi))) /\ x_max (p_bbox (a_obj (pi_shape pi))) <= b.
  Proof.
    intros l a b E pi Hp. unfold occupied_range in E. destruct (sm_values (ly_items l)) as [|q vs]; [destruct Hp|]. cbn [map] in E. injection E as <- <-.
    set (f := fun pi : pitem R dtransf => p_bbox (a_obj (pi_shape pi))). change (map (fun pi => p_bbox (a_obj (pi_shape pi))) vs) with (map f vs).
    assert (K1 : forall vs m, fold_left (fun m b => fmin m (x_min b)) (map f vs) m <= m /\ forall x, In x vs -> fold_left (fun m b => fmin m (x_min b)) (map f vs) m <= x_min (f x)).
    { clear. induction vs as [|v vs IH]; intros m; cbn [map fold_left]; [split; [apply Rle_refl|intros x []]|]. destruct (IH (fmin m (x_min (f v)))) as (A & B).
      cbn [fmin NLT2 RNumT] in *. pose proof (Rmin_l m (x_min (f v))). pose proof (Rmin_r m (x_min (f v))). split; [lra|]. intros x [<-|Hx]; [lra|exact (B x Hx)]. }
    assert (K2 : forall vs m, m <= fold_left (fun m b => fmax m (x_max b)) (map f vs) m /\ forall x, In x vs -> x_max (f x) <= fold_left (fun m b => fmax m (x_max b)) (map f vs) m).
    { clear. induction vs as [|v vs IH]; intros m; cbn [map fold_left]; [split; [apply Rle_refl|intros x []]|]. destruct (IH (fmax m (x_max (f v)))) as (A & B).
      cbn [fmax NLT2 RNumT] in *. pose proof (Rmax_l m (x_max (f v))). pose proof (Rmax_r m (x_max (f v))). split; [lra|]. intros x [<-|Hx]; [lra|exact (B x Hx)]. }
    destruct (K1 vs (x_min (f q))) as (A1 & B1). destruct (K2 vs (x_max (f q))) as (A2 & B2). destruct Hp as [<-|Hp]; [split; assumption|]. split; [exact (B1 pi Hp)|exact (B2 pi Hp)].
  Qed.
  Lemma fit_total : forall tol p ptr, 0 < tol -> STI p -> placed (sp_layout p) <> [] -> exists p', fit_strip tol p ptr = Ok p' /\ STI p'.
  Proof.
    intros tol p ptr Ht T Np. pose proof T as (Q & H & Ne & Ec & Y1 & Y2). pose proof H as (L & Bf & _ & Kn & _).
    destruct (occupied_range (sp_layout p)) as [[a b]|] eqn:Er.
    2:{ exfalso. apply Np. unfold occupied_range in Er. unfold placed. destruct (sm_values (ly_items (sp_layout p))); [reflexivity|discriminate]. }
    assert (Bx : forall pi, In pi (sm_values (ly_items (sp_layout p))) -> good_shape (a_obj (pi_shape pi))).
    { intros pi Hp. rewrite Forall_forall in Kn. destruct (known_facts M items Snd (sp_layout p) pi L Hp (Kn pi Hp)) as (it & q & Ni & Es). rewrite Es.
      exact (good_tr_poly (compose (pi_dt pi)) _ (rigid_compose _) (so_shape _ _ (item_sound M items Snd _ _ _ Ni))). }
    assert (Lt : a < b).
    { destruct (sm_values (ly_items (sp_layout p))) as [|pi vs] eqn:Ev; [exfalso; apply Np; unfold placed; rewrite Ev; reflexivity|].
      assert (Hp : In pi (sm_values (ly_items (sp_layout p)))) by (rewrite Ev; left; reflexivity).
      destruct (range_covers _ _ _ Er pi Hp) as (A1 & A2). pose proof (gs_proper _ (Bx pi (or_introl eq_refl))) as (P1 & _). lra. }
    set (ad := (b - a) * tol). assert (Ad : 0 < ad) by (apply Rmult_lt_0_compat; lra).
    set (r := Rc (a - ad / 2) 0 (a - ad / 2 + ((b - a) + ad)) (si_height inst)).
    destruct (modify_total p (a - ad / 2) ((b - a) + ad) ptr T ltac:(lra)) as (p' & Em & T'). fold r in Em.
    assert (Em' : modify_strip_centered p (occupied_width (sp_layout p) * (f1 + tol))%num ptr = Ok p').
    { unfold modify_strip_centered, occupied_width. rewrite Er.
      match goal with |- modify_strip p ?r0 ptr = _ => assert (Rr : r0 = r) end.
      { unfold r, ad, f2. rewrite Y1, Y2. cbn [fsub fadd fmul fdiv f1 NLT2 RNumT]. f_equal; field. }
      rewrite Rr. exact Em. }
    exists p'. split; [|exact T']. unfold fit_strip. rewrite Em'. cbn [rbind].
    destruct (modify_SPInv M BSok _ _ _ _ _ Ids fine_it Q Em) as (Q' & bn & keep & Eb & El & Pm & Kp).
    assert (All : filter keep (placed (sp_layout p)) = placed (sp_layout p)).
    { apply filter_id. intros x Hx. apply Kp; [exact Hx|]. intros y Cy.
      assert (Pr : proper r) by (split; cbn; lra).
      destruct (strip_poly M _ _ _ _ Eb) as (Ep & _). destruct (rect_pts _ _ Ep) as (_ & _ & _ & Pp). specialize (Pp Pr).
      pose proof (q_packed _ _ _ Q) as (_ & _ & A3 & A4). destruct (A4 x Hx) as (it & q & ang & Ni & _).
      destruct (q_strip _ _ _ Q) as (r0 & c0 & ptr0 & Eb0). pose proof (strip_poly M _ _ _ _ Eb0) as (_ & Es0).
      assert (Nb : ~ blocked (fact_of (hazard_new (D := dtransf) BinExterior (bn_outer (ly_bin (sp_layout p))))) y).
      { apply (A3 x it q (hazard_new BinExterior (bn_outer (ly_bin (sp_layout p)))) y Hx Ni); [rewrite Es0; left; reflexivity| |exact Cy]. intros (k & z & E & _). discriminate. }
      apply (even_odd_outer _ _ (outer_good _ Bf)) in Nb as (_ & (_ & O2)). fold (strip_bbox p) in O2. rewrite Y1, Y2 in O2.
      assert (O1 : a <= px y <= b).
      { unfold placed in Hx. apply in_map_iff in Hx as (pi & <- & Hp). cbn [fst snd] in *. destruct (range_covers _ _ _ Er pi Hp) as (A1 & A2).
        rewrite Forall_forall in Kn. destruct (known_facts M items Snd (sp_layout p) pi L Hp (Kn pi Hp)) as (it' & q' & Ni' & Es). rewrite Ni in Ni'. injection Ni' as <- <-.
        apply (covers_at M _ _ _ _ _ _ Ni) in Cy. pose proof (Bx pi Hp) as Gp.
        assert (Cy' : region (p_pts (a_obj (pi_shape pi))) y) by (rewrite Es; exact Cy).
        pose proof (region_in_box _ _ _ (proj1 (gs_box _ Gp)) Cy') as (Ib & _). lra. }
      assert (In1 : interior (p_pts (a_obj (bn_outer bn))) y).
      { rewrite Pp. apply (rbox_inside (x_min r) (y_min r) (x_max r) (y_max r) 0 y); unfold r; cbn [x_min x_max y_min y_max]; lra. }
      intros Bl. unfold blocked in Bl. cbn in Bl. destruct In1 as (N1 & N2). destruct Bl as [Bl|Bl]; [exact (N1 Bl)|congruence]. }
    rewrite All in Pm. pose proof (q_inv _ _ _ Q) as I. pose proof (q_inv _ _ _ Q') as I'.
    rewrite (len_spec _ (s_sm _ _ _ I)), (len_spec _ (s_sm _ _ _ I')). apply Permutation_length in Pm. unfold placed in Pm. rewrite !map_length in Pm.
    rewrite Pm, Nat.eqb_refl. reflexivity.
  Qed.
  Lemma screate_ok : forall p, SInv inst p [] -> HL M items (sp_layout p) -> exists s p', sp_create p = Ok (s, p').
  Proof.
    intros p I H. unfold sp_create, placed_qtys. rewrite (s_inst _ _ _ I).
    assert (K : forall xs, (forall x, In x xs -> (fst x < length items)%nat) -> exists r, rmapM (fun x : nat * Z => q <- item_qty items (fst x) ;; Ok (Z.of_nat q - snd x)%Z) xs = Ok r).
    { induction xs as [|[i z] xs IH]; intros Hx; cbn [rmapM]; [eauto|]. unfold item_qty at 1. pose proof (Hx _ (or_introl eq_refl)) as Lx. cbn [fst] in Lx.
      cbn [fst]. destruct (nth_error items i) as [[it q]|] eqn:Ei; [|apply nth_error_None in Ei; lia]. cbn [expect rbind snd].
      destruct IH as (r & Er); [intros x Hx'; apply Hx; right; exact Hx'|]. rewrite Er. cbn [rbind]. eauto. }
    destruct (K (combine (seq 0 (length (sp_missing p))) (sp_missing p))) as (pl & Epl).
    { intros [i z] Hx. apply in_combine_l in Hx. apply in_seq in Hx. cbn [fst]. rewrite (proj1 (s_miss _ _ _ I)) in Hx. lia. }
    rewrite Epl. cbn [rbind]. destruct (HL_snapshot M BSok items _ H) as (s & l' & E).
    assert (E' : layout_snapshot (sp_layout p) = Ok (s, l')) by exact E. rewrite E'. cbn [rbind]. eauto.
  Qed.
  Lemma screate_total : forall p, STI p -> exists s p', sp_create p = Ok (s, p').
  Proof. intros p (Q & H & _). exact (screate_ok p (q_inv _ _ _ Q) H). Qed.

  Lemma some_demand : forall its : list (item R * nat), 0 < items_area its -> exists i it q, nth_error its i = Some (it, S q).
  Proof.
    intros its H. destruct (Exists_dec (fun x => snd x <> 0%nat) its (fun x => match Nat.eq_dec (snd x) 0 with left e => right (fun n => n e) | right n => left n end)) as [E|E].
    - apply Exists_exists in E as ([it q] & Hx & Hq). apply In_nth_error in Hx as (i & Hi). destruct q as [|q]; [contradiction Hq; reflexivity|]. eauto.
    - exfalso. assert (Z : items_area its = 0); [|lra]. unfold items_area, fsum.
      assert (K : forall its acc, ~ Exists (fun x : item R * nat => snd x <> 0%nat) its -> fold_left fadd (map (fun x => (p_area (it_shape (fst x)) * fofN (snd x))%num) its) acc = acc).
      { clear. induction its as [|[it q] its IH]; intros acc N; cbn [map fold_left]; [reflexivity|]. rewrite IH; [|intros Ex; apply N; right; exact Ex].
        destruct q as [|q]; [|exfalso; apply N; left; discriminate]. cbn. lra. }
      apply K. exact E.
  Qed.
  Lemma lbf_sp_total : forall fuel tol cfg (g : G) ptr, 0 < tol -> (lc_local cfg <= lc_samples cfg)%nat -> (0 < lc_samples cfg)%nat -> hulls_constructible items ->
    0 < si_area inst -> si_area inst = items_area items -> exists o, lbf_sp fuel tol inst c cfg g ptr = Ok o.
  Proof.
    intros fuel tol cfg g ptr Ht Lc Ls Hu Ha Ea. unfold lbf_sp. rewrite (proj2 (Nat.ltb_lt 0 (lc_samples cfg)) Ls). cbn [rassert rbind].
    set (w := (si_area inst * f2 / si_height inst)%num). assert (Hw : 0 < w).
    { unfold w, f2. cbn [fmul fdiv fadd f1 NLT2 RNumT]. apply Rmult_lt_0_compat; [lra|apply Rinv_0_lt_compat; exact Hh]. }
    destruct (new_total w ptr Hw) as (p0 & E0 & T0). rewrite E0. cbn [rbind].
    destruct (order_total M (BPI items 0 []) Hu) as (order & Eo). assert (Eo' : item_order items = Ok order) by exact Eo. rewrite Eo'. cbn [rbind].
    pose proof (order_perm M items order Eo) as Pm.
    destruct (sfills_total cfg fuel Lc order p0 g (S ptr)) as (o & Ef & K); [|exact T0|].
    { intros i Hi. apply (Permutation_in _ Pm) in Hi. apply in_seq in Hi. lia. }
    rewrite Ef. cbn [rbind]. destruct o as [[[p g'] ptr']|]; [|eauto]. specialize (K _ eq_refl). cbn [fst] in K.
    assert (Np : placed (sp_layout p) <> []).
    { pose proof T0 as (Q0 & _ & Ne0 & _). destruct (sfill_all_ok M BSok inst false tol cfg Ids _ _ _ _ _ _ _ _ (q_inv _ _ _ Q0) Ne0 Ef) as (_ & _ & _ & _ & _ & D1).
      rewrite Ea in Ha. destruct (some_demand items Ha) as (i & it & q & Ni).
      assert (Hc : count i (lst (sp_layout p)) = S q).
      { apply (D1 fine_it Q0 i it (S q)); [|exact Ni]. eapply Permutation_in; [symmetry; exact Pm|]. apply in_seq. assert (Z : nth_error items i <> None) by congruence. apply nth_error_Some in Z. lia. }
      intros Z. unfold lst in Hc. unfold placed in Z. apply map_eq_nil in Z. rewrite Z in Hc. discriminate. }
    destruct (fit_total tol p ptr' Ht K Np) as (p1 & E1 & T1). rewrite E1. cbn [rbind]. destruct (screate_total p1 T1) as (s & p2 & E2). rewrite E2. cbn [rbind]. eauto.
  Qed.
End L.
