(** Debug builds of the strip packing problem; every [Num F], up to the strips it makes. *)
From Coq Require Import List Bool Arith ZArith Lia Permutation.
From Verif Require Import Base Num GeoModel HazardModel QTModel TransfModel HpgModel CdeModel CdeSpec
  PolyModel SlotMapModel LayoutModel ProblemModel ProblemSpec AssertModel AssertSpec AssertLayoutModel AssertLayoutSpec
  AssertProblemModel AssertProblemSpec
  BaseProofs HazVecProofs QTProofs CdeProofs CdeOpsProofs CdeHistProofs CdeCollectProofs SlotMapProofs LayoutProofs ProblemProofs ProblemOpsProofs StripProofs
  MirrorProofs AssertRefProofs AssertProofs AssertLayoutProofs AssertProblemProofs.
Import ListNotations.

Section PS.
  Context {F : Type} {N : Num F} {D : Type} {ED : EqD D} {BS : BSearch} {DC : DComp F D}.
  Hypothesis BSok : bsearch_ok BS.
  Hypothesis sym : @feq_sym F N.
  Local Notation item := (item F).
  Local Notation bin := (bin F D).
  Local Notation layout := (layout F D).
  Local Notation lsnap := (lsnap F D).
  Local Notation solution := (solution F D).
  Local Notation sp := (sp F D).
  Local Notation popt := (popt D).
  Local Notation pitem := (pitem F D).

  (** *** making a strip *)
  Lemma strip_d : forall r c ptr, cfg_cells c = 0 ->
    (forall s, poly_of_rect r = Ok s -> divides (cfg_depth c) (inflate_to_square (p_bbox s))) ->
    bin_from_strip_d (D := D) r c ptr = bin_from_strip r c ptr /\
    forall b : bin, bin_from_strip r c ptr = Ok b -> checked_bin b /\ bn_id b = 0 /\ bn_cfg b = c /\ poly_of_rect r = Ok (a_obj (bn_outer b)).
  Proof.
    intros r c ptr Hc Hd.
    assert (G : forall b : bin, bin_from_strip r c ptr = Ok b -> good_bin b) by (intros b E; eapply (strip_good sym), E).
    unfold bin_from_strip_d, bin_from_strip in *. destruct (poly_of_rect r) as [s|] eqn:Es; [|split; [reflexivity|discriminate]]. cbn [rbind] in *.
    specialize (Hd s eq_refl). split.
    - unfold bin_new_d, bin_new. cbn [map no_repeat rassert rbind forallb]. rewrite Hc.
      rewrite (cde_new_d_ok BSok (cfg_depth c) _ Hd); [reflexivity| | |congruence].
      + constructor; [|constructor]. eapply (poly_new_good sym), Es.
      + constructor; [intros []|constructor].
    - intros b E. pose proof (G b E) as Gb. pose proof E as E'. apply bin_new_spec in E' as (E1 & E2 & _ & E3 & _).
      unfold bin_new in E. repeat (apply rbind_ok in E as (? & _ & E)). injection E as <-. cbn [bn_id bn_cfg bn_outer a_obj] in *.
      split; [|auto]. split; [exact Gb|]. split; [exact Hc|]. exact Hd.
  Qed.

  (** what is known of the strips *)
  Variable Q : bin -> Prop.
  Hypothesis HQ : forall b, Q b -> checked_bin b /\ bn_id b = 0.
  Record SW (inst : spinst F) (p : sp) (h : list solution) : Prop := {
    sw_inst : sp_inst p = inst;
    sw_layout : DI (item_shape (si_items inst)) (sp_layout p);
    sw_bin : Q (ly_bin (sp_layout p));
    sw_sols : Forall (fun s => Forall (fun sn => SI (item_shape (si_items inst)) sn /\ Q (ls_bin sn)) (so_layouts s)) h
  }.
  Lemma SW_SMI : forall inst p h, SW inst p h -> SMI inst p h.
  Proof.
    intros inst p h [A B C E]. split; [exact A|exact (proj1 B)|]. eapply Forall_impl; [|exact E]. intros s. apply Forall_impl. intros sn. apply proj1.
  Qed.
  Lemma sp_place_SW : forall inst (p : sp) h o ptr, sids_ok inst -> SW inst p h ->
    good_poly (shape_at (item_shape (si_items inst)) (po_item o) (po_dt o)) ->
    ~ In (po_item o, po_dt o) (placed (sp_layout p)) ->
    sp_place_d p o ptr = sp_place p o ptr /\ forall r p', sp_place p o ptr = Ok (r, p') -> SW inst p' h.
  Proof.
    intros inst p h o ptr Ids [I1 I2 I3 I4] Gp Nd. unfold sp_place_d, sp_place.
    destruct (rassert _) as [u|]; [|split; [reflexivity|discriminate]]. cbn [rbind]. rewrite I1.
    destruct (item_of (si_items inst) (po_item o)) as [it|] eqn:Eit; [|split; [reflexivity|discriminate]]. cbn [rbind].
    apply item_of_inv in Eit as (q & Eit). pose proof (Ids _ _ _ Eit) as Ei.
    destruct (place_d BSok _ (sp_layout p) it (po_dt o) ptr I2) as (Ed & k & l' & E & L'); [rewrite Ei; symmetry; eapply item_shape_of, Eit|rewrite Ei; exact Gp|rewrite Ei; exact Nd|].
    rewrite Ed. split; [reflexivity|]. intros r p' H. rewrite E in H. cbn [rbind] in H. apply rbind_ok in H as (m & Em & H). injection H as <- <-.
    split; cbn [sp_inst sp_layout]; auto. apply place_content in E as (E1 & E2 & _). congruence.
  Qed.
  Lemma sp_remove_SW : forall inst (p : sp) h li k b, SW inst p h ->
    sp_remove_d p li k b = sp_remove p li k b /\ forall r p', sp_remove p li k b = Ok (r, p') -> SW inst p' h.
  Proof.
    intros inst p h li k b [I1 I2 I3 I4]. unfold sp_remove_d, sp_remove.
    destruct (rassert _) as [u|]; [|split; [reflexivity|discriminate]]. cbn [rbind].
    destruct (remove_d BSok _ _ k b I2) as (Ed & Hd). rewrite Ed. split; [reflexivity|]. intros r p' H.
    apply rbind_ok in H as ([pi l] & Er & H). apply rbind_ok in H as (m & Em & H). injection H as <- <-.
    split; cbn [sp_inst sp_layout]; auto; [eapply Hd, Er|]. apply remove_content in Er as (_ & Er & _). congruence.
  Qed.
  Lemma replace_SW : forall inst h xs (p : sp), sids_ok inst -> SW inst p h ->
    Forall (fun x => good_poly (shape_at (item_shape (si_items inst)) (fst (fst x)) (snd (fst x)))) xs ->
    NoDup (map fst xs) -> (forall x, In x (map fst xs) -> ~ In x (placed (sp_layout p))) ->
    rfold replace_item_d xs p = rfold replace_item xs p /\ forall p', rfold replace_item xs p = Ok p' -> SW inst p' h.
  Proof.
    induction xs as [|[[id d] ptr] xs IH]; intros p Ids I Gx ND Fr; cbn [rfold].
    - split; [reflexivity|]. intros p' X. injection X as <-. exact I.
    - inversion Gx as [|? ? G1 Gx']; subst. cbn [map fst] in ND. inversion ND as [|? ? N1 ND']; subst. cbn [fst snd] in *.
      assert (Step : replace_item_d p ((id, d), ptr) = replace_item p ((id, d), ptr) /\
        forall p1, replace_item p ((id, d), ptr) = Ok p1 -> SW inst p1 h /\ forall x, In x (map fst xs) -> ~ In x (placed (sp_layout p1))).
      { pose proof I as [I1 I2 I3 I4]. pose proof I2 as ((_ & _ & Rl) & _). pose proof (rl_inv _ _ _ _ _ _ _ Rl) as Iv. pose proof (inv_repr _ _ _ Iv) as Rp.
        unfold replace_item_d, replace_item. rewrite I1.
        destruct (item_of (si_items inst) id) as [it|] eqn:Eit; [|split; [reflexivity|discriminate]]. cbn [rbind].
        assert (Gs : good_poly (tr_poly (dcompose d) (it_shape it))).
        { apply item_of_inv in Eit as (q & Eit). rewrite <- (item_shape_of _ _ _ _ Eit). exact G1. }
        rewrite (poly_d_ok _ _ _ _ Rp). destruct (poly_collides _ _ _) as [b|]; [|split; [reflexivity|discriminate]]. cbn [rbind]. destruct b.
        - match goal with |- rbind (collect_poly_d ?c ?s ?irr ?det) _ = _ /\ _ =>
            pose proof (collect_d_ok c _ _ _ Rp (CollPoly s) irr det) as Ec; destruct (collect_poly_spec _ _ c s irr det Iv Gs) as (new & En & _) end.
          cbn [collect_d collect] in Ec. rewrite Ec, En. cbn [rbind]. split; [reflexivity|]. intros p1 X. injection X as <-. split; [exact I|].
          intros x Hx. apply Fr. right. exact Hx.
        - assert (Nd : ~ In (id, d) (placed (sp_layout p))) by (apply Fr; left; reflexivity).
          destruct (sp_place_SW inst p h (PO (Real 0) id d) ptr Ids I G1 Nd) as (Ed & Hs). rewrite Ed. split; [reflexivity|].
          intros p1 X. apply rbind_ok in X as ([r p2] & E & X). injection X as <-. split; [eapply Hs, E|].
          eapply (sp_place_SMI BSok) in E as (_ & P); [|exact Ids|apply SW_SMI; exact I|exact G1|exact Nd].
          intros x Hx Hp. eapply Permutation_in in Hp; [|exact P]. cbn [po_item po_dt] in Hp. destruct Hp as [<-|Hp]; [contradiction|].
          apply (Fr x); [right; exact Hx|exact Hp]. }
      destruct Step as (E & Hs). rewrite E. destruct (replace_item p ((id, d), ptr)) as [p1|]; [|split; [reflexivity|discriminate]]. cbn [rbind].
      destruct (Hs p1 eq_refl) as (I1 & F1). apply IH; assumption.
  Qed.
  Lemma modify_SW : forall inst h (p : sp) r ptr, sids_ok inst -> SW inst p h ->
    (forall s, poly_of_rect r = Ok s -> divides (cfg_depth (bn_cfg (ly_bin (sp_layout p)))) (inflate_to_square (p_bbox s))) ->
    (forall b : bin, bin_from_strip r (bn_cfg (ly_bin (sp_layout p))) ptr = Ok b -> checked_bin b -> bn_id b = 0 -> Q b) ->
    modify_strip_d p r ptr = modify_strip p r ptr /\ forall p', modify_strip p r ptr = Ok p' -> SW inst p' h.
  Proof.
    intros inst h p r ptr Ids I Hd Hq. pose proof I as [I1 I2 I3 I4]. unfold modify_strip_d, modify_strip.
    destruct (rmapM _ _) as [m|]; [|split; [reflexivity|discriminate]]. cbn [rbind].
    destruct (strip_d r (bn_cfg (ly_bin (sp_layout p))) ptr (proj1 (proj2 (proj1 (HQ _ I3)))) Hd) as (Eb & Hb). rewrite Eb.
    destruct (bin_from_strip r (bn_cfg (ly_bin (sp_layout p))) ptr) as [b|]; [|split; [reflexivity|discriminate]]. cbn [rbind].
    destruct (Hb b eq_refl) as (Cb & Ib & _).
    set (pl := map (fun pi : pitem => (pi_item pi, pi_dt pi)) (sm_values (ly_items (sp_layout p)))) in *.
    assert (Ef : map fst (combine pl (seq (S ptr) (length pl))) = pl) by (apply combine_fst; rewrite seq_length; reflexivity).
    apply replace_SW; [exact Ids| | | |].
    - split; cbn [sp_inst sp_layout layout_new ly_bin]; auto. apply (new_DI BSok), Cb.
    - rewrite Forall_forall. intros x Hx. apply (in_map fst) in Hx. rewrite Ef in Hx. unfold pl in Hx.
      apply in_map_iff in Hx as (pi & <- & Hpi). cbn [fst snd].
      destruct I2 as ((_ & (_ & Fi & _) & _) & _). rewrite Forall_forall in Fi. destruct (Fi pi Hpi) as (E & G).
      rewrite <- E. exact G.
    - rewrite Ef. exact (proj1 (LI_mirror BSok _ _ (proj1 I2))).
    - intros x _ [].
  Qed.
  Lemma sp_create_SW : forall inst (p : sp) h, SW inst p h -> SInv inst p h ->
    sp_create_d p = sp_create p /\ forall s p', sp_create p = Ok (s, p') -> SW inst p' (h ++ [s]).
  Proof.
    intros inst p h [I1 I2 I3 I4] Iv. unfold sp_create_d, sp_create.
    destruct (placed_qtys _ _) as [pl|]; [|split; [reflexivity|discriminate]]. cbn [rbind].
    destruct (snapshot_d BSok _ _ I2) as (Ed & sn & l & E & Dl & Ss & B1 & B2). rewrite Ed, E. cbn [rbind].
    assert (A : assert_matches [l] (Sol (S (sp_sctr p)) [sn] (usage_of [l]) pl (map snd (si_items (sp_inst p))) [0]) = Ok tt).
    { apply assert_same. intros l' [<-|[]]. apply snapshot_content in E as (C1 & C2 & _). exists sn. unfold find_snap. cbn [so_layouts find].
      assert (Ei : ls_id sn = ly_id l) by (unfold snap_content, content in *; congruence). rewrite Ei, Nat.eqb_refl. split; [reflexivity|]. congruence. }
    rewrite A. cbn [rbind]. split; [reflexivity|]. intros s p' X. injection X as <- <-.
    split; cbn [sp_inst sp_layout]; auto; [congruence|]. apply Forall_app. split; [exact I4|]. constructor; [|constructor]. cbn [so_layouts]. constructor; [|constructor].
    split; [exact Ss|]. rewrite B1. exact I3.
  Qed.
  (** also for a solution of another problem, whose strip may be another one *)
  Lemma sp_restore_SW : forall inst (p : sp) h s sn, SW inst p h -> so_layouts s = [sn] -> SI (item_shape (si_items inst)) sn -> Q (ls_bin sn) ->
    sp_restore_d p s = sp_restore true p s /\ forall p', sp_restore true p s = Ok p' -> SW inst p' h.
  Proof.
    intros inst p h s sn [I1 I2 I3 I4] Es Ss Qs. unfold sp_restore_d, sp_restore. rewrite Es. cbn [length Nat.eqb rassert rbind nth_error expect].
    assert (K : let X := (if Nat.eqb (ly_id (sp_layout p)) (ls_id sn) then layout_restore (sp_layout p) sn else layout_from_snapshot sn) in
      (if Nat.eqb (ly_id (sp_layout p)) (ls_id sn) then layout_restore_d (sp_layout p) sn else layout_from_snapshot_d sn) = X /\
      forall l, X = Ok l -> DI (item_shape (si_items inst)) l /\ Q (ly_bin l) /\ recorded_in s l).
    { cbv zeta. pose proof (HQ _ I3) as (_ & B1). pose proof (HQ _ Qs) as (C2 & B2).
      assert (Rec : forall l, ly_id l = ls_id sn -> bn_id (ly_bin l) = 0 -> ly_items l = ls_items sn -> recorded_in s l).
      { intros l E1 E2 E3. exists sn. rewrite Es. cbn [find]. rewrite E1, Nat.eqb_refl. split; [reflexivity|]. split; [congruence|].
        unfold snap_placed, placed. rewrite E3. apply incl_refl. }
      destruct (Nat.eqb_spec (ly_id (sp_layout p)) (ls_id sn)) as [Ei|_].
      - destruct (restore_d BSok _ (sp_layout p) sn I2 Ss) as (Ed & Hd); [congruence|]. split; [exact Ed|]. intros l E. split; [apply Hd, E|].
        apply restore_content in E as (_ & C). unfold content in C. injection C as E1 E2 E3. rewrite E2. split; [exact I3|]. apply Rec; congruence.
      - destruct (from_snapshot_d BSok _ sn Ss C2) as (Ed & Hd). split; [exact Ed|]. intros l E. split; [apply Hd, E|].
        apply from_snapshot_content in E. unfold content, snap_content in E. injection E as E1 E2 E3. rewrite E2. split; [exact Qs|]. apply Rec; congruence. }
    cbv zeta in K. destruct K as (Ed & Hd). rewrite Ed.
    match type of Hd with forall l, ?x = Ok l -> _ => set (X := x) in * end.
    destruct X as [l|]; [|split; [reflexivity|discriminate]]. cbn [rbind]. destruct (Hd l eq_refl) as (Dl & Ql & Rl).
    destruct (restored_missing true _ _ _) as [m|]; [|split; [reflexivity|discriminate]]. cbn [rbind].
    unfold assert_matches. rewrite (proj2 (matches_iff [l] s)) by (constructor; [exact Rl|constructor]). cbn [rbind rassert].
    split; [reflexivity|]. intros p' X. injection X as <-. split; cbn [sp_inst sp_layout]; auto.
  Qed.
  Lemma sp_flush_SW : forall inst (p : sp) h, SW inst p h -> sp_flush_d p = sp_flush p /\ forall p', sp_flush p = Ok p' -> SW inst p' h.
  Proof.
    intros inst p h [I1 I2 I3 I4]. unfold sp_flush_d, sp_flush. destruct (flush_d BSok _ _ I2) as (Ed & Hd). rewrite Ed. split; [reflexivity|].
    intros p' X. apply rbind_ok in X as (l & E & X). injection X as <-. split; cbn [sp_inst sp_layout]; auto. apply flush_content in E. unfold content in E. congruence.
  Qed.
End PS.
