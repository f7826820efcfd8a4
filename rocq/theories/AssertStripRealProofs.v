(** Debug builds of the strip packing problem in exact arithmetic. *)
From Coq Require Import List Bool Arith ZArith Lia Permutation.
From Verif Require Import Base Num GeoModel HazardModel QTModel TransfModel HpgModel CdeModel CdeSpec
  PolyModel SlotMapModel LayoutModel ProblemModel ProblemSpec AssertModel AssertSpec AssertLayoutModel AssertLayoutSpec
  AssertProblemModel AssertProblemSpec Instances ShapeSpec
  BaseProofs LayoutProofs ProblemProofs ProblemOpsProofs StripProofs MirrorProofs ProblemThmProofs NormProofs ParityProofs FitProofs RectPolyProofs CentreProofs ConstructProofs
  RegionProofs GeoRectProofs PlaceExampleProofs LbfSpProofs
  AssertRefProofs AssertProofs AssertLayoutProofs AssertRealProofs AssertProblemProofs AssertStripProofs.
From Coq Require Import Reals Lra.
From Verif Require Import GeoModel HazardModel QTModel TransfModel HpgModel CdeModel CdeSpec GeoSpec PlaceSpec HpgSpec ShapeSpec AssertModel AssertSpec.
Import ListNotations.
Local Open Scope R_scope.

Section SR.
  Variable M : R.
  #[local] Instance NSR : Num R := RNumT Reqb M.
  Context {D : Type} {ED : EqD D} {BS : BSearch} {DC : DComp R D}.
  Hypothesis BSok : bsearch_ok BS.
  Local Notation bin := (bin R D).
  Local Notation sp := (sp R D).
  Local Notation solution := (solution R D).

  Lemma rect_iff : forall r : rrect, rect_ok r = true <-> proper r.
  Proof. intros r. unfold rect_ok, proper. rewrite andb_true_iff. unfold flt; cbn [RNumT NSR]. rewrite !Rltb_spec. tauto. Qed.
  Lemma feq_sym_M : @feq_sym R NSR.
  Proof. intros a b. cbn. unfold Reqb. destruct (Req_EM_T a b), (Req_EM_T b a); congruence. Qed.
  Lemma square_proper : forall r : rrect, proper r -> proper (inflate_to_square r).
  Proof.
    intros r (A & B). unfold proper, inflate_to_square, f2. cbn [x_min x_max y_min y_max flt fsub fadd fdiv f0 f1 NSR RNumT]. unfold Rltb.
    destruct (Rlt_dec _ _) as [L|L]; [split; cbn; lra|]. destruct (Rlt_dec _ _) as [L'|L']; split; cbn; lra.
  Qed.
  Lemma rect_M : forall r s, poly_of_rect r = Ok s -> poly_of_rect (N := RNum) r = Ok s.
  Proof. intros r s H. unfold poly_of_rect in *. rewrite <- (poly_new_M M). exact H. Qed.
  Lemma rect_box : forall r s, proper r -> poly_of_rect r = Ok s -> p_bbox s = r.
  Proof. intros r s (A & B) H. rewrite (rect_bbox _ _ (rect_M _ _ H)), !Rmin_left, !Rmax_right by lra. destruct r; reflexivity. Qed.
  Definition Qs (b : bin) : Prop := checked_bin b /\ bn_id b = 0%nat /\ proper (p_bbox (a_obj (bn_outer b))).
  Lemma Qs_H : forall b, Qs b -> checked_bin b /\ bn_id b = 0%nat.
  Proof. intros b (A & B & _). auto. Qed.
  Lemma strip_div : forall r n s, proper r -> poly_of_rect r = Ok s -> divides n (inflate_to_square (p_bbox s)).
  Proof. intros r n s P H. rewrite (rect_box r s P H). exact (proper_divides n _ (square_proper r P)). Qed.
  Lemma strip_Qs : forall r c ptr (b : bin), proper r -> bin_from_strip r c ptr = Ok b -> checked_bin b -> bn_id b = 0%nat -> Qs b.
  Proof.
    intros r c ptr b P H Cb Ib. split; [exact Cb|]. split; [exact Ib|]. unfold bin_from_strip in H. apply rbind_ok in H as (s & Es & H).
    unfold bin_new in H. repeat (apply rbind_ok in H as (? & _ & H)). injection H as <-. cbn [bn_outer a_obj]. rewrite (rect_box r s P Es). exact P.
  Qed.
  Local Notation SW := (SW (D := D) Qs).

  (** *** the operations *)
  Lemma modify_R : forall inst h (p : sp) r ptr, sids_ok inst -> SW inst p h -> proper r ->
    modify_strip_d p r ptr = modify_strip p r ptr /\ forall p', modify_strip p r ptr = Ok p' -> SW inst p' h.
  Proof.
    intros inst h p r ptr Ids I P. apply (modify_SW BSok feq_sym_M Qs Qs_H); [exact Ids|exact I| |].
    - intros s Es. eapply strip_div; eassumption.
    - intros b Eb Cb Ib. eapply strip_Qs; eassumption.
  Qed.
  Lemma rect_new_ok : forall a b c d : R, proper (Rc a b c d) -> rect_new_d a b c d = Ok (Rc a b c d).
  Proof. intros a b c d P. unfold rect_new_d. rewrite (proj2 (rect_iff _) P). reflexivity. Qed.
  Lemma thin_panics : forall (p : sp) r ptr, x_min r = x_max r -> modify_strip p r ptr = Panic.
  Proof.
    intros p r ptr E. unfold modify_strip. destruct (rmapM _ _); [|reflexivity]. cbn [rbind]. unfold bin_from_strip.
    destruct (poly_of_rect r) as [s|] eqn:Es; [|reflexivity]. destruct (rect_pts r s (rect_M _ _ Es)) as (X & _). contradiction.
  Qed.
  Lemma back_R : forall inst h (p : sp) w ptr, sids_ok inst -> SW inst p h -> 0 < w ->
    modify_strip_in_back_d p w ptr = modify_strip_in_back p w ptr /\ forall p', modify_strip_in_back p w ptr = Ok p' -> SW inst p' h.
  Proof.
    intros inst h p w ptr Ids I W. pose proof (sw_bin _ _ _ _ I) as (_ & _ & P). unfold modify_strip_in_back_d, modify_strip_in_back.
    assert (Pr : proper (Rc (x_min (strip_bbox p)) (y_min (strip_bbox p)) (x_min (strip_bbox p) + w) (y_max (strip_bbox p)))).
    { destruct P as (P1 & P2). unfold strip_bbox. split; cbn [x_min x_max y_min y_max]; lra. }
    cbv zeta. change (fadd (x_min (strip_bbox p)) w) with (x_min (strip_bbox p) + w). rewrite (rect_new_ok _ _ _ _ Pr). cbn [rbind]. apply modify_R; assumption.
  Qed.
  Lemma front_R : forall inst h (p : sp) w ptr, sids_ok inst -> SW inst p h -> 0 < w ->
    modify_strip_at_front_d p w ptr = modify_strip_at_front p w ptr /\ forall p', modify_strip_at_front p w ptr = Ok p' -> SW inst p' h.
  Proof.
    intros inst h p w ptr Ids I W. pose proof (sw_bin _ _ _ _ I) as (_ & _ & P). unfold modify_strip_at_front_d, modify_strip_at_front.
    assert (Pr : proper (Rc (x_max (strip_bbox p) - w) (y_min (strip_bbox p)) (x_max (strip_bbox p)) (y_max (strip_bbox p)))).
    { destruct P as (P1 & P2). unfold strip_bbox. split; cbn [x_min x_max y_min y_max]; lra. }
    cbv zeta. change (fsub (x_max (strip_bbox p)) w) with (x_max (strip_bbox p) - w). rewrite (rect_new_ok _ _ _ _ Pr). cbn [rbind]. apply modify_R; assumption.
  Qed.
  Lemma centered_R : forall inst h (p : sp) w ptr, sids_ok inst -> SW inst p h -> 0 <= w ->
    modify_strip_centered_d p w ptr = modify_strip_centered p w ptr /\ forall p', modify_strip_centered p w ptr = Ok p' -> SW inst p' h.
  Proof.
    intros inst h p w ptr Ids I W. pose proof (sw_bin _ _ _ _ I) as (_ & _ & P). unfold modify_strip_centered_d, modify_strip_centered.
    assert (K : let '(a, b) := match occupied_range (sp_layout p) with Some r => r | None => (f0, f0) end in
              (b + (w - occupied_width (sp_layout p)) / 2) - (a - (w - occupied_width (sp_layout p)) / 2) = w).
    { unfold occupied_width. destruct (occupied_range (sp_layout p)) as [(a, b)|]; cbn; lra. }
    destruct (match occupied_range (sp_layout p) with Some r => r | None => (f0, f0) end) as [a b]. cbv zeta.
    set (v := occupied_width (sp_layout p)) in *.
    change (fsub a (fdiv (fsub w v) f2)) with (a - (w - v) / (1 + 1)). change (fadd b (fdiv (fsub w v) f2)) with (b + (w - v) / (1 + 1)).
    destruct W as [W|W].
    - assert (Pr : proper (Rc (a - (w - v) / (1 + 1)) (y_min (strip_bbox p)) (b + (w - v) / (1 + 1)) (y_max (strip_bbox p)))).
      { destruct P as (P1 & P2). unfold strip_bbox. split; cbn [x_min x_max y_min y_max]; lra. }
      rewrite (rect_new_ok _ _ _ _ Pr). cbn [rbind]. apply modify_R; assumption.
    - rewrite thin_panics by (cbn [x_min x_max]; lra). split; [|discriminate].
      unfold rect_new_d. destruct (rect_ok _) eqn:Er; [|reflexivity]. apply rect_iff in Er. destruct Er as (Er & _). cbn [x_min x_max] in Er. exfalso. lra.
  Qed.
  Lemma fit_R : forall inst h (p : sp) tol ptr, sids_ok inst -> SW inst p h -> 0 <= tol ->
    fit_strip_d tol p ptr = fit_strip tol p ptr /\ forall p', fit_strip tol p ptr = Ok p' -> SW inst p' h.
  Proof.
    intros inst h p tol ptr Ids I T. unfold fit_strip_d, fit_strip.
    assert (W : 0 <= occupied_width (sp_layout p) * (1 + tol)).
    { apply Rmult_le_pos; [|lra]. unfold occupied_width. destruct (occupied_range (sp_layout p)) as [(a, b)|] eqn:E; [|cbn; lra].
      apply (range_ordered (sp_layout p)) in E; [cbn; lra|]. pose proof (sw_layout _ _ _ _ I) as ((_ & (_ & Hf & _) & _) & _). unfold ord.
      eapply Forall_impl; [|exact Hf]. intros pi (E' & _). rewrite E'. apply bbox_ordered. }
    destruct (centered_R inst h p (occupied_width (sp_layout p) * (1 + tol)) ptr Ids I W) as (Ed & Hd).
    change (fmul (occupied_width (sp_layout p)) (fadd f1 tol)) with (occupied_width (sp_layout p) * (1 + tol)). rewrite Ed. split; [reflexivity|].
    intros p' X. apply rbind_ok in X as (p1 & E1 & X). apply rbind_ok in X as (u & _ & X). injection X as <-. apply Hd, E1.
  Qed.
  Lemma own_sol : forall inst (p : sp) h s, SW inst p h -> SInv inst p h -> In s h ->
    exists sn, so_layouts s = [sn] /\ SI (item_shape (si_items inst)) sn /\ Qs (ls_bin sn).
  Proof.
    intros inst p h s I Iv Hs. pose proof (s_sols _ _ _ Iv) as X. rewrite Forall_forall in X. destruct (X s Hs) as (sn & K).
    pose proof (ss_one _ _ _ K) as El. pose proof (sw_sols _ _ _ _ I) as Y. rewrite Forall_forall in Y. specialize (Y s Hs). rewrite El in Y.
    inversion Y as [|? ? Z _]; subst. eauto.
  Qed.
  Lemma sstep_R : forall inst tol (p : sp) h o, sids_ok inst -> 0 <= tol -> SW inst p h -> SInv inst p h -> sop_ok p o -> sized_strip o ->
    sstep_d tol (p, h) o = sstep true tol (p, h) o /\ forall p' h', sstep true tol (p, h) o = Ok (p', h') -> SW inst p' h' /\ SInv inst p' h'.
  Proof.
    intros inst tol p h o Ids T I Iv V Z.
    assert (J : forall p' h', sstep true tol (p, h) o = Ok (p', h') -> SInv inst p' h') by (intros p' h' E; eapply sstep_inv; eassumption).
    enough (K : sstep_d tol (p, h) o = sstep true tol (p, h) o /\ forall p' h', sstep true tol (p, h) o = Ok (p', h') -> SW inst p' h').
    { destruct K as (K1 & K2). split; [exact K1|]. intros p' h' E. split; [apply K2, E|apply J, E]. }
    clear J. pose proof (sw_inst _ _ _ _ I) as I1.
    destruct o as [o ptr|li k b|r ptr|w ptr|w ptr|w ptr|ptr| |k|]; cbn [sstep_d sstep sop_ok sized_strip] in *.
    - destruct V as (V1 & V2). rewrite I1 in V1. destruct (sp_place_SW BSok Qs inst p h o ptr Ids I V1 V2) as (E & H). rewrite E. split; [reflexivity|].
      intros p' h' X. apply rbind_ok in X as ([r p1] & E1 & X). injection X as <- <-. eapply H, E1.
    - destruct (sp_remove_SW BSok Qs inst p h li k b I) as (E & H). rewrite E. split; [reflexivity|].
      intros p' h' X. apply rbind_ok in X as ([r p1] & E1 & X). injection X as <- <-. eapply H, E1.
    - apply rect_iff in Z. destruct (modify_R inst h p r ptr Ids I Z) as (E & H). rewrite E. split; [reflexivity|].
      intros p' h' X. apply rbind_ok in X as (p1 & E1 & X). injection X as <- <-. apply H, E1.
    - apply Rltb_spec in Z. destruct (back_R inst h p w ptr Ids I Z) as (E & H). rewrite E. split; [reflexivity|].
      intros p' h' X. apply rbind_ok in X as (p1 & E1 & X). injection X as <- <-. apply H, E1.
    - apply Rltb_spec in Z. destruct (front_R inst h p w ptr Ids I Z) as (E & H). rewrite E. split; [reflexivity|].
      intros p' h' X. apply rbind_ok in X as (p1 & E1 & X). injection X as <- <-. apply H, E1.
    - apply Rltb_spec in Z. destruct (centered_R inst h p w ptr Ids I (Rlt_le _ _ Z)) as (E & H). rewrite E. split; [reflexivity|].
      intros p' h' X. apply rbind_ok in X as (p1 & E1 & X). injection X as <- <-. apply H, E1.
    - destruct (fit_R inst h p tol ptr Ids I T) as (E & H). rewrite E. split; [reflexivity|].
      intros p' h' X. apply rbind_ok in X as (p1 & E1 & X). injection X as <- <-. apply H, E1.
    - destruct (sp_create_SW BSok Qs inst p h I Iv) as (E & H). rewrite E. split; [reflexivity|].
      intros p' h' X. apply rbind_ok in X as ([s p1] & E1 & X). injection X as <- <-. eapply H, E1.
    - destruct (nth_error h k) as [s|] eqn:Es; [|split; [reflexivity|discriminate]]. cbn [expect rbind].
      destruct (own_sol inst p h s I Iv (nth_error_In _ _ Es)) as (sn & S1 & S2 & S3).
      destruct (sp_restore_SW BSok Qs Qs_H inst p h s sn I S1 S2 S3) as (E & H). rewrite E. split; [reflexivity|].
      intros p' h' X. apply rbind_ok in X as (p1 & E1 & X). injection X as <- <-. apply H, E1.
    - destruct (sp_flush_SW BSok Qs inst p h I) as (E & H). rewrite E. split; [reflexivity|].
      intros p' h' X. apply rbind_ok in X as (p1 & E1 & X). injection X as <- <-. apply H, E1.
  Qed.
  Lemma srun_R : forall inst tol ops (p : sp) h, sids_ok inst -> 0 <= tol -> SW inst p h -> SInv inst p h -> sops_ok true tol (p, h) ops -> Forall sized_strip ops ->
    rfold (sstep_d tol) ops (p, h) = rfold (sstep true tol) ops (p, h) /\ forall p' h', rfold (sstep true tol) ops (p, h) = Ok (p', h') -> SW inst p' h' /\ SInv inst p' h'.
  Proof.
    intros inst tol ops. induction ops as [|o ops IH]; intros p h Ids T I Iv V Z; cbn [rfold].
    - split; [reflexivity|]. intros p' h' X. injection X as <- <-. auto.
    - cbn [sops_ok fst] in V. destruct V as (V1 & V2). inversion Z as [|? ? Z1 Z2]; subst.
      destruct (sstep_R inst tol p h o Ids T I Iv V1 Z1) as (E & H). rewrite E.
      destruct (sstep true tol (p, h) o) as [[p1 h1]|]; [|split; [reflexivity|discriminate]]. cbn [rbind]. destruct (H p1 h1 eq_refl). apply IH; assumption.
  Qed.
  Lemma new_R : forall (inst : spinst R) w c ptr, 0 < w -> 0 < si_height inst -> cfg_cells c = 0%nat ->
    sp_new_d (D := D) inst w c ptr = sp_new inst w c ptr /\ forall p, sp_new inst w c ptr = Ok p -> SW inst p [] /\ SInv inst p [].
  Proof.
    intros inst w c ptr W H Hc. unfold sp_new_d.
    assert (P : proper (Rc 0 0 w (si_height inst))) by (split; cbn; lra).
    change (@f0 R NSR) with 0. rewrite (rect_new_ok _ _ _ _ P). cbn [rbind].
    destruct (strip_d BSok feq_sym_M (Rc 0 0 w (si_height inst)) c ptr Hc (fun s => strip_div _ _ s P)) as (Ed & Hd). rewrite Ed. split; [reflexivity|].
    intros p E. split; [|eapply sp_new_inv, E]. unfold sp_new in E. apply rbind_ok in E as (b & Eb & E). injection E as <-.
    destruct (Hd b Eb) as (Cb & Ib & _). split; cbn [sp_inst sp_layout]; [reflexivity|apply (new_DI BSok), Cb| |constructor].
    eapply strip_Qs; [exact P|exact Eb|exact Cb|exact Ib].
  Qed.
  Lemma debug_sp : forall (inst : spinst R) tol w c ptr (ops : list (sop R D)), good_sinst inst -> 0 <= tol -> 0 < w -> 0 < si_height inst -> cfg_cells c = 0%nat ->
    (forall p0, sp_new inst w c ptr = Ok p0 -> sops_ok true tol (p0, []) ops) -> Forall sized_strip ops ->
    sp_run_d tol inst w c ptr ops = sp_run true tol inst w c ptr ops.
  Proof.
    intros inst tol w c ptr ops (items & hh & Ei) T W H Hc V Z. apply sinst_ids in Ei. unfold sp_run_d, sp_run.
    destruct (new_R inst w c ptr W H Hc) as (Ed & Hd). rewrite Ed. destruct (sp_new inst w c ptr) as [p0|]; [|reflexivity]. cbn [rbind].
    destruct (Hd p0 eq_refl). apply (srun_R inst tol ops p0 [] Ei); auto.
  Qed.
  (** a solution of another problem of the same instance is restored without objection *)
  Lemma debug_foreign : forall (inst : spinst R) tol w c ptr (ops : list (sop R D)) w' c' ptr' ops' p h p' h' s,
    good_sinst inst -> 0 <= tol -> 0 < w -> 0 < w' -> 0 < si_height inst -> cfg_cells c = 0%nat -> cfg_cells c' = 0%nat ->
    (forall p0, sp_new inst w c ptr = Ok p0 -> sops_ok true tol (p0, []) ops) -> Forall sized_strip ops ->
    (forall p0, sp_new inst w' c' ptr' = Ok p0 -> sops_ok true tol (p0, []) ops') -> Forall sized_strip ops' ->
    sp_run true tol inst w c ptr ops = Ok (p, h) -> sp_run true tol inst w' c' ptr' ops' = Ok (p', h') -> In s h' ->
    sp_restore_d p s = sp_restore true p s.
  Proof.
    intros inst tol w c ptr ops w' c' ptr' ops' p h p' h' s (items & hh & Ei) T W W' H Hc Hc' V Z V' Z' R R' Hs. apply sinst_ids in Ei. unfold sp_run in R, R'.
    apply rbind_ok in R as (p0 & E0 & R). apply rbind_ok in R' as (q0 & F0 & R').
    destruct (new_R inst w c ptr W H Hc) as (_ & Hd). destruct (Hd p0 E0) as (A1 & A2).
    destruct (new_R inst w' c' ptr' W' H Hc') as (_ & Hd'). destruct (Hd' q0 F0) as (B1 & B2).
    destruct (srun_R inst tol ops p0 [] Ei T A1 A2 (V p0 E0) Z) as (_ & K). destruct (K p h R) as (K1 & K2).
    destruct (srun_R inst tol ops' q0 [] Ei T B1 B2 (V' q0 F0) Z') as (_ & L). destruct (L p' h' R') as (L1 & L2).
    destruct (own_sol inst p' h' s L1 L2 Hs) as (sn & S1 & S2 & S3).
    eapply (sp_restore_SW BSok Qs Qs_H inst p h s sn K1 S1 S2 S3).
  Qed.

  (** *** strips of negative width *)
  Lemma mirrored_works : forall a b c d : R, c < a -> b < d -> exists s, poly_of_rect (Rc a b c d) = Ok s.
  Proof.
    intros a b c d X Y. unfold poly_of_rect. rewrite (poly_new_M M).
    enough (Z : exists s, poly_new (N := RNum) [Pt a b; Pt c b; Pt c d; Pt a d] = Ok s) by exact Z.
    apply (new_works_centre _ (Rc c b a d) (Rmin ((a - c) / 2) ((d - b) / 2))).
    - cbn. lia.
    - repeat constructor; cbn [In]; intros H; repeat (destruct H as [H|H]; [injection H; intros; lra|]); exact H.
    - unfold shoelace, total, ring; cbn. intros H. assert (0 < (a - c) * (d - b)) by (apply Rmult_lt_0_compat; lra). lra.
    - unfold smallest_box, in_rect. cbn [x_min x_max y_min y_max]. split; [|split; [|split; [|split]]].
      + intros p H. cbn [In] in H. repeat (destruct H as [<-|H]; [cbn; lra|]). destruct H.
      + exists (Pt c b). cbn; tauto.
      + exists (Pt a b). cbn; tauto.
      + exists (Pt a b). cbn; tauto.
      + exists (Pt c d). cbn; tauto.
    - apply Rmin_glb_lt; lra.
    - cbn [x_min x_max y_min y_max]. split; [|split; [|intros k []]].
      + pose proof (proj2 (rbox_inside c b a d 0 (Pt ((c + a) / 2) ((b + d) / 2)) ltac:(cbn; lra) ltac:(cbn; lra))) as E.
        rewrite <- PipProofs.even_odd_rev in E. cbn [rbox p_pts rev app] in E.
        pose proof (PipProofs.even_odd_rotate [Pt c d; Pt a d] [Pt a b; Pt c b] (Pt ((c + a) / 2) ((b + d) / 2))) as E'. cbn [app] in E'.
        rewrite E' in E. exact E.
      + intros q (e & He & (t & Ht & ->)). cbn [In path_edges ring] in He. set (m := Pt ((c + a) / 2) ((b + d) / 2)).
        set (w := Rmin ((a - c) / 2) ((d - b) / 2)). pose proof (Rmin_l ((a - c) / 2) ((d - b) / 2)) as W1. pose proof (Rmin_r ((a - c) / 2) ((d - b) / 2)) as W2. fold w in W1, W2.
        pose proof (edist_coord m (at_t e t)) as (X' & Y').
        repeat (destruct He as [<-|He]; [unfold at_t, m in *; cbn [px py es ee] in *; revert X' Y'; unfold Rabs; repeat destruct Rcase_abs; nra|]). destruct He.
  Qed.
  Lemma negative_strip : forall (inst : spinst R) w c ptr, w < 0 -> 0 < si_height inst -> cfg_cells c = 0%nat ->
    sp_new_d (D := D) inst w c ptr = Panic /\
    exists p : sp, sp_new inst w c ptr = Ok p /\ strip_bbox p = Rc w 0 0 (si_height inst).
  Proof.
    intros inst w c ptr W H Hc. split.
    - unfold sp_new_d, rect_new_d. destruct (rect_ok _) eqn:E; [|reflexivity]. apply rect_iff in E as (E & _). cbn in E. lra.
    - destruct (mirrored_works 0 0 w (si_height inst) W H) as (s & Es).
      assert (B : exists b : bin, bin_from_strip (Rc 0 0 w (si_height inst)) c ptr = Ok b).
      { unfold bin_from_strip. rewrite Es. cbn [rbind]. unfold bin_new. cbn [map no_repeat rassert rbind forallb]. rewrite Hc.
        match goal with |- context [cde_new ?bx ?hs ?d _] => destruct (CdeOpsProofs.cde_new_ok BSok d bx hs 0) as (qt & Ec & _) end.
        - constructor; [|constructor]. eapply (poly_new_good feq_sym_M), Es.
        - constructor; [intros []|constructor].
        - rewrite Ec. cbn [rbind]. eauto. }
      destruct B as (b & Eb). unfold sp_new. change (@f0 R NSR) with 0. rewrite Eb. cbn [rbind]. eexists. split; [reflexivity|].
      unfold strip_bbox. cbn [sp_layout layout_new ly_bin].
      assert (Ep : p_bbox (a_obj (bn_outer b)) = p_bbox s).
      { unfold bin_from_strip in Eb. rewrite Es in Eb. cbn [rbind] in Eb. unfold bin_new in Eb. repeat (apply rbind_ok in Eb as (? & _ & Eb)). injection Eb as <-. reflexivity. }
      rewrite Ep, (rect_bbox _ _ (rect_M _ _ Es)). cbn [x_min x_max y_min y_max]. rewrite (Rmin_right 0 w), (Rmin_left 0), (Rmax_left 0 w), (Rmax_right 0) by lra. reflexivity.
  Qed.
End SR.
