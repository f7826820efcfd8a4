(** An exported solution that is imported again is the same packing. *)
From Coq Require Import List Bool Arith ZArith Lia Permutation.
From Verif Require Import Base Num GeoModel HazardModel QTModel TransfModel HpgModel CdeModel CdeSpec
  PolyModel SlotMapModel LayoutModel ProblemModel ProblemSpec ParserModel LbfModel IoModel IoSpec BaseProofs HazVecProofs QTProofs CdeProofs CdeOpsProofs CdeHistProofs CdeThmProofs SlotMapProofs ProblemProofs
  ProblemOpsProofs ProblemThmProofs StripProofs LayoutProofs MirrorProofs MirrorThmProofs FitProofs Instances RigidProofs XformProofs RegionProofs GeoPrimProofs GeoRectProofs CdeGeoProofs CdeGeoThmProofs
  ParityProofs NormProofs PlaceExampleProofs RectPolyProofs HpgSpec HpgThmProofs LbfSpec LbfProofs LbfRunProofs LbfSamplerProofs LbfHistProofs LbfTotalProofs LbfBpProofs LbfThmProofs LbfBpTotalProofs LbfSpProofs LbfSpTotalProofs IoProofs HistBinProofs.
From Coq Require Import Reals Lra.
From Verif Require Import GeoModel HazardModel QTModel TransfModel HpgModel CdeModel CdeSpec GeoSpec PlaceSpec HpgSpec ShapeSpec LbfModel LbfSpec IoModel IoSpec.
Import ListNotations.
Local Open Scope R_scope.

Lemma nth_ext' : forall {A} (l l' : list A), length l = length l' -> (forall i x, nth_error l i = Some x -> nth_error l' i = Some x) -> l = l'.
Proof.
  induction l as [|x l IH]; intros [|y l'] L H; cbn in L; try discriminate; [reflexivity|].
  pose proof (H 0%nat x eq_refl) as E. cbn in E. injection E as ->. f_equal. apply IH; [lia|]. intros i z Hz. exact (H (S i) z Hz).
Qed.

Lemma affine_ext : forall t t', affine t -> affine t' -> (forall p, tr_point (N := RNum) t p = tr_point (N := RNum) t' p) -> t = t'.
Proof.
  intros [a0 a1 a2 a3 a4 a5 a6 a7 a8] [b0 b1 b2 b3 b4 b5 b6 b7 b8] (_ & A & A' & A'') (_ & B & B' & B'') K. cbn in A, A', A'', B, B', B''. subst.
  pose proof (K (Pt 0 0)) as K0. pose proof (K (Pt 1 0)) as K1. pose proof (K (Pt 0 1)) as K2. unfold tr_point in K0, K1, K2. cbn in K0, K1, K2.
  injection K0 as X0 Y0. injection K1 as X1 Y1. injection K2 as X2 Y2. f_equal; lra.
Qed.
Section T.
  Variable M : R.
  #[local] Instance NIO : Num R := RNumT Reqb M.
  #[local] Existing Instance RTrig.
  Context {ED : EqD (dtransf R)} {BS : BSearch}.
  Local Notation D := (dtransf R).
  Local Notation bin := (bin R D).
  Local Notation lsnap := (lsnap R D).
  Variable pre : nat -> transf R.
  Hypothesis Pre : forall i, motion (pre i).

  Lemma a2i_M : forall (e : D) i b, absolute_to_internal e i b = absolute_to_internal (N := RNum) e i b.
  Proof. intros. reflexivity. Qed.
  Lemma i2a_M : forall (e : D) i b, internal_to_absolute e i b = internal_to_absolute (N := RNum) e i b.
  Proof. intros. reflexivity. Qed.
  Lemma back_motion : forall (b b' : bin) x, motion (bn_pre b) -> motion (bn_pre b') ->
    same_spot pre b b' x (fst x, import_dt pre b' (fst x, decompose (internal_to_absolute (snd x) (pre (fst x)) (bn_pre b)))).
  Proof.
    intros b b' [i d] B B'. split; [reflexivity|]. intros p q. unfold lands, import_dt. cbn [fst snd]. rewrite a2i_M, i2a_M.
    set (e := decompose (internal_to_absolute (N := RNum) d (pre i) (bn_pre b))).
    assert (Ed : compose (N := RNum) (decompose (absolute_to_internal (N := RNum) e (pre i) (bn_pre b'))) = absolute_to_internal (N := RNum) e (pre i) (bn_pre b'))
      by (apply decompose_exact, a2i_affine; [exact (Pre i)|exact B']).
    rewrite Ed, (a2i_point e _ _ _ (Pre i) B'). unfold e. rewrite (inv_left _ _ (Pre i)), decompose_exact by (apply i2a_affine; [exact (Pre i)|exact B]).
    rewrite (i2a_point d _ _ _ (Pre i) B). split; intros E.
    - f_equal. rewrite <- E. symmetry. apply inv_left. exact B.
    - apply (f_equal (tr_point (N := RNum) (t_inverse (N := RNum) (bn_pre b')))) in E. rewrite !inv_left in E by exact B'. rewrite E. apply inv_right. exact B.
  Qed.
  Lemma back_same : forall (b : bin) x, motion (bn_pre b) ->
    same_motion x (fst x, import_dt pre b (fst x, decompose (internal_to_absolute (snd x) (pre (fst x)) (bn_pre b)))).
  Proof.
    intros b [i d] B. split; [reflexivity|]. unfold import_dt. cbn [fst snd]. rewrite a2i_M, i2a_M.
    set (e := decompose (internal_to_absolute (N := RNum) d (pre i) (bn_pre b))).
    rewrite decompose_exact by (apply a2i_affine; [exact (Pre i)|exact B]).
    assert (A1 : affine (compose (N := RNum) d)) by (apply rt_affine).
    assert (A2 : affine (absolute_to_internal (N := RNum) e (pre i) (bn_pre b))) by (apply a2i_affine; [exact (Pre i)|exact B]).
    assert (K : forall p, tr_point (N := RNum) (compose (N := RNum) d) p = tr_point (N := RNum) (absolute_to_internal (N := RNum) e (pre i) (bn_pre b)) p).
    { intros p. rewrite <- (decompose_exact _ A2). symmetry. apply round_trip; [exact (Pre i)|exact B]. }
    exact (affine_ext _ _ A1 A2 K).
  Qed.
  Lemma same_back : forall (b : bin) l l', motion (bn_pre b) -> Permutation l' (imported pre b (exported pre b l)) ->
    exists m, Permutation l' m /\ Forall2 same_motion l m.
  Proof.
    intros b l l' B P. exists (imported pre b (exported pre b l)). split; [exact P|]. clear P. unfold imported, exported. rewrite map_map. cbn [fst].
    induction l as [|x l IH]; cbn [map]; constructor; [exact (back_same b x B)|exact IH].
  Qed.
  Lemma spot_back : forall (b b' : bin) l l', motion (bn_pre b) -> motion (bn_pre b') -> Permutation l' (imported pre b' (exported pre b l)) ->
    exists m, Permutation l' m /\ Forall2 (same_spot pre b b') l m.
  Proof.
    intros b b' l l' B B' P. exists (imported pre b' (exported pre b l)). split; [exact P|]. clear P. unfold imported, exported. rewrite map_map. cbn [fst].
    induction l as [|x l IH]; cbn [map]; constructor; [exact (back_motion b b' x B B')|exact IH].
  Qed.
  Lemma back_ids : forall (b b' : bin) l, map fst (imported pre b' (exported pre b l)) = map fst l.
  Proof. intros b b' l. unfold imported, exported. rewrite !map_map. reflexivity. Qed.

  (** *** the figures *)
  Lemma PQ_unique : forall (items : list (item R * nat)) pl pl' L L', PQ items pl L -> PQ items pl' L' -> Permutation L L' -> pl = pl'.
  Proof.
    intros items pl pl' L L' (A & _ & B) (A' & _ & B') P. apply nth_ext'; [congruence|]. intros i x Hx.
    assert (Hi : (i < length items)%nat) by (rewrite <- A; apply nth_error_Some; congruence). rewrite (B i Hi) in Hx. rewrite (B' i Hi). rewrite <- Hx.
    do 2 f_equal. symmetry. apply count_perm. exact P.
  Qed.
  Lemma BSt_unique : forall st b b' L L', BSt st b L -> BSt st b' L' -> L = L' -> b = b'.
  Proof.
    intros st b b' L L' (A & B) (A' & B') <-. apply nth_ext'; [congruence|]. intros i x Hx.
    destruct (nth_error st i) as [n|] eqn:E; [|apply nth_error_None in E; assert (nth_error b i <> None) by congruence; apply nth_error_Some in H; lia].
    destruct (B i n E) as (a & Ea & Sa). destruct (B' i n E) as (a' & Ea' & Sa'). rewrite Ea in Hx. injection Hx as <-. rewrite Ea'. f_equal. lia.
  Qed.

  (** *** bin packing *)
  Lemma sol_bins : forall items bins (inst : bpinst R D) ovf ops p h s, bpinst_new items bins = Ok inst -> bp_run ovf inst ops = Ok (p, h) -> In s h ->
    Forall (fun sn => exists q, nth_error (bi_bins inst) (bn_id (ls_bin sn)) = Some (ls_bin sn, q)) (so_layouts s).
  Proof.
    intros items bins inst ovf ops p h s Hn Hr Hs. pose proof (inst_ids _ _ _ Hn) as Ids.
    assert (G : Forall (fun x : bin * nat => exists q, nth_error (bi_bins inst) (bn_id (fst x)) = Some (fst x, q)) (bi_bins inst)).
    { rewrite Forall_forall. intros [b q] Hb. apply In_nth_error in Hb as (i & Hi). rewrite <- (proj2 Ids _ _ _ Hi) in Hi. cbn [fst]. eauto. }
    pose proof (brun_PB (fun b => exists q, nth_error (bi_bins inst) (bn_id b) = Some (b, q)) inst ovf ops p h G Hr) as K.
    pose proof (pb_sols _ _ _ K) as Ks. rewrite Forall_forall in Ks. exact (Ks s Hs).
  Qed.
  Lemma bp_round_trip : forall items bins (inst : bpinst R D) ovf ops p h s, bpinst_new items bins = Ok inst ->
    Forall (fun x => motion (bn_pre (fst x))) bins -> bp_run ovf inst ops = Ok (p, h) -> In s h ->
    exists js, bp_export pre inst s = Ok js /\
      forall ptr s', bp_import pre inst (js_layouts js) ptr = Ok s' ->
      Forall2 (fun sn sn' => ls_bin sn' = ls_bin sn /\ same_motions sn sn' /\ same_items pre sn sn') (so_layouts s) (so_layouts s') /\
      so_placed s' = so_placed s /\ so_bins s' = so_bins s.
  Proof.
    intros items bins inst ovf ops p h s Hn Hb Hr Hs. pose proof (inst_ids _ _ _ Hn) as Ids. destruct (inst_lists M _ _ _ Hn) as (_ & Eb).
    pose proof (run_inv _ _ _ _ _ Ids Hr) as I. pose proof (b_sols _ _ _ I) as So. rewrite Forall_forall in So. specialize (So s Hs).
    pose proof (sol_bins _ _ _ _ _ _ _ _ Hn Hr Hs) as Kb.
    eexists. split; [apply export_ok; exact (proj1 (proj2 (sk_placed _ _ _ So)))|]. intros ptr s' Hi. cbn [js_layouts] in Hi.
    destruct (bp_import_spec pre inst _ ptr s' Ids Hi) as (K & So').
    assert (Fa : Forall2 (fun sn sn' => ls_bin sn' = ls_bin sn /\ Permutation (snap_placed sn') (imported pre (ls_bin sn) (exported pre (ls_bin sn) (snap_placed sn)))) (so_layouts s) (so_layouts s')).
    { clear - K Kb. revert K Kb. generalize (so_layouts s) (so_layouts s'). induction l as [|sn l IH]; intros [|sn' l'] K Kb; cbn [map] in K; inversion K; subst; [constructor|].
      inversion Kb as [|? ? K1 K2]; subst. constructor; [|apply IH; assumption].
      destruct H2 as (k & q & Ec & Ek & P). cbn [jl_container jl_items sview fst snd] in *. injection Ec as <-. destruct K1 as (q' & E'). rewrite E' in Ek. injection Ek as Ek _.
      split; [symmetry; exact Ek|]. rewrite <- Ek in P at 1. exact P. }
    assert (Mo : Forall (fun sn => motion (bn_pre (ls_bin sn))) (so_layouts s)).
    { eapply Forall_impl; [|exact Kb]. intros sn (q & E). rewrite Eb in E. rewrite Forall_forall in Hb. exact (Hb _ (nth_error_In _ _ E)). }
    split; [|split].
    - clear - Fa Mo Pre. induction Fa as [|sn sn' l l' (E & P) Fa IH]; [constructor|]. inversion Mo as [|? ? M1 M2]; subst. constructor; [|exact (IH M2)].
      split; [exact E|]. split; [exact (same_back _ _ _ M1 P)|]. unfold same_items. rewrite E. exact (spot_back _ _ _ _ M1 M1 P).
    - symmetry. eapply PQ_unique; [exact (sk_placed _ _ _ So)|exact (sk_placed _ _ _ So')|]. clear - Fa.
      induction Fa as [|sn sn' l l' (E & P) Fa IH]; cbn [map flat_map]; [reflexivity|]. apply Permutation_app; [|exact IH].
      apply (Permutation_map fst) in P. rewrite back_ids in P. unfold snap_placed in P. rewrite !map_map in P. symmetry. exact P.
    - symmetry. eapply BSt_unique; [exact (sk_bins _ _ _ So)|exact (sk_bins _ _ _ So')|]. clear - Fa. induction Fa as [|sn sn' l l' (E & _) Fa IH]; cbn [map]; [reflexivity|]. rewrite E, IH. reflexivity.
  Qed.

  (** *** strip packing *)
  Lemma strip_pre : forall r c ptr (b : bin), bin_from_strip r c ptr = Ok b -> motion (bn_pre b) /\
    p_bbox (a_obj (bn_outer b)) = Rc (Rmin (x_min r) (x_max r)) (Rmin (y_min r) (y_max r)) (Rmax (x_min r) (x_max r)) (Rmax (y_min r) (y_max r)).
  Proof.
    intros r c ptr b H. split.
    - unfold bin_from_strip, bin_new in H. repeat (apply rbind_ok in H as (? & _ & H)). injection H as <-. cbn [bn_pre]. exact (transl_affine (x_min r) (y_min r)).
    - apply (strip_poly M) in H as (Es & _). exact (rect_bbox _ _ Es).
  Qed.
  Definition strip_like (h : R) (b : bin) : Prop :=
    motion (bn_pre b) /\ proper (p_bbox (a_obj (bn_outer b))) /\
    y_min (p_bbox (a_obj (bn_outer b))) = 0 /\ y_max (p_bbox (a_obj (bn_outer b))) = h.
  Lemma strip_is_like : forall h r c ptr (b : bin), 0 <= h -> y_min r = 0 -> y_max r = h -> bin_from_strip r c ptr = Ok b -> strip_like h b.
  Proof.
    intros h r c ptr b Hh Y1 Y2 H. pose proof (gs_proper _ (outer_good _ (strip_fine M _ _ _ _ H))) as Pr. apply strip_pre in H as (Mo & E). split; [exact Mo|].
    split; [exact Pr|]. rewrite E. cbn [x_min y_min x_max y_max]. rewrite Y1, Y2. split; [apply Rmin_left; exact Hh|apply Rmax_right; exact Hh].
  Qed.
  Lemma srun_PS : forall hh ovf tol ops (p : sp R D) h p' h', 0 <= hh -> Forall (keeps_height hh) ops -> PSB (strip_like hh) p h ->
    rfold (sstep ovf tol) ops (p, h) = Ok (p', h') -> PSB (strip_like hh) p' h'.
  Proof.
    intros hh ovf tol ops p h p' h' Hh. revert p h. induction ops as [|o ops IH]; intros p h Ho I H; cbn [rfold] in H; [injection H as <- <-; exact I|].
    apply rbind_ok in H as ([p1 h1] & E & H). inversion Ho as [|? ? O1 O2]; subst. apply (IH p1 h1 O2); [|exact H].
    eapply sstep_PS; [exact I| |exact E]. intros r c ptr b Er Eb. pose proof (ps_layout _ _ _ I) as (_ & _ & Y1 & Y2).
    assert (K : y_min r = 0 /\ y_max r = hh).
    { destruct o; cbn [new_strip keeps_height] in Er, O1; try discriminate; try (injection Er as <-; auto; fail);
        destruct (match occupied_range (sp_layout p) with Some r => r | None => (f0, f0) end) as [x y]; injection Er as <-; auto. }
    destruct K as (K1 & K2). exact (strip_is_like hh r c ptr b Hh K1 K2 Eb).
  Qed.
  Lemma sol_strip : forall items hgt (inst : spinst R) ovf tol w c ptr0 ops p h s, spinst_new items hgt = Ok inst -> 0 <= hgt ->
    Forall (keeps_height hgt) ops -> sp_run ovf tol inst w c ptr0 ops = Ok (p, h) -> In s h ->
    exists sn, ssol_ok items s sn /\ strip_like hgt (ls_bin sn) /\ si_height inst = hgt /\ si_items inst = items.
  Proof.
    intros items hgt inst ovf tol w c ptr0 ops p h s Hn Hh Ho Hr Hs. pose proof (sinst_ids _ _ _ Hn) as Ids.
    assert (Eh : si_height inst = hgt /\ si_items inst = items) by (unfold spinst_new in Hn; apply rbind_ok in Hn as (u & _ & Hn); injection Hn as <-; split; reflexivity).
    destruct Eh as (Eh & Ei). pose proof (srun_inv _ _ _ _ _ _ _ _ _ Ids Hr) as I. pose proof (s_sols _ _ _ I) as So. rewrite Forall_forall in So. destruct (So s Hs) as (sn & Sn).
    exists sn. rewrite Ei in Sn. split; [exact Sn|]. split; [|auto].
    unfold sp_run in Hr. apply rbind_ok in Hr as (p0 & E0 & Hr). assert (I0 : PSB (strip_like hgt) p0 []).
    { unfold sp_new in E0. apply rbind_ok in E0 as (b & Eb & E0). injection E0 as <-. split; [|constructor]. cbn [sp_layout]. unfold PL. cbn [layout_new ly_bin].
      eapply strip_is_like; [exact Hh| | |exact Eb]; [reflexivity|exact Eh]. }
    pose proof (srun_PS hgt ovf tol ops p0 [] p h Hh Ho I0 Hr) as K. pose proof (ps_sols _ _ _ K) as Ks. rewrite Forall_forall in Ks. specialize (Ks s Hs).
    rewrite (ss_one _ _ _ Sn) in Ks. inversion Ks; subst. assumption.
  Qed.
  Lemma sp_round_trip : forall items hgt (inst : spinst R) ovf tol w c ptr0 ops p h s, spinst_new items hgt = Ok inst -> 0 <= hgt ->
    Forall (keeps_height hgt) ops -> sp_run ovf tol inst w c ptr0 ops = Ok (p, h) -> In s h ->
    exists js, sp_export pre inst s = Ok js /\
      forall c' ptr s', sp_import pre inst (js_layouts js) c' ptr = Ok s' ->
      exists sn sn', so_layouts s = [sn] /\ so_layouts s' = [sn'] /\ same_items pre sn sn' /\ so_placed s' = so_placed s /\
        snap_box sn' = Rc 0 0 (x_max (snap_box sn) - x_min (snap_box sn)) hgt /\ y_min (snap_box sn) = 0 /\ y_max (snap_box sn) = hgt.
  Proof.
    intros items hgt inst ovf tol w c ptr0 ops p h s Hn Hh Ho Hr Hs. pose proof (sinst_ids _ _ _ Hn) as Ids.
    destruct (sol_strip _ _ _ _ _ _ _ _ _ _ _ _ Hn Hh Ho Hr Hs) as (sn & Sn & B & Eh & Ei). rewrite <- Ei in Sn.
    destruct B as (Mo & (X & _) & Y1 & Y2).
    assert (Fa : Forall (fun i => (i < length (si_items inst))%nat) (flat_map c_list (map snap_content (so_layouts s)))).
    { rewrite (ss_one _ _ _ Sn). cbn [map flat_map]. rewrite app_nil_r. exact (proj1 (proj2 (ss_placed _ _ _ Sn))). }
    eexists. split; [apply export_ok; exact Fa|]. intros c' ptr s' Hi. cbn [js_layouts] in Hi. rewrite (ss_one _ _ _ Sn) in Hi. cbn [map] in Hi.
    destruct (sp_import_spec pre inst _ c' ptr s' Ids Hi) as (j & w' & h' & b & sn' & Ej & Ec & Eb & Sl & Lb & P & Q). injection Ej as <-. cbn [jl_container jl_items] in Ec, P. injection Ec as Ew <-.
    destruct (strip_pre _ _ _ _ Eb) as (Mo' & Bx). cbn [x_min y_min x_max y_max] in Bx.
    exists sn, sn'. split; [exact (ss_one _ _ _ Sn)|]. split; [exact Sl|]. split; [unfold same_items; rewrite Lb; exact (spot_back _ _ _ _ Mo Mo' P)|]. split.
    - symmetry. eapply PQ_unique; [exact (ss_placed _ _ _ Sn)|exact Q|]. apply (Permutation_map fst) in P. rewrite back_ids in P. unfold snap_placed in P |- *. rewrite !map_map in P. rewrite !map_map. symmetry. exact P.
    - split; [|split; [exact Y1|exact Y2]]. unfold snap_box. rewrite Lb, Bx. rewrite Eh.
      assert (W : w' = x_max (p_bbox (a_obj (bn_outer (ls_bin sn)))) - x_min (p_bbox (a_obj (bn_outer (ls_bin sn))))) by (symmetry; exact Ew). rewrite <- W.
      assert (0 <= w') by lra. change (Rc (Rmin 0 w') (Rmin 0 hgt) (Rmax 0 w') (Rmax 0 hgt) = Rc 0 0 w' hgt). rewrite !Rmin_left, !Rmax_right by assumption. reflexivity.
  Qed.
End T.
