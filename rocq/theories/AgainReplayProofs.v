(** Placing the items of a strip again in a fresh strip of the same width. *)
From Coq Require Import List Bool Arith ZArith Lia Permutation.
From Verif Require Import Base Num GeoModel HazardModel QTModel TransfModel HpgModel CdeModel CdeSpec
  PolyModel SlotMapModel LayoutModel ProblemModel ProblemSpec LbfModel BaseProofs HazVecProofs SlotMapProofs ProblemProofs
  ProblemOpsProofs ProblemThmProofs LayoutProofs MirrorProofs MirrorThmProofs FitProofs Instances HullProofs RegionProofs RectPolyProofs PlaceExampleProofs LbfSpec LbfProofs LbfRunProofs LbfHistProofs LbfTotalProofs LbfBpProofs LbfThmProofs LbfBpTotalProofs StripProofs LbfSpProofs LbfSpTotalProofs HistPackSpec HistPackProofs ReachProofs AgainModel AgainSpec AgainProofs AgainStripProofs.
From Coq Require Import Reals Lra.
From Verif Require Import GeoModel HazardModel QTModel TransfModel HpgModel CdeModel CdeSpec GeoSpec PlaceSpec ShapeSpec LbfModel LbfSpec HistPackSpec AgainModel AgainSpec.
Import ListNotations.
Local Open Scope R_scope.

Section A.
  Variable M : R.
  #[local] Instance NAR : Num R := RNumT Reqb M.
  #[local] Existing Instance RTrig.
  Context {ED : EqD (dtransf R)} {BS : BSearch}.
  Hypothesis BSok : bsearch_ok BS.
  Local Notation dtransf := (dtransf R).
  Local Notation layout := (layout R dtransf).
  Local Notation sp := (sp R dtransf).
  Local Notation bin := (bin R dtransf).

  Lemma puts : forall (inst : spinst R) vs (p : sp) n, sids_ok inst -> Forall (fun x => sound_item M (fst x)) (si_items inst) -> SInv inst p [] -> HL M (si_items inst) (sp_layout p) ->
    Forall (fun pi : pitem R dtransf => exists it q, nth_error (si_items inst) (pi_item pi) = Some (it, q)) vs -> NoDup (map (fun pi => (pi_item pi, pi_dt pi)) vs ++ placed (sp_layout p)) ->
    exists p' n', rfold (fun s o => let '(q, n) := s in '(_, q') <- sp_place q o n ;; Ok (q', S n)) (map (fun pi => PO (Real 0) (pi_item pi) (pi_dt pi)) vs) (p, n) = Ok (p', n') /\
      SInv inst p' [] /\ Permutation (placed (sp_layout p')) (map (fun pi => (pi_item pi, pi_dt pi)) vs ++ placed (sp_layout p)) /\ ly_bin (sp_layout p') = ly_bin (sp_layout p).
  Proof.
    intros inst. induction vs as [|x vs IH]; intros p n Ids Snd I H Lx Nd; cbn [map rfold]; [exists p, n; cbn [app]; auto|].
    inversion Lx as [|? ? (it & q & Ni) L2]; subst. cbn [map app] in Nd. apply NoDup_cons_iff in Nd as (Nx & Nd).
    destruct (splace_ok M BSok inst Ids Snd p (pi_item x) it q (pi_dt x) n I H Ni) as (r & p1 & E & H1 & I1 & P1 & B1); [intros K; apply Nx, in_or_app; right; exact K|].
    assert (E1 : sp_place p (PO (Real 0) (pi_item x) (pi_dt x)) n = Ok (r, p1)) by exact E. rewrite E1. cbn [rbind].
    destruct (IH p1 (S n) Ids Snd I1 H1 L2) as (p' & n' & E2 & I2 & P2 & B2).
    { eapply Permutation_NoDup; [|constructor; [exact Nx|exact Nd]]. rewrite P1. apply Permutation_middle. }
    exists p', n'. split; [exact E2|]. split; [exact I2|]. split; [|congruence]. rewrite P2, P1. symmetry. apply Permutation_middle.
  Qed.

  (** the items are placed again, where they were; this is a packing exactly if they lie
      between the sides of the fresh strip *)
  Theorem replay_iff : forall items hgt inst ovf tol w c ptr0 ops p0 p h c' ptr (q0 : sp), spinst_new items hgt = Ok inst -> Forall (fun x => sound_item M (fst x)) items ->
    sp_new inst w c ptr0 = Ok p0 -> schecked_run ovf tol (p0, []) ops -> rfold (sstep ovf tol) ops (p0, []) = Ok (p, h) ->
    y_min (strip_bbox p) = 0 -> y_max (strip_bbox p) = hgt -> cfg_cells c' <> 0%nat -> sp_new inst (strip_width p) c' ptr = Ok q0 ->
    exists p', replay p c' ptr = Ok p' /\ Permutation (placed (sp_layout p')) (placed (sp_layout p)) /\
      (forall x y, in_rect (strip_bbox p') (Pt x y) <-> 0 <= x <= x_max (strip_bbox p) - x_min (strip_bbox p) /\ 0 <= y <= hgt) /\
      (packed items (ly_bin (sp_layout p')) (placed (sp_layout p')) <->
       forall x pt, In x (placed (sp_layout p)) -> covers items x pt -> 0 < px pt < x_max (strip_bbox p) - x_min (strip_bbox p)).
  Proof.
    intros items hgt inst ovf tol w c ptr0 ops p0 p h c' ptr q0 Hn Sd E0 C R0 Y1 Y2 Nc En. pose proof (sinst_ids _ _ _ Hn) as Ids.
    assert (Fi : fine_items items) by (eapply Forall_impl; [|exact Sd]; intros x Hx; exact (so_shape _ _ Hx)).
    destruct (strip_history M BSok _ _ _ _ _ _ _ _ _ _ _ _ Hn Fi E0 C R0) as (Ei & I & _). pose proof (HSI_SPInv M _ _ _ I) as Q.
    assert (Ih : si_height inst = hgt) by (unfold spinst_new in Hn; repeat (apply rbind_ok in Hn as (? & _ & Hn)); injection Hn as <-; reflexivity).
    pose proof (q_packed _ _ _ Q) as Pk. rewrite Ei in Pk. pose proof Pk as (Nd & Ap & Inn & Tn).
    pose proof (s_inst _ _ _ (q_inv _ _ _ Q)) as Einst. pose proof (q_fine _ _ _ Q) as Bf.
    pose proof En as En'. unfold sp_new in En'. apply rbind_ok in En' as (b & Eb & En'). injection En' as En'. rewrite Ih in Eb.
    pose proof (sp_new_inv _ _ _ _ _ En) as I0.
    assert (H0 : HL M (si_items inst) (sp_layout q0)) by (rewrite <- En'; exact (strip_HL M BSok inst c' Nc 0 _ _ b Eb)).
    assert (Pr : proper (Rc 0 0 (strip_width p) hgt)).
    { unfold bin_fine in Bf. rewrite Forall_forall in Bf. pose proof (Bf _ (or_introl eq_refl)) as Go. cbn in Go. pose proof (gs_proper _ Go) as (P1 & P2).
      change (x_min (strip_bbox p) < x_max (strip_bbox p)) in P1. change (y_min (strip_bbox p) < y_max (strip_bbox p)) in P2.
      split; cbn [x_min y_min x_max y_max]; [change (0 < x_max (strip_bbox p) - x_min (strip_bbox p)); lra|lra]. }
    destruct (puts inst (sm_values (ly_items (sp_layout p))) q0 (S ptr) Ids) as (p' & n' & Er & I' & Pm & Bb); [rewrite Ei; exact Sd|exact I0|exact H0| | |].
    { rewrite Forall_forall. intros pi Hp. destruct (Tn (pi_item pi, pi_dt pi)) as (it & q & a & Ni & _); [unfold placed; apply in_map_iff; exists pi; auto|]. rewrite Ei. exists it, q. exact Ni. }
    { rewrite <- En'. cbn. rewrite app_nil_r. exact Nd. }
    assert (P' : Permutation (placed (sp_layout p')) (placed (sp_layout p))) by (rewrite Pm, <- En'; cbn; rewrite app_nil_r; reflexivity).
    rewrite <- En' in Bb. cbn [sp_layout layout_new ly_bin] in Bb.
    assert (Eb' : bin_from_strip (Rc 0 0 (strip_width p) hgt) c' ptr = Ok b) by exact Eb.
    exists p'. split; [unfold replay; rewrite Einst, En; cbn [rbind]; rewrite Er; reflexivity|]. split; [exact P'|].
    split; [intros x y; unfold strip_bbox at 1; rewrite Bb, (strip_box M _ _ _ _ Eb' Pr); reflexivity|].
    destruct (strip_poly M _ _ _ _ Eb') as (Ep & Es). destruct (rect_pts _ _ Ep) as (_ & _ & _ & Pp). specialize (Pp Pr).
    assert (Sw : strip_width p = x_max (strip_bbox p) - x_min (strip_bbox p)) by reflexivity.
    rewrite Bb. split.
    - intros (_ & _ & In' & _) x pt Hx Cx. destruct (Tn x Hx) as (it & q & a & Ni & _).
      assert (Nb : ~ blocked (fact_of (hazard_new (D := dtransf) BinExterior (bn_outer b))) pt).
      { apply (In' x it q _ pt); [apply (Permutation_in _ (Permutation_sym P')); exact Hx|exact Ni|rewrite Es; left; reflexivity| |exact Cx]. intros (k & z & E & _). discriminate. }
      apply even_odd_outer in Nb as (_ & (X & _)).
      + rewrite (strip_box M _ _ _ _ Eb' Pr) in X. cbn [x_min x_max] in X. rewrite Sw in X. exact X.
      + pose proof (strip_fine M _ _ _ _ Eb') as Bf'. unfold bin_fine in Bf'. rewrite Forall_forall in Bf'. exact (Bf' _ (or_introl eq_refl)).
    - intros K. split; [exact (Permutation_NoDup (Permutation_sym P') Nd)|].
      split; [intros x y pt Hx Hy; apply Ap; apply (Permutation_in _ P'); assumption|].
      split; [|intros x Hx; apply Tn, (Permutation_in _ P'); exact Hx].
      intros x it q hz pt Hx Ni Hz Nt Cx. rewrite Es in Hz. destruct Hz as [<-|[]]. apply (Permutation_in _ P') in Hx.
      destruct (q_strip _ _ _ Q) as (r1 & c1 & ptr1 & Eb1). pose proof (strip_poly M _ _ _ _ Eb1) as (_ & Es1).
      assert (Nb : ~ blocked (fact_of (hazard_new (D := dtransf) BinExterior (bn_outer (ly_bin (sp_layout p))))) pt).
      { apply (Inn x it q (hazard_new BinExterior (bn_outer (ly_bin (sp_layout p)))) pt Hx Ni); [rewrite Es1; left; reflexivity| |exact Cx]. intros (k & z & E & _). discriminate. }
      apply even_odd_outer in Nb as (_ & (_ & O2)); [|unfold bin_fine in Bf; rewrite Forall_forall in Bf; exact (Bf _ (or_introl eq_refl))].
      fold (strip_bbox p) in O2. rewrite Y1, Y2 in O2. pose proof (K x pt Hx Cx) as K1. rewrite <- Sw in K1.
      assert (In1 : interior (p_pts (a_obj (bn_outer b))) pt).
      { rewrite Pp. apply (rbox_inside 0 0 (strip_width p) hgt 0 pt); destruct Pr; cbn in *; lra. }
      intros Bl. unfold blocked in Bl. cbn in Bl. destruct In1 as (N1 & N2). destruct Bl as [Bl|Bl]; [exact (N1 Bl)|congruence].
  Qed.
  (** so it is a packing if the old strip began at 0 *)
  Theorem replay_front : forall items hgt inst ovf tol w c ptr0 ops p0 p h c' ptr (q0 : sp), spinst_new items hgt = Ok inst -> Forall (fun x => sound_item M (fst x)) items ->
    sp_new inst w c ptr0 = Ok p0 -> schecked_run ovf tol (p0, []) ops -> rfold (sstep ovf tol) ops (p0, []) = Ok (p, h) ->
    x_min (strip_bbox p) = 0 -> y_min (strip_bbox p) = 0 -> y_max (strip_bbox p) = hgt -> cfg_cells c' <> 0%nat -> sp_new inst (strip_width p) c' ptr = Ok q0 ->
    exists p', replay p c' ptr = Ok p' /\ Permutation (placed (sp_layout p')) (placed (sp_layout p)) /\ packed items (ly_bin (sp_layout p')) (placed (sp_layout p')).
  Proof.
    intros items hgt inst ovf tol w c ptr0 ops p0 p h c' ptr q0 Hn Sd E0 C R0 X1 Y1 Y2 Nc En.
    destruct (replay_iff _ _ _ _ _ _ _ _ _ _ _ _ _ _ _ Hn Sd E0 C R0 Y1 Y2 Nc En) as (p' & Er & P & _ & K). exists p'. split; [exact Er|]. split; [exact P|]. apply K.
    intros x pt Hx Cx. assert (Fi : fine_items items) by (eapply Forall_impl; [|exact Sd]; intros z Hz; exact (so_shape _ _ Hz)).
    destruct (strip_history M BSok _ _ _ _ _ _ _ _ _ _ _ _ Hn Fi E0 C R0) as (Ei & I & _). pose proof (HSI_SPInv M _ _ _ I) as Q.
    pose proof (q_packed _ _ _ Q) as Pk. rewrite Ei in Pk. destruct Pk as (_ & _ & Inn & Tn). destruct (Tn x Hx) as (it & q & a & Ni & _). pose proof (q_fine _ _ _ Q) as Bf.
    destruct (q_strip _ _ _ Q) as (r1 & c1 & ptr1 & Eb1). pose proof (strip_poly M _ _ _ _ Eb1) as (_ & Es1).
    assert (Nb : ~ blocked (fact_of (hazard_new (D := dtransf) BinExterior (bn_outer (ly_bin (sp_layout p))))) pt).
    { apply (Inn x it q (hazard_new BinExterior (bn_outer (ly_bin (sp_layout p)))) pt Hx Ni); [rewrite Es1; left; reflexivity| |exact Cx]. intros (k & z & E & _). discriminate. }
    apply even_odd_outer in Nb as (_ & (O1 & _)); [|unfold bin_fine in Bf; rewrite Forall_forall in Bf; exact (Bf _ (or_introl eq_refl))].
    fold (strip_bbox p) in O1. rewrite X1 in *. lra.
  Qed.
End A.
