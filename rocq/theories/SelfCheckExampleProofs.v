(** Layouts for the statements about the checks that nothing calls, in exact arithmetic. *)
From Coq Require Import List Bool Arith ZArith Lia Permutation.
From Verif Require Import Base Num GeoModel HazardModel QTModel TransfModel HpgModel CdeModel CdeSpec
  PolyModel SlotMapModel LayoutModel ProblemModel ProblemSpec AssertModel AssertSpec AssertLayoutModel AssertLayoutSpec LbfModel Instances ShapeSpec
  BaseProofs SlotMapProofs ProblemProofs LayoutProofs MirrorProofs RigidProofs RegionProofs CentreProofs RectPolyProofs LbfRunProofs LbfSpProofs LbfStripThmProofs PlaceExampleProofs AssertRealProofs AssertLayoutProofs AssertStripRealProofs.
From Coq Require Import Reals Lra.
From Verif Require Import GeoModel HazardModel QTModel TransfModel HpgModel CdeModel CdeSpec GeoSpec PlaceSpec LbfSpec ShapeSpec AssertModel SelfCheckLayoutSpec SelfCheckLayoutProofs.
Import ListNotations.
Local Open Scope R_scope.

Section E.
  Variable M : R.
  Hypothesis HM : 1 < M.
  #[local] Instance NEy : Num R := RNumT Reqb M.
  #[local] Existing Instance RTrig.
  Context {ED : EqD (dtransf R)} {BS : BSearch}.
  Hypothesis BSok : bsearch_ok BS.
  Local Notation D := (dtransf R).
  Definition two : item R := sq_item 2.
  Definition only : nat -> poly R := fun _ => it_shape two.
  Definition at_ (x y : R) : D := DT 0 x y.
  Lemma two_good : good_shape (it_shape two).
  Proof. apply (sq_sound M 2); lra. Qed.
  Lemma two_moved : forall x y, p_pts (tr_poly (compose (at_ x y)) (it_shape two)) = p_pts (rbox x y (x + 2) (y + 2) 1).
  Proof.
    intros x y. cbn. assert (K : forall a b, tr_point (compose (at_ x y)) (Pt a b) = Pt (a + x) (b + y)).
    { intros a b. assert (X : forall p q : rpoint, px p = px q -> py p = py q -> p = q) by (intros [] []; cbn; congruence).
      apply X; cbn; rewrite cos_0, sin_0; lra. }
    rewrite !K. replace (0 + x) with x by lra. replace (0 + y) with y by lra. replace (2 + x) with (x + 2) by lra. replace (2 + y) with (y + 2) by lra. reflexivity.
  Qed.
  Lemma square_strip : exists b : bin R D, bin_from_strip (Rc 0 0 10 10) (Cfg 3 0) 0 = Ok b.
  Proof.
    destruct (rect_works (Rc 0 0 10 10)) as (s & Es); [split; cbn; lra|].
    assert (Es' : poly_of_rect (N := NEy) (Rc 0 0 10 10) = Ok s) by (unfold poly_of_rect in *; rewrite (poly_new_M M); exact Es).
    unfold bin_from_strip. rewrite Es'. cbn [rbind]. unfold bin_new. cbn [map no_repeat rassert rbind forallb cfg_cells].
    match goal with |- context [cde_new ?bx ?hs ?d _] => destruct (CdeOpsProofs.cde_new_ok BSok d bx hs 0) as (qt & Ec & _) end.
    - constructor; [|constructor]. eapply (poly_new_good (feq_sym_M M)), Es'.
    - constructor; [intros []|constructor].
    - rewrite Ec. cbn [rbind]. eauto.
  Qed.
  Lemma two_surr : exists u, p_surr (it_shape two) = Some u /\ surrogate_inside (it_shape two) u.
  Proof.
    eexists. split; [reflexivity|]. split; [cbn; lia|]. split.
    - intros k [<-|[]]. split; [cbn; lra|]. intros p H. exact (sq_disk 2 p ltac:(lra) H).
    - intros e [<-|[]] p (t & Ht & ->). apply (rbox_closed 0 0 2 2 (2 / 2)); cbn; lra.
  Qed.
  (** one square on a sheet, then a second one that overlaps it *)
  Lemma ex_checks : exists (b : bin R D) l1 l2,
    good_bin b /\ lops_ok only (layout_new 0 b, []) [LPlace two (at_ 4 4) 5; LPlace two (at_ 5 5) 6] /\
    rfold lstep [LPlace two (at_ 4 4) 5] (layout_new 0 b, []) = Ok (l1, []) /\
    rfold lstep [LPlace two (at_ 4 4) 5; LPlace two (at_ 5 5) 6] (layout_new 0 b, []) = Ok (l2, []) /\
    Forall (fun h => good_shape (a_obj (h_shape h))) (bin_statics (ly_bin l2)) /\
    (forall p, In p (sm_values (ly_items l2)) -> good_shape (only (pi_item p))) /\
    no_collisions l1 /\ ~ no_collisions l2 /\
    rigid (compose (at_ 1 1)) /\ (exists u, p_surr (it_shape two) = Some u /\ surrogate_inside (it_shape two) u) /\
    fits two (compose (at_ 1 1)) l1 /\ ~ fits two (compose (at_ 5 5)) l1 /\ ~ fits two (compose (at_ 9 1)) l1.
  Proof.
    destruct square_strip as (b & Eb). pose proof (strip_fine M _ _ _ _ Eb) as Bf. destruct (strip_poly M _ _ _ _ Eb) as (Ep & Es).
    pose proof (strip_good (sym_R M) _ _ _ _ Eb) as Gb. pose proof (strip_box M _ _ _ _ Eb ltac:(split; cbn; lra)) as Ebx.
    assert (Cb : checked_bin b).
    { split; [exact Gb|]. split.
      - unfold bin_from_strip in Eb. apply rbind_ok in Eb as (s & _ & Eb). apply bin_new_spec in Eb as (_ & _ & _ & Ec & _). rewrite Ec. reflexivity.
      - apply proper_divides. unfold bin_box. rewrite Ebx. apply square_proper. split; cbn; lra. }
    assert (Pr : proper (Rc 0 0 10 10)) by (split; cbn; lra). destruct (rect_pts _ _ Ep) as (_ & _ & _ & Pp). specialize (Pp Pr).
    pose proof (new_DI BSok only 0 b Cb) as D0.
    assert (Gp : forall d, good_poly (shape_at only 0 d)).
    { intros d. exact (good_wf _ (good_tr_poly (compose d) _ (rigid_compose d) two_good)). }
    destruct (place_d BSok only (layout_new 0 b) two (at_ 4 4) 5 D0 eq_refl (Gp _)) as (_ & k1 & l1 & E1 & D1); [intros []|].
    destruct (place_content _ _ _ _ _ _ E1) as (_ & B1 & C1). cbn [layout_new ly_bin ly_items] in B1, C1.
    assert (V1 : sm_values (ly_items l1) = [pi_new two (at_ 4 4) 5]).
    { pose proof (SlotMapProofs.insert_perm (@sm_new (pitem R D)) (pi_new two (at_ 4 4) 5) (proj1 (proj1 (proj2 (proj1 D0))))) as P.
      assert (Es' : sm_insert (@sm_new (pitem R D)) (pi_new two (at_ 4 4) 5) = (k1, ly_items l1)) by exact C1. rewrite Es' in P. cbn [snd] in P.
      apply Permutation_sym, Permutation_length_1_inv in P. exact P. }
    assert (Ne : ~ In (it_id two, at_ 5 5) (placed l1)).
    { unfold placed. rewrite V1. cbn. intros [X|[]]. injection X. lra. }
    destruct (place_d BSok only l1 two (at_ 5 5) 6 D1 eq_refl (Gp _) Ne) as (_ & k2 & l2 & E2 & D2).
    destruct (place_content _ _ _ _ _ _ E2) as (_ & B2 & C2).
    assert (V2 : Permutation (sm_values (ly_items l2)) [pi_new two (at_ 5 5) 6; pi_new two (at_ 4 4) 5]).
    { pose proof (SlotMapProofs.insert_perm (ly_items l1) (pi_new two (at_ 5 5) 6) (proj1 (proj1 (proj2 (proj1 D1))))) as P. rewrite C2, V1 in P. exact P. }
    assert (On : forall x y n p, on_item (pi_new two (at_ x y) n) p <-> x <= px p <= x + 2 /\ y <= py p <= y + 2).
    { intros x y n p. unfold on_item. assert (Q : p_pts (a_obj (pi_shape (pi_new two (at_ x y) n))) = p_pts (rbox x y (x + 2) (y + 2) 1)) by exact (two_moved x y). rewrite Q. split.
      - intros H. apply rbox_region in H; [|lra|lra]. unfold in_rect in H. cbn in H. lra.
      - intros (H1 & H2). apply rbox_closed; lra. }
    assert (Mv : forall x y p, region (moved (compose (at_ x y)) (it_shape two)) p <-> x <= px p <= x + 2 /\ y <= py p <= y + 2)
      by (intros x y p; exact (On x y 0%nat p)).
    assert (Fb : forall l q (S : rpoint -> Prop), ly_bin l = b -> (forall p, S p -> 0 < px p < 10 /\ 0 < py p < 10) -> free_of_bin l q S).
    { intros l q S El HS h x Hh _ Sx. rewrite El, Es in Hh. destruct Hh as [<-|[]]. destruct (HS x Sx) as (H1 & H2).
      assert (In1 : interior (p_pts (a_obj (bn_outer b))) x) by (rewrite Pp; apply (rbox_inside 0 0 10 10 0 x); lra).
      intros Bl. unfold blocked in Bl. cbn in Bl. destruct In1 as (N1 & N2). destruct Bl as [Bl|Bl]; [exact (N1 Bl)|congruence]. }
    exists b, l1, l2. split; [exact Gb|]. split.
    { cbn [lops_ok lop_ok fst]. split; [split; [reflexivity|split; [exact (Gp _)|intros []]]|].
      unfold lstep. rewrite E1. cbn [rbind]. split; [|match goal with |- match ?e with _ => _ end => destruct e; exact I end]. split; [reflexivity|]. split; [exact (Gp _)|exact Ne]. }
    split; [cbn [rfold lstep]; rewrite E1; reflexivity|]. split; [cbn [rfold lstep]; rewrite E1; cbn [rbind rfold lstep]; rewrite E2; reflexivity|].
    split; [rewrite B2, B1; exact Bf|]. split; [intros p _; exact two_good|].
    split; [|split; [|split; [apply rigid_compose|split; [exact two_surr|split; [|split]]]]].
    - split.
      + rewrite V1. intros p p' x [<-|[]] [<-|[]] _ _. reflexivity.
      + rewrite V1. intros p [<-|[]]. apply Fb; [exact B1|]. intros q Hq. apply On in Hq. lra.
    - intros (H & _).
      assert (I1 : In (pi_new two (at_ 5 5) 6) (sm_values (ly_items l2))) by (eapply Permutation_in; [symmetry; exact V2|left; reflexivity]).
      assert (I2 : In (pi_new two (at_ 4 4) 5) (sm_values (ly_items l2))) by (eapply Permutation_in; [symmetry; exact V2|right; left; reflexivity]).
      assert (X : pi_new two (at_ 5 5) 6 = pi_new two (at_ 4 4) 5) by (apply (H _ _ (Pt 5 5) I1 I2); apply On; cbn; lra).
      apply (f_equal (fun p => dt_tx (pi_dt p))) in X. cbn in X. lra.
    - split.
      + rewrite V1. intros p x [<-|[]] Hx Hp. apply Mv in Hx. apply On in Hp. lra.
      + apply Fb; [exact B1|]. intros q Hq. apply Mv in Hq. lra.
    - intros (H & _). apply (H (pi_new two (at_ 4 4) 5) (Pt 5 5)); [rewrite V1; left; reflexivity|apply Mv; cbn; lra|apply On; cbn; lra].
    - intros (_ & H). apply (H (hazard_new BinExterior (bn_outer b)) (Pt 11 2)).
      + rewrite B1, Es. left. reflexivity.
      + intros (k & i & X & _). discriminate.
      + apply Mv. cbn. lra.
      + unfold blocked. cbn.
        destruct (even_odd (p_pts (a_obj (bn_outer b))) (Pt 11 2)) eqn:Ee; [|right; reflexivity]. exfalso.
        assert (Rg : region (p_pts (rbox 0 0 10 10 0)) (Pt 11 2)) by (right; rewrite Pp in Ee; exact Ee).
        apply rbox_region in Rg; [|lra|lra]. unfold in_rect in Rg. cbn in Rg. lra.
  Qed.
End E.
