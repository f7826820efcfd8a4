(** Concrete cases for the statements of Properties_Shape.v. *)
From Coq Require Import Reals List Bool Arith Lra Lia Psatz Sorted.
From Verif Require Import Base Num GeoModel TransfModel PolyModel ParserModel GeoSpec ShapeSpec PlaceSpec
  BaseProofs ParityProofs GeoPrimProofs PipProofs RigidProofs XformProofs NormProofs BoundProofs HullProofs.
Import ListNotations.
Local Open Scope R_scope.
#[local] Existing Instance RNum.
#[local] Existing Instance RTrig.

(** two disjoint disks *)
Lemma ex_bound : exists b, bounding_circle [Ci (Pt 0 0) 1; Ci (Pt 5 0) 2] = Ok b /\ crad b = 4.
Proof.
  pose proof (bstep_eq (Ci (Pt 0 0) 1) (Ci (Pt 5 0) 2) 5) as E. cbn [ccen crad px py] in E. cbn zeta in E.
  specialize (E ltac:(lra) ltac:(lra) ltac:(apply edist_h; lra) ltac:(lra) ltac:(lra)).
  eexists. split; [unfold bounding_circle; cbn [rfold]; rewrite E; reflexivity|]. cbn [crad]. lra.
Qed.
(** an L shape, starting in a corner *)
Definition ell : list rpoint := [Pt 0 0; Pt 4 0; Pt 4 1; Pt 1 1; Pt 1 3; Pt 0 3].
Lemma ex_ell_sides : sides_one_way ell.
Proof.
  intros x [H|H].
  - assert (x <= 0) by (apply (H (Pt 0 0)); unfold ell; cbn; tauto). unfold ell. cbn [filter px].
    repeat match goal with |- context [Reqb ?a ?b] => destruct (Reqb a b) eqn:?Q;
      [apply Reqb_spec in Q; try lra|clear Q] end; unfold one_way; try (left; repeat constructor; cbn; lra).
  - assert (4 <= x) by (apply (H (Pt 4 0)); unfold ell; cbn; tauto). unfold ell. cbn [filter px].
    repeat match goal with |- context [Reqb ?a ?b] => destruct (Reqb a b) eqn:?Q;
      [apply Reqb_spec in Q; try lra|clear Q] end; unfold one_way; try (left; repeat constructor; cbn; lra).
Qed.
Definition ell_poly : poly R := Poly ell (Rc 0 0 4 3) 6 5 (Ci (Pt (1/2) (1/2)) (1/2)) None.
Lemma ex_ell_norm : normalised ell_poly.
Proof.
  split; cbn [p_pts p_area p_bbox ell_poly].
  - unfold ell; cbn; lia.
  - unfold ell. repeat constructor; cbn [In]; intros H; repeat (destruct H as [H|H]; [injection H; intros; lra|]); exact H.
  - unfold shoelace, total, ell, ring; cbn. lra.
  - lra.
  - unfold smallest_box, in_rect. cbn [x_min y_min x_max y_max]. split; [|split; [|split; [|split]]].
    + intros p H. unfold ell in H; cbn [In] in H. repeat (destruct H as [<-|H]; [cbn; lra|]). destruct H.
    + exists (Pt 0 0). unfold ell; cbn; tauto.
    + exists (Pt 4 0). unfold ell; cbn; tauto.
    + exists (Pt 0 0). unfold ell; cbn; tauto.
    + exists (Pt 0 3). unfold ell; cbn; tauto.
Qed.
(** a quarter turn after a shift *)
Lemma ex_recipe : moves (XInverse (XTranslateRotate XEmpty 1 2 (PI / 2))) (Pt 0 0) (Pt (-1) (-2)).
Proof. cbn [moves]. exists (Pt (-1) (-2)). split; [reflexivity|]. unfold turned, shifted; cbn [px py]. f_equal; ring. Qed.
(** bin and item shifted, item placed with a quarter turn *)
Lemma ex_export : tr_point (internal_to_absolute (DT (PI / 2) 10 0) (transl_m (-2) (-1)) (transl_m (-5) 0)) (Pt 2 1) = Pt 15 0.
Proof.
  rewrite i2a_point by apply transl_affine. unfold compose. rewrite tr_rt, tr_transl. unfold turned, shifted; cbn [px py dt_tx dt_ty dt_rot].
  transitivity (tr_point (t_inverse (transl_m (-5) 0)) (Pt 10 0)).
  - f_equal. f_equal; ring.
  - assert (H : Pt 10 0 = tr_point (transl_m (-5) 0) (Pt 15 0)) by (rewrite tr_transl; unfold shifted; cbn; f_equal; ring).
    rewrite H. apply inv_left, transl_affine.
Qed.
