(** Transformations form a group; export and re-import of placements. *)
From Coq Require Import Reals List Bool Lra Psatz.
From Verif Require Import Base Num GeoModel TransfModel PolyModel ParserModel GeoSpec ShapeSpec PlaceSpec ParityProofs GeoPrimProofs RigidProofs.
Import ListNotations.
Local Open Scope R_scope.
#[local] Existing Instance RNum.
#[local] Existing Instance RTrig.

(** matrices of rigid motions in homogeneous coordinates *)
Definition affine (t : transf R) : Prop := rigid t /\ m20 t = 0 /\ m21 t = 0 /\ m22 t = 1.

Fixpoint build (x : recipe) : transf R :=
  match x with
  | XEmpty => t_empty
  | XFromTranslation tx ty => transl_m tx ty
  | XFromRotation a => rot_m a
  | XFromDT d => compose d
  | XRotate x a => t_rotate (build x) a
  | XTranslate x tx ty => t_translate (build x) tx ty
  | XRotateTranslate x a tx ty => t_rotate_translate (build x) a tx ty
  | XTranslateRotate x tx ty a => t_translate_rotate (build x) tx ty a
  | XTransform x y => t_transform (build x) (build y)
  | XTransformDT x d => transform_from_decomposed (build x) d
  | XInverse x => t_inverse (build x)
  end.

Ltac unt := unfold t_empty, transl_m, rot_m, rot_transl_m, transl_rot_m, compose, dot_prod, t_det, t_inverse, tr_point,
  t_transform, t_translate, t_rotate, t_rotate_translate, t_translate_rotate, transform_from_decomposed, turned, shifted, affine, rigid in *;
  cbn [m00 m01 m02 m10 m11 m12 m20 m21 m22 px py fadd fsub fmul fdiv fneg f0 f1 fsin fcos RNum RNumT RTrig] in *.

Lemma sc : forall a, cos a * cos a + sin a * sin a = 1.
Proof. intros a. pose proof (sin2_cos2 a) as E. unfold Rsqr in E. lra. Qed.

Lemma empty_affine : affine t_empty.
Proof. unt. repeat split; lra. Qed.
Lemma transl_affine : forall tx ty, affine (transl_m tx ty).
Proof. intros. unt. repeat split; lra. Qed.
Lemma rot_affine : forall a, affine (rot_m a).
Proof. intros. pose proof (sc a). unt. repeat split; lra. Qed.
Lemma rt_affine : forall a tx ty, affine (rot_transl_m a tx ty).
Proof. intros. pose proof (sc a). unt. repeat split; lra. Qed.
Lemma tr_affine : forall tx ty a, affine (transl_rot_m tx ty a).
Proof. intros. pose proof (sc a). unt. repeat split; lra. Qed.

Lemma dot_affine : forall l r, affine l -> affine r -> affine (dot_prod l r).
Proof.
  intros [a0 a1 a2 a3 a4 a5 a6 a7 a8] [b0 b1 b2 b3 b4 b5 b6 b7 b8] H K. unt.
  destruct H as ((A & B & C) & D & E & G), K as ((A' & B' & C') & D' & E' & G'). subst.
  repeat split; try ring.
  replace ((a0 * b0 + - a3 * b3 + a2 * 0) * (a0 * b0 + - a3 * b3 + a2 * 0) + (a3 * b0 + a0 * b3 + a5 * 0) * (a3 * b0 + a0 * b3 + a5 * 0))
    with ((a0 * a0 + a3 * a3) * (b0 * b0 + b3 * b3)) by ring.
  rewrite C, C'. ring.
Qed.
Lemma dot_point : forall l r p, affine r -> tr_point (dot_prod l r) p = tr_point l (tr_point r p).
Proof.
  intros [a0 a1 a2 a3 a4 a5 a6 a7 a8] [b0 b1 b2 b3 b4 b5 b6 b7 b8] [x y] K. unt.
  destruct K as ((A' & B' & C') & D' & E' & G'). subst. f_equal; ring.
Qed.
Lemma inv_det : forall t, affine t -> t_det t = 1.
Proof.
  intros [a0 a1 a2 a3 a4 a5 a6 a7 a8] H. unt. destruct H as ((A & B & C) & D & E & G). subst. lra.
Qed.
Lemma inv_affine : forall t, affine t -> affine (t_inverse t).
Proof.
  intros t H. pose proof (inv_det t H) as E. unfold t_inverse. rewrite E. clear E.
  destruct t as [a0 a1 a2 a3 a4 a5 a6 a7 a8]. unt. destruct H as ((A & B & C) & D & E & G). subst.
  repeat split; try field.
  transitivity ((a0 * a0 + a3 * a3)); [field|exact C].
  transitivity ((a0 * a0 + a3 * a3)); [field|exact C].
Qed.
Lemma inv_left : forall t p, affine t -> tr_point (t_inverse t) (tr_point t p) = p.
Proof.
  intros t [x y] H. pose proof (inv_det t H) as E. unfold t_inverse. rewrite E. clear E.
  destruct t as [a0 a1 a2 a3 a4 a5 a6 a7 a8]. unt. destruct H as ((A & B & C) & D & E & G). subst.
  f_equal.
  - transitivity ((a0 * a0 + a3 * a3) * x); [field|rewrite C; ring].
  - transitivity ((a0 * a0 + a3 * a3) * y); [field|rewrite C; ring].
Qed.
Lemma inv_right : forall t p, affine t -> tr_point t (tr_point (t_inverse t) p) = p.
Proof.
  intros t [x y] H. pose proof (inv_det t H) as E. unfold t_inverse. rewrite E. clear E.
  destruct t as [a0 a1 a2 a3 a4 a5 a6 a7 a8]. unt. destruct H as ((A & B & C) & D & E & G). subst.
  f_equal.
  - transitivity ((a0 * a0 + a3 * a3) * x + a2 - (a0 * a0 + a3 * a3) * a2); [field|rewrite C; ring].
  - transitivity ((a0 * a0 + a3 * a3) * y + a5 - (a0 * a0 + a3 * a3) * a5); [field|rewrite C; ring].
Qed.

Lemma build_affine : forall x, affine (build x).
Proof.
  induction x as [| | | | | | | |x IHx y IHy | |]; cbn [build];
    unfold t_rotate, t_translate, t_rotate_translate, t_translate_rotate, t_transform, transform_from_decomposed, t_rotate_translate, compose;
    auto using empty_affine, transl_affine, rot_affine, rt_affine, tr_affine, dot_affine, inv_affine.
Qed.

Lemma tr_empty : forall p, tr_point t_empty p = p.
Proof. intros [x y]. unt. f_equal; ring. Qed.
Lemma tr_transl : forall tx ty p, tr_point (transl_m tx ty) p = shifted tx ty p.
Proof. intros tx ty [x y]. unt. f_equal; ring. Qed.
Lemma tr_rotm : forall a p, tr_point (rot_m a) p = turned a p.
Proof. intros a [x y]. unt. f_equal; ring. Qed.
Lemma tr_rt : forall a tx ty p, tr_point (rot_transl_m a tx ty) p = shifted tx ty (turned a p).
Proof. intros a tx ty [x y]. unt. f_equal; ring. Qed.
Lemma tr_tr : forall tx ty a p, tr_point (transl_rot_m tx ty a) p = turned a (shifted tx ty p).
Proof. intros tx ty a [x y]. unt. f_equal; ring. Qed.

Theorem build_moves : forall x p q, moves x p q <-> tr_point (build x) p = q.
Proof.
  induction x as [| | | |x IH a|x IH tx ty|x IH a tx ty|x IH tx ty a|x IHx y IHy|x IH d|x IH]; intros p q; cbn [moves build].
  - rewrite tr_empty. tauto.
  - rewrite tr_transl. tauto.
  - rewrite tr_rotm. tauto.
  - unfold compose. rewrite tr_rt. tauto.
  - unfold t_rotate. rewrite dot_point, tr_rotm by apply build_affine.
    split; [intros (m & H & K); apply IH in H; subst; reflexivity|intros H; exists (tr_point (build x) p); split; [apply IH; reflexivity|exact H]].
  - unfold t_translate. rewrite dot_point, tr_transl by apply build_affine.
    split; [intros (m & H & K); apply IH in H; subst; reflexivity|intros H; exists (tr_point (build x) p); split; [apply IH; reflexivity|exact H]].
  - unfold t_rotate_translate. rewrite dot_point, tr_rt by apply build_affine.
    split; [intros (m & H & K); apply IH in H; subst; reflexivity|intros H; exists (tr_point (build x) p); split; [apply IH; reflexivity|exact H]].
  - unfold t_translate_rotate. rewrite dot_point, tr_tr by apply build_affine.
    split; [intros (m & H & K); apply IH in H; subst; reflexivity|intros H; exists (tr_point (build x) p); split; [apply IH; reflexivity|exact H]].
  - unfold t_transform. rewrite dot_point by apply build_affine.
    split; [intros (m & H & K); apply IHx in H; apply IHy in K; subst; reflexivity|
            intros H; exists (tr_point (build x) p); split; [apply IHx; reflexivity|apply IHy; exact H]].
  - unfold transform_from_decomposed, t_rotate_translate. rewrite dot_point, tr_rt by apply build_affine.
    split; [intros (m & H & K); apply IH in H; subst; reflexivity|intros H; exists (tr_point (build x) p); split; [apply IH; reflexivity|exact H]].
  - rewrite IH. split; intros H; subst; [apply inv_left|apply inv_right]; apply build_affine.
Qed.

(** *** decomposition *)
Lemma sqrt_unique2 : forall a b, 0 <= b -> b * b = a -> sqrt a = b.
Proof. intros a b H <-. apply sqrt_square. exact H. Qed.
Lemma atan_unit : forall x y, 0 < x -> x * x + y * y = 1 -> cos (atan (y / x)) = x /\ sin (atan (y / x)) = y.
Proof.
  intros x y P E. rewrite cos_atan, sin_atan.
  assert (S : sqrt (1 + Rsqr (y / x)) = / x).
  { apply sqrt_unique2; [left; apply Rinv_0_lt_compat; exact P|]. unfold Rsqr, Rdiv.
    apply Rmult_eq_reg_r with (x * x); [|nra]. field_simplify; [|lra|lra]. nra. }
  rewrite S. split; field; lra.
Qed.
Lemma atan2_unit : forall x y, x * x + y * y = 1 -> cos (Ratan2 y x) = x /\ sin (Ratan2 y x) = y.
Proof.
  intros x y E. unfold Ratan2.
  destruct (Rlt_dec 0 x) as [P|P]; [apply atan_unit; assumption|].
  destruct (Rlt_dec x 0) as [Q|Q].
  - destruct (atan_unit (- x) (- y)) as (A & B); [lra|nra|].
    replace (- y / - x) with (y / x) in * by (field; lra).
    destruct (Rle_dec 0 y).
    + rewrite neg_cos, neg_sin. lra.
    + unfold Rminus. rewrite cos_plus, sin_plus, cos_neg, sin_neg, cos_PI, sin_PI. lra.
  - assert (x = 0) by lra. subst.
    destruct (Rlt_dec 0 y); [rewrite cos_PI2, sin_PI2; nra|].
    destruct (Rlt_dec y 0); [rewrite cos_neg, sin_neg, cos_PI2, sin_PI2; nra|].
    exfalso. assert (y = 0) by lra. subst. lra.
Qed.
Lemma decompose_exact : forall t, affine t -> compose (decompose t) = t.
Proof.
  intros [a0 a1 a2 a3 a4 a5 a6 a7 a8] H. unfold affine, rigid in H; cbn in H. destruct H as ((A & B & C) & D & E & G).
  destruct (atan2_unit a0 a3 C) as (X & Y).
  unfold compose, decompose, rot_transl_m; cbn. rewrite X, Y, A, B, D, E, G. reflexivity.
Qed.
Lemma decompose_range : forall t, affine t -> - PI < dt_rot (decompose t) <= PI.
Proof.
  intros t _. cbn. set (y := m10 t). set (x := m00 t). clearbody x y. pose proof PI_RGT_0.
  unfold Ratan2. destruct (Rlt_dec 0 x); [pose proof (atan_bound (y / x)); lra|].
  destruct (Rlt_dec x 0).
  - pose proof (atan_bound (y / x)). destruct (Rle_dec 0 y).
    + split; [lra|]. assert (K : atan (y / x) <= atan 0).
      { destruct (Req_dec (y / x) 0) as [->|NE]; [lra|]. left. apply atan_increasing.
        assert (y / x <= 0); [|lra]. unfold Rdiv. assert (/ x < 0) by (apply Rinv_lt_0_compat; assumption). nra. }
      rewrite atan_0 in K. lra.
    + split; [|lra]. assert (K : atan 0 < atan (y / x)).
      { apply atan_increasing. unfold Rdiv. assert (/ x < 0) by (apply Rinv_lt_0_compat; assumption). nra. }
      rewrite atan_0 in K. lra.
  - destruct (Rlt_dec 0 y); [lra|]. destruct (Rlt_dec y 0); lra.
Qed.

(** *** placements in the solution file *)
Lemma i2a_affine : forall d i b, affine i -> affine b -> affine (internal_to_absolute d i b).
Proof.
  intros. unfold internal_to_absolute, t_transform, transform_from_decomposed, t_rotate_translate.
  auto using empty_affine, rt_affine, dot_affine, inv_affine.
Qed.
Lemma a2i_affine : forall d i b, affine i -> affine b -> affine (absolute_to_internal d i b).
Proof.
  intros. unfold absolute_to_internal, t_transform, transform_from_decomposed, t_rotate_translate.
  auto using empty_affine, rt_affine, dot_affine, inv_affine.
Qed.
Lemma i2a_point : forall d i b p, affine i -> affine b ->
  tr_point (internal_to_absolute d i b) p = tr_point (t_inverse b) (tr_point (compose d) (tr_point i p)).
Proof.
  intros d i b p I B. unfold internal_to_absolute, t_transform, transform_from_decomposed, t_rotate_translate, compose.
  rewrite !dot_point, tr_empty; auto using empty_affine, rt_affine, dot_affine.
Qed.
Lemma a2i_point : forall d i b p, affine i -> affine b ->
  tr_point (absolute_to_internal d i b) p = tr_point b (tr_point (compose d) (tr_point (t_inverse i) p)).
Proof.
  intros d i b p I B. unfold absolute_to_internal, t_transform, transform_from_decomposed, t_rotate_translate, compose.
  rewrite !dot_point, tr_empty; auto using empty_affine, rt_affine, dot_affine, inv_affine.
Qed.
Theorem round_trip : forall d i b p, affine i -> affine b ->
  tr_point (compose (decompose (absolute_to_internal (decompose (internal_to_absolute d i b)) i b))) p = tr_point (compose d) p.
Proof.
  intros d i b p I B. rewrite decompose_exact by auto using i2a_affine, a2i_affine.
  rewrite a2i_point, decompose_exact, i2a_point by auto using i2a_affine.
  rewrite !inv_right; auto.
Qed.
Theorem round_trip' : forall d i b p, affine i -> affine b ->
  tr_point (compose (decompose (internal_to_absolute (decompose (absolute_to_internal d i b)) i b))) p = tr_point (compose d) p.
Proof.
  intros d i b p I B. rewrite decompose_exact by auto using i2a_affine, a2i_affine.
  rewrite i2a_point, decompose_exact, a2i_point by auto using a2i_affine.
  rewrite !inv_left; auto.
Qed.
Theorem export_meaning : forall d xi xb p q,
  moves (XTransform (XTransformDT xi d) (XInverse xb)) p q <->
  tr_point (compose (decompose (internal_to_absolute d (build xi) (build xb)))) p = q.
Proof.
  intros d xi xb p q. rewrite build_moves, decompose_exact by (apply i2a_affine; apply build_affine).
  rewrite i2a_point by apply build_affine. cbn [build].
  unfold t_transform, transform_from_decomposed, t_rotate_translate, compose.
  rewrite !dot_point by auto using build_affine, inv_affine, rt_affine, dot_affine. tauto.
Qed.
