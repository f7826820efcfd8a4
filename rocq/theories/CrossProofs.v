(** Crossing the border: along a segment that meets no vertex of a polygon, the even-odd
    rule changes at every edge that is met. *)
From Coq Require Import Reals List Bool Lra Lia Psatz.
From Verif Require Import Base Num GeoModel GeoSpec ParityProofs.
Import ListNotations.
Local Open Scope R_scope.

(** the two segments meet, in inner points of both *)
Definition properly (e f : redge) : Prop :=
  ~ on_seg e (es f) /\ ~ on_seg e (ee f) /\ ~ on_seg f (es e) /\ ~ on_seg f (ee e).

Lemma seg_cross_x : forall e x, py (es e) <> py (ee e) -> on_seg e x -> px x = cross_x e (py x).
Proof.
  intros [[ax ay] [bx by']] x N (t & Ht & ->). cbn [es ee px py] in *. unfold cross_x, at_t; cbn. field. lra.
Qed.
Lemma seg_level : forall e x, py (es e) = py (ee e) -> on_seg e x -> py x = py (es e).
Proof. intros [[ax ay] [bx by']] x N (t & Ht & ->). cbn in *. nra. Qed.
Lemma pt_eta : forall p : rpoint, Pt (px p) (py p) = p.
Proof. intros []. reflexivity. Qed.

Lemma cross_up : forall a b p q x, py a <= py b -> py p <= py q ->
  on_seg (Ed a b) x -> on_seg (Ed p q) x -> properly (Ed a b) (Ed p q) ->
  xorb (crosses p (Ed a b)) (crosses q (Ed a b)) = negb (xorb (swept p q a) (swept p q b)).
Proof.
  intros a b p q x Hab Hpq Oa Op (Np & Nq & Na & Nb). cbn [es ee] in Np, Nq, Na, Nb.
  destruct (seg_between _ _ Oa) as (Bax & Bay). destruct (seg_between _ _ Op) as (Bpx & Bpy). cbn [es ee] in Bax, Bay, Bpx, Bpy.
  rewrite Rmin_left, Rmax_right in Bay by assumption. rewrite Rmin_left, Rmax_right in Bpy by assumption.
  assert (Ax : x <> a) by (intros ->; apply Na; exact Op). assert (Bx : x <> b) by (intros ->; apply Nb; exact Op).
  assert (Px : x <> p) by (intros ->; apply Np; exact Oa). assert (Qx : x <> q) by (intros ->; apply Nq; exact Oa).
  destruct (Req_dec (py a) (py b)) as [Eab|Nab].
  - assert (C : forall z, crosses z (Ed a b) = false).
    { intros z. unfold crosses, straddles; simpl. rewrite Eab, xorb_nilpotent. reflexivity. }
    rewrite !C. cbn [xorb]. pose proof (seg_level (Ed a b) _ Eab Oa) as Y0. cbn [es] in Y0.
    destruct (Req_dec (py p) (py q)) as [Epq|Npq].
    + (* both horizontal *)
      exfalso. pose proof (seg_level (Ed p q) _ Epq Op) as Y1. cbn [es] in Y1.
      assert (K : forall z, ~ on_seg (Ed a b) z -> py z = py a -> px z < Rmin (px a) (px b) \/ Rmax (px a) (px b) < px z).
      { intros z Hz Ez. destruct (Rlt_dec (px z) (Rmin (px a) (px b))); [auto|]. destruct (Rlt_dec (Rmax (px a) (px b)) (px z)); [auto|].
        exfalso. apply Hz. rewrite <- (pt_eta z), Ez. apply (at_x (Ed a b)); cbn [es ee]; [exact Eab|].
        unfold Rmin, Rmax in *. destruct (Rle_dec (px a) (px b)); lra. }
      assert (K' : forall z, ~ on_seg (Ed p q) z -> py z = py p -> px z < Rmin (px p) (px q) \/ Rmax (px p) (px q) < px z).
      { intros z Hz Ez. destruct (Rlt_dec (px z) (Rmin (px p) (px q))); [auto|]. destruct (Rlt_dec (Rmax (px p) (px q)) (px z)); [auto|].
        exfalso. apply Hz. rewrite <- (pt_eta z), Ez. apply (at_x (Ed p q)); cbn [es ee]; [exact Epq|].
        unfold Rmin, Rmax in *. destruct (Rle_dec (px p) (px q)); lra. }
      pose proof (K p Np ltac:(lra)). pose proof (K q Nq ltac:(lra)). pose proof (K' a Na ltac:(lra)). pose proof (K' b Nb ltac:(lra)).
      unfold Rmin, Rmax in *. destruct (Rle_dec (px a) (px b)), (Rle_dec (px p) (px q)); lra.
    + pose proof (seg_cross_x (Ed p q) _ Npq Op) as X0. rewrite Y0 in X0.
      assert (S : py p < py a < py q).
      { split; (apply Rnot_le_lt; intros L).
        - apply Px. assert (py x = py p) by lra. apply pt_ext; [|assumption]. rewrite X0. rewrite <- Y0, H. apply cross_x_start.
        - apply Qx. assert (py x = py q) by lra. apply pt_ext; [|assumption]. rewrite X0. rewrite <- Y0, H. apply (cross_x_end (Ed p q)); assumption. }
      unfold swept. rewrite <- Eab. replace (Rltb (py a) (py p)) with false by (symmetry; apply Rltb_nspec; lra).
      replace (Rltb (py a) (py q)) with true by (symmetry; apply Rltb_spec; lra). cbn [xorb andb]. rewrite <- X0.
      assert (px a <> px x) by (intros E; apply Ax; apply pt_ext; congruence).
      assert (px b <> px x) by (intros E; apply Bx; apply pt_ext; congruence).
      unfold Rmin, Rmax in Bax. rdestr (px x) (px a); rdestr (px x) (px b); cbn; try reflexivity; exfalso; destruct (Rle_dec (px a) (px b)); lra.
  - pose proof (seg_cross_x (Ed a b) _ Nab Oa) as X0.
    assert (SA : py a < py x < py b).
    { split; (apply Rnot_le_lt; intros L).
      - apply Ax. assert (py x = py a) by lra. apply pt_ext; [|assumption]. rewrite X0, H. apply cross_x_start.
      - apply Bx. assert (py x = py b) by lra. apply pt_ext; [|assumption]. rewrite X0, H. apply (cross_x_end (Ed a b)); assumption. }
    destruct (Req_dec (py p) (py q)) as [Epq|Npq].
    + pose proof (seg_level (Ed p q) _ Epq Op) as Y1. cbn [es] in Y1.
      assert (C : forall z, swept p q z = false).
      { intros z. unfold swept. rewrite Epq, xorb_nilpotent. reflexivity. }
      rewrite !C. cbn [xorb negb]. unfold crosses, straddles. cbn [es ee]. rewrite <- Epq, <- Y1, <- X0.
      replace (Rltb (py a) (py x)) with true by (symmetry; apply Rltb_spec; lra).
      replace (Rltb (py b) (py x)) with false by (symmetry; apply Rltb_nspec; lra). cbn [xorb andb].
      assert (px p <> px x) by (intros E; apply Px; apply pt_ext; congruence).
      assert (px q <> px x) by (intros E; apply Qx; apply pt_ext; congruence).
      unfold Rmin, Rmax in Bpx. rdestr (px p) (px x); rdestr (px q) (px x); cbn; try reflexivity; exfalso; destruct (Rle_dec (px p) (px q)); lra.
    + pose proof (seg_cross_x (Ed p q) _ Npq Op) as Z0.
      assert (SP : py p < py x < py q).
      { split; (apply Rnot_le_lt; intros L).
        - apply Px. assert (py x = py p) by lra. apply pt_ext; [|assumption]. rewrite Z0, H. apply cross_x_start.
        - apply Qx. assert (py x = py q) by lra. apply pt_ext; [|assumption]. rewrite Z0, H. apply (cross_x_end (Ed p q)); assumption. }
      set (X := cross_x (Ed a b)) in *. set (Y := cross_x (Ed p q)) in *. set (y0 := py x) in *.
      set (m := slope (Ed a b) - slope (Ed p q)).
      assert (AX : forall y, X y - Y y = (y - y0) * m).
      { intros y. assert (E0 : X y0 - Y y0 = 0) by lra. unfold X, Y in *. rewrite (cross_x_affine (Ed a b) y0), (cross_x_affine (Ed p q) y0) in E0.
        rewrite (cross_x_affine (Ed a b) y), (cross_x_affine (Ed p q) y). unfold m. nra. }
      assert (Xa : px a = X (py a)) by (symmetry; apply cross_x_start).
      assert (Xb : px b = X (py b)) by (symmetry; apply (cross_x_end (Ed a b)); assumption).
      assert (Yp : px p = Y (py p)) by (symmetry; apply cross_x_start).
      assert (Yq : px q = Y (py q)) by (symmetry; apply (cross_x_end (Ed p q)); assumption).
      assert (M : m <> 0).
      { intros M. destruct (Rle_dec (py a) (py p)).
        - apply Np. rewrite <- (pt_eta p). replace (px p) with (X (py p)) by (specialize (AX (py p)); rewrite M in AX; lra).
          apply at_y; cbn [es ee]; [assumption|lra].
        - apply Na. rewrite <- (pt_eta a). replace (px a) with (Y (py a)) by (specialize (AX (py a)); rewrite M in AX; lra).
          apply at_y; cbn [es ee]; [assumption|lra]. }
      assert (LO : forall y, y < y0 -> Rltb (Y y) (X y) = Rltb m 0).
      { intros y L. specialize (AX y). rdestr (Y y) (X y); symmetry; [apply Rltb_spec|apply Rltb_nspec]; nra. }
      assert (HI : forall y, y0 < y -> Rltb (Y y) (X y) = negb (Rltb m 0)).
      { intros y L. specialize (AX y). rdestr (Y y) (X y); rdestr m 0; cbn; try reflexivity; exfalso; nra. }
      unfold crosses, swept, straddles. cbn [es ee]. rewrite Xa, Xb, Yp, Yq. fold X. fold Y.
      rewrite (LO (py a)), (LO (py p)), (HI (py b)), (HI (py q)) by lra.
      replace (Rltb (py b) (py p)) with false by (symmetry; apply Rltb_nspec; lra).
      replace (Rltb (py a) (py q)) with true by (symmetry; apply Rltb_spec; lra).
      destruct (Rltb (py a) (py p)), (Rltb (py b) (py q)), (Rltb m 0); reflexivity.
Qed.
Lemma properly_rev_l : forall a b f, properly (Ed a b) f -> properly (Ed b a) f.
Proof. intros a b f (A & B & C & D). repeat split; cbn [es ee] in *; auto using on_seg_rev. Qed.
Lemma properly_sym : forall e f, properly e f -> properly f e.
Proof. intros e f (A & B & C & D). repeat split; auto. Qed.
Lemma cross_sweep : forall a b p q x, on_seg (Ed a b) x -> on_seg (Ed p q) x -> properly (Ed a b) (Ed p q) ->
  xorb (crosses p (Ed a b)) (crosses q (Ed a b)) = negb (xorb (swept p q a) (swept p q b)).
Proof.
  assert (H1 : forall a b p q x, py a <= py b -> on_seg (Ed a b) x -> on_seg (Ed p q) x -> properly (Ed a b) (Ed p q) ->
    xorb (crosses p (Ed a b)) (crosses q (Ed a b)) = negb (xorb (swept p q a) (swept p q b))).
  { intros a b p q x H A B D. destruct (Rle_dec (py p) (py q)).
    - apply (cross_up a b p q x); assumption.
    - rewrite (xorb_comm (crosses p _)), <- (swept_sym p q a), <- (swept_sym p q b).
      apply (cross_up a b q p x); [assumption|lra|assumption|apply on_seg_rev; exact B|].
      apply properly_sym, properly_rev_l, properly_sym, D. }
  intros a b p q x A B D. destruct (Rle_dec (py a) (py b)).
  - apply (H1 a b p q x); assumption.
  - rewrite <- (crosses_sym a b p), <- (crosses_sym a b q), (xorb_comm (swept p q a)).
    apply (H1 b a p q x); [lra|apply on_seg_rev; exact A|exact B|apply properly_rev_l, D].
Qed.

Lemma parity_negb : forall {A} (f g : A -> bool) l,
  parity (fun x => xorb (f x) (g x)) l = xorb (parity f l) (parity g l).
Proof. intros. symmetry. apply parity_xor. Qed.
(** the number of edges met between [p] and [q] decides *)
Lemma even_odd_cross : forall l p q (T : redge -> bool), ~ on_border l p -> ~ on_border l q ->
  (forall v, In v l -> ~ on_seg (Ed p q) v) ->
  (forall e, In e (ring l) -> T e = true <-> exists x, on_seg e x /\ on_seg (Ed p q) x) ->
  xorb (even_odd l p) (even_odd l q) = parity T (ring l).
Proof.
  intros l p q T Bp Bq V HT. unfold even_odd. rewrite parity_xor.
  rewrite <- (xorb_false_r (parity T (ring l))), <- (ring_ends (swept p q) l), <- parity_negb.
  apply parity_ext. intros [a b] Hin. cbn [es ee].
  destruct (T (Ed a b)) eqn:Te.
  - destruct (proj1 (HT _ Hin) Te) as (x & A & B). rewrite (cross_sweep a b p q x A B); [reflexivity|].
    destruct (ring_in _ _ Hin) as (Va & Vb). cbn [es ee] in Va, Vb. repeat split; cbn [es ee].
    + intros O. apply Bp. exists (Ed a b). auto.
    + intros O. apply Bq. exists (Ed a b). auto.
    + apply V, Va.
    + apply V, Vb.
  - assert (E : xorb (crosses p (Ed a b)) (crosses q (Ed a b)) = xorb (swept p q a) (swept p q b)).
    { apply sweep. intros x A B. assert (T (Ed a b) = true); [|congruence]. apply (HT _ Hin). eauto. }
    rewrite E. destruct (swept p q a), (swept p q b); reflexivity.
Qed.
(** meeting properly excludes parallel segments *)
Lemma properly_det : forall e f x, on_seg e x -> on_seg f x -> properly e f -> edet e f <> 0.
Proof.
  intros [[ax ay] [bx by']] [[cx cy] [dx dy]] x (s & Hs & E1) (t & Ht & E2) (N1 & N2 & N3 & N4) D.
  unfold edet in D. cbn [es ee px py] in *. subst x. unfold at_t in E2. cbn [es ee px py] in E2. injection E2 as E2x E2y.
  set (ux := bx - ax) in *. set (uy := by' - ay) in *. set (vx := dx - cx) in *. set (vy := dy - cy) in *.
  set (L := ux * ux + uy * uy).
  destruct (Req_dec L 0) as [Z|Z].
  { (* a point *)
    assert (ux = 0 /\ uy = 0) as (U1 & U2) by (unfold L in Z; split; nra).
    apply N3. exists t. split; [exact Ht|]. apply pt_ext; unfold at_t; cbn [es ee px py].
    - unfold vx in E2x. rewrite U1 in E2x. lra.
    - unfold vy in E2y. rewrite U2 in E2y. lra. }
  assert (LP : 0 < L) by (unfold L in *; nra).
  set (k := (vx * ux + vy * uy) / L).
  assert (DD : ux * vy = uy * vx) by lra.
  assert (Kx : vx = k * ux).
  { apply Rmult_eq_reg_r with L; [|exact Z]. unfold k. replace ((vx * ux + vy * uy) / L * ux * L) with ((vx * ux + vy * uy) * ux) by (field; exact Z).
    unfold L. replace (vx * (ux * ux + uy * uy)) with (vx * ux * ux + uy * (uy * vx)) by ring. rewrite <- DD. ring. }
  assert (Ky : vy = k * uy).
  { apply Rmult_eq_reg_r with L; [|exact Z]. unfold k. replace ((vx * ux + vy * uy) / L * uy * L) with ((vx * ux + vy * uy) * uy) by (field; exact Z).
    unfold L. replace (vy * (ux * ux + uy * uy)) with (vy * uy * uy + ux * (ux * vy)) by ring. rewrite DD. ring. }
  (* positions along e: c at s - t k, d at s + (1 - t) k *)
  assert (Cc : ~ 0 <= s - t * k <= 1).
  { intros H. apply N1. exists (s - t * k). split; [exact H|]. apply pt_ext; unfold at_t; cbn [es ee px py]; fold ux uy; rewrite ?Kx, ?Ky in *; lra. }
  assert (Dd : ~ 0 <= s + (1 - t) * k <= 1).
  { intros H. apply N2. exists (s + (1 - t) * k). split; [exact H|]. apply pt_ext; unfold at_t; cbn [es ee px py]; fold ux uy.
    - replace dx with (cx + vx) by (unfold vx; ring). rewrite Kx in *. lra.
    - replace dy with (cy + vy) by (unfold vy; ring). rewrite Ky in *. lra. }
  assert (K0 : k <> 0) by (intros K0; rewrite K0 in *; apply Cc; lra).
  assert (Hw : 0 <= (t * k - s) / k <= 1).
  { assert (S1 : s - t * k < 0 /\ 1 < s + (1 - t) * k \/ 1 < s - t * k /\ s + (1 - t) * k < 0) by nra.
    destruct S1 as [(S1 & S2)|(S1 & S2)].
    - assert (0 < k) by nra. split; [apply Rmult_le_reg_r with k|apply Rmult_le_reg_r with k]; try assumption; unfold Rdiv; rewrite Rmult_assoc, Rinv_l; lra.
    - assert (k < 0) by nra. replace ((t * k - s) / k) with ((s - t * k) / (- k)) by (field; lra).
      split; [apply Rmult_le_reg_r with (- k)|apply Rmult_le_reg_r with (- k)]; try lra; unfold Rdiv; rewrite Rmult_assoc, Rinv_l; lra. }
  apply N3. exists ((t * k - s) / k). split; [exact Hw|].
  apply pt_ext; unfold at_t; cbn [es ee px py]; fold vx vy.
  - replace ((t * k - s) / k * vx) with ((t * k - s) * ux) by (rewrite Kx; field; lra). rewrite Kx in E2x. lra.
  - replace ((t * k - s) / k * vy) with ((t * k - s) * uy) by (rewrite Ky; field; lra). rewrite Ky in E2y. lra.
Qed.
