(** The even-odd rule: it is constant along segments that avoid the border, false
    outside the bounding box; the first border met by a ray. *)
From Coq Require Import Reals List Bool Lra Lia Psatz.
From Verif Require Import Base Num GeoModel GeoSpec.
Import ListNotations.
Local Open Scope R_scope.

(** *** booleans of real comparisons *)
Lemma Rltb_spec : forall x y, Rltb x y = true <-> x < y.
Proof. intros x y. unfold Rltb. destruct (Rlt_dec x y); split; intros; try discriminate; auto; lra. Qed.
Lemma Rltb_nspec : forall x y, Rltb x y = false <-> y <= x.
Proof. intros x y. unfold Rltb. destruct (Rlt_dec x y); split; intros; try discriminate; auto; lra. Qed.
Lemma Rleb_spec : forall x y, Rleb x y = true <-> x <= y.
Proof. intros x y. unfold Rleb. destruct (Rle_dec x y); split; intros; try discriminate; auto; lra. Qed.
Lemma Rleb_nspec : forall x y, Rleb x y = false <-> y < x.
Proof. intros x y. unfold Rleb. destruct (Rle_dec x y); split; intros; try discriminate; auto; lra. Qed.
Lemma Reqb_spec : forall x y, Reqb x y = true <-> x = y.
Proof. intros x y. unfold Reqb. destruct (Req_EM_T x y); split; intros; try discriminate; auto; lra. Qed.
Lemma Reqb_nspec : forall x y, Reqb x y = false <-> x <> y.
Proof. intros x y. unfold Reqb. destruct (Req_EM_T x y); split; intros; try discriminate; auto; try lra; contradiction. Qed.

Ltac rdestr x y :=
  let H := fresh "H" in
  destruct (Rltb x y) eqn:H; [apply Rltb_spec in H|apply Rltb_nspec in H].

Lemma pt_ext : forall p q : rpoint, px p = px q -> py p = py q -> p = q.
Proof. intros [a b] [c d]; simpl; intros; subst; reflexivity. Qed.

(** *** segments *)
Lemma on_seg_start : forall e, on_seg e (es e).
Proof. intros e. exists 0. split; [lra|]. apply pt_ext; simpl; ring. Qed.
Lemma on_seg_end : forall e, on_seg e (ee e).
Proof. intros e. exists 1. split; [lra|]. apply pt_ext; simpl; ring. Qed.
Lemma on_seg_rev : forall a b p, on_seg (Ed a b) p -> on_seg (Ed b a) p.
Proof.
  intros a b p (t & Ht & ->). exists (1 - t). split; [lra|]. apply pt_ext; simpl; ring.
Qed.
(** the point of a non-horizontal segment at a given ordinate *)
Lemma at_y : forall e y, py (es e) <> py (ee e) ->
  (py (es e) <= y <= py (ee e) \/ py (ee e) <= y <= py (es e)) -> on_seg e (Pt (cross_x e y) y).
Proof.
  intros [[ax ay] [bx by']] y N H. simpl in *. exists ((y - ay) / (by' - ay)).
  assert (D : by' - ay <> 0) by lra. split.
  - destruct H as [H|H].
    + split; [apply Rmult_le_reg_r with (by' - ay)|apply Rmult_le_reg_r with (by' - ay)]; try lra;
        unfold Rdiv; rewrite Rmult_assoc, Rinv_l; lra.
    + assert (D' : ay - by' <> 0) by lra.
      replace ((y - ay) / (by' - ay)) with ((ay - y) / (ay - by')) by (field; lra).
      split; [apply Rmult_le_reg_r with (ay - by')|apply Rmult_le_reg_r with (ay - by')]; try lra;
        unfold Rdiv; rewrite Rmult_assoc, Rinv_l; lra.
  - apply pt_ext; unfold cross_x; simpl; field; lra.
Qed.
(** a point of a horizontal segment *)
Lemma at_x : forall e x, py (es e) = py (ee e) ->
  (px (es e) <= x <= px (ee e) \/ px (ee e) <= x <= px (es e)) -> on_seg e (Pt x (py (es e))).
Proof.
  intros [[ax ay] [bx by']] x E H. simpl in *. subst by'.
  destruct (Req_dec ax bx) as [->|N].
  - exists 0. split; [lra|]. apply pt_ext; simpl; lra.
  - assert (D : bx - ax <> 0) by lra. exists ((x - ax) / (bx - ax)). split.
    + destruct H as [H|H].
      * split; [apply Rmult_le_reg_r with (bx - ax)|apply Rmult_le_reg_r with (bx - ax)]; try lra;
          unfold Rdiv; rewrite Rmult_assoc, Rinv_l; lra.
      * assert (D' : ax - bx <> 0) by lra.
        replace ((x - ax) / (bx - ax)) with ((ax - x) / (ax - bx)) by (field; lra).
        split; [apply Rmult_le_reg_r with (ax - bx)|apply Rmult_le_reg_r with (ax - bx)]; try lra;
          unfold Rdiv; rewrite Rmult_assoc, Rinv_l; lra.
    + apply pt_ext; simpl; field; lra.
Qed.
Lemma cross_x_rev : forall a b y, py a <> py b -> cross_x (Ed b a) y = cross_x (Ed a b) y.
Proof. intros [ax ay] [bx by'] y N. unfold cross_x; simpl in *. field. split; lra. Qed.
(** affine in the ordinate *)
Definition slope (e : redge) : R := (px (ee e) - px (es e)) / (py (ee e) - py (es e)).
Lemma cross_x_affine : forall e y, cross_x e y = cross_x e 0 + y * slope e.
Proof. intros. unfold cross_x, slope. ring. Qed.
Lemma cross_x_start : forall e, cross_x e (py (es e)) = px (es e).
Proof. intros. unfold cross_x. ring. Qed.
Lemma cross_x_end : forall e, py (es e) <> py (ee e) -> cross_x e (py (ee e)) = px (ee e).
Proof. intros. unfold cross_x. field. lra. Qed.

(** an affine function without zero on an interval keeps its sign *)
Lemma affine_sign : forall c m u v, u <= v -> (forall y, u <= y <= v -> c + y * m <> 0) ->
  0 < c + u * m -> 0 < c + v * m.
Proof.
  intros c m u v Huv H0 Hu.
  destruct (Rlt_dec 0 (c + v * m)) as [|N]; [assumption|exfalso].
  assert (Hv : c + v * m < 0). { pose proof (H0 v). lra. }
  assert (Hm : m < 0). { nra. }
  apply (H0 (- c / m)).
  - assert (Hy : c + (- c / m) * m = 0) by (field; lra).
    set (y := - c / m) in *. split; nra.
  - field. lra.
Qed.

(** *** the key lemma: one edge, two points *)
(** is the vertex swept by the ray when its origin moves from [p] to [q]? *)
Definition swept (p q v : rpoint) : bool :=
  xorb (Rltb (py v) (py p)) (Rltb (py v) (py q)) && Rltb (cross_x (Ed p q) (py v)) (px v).

Lemma straddles_sym : forall a b y, straddles (Ed b a) y = straddles (Ed a b) y.
Proof. intros. unfold straddles; simpl. apply xorb_comm. Qed.
Lemma crosses_sym : forall a b p, crosses p (Ed b a) = crosses p (Ed a b).
Proof.
  intros a b p. unfold crosses. rewrite straddles_sym.
  destruct (straddles (Ed a b) (py p)) eqn:S; [|reflexivity]. simpl.
  rewrite cross_x_rev; [reflexivity|]. unfold straddles in S; simpl in S.
  intros E. rewrite E in S. destruct (Rltb (py b) (py p)); discriminate.
Qed.
Lemma swept_sym : forall p q v, swept q p v = swept p q v.
Proof.
  intros p q v. unfold swept. rewrite (xorb_comm (Rltb (py v) (py q))).
  destruct (xorb _ _) eqn:S; [|reflexivity]. simpl.
  rewrite cross_x_rev; [reflexivity|].
  intros E. rewrite E, xorb_nilpotent in S. discriminate.
Qed.

Definition disjoint_segs (e f : redge) : Prop := forall x, on_seg e x -> on_seg f x -> False.

Lemma sweep_up : forall a b p q, py a <= py b -> py p <= py q ->
  disjoint_segs (Ed a b) (Ed p q) ->
  xorb (crosses p (Ed a b)) (crosses q (Ed a b)) = xorb (swept p q a) (swept p q b).
Proof.
  intros a b p q Hab Hpq D.
  destruct (Req_dec (py a) (py b)) as [Eab|Nab].
  - (* horizontal edge *)
    assert (C : forall z, crosses z (Ed a b) = false).
    { intros z. unfold crosses, straddles; simpl. rewrite Eab, xorb_nilpotent. reflexivity. }
    rewrite !C. cbn [xorb].
    destruct (Req_dec (py p) (py q)) as [Epq|Npq].
    + unfold swept. rewrite Epq, !xorb_nilpotent. reflexivity.
    + unfold swept. rewrite <- Eab.
      destruct (xorb (Rltb (py a) (py p)) (Rltb (py a) (py q))) eqn:S; [|reflexivity]. simpl.
      assert (R0 : py p <= py a <= py q).
      { rdestr (py a) (py p); rdestr (py a) (py q); simpl in S; try discriminate; lra. }
      pose proof (at_y (Ed p q) (py a) Npq (or_introl R0)) as O.
      rdestr (cross_x (Ed p q) (py a)) (px a); rdestr (cross_x (Ed p q) (py a)) (px b); try reflexivity; exfalso;
        (apply (D (Pt (cross_x (Ed p q) (py a)) (py a))); [|exact O]);
        apply (at_x (Ed a b)); simpl; try assumption; lra.
  - destruct (Req_dec (py p) (py q)) as [Epq|Npq].
    + (* horizontal motion *)
      assert (C : forall z, swept p q z = false).
      { intros z. unfold swept. rewrite Epq, xorb_nilpotent. reflexivity. }
      rewrite !C. cbn [xorb]. unfold crosses. rewrite <- Epq.
      destruct (straddles (Ed a b) (py p)) eqn:S; [|reflexivity]. simpl.
      assert (R0 : py a <= py p <= py b).
      { unfold straddles in S; simpl in S. rdestr (py a) (py p); rdestr (py b) (py p); simpl in S; try discriminate; lra. }
      pose proof (at_y (Ed a b) (py p) Nab (or_introl R0)) as O.
      rdestr (px p) (cross_x (Ed a b) (py p)); rdestr (px q) (cross_x (Ed a b) (py p)); try reflexivity; exfalso;
        (apply (D (Pt (cross_x (Ed a b) (py p)) (py p))); [exact O|]);
        apply (at_x (Ed p q)); simpl; try assumption; lra.
    + (* general position *)
      set (X := cross_x (Ed a b)). set (Y := cross_x (Ed p q)).
      assert (N0 : forall y, py a <= y <= py b -> py p <= y <= py q -> X y <> Y y).
      { intros y Hy1 Hy2 E. apply (D (Pt (X y) y)).
        - apply at_y; simpl; auto.
        - rewrite E. apply at_y; simpl; auto. }
      assert (AX : forall y, X y - Y y = (cross_x (Ed a b) 0 - cross_x (Ed p q) 0) + y * (slope (Ed a b) - slope (Ed p q))).
      { intros y. unfold X, Y. rewrite (cross_x_affine (Ed a b) y), (cross_x_affine (Ed p q) y). ring. }
      assert (SG : forall u v, py a <= u <= py b -> py p <= u <= py q -> py a <= v <= py b -> py p <= v <= py q ->
                 Y u < X u -> Y v < X v).
      { intros u v A1 A2 B1 B2 H.
        destruct (Rle_dec u v) as [L|L].
        - assert (0 < X v - Y v); [|lra]. rewrite AX. apply (affine_sign _ _ u v L).
          + intros y Hy. rewrite <- AX. pose proof (N0 y). lra.
          + rewrite <- AX. lra.
        - assert (0 < X v - Y v); [|lra]. rewrite AX.
          replace (_ + v * _) with (cross_x (Ed a b) 0 - cross_x (Ed p q) 0 + (- v) * (- (slope (Ed a b) - slope (Ed p q)))) by ring.
          apply (affine_sign _ _ (- u) (- v)); [lra| |].
          + intros y Hy. replace (_ + y * _) with (X (- y) - Y (- y)) by (rewrite AX; ring).
            pose proof (N0 (- y)). lra.
          + replace (_ + (- u) * _) with (X u - Y u) by (rewrite AX; ring). lra. }
      unfold crosses, swept.
      assert (Xa : px a = X (py a)) by (symmetry; apply cross_x_start).
      assert (Xb : px b = X (py b)) by (symmetry; apply (cross_x_end (Ed a b)); assumption).
      assert (Yp : px p = Y (py p)) by (symmetry; apply cross_x_start).
      assert (Yq : px q = Y (py q)) by (symmetry; apply (cross_x_end (Ed p q)); assumption).
      rewrite Xa, Xb, Yp, Yq. fold X. fold Y. unfold straddles; cbn [es ee].
      destruct (Rlt_dec (py b) (py p)) as [O1|O1].
      { (* edge below *)
        replace (Rltb (py a) (py p)) with true by (symmetry; apply Rltb_spec; lra).
        replace (Rltb (py b) (py p)) with true by (symmetry; apply Rltb_spec; lra).
        replace (Rltb (py a) (py q)) with true by (symmetry; apply Rltb_spec; lra).
        replace (Rltb (py b) (py q)) with true by (symmetry; apply Rltb_spec; lra).
        reflexivity. }
      destruct (Rlt_dec (py q) (py a)) as [O2|O2].
      { replace (Rltb (py a) (py p)) with false by (symmetry; apply Rltb_nspec; lra).
        replace (Rltb (py b) (py p)) with false by (symmetry; apply Rltb_nspec; lra).
        replace (Rltb (py a) (py q)) with false by (symmetry; apply Rltb_nspec; lra).
        replace (Rltb (py b) (py q)) with false by (symmetry; apply Rltb_nspec; lra).
        reflexivity. }
      (* the ordinates overlap: pick a common ordinate *)
      set (u := Rmax (py a) (py p)).
      assert (U1 : py a <= u <= py b /\ py p <= u <= py q).
      { unfold u, Rmax. destruct (Rle_dec (py a) (py p)); lra. }
      destruct U1 as (U1 & U2).
      assert (SD : forall y, py a <= y <= py b -> py p <= y <= py q -> Rltb (Y y) (X y) = Rltb (Y u) (X u)).
      { intros y H1 H2. rdestr (Y y) (X y); symmetry.
        - apply Rltb_spec. apply (SG y u); assumption.
        - apply Rltb_nspec. destruct (Rle_dec (X u) (Y u)) as [|N]; [assumption|].
          exfalso. pose proof (SG u y U1 U2 H1 H2). lra. }
      assert (L : forall (g : bool) y, (g = true -> py a <= y <= py b /\ py p <= y <= py q) ->
                 g && Rltb (Y y) (X y) = g && Rltb (Y u) (X u)).
      { intros [|] y H; [|reflexivity]. simpl. destruct (H eq_refl). apply SD; assumption. }
      rewrite (L (xorb (Rltb (py a) (py p)) (Rltb (py b) (py p))) (py p)).
      2:{ intros H. rdestr (py a) (py p); rdestr (py b) (py p); simpl in H; try discriminate; lra. }
      rewrite (L (xorb (Rltb (py a) (py q)) (Rltb (py b) (py q))) (py q)).
      2:{ intros H. rdestr (py a) (py q); rdestr (py b) (py q); simpl in H; try discriminate; lra. }
      rewrite (L (xorb (Rltb (py a) (py p)) (Rltb (py a) (py q))) (py a)).
      2:{ intros H. rdestr (py a) (py p); rdestr (py a) (py q); simpl in H; try discriminate; lra. }
      rewrite (L (xorb (Rltb (py b) (py p)) (Rltb (py b) (py q))) (py b)).
      2:{ intros H. rdestr (py b) (py p); rdestr (py b) (py q); simpl in H; try discriminate; lra. }
      destruct (Rltb (Y u) (X u)); [|rewrite !andb_false_r; reflexivity].
      rewrite !andb_true_r.
      destruct (Rltb (py a) (py p)), (Rltb (py b) (py p)), (Rltb (py a) (py q)), (Rltb (py b) (py q)); reflexivity.
Qed.

Lemma disjoint_sym : forall e f, disjoint_segs e f -> disjoint_segs f e.
Proof. intros e f H x A B. exact (H x B A). Qed.
Lemma sweep : forall a b p q, disjoint_segs (Ed a b) (Ed p q) ->
  xorb (crosses p (Ed a b)) (crosses q (Ed a b)) = xorb (swept p q a) (swept p q b).
Proof.
  assert (H1 : forall a b p q, py a <= py b -> disjoint_segs (Ed a b) (Ed p q) ->
    xorb (crosses p (Ed a b)) (crosses q (Ed a b)) = xorb (swept p q a) (swept p q b)).
  { intros a b p q H D. destruct (Rle_dec (py p) (py q)).
    - apply sweep_up; assumption.
    - rewrite (xorb_comm (crosses p _)), <- (swept_sym p q a), <- (swept_sym p q b).
      apply sweep_up; [assumption|lra|]. intros x A B. apply (D x A). apply on_seg_rev; exact B. }
  intros a b p q D. destruct (Rle_dec (py a) (py b)).
  - apply H1; assumption.
  - rewrite <- (crosses_sym a b p), <- (crosses_sym a b q), (xorb_comm (swept p q a)).
    apply H1; [lra|]. intros x A B. apply (D x); [apply on_seg_rev; exact A|exact B].
Qed.

(** *** sums over the ring *)
Lemma parity_xor : forall {A} (f g : A -> bool) l,
  xorb (parity f l) (parity g l) = parity (fun x => xorb (f x) (g x)) l.
Proof.
  induction l as [|x l IH]; [reflexivity|]. simpl. rewrite <- IH.
  destruct (f x), (g x), (parity f l), (parity g l); reflexivity.
Qed.
Lemma parity_ext : forall {A} (f g : A -> bool) l, (forall x, In x l -> f x = g x) -> parity f l = parity g l.
Proof.
  induction l as [|x l IH]; intros H; [reflexivity|]. simpl. rewrite (H x), IH; auto.
  - intros y Hy. apply H. right; exact Hy.
  - left; reflexivity.
Qed.
Lemma path_ends : forall (g : rpoint -> bool) l first a,
  parity (fun e => xorb (g (es e)) (g (ee e))) (path_edges first a l) = xorb (g a) (g first).
Proof.
  intros g l. induction l as [|b l IH]; intros first a; simpl.
  - apply xorb_false_r.
  - rewrite IH. destruct (g a), (g b), (g first); reflexivity.
Qed.
Lemma ring_ends : forall (g : rpoint -> bool) l,
  parity (fun e => xorb (g (es e)) (g (ee e))) (ring l) = false.
Proof. intros g [|a l]; [reflexivity|]. simpl. rewrite path_ends. apply xorb_nilpotent. Qed.

Lemma even_odd_path : forall l p q, (forall x, on_seg (Ed p q) x -> ~ on_border l x) ->
  even_odd l p = even_odd l q.
Proof.
  intros l p q H.
  assert (E : xorb (even_odd l p) (even_odd l q) = false).
  { unfold even_odd. rewrite parity_xor. rewrite <- (ring_ends (swept p q) l).
    apply parity_ext. intros [a b] Hin. simpl. apply sweep.
    intros x A B. apply (H x B). exists (Ed a b). split; assumption. }
  destruct (even_odd l p), (even_odd l q); simpl in E; congruence.
Qed.
Lemma straddle_even : forall l y, parity (fun e => straddles e y) (ring l) = false.
Proof. intros l y. apply (ring_ends (fun v => Rltb (py v) y)). Qed.

Lemma path_in : forall l first a e, In e (path_edges first a l) ->
  In (es e) (a :: l) /\ In (ee e) (first :: l).
Proof.
  induction l as [|b l IH]; intros first a e H; simpl in H.
  - destruct H as [<-|[]]. simpl. auto.
  - destruct H as [<-|H]; [simpl; auto|]. apply IH in H as (A & B). simpl in *. tauto.
Qed.
Lemma ring_in : forall l e, In e (ring l) -> In (es e) l /\ In (ee e) l.
Proof.
  intros [|a l] e H; [destruct H|]. simpl in H. apply path_in in H as (A & B). simpl in *. tauto.
Qed.

Lemma seg_in_rect : forall r a b p, in_rect r a -> in_rect r b -> on_seg (Ed a b) p -> in_rect r p.
Proof.
  intros r [ax ay] [bx by'] p A B (t & Ht & ->). unfold in_rect in *; simpl in *. nra.
Qed.
Lemma seg_between : forall e p, on_seg e p ->
  (Rmin (px (es e)) (px (ee e)) <= px p <= Rmax (px (es e)) (px (ee e))) /\
  (Rmin (py (es e)) (py (ee e)) <= py p <= Rmax (py (es e)) (py (ee e))).
Proof.
  intros [[ax ay] [bx by']] p (t & Ht & ->). simpl. unfold Rmin, Rmax.
  destruct (Rle_dec ax bx), (Rle_dec ay by'); nra.
Qed.
Lemma border_in_box : forall r l p, (forall v, In v l -> in_rect r v) -> on_border l p -> in_rect r p.
Proof.
  intros r l p H ([a b] & Hin & O). apply ring_in in Hin as (A & B). simpl in A, B.
  apply (seg_in_rect r a b); auto.
Qed.

(** nothing is inside a polygon beyond its bounding box *)
Lemma even_odd_box : forall r l p, (forall v, In v l -> in_rect r v) -> ~ on_border l p ->
  even_odd l p = true -> in_open_rect r p.
Proof.
  intros r l p B N E.
  assert (BE : forall e, In e (ring l) -> in_rect r (es e) /\ in_rect r (ee e)).
  { intros e He. apply ring_in in He as (H1 & H2). split; auto. }
  assert (Z : forall (f : redge -> bool), (forall e, In e (ring l) -> f e = false) -> parity f (ring l) = false).
  { clear BE. intros f. induction (ring l) as [|e m IH]; intros H; [reflexivity|]. simpl.
    rewrite (H e), IH; auto. - intros; apply H; right; assumption. - left; reflexivity. }
  assert (ST : forall e, In e (ring l) -> straddles e (py p) = true ->
     on_seg e (Pt (cross_x e (py p)) (py p)) /\ y_min r < py p <= y_max r).
  { intros e He S. destruct (BE e He) as (H1 & H2). unfold in_rect in *.
    unfold straddles in S. rdestr (py (es e)) (py p); rdestr (py (ee e)) (py p); simpl in S; try discriminate;
      (split; [apply at_y; lra|lra]). }
  split; split.
  - (* left *)
    destruct (Rlt_dec (x_min r) (px p)) as [|C]; [assumption|exfalso].
    assert (X : even_odd l p = parity (fun e => straddles e (py p)) (ring l)).
    { apply parity_ext. intros e He. unfold crosses. destruct (straddles e (py p)) eqn:S; [|reflexivity].
      simpl. apply Rltb_spec. destruct (ST e He S) as (O & _).
      assert (IR : in_rect r (Pt (cross_x e (py p)) (py p))) by (apply (border_in_box r l); [exact B|exists e; auto]).
      unfold in_rect in IR; simpl in IR.
      assert (px p <> cross_x e (py p)); [|lra].
      intros Q. apply N. exists e. split; [exact He|]. rewrite <- Q in O. destruct p; exact O. }
    rewrite X, straddle_even in E. discriminate.
  - (* right *)
    destruct (Rlt_dec (px p) (x_max r)) as [|C]; [assumption|exfalso].
    assert (X : even_odd l p = false); [|congruence].
    apply Z. intros e He. unfold crosses. destruct (straddles e (py p)) eqn:S; [|reflexivity].
    simpl. apply Rltb_nspec. destruct (ST e He S) as (O & _).
    assert (IR : in_rect r (Pt (cross_x e (py p)) (py p))) by (apply (border_in_box r l); [exact B|exists e; auto]).
    unfold in_rect in IR; simpl in IR. lra.
  - (* below: even the point itself cannot be crossed *)
    destruct (Rlt_dec (y_min r) (py p)) as [|C]; [assumption|exfalso].
    assert (X : even_odd l p = false); [|congruence].
    apply Z. intros e He. unfold crosses. destruct (straddles e (py p)) eqn:S; [|reflexivity].
    destruct (ST e He S) as (_ & ?). lra.
  - (* above: step upwards *)
    destruct (Rlt_dec (py p) (y_max r)) as [|C]; [assumption|exfalso].
    assert (X : even_odd l p = even_odd l (Pt (px p) (py p + 1))).
    { apply even_odd_path. intros x (t & Ht & ->) Ob. simpl in Ob.
      destruct (Req_dec t 0) as [->|Nt].
      - apply N. replace (at_t (Ed p (Pt (px p) (py p + 1))) 0) with p in Ob; [exact Ob|].
        apply pt_ext; unfold at_t; simpl; ring.
      - apply (border_in_box r) in Ob; [|exact B]. unfold in_rect, at_t in Ob; simpl in Ob. nra. }
    assert (Y : even_odd l (Pt (px p) (py p + 1)) = false); [|congruence].
    apply Z. intros e He. unfold crosses; simpl. destruct (BE e He) as (H1 & H2). unfold in_rect in *.
    unfold straddles.
    replace (Rltb (py (es e)) (py p + 1)) with true by (symmetry; apply Rltb_spec; lra).
    replace (Rltb (py (ee e)) (py p + 1)) with true by (symmetry; apply Rltb_spec; lra). reflexivity.
Qed.

(** *** the first border met by the ray *)
Lemma argmin : forall {A} (f : A -> R) l, l <> [] -> exists x, In x l /\ forall y, In y l -> f x <= f y.
Proof.
  intros A f l. induction l as [|a l IH]; intros H; [contradiction|].
  destruct l as [|b l].
  - exists a. split; [left; reflexivity|]. intros y [<-|[]]. lra.
  - destruct IH as (x & Hx & M); [discriminate|]. destruct (Rle_dec (f a) (f x)).
    + exists a. split; [left; reflexivity|]. intros y [<-|Hy]; [lra|]. specialize (M y Hy). lra.
    + exists x. split; [right; exact Hx|]. intros y [<-|Hy]; [lra|]. apply M; exact Hy.
Qed.
Lemma parity_nonempty : forall {A} (f : A -> bool) l, parity f l = true -> filter f l <> [].
Proof.
  induction l as [|x l IH]; simpl; [discriminate|]. destruct (f x); simpl; [discriminate|]. destruct (parity f l); [exact IH|discriminate].
Qed.
Lemma straddles_on : forall e y, straddles e y = true -> on_seg e (Pt (cross_x e y) y).
Proof.
  intros e y S. unfold straddles in S.
  rdestr (py (es e)) y; rdestr (py (ee e)) y; simpl in S; try discriminate; apply at_y; lra.
Qed.
Lemma move_right : forall m z x, py x = py z -> px z < px x ->
  (forall f, In f (ring m) -> crosses z f = true -> px x <= cross_x f (py z)) ->
  ~ on_border m x -> even_odd m x = even_odd m z.
Proof.
  intros m z x Ey Hx M N. apply parity_ext. intros f Hf. unfold crosses. rewrite Ey.
  destruct (straddles f (py z)) eqn:S; [|reflexivity]. simpl.
  specialize (M f Hf). unfold crosses in M. rewrite S in M. simpl in M.
  rdestr (px x) (cross_x f (py z)); rdestr (px z) (cross_x f (py z)); try reflexivity; exfalso; [lra|].
  assert (E : px x = cross_x f (py z)). { specialize (M eq_refl). lra. }
  apply N. exists f. split; [exact Hf|]. apply straddles_on in S. rewrite <- E, <- Ey in S.
  destruct x; exact S.
Qed.
Lemma first_hit : forall l m z, even_odd l z = true ->
  (forall x, on_border l x -> on_border m x -> False) ->
  (exists x, on_border l x /\ even_odd m x = even_odd m z) \/
  (exists x, on_border m x /\ even_odd l x = true).
Proof.
  intros l m z E D.
  destruct (argmin (fun e => cross_x e (py z)) (filter (crosses z) (ring l))) as (e & He & Me).
  { apply parity_nonempty. exact E. }
  apply filter_In in He as (He & Ce).
  assert (K : forall n f, In f (ring n) -> crosses z f = true ->
     on_border n (Pt (cross_x f (py z)) (py z)) /\ px z < cross_x f (py z)).
  { intros n f Hf Cf. unfold crosses in Cf. apply andb_true_iff in Cf as (S & L). apply Rltb_spec in L.
    split; [|exact L]. exists f. split; [exact Hf|]. apply straddles_on. exact S. }
  destruct (K l e He Ce) as (Oe & Le).
  assert (A : (forall f, In f (ring m) -> crosses z f = true -> cross_x e (py z) <= cross_x f (py z)) ->
     (exists x, on_border l x /\ even_odd m x = even_odd m z)).
  { intros H. exists (Pt (cross_x e (py z)) (py z)). split; [exact Oe|].
    apply move_right; simpl; auto. intros Q. exact (D _ Oe Q). }
  destruct (filter (crosses z) (ring m)) as [|f0 r] eqn:Fm.
  - left. apply A. intros f Hf Cf. assert (In f []) as []. rewrite <- Fm. apply filter_In. auto.
  - destruct (argmin (fun e => cross_x e (py z)) (filter (crosses z) (ring m))) as (f & Hf & Mf).
    { rewrite Fm. discriminate. }
    apply filter_In in Hf as (Hf & Cf). destruct (K m f Hf Cf) as (Of & Lf).
    destruct (Rle_dec (cross_x e (py z)) (cross_x f (py z))) as [L|L].
    + left. apply A. intros g Hg Cg. specialize (Mf g). rewrite filter_In in Mf. specialize (Mf (conj Hg Cg)). simpl in Mf. lra.
    + right. exists (Pt (cross_x f (py z)) (py z)). split; [exact Of|]. rewrite <- E.
      apply move_right; simpl; auto.
      * intros g Hg Cg. specialize (Me g). rewrite filter_In in Me. specialize (Me (conj Hg Cg)). simpl in Me. lra.
      * intros Q. exact (D _ Q Of).
Qed.

(** *** a polygon whose border avoids another border lies on one side of it *)
Lemma path_same : forall m l first a,
  (forall e x, In e (path_edges first a l) -> on_seg e x -> ~ on_border m x) ->
  forall e x, In e (path_edges first a l) -> on_seg e x -> even_odd m x = even_odd m a.
Proof.
  intros m l. induction l as [|b l IH]; intros first a D e x He Hx.
  - destruct He as [<-|[]]. symmetry. apply even_odd_path. intros y Hy.
    apply (D (Ed a first)); [left; reflexivity|].
    destruct Hx as (t & Ht & ->), Hy as (u & Hu & ->). exists (u * t). split; [nra|].
    apply pt_ext; simpl; ring.
  - destruct He as [<-|He].
    + symmetry. apply even_odd_path. intros y Hy. apply (D (Ed a b)); [left; reflexivity|].
      destruct Hx as (t & Ht & ->), Hy as (u & Hu & ->). exists (u * t). split; [nra|].
      apply pt_ext; simpl; ring.
    + rewrite (IH first b) with (e := e) (x := x).
      * symmetry. apply even_odd_path. intros y Hy. apply (D (Ed a b)); [left; reflexivity|exact Hy].
      * intros f y Hf Hy. apply (D f); [right; exact Hf|exact Hy].
      * exact He.
      * exact Hx.
Qed.
Lemma border_one_side : forall l m, (forall x, on_border l x -> on_border m x -> False) ->
  forall x y, on_border l x -> on_border l y -> even_odd m x = even_odd m y.
Proof.
  intros [|a l] m D x y (e & He & Hx) (f & Hf & Hy); [destruct He|]. simpl in He, Hf.
  assert (D' : forall e x, In e (path_edges a a l) -> on_seg e x -> ~ on_border m x).
  { intros g z Hg Hz Hm. apply (D z); [|exact Hm]. exists g. split; [exact Hg|exact Hz]. }
  rewrite (path_same m l a a D' e x He Hx), (path_same m l a a D' f y Hf Hy). reflexivity.
Qed.
