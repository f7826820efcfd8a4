(** Splitting the edges of a polygon into equal parts: the same border, the same inside,
    the same area, again a simple polygon. *)
From Coq Require Import Reals List Bool Arith Lra Lia Psatz Permutation.
From Verif Require Import Base Num GeoModel HazardModel QTModel TransfModel PolyModel BenchModel GeoSpec ShapeSpec PlaceSpec SimplSpec SimpleSpec
  BaseProofs QTProofs ParityProofs GeoPrimProofs GeoRectProofs PipProofs RegionProofs RigidProofs XformProofs NormProofs BoundProofs HullProofs
  PoleProofs ConstructProofs SimpleProofs SimpleThmProofs.
Import ListNotations.
Local Open Scope R_scope.
#[local] Existing Instance RNum.
#[local] Existing Instance RTrig.

Definition part (m i : nat) : R := INR i / INR m.
(** the pieces of an edge *)
Definition piece (m : nat) (e : redge) (i : nat) : redge := Ed (at_t e (part m i)) (at_t e (part m (S i))).
Definition pieces (m : nat) (e : redge) : list redge := map (piece m e) (seq 0 m).
Definition split (m : nat) (l : list rpoint) : list rpoint := flat_map (split_edge m) (ring l).

Lemma at_0 : forall e, at_t e 0 = es e.
Proof. intros [[a b] [c d]]. unfold at_t. cbn. f_equal; ring. Qed.
Lemma at_1 : forall e, at_t e 1 = ee e.
Proof. intros [[a b] [c d]]. unfold at_t. cbn. f_equal; ring. Qed.
Lemma part_0 : forall m, part m 0 = 0.
Proof. intros m. unfold part. cbn [INR]. unfold Rdiv. ring. Qed.
Lemma inr_pos : forall m, (1 <= m)%nat -> 0 < INR m.
Proof. intros m H. apply lt_0_INR. lia. Qed.
Lemma part_m : forall m, (1 <= m)%nat -> part m m = 1.
Proof. intros m H. unfold part. pose proof (inr_pos m H). field. lra. Qed.
Lemma part_lt : forall m i j, (1 <= m)%nat -> (i < j)%nat -> part m i < part m j.
Proof.
  intros m i j H L. unfold part. pose proof (inr_pos m H). apply Rmult_lt_compat_r; [apply Rinv_0_lt_compat; lra|apply lt_INR, L].
Qed.
Lemma part_le : forall m i j, (1 <= m)%nat -> (i <= j)%nat -> part m i <= part m j.
Proof. intros m i j H L. destruct (Nat.eq_dec i j) as [->|]; [lra|]. left. apply part_lt; lia. Qed.
Lemma part_range : forall m i, (1 <= m)%nat -> (i <= m)%nat -> 0 <= part m i <= 1.
Proof. intros m i H L. pose proof (part_0 m). pose proof (part_m m H). pose proof (part_le m 0 i H ltac:(lia)). pose proof (part_le m i m H L). lra. Qed.
Lemma part_S : forall m i, (1 <= m)%nat -> part m (S i) = part m i + 1 / INR m.
Proof. intros m i H. unfold part. rewrite S_INR. field. pose proof (inr_pos m H). lra. Qed.

(** *** the points *)
Lemma steps_map : forall n k p dx dy, steps_from n (Pt (px p + INR k * dx) (py p + INR k * dy)) dx dy =
  map (fun i => Pt (px p + INR i * dx) (py p + INR i * dy)) (seq k n).
Proof.
  induction n as [|n IH]; intros k p dx dy; cbn [steps_from seq map]; [reflexivity|]. f_equal.
  rewrite <- IH. f_equal. unfold fadd; cbn [RNum RNumT px py]. rewrite S_INR. f_equal; ring.
Qed.
Lemma split_edge_map : forall m e, (1 <= m)%nat -> split_edge m e = map (fun i => at_t e (part m i)) (seq 0 m).
Proof.
  intros m e H. unfold split_edge.
  set (dx := fdiv (fsub (px (ee e)) (px (es e))) (fofN m)). set (dy := fdiv (fsub (py (ee e)) (py (es e))) (fofN m)).
  pose proof (steps_map m 0 (es e) dx dy) as E. cbn [INR] in E.
  replace (Pt (px (es e) + 0 * dx) (py (es e) + 0 * dy)) with (es e) in E by (destruct (es e); cbn; f_equal; ring).
  rewrite E. apply map_ext. intros i. pose proof (inr_pos m H). unfold at_t, part, dx, dy. unfold fdiv, fsub, fofN; cbn [RNum RNumT].
  f_equal; field; lra.
Qed.
Lemma split_edge_cons : forall m e, (1 <= m)%nat ->
  split_edge m e = es e :: map (fun i => at_t e (part m i)) (seq 1 (m - 1)).
Proof.
  intros m e H. rewrite split_edge_map by exact H. destruct m as [|m]; [lia|]. cbn [seq map]. rewrite part_0, at_0.
  replace (S m - 1)%nat with m by lia. reflexivity.
Qed.
Lemma path_pieces : forall m e n k, (1 <= m)%nat ->
  path_edges (at_t e (part m (k + S n))) (at_t e (part m k)) (map (fun i => at_t e (part m i)) (seq (S k) n)) = map (piece m e) (seq k (S n)).
Proof.
  intros m e n. induction n as [|n IH]; intros k H.
  - cbn. replace (k + 1)%nat with (S k) by lia. reflexivity.
  - specialize (IH (S k) H). replace (S k + S n)%nat with (k + S (S n))%nat in IH by lia. cbn [seq map path_edges] in IH |- *. f_equal. exact IH.
Qed.
Lemma edge_pieces : forall m e, (1 <= m)%nat ->
  path_edges (ee e) (es e) (map (fun i => at_t e (part m i)) (seq 1 (m - 1))) = pieces m e.
Proof.
  intros m e H. pose proof (path_pieces m e (m - 1) 0 H) as E. rewrite part_0, at_0 in E.
  replace (0 + S (m - 1))%nat with m in E by lia. rewrite part_m, at_1 in E by exact H. rewrite E. unfold pieces. f_equal. f_equal. lia.
Qed.
Lemma path_app : forall l1 z a b l2, path_edges z a (l1 ++ b :: l2) = path_edges b a l1 ++ path_edges z b l2.
Proof. induction l1 as [|c l1 IH]; intros z a b l2; cbn; [reflexivity|]. f_equal. apply IH. Qed.
Lemma split_path : forall m l first a, (1 <= m)%nat -> exists t,
  flat_map (split_edge m) (path_edges first a l) = a :: t /\ path_edges first a t = flat_map (pieces m) (path_edges first a l).
Proof.
  intros m l. induction l as [|b l IH]; intros first a H; cbn [path_edges flat_map].
  - rewrite app_nil_r, split_edge_cons by exact H. cbn [es]. eexists. split; [reflexivity|].
    rewrite app_nil_r. rewrite <- (edge_pieces m (Ed a first) H). reflexivity.
  - destruct (IH first b H) as (t & E & P). rewrite E, split_edge_cons by exact H. cbn [es app]. eexists. split; [reflexivity|].
    rewrite path_app, P. rewrite <- (edge_pieces m (Ed a b) H). reflexivity.
Qed.
(** the edges of the new polygon are the pieces of the old ones *)
Lemma ring_split : forall m l, (1 <= m)%nat -> ring (split m l) = flat_map (pieces m) (ring l).
Proof.
  intros m [|a l] H; [reflexivity|]. unfold split. cbn [ring]. destruct (split_path m l a a H) as (t & -> & P). exact P.
Qed.
Lemma in_pieces : forall m e f, In f (pieces m e) <-> exists i, (i < m)%nat /\ f = piece m e i.
Proof.
  intros m e f. unfold pieces. rewrite in_map_iff. split.
  - intros (i & <- & I). apply in_seq in I. exists i. split; [lia|reflexivity].
  - intros (i & L & ->). exists i. split; [reflexivity|apply in_seq; lia].
Qed.
Lemma in_ring_split : forall m l f, (1 <= m)%nat -> In f (ring (split m l)) <-> exists e i, In e (ring l) /\ (i < m)%nat /\ f = piece m e i.
Proof.
  intros m l f H. rewrite ring_split by exact H. rewrite in_flat_map. setoid_rewrite in_pieces. firstorder.
Qed.
Lemma in_split : forall m l v, (1 <= m)%nat -> In v (split m l) <-> exists e i, In e (ring l) /\ (i < m)%nat /\ v = at_t e (part m i).
Proof.
  intros m l v H. unfold split. rewrite in_flat_map. split.
  - intros (e & He & I). rewrite split_edge_map in I by exact H. apply in_map_iff in I. destruct I as (i & <- & I). apply in_seq in I.
    exists e, i. repeat split; auto. lia.
  - intros (e & i & He & L & ->). exists e. split; [exact He|]. rewrite split_edge_map by exact H.
    apply (in_map (fun i => at_t e (part m i))), in_seq. lia.
Qed.
Lemma split_length : forall m l, (1 <= m)%nat -> length (split m l) = (m * length l)%nat.
Proof.
  intros m l H. unfold split. rewrite <- (ring_length l). induction (ring l) as [|e r IH]; cbn [flat_map length]; [lia|].
  rewrite app_length, IH, split_edge_map, map_length, seq_length by exact H. lia.
Qed.

(** *** the border *)
Lemma unit_cell : forall k x, (1 <= k)%nat -> 0 <= x <= INR k -> exists i, (i < k)%nat /\ INR i <= x <= INR (S i).
Proof.
  induction k as [|k IH]; intros x H R; [lia|]. destruct (Nat.eq_dec k 0) as [->|K].
  - exists 0%nat. split; [lia|exact R].
  - destruct (Rle_dec x (INR k)) as [L|L].
    + destruct (IH x) as (i & I & J); [lia|lra|]. exists i. split; [lia|exact J].
    + exists k. split; [lia|]. lra.
Qed.
Lemma piece_at : forall m e i u, (1 <= m)%nat -> at_t (piece m e i) u = at_t e (part m i + u / INR m).
Proof.
  intros m e i u H. unfold piece. rewrite part_S by exact H. pose proof (inr_pos m H). unfold at_t. cbn [es ee px py]. f_equal; field; lra.
Qed.
Lemma on_piece : forall m e i p, (1 <= m)%nat -> on_seg (piece m e i) p <-> exists t, part m i <= t <= part m (S i) /\ p = at_t e t.
Proof.
  intros m e i p H. pose proof (inr_pos m H) as P. split.
  - intros (u & U & ->). rewrite piece_at by exact H. exists (part m i + u / INR m). split; [|reflexivity].
    rewrite part_S by exact H. assert (0 <= u / INR m <= 1 / INR m); [|lra].
    split; [apply Rmult_le_pos; [lra|left; apply Rinv_0_lt_compat, P]|]. apply Rmult_le_compat_r; [left; apply Rinv_0_lt_compat, P|lra].
  - intros (t & T & ->). exists ((t - part m i) * INR m). rewrite part_S in T by exact H. split.
    + split; [apply Rmult_le_pos; lra|]. apply Rle_trans with (1 / INR m * INR m); [apply Rmult_le_compat_r; lra|]. right. field. lra.
    + rewrite piece_at by exact H. f_equal. field. lra.
Qed.
Lemma on_pieces : forall m e p, (1 <= m)%nat -> (exists f, In f (pieces m e) /\ on_seg f p) <-> on_seg e p.
Proof.
  intros m e p H. pose proof (inr_pos m H) as P. split.
  - intros (f & I & O). apply in_pieces in I. destruct I as (i & L & ->). apply on_piece in O; [|exact H]. destruct O as (t & T & ->).
    exists t. split; [|reflexivity]. pose proof (part_range m i H ltac:(lia)). pose proof (part_range m (S i) H ltac:(lia)). lra.
  - intros (t & T & ->). destruct (unit_cell m (t * INR m) H) as (i & L & J).
    { split; [apply Rmult_le_pos; lra|]. rewrite <- (Rmult_1_l (INR m)) at 2. apply Rmult_le_compat_r; lra. }
    exists (piece m e i). split; [apply in_pieces; eauto|]. apply on_piece; [exact H|]. exists t. split; [|reflexivity].
    unfold part. split; apply (Rmult_le_reg_r (INR m)); try lra; unfold Rdiv; rewrite Rmult_assoc, Rinv_l by lra; lra.
Qed.
Lemma border_split : forall m l p, (1 <= m)%nat -> on_border (split m l) p <-> on_border l p.
Proof.
  intros m l p H. unfold on_border. rewrite ring_split by exact H. split.
  - intros (f & I & O). apply in_flat_map in I. destruct I as (e & He & I). exists e. split; [exact He|]. apply (on_pieces m); eauto.
  - intros (e & He & O). apply (on_pieces m) in O; [|exact H]. destruct O as (f & I & O). exists f. split; [|exact O]. apply in_flat_map. eauto.
Qed.

(** *** inside *)
Lemma parity_app : forall {A} (f : A -> bool) l l', parity f (l ++ l') = xorb (parity f l) (parity f l').
Proof.
  intros A f l l'. induction l as [|x l IH]; cbn [parity fold_right app]; [symmetry; apply xorb_false_l|].
  change (fold_right (fun x b => xorb (f x) b) false (l ++ l')) with (parity f (l ++ l')). rewrite IH. symmetry. apply xorb_assoc.
Qed.
Lemma crosses_nil : forall p a, crosses p (Ed a a) = false.
Proof. intros p a. unfold crosses, straddles. cbn [es ee]. rewrite xorb_nilpotent. reflexivity. Qed.
(** two consecutive parts of a segment *)
Lemma crosses_parts : forall p e s t, 0 <= s -> s < t ->
  xorb (crosses p (Ed (es e) (at_t e s))) (crosses p (Ed (at_t e s) (at_t e t))) = crosses p (Ed (es e) (at_t e t)).
Proof.
  intros p [[x0 y0] [x1 y1]] s t S T. unfold crosses, straddles, at_t. cbn [es ee px py].
  destruct (Req_dec y1 y0) as [->|Ny].
  { replace (y0 + s * (y0 - y0)) with y0 by ring. replace (y0 + t * (y0 - y0)) with y0 by ring. rewrite xorb_nilpotent. reflexivity. }
  set (a := Pt x0 y0). set (b := Pt (x0 + s * (x1 - x0)) (y0 + s * (y1 - y0))). set (c := Pt (x0 + t * (x1 - x0)) (y0 + t * (y1 - y0))).
  assert (D : y1 - y0 <> 0) by lra.
  assert (Sl : forall u v, u < v -> (x0 + v * (x1 - x0) - (x0 + u * (x1 - x0))) / (y0 + v * (y1 - y0) - (y0 + u * (y1 - y0))) = (x1 - x0) / (y1 - y0)).
  { intros u v L. replace (x0 + v * (x1 - x0) - (x0 + u * (x1 - x0))) with ((v - u) * (x1 - x0)) by ring.
    replace (y0 + v * (y1 - y0) - (y0 + u * (y1 - y0))) with ((v - u) * (y1 - y0)) by ring. field. lra. }
  assert (Ln : forall u v y, 0 <= u -> u < v -> cross_x (Ed (Pt (x0 + u * (x1 - x0)) (y0 + u * (y1 - y0))) (Pt (x0 + v * (x1 - x0)) (y0 + v * (y1 - y0)))) y
     = x0 + (y - y0) * ((x1 - x0) / (y1 - y0))).
  { intros u v y U L. unfold cross_x. cbn [es ee px py]. rewrite Sl by exact L. field. exact D. }
  assert (L0 : forall v y, 0 < v -> cross_x (Ed a (Pt (x0 + v * (x1 - x0)) (y0 + v * (y1 - y0)))) y = x0 + (y - y0) * ((x1 - x0) / (y1 - y0))).
  { intros v y L. rewrite <- (Ln 0 v y ltac:(lra) L). f_equal. f_equal. unfold a. f_equal; ring. }
  assert (C2 : forall y, cross_x (Ed b c) y = cross_x (Ed a c) y).
  { intros y. unfold b, c. rewrite Ln, L0 by lra. reflexivity. }
  rewrite C2.
  assert (C1 : 0 < s -> forall y, cross_x (Ed a b) y = cross_x (Ed a c) y).
  { intros P y. unfold b, c. rewrite !L0 by lra. reflexivity. }
  assert (Mono : (y0 <= y0 + s * (y1 - y0) <= y0 + t * (y1 - y0)) \/ (y0 + t * (y1 - y0) <= y0 + s * (y1 - y0) <= y0)).
  { destruct (Rle_dec y0 y1); [left|right]; nra. }
  assert (Z : s = 0 -> y0 + s * (y1 - y0) = y0) by (intros ->; ring).
  set (cab := cross_x (Ed a b) (py p)) in *. set (cac := cross_x (Ed a c) (py p)) in *.
  assert (C3 : 0 < s -> cab = cac) by (intros P; apply (C1 P)). clearbody cab cac.
  revert Mono Z. generalize (y0 + s * (y1 - y0)), (y0 + t * (y1 - y0)). intros yb yc Mono Z.
  destruct (Rltb y0 (py p)) eqn:A, (Rltb yb (py p)) eqn:B, (Rltb yc (py p)) eqn:Cc; cbn [xorb andb]; try reflexivity;
    rewrite ?xorb_false_r, ?xorb_false_l;
    repeat match goal with H : Rltb _ _ = true |- _ => apply Rltb_spec in H | H : Rltb _ _ = false |- _ => apply Rltb_nspec in H end; try (exfalso; destruct Mono; lra);
    try (destruct (Rltb (px p) cac); reflexivity); destruct S as [S|S]; try (rewrite (C3 S)); try reflexivity; symmetry in S; specialize (Z S); exfalso; lra.
Qed.
Lemma crosses_prefix : forall p m e n, (1 <= m)%nat -> parity (crosses p) (map (piece m e) (seq 0 n)) = crosses p (Ed (es e) (at_t e (part m n))).
Proof.
  intros p m e n H. induction n as [|n IH].
  - rewrite part_0, at_0. cbn [seq map parity fold_right]. symmetry. apply crosses_nil.
  - rewrite seq_S, map_app, parity_app, IH. cbn [map parity fold_right]. rewrite xorb_false_r. cbn [Nat.add]. unfold piece.
    apply crosses_parts; [|apply part_lt; lia]. rewrite <- (part_0 m). apply part_le; lia.
Qed.
Lemma crosses_pieces : forall p m e, (1 <= m)%nat -> parity (crosses p) (pieces m e) = crosses p e.
Proof. intros p m e H. unfold pieces. rewrite crosses_prefix, part_m, at_1 by exact H. destruct e; reflexivity. Qed.
Lemma even_odd_split : forall m l p, (1 <= m)%nat -> even_odd (split m l) p = even_odd l p.
Proof.
  intros m l p H. unfold even_odd. rewrite ring_split by exact H. induction (ring l) as [|e r IH]; [reflexivity|].
  cbn [flat_map]. rewrite parity_app, crosses_pieces, IH by exact H. reflexivity.
Qed.

(** *** area *)
Lemma total_app : forall {A} (f : A -> R) l l', total f (l ++ l') = total f l + total f l'.
Proof. intros A f l l'. unfold total. induction l as [|x l IH]; cbn [fold_right app]; [lra|]. rewrite IH. lra. Qed.
Lemma crs_pieces : forall m e n, (1 <= m)%nat -> total crs (map (piece m e) (seq 0 n)) = part m n * crs e.
Proof.
  intros m e n H. induction n as [|n IH]; [rewrite part_0; cbn [seq map total fold_right]; lra|].
  rewrite seq_S, map_app, total_app, IH. cbn [map total fold_right Nat.add]. rewrite part_S by exact H.
  unfold crs, piece. cbn [es ee]. rewrite part_S by exact H. unfold at_t. cbn [px py].
  set (d := 1 / INR m). set (q := part m n). destruct e as [[x0 y0] [x1 y1]]. cbn [es ee px py]. ring.
Qed.
Lemma shoelace_split : forall m l, (1 <= m)%nat -> shoelace (split m l) = shoelace l.
Proof.
  intros m l H. unfold shoelace. rewrite ring_split by exact H. f_equal. fold crs. induction (ring l) as [|e r IH]; [reflexivity|].
  cbn [flat_map]. rewrite total_app, IH. unfold pieces. rewrite crs_pieces, part_m by exact H. unfold total. cbn [fold_right]. lra.
Qed.

(** *** again a simple polygon *)
Lemma at_inj : forall e s t, es e <> ee e -> at_t e s = at_t e t -> s = t.
Proof.
  intros [[x0 y0] [x1 y1]] s t Ne E. unfold at_t in E. cbn [es ee px py] in *. injection E as Ex Ey.
  destruct (Req_dec x1 x0) as [->|X].
  - assert (y1 - y0 <> 0) by (intros Q; apply Ne; f_equal; lra). apply (Rmult_eq_reg_r (y1 - y0)); lra.
  - apply (Rmult_eq_reg_r (x1 - x0)); lra.
Qed.
Lemma split_simple : forall m l, (1 <= m)%nat -> simple l -> simple (split m l).
Proof.
  intros m l H S. pose proof S as (L3 & ND & Mt).
  assert (Ne : forall e, In e (ring l) -> es e <> ee e) by (intros e He; eapply simple_ne; eauto).
  split; [|split].
  - rewrite split_length by exact H. destruct m; [lia|]. cbn. lia.
  - unfold split.
    assert (G : forall r, NoDup r -> (forall e, In e r -> In e (ring l)) -> NoDup (flat_map (split_edge m) r)).
    { induction r as [|e r IH]; intros Nr Ir; cbn [flat_map]; [constructor|].
      inversion Nr as [|? ? Ni Nr']; subst. specialize (IH Nr' ltac:(intros f F; apply Ir; right; exact F)).
      assert (He : In e (ring l)) by (apply Ir; left; reflexivity).
      assert (N1 : NoDup (split_edge m e)).
      { rewrite split_edge_map by exact H. apply FinFun.Injective_map_NoDup; [|apply seq_NoDup].
        intros i j E. apply at_inj in E; [|apply Ne, He]. destruct (Nat.lt_trichotomy i j) as [L|[L|L]]; [|exact L|];
          apply (part_lt m _ _ H) in L; lra. }
      assert (Dj : forall v, In v (split_edge m e) -> ~ In v (flat_map (split_edge m) r)).
      { intros v V W. apply in_flat_map in W. destruct W as (f & Hf & W). rewrite split_edge_map in V, W by exact H.
        apply in_map_iff in V, W. destruct V as (i & <- & Ii), W as (j & E & Ij). apply in_seq in Ii, Ij.
        assert (Hf' : In f (ring l)) by (apply Ir; right; exact Hf).
        pose proof (part_range m i H ltac:(lia)) as Ri. pose proof (part_range m j H ltac:(lia)) as Rj.
        assert (Pi : part m i < 1) by (rewrite <- (part_m m H); apply part_lt; lia).
        assert (Pj : part m j < 1) by (rewrite <- (part_m m H); apply part_lt; lia).
        destruct (Mt e f (at_t e (part m i)) He Hf') as [->|[(Q & _)|(_ & Q)]].
        - exists (part m i). auto.
        - exists (part m j). auto.
        - contradiction.
        - rewrite <- at_1 in Q. apply at_inj in Q; [lra|apply Ne, He].
        - rewrite <- E, <- at_1 in Q. apply at_inj in Q; [lra|apply Ne, Hf']. }
      clear -N1 IH Dj. induction (split_edge m e) as [|x q IHq]; [exact IH|]. inversion N1; subst. cbn [app]. constructor.
      - rewrite in_app_iff. intros [X|X]; [contradiction|]. apply (Dj x); [left; reflexivity|exact X].
      - apply IHq; [assumption|]. intros v V. apply Dj. right. exact V. }
    apply G; [|auto]. clear -ND L3.
    (** distinct starts *)
    assert (NoDup (map (@es R) (ring l))); [|eapply NoDup_map_inv; eauto].
    assert (E : map (@es R) (ring l) = l); [|rewrite E; exact ND].
    destruct l as [|a l]; [reflexivity|]. cbn [ring]. clear. generalize a at 1. intros first. revert a.
    induction l as [|b l IH]; intros a; cbn [path_edges map es]; [reflexivity|]. f_equal. apply IH.
  - intros e' f' p He Hf Pe Pf. apply in_ring_split in He, Hf; try exact H.
    destruct He as (e & i & He & Li & ->), Hf as (f & j & Hf & Lj & ->).
    apply on_piece in Pe, Pf; try exact H. destruct Pe as (s & Rs & Es), Pf as (t & Rt & Et).
    pose proof (part_range m i H ltac:(lia)) as Ri. pose proof (part_range m j H ltac:(lia)) as Rj.
    pose proof (part_range m (Datatypes.S i) H ltac:(lia)) as Ri'. pose proof (part_range m (Datatypes.S j) H ltac:(lia)) as Rj'.
    assert (Last : forall k, (k < m)%nat -> 1 <= part m (Datatypes.S k) -> part m (Datatypes.S k) = 1).
    { intros k Lk Q. pose proof (part_range m (Datatypes.S k) H ltac:(lia)). lra. }
    assert (First : forall k, part m k <= 0 -> k = 0%nat).
    { intros k Q. destruct k as [|k]; [reflexivity|]. pose proof (part_lt m 0 (Datatypes.S k) H ltac:(lia)). rewrite part_0 in H0. lra. }
    assert (Meet : forall e f i j s t, In e (ring l) -> In f (ring l) -> (i < m)%nat -> (j < m)%nat ->
      part m i <= s <= part m (Datatypes.S i) -> part m j <= t <= part m (Datatypes.S j) -> p = at_t e s -> p = at_t f t -> p = ee e -> p = es f ->
      p = ee (piece m e i) /\ p = es (piece m f j)).
    { clear - H Ne Last First. intros e f i j s t He Hf Li Lj Rs Rt Es Et Q1 Q2.
      assert (s = 1) by (apply (at_inj e); [apply Ne, He|]; rewrite at_1; congruence).
      assert (t = 0) by (apply (at_inj f); [apply Ne, Hf|]; rewrite at_0; congruence). subst s t.
      unfold piece. cbn [es ee]. rewrite (Last i Li) by lra. rewrite at_1. rewrite (First j) by lra. rewrite part_0, at_0. auto. }
    destruct (Mt e f p He Hf) as [->|[(Q1 & Q2)|(Q1 & Q2)]].
    + exists s. split; [lra|exact Es].
    + exists t. split; [lra|exact Et].
    + assert (s = t) by (apply (at_inj f); [apply Ne, Hf|congruence]). subst t.
      destruct (Nat.lt_trichotomy i j) as [L|[->|L]]; [|left; reflexivity|].
      * pose proof (part_le m (Datatypes.S i) j H ltac:(lia)). right. left. unfold piece. cbn [es ee].
        assert (s = part m (Datatypes.S i)) by lra. assert (s = part m j) by lra. split; congruence.
      * pose proof (part_le m (Datatypes.S j) i H ltac:(lia)). right. right. unfold piece. cbn [es ee].
        assert (s = part m (Datatypes.S j)) by lra. assert (s = part m i) by lra. split; congruence.
    + right. left. eapply (Meet e f i j s t); eauto.
    + right. right. destruct (Meet f e j i t s) as (A & B); eauto.
Qed.
Lemma box_split : forall m r l, (1 <= m)%nat -> smallest_box r (split m l) <-> smallest_box r l.
Proof.
  intros m r l H.
  assert (Sub : forall v, In v l -> In v (split m l)).
  { intros v V. apply in_split; [exact H|].
    assert (exists e, In e (ring l) /\ es e = v) as (e & He & <-).
    { assert (E : map (@es R) (ring l) = l); [|rewrite <- E in V; apply in_map_iff in V; destruct V as (e & E1 & E2); eauto].
      clear. destruct l as [|a l]; [reflexivity|]. cbn [ring]. clear. generalize a at 1. intros first. revert a.
      induction l as [|b l IH]; intros a; cbn [path_edges map es]; [reflexivity|]. f_equal. apply IH. }
    exists e, 0%nat. repeat split; [exact He|lia|]. rewrite part_0, at_0. reflexivity. }
  assert (In_ : forall r, (forall v, In v l -> in_rect r v) -> forall v, In v (split m l) -> in_rect r v).
  { intros r' A v V. apply in_split in V; [|exact H]. destruct V as (e & i & He & L & ->). destruct (ring_in l e He) as (E1 & E2).
    apply (seg_in_rect r' (es e) (ee e)); auto. destruct e as [a b]. exists (part m i). split; [apply part_range; lia|reflexivity]. }
  split.
  - intros (I & X). assert (I' : forall v, In v l -> in_rect r v) by auto. split; [exact I'|].
    destruct l as [|a l0] eqn:El.
    { destruct X as ((p & [] & _) & _). }
    rewrite <- El in *. destruct (bbox_ok l ltac:(congruence)) as (J & Y). pose proof (In_ _ J) as K.
    set (bb := bbox_of_points l) in *.
    destruct X as ((p1 & P1 & E1) & (p2 & P2 & E2) & (p3 & P3 & E3) & (p4 & P4 & E4)).
    destruct Y as ((q1 & Q1 & F1) & (q2 & Q2 & F2) & (q3 & Q3 & F3) & (q4 & Q4 & F4)).
    apply K in P1, P2, P3, P4. pose proof (I' _ Q1) as G1. pose proof (I' _ Q2) as G2. pose proof (I' _ Q3) as G3. pose proof (I' _ Q4) as G4.
    unfold in_rect in *. repeat split; [exists q1|exists q2|exists q3|exists q4]; (split; [assumption|lra]).
  - intros (I & (p1 & P1 & E1) & (p2 & P2 & E2) & (p3 & P3 & E3) & (p4 & P4 & E4)). split; [apply In_, I|].
    repeat split; [exists p1|exists p2|exists p3|exists p4]; auto.
Qed.
