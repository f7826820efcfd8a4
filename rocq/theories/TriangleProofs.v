(** Half planes and triangles under the even-odd rule; two polygons that differ by a
    triangle. *)
From Coq Require Import Reals List Bool Lra Lia Psatz.
From Verif Require Import Base Num GeoModel HazardModel QTModel GeoSpec ShapeSpec SimplModel SimplSpec SimpleSpec
  ParityProofs CrossProofs GeoPrimProofs GeoRectProofs RegionProofs PipProofs PierProofs SimplProofs SimpleProofs OrientProofs SlabProofs.
Import ListNotations.
Local Open Scope R_scope.
#[local] Existing Instance RNum.

(** *** half planes *)
Lemma turn_swap : forall a b q, turn b a q = - turn a b q.
Proof. intros. unfold turn. ring. Qed.
Lemma turn_same : forall a q, turn a a q = 0.
Proof. intros. unfold turn. ring. Qed.
Lemma turn_start : forall a b, turn a b a = 0.
Proof. intros. unfold turn. ring. Qed.
Lemma turn_end : forall a b, turn a b b = 0.
Proof. intros. unfold turn. ring. Qed.
Lemma border_half : forall l a b, (forall v, In v l -> turn a b v <= 0) -> forall x, on_border l x -> turn a b x <= 0.
Proof.
  intros l a b H x (e & He & (t & Ht & ->)). destruct (ring_in l e He) as (H1 & H2). apply H in H1. apply H in H2.
  destruct e as [s u]. cbn [es ee] in *. rewrite turn_lin.
  assert (0 <= (1 - t) * - turn a b s) by (apply Rmult_le_pos; lra). assert (0 <= t * - turn a b u) by (apply Rmult_le_pos; lra). lra.
Qed.
Lemma bounds_ex : forall l : list rpoint, exists M, 0 < M /\ forall v, In v l -> in_rect (Rc (- M) (- M) M M) v.
Proof.
  induction l as [|a l (M & HM & IH)]; [exists 1; split; [lra|intros v []]|].
  exists (M + Rabs (px a) + Rabs (py a)). pose proof (Rabs_pos (px a)). pose proof (Rabs_pos (py a)). split; [lra|].
  intros v [<-|Hv]; unfold in_rect in *; cbn [x_min x_max y_min y_max] in *.
  - pose proof (Rle_abs (px a)). pose proof (Rle_abs (py a)). pose proof (Rle_abs (- px a)). pose proof (Rle_abs (- py a)).
    rewrite Rabs_Ropp in *. lra.
  - specialize (IH v Hv). lra.
Qed.
Lemma escape : forall M q n, 0 < M -> n <> 0 -> exists s, 0 <= s /\ ~ (- M < q + s * n < M).
Proof.
  intros M q n HM Hn. pose proof (Rabs_pos q). exists ((M + Rabs q) / Rabs n).
  assert (P : 0 < Rabs n) by (apply Rabs_pos_lt, Hn).
  assert (E : (M + Rabs q) / Rabs n * Rabs n = M + Rabs q) by (field; lra).
  set (s := (M + Rabs q) / Rabs n) in *.
  assert (Hs : 0 <= s) by (unfold s; apply Rmult_le_pos; [lra|left; apply Rinv_0_lt_compat, P]).
  split; [exact Hs|]. clearbody s. pose proof (Rle_abs q). pose proof (Rle_abs (- q)) as B. rewrite Rabs_Ropp in B.
  unfold Rabs at 1 in E. unfold Rabs in P. destruct (Rcase_abs n).
  - rewrite <- Ropp_mult_distr_r in E. lra.
  - lra.
Qed.
(** beyond a line that has all vertices on its other side *)
Lemma half_plane : forall l a b q, (forall v, In v l -> turn a b v <= 0) -> 0 < turn a b q -> even_odd l q = false.
Proof.
  intros l a b q H P. destruct (bounds_ex l) as (M & HM & B).
  set (nx := - (py b - py a)). set (ny := px b - px a).
  assert (Nn : nx <> 0 \/ ny <> 0).
  { destruct (Req_dec nx 0) as [Zx|]; [|tauto]. destruct (Req_dec ny 0) as [Zy|]; [|tauto]. exfalso. unfold turn in P. unfold nx, ny in *.
    assert (px b - px a = 0) by lra. assert (py b - py a = 0) by lra. rewrite H0, H1 in P. lra. }
  assert (T : forall s, turn a b (Pt (px q + s * nx) (py q + s * ny)) = turn a b q + s * (nx * nx + ny * ny)).
  { intros s. unfold turn, nx, ny; cbn [px py]. ring. }
  assert (N2 : 0 <= nx * nx + ny * ny) by (pose proof (Rle_0_sqr nx); pose proof (Rle_0_sqr ny); unfold Rsqr in *; lra).
  assert (Far : exists s, 0 <= s /\ ~ in_open_rect (Rc (- M) (- M) M M) (Pt (px q + s * nx) (py q + s * ny))).
  { destruct Nn as [Nn|Nn]; destruct (escape M (px q) _ HM Nn) as (s & Hs & X) || destruct (escape M (py q) _ HM Nn) as (s & Hs & X).
    - exists s. split; [exact Hs|]. unfold in_open_rect; cbn [x_min x_max y_min y_max px py]. tauto.
    - destruct (escape M (py q) _ HM Nn) as (s' & Hs' & X'). exists s'. split; [exact Hs'|].
      unfold in_open_rect; cbn [x_min x_max y_min y_max px py]. tauto. }
  destruct Far as (s & Hs & X). set (w := Pt (px q + s * nx) (py q + s * ny)) in *.
  assert (C : forall x, on_seg (Ed q w) x -> ~ on_border l x).
  { intros x (t & Ht & ->) O. apply (border_half l a b H) in O.
    replace (at_t (Ed q w) t) with (Pt (px q + (t * s) * nx) (py q + (t * s) * ny)) in O
      by (apply pt_ext; unfold at_t, w; cbn [es ee px py]; ring).
    rewrite T in O. assert (0 <= t * s) by (apply Rmult_le_pos; lra).
    assert (0 <= t * s * (nx * nx + ny * ny)) by (apply Rmult_le_pos; assumption). lra. }
  rewrite (even_odd_path l q w C). destruct (even_odd l w) eqn:E; [|reflexivity]. exfalso. apply X.
  apply (even_odd_box _ l w B); [|exact E]. apply C. exists 1. split; [lra|]. rewrite at_t_1. reflexivity.
Qed.
Lemma half_plane' : forall l a b q, (forall v, In v l -> 0 <= turn a b v) -> turn a b q < 0 -> even_odd l q = false.
Proof.
  intros l a b q H P. apply (half_plane l b a); [intros v Hv; rewrite turn_swap; specialize (H v Hv); lra|rewrite turn_swap; lra].
Qed.
(** a polygon with its inside to the left has vertices to the left of every edge *)
Lemma left_some : forall l e, inside_left l -> In e (ring l) -> es e <> ee e -> (forall v, In v l -> turn (es e) (ee e) v <= 0) -> False.
Proof.
  intros l e I He N H. pose proof (edet_ne e N) as L. set (q := beside e (/ 2) 1).
  assert (T : 0 < turn (es e) (ee e) q) by (unfold q; rewrite beside_turn; lra).
  assert (V : sees l e q).
  { exists (at_t e (/ 2)), (/ 2). split; [lra|]. split; [reflexivity|]. intros t Ht O. apply (border_half l _ _ H) in O.
    rewrite turn_lin in O. replace (turn (es e) (ee e) (at_t e (/ 2))) with 0 in O by (unfold turn, at_t; cbn [px py]; ring).
    assert (0 < t * turn (es e) (ee e) q) by (apply Rmult_lt_0_compat; lra). lra. }
  destruct (I e q He V) as (X & _). specialize (X T). rewrite (half_plane l (es e) (ee e) q H T) in X. discriminate.
Qed.
(** points of a line *)
Lemma on_line : forall a b q, a <> b -> turn a b q = 0 -> exists t, q = at_t (Ed a b) t.
Proof.
  intros a b q N T. pose proof (edet_ne (Ed a b) N) as L. cbn [es ee] in L.
  set (dx := px b - px a) in *. set (dy := py b - py a) in *.
  assert (Z : dx * (py q - py a) - dy * (px q - px a) = 0) by exact T.
  exists (((px q - px a) * dx + (py q - py a) * dy) / (dx ^ 2 + dy ^ 2)).
  set (m := _ / _). assert (Em : m * (dx ^ 2 + dy ^ 2) = (px q - px a) * dx + (py q - py a) * dy) by (unfold m; field; lra).
  clearbody m. apply pt_ext; unfold at_t; cbn [es ee px py]; fold dx dy.
  - assert (X : px q - px a = m * dx); [|lra]. apply (Rmult_eq_reg_r (dx ^ 2 + dy ^ 2)); [|lra].
    replace (m * dx * (dx ^ 2 + dy ^ 2)) with (m * (dx ^ 2 + dy ^ 2) * dx) by ring. rewrite Em.
    assert (Q : dy * (dx * (py q - py a) - dy * (px q - px a)) = 0) by (rewrite Z; ring). lra.
  - assert (X : py q - py a = m * dy); [|lra]. apply (Rmult_eq_reg_r (dx ^ 2 + dy ^ 2)); [|lra].
    replace (m * dy * (dx ^ 2 + dy ^ 2)) with (m * (dx ^ 2 + dy ^ 2) * dy) by ring. rewrite Em.
    assert (Q : dx * (dx * (py q - py a) - dy * (px q - px a)) = 0) by (rewrite Z; ring). lra.
Qed.

(** *** triangles *)
Definition in_tri (a p b q : rpoint) : Prop :=
  0 < turn a p b * turn a p q /\ 0 < turn a p b * turn p b q /\ 0 < turn a p b * turn b a q.
Lemma meet_end : forall a p b x, turn a p b <> 0 -> on_seg (Ed a p) x -> on_seg (Ed p b) x -> x = p.
Proof.
  intros a p b x N O1 (t & Ht & ->). apply turn_on in O1. rewrite turn_lin, turn_end in O1.
  assert (t = 0) as ->; [|apply at_t_0]. assert (X : t * turn a p b = 0) by lra. apply Rmult_integral in X. tauto.
Qed.
Lemma tri_simple : forall a p b, turn a p b <> 0 -> simple [a; p; b].
Proof.
  intros a p b N. assert (N2 : turn p b a <> 0) by (rewrite turn_rot; exact N). assert (N3 : turn b a p <> 0) by (rewrite turn_rot; exact N2).
  split; [cbn; lia|]. split.
  - assert (a <> p) by (intros ->; apply N; apply turn_same). assert (p <> b) by (intros ->; apply N; apply turn_end).
    assert (a <> b) by (intros ->; apply N; apply turn_start).
    repeat constructor; cbn; intuition congruence.
  - intros e f x He Hf Oe Of. cbn in He, Hf.
    destruct He as [<-|[<-|[<-|[]]]], Hf as [<-|[<-|[<-|[]]]]; cbn [es ee]; try (left; reflexivity); right.
    + left. assert (x = p) by (apply (meet_end a p b); assumption). auto.
    + right. assert (x = a) by (apply (meet_end b a p); assumption). auto.
    + right. assert (x = p) by (apply (meet_end a p b); assumption). auto.
    + left. assert (x = b) by (apply (meet_end p b a); assumption). auto.
    + left. assert (x = a) by (apply (meet_end b a p); assumption). auto.
    + right. assert (x = b) by (apply (meet_end p b a); assumption). auto.
Qed.
Lemma tri_shoelace : forall a p b, shoelace [a; p; b] = turn a p b / 2.
Proof. intros. unfold shoelace, total, turn. cbn. field. Qed.
(** towards an inner point *)
Lemma tri_towards : forall a p b q z t, in_tri a p b q -> 0 < t <= 1 ->
  0 <= turn a p b * turn a p z -> 0 <= turn a p b * turn p b z -> 0 <= turn a p b * turn b a z -> in_tri a p b (at_t (Ed z q) t).
Proof.
  intros a p b q z t (I1 & I2 & I3) Ht Z1 Z2 Z3. unfold in_tri. rewrite !turn_lin. set (k := turn a p b) in *.
  assert (M : forall u v, 0 <= k * u -> 0 < k * v -> 0 < k * ((1 - t) * u + t * v)).
  { intros u v Hu Hv. replace (k * ((1 - t) * u + t * v)) with ((1 - t) * (k * u) + t * (k * v)) by ring.
    assert (0 <= (1 - t) * (k * u)) by (apply Rmult_le_pos; lra). assert (0 < t * (k * v)) by (apply Rmult_lt_0_compat; lra). lra. }
  auto.
Qed.
Lemma tri_off : forall a p b q, in_tri a p b q -> ~ on_border [a; p; b] q.
Proof.
  intros a p b q (I1 & I2 & I3) (e & He & O). cbn in He.
  destruct He as [<-|[<-|[<-|[]]]]; apply turn_on in O; rewrite O in *; lra.
Qed.
Lemma tri_inside : forall a p b q, in_tri a p b q -> even_odd [a; p; b] q = true.
Proof.
  assert (G : forall a p b q, 0 < turn a p b -> in_tri a p b q -> even_odd [a; p; b] q = true).
  { intros a p b q K I. assert (Il : inside_left [a; p; b]).
    { apply inside_is_left; [apply tri_simple; lra|rewrite tri_shoelace; lra]. }
    assert (He : In (Ed a p) (ring [a; p; b])) by (left; reflexivity).
    assert (V : sees [a; p; b] (Ed a p) q).
    { exists (at_t (Ed a p) (/ 2)), (/ 2). split; [lra|]. split; [reflexivity|]. intros t Ht. apply tri_off. apply tri_towards; [exact I|exact Ht| | |].
      - rewrite turn_lin, turn_start, turn_end. lra.
      - rewrite turn_lin, turn_start, (turn_rot a p b). nra.
      - rewrite turn_lin, turn_end, (turn_rot p b a), (turn_rot a p b). nra. }
    destruct (Il _ q He V) as (X & _). apply X. cbn [es ee]. destruct I as (I & _). nra. }
  intros a p b q I. destruct (Rtotal_order 0 (turn a p b)) as [K|[K|K]].
  - apply G; assumption.
  - destruct I as (I & _). rewrite <- K in I. lra.
  - rewrite <- even_odd_rev. cbn [rev app]. apply G; [rewrite turn_flip; lra|].
    destruct I as (I1 & I2 & I3). unfold in_tri. rewrite (turn_flip a p b), (turn_swap p b q), (turn_swap a p q), (turn_swap b a q). split; [|split]; lra.
Qed.
Lemma tri_outside : forall a p b q, turn a p b <> 0 -> ~ on_border [a; p; b] q -> even_odd [a; p; b] q = true -> in_tri a p b q.
Proof.
  assert (G : forall a p b q, 0 < turn a p b -> ~ on_border [a; p; b] q -> even_odd [a; p; b] q = true -> 0 < turn a p q).
  { intros a p b q K N E. assert (K2 : 0 < turn p b a) by (rewrite turn_rot; exact K). assert (K3 : 0 < turn b a p) by (rewrite turn_rot; exact K2).
    assert (H1 : 0 <= turn a p q).
    { destruct (Rle_or_lt 0 (turn a p q)); [assumption|]. rewrite (half_plane' [a; p; b] a p q) in E; [discriminate| |assumption].
      intros v [<-|[<-|[<-|[]]]]; [rewrite turn_start|rewrite turn_end|]; lra. }
    assert (H2 : 0 <= turn p b q).
    { destruct (Rle_or_lt 0 (turn p b q)); [assumption|]. rewrite (half_plane' [a; p; b] p b q) in E; [discriminate| |assumption].
      intros v [<-|[<-|[<-|[]]]]; [|rewrite turn_start|rewrite turn_end]; lra. }
    assert (H3 : 0 <= turn b a q).
    { destruct (Rle_or_lt 0 (turn b a q)); [assumption|]. rewrite (half_plane' [a; p; b] b a q) in E; [discriminate| |assumption].
      intros v [<-|[<-|[<-|[]]]]; [rewrite turn_end| |rewrite turn_start]; lra. }
    destruct (Req_dec (turn a p q) 0) as [Z|]; [|lra]. exfalso. apply N.
    assert (Nap : a <> p) by (intros ->; rewrite turn_same in K; lra).
    destruct (on_line a p q Nap Z) as (t & ->). exists (Ed a p). split; [left; reflexivity|]. exists t. split; [|reflexivity].
    rewrite turn_lin, turn_start in H2. rewrite turn_lin, turn_end in H3. nra. }
  assert (P : forall a p b q, 0 < turn a p b -> ~ on_border [a; p; b] q -> even_odd [a; p; b] q = true -> in_tri a p b q).
  { intros a p b q K N E. assert (K2 : 0 < turn p b a) by (rewrite turn_rot; exact K). assert (K3 : 0 < turn b a p) by (rewrite turn_rot; exact K2).
    assert (N2 : ~ on_border [p; b; a] q) by (intros O; apply N; apply (on_border_rotate [a] [p; b]); exact O).
    assert (N3 : ~ on_border [b; a; p] q) by (intros O; apply N; apply (on_border_rotate [a; p] [b]); exact O).
    assert (E2 : even_odd [p; b; a] q = true) by (rewrite <- E; exact (even_odd_rotate [p; b] [a] q)).
    assert (E3 : even_odd [b; a; p] q = true) by (rewrite <- E; exact (even_odd_rotate [b] [a; p] q)).
    pose proof (G a p b q K N E). pose proof (G p b a q K2 N2 E2). pose proof (G b a p q K3 N3 E3).
    unfold in_tri. split; [|split]; apply Rmult_lt_0_compat; assumption. }
  intros a p b q K N E. destruct (Rlt_or_le 0 (turn a p b)) as [H|H]; [apply P; assumption|].
  assert (I : in_tri b p a q).
  { apply P; [rewrite turn_flip; lra| |].
    - intros O. apply N. apply (on_border_rev [a; p; b]). exact O.
    - rewrite <- E. symmetry. rewrite <- even_odd_rev. reflexivity. }
  destruct I as (I1 & I2 & I3). unfold in_tri in *. rewrite (turn_flip a p b) in *. rewrite (turn_swap p b q), (turn_swap a p q), (turn_swap b a q) in *.
  split; [|split]; lra.
Qed.
Lemma tri_border : forall a p b q, on_border [a; p; b] q ->
  0 <= turn a p b * turn a p q /\ 0 <= turn a p b * turn p b q /\ 0 <= turn a p b * turn b a q.
Proof.
  intros a p b q (e & He & (t & Ht & ->)).
  assert (S : forall u v, 0 <= u * u * v <-> 0 <= u * (u * v)) by (intros; rewrite Rmult_assoc; tauto).
  set (k := turn a p b) in *.
  assert (K : 0 <= k * k) by (apply Rle_0_sqr).
  assert (R1 : turn p b a = k) by (unfold k; apply turn_rot). assert (R2 : turn b a p = k) by (rewrite turn_rot; exact R1).
  cbn in He. destruct He as [<-|[<-|[<-|[]]]]; rewrite !turn_lin, ?turn_start, ?turn_end, ?R1, ?R2; fold k; clearbody k;
    (split; [|split]); match goal with |- 0 <= k * ?x => let y := fresh in assert (y : 0 <= (1 - t) * (k * k)) by (apply Rmult_le_pos; lra);
      assert (0 <= t * (k * k)) by (apply Rmult_le_pos; lra); lra end.
Qed.
Definition centre3 (a p b : rpoint) : rpoint := Pt ((px a + px p + px b) / 3) ((py a + py p + py b) / 3).
Lemma tri_centre : forall a p b, turn a p b <> 0 -> in_tri a p b (centre3 a p b).
Proof.
  intros a p b K.
  assert (T1 : turn a p (centre3 a p b) = turn a p b / 3) by (unfold turn, centre3; cbn [px py]; field).
  assert (T2 : turn p b (centre3 a p b) = turn a p b / 3) by (unfold turn, centre3; cbn [px py]; field).
  assert (T3 : turn b a (centre3 a p b) = turn a p b / 3) by (unfold turn, centre3; cbn [px py]; field).
  unfold in_tri. rewrite T1, T2, T3. assert (0 < turn a p b * turn a p b) by (apply Rsqr_pos_lt, K). split; [|split]; lra.
Qed.

(** *** two polygons that differ by a triangle *)
Lemma glue : forall l l' a p b, turn a p b <> 0 ->
  (forall q, even_odd l' q = xorb (even_odd l q) (even_odd [a; p; b] q)) ->
  (forall q, in_tri a p b q -> ~ on_border l' q /\ even_odd l q = false) ->
  (forall q, on_border l q -> on_border l' q \/ on_border [a; p; b] q) ->
  forall q, region l q -> region l' q.
Proof.
  intros l l' a p b K X T B q Rq. destruct (on_border_dec l' q) as [O|O]; [left; exact O|right].
  destruct (on_border_dec [a; p; b] q) as [O3|O3].
  - assert (C := tri_centre a p b K). destruct (T _ C) as (_ & Ec). destruct (tri_border a p b q O3) as (B1 & B2 & B3).
    rewrite (even_odd_path l' q (centre3 a p b)).
    + rewrite X, Ec, (tri_inside a p b _ C). reflexivity.
    + intros x (t & Ht & ->). destruct (Req_dec t 0) as [->|Nt]; [rewrite at_t_0; exact O|].
      apply T. apply tri_towards; [exact C|lra|assumption..].
  - destruct Rq as [Ol|El]; [destruct (B q Ol); contradiction|].
    rewrite X, El. destruct (even_odd [a; p; b] q) eqn:Et; [|reflexivity].
    apply (tri_outside a p b q K O3) in Et. destruct (T q Et) as (_ & Ef). congruence.
Qed.
(** a segment through a point *)
Lemma crosses_split : forall a b s q, xorb (crosses q (Ed a (at_t (Ed a b) s))) (crosses q (Ed (at_t (Ed a b) s) b)) = crosses q (Ed a b).
Proof.
  intros a b s q. set (p := at_t (Ed a b) s). unfold crosses. set (y := py q).
  assert (Hs : xorb (straddles (Ed a p) y) (straddles (Ed p b) y) = straddles (Ed a b) y).
  { unfold straddles; cbn [es ee]. destruct (Rltb (py a) y), (Rltb (py p) y), (Rltb (py b) y); reflexivity. }
  assert (Ex : px p = px a + s * (px b - px a)) by reflexivity. assert (Ey : py p = py a + s * (py b - py a)) by reflexivity.
  assert (E1 : straddles (Ed a p) y = true -> cross_x (Ed a p) y = cross_x (Ed a b) y).
  { intros S. assert (N : py a <> py p).
    { intros E. unfold straddles in S; cbn [es ee] in S. rewrite E, xorb_nilpotent in S. discriminate. }
    unfold cross_x; cbn [es ee]. rewrite Ex, Ey in *. assert (s <> 0) by (intros ->; lra). assert (py b - py a <> 0) by (intros Z; rewrite Z in N; lra).
    field. split; [assumption|]. replace (py a + s * (py b - py a) - py a) with (s * (py b - py a)) by ring.
    apply Rmult_integral_contrapositive_currified; assumption. }
  assert (E2 : straddles (Ed p b) y = true -> cross_x (Ed p b) y = cross_x (Ed a b) y).
  { intros S. assert (N : py p <> py b).
    { intros E. unfold straddles in S; cbn [es ee] in S. rewrite E, xorb_nilpotent in S. discriminate. }
    unfold cross_x; cbn [es ee]. rewrite Ex, Ey in *.
    assert (1 - s <> 0) by (intros Z; apply N; assert (s = 1) by lra; subst s; lra).
    assert (py b - py a <> 0) by (intros Z; apply N; rewrite Z; lra).
    field. split; [assumption|]. replace (py b - (py a + s * (py b - py a))) with ((1 - s) * (py b - py a)) by ring.
    apply Rmult_integral_contrapositive_currified; assumption. }
  rewrite <- Hs. destruct (straddles (Ed a p) y), (straddles (Ed p b) y); cbn [andb xorb];
    rewrite ?E1, ?E2 by reflexivity; cbn; try reflexivity; destruct (Rltb (px q) (cross_x (Ed a b) y)); reflexivity.
Qed.
