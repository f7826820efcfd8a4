(** The even-odd rule does not depend on the direction of the ray: rigid motions
    preserve interior, border and region of a polygon. *)
From Coq Require Import Reals List Bool Lra Psatz Lia.
From Verif Require Import Base Num GeoModel HazardModel TransfModel GeoSpec ParityProofs GeoPrimProofs PipProofs PlaceSpec.
Import ListNotations.
Local Open Scope R_scope.
#[local] Existing Instance RNum.

(** a rotation by the angle with cosine [c] and sine [s], then a translation *)
Definition rot (c s a b : R) (p : rpoint) : rpoint := Pt (c * px p - s * py p + a) (s * px p + c * py p + b).
Definition emap (g : rpoint -> rpoint) (e : redge) : redge := Ed (g (es e)) (g (ee e)).

Lemma path_map : forall g l first a, path_edges (g first) (g a) (map g l) = map (emap g) (path_edges first a l).
Proof. intros g l. induction l as [|b l IH]; intros first a; simpl; [reflexivity|]. rewrite IH. reflexivity. Qed.
Lemma ring_map : forall g l, ring (map g l) = map (emap g) (ring l).
Proof. intros g [|a l]; [reflexivity|]. simpl. apply path_map. Qed.

(** the cross product of the ends, seen from [p] *)
Definition cp (p : rpoint) (e : redge) : R :=
  (px (es e) - px p) * (py (ee e) - py p) - (px (ee e) - px p) * (py (es e) - py p).
Lemma div_sign : forall n d, d <> 0 -> (0 < n / d <-> (0 < d /\ 0 < n) \/ (d < 0 /\ n < 0)).
Proof.
  intros n d Hd. assert (E : n = n / d * d) by (field; exact Hd). set (q := n / d) in *. split.
  - intros Q. destruct (Rlt_or_le 0 d); [left|right]; split; try lra; nra.
  - intros [(A & B)|(A & B)]; destruct (Rlt_or_le 0 q); auto; exfalso; nra.
Qed.
Lemma crosses_sign : forall p e, crosses p e =
  xorb (Rltb (py (es e)) (py p)) (Rltb (py (ee e)) (py p)) &&
  (if Rltb (py (es e)) (py p) then Rltb 0 (cp p e) else Rltb (cp p e) 0).
Proof.
  intros p e. unfold crosses, straddles.
  assert (K : py (ee e) - py (es e) <> 0 -> (px p < cross_x e (py p) <-> 0 < cp p e / (py (ee e) - py (es e)))).
  { intros N. unfold cross_x, cp.
    assert (E : px (es e) + (py p - py (es e)) * ((px (ee e) - px (es e)) / (py (ee e) - py (es e))) - px p =
      ((px (es e) - px p) * (py (ee e) - py p) - (px (ee e) - px p) * (py (es e) - py p)) / (py (ee e) - py (es e))) by (field; exact N).
    lra. }
  rdestr (py (es e)) (py p); rdestr (py (ee e)) (py p); cbn [xorb andb]; try reflexivity.
  - assert (N : py (ee e) - py (es e) <> 0) by lra. specialize (K N). rewrite (div_sign _ _ N) in K.
    rdestr (px p) (cross_x e (py p)); symmetry; [apply Rltb_spec|apply Rltb_nspec]; lra.
  - assert (N : py (ee e) - py (es e) <> 0) by lra. specialize (K N). rewrite (div_sign _ _ N) in K.
    rdestr (px p) (cross_x e (py p)); symmetry; [apply Rltb_spec|apply Rltb_nspec]; lra.
Qed.
(** a segment seen from [p] under opposite directions contains [p] *)
Lemma through : forall p e y1 y2 w1 w2 c g, c * c + g * g = 1 -> 0 < g ->
  y1 = py (es e) - py p -> y2 = py (ee e) - py p ->
  w1 = c * y1 - g * (px (es e) - px p) -> w2 = c * y2 - g * (px (ee e) - px p) ->
  cp p e = 0 -> (y1 < 0 <= y2 \/ y2 < 0 <= y1) -> on_seg e p.
Proof.
  intros p e y1 y2 w1 w2 c g N G Y1 Y2 W1 W2 Z S.
  unfold cp in Z. rewrite <- Y1, <- Y2 in Z. set (x1 := px (es e) - px p) in *. set (x2 := px (ee e) - px p) in *.
  assert (Dy : y1 - y2 <> 0) by lra.
  exists (y1 / (y1 - y2)). split.
  - assert (E : y1 = y1 / (y1 - y2) * (y1 - y2)) by (field; exact Dy). set (q := y1 / (y1 - y2)) in *.
    destruct S as [S|S]; split; destruct (Rle_or_lt 0 q); destruct (Rle_or_lt q 1); try lra; exfalso; nra.
  - unfold at_t. apply pt_ext; cbn [px py].
    + replace (px (ee e) - px (es e)) with (x2 - x1) by (unfold x1, x2; ring).
      replace (px (es e)) with (x1 + px p) by (unfold x1; ring).
      assert (E : x1 + y1 / (y1 - y2) * (x2 - x1) = (x2 * y1 - x1 * y2) / (y1 - y2)) by (field; exact Dy).
      replace (x2 * y1 - x1 * y2) with 0 in E by lra. unfold Rdiv at 2 in E. rewrite Rmult_0_l in E. lra.
    + replace (py (ee e) - py (es e)) with (y2 - y1) by lra. replace (py (es e)) with (y1 + py p) by lra.
      assert (E : y1 + y1 / (y1 - y2) * (y2 - y1) = 0) by (field; exact Dy). lra.
Qed.
Lemma through_w : forall p e y1 y2 w1 w2 c g, 0 < g ->
  y1 = py (es e) - py p -> y2 = py (ee e) - py p ->
  w1 = c * y1 - g * (px (es e) - px p) -> w2 = c * y2 - g * (px (ee e) - px p) ->
  cp p e = 0 -> (w1 < 0 <= w2 \/ w2 < 0 <= w1) -> on_seg e p.
Proof.
  intros p e y1 y2 w1 w2 c g G Y1 Y2 W1 W2 Z S.
  unfold cp in Z. rewrite <- Y1, <- Y2 in Z. set (x1 := px (es e) - px p) in *. set (x2 := px (ee e) - px p) in *.
  assert (Dw : w1 - w2 <> 0) by lra.
  exists (w1 / (w1 - w2)). split.
  - assert (E : w1 = w1 / (w1 - w2) * (w1 - w2)) by (field; exact Dw). set (q := w1 / (w1 - w2)) in *.
    destruct S as [S|S]; split; destruct (Rle_or_lt 0 q); destruct (Rle_or_lt q 1); try lra; exfalso; nra.
  - set (t := w1 / (w1 - w2)).
    assert (EY : y1 + t * (y2 - y1) = (g * (x2 * y1 - x1 * y2)) / (w1 - w2)).
    { unfold t. field_simplify_eq; [|exact Dw]. rewrite W1, W2. ring. }
    replace (x2 * y1 - x1 * y2) with 0 in EY by lra. rewrite Rmult_0_r in EY. unfold Rdiv in EY. rewrite Rmult_0_l in EY.
    assert (EW : w1 + t * (w2 - w1) = 0) by (unfold t; field; exact Dw).
    assert (EX : x1 + t * (x2 - x1) = 0).
    { apply Rmult_eq_reg_l with g; [|lra]. rewrite Rmult_0_r.
      replace (g * (x1 + t * (x2 - x1))) with (c * (y1 + t * (y2 - y1)) - (w1 + t * (w2 - w1))) by (rewrite W1, W2; ring).
      rewrite EY, EW. ring. }
    unfold at_t. apply pt_ext; cbn [px py].
    + replace (px (ee e) - px (es e)) with (x2 - x1) by (unfold x1, x2; ring).
      replace (px (es e)) with (x1 + px p) by (unfold x1; ring). lra.
    + replace (py (ee e) - py (es e)) with (y2 - y1) by lra. replace (py (es e)) with (y1 + py p) by lra. lra.
Qed.
(** turning the ray clockwise by less than half a turn *)
Definition wedge (p : rpoint) (c g : R) (v : rpoint) : bool :=
  negb (Rltb (py v) (py p)) && Rltb (c * (py v - py p) - g * (px v - px p)) 0.
Lemma turn_edge : forall c g a b p e, c * c + g * g = 1 -> 0 < g -> ~ on_seg e p ->
  xorb (crosses p e) (crosses (rot c (- g) a b p) (emap (rot c (- g) a b) e)) = xorb (wedge p c g (es e)) (wedge p c g (ee e)).
Proof.
  intros c g a b p e N G NO.
  assert (C : cp (rot c (- g) a b p) (emap (rot c (- g) a b) e) = cp p e).
  { unfold cp, rot, emap; cbn [px py es ee].
    transitivity ((c * c + g * g) * ((px (es e) - px p) * (py (ee e) - py p) - (px (ee e) - px p) * (py (es e) - py p))); [ring|].
    rewrite N. ring. }
  rewrite !crosses_sign, C. unfold wedge.
  pose proof (through p e _ _ _ _ c g N G eq_refl eq_refl eq_refl eq_refl) as Th.
  pose proof (through_w p e _ _ _ _ c g G eq_refl eq_refl eq_refl eq_refl) as Th'.
  assert (WS : forall v, Rltb (py (rot c (- g) a b v)) (py (rot c (- g) a b p)) = Rltb (c * (py v - py p) - g * (px v - px p)) 0).
  { intros v. unfold rot; cbn [py]. rdestr (- g * px v + c * py v + b) (- g * px p + c * py p + b); symmetry; [apply Rltb_spec|apply Rltb_nspec]; lra. }
  cbn [emap es ee]. rewrite !WS.
  set (w1 := c * (py (es e) - py p) - g * (px (es e) - px p)) in *.
  set (w2 := c * (py (ee e) - py p) - g * (px (ee e) - px p)) in *.
  assert (YY : forall v, Rltb (py v) (py p) = Rltb (py v - py p) 0).
  { intros v. rdestr (py v) (py p); symmetry; [apply Rltb_spec|apply Rltb_nspec]; lra. }
  rewrite !YY.
  assert (CC : g * cp p e = w2 * (py (es e) - py p) - w1 * (py (ee e) - py p)) by (unfold cp, w1, w2; ring).
  set (y1 := py (es e) - py p) in *. set (y2 := py (ee e) - py p) in *. set (k := cp p e) in *.
  clearbody w1 w2 y1 y2 k. clear C WS YY N.
  assert (NZ : k = 0 -> (y1 < 0 <= y2 \/ y2 < 0 <= y1) -> False) by (intros; apply NO, Th; assumption).
  assert (NZ' : k = 0 -> (w1 < 0 <= w2 \/ w2 < 0 <= w1) -> False) by (intros; apply NO, Th'; assumption).
  clear Th Th' NO.
  assert (KP : 0 < w2 * y1 - w1 * y2 -> 0 < k) by (intros; destruct (Rlt_or_le 0 k); auto; nra).
  assert (KN : w2 * y1 - w1 * y2 < 0 -> k < 0) by (intros; destruct (Rlt_or_le k 0); auto; nra).
  assert (KP' : 0 <= w2 * y1 - w1 * y2 -> 0 <= k) by (intros; destruct (Rle_or_lt 0 k); auto; nra).
  assert (KN' : w2 * y1 - w1 * y2 <= 0 -> k <= 0) by (intros; destruct (Rle_or_lt k 0); auto; nra).
  clear CC.
  assert (SG : forall w y, (w < 0 -> y < 0 -> 0 < w * y) /\ (w < 0 -> 0 <= y -> w * y <= 0) /\
     (0 <= w -> y < 0 -> w * y <= 0) /\ (0 <= w -> 0 <= y -> 0 <= w * y)).
  { intros w y. repeat apply conj; intros; nra. }
  destruct (SG w2 y1) as (A1 & A2 & A3 & A4). destruct (SG w1 y2) as (B1 & B2 & B3 & B4). clear SG.
  rdestr y1 0; rdestr y2 0; rdestr w1 0; rdestr w2 0; cbn [xorb andb negb]; try reflexivity;
    rdestr 0 k; rdestr k 0; try reflexivity; exfalso; try lra;
    try (apply NZ; lra); try (apply NZ'; lra);
    repeat match goal with H : ?P -> _, K : ?P |- _ => specialize (H K) end;
    first [assert (0 < k) by (apply KP; lra); lra | assert (k < 0) by (apply KN; lra); lra
          | assert (0 <= k) by (apply KP'; lra); lra | assert (k <= 0) by (apply KN'; lra); lra].
Qed.

(** *** all rotations *)
Lemma on_seg_rot : forall c s a b e p, on_seg e p -> on_seg (emap (rot c s a b) e) (rot c s a b p).
Proof.
  intros c s a b e p (t & Ht & ->). exists t. split; [exact Ht|]. unfold rot, emap, at_t. cbn [px py es ee]. apply pt_ext; cbn [px py]; ring.
Qed.
Lemma rot_inv : forall c s a b, c * c + s * s = 1 -> forall p,
  rot c (- s) (- (c * a + s * b)) (s * a - c * b) (rot c s a b p) = p.
Proof.
  intros c s a b N p. unfold rot; cbn [px py]. apply pt_ext; cbn [px py].
  - transitivity ((c * c + s * s) * px p); [ring|]. rewrite N. ring.
  - transitivity ((c * c + s * s) * py p); [ring|]. rewrite N. ring.
Qed.
Lemma emap_inv : forall f g (H : forall p, f (g p) = p) e, emap f (emap g e) = e.
Proof. intros f g H [u v]. unfold emap; simpl. rewrite !H. reflexivity. Qed.
Lemma map_inv : forall {A B} (f : B -> A) (g : A -> B), (forall p, f (g p) = p) -> forall l, map f (map g l) = l.
Proof. intros A B f g H l. rewrite map_map. rewrite <- (map_id l) at 2. apply map_ext. exact H. Qed.
Lemma neg_norm : forall c s, c * c + s * s = 1 -> c * c + (- s) * (- s) = 1.
Proof. intros. lra. Qed.
Lemma border_rot1 : forall c s a b l p, on_border l p -> on_border (map (rot c s a b) l) (rot c s a b p).
Proof.
  intros c s a b l p (e & He & O). exists (emap (rot c s a b) e). split; [rewrite ring_map; apply in_map; exact He|].
  apply on_seg_rot. exact O.
Qed.
Lemma border_rot : forall c s a b l p, c * c + s * s = 1 ->
  (on_border (map (rot c s a b) l) (rot c s a b p) <-> on_border l p).
Proof.
  intros c s a b l p N. split; [|apply border_rot1]. intros H.
  apply (border_rot1 c (- s) (- (c * a + s * b)) (s * a - c * b)) in H.
  rewrite (map_inv _ _ (rot_inv c s a b N)), (rot_inv c s a b N) in H. exact H.
Qed.
Lemma even_odd_turn : forall c g a b l p, c * c + g * g = 1 -> 0 < g -> ~ on_border l p ->
  even_odd (map (rot c (- g) a b) l) (rot c (- g) a b p) = even_odd l p.
Proof.
  intros c g a b l p N G NB.
  assert (E : xorb (even_odd l p) (even_odd (map (rot c (- g) a b) l) (rot c (- g) a b p)) = false).
  { unfold even_odd. rewrite ring_map, parity_map, parity_xor. rewrite <- (ring_ends (wedge p c g) l).
    apply parity_ext. intros e He. apply turn_edge; auto. intros O. apply NB. exists e. auto. }
  destruct (even_odd l p), (even_odd (map _ l) _); simpl in E; congruence.
Qed.
Lemma even_odd_shift : forall a b l p, even_odd (map (rot 1 0 a b) l) (rot 1 0 a b p) = even_odd l p.
Proof.
  intros a b l p. unfold even_odd. rewrite ring_map, parity_map. apply parity_ext. intros e _.
  rewrite !crosses_sign.
  assert (C : cp (rot 1 0 a b p) (emap (rot 1 0 a b) e) = cp p e) by (unfold cp, rot, emap; cbn [px py es ee]; ring).
  rewrite C. unfold rot, emap; cbn [px py es ee].
  assert (Y : forall v : rpoint, Rltb (0 * px v + 1 * py v + b) (0 * px p + 1 * py p + b) = Rltb (py v) (py p)).
  { intros v. rdestr (py v) (py p); [apply Rltb_spec|apply Rltb_nspec]; lra. }
  rewrite !Y. reflexivity.
Qed.
Lemma rot_comp : forall c1 s1 a1 b1 c2 s2 a2 b2 p, rot c1 s1 a1 b1 (rot c2 s2 a2 b2 p) =
  rot (c1 * c2 - s1 * s2) (s1 * c2 + c1 * s2) (c1 * a2 - s1 * b2 + a1) (s1 * a2 + c1 * b2 + b1) p.
Proof. intros. unfold rot; cbn [px py]. apply pt_ext; cbn [px py]; ring. Qed.
Theorem even_odd_rot : forall c s a b l p, c * c + s * s = 1 -> ~ on_border l p ->
  even_odd (map (rot c s a b) l) (rot c s a b p) = even_odd l p.
Proof.
  assert (NZ : forall c s a b l p, s <> 0 -> c * c + s * s = 1 -> ~ on_border l p ->
    even_odd (map (rot c s a b) l) (rot c s a b p) = even_odd l p).
  { intros c s a b l p S N NB. destruct (Rlt_or_le s 0) as [L|L].
    - replace s with (- (- s)) by ring. apply even_odd_turn; [lra|lra|exact NB].
    - assert (L' : 0 < s) by lra.
      pose proof (even_odd_turn c s (- (c * a + s * b)) (s * a - c * b) (map (rot c s a b) l) (rot c s a b p) N L') as H.
      rewrite (map_inv _ _ (rot_inv c s a b N)), (rot_inv c s a b N) in H. symmetry. apply H.
      intros B. apply border_rot in B; [contradiction|exact N]. }
  intros c s a b l p N NB. destruct (Req_dec s 0) as [->|S]; [|apply NZ; assumption].
  assert (C : c = 1 \/ c = -1).
  { assert (Q : (c - 1) * (c + 1) = 0) by lra. apply Rmult_integral in Q as [Q|Q]; [left|right]; lra. }
  destruct C as [ -> | -> ]; [apply even_odd_shift|].
  assert (H2 : forall q, rot (-1) 0 a b q = rot 0 1 a b (rot 0 1 0 0 q)).
  { intros q. rewrite rot_comp. f_equal; ring. }
  rewrite H2. rewrite (map_ext _ _ H2), <- (map_map (rot 0 1 0 0) (rot 0 1 a b)).
  rewrite NZ; [apply NZ; [lra|lra|exact NB]|lra|lra|]. intros B. apply border_rot in B; [contradiction|lra].
Qed.

(** *** rigid transformations of the model *)
Lemma tr_rot : forall t, rigid t -> forall p, tr_point t p = rot (m00 t) (m10 t) (m02 t) (m12 t) p.
Proof. intros t (A & B & _) p. unfold tr_point, rot. unr. rewrite A, B. apply pt_ext; cbn [px py]; ring. Qed.
Lemma tr_map : forall t, rigid t -> forall l, map (tr_point t) l = map (rot (m00 t) (m10 t) (m02 t) (m12 t)) l.
Proof. intros t R l. apply map_ext. apply tr_rot. exact R. Qed.
Theorem rigid_sets : forall t l p, rigid t ->
  (on_border (map (tr_point t) l) (tr_point t p) <-> on_border l p) /\
  (interior (map (tr_point t) l) (tr_point t p) <-> interior l p) /\
  (outside (map (tr_point t) l) (tr_point t p) <-> outside l p).
Proof.
  intros t l p Rg. pose proof Rg as (_ & _ & N). rewrite (tr_map t Rg), (tr_rot t Rg).
  set (c := m00 t) in *. set (s := m10 t) in *. pose proof (border_rot c s (m02 t) (m12 t) l p N) as B.
  split; [exact B|]. unfold interior, outside. split; split; intros (A & E);
    (split; [tauto|]); rewrite even_odd_rot in * by (try exact N; tauto); exact E.
Qed.
Lemma rigid_surj : forall t, rigid t -> forall q, exists p, q = tr_point t p.
Proof.
  intros t Rg q. pose proof Rg as (_ & _ & N). set (c := m00 t) in *. set (s := m10 t) in *.
  exists (rot c (- s) (- (c * m02 t + s * m12 t)) (s * m02 t - c * m12 t) q). rewrite (tr_rot t Rg). fold c s.
  unfold rot; cbn [px py]. apply pt_ext; cbn [px py].
  - transitivity ((c * c + s * s) * px q + m02 t * (1 - (c * c + s * s))); [rewrite N; ring|ring].
  - transitivity ((c * c + s * s) * py q + m12 t * (1 - (c * c + s * s))); [rewrite N; ring|ring].
Qed.
Lemma rigid_dist : forall t, rigid t -> forall p q, edist (tr_point t p) (tr_point t q) = edist p q.
Proof.
  intros t Rg p q. pose proof Rg as (_ & _ & N). rewrite !(tr_rot t Rg). set (c := m00 t) in *. set (s := m10 t) in *.
  unfold edist, rot. cbn [px py]. f_equal.
  transitivity ((c * c + s * s) * ((px p - px q) ^ 2 + (py p - py q) ^ 2)); [ring|]. rewrite N. ring.
Qed.
(** *** bounding boxes of point lists *)
Lemma bbox_ok : forall l, l <> [] -> smallest_box (bbox_of_points l) l.
Proof.
  assert (K : forall l r seen, smallest_box r seen -> smallest_box (fold_left grow_bbox l r) (seen ++ l)).
  { induction l as [|p l IH]; intros r seen S; [rewrite app_nil_r; exact S|].
    cbn [fold_left]. replace (seen ++ p :: l) with ((seen ++ [p]) ++ l) by (rewrite <- app_assoc; reflexivity).
    apply IH. destruct S as (A & (v1 & I1 & E1) & (v2 & I2 & E2) & (v3 & I3 & E3) & (v4 & I4 & E4)).
    assert (V : forall v, In v seen -> In v (seen ++ [p])) by (intros; apply in_or_app; auto).
    assert (Vp : In p (seen ++ [p])) by (apply in_or_app; right; left; reflexivity).
    unfold grow_bbox. unr. split; [|split; [|split; [|split]]]; cbn [x_min x_max y_min y_max].
    - intros v Hv. unfold in_rect; cbn [x_min x_max y_min y_max].
      pose proof (Rmin_l (x_min r) (px p)). pose proof (Rmin_r (x_min r) (px p)).
      pose proof (Rmin_l (y_min r) (py p)). pose proof (Rmin_r (y_min r) (py p)).
      pose proof (Rmax_l (x_max r) (px p)). pose proof (Rmax_r (x_max r) (px p)).
      pose proof (Rmax_l (y_max r) (py p)). pose proof (Rmax_r (y_max r) (py p)).
      apply in_app_or in Hv as [Hv|[<-|[]]]; [destruct (A v Hv) as (X & Y)|]; lra.
    - unfold Rmin. destruct (Rle_dec _ _); eauto.
    - unfold Rmax. destruct (Rle_dec _ _); eauto.
    - unfold Rmin. destruct (Rle_dec _ _); eauto.
    - unfold Rmax. destruct (Rle_dec _ _); eauto. }
  intros [|p l] N; [congruence|]. apply (K l (Rc (px p) (py p) (px p) (py p)) [p]).
  split; [|split; [|split; [|split]]]; try (exists p; split; [left; reflexivity|reflexivity]).
  intros v [<-|[]]. split; simpl; lra.
Qed.

(** *** transformed shapes *)
Lemma edet_rot : forall c s a b e f, c * c + s * s = 1 -> edet (emap (rot c s a b) e) (emap (rot c s a b) f) = edet e f.
Proof.
  intros c s a b e f N. unfold edet, emap, rot; cbn [px py es ee].
  transitivity ((c * c + s * s) * ((px (ee e) - px (es e)) * (py (ee f) - py (es f)) - (py (ee e) - py (es e)) * (px (ee f) - px (es f)))); [ring|].
  rewrite N. ring.
Qed.
Lemma edot_rot : forall c s a b e f, c * c + s * s = 1 -> edot (emap (rot c s a b) e) (emap (rot c s a b) f) = edot e f.
Proof.
  intros c s a b e f N. unfold edot, emap, rot; cbn [px py es ee].
  transitivity ((c * c + s * s) * ((px (ee e) - px (es e)) * (px (ee f) - px (es f)) + (py (ee e) - py (es e)) * (py (ee f) - py (es f)))); [ring|].
  rewrite N. ring.
Qed.
Lemma rot_inj : forall c s a b, c * c + s * s = 1 -> forall p q, rot c s a b p = rot c s a b q -> p = q.
Proof. intros c s a b N p q E. rewrite <- (rot_inv c s a b N p), <- (rot_inv c s a b N q), E. reflexivity. Qed.
Lemma good_map : forall t (s : poly R) (b : poly R), rigid t -> good_shape s ->
  p_pts b = map (tr_point t) (p_pts s) -> p_bbox b = bbox_of_points (p_pts b) -> ccen (p_poi b) = tr_point t (ccen (p_poi s)) ->
  good_shape b.
Proof.
  intros t s b Rg G Ep Eb Ec. pose proof Rg as (_ & _ & N).
  assert (NE : p_pts b <> []).
  { rewrite Ep. destruct (gs_box s G) as (_ & (v & Iv & _) & _). destruct (p_pts s); [destruct Iv|discriminate]. }
  assert (SB : smallest_box (p_bbox b) (p_pts b)) by (rewrite Eb; apply bbox_ok; exact NE).
  assert (PI : interior (p_pts b) (ccen (p_poi b))).
  { rewrite Ep, Ec. apply rigid_sets; [exact Rg|]. apply gs_poi. exact G. }
  split; auto.
  - rewrite Ep, (tr_map t Rg). intros e He. rewrite ring_map in He. apply in_map_iff in He as (f & <- & Hf).
    cbn [emap es ee]. intros K. apply (rot_inj _ _ _ _ N) in K. exact (gs_edges s G f Hf K).
  - rewrite Ep, (tr_map t Rg). intros e f He Hf. rewrite ring_map in He, Hf.
    apply in_map_iff in He as (e' & <- & He). apply in_map_iff in Hf as (f' & <- & Hf).
    rewrite (edet_rot _ _ _ _ _ _ N), (edot_rot _ _ _ _ _ _ N). cbn [emap es ee]. intros K. apply (rot_inj _ _ _ _ N) in K.
    apply (gs_spikes s G); assumption.
  - destruct PI as (NB & E). destruct (even_odd_box _ _ _ (proj1 SB) NB E) as (X & Y). split; lra.
Qed.
Theorem good_tr_poly : forall t s, rigid t -> good_shape s -> good_shape (tr_poly t s).
Proof. intros t s Rg G. apply (good_map t s); auto. Qed.
Lemma zip_from_map : forall {A} (f : A -> A) (buf ref : list A), length buf = length ref ->
  zip_from (fun _ r => f r) buf ref = map f ref.
Proof.
  intros A f. induction buf as [|b buf IH]; intros [|r ref] H; simpl in *; try lia; [reflexivity|]. rewrite IH by lia. reflexivity.
Qed.
Theorem good_tr_poly_from : forall t buf s b, rigid t -> good_shape s -> length (p_pts buf) = length (p_pts s) ->
  tr_poly_from t buf s = Ok b -> good_shape b /\ p_pts b = map (tr_point t) (p_pts s).
Proof.
  intros t buf s b Rg G L H. unfold tr_poly_from in H.
  assert (X : exists u, b = Poly (zip_from (fun _ r => tr_point t r) (p_pts buf) (p_pts s))
     (bbox_of_points (zip_from (fun _ r => tr_point t r) (p_pts buf) (p_pts s))) (p_area buf) (p_diam buf)
     (tr_circle_from t (p_poi buf) (p_poi s)) u).
  { destruct (p_surr buf); [destruct (p_surr s); [|discriminate]|]; cbn [expect rbind] in H; injection H as <-; eauto. }
  destruct X as (u & ->). rewrite zip_from_map by exact L. split; [|reflexivity].
  apply (good_map t s); auto.
Qed.
(** compositions of rotations and translations are rigid *)
Lemma rigid_compose : forall d : dtransf R, rigid (compose (T := RTrig) d).
Proof.
  intros d. unfold compose, rot_transl_m, rigid; cbn [m00 m01 m10 m11 fcos fsin RTrig]. unr.
  split; [reflexivity|]. split; [reflexivity|]. pose proof (sin2_cos2 (dt_rot d)) as H. unfold Rsqr in H. lra.
Qed.
