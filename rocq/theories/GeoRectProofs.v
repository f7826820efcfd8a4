(** Rectangles in exact real arithmetic: relations, quadrants, squares, the
    distance to the border. *)
From Coq Require Import Reals List Bool Lra Psatz.
From Verif Require Import Base Num GeoModel HazardModel GeoSpec ParityProofs GeoPrimProofs.
Import ListNotations.
Local Open Scope R_scope.
#[local] Existing Instance RNum.

Lemma rect_sub : forall a b, nonempty_rect a -> ((forall p, in_rect a p -> in_rect b p) <->
  x_min b <= x_min a /\ y_min b <= y_min a /\ x_max a <= x_max b /\ y_max a <= y_max b).
Proof.
  intros a b (A & B). split.
  - intros H. destruct (H (Pt (x_min a) (y_min a))) as (X & Y); [split; simpl; lra|].
    destruct (H (Pt (x_max a) (y_max a))) as (X' & Y'); [split; simpl; lra|]. simpl in *. lra.
  - intros H p (X & Y). split; lra.
Qed.
Lemma relation_to_ok : forall a b, nonempty_rect a -> nonempty_rect b ->
  match relation_to a b with
  | Disjoint => ~ exists p, in_rect a p /\ in_rect b p
  | Surrounding => forall p, in_rect b p -> in_rect a p
  | Enclosed => (forall p, in_rect a p -> in_rect b p) /\ exists p, in_rect b p /\ ~ in_rect a p
  | Intersecting => (exists p, in_rect a p /\ in_rect b p) /\
      (exists p, in_rect a p /\ ~ in_rect b p) /\ (exists p, in_rect b p /\ ~ in_rect a p)
  end.
Proof.
  intros a b Na Nb.
  assert (NS : forall a b, nonempty_rect a -> ~ (x_min b <= x_min a /\ y_min b <= y_min a /\ x_max a <= x_max b /\ y_max a <= y_max b) ->
     exists p, in_rect a p /\ ~ in_rect b p).
  { intros c d (C1 & C2) H. 
    destruct (Rle_dec (x_min d) (x_min c)) as [L1|L1].
    2: { exists (Pt (x_min c) (y_min c)). unfold in_rect; simpl. lra. }
    destruct (Rle_dec (y_min d) (y_min c)) as [L2|L2].
    2: { exists (Pt (x_min c) (y_min c)). unfold in_rect; simpl. lra. }
    destruct (Rle_dec (x_max c) (x_max d)) as [L3|L3].
    2: { exists (Pt (x_max c) (y_max c)). unfold in_rect; simpl. lra. }
    exists (Pt (x_max c) (y_max c)). unfold in_rect; simpl. lra. }
  unfold relation_to. destruct (rr_collides a b) eqn:E.
  2: { rewrite <- rr_collides_iff by assumption. congruence. }
  apply rr_collides_iff in E; [|assumption..]. unr.
  destruct (_ && _ && _ && _)%bool eqn:S.
  { rewrite !andb_true_iff, !Rleb_spec in S. apply rect_sub; [assumption|]. tauto. }
  assert (S' : ~ (x_min a <= x_min b /\ y_min a <= y_min b /\ x_max b <= x_max a /\ y_max b <= y_max a)).
  { intros H. rewrite <- !Rleb_spec in H. destruct H as (H1 & H2 & H3 & H4). rewrite H1, H2, H3, H4 in S. discriminate. }
  destruct (Rleb (x_min b) _ && _ && _ && _)%bool eqn:T.
  { rewrite !andb_true_iff, !Rleb_spec in T. split; [apply rect_sub; [assumption|]; tauto|]. apply NS; assumption. }
  assert (T' : ~ (x_min b <= x_min a /\ y_min b <= y_min a /\ x_max a <= x_max b /\ y_max a <= y_max b)).
  { intros H. rewrite <- !Rleb_spec in H. destruct H as (H1 & H2 & H3 & H4). rewrite H1, H2, H3, H4 in T. discriminate. }
  split; [exact E|]. split; apply NS; assumption.
Qed.
Lemma almost_relation_exact : forall a b, almost_relation_to a b = relation_to a b.
Proof.
  assert (L : forall x y, fpa_le x y = Rleb x y).
  { intros x y. unfold fpa_le. unr. destruct (Reqb x y) eqn:E.
    - apply Reqb_spec in E. symmetry. apply Rleb_spec. lra.
    - apply Reqb_nspec in E. unfold Rltb, Rleb. destruct (Rlt_dec x y), (Rle_dec x y); auto; lra. }
  assert (G : forall x y, fpa_ge x y = Rleb y x).
  { intros x y. unfold fpa_ge. unr. destruct (Reqb x y) eqn:E.
    - apply Reqb_spec in E. symmetry. apply Rleb_spec. lra.
    - apply Reqb_nspec in E. unfold Rltb, Rleb. destruct (Rlt_dec y x), (Rle_dec y x); auto; lra. }
  intros a b. unfold almost_relation_to, relation_to, rr_almost_collides, rr_collides.
  rewrite !L, !G. unr. reflexivity.
Qed.

(** *** quadrants *)
Definition mid_x (r : rrect) : R := (x_min r + x_max r) / 2.
Definition mid_y (r : rrect) : R := (y_min r + y_max r) / 2.
Lemma quadrants_eq : forall r, proper r -> quadrants r =
  Q4 (Rc (mid_x r) (mid_y r) (x_max r) (y_max r)) (Rc (x_min r) (mid_y r) (mid_x r) (y_max r))
     (Rc (x_min r) (y_min r) (mid_x r) (mid_y r)) (Rc (mid_x r) (y_min r) (x_max r) (mid_y r)).
Proof.
  intros [a b c d] (A & B). unfold mid_x, mid_y; simpl in *.
  unfold quadrants, e_bbox, e_xmin, e_xmax, e_ymin, e_ymax, r_centroid, corners, q4map. simpl. unr.
  replace (1 + 1) with 2 by lra.
  rewrite !Rmin_right by lra. rewrite !Rmax_left by lra. rewrite !Rmin_left by lra. rewrite !Rmax_right by lra.
  reflexivity.
Qed.
Lemma quad_i : forall r i, proper r -> (i < 4)%nat ->
  let q := q4get (quadrants r) i in
  proper q /\ (x_min q = mid_x r /\ x_max q = x_max r \/ x_min q = x_min r /\ x_max q = mid_x r) /\
  (y_min q = mid_y r /\ y_max q = y_max r \/ y_min q = y_min r /\ y_max q = mid_y r).
Proof.
  intros r i Pr Hi q. unfold q. rewrite quadrants_eq by exact Pr. destruct Pr as (A & B).
  assert (M1 : x_min r < mid_x r < x_max r) by (unfold mid_x; lra).
  assert (M2 : y_min r < mid_y r < y_max r) by (unfold mid_y; lra).
  destruct i as [|[|[|[|i]]]]; [..|Lia.lia]; simpl; (split; [split; simpl; lra|]); split; auto.
Qed.
Lemma quad_sub : forall r i p, proper r -> (i < 4)%nat -> in_rect (q4get (quadrants r) i) p -> in_rect r p.
Proof.
  intros r i p Pr Hi H. destruct (quad_i r i Pr Hi) as (_ & X & Y). destruct Pr as (A & B).
  assert (M1 : x_min r < mid_x r < x_max r) by (unfold mid_x; lra).
  assert (M2 : y_min r < mid_y r < y_max r) by (unfold mid_y; lra).
  destruct H as (HX & HY). split; lra.
Qed.
Lemma quad_cover : forall r p, proper r -> in_rect r p -> exists i, (i < 4)%nat /\ in_rect (q4get (quadrants r) i) p.
Proof.
  intros r p Pr (X & Y). rewrite quadrants_eq by exact Pr.
  destruct (Rle_dec (mid_x r) (px p)), (Rle_dec (mid_y r) (py p)).
  - exists 0%nat. split; [Lia.lia|]. split; simpl; lra.
  - exists 3%nat. split; [Lia.lia|]. split; simpl; lra.
  - exists 1%nat. split; [Lia.lia|]. split; simpl; lra.
  - exists 2%nat. split; [Lia.lia|]. split; simpl; lra.
Qed.
Lemma quad_disjoint : forall r i j p, proper r -> (i < 4)%nat -> (j < 4)%nat -> i <> j ->
  in_rect (q4get (quadrants r) i) p -> ~ in_open_rect (q4get (quadrants r) j) p.
Proof.
  intros r i j p Pr Hi Hj N. rewrite quadrants_eq by exact Pr.
  destruct i as [|[|[|[|i]]]]; try Lia.lia; destruct j as [|[|[|[|j]]]]; try Lia.lia; try congruence;
    intros (X & Y) (X' & Y'); simpl in *; lra.
Qed.
(** two quadrants share a border segment exactly when the table says so *)
Lemma neighbors_ok : forall r i j, proper r -> (i < 4)%nat -> (j < 4)%nat -> i <> j ->
  (share_side (q4get (quadrants r) i) (q4get (quadrants r) j) <->
   fst (quadrant_neighbors i) = j \/ snd (quadrant_neighbors i) = j).
Proof.
  intros r i j Pr Hi Hj N. rewrite quadrants_eq by exact Pr. destruct Pr as (A & B).
  assert (M1 : x_min r < mid_x r < x_max r) by (unfold mid_x; lra).
  assert (M2 : y_min r < mid_y r < y_max r) by (unfold mid_y; lra).
  assert (NO : forall a b, x_max a = x_min b -> y_max a = y_min b -> ~ share_side a b /\ ~ share_side b a).
  { intros a b E1 E2. unfold share_side, in_rect.
    split; intros (p & q & D & P1 & P2 & Q1 & Q2); apply D; apply pt_ext; lra. }
  assert (NO' : forall a b, x_max a = x_min b -> y_min a = y_max b -> ~ share_side a b /\ ~ share_side b a).
  { intros a b E1 E2. unfold share_side, in_rect.
    split; intros (p & q & D & P1 & P2 & Q1 & Q2); apply D; apply pt_ext; lra. }
  assert (V : forall a b, x_max a = x_min b -> y_min a < y_max a -> y_min a = y_min b -> y_max a = y_max b ->
     x_min a <= x_max a -> x_min b <= x_max b -> share_side a b /\ share_side b a).
  { intros a b E1 L E2 E3 L1 L2.
    assert (D : Pt (x_max a) (y_min a) <> Pt (x_max a) (y_max a)) by (intros Q; injection Q; lra).
    split; exists (Pt (x_max a) (y_min a)), (Pt (x_max a) (y_max a)); unfold in_rect; simpl; (split; [exact D|]); lra. }
  assert (H : forall a b, y_max a = y_min b -> x_min a < x_max a -> x_min a = x_min b -> x_max a = x_max b ->
     y_min a <= y_max a -> y_min b <= y_max b -> share_side a b /\ share_side b a).
  { intros a b E1 L E2 E3 L1 L2.
    assert (D : Pt (x_min a) (y_max a) <> Pt (x_max a) (y_max a)) by (intros Q; injection Q; lra).
    split; exists (Pt (x_min a) (y_max a)), (Pt (x_max a) (y_max a)); unfold in_rect; simpl; (split; [exact D|]); lra. }
  destruct i as [|[|[|[|i]]]]; try Lia.lia; destruct j as [|[|[|[|j]]]]; try Lia.lia; try congruence;
    cbn [q4get quadrant_neighbors fst snd qa qb qc qd]; split; intros S; auto;
    try (destruct S as [S|S]; discriminate);
    try (eapply proj1; apply V; simpl; (lra || reflexivity)); try (eapply proj2; apply V; simpl; (lra || reflexivity));
    try (eapply proj1; apply H; simpl; (lra || reflexivity)); try (eapply proj2; apply H; simpl; (lra || reflexivity));
    exfalso; revert S; first [eapply proj1; apply NO; reflexivity|eapply proj2; apply NO; reflexivity|eapply proj1; apply NO'; reflexivity|eapply proj2; apply NO'; reflexivity].
Qed.

(** *** squares *)
Lemma inflate_ok : forall r, nonempty_rect r ->
  let s := inflate_to_square r in
  r_width s = r_height s /\ r_centroid s = r_centroid r /\ (forall p, in_rect r p -> in_rect s p) /\
  (forall s', nonempty_rect s' -> r_width s' = r_height s' -> (forall p, in_rect r p -> in_rect s' p) ->
     r_width s <= r_width s').
Proof.
  intros [a b c d] (A & B) s. simpl in A, B. unfold s, inflate_to_square, r_width, r_height, r_centroid. cbn [x_min x_max y_min y_max].
  unr. replace (1 + 1) with 2 by lra.
  assert (SUB : forall s', nonempty_rect s' -> x_max s' - x_min s' = y_max s' - y_min s' -> (forall p, in_rect (Rc a b c d) p -> in_rect s' p) ->
     c - a <= x_max s' - x_min s' /\ d - b <= x_max s' - x_min s').
  { intros s' N E H. apply rect_sub in H; [|split; simpl; lra]. simpl in H. lra. }
  rdestr (d - b) (c - a); [|rdestr (c - a) (d - b)]; cbn [x_min x_max y_min y_max];
    (split; [lra|]); (split; [f_equal; field|]); (split; [intros p (X & Y); simpl in X, Y; split; simpl; lra|]);
    intros s' N E H1; destruct (SUB s' N E H1); lra.
Qed.
Lemma inflate_proper : forall r, proper r -> proper (inflate_to_square r).
Proof.
  intros [a b c d] (A & B). simpl in A, B. unfold inflate_to_square. cbn [x_min x_max y_min y_max]. unr.
  rdestr (d - b) (c - a); [|rdestr (c - a) (d - b)]; split; simpl; lra.
Qed.
(** the inflated square reaches further than the midlines: the rectangle meets all
    four quadrants *)
Lemma inflate_center : forall r, proper r ->
  mid_x (inflate_to_square r) = mid_x r /\ mid_y (inflate_to_square r) = mid_y r.
Proof.
  intros [a b c d] (A & B). simpl in A, B. unfold mid_x, mid_y, inflate_to_square. cbn [x_min x_max y_min y_max]. unr.
  rdestr (d - b) (c - a); [|rdestr (c - a) (d - b)]; simpl; lra.
Qed.
Lemma inflate_sub : forall r p, in_rect r p -> nonempty_rect r -> in_rect (inflate_to_square r) p.
Proof. intros r p H N. apply (inflate_ok r N). exact H. Qed.

(** *** the border of a rectangle *)
Lemma border_sides : forall r p, rect_border r p ->
  in_rect r p /\ (px p = x_min r \/ px p = x_max r \/ py p = y_min r \/ py p = y_max r).
Proof.
  intros r p (I & N). split; [exact I|]. destruct I as (X & Y).
  destruct (Req_dec (px p) (x_min r)); [auto|]. destruct (Req_dec (px p) (x_max r)); [auto|].
  destruct (Req_dec (py p) (y_min r)); [auto|]. destruct (Req_dec (py p) (y_max r)); [auto|].
  destruct N. split; lra.
Qed.
Lemma edist_coord : forall p q, Rabs (px p - px q) <= edist p q /\ Rabs (py p - py q) <= edist p q.
Proof.
  intros p q. unfold edist. split; rewrite <- sqrt_Rsqr_abs; apply sqrt_le_1_alt; unfold Rsqr;
    pose proof (pow2_ge_0 (px p - px q)); pose proof (pow2_ge_0 (py p - py q)); lra.
Qed.
Lemma edist_horiz : forall x y x', edist (Pt x y) (Pt x' y) = Rabs (x - x').
Proof.
  intros. unfold edist; simpl px; simpl py. rewrite <- sqrt_Rsqr_abs. f_equal. unfold Rsqr. ring.
Qed.
Lemma edist_vert : forall x y y', edist (Pt x y) (Pt x y') = Rabs (y - y').
Proof.
  intros. unfold edist; simpl px; simpl py. rewrite <- sqrt_Rsqr_abs. f_equal. unfold Rsqr. ring.
Qed.
(** outside: the squared distance to the border; inside: the distance itself *)
Lemma r_sqdist_border_ok : forall r p, proper r ->
  let '(pos, d) := r_sqdist_border r p in
  (pos = Interior <-> in_rect r p) /\
  match pos with
  | Exterior => exists m, distance_to (rect_border r) p m /\ d = m * m
  | Interior => distance_to (rect_border r) p d
  end.
Proof.
  intros r p Pr. unfold r_sqdist_border. destruct (rp_collides r p) eqn:E.
  - apply rp_collides_iff in E. split; [tauto|]. unr.
    set (d1 := Rabs (px p - x_min r)). set (d2 := Rabs (px p - x_max r)).
    set (d3 := Rabs (py p - y_min r)). set (d4 := Rabs (py p - y_max r)).
    set (m := if Rltb d4 _ then d4 else _).
    assert (M : (m = d1 \/ m = d2 \/ m = d3 \/ m = d4) /\ m <= d1 /\ m <= d2 /\ m <= d3 /\ m <= d4).
    { unfold m. rdestr d2 d1; [rdestr d3 d2|rdestr d3 d1]; match goal with |- context [Rltb d4 ?z] => rdestr d4 z end; lra. }
    destruct M as (M & L1 & L2 & L3 & L4). destruct E as (EX & EY). destruct Pr as (PX & PY). destruct p as [x y]. simpl in *. split.
    + destruct M as [M|[M|[M|M]]]; rewrite M; unfold d1, d2, d3, d4.
      * exists (Pt (x_min r) y). split; [|apply edist_horiz]. split; [split; simpl; lra|]. intros (Q & _); simpl in Q; lra.
      * exists (Pt (x_max r) y). split; [|apply edist_horiz]. split; [split; simpl; lra|]. intros (Q & _); simpl in Q; lra.
      * exists (Pt x (y_min r)). split; [|apply edist_vert]. split; [split; simpl; lra|]. intros (_ & Q); simpl in Q; lra.
      * exists (Pt x (y_max r)). split; [|apply edist_vert]. split; [split; simpl; lra|]. intros (_ & Q); simpl in Q; lra.
    + intros q Bq. apply border_sides in Bq as (_ & S).
      destruct (edist_coord (Pt x y) q) as (CX & CY). simpl in CX, CY.
      destruct S as [S|[S|[S|S]]]; rewrite S in *; unfold d1, d2, d3, d4 in *; lra.
  - apply rp_collides_dec in E. split; [split; [discriminate|contradiction]|].
    exists (edist p (nearest r p)). split; [|apply r_sqdist_ok; apply proper_nonempty; exact Pr]. split.
    + exists (nearest r p). split; [|reflexivity]. split; [apply nearest_in, proper_nonempty; exact Pr|].
      intros (X & Y). apply E. simpl in X, Y. unfold clamp, Rmax, Rmin in X, Y.
      destruct Pr as (PX & PY). split.
      * destruct (Rle_dec (px p) (x_max r)); destruct (Rle_dec (x_min r) _); lra.
      * destruct (Rle_dec (py p) (y_max r)); destruct (Rle_dec (y_min r) _); lra.
    + intros q (Iq & _). apply nearest_best. exact Iq.
Qed.
(** the interior case is not squared *)
Lemma r_sqdist_border_not_squared : exists r p d m,
  proper r /\ r_sqdist_border r p = (Interior, d) /\ distance_to (rect_border r) p m /\ d <> m * m
  /\ r_dist_border r p <> (Interior, m).
Proof.
  exists (Rc 0 0 4 4), (Pt 2 2).
  pose proof (r_sqdist_border_ok (Rc 0 0 4 4) (Pt 2 2)) as H.
  assert (Pr : proper (Rc 0 0 4 4)) by (split; simpl; lra). specialize (H Pr).
  assert (E : r_sqdist_border (Rc 0 0 4 4) (Pt 2 2) = (Interior, 2)).
  { unfold r_sqdist_border.
    replace (rp_collides (Rc 0 0 4 4) (Pt 2 2)) with true by (symmetry; apply rp_collides_iff; split; simpl; lra).
    cbn [px py x_min x_max y_min y_max]. unr.
    replace (Rabs (2 - 0)) with 2 by (rewrite Rabs_pos_eq; lra).
    replace (Rabs (2 - 4)) with 2 by (rewrite Rabs_left; lra).
    repeat match goal with |- context [if ?b then 2 else 2] => replace (if b then 2 else 2) with 2 by (destruct b; reflexivity) end.
    reflexivity. }
  rewrite E in H. destruct H as (_ & H).
  exists 2, 2. split; [exact Pr|]. split; [exact E|]. split; [exact H|]. split; [lra|].
  unfold r_dist_border. rewrite E. unr. intros Q. injection Q as Q.
  assert (S : sqrt 2 * sqrt 2 = 2) by (apply sqrt_sqrt; lra). rewrite Q in S. lra.
Qed.
