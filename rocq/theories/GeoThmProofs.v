(** Statements about the primitives in the form of the property file, and examples. *)
From Coq Require Import Reals List Bool Lra Psatz Lia.
From Verif Require Import Base Num GeoModel HazardModel QTModel BaseProofs QTProofs
  GeoSpec ParityProofs GeoPrimProofs GeoRectProofs PipProofs.
Import ListNotations.
Local Open Scope R_scope.
#[local] Existing Instance RNum.

(** *** segments *)
Lemma seg_exact : forall e f, edet e f <> 0 ->
  (ee_collides e f = true <-> touch e f) /\
  (forall p, e_collides_at e f = Some p <-> on_seg e p /\ on_seg f p).
Proof.
  intros e f D. split; [rewrite ee_collides_iff; tauto|]. intros p. split.
  - intros H. apply ei_sound in H. tauto.
  - intros (A & B). apply ei_complete; assumption.
Qed.
Lemma seg_parallel : forall e f, edet e f = 0 -> ee_collides e f = false /\ e_collides_at e f = None.
Proof.
  intros e f D. unfold e_collides_at, ee_collides. destruct (edge_intersection e f) as [p|] eqn:E; auto.
  apply ei_sound in E. tauto.
Qed.
Lemma edet_rev_r : forall e f, edet e (e_reverse f) = - edet e f.
Proof. intros [[a b] [c d]] [[a' b'] [c' d']]. unfold edet; simpl. ring. Qed.
Lemma edet_rev_l : forall e f, edet (e_reverse e) f = - edet e f.
Proof. intros [[a b] [c d]] [[a' b'] [c' d']]. unfold edet; simpl. ring. Qed.
Lemma at_ext : forall e f e' f', (edet e f = 0 <-> edet e' f' = 0) ->
  (forall p, on_seg e p /\ on_seg f p <-> on_seg e' p /\ on_seg f' p) -> e_collides_at e f = e_collides_at e' f'.
Proof.
  intros e f e' f' D H. destruct (Req_dec (edet e f) 0) as [Z|Z].
  - destruct (seg_parallel e f Z) as (_ & ->). destruct (seg_parallel e' f') as (_ & ->); [tauto|reflexivity].
  - destruct (seg_exact e f Z) as (_ & A). destruct (seg_exact e' f') as (_ & B); [tauto|].
    destruct (e_collides_at e f) as [p|] eqn:E.
    + symmetry. apply B, H, A. reflexivity.
    + destruct (e_collides_at e' f') as [p|] eqn:E'; [|reflexivity].
      assert (K : None = Some p) by (apply A, H, B; reflexivity). discriminate K.
Qed.
Lemma seg_order : forall e f,
  e_collides_at e f = e_collides_at f e /\ e_collides_at e f = e_collides_at (e_reverse e) f /\
  e_collides_at e f = e_collides_at e (e_reverse f) /\
  ee_collides e f = ee_collides f e /\ ee_collides e f = ee_collides (e_reverse e) f /\
  ee_collides e f = ee_collides e (e_reverse f).
Proof.
  intros e f.
  assert (A : e_collides_at e f = e_collides_at f e).
  { apply at_ext; [rewrite (edet_swap e f); lra|]. tauto. }
  assert (R : forall e p, on_seg e p <-> on_seg (e_reverse e) p).
  { intros [a b] p. split; apply on_seg_rev. }
  assert (B : e_collides_at e f = e_collides_at (e_reverse e) f).
  { apply at_ext; [rewrite edet_rev_l; lra|]. intros p. rewrite (R e p). tauto. }
  assert (C : e_collides_at e f = e_collides_at e (e_reverse f)).
  { apply at_ext; [rewrite edet_rev_r; lra|]. intros p. rewrite (R f p). tauto. }
  unfold ee_collides. unfold e_collides_at in *. rewrite <- A, <- B, <- C. tauto.
Qed.
Lemma ex_seg : let e := Ed (Pt 0 0) (Pt 2 2) in let f := Ed (Pt 0 2) (Pt 2 0) in let g := Ed (Pt 1 1) (Pt 5 1) in
  edet e f <> 0 /\ e_collides_at e f = Some (Pt 1 1) /\ e_collides_at e g = Some (Pt 1 1) /\
  e_collides_at e (Ed (Pt 3 0) (Pt 3 9)) = None.
Proof.
  cbv zeta. split; [unfold edet; simpl; lra|]. split; [|split].
  - apply ei_complete; [unfold edet; simpl; lra| |]; exists (1/2); split; try lra; apply pt_ext; simpl; lra.
  - apply ei_complete; [unfold edet; simpl; lra| |]; [exists (1/2)|exists 0]; split; try lra; apply pt_ext; simpl; lra.
  - destruct (e_collides_at _ _) as [p|] eqn:E; [|reflexivity]. apply ei_sound in E as ((t & T & ->) & (u & U & E) & _).
    injection E as E1 E2. simpl in *. lra.
Qed.
(** overlapping collinear segments share points but are not reported *)
Lemma seg_collinear : exists e f : redge, es e <> ee e /\ es f <> ee f /\ touch e f /\ ee_collides e f = false.
Proof.
  exists (Ed (Pt 0 0) (Pt 2 0)), (Ed (Pt 1 0) (Pt 3 0)). split; [intros H; injection H; lra|].
  split; [intros H; injection H; lra|]. split.
  - exists (Pt 1 0). split; [exists (1/2)|exists 0]; split; try lra; apply pt_ext; simpl; lra.
  - apply seg_parallel. unfold edet; simpl; lra.
Qed.

(** *** overlap tests *)
Lemma rect_tests : forall r, proper r ->
  (forall e, re_collides r e = true <-> exists p, in_rect r p /\ on_seg e p) /\
  (forall r', proper r' -> (rr_collides r r' = true <-> exists p, in_rect r p /\ in_rect r' p)) /\
  (forall p, rp_collides r p = true <-> in_rect r p).
Proof.
  intros r Pr. split; [|split].
  - intros e. rewrite re_collides_iff by exact Pr. split; intros (p & A & B); eauto.
  - intros r' Pr'. apply rr_collides_iff; apply proper_nonempty; assumption.
  - apply rp_collides_iff.
Qed.
Lemma circle_tests : forall c, 0 <= crad c ->
  (forall e, ce_collides c e = true <-> exists p, in_disk c p /\ on_seg e p) /\
  (forall r, proper r -> (cr_collides c r = true <-> exists p, in_disk c p /\ in_rect r p)) /\
  (forall c', 0 <= crad c' -> (cc_collides c c' = true <-> exists p, in_disk c p /\ in_disk c' p)) /\
  (forall p, cp_collides c p = true <-> in_disk c p).
Proof.
  intros c H. split; [|split; [|split]].
  - intros e. apply ce_collides_iff; exact H.
  - intros r Pr. apply cr_collides_iff; [exact H|apply proper_nonempty; exact Pr].
  - intros c' H'. apply cc_collides_iff; assumption.
  - intros p. apply cp_collides_iff; exact H.
Qed.
(** a segment that passes through the rectangle without an end point inside, one
    that misses a corner, a circle that touches the corner from outside *)
Lemma ex_tests : let r := Rc 0 0 4 4 in
  proper r /\ re_collides r (Ed (Pt (-1) 3) (Pt 3 7)) = true /\ re_collides r (Ed (Pt (-1) 4) (Pt 3 8)) = false /\
  cr_collides (Ci (Pt 7 8) 5) r = true /\ cr_collides (Ci (Pt 7 8) 4) r = false.
Proof.
  cbv zeta. assert (Pr : proper (Rc 0 0 4 4)) by (split; simpl; lra). split; [exact Pr|].
  assert (N : nonempty_rect (Rc 0 0 4 4)) by (apply proper_nonempty; exact Pr).
  split; [|split; [|split]].
  - apply re_collides_iff; [exact Pr|]. exists (Pt 0 4). split; [exists (1/4); split; [lra|]; apply pt_ext; simpl; lra|].
    split; simpl; lra.
  - destruct (re_collides _ _) eqn:E; [|reflexivity]. apply re_collides_iff in E as (p & (t & T & ->) & (X & Y)); [|exact Pr].
    unfold at_t in X, Y; simpl in X, Y. lra.
  - unfold cr_collides. unr. simpl. apply Rleb_spec. rewrite !Rmin_right by lra. rewrite !Rmax_right by lra. lra.
  - unfold cr_collides. unr. simpl. apply Rleb_nspec. rewrite !Rmin_right by lra. rewrite !Rmax_right by lra. lra.
Qed.

(** *** rectangles *)
Lemma quadrants_ok : forall r, proper r ->
  (forall i, (i < 4)%nat -> proper (q4get (quadrants r) i)) /\
  (forall p, in_rect r p <-> exists i, (i < 4)%nat /\ in_rect (q4get (quadrants r) i) p) /\
  (forall i j p, (i < 4)%nat -> (j < 4)%nat -> i <> j -> in_rect (q4get (quadrants r) i) p ->
     in_rect (q4get (quadrants r) j) p -> rect_border (q4get (quadrants r) i) p /\ rect_border (q4get (quadrants r) j) p) /\
  (forall i j, (i < 4)%nat -> (j < 4)%nat -> i <> j ->
     (share_side (q4get (quadrants r) i) (q4get (quadrants r) j) <->
      fst (quadrant_neighbors i) = j \/ snd (quadrant_neighbors i) = j)).
Proof.
  intros r Pr. split; [|split; [|split]].
  - intros i Hi. apply quad_i; assumption.
  - intros p. split; [apply quad_cover; exact Pr|]. intros (i & Hi & H). apply (quad_sub r i); assumption.
  - intros i j p Hi Hj N A B. split; (split; [assumption|]).
    + apply (quad_disjoint r j i); auto.
    + apply (quad_disjoint r i j); auto.
  - intros i j Hi Hj N. apply neighbors_ok; assumption.
Qed.
Lemma relation_exact : forall a b, proper a -> proper b ->
  almost_relation_to a b = relation_to a b /\
  match relation_to a b with
  | Disjoint => ~ exists p, in_rect a p /\ in_rect b p
  | Surrounding => forall p, in_rect b p -> in_rect a p
  | Enclosed => (forall p, in_rect a p -> in_rect b p) /\ exists p, in_rect b p /\ ~ in_rect a p
  | Intersecting => (exists p, in_rect a p /\ in_rect b p) /\
      (exists p, in_rect a p /\ ~ in_rect b p) /\ (exists p, in_rect b p /\ ~ in_rect a p)
  end.
Proof.
  intros a b A B. split; [apply almost_relation_exact|]. apply relation_to_ok; apply proper_nonempty; assumption.
Qed.
Lemma inflate_square : forall r, proper r ->
  let s := inflate_to_square r in
  proper s /\ r_width s = r_height s /\ r_centroid s = r_centroid r /\ (forall p, in_rect r p -> in_rect s p) /\
  (forall s', proper s' -> r_width s' = r_height s' -> (forall p, in_rect r p -> in_rect s' p) ->
     r_width s <= r_width s').
Proof.
  intros r Pr. cbv zeta. destruct (inflate_ok r (proper_nonempty r Pr)) as (A & B & C & D).
  split; [apply inflate_proper; exact Pr|]. split; [exact A|]. split; [exact B|]. split; [exact C|].
  intros s' P'. apply D. apply proper_nonempty; exact P'.
Qed.
Lemma from_intersection_ok : forall a b, proper a -> proper b ->
  match from_intersection a b with
  | Some r => proper r /\ forall p, in_rect r p <-> in_rect a p /\ in_rect b p
  | None => forall p, in_open_rect a p -> ~ in_open_rect b p
  end.
Proof.
  intros [ax ay aX aY] [bx by' bX bY] (A1 & A2) (B1 & B2). simpl in *. unfold from_intersection. cbn [x_min y_min x_max y_max]. unr.
  destruct (Rltb _ _) eqn:E1; cbn [andb].
  - apply Rltb_spec in E1. destruct (Rltb _ _) eqn:E2.
    + apply Rltb_spec in E2. split; [split; assumption|]. intros p. unfold in_rect. cbn [x_min y_min x_max y_max].
      unfold Rmax, Rmin. destruct (Rle_dec ax bx), (Rle_dec ay by'), (Rle_dec aX bX), (Rle_dec aY bY); lra.
    + apply Rltb_nspec in E2. intros p (X & Y) (X' & Y'). cbn [x_min y_min x_max y_max] in *.
      unfold Rmax, Rmin in E2. destruct (Rle_dec ay by'), (Rle_dec aY bY); lra.
  - apply Rltb_nspec in E1. intros p (X & Y) (X' & Y'). cbn [x_min y_min x_max y_max] in *.
    unfold Rmax, Rmin in E1. destruct (Rle_dec ax bx), (Rle_dec aX bX); lra.
Qed.
Lemma bounding_ok : forall a b, proper a -> proper b ->
  let r := bounding_rectangle a b in
  proper r /\ (forall p, in_rect a p \/ in_rect b p -> in_rect r p) /\
  (forall r', (forall p, in_rect a p \/ in_rect b p -> in_rect r' p) -> forall p, in_rect r p -> in_rect r' p).
Proof.
  intros [ax ay aX aY] [bx by' bX bY] (A1 & A2) (B1 & B2). simpl in *. cbv zeta. unfold bounding_rectangle. cbn [x_min y_min x_max y_max]. unr.
  assert (M : forall u v w, Rmin u v <= u /\ Rmin u v <= v /\ (w <= u -> w <= v -> w <= Rmin u v)).
  { intros u v w. unfold Rmin. destruct (Rle_dec u v); lra. }
  assert (X : forall u v w, u <= Rmax u v /\ v <= Rmax u v /\ (u <= w -> v <= w -> Rmax u v <= w)).
  { intros u v w. unfold Rmax. destruct (Rle_dec u v); lra. }
  pose proof (M ax bx 0) as M1. pose proof (M ay by' 0) as M2. pose proof (X aX bX 0) as X1. pose proof (X aY bY 0) as X2.
  split; [split; simpl; lra|]. split.
  - intros p [(P & Q)|(P & Q)]; simpl in *; split; simpl; lra.
  - intros r' H p (P & Q). simpl in P, Q.
    assert (H1 : in_rect r' (Pt ax ay)) by (apply H; left; split; simpl; lra).
    assert (H2 : in_rect r' (Pt aX aY)) by (apply H; left; split; simpl; lra).
    assert (H3 : in_rect r' (Pt bx by')) by (apply H; right; split; simpl; lra).
    assert (H4 : in_rect r' (Pt bX bY)) by (apply H; right; split; simpl; lra).
    destruct H1 as (H1 & H1'), H2 as (H2 & H2'), H3 as (H3 & H3'), H4 as (H4 & H4'). simpl in *.
    pose proof (proj2 (proj2 (M ax bx (x_min r'))) ltac:(lra) ltac:(lra)).
    pose proof (proj2 (proj2 (M ay by' (y_min r'))) ltac:(lra) ltac:(lra)).
    pose proof (proj2 (proj2 (X aX bX (x_max r'))) ltac:(lra) ltac:(lra)).
    pose proof (proj2 (proj2 (X aY bY (y_max r'))) ltac:(lra) ltac:(lra)).
    split; lra.
Qed.
Lemma ex_rects : let r := Rc 0 0 4 2 in
  proper r /\ relation_to r (Rc 1 1 2 2) = Surrounding /\ relation_to r (Rc (-1) 0 4 2) = Enclosed /\
  relation_to r (Rc 4 2 5 3) = Intersecting /\ relation_to r (Rc 5 0 6 2) = Disjoint /\
  q4get (quadrants r) 1 = Rc 0 1 2 2 /\ inflate_to_square r = Rc 0 (-1) 4 3 /\
  from_intersection r (Rc 3 1 9 9) = Some (Rc 3 1 4 2).
Proof.
  cbv zeta. assert (Pr : proper (Rc 0 0 4 2)) by (split; simpl; lra). split; [exact Pr|].
  assert (T : forall a b : R, a <= b -> Rleb a b = true) by (intros; apply Rleb_spec; assumption).
  assert (F : forall a b : R, b < a -> Rleb a b = false) by (intros; apply Rleb_nspec; lra).
  unfold relation_to, rr_collides. cbn [x_min y_min x_max y_max]. unr.
  split; [|split; [|split; [|split; [|split; [|split]]]]].
  1-4: unfold Rmax, Rmin; repeat (destruct (Rle_dec _ _); try lra); rewrite ?T by lra; cbn [andb];
       rewrite ?F by lra; rewrite ?T by lra; cbn [andb]; rewrite ?F by lra; rewrite ?T by lra; reflexivity.
  - rewrite quadrants_eq by exact Pr. unfold mid_x, mid_y. simpl. f_equal; lra.
  - unfold inflate_to_square. cbn [x_min y_min x_max y_max]. unr.
    rdestr (2 - 0) (4 - 0); [|lra]. f_equal; lra.
  - unfold from_intersection. cbn [x_min y_min x_max y_max]. unr.
    unfold Rmax, Rmin. destruct (Rle_dec 0 3), (Rle_dec 4 9), (Rle_dec 0 1), (Rle_dec 2 9); try lra.
    rdestr 3 4; [|lra]. rdestr 1 2; [|lra]. reflexivity.
Qed.

(** *** distances *)
Lemma distances : forall p,
  (forall e, distance_to (on_seg e) p (e_dist e p) /\ e_sqdist e p = e_dist e p * e_dist e p /\
     on_seg e (closest_point_on_edge e p) /\ edist p (closest_point_on_edge e p) = e_dist e p) /\
  (forall r, proper r -> distance_to (in_rect r) p (r_dist r p) /\ r_sqdist r p = r_dist r p * r_dist r p) /\
  (forall c, 0 <= crad c -> distance_to (in_disk c) p (cp_dist c p)) /\
  (forall q, pt_dist p q = edist p q /\ pt_sqdist p q = edist p q * edist p q).
Proof.
  intros p. split; [|split; [|split]].
  - intros e. destruct (closest_ok e p) as (A & B).
    assert (E : e_dist e p = edist p (closest_point_on_edge e p)).
    { unfold e_dist. rewrite e_sqdist_ok. unr. apply sqrt_square. apply edist_nonneg. }
    split; [apply e_dist_ok|]. split; [rewrite E; apply e_sqdist_ok|]. split; [exact A|symmetry; exact E].
  - intros r Pr. apply proper_nonempty in Pr. split; [apply r_dist_ok; exact Pr|].
    assert (E : r_dist r p = edist p (nearest r p)).
    { unfold r_dist. rewrite r_sqdist_ok by exact Pr. unr. apply sqrt_square. apply edist_nonneg. }
    rewrite E. apply r_sqdist_ok. exact Pr.
  - intros c H. apply cp_dist_ok. exact H.
  - intros q. split; [apply pt_dist_ok|apply pt_sqdist_ok].
Qed.
Lemma ex_dist : e_dist (Ed (Pt 0 0) (Pt 0 5)) (Pt 3 9) = 5 /\ closest_point_on_edge (Ed (Pt 0 0) (Pt 0 5)) (Pt 3 9) = Pt 0 5
  /\ r_dist (Rc 0 0 4 4) (Pt 7 8) = 5.
Proof.
  assert (S : sqrt (3 * 3 + 4 * 4) = 5) by (replace (3 * 3 + 4 * 4) with (5 * 5) by ring; apply sqrt_square; lra).
  assert (C : closest_point_on_edge (Ed (Pt 0 0) (Pt 0 5)) (Pt 3 9) = Pt 0 5).
  { unfold closest_point_on_edge. cbn [px py es ee]. unr. 
    replace (Reqb ((0 - 0) * (0 - 0) + (5 - 0) * (5 - 0)) 0) with false by (symmetry; apply Reqb_nspec; lra).
    replace (((3 - 0) * (0 - 0) + (9 - 0) * (5 - 0)) / ((0 - 0) * (0 - 0) + (5 - 0) * (5 - 0))) with (9/5) by field.
    rdestr (9/5) 0; [lra|]. rdestr 1 (9/5); [|lra]. reflexivity. }
  split; [|split; [exact C|]].
  - unfold e_dist, e_sqdist. rewrite C. cbn [px py]. unr. transitivity (sqrt (3 * 3 + 4 * 4)); [f_equal; lra|exact S].
  - unfold r_dist, r_sqdist. cbn [px py x_min y_min x_max y_max]. unr.
    rdestr 7 0; [lra|]. rdestr 4 7; [|lra]. rdestr 8 0; [lra|]. rdestr 4 8; [|lra].
    rewrite Rabs_pos_eq by lra. transitivity (sqrt (3 * 3 + 4 * 4)); [f_equal; lra|exact S].
Qed.

(** *** point in polygon *)
Lemma pip_even_odd : forall (s : poly R) p, sound_poly s -> ~ on_border (p_pts s) p ->
  pp_collides s p = Ok (even_odd (p_pts s) p).
Proof. intros s p (W & B). apply pip; [apply wf_ring; exact W|exact B]. Qed.
Lemma pip_listing : forall (s s' : poly R) p, sound_poly s -> sound_poly s' ->
  (exists l1 l2, p_pts s = l1 ++ l2 /\ (p_pts s' = l2 ++ l1 \/ p_pts s' = rev (l2 ++ l1))) ->
  ~ on_border (p_pts s) p -> pp_collides s p = pp_collides s' p.
Proof.
  intros s s' p W W' (l1 & l2 & E & E') N.
  assert (K : on_border (p_pts s') p <-> on_border (p_pts s) p).
  { rewrite E. destruct E' as [-> | ->]; [|rewrite on_border_rev]; apply on_border_rotate. }
  rewrite (pip_even_odd s p W N), (pip_even_odd s' p W') by tauto. f_equal. rewrite E.
  destruct E' as [-> | ->]; [|rewrite even_odd_rev]; apply even_odd_rotate.
Qed.
(** a non-convex polygon; the ray from (1,1) runs through the vertex (2,1) *)
Definition ex_arrow : poly R :=
  Poly [Pt 0 0; Pt 4 0; Pt 2 1; Pt 4 2; Pt 0 2] (Rc 0 0 4 2) 0 0 (Ci (Pt 1 1) 1) None.
Lemma not_border : forall l p, (forall e, In e (ring l) -> forall t, 0 <= t <= 1 -> p <> at_t e t) -> ~ on_border l p.
Proof. intros l p H (e & He & (t & Ht & E)). exact (H e He t Ht E). Qed.
Lemma ex_arrow_ok : sound_poly ex_arrow /\
  pp_collides ex_arrow (Pt 1 1) = Ok true /\ pp_collides ex_arrow (Pt 3 1) = Ok false.
Proof.
  assert (S : sound_poly ex_arrow).
  { split.
    - intros e He. simpl in He. repeat (destruct He as [<-|He]; [intros Q; injection Q; intros; lra|]). destruct He.
    - split; [split; simpl; lra|]. simpl. intros v H. repeat (destruct H as [<-|H]; [split; simpl; lra|]). destruct H. }
  assert (B : forall x, x = 1 \/ x = 3 -> ~ on_border (p_pts ex_arrow) (Pt x 1)).
  { intros x Hx. apply not_border. intros e He t Ht Q. simpl in He.
    repeat (destruct He as [<-|He]; [injection Q; simpl; intros; lra|]). destruct He. }
  split; [exact S|]. split; (rewrite pip_even_odd; [|exact S|apply B; auto]); f_equal;
    unfold even_odd, parity, crosses, straddles, cross_x; simpl.
  all: repeat match goal with |- context [Rltb ?a ?b] => rdestr a b; try lra; try (exfalso; simpl in *; lra) end.
  all: reflexivity.
Qed.
