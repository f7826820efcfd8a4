(** A square of side 4: the constructor and the surrogate generator succeed on it. *)
From Coq Require Import Reals List Bool Arith Lra Lia Psatz.
From Verif Require Import Base Num GeoModel HazardModel QTModel TransfModel PolyModel GeoSpec ShapeSpec
  BaseProofs QTProofs ParityProofs GeoPrimProofs GeoRectProofs PipProofs RegionProofs RigidProofs NormProofs HullProofs BoundProofs PoleProofs ConstructProofs.
Import ListNotations.
Local Open Scope R_scope.
#[local] Existing Instance RNum.
#[local] Existing Instance RTrig.

Definition square : list rpoint := [Pt 0 0; Pt 4 0; Pt 4 4; Pt 0 4].
Lemma square_nodup : NoDup square.
Proof. unfold square. repeat constructor; cbn [In]; intros H; repeat (destruct H as [H|H]; [injection H; intros; lra|]); exact H. Qed.
Lemma square_area : shoelace square = 16.
Proof. unfold shoelace, total, square, ring; cbn. lra. Qed.
Lemma square_box : smallest_box (Rc 0 0 4 4) square.
Proof.
  unfold smallest_box, in_rect. cbn [x_min x_max y_min y_max]. split; [|split; [|split; [|split]]].
  - intros p H. unfold square in H; cbn [In] in H. repeat (destruct H as [<-|H]; [cbn; lra|]). destruct H.
  - exists (Pt 0 0). unfold square; cbn; tauto.
  - exists (Pt 4 0). unfold square; cbn; tauto.
  - exists (Pt 0 0). unfold square; cbn; tauto.
  - exists (Pt 4 4). unfold square; cbn; tauto.
Qed.
Lemma square_border : forall p, on_border square p -> px p = 0 \/ px p = 4 \/ py p = 0 \/ py p = 4.
Proof.
  intros p (e & He & (t & Ht & ->)). unfold square, ring in He. cbn [path_edges In] in He.
  repeat (destruct He as [<-|He]; [unfold at_t; cbn; lra|]). destruct He.
Qed.
Lemma square_clear : clear_of square [] (Pt 2 2) 2.
Proof.
  split; [|split; [|intros k []]].
  - unfold even_odd, square, parity, ring. cbn [path_edges fold_right]. rewrite !crosses_sign. unfold cp. cbn [px py es ee]. rcmp. reflexivity.
  - intros q O. pose proof (edist_coord (Pt 2 2) q) as (X & Y). cbn [px py] in X, Y.
    destruct (square_border q O) as [H|[H|[H|H]]]; rewrite H in *; revert X Y; unfold Rabs; repeat destruct Rcase_abs; lra.
Qed.
Lemma square_resolution : resolution (Rc 0 0 4 4) MAX_POI_TREE_DEPTH < 1 / 100.
Proof.
  unfold resolution, MAX_POI_TREE_DEPTH. cbn [x_min x_max y_min y_max pow]. rewrite Rmax_left by lra.
  assert (sqrt 2 < 2); [|lra]. rewrite <- (sqrt_square 2) at 2 by lra. apply sqrt_lt_1; lra.
Qed.
Lemma square_new : exists s, poly_new square = Ok s /\ p_pts s = square.
Proof.
  pose proof square_resolution as Q.
  destruct (new_works square (Rc 0 0 4 4) (Pt 2 2) 2) as (s & E); auto using square_nodup, square_box, square_clear; try (rewrite square_area; lra); try lra; [cbn; lia|].
  exists s. split; [exact E|]. destruct (poly_new_ok _ _ E) as (_ & [(H & _)|(_ & H)] & _); [exact H|]. rewrite square_area in H. lra.
Qed.
Lemma square_hull : convex_hull square = square.
Proof.
  unfold convex_hull.
  assert (S : sort_by (@px R) square = [Pt 0 0; Pt 0 4; Pt 4 0; Pt 4 4]).
  { unfold sort_by, square. cbn [fold_left insert_by px flt RNum RNumT]. rcmp. reflexivity. }
  rewrite S.
  assert (L : half_hull [Pt 0 0; Pt 0 4; Pt 4 0; Pt 4 4] = [Pt 4 4; Pt 4 0; Pt 0 0]).
  { unfold half_hull. cbn [fold_left]. rgrow. reflexivity. }
  assert (U : half_hull (rev [Pt 0 0; Pt 0 4; Pt 4 0; Pt 4 4]) = [Pt 0 0; Pt 0 4; Pt 4 4]).
  { unfold half_hull. cbn [rev app fold_left]. rgrow. reflexivity. }
  rewrite L, U. reflexivity.
Qed.
Lemma pt_eq_no : forall p q, p <> q -> pt_eq p q = false.
Proof. intros p q H. destruct (pt_eq p q) eqn:E; [apply pt_eq_ok in E; contradiction|reflexivity]. Qed.
Lemma square_indices : convex_hull_indices square = Ok [0; 1; 2; 3]%nat.
Proof.
  unfold convex_hull_indices. rewrite square_hull. unfold square. cbn [rmapM position].
  repeat match goal with |- context [pt_eq ?p ?p] => replace (pt_eq p p) with true by (symmetry; apply pt_eq_ok; reflexivity) end.
  repeat match goal with |- context [pt_eq ?p ?q] => rewrite (pt_eq_no p q) by (intros E; injection E; intros; lra) end.
  reflexivity.
Qed.
Lemma square_surrogate : forall cfg, exists s s', poly_new square = Ok s /\ generate_surrogate cfg (SC (9 / 10) 1 1 0) s = Ok s'.
Proof.
  intros cfg. destruct square_new as (s & E & Ep). exists s.
  unfold generate_surrogate, surrogate_new. rewrite Ep, square_indices. cbn [rbind].
  cbn [rmapM nth_error square expect rbind]. change [Pt 0 0; Pt 4 0; Pt 4 4; Pt 0 4] with square. rewrite E. cbn [rbind sc_max_poles Nat.sub].
  unfold additional_poles. cbn [more_poles rbind tl length sort_poles]. unfold bounding_circle. cbn [rfold rbind sc_nff_piers generate_piers].
  eexists. split; reflexivity.
Qed.
Lemma square_made : exists s, poly_new square = Ok s /\ p_pts s = square /\ made s /\ sound_poly s /\ p_pts s <> [].
Proof.
  destruct square_new as (s & E & Ep). exists s. destruct (new_made _ _ E) as (M & _). destruct (made_sound s M). auto.
Qed.
Lemma square_fits : (3 <= length square)%nat /\ NoDup square /\ shoelace square <> 0 /\ smallest_box (Rc 0 0 4 4) square /\
  clear_of square [] (Pt 2 2) 2 /\ resolution (Rc 0 0 4 4) MAX_POI_TREE_DEPTH < 2.
Proof.
  pose proof square_resolution. rewrite square_area.
  split; [cbn; lia|]. split; [exact square_nodup|]. split; [lra|]. split; [exact square_box|]. split; [exact square_clear|lra].
Qed.
