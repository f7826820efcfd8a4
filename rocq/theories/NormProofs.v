(** Polygons are normalised on construction and stay so under rigid motion. *)
From Coq Require Import Reals List Bool Arith Lra Lia Psatz.
From Verif Require Import Base Num GeoModel HazardModel TransfModel PolyModel GeoSpec ShapeSpec PlaceSpec
  BaseProofs ParityProofs GeoPrimProofs GeoRectProofs PipProofs RigidProofs XformProofs.
Import ListNotations.
Local Open Scope R_scope.
#[local] Existing Instance RNum.

(** *** sums around the border *)
Lemma total_app : forall {A} (f : A -> R) l m, total f (l ++ m) = total f l + total f m.
Proof. intros A f l m. induction l as [|x l IH]; simpl; [lra|]. unfold total in *. rewrite IH. lra. Qed.
Lemma total_map : forall {A B} (g : A -> B) f l, total f (map g l) = total (fun x => f (g x)) l.
Proof. intros A B g f l. induction l as [|x l IH]; simpl; [reflexivity|]. unfold total in *. rewrite IH. reflexivity. Qed.
Lemma total_ext : forall {A} (f g : A -> R) l, (forall x, f x = g x) -> total f l = total g l.
Proof. intros A f g l H. induction l as [|x l IH]; simpl; [reflexivity|]. unfold total in *. rewrite IH, H. reflexivity. Qed.
Lemma total_add : forall {A} (f g : A -> R) l, total (fun x => f x + g x) l = total f l + total g l.
Proof. intros A f g l. induction l as [|x l IH]; simpl; [lra|]. unfold total in *. rewrite IH. lra. Qed.
Lemma total_scal : forall {A} (c : R) (f : A -> R) l, total (fun x => c * f x) l = c * total f l.
Proof. intros A c f l. induction l as [|x l IH]; simpl; [lra|]. unfold total in *. rewrite IH. lra. Qed.
Lemma total_path : forall (g : rpoint -> R) l first a,
  total (fun e => g (ee e) - g (es e)) (path_edges first a l) = g first - g a.
Proof. intros g l. induction l as [|b l IH]; intros first a; [cbn; lra|]. cbn [path_edges]. unfold total in *. cbn [fold_right es ee]. rewrite IH. lra. Qed.
Lemma total_ring : forall (g : rpoint -> R) l, total (fun e => g (ee e) - g (es e)) (ring l) = 0.
Proof. intros g [|a l]; [reflexivity|]. simpl. rewrite total_path. lra. Qed.

Definition crs (e : redge) : R := px (es e) * py (ee e) - px (ee e) * py (es e).
Lemma area_path : forall l acc first a, area_sum acc first (a :: l) =
  acc + total (fun e => area_term (es e) (ee e)) (path_edges first a l).
Proof.
  intros l. induction l as [|b l IH]; intros acc first a.
  - cbn. lra.
  - change (area_sum acc first (a :: b :: l)) with (area_sum (acc + area_term a b) first (b :: l)). rewrite IH.
    cbn [path_edges total fold_right es ee]. unfold total. lra.
Qed.
Lemma area_ok : forall l, calculate_area l = shoelace l.
Proof.
  intros [|a l].
  - unfold calculate_area, shoelace, fhalf, f2. cbn. lra.
  - unfold calculate_area. rewrite area_path. unfold shoelace. fold crs.
    replace (total (fun e => area_term (es e) (ee e)) (path_edges a a l)) with
      (total crs (ring (a :: l)) + total (fun e => - (px (ee e) * py (ee e)) - - (px (es e) * py (es e))) (ring (a :: l))).
    + rewrite (total_ring (fun p => - (px p * py p))). unfold fhalf, f2; cbn [fadd fmul fdiv f0 f1 RNum RNumT]. unfold crs. lra.
    + rewrite <- total_add. cbn [ring]. apply total_ext. intros e. unfold crs, area_term; cbn [fadd fsub fmul RNum RNumT]. ring.
Qed.

Lemma total_perm : forall {A} (f : A -> R) l l', Permutation.Permutation l l' -> total f l = total f l'.
Proof. intros A f l l' P. induction P; unfold total in *; simpl; lra. Qed.
Lemma shoelace_rev : forall l, shoelace (rev l) = - shoelace l.
Proof.
  intros l. unfold shoelace. rewrite (total_perm _ _ _ (ring_rev l)), total_map.
  rewrite (total_ext _ (fun e => -1 * (px (es e) * py (ee e) - px (ee e) * py (es e)))).
  - rewrite total_scal. lra.
  - intros e. unfold e_reverse; cbn [es ee]. ring.
Qed.
Lemma shoelace_rot : forall c s a b l, c * c + s * s = 1 -> shoelace (map (rot c s a b) l) = shoelace l.
Proof.
  intros c s a b l N. unfold shoelace. rewrite ring_map, total_map. f_equal.
  rewrite (total_ext _ (fun e => crs e + ((a * (s * px (ee e) + c * py (ee e)) - b * (c * px (ee e) - s * py (ee e)))
    - (a * (s * px (es e) + c * py (es e)) - b * (c * px (es e) - s * py (es e)))))).
  - rewrite total_add, (total_ring (fun p => a * (s * px p + c * py p) - b * (c * px p - s * py p))). unfold crs. lra.
  - intros e. unfold rot, emap, crs; cbn [px py es ee].
    transitivity ((c * c + s * s) * (px (es e) * py (ee e) - px (ee e) * py (es e)) +
      (a * (s * px (ee e) + c * py (ee e)) - b * (c * px (ee e) - s * py (ee e)) - (a * (s * px (es e) + c * py (es e)) - b * (c * px (es e) - s * py (es e))))).
    + ring.
    + rewrite N. ring.
Qed.

(** *** no duplicates *)
Lemma existsb_pt : forall p l, existsb (pt_eq p) l = true <-> In p l.
Proof.
  intros p l. rewrite existsb_exists. split.
  - intros (x & H & E). apply pt_eq_ok in E. subst. exact H.
  - intros H. exists p. split; [exact H|]. apply pt_eq_ok. reflexivity.
Qed.
Lemma unique_le : forall l seen, (unique_count seen l <= length l)%nat.
Proof. induction l as [|p l IH]; intros seen; simpl; [lia|]. destruct (existsb (pt_eq p) seen); [specialize (IH seen)|specialize (IH (p :: seen))]; lia. Qed.
Lemma unique_full : forall l seen, unique_count seen l = length l -> NoDup l /\ forall x, In x l -> ~ In x seen.
Proof.
  induction l as [|p l IH]; intros seen E; simpl in E; [split; [constructor|intros x []]|].
  destruct (existsb (pt_eq p) seen) eqn:X.
  - pose proof (unique_le l seen). lia.
  - injection E as E. destruct (IH _ E) as (N & D).
    assert (~ In p seen) by (intros K; apply existsb_pt in K; congruence).
    split.
    + constructor; [|exact N]. intros K. apply (D p K). left. reflexivity.
    + intros x [<-|K]; [assumption|]. intros L. apply (D x K). right. exact L.
Qed.
Lemma full_unique : forall l seen, NoDup l -> (forall x, In x l -> ~ In x seen) -> unique_count seen l = length l.
Proof.
  induction l as [|p l IH]; intros seen N D; simpl; [reflexivity|]. inversion N; subst.
  destruct (existsb (pt_eq p) seen) eqn:X; [apply existsb_pt in X; exfalso; apply (D p); [left; reflexivity|exact X]|].
  f_equal. apply IH; [assumption|]. intros x K [->|L]; [contradiction|]. apply (D x); [right; exact K|exact L].
Qed.

(** *** construction *)
Lemma poly_new_ok : forall l s, poly_new l = Ok s ->
  normalised s /\ ((p_pts s = l /\ 0 < shoelace l) \/ (p_pts s = rev l /\ shoelace l < 0)) /\ p_surr s = None.
Proof.
  intros l s E. unfold poly_new in E.
  destruct (Nat.leb 3 (length l)) eqn:L; [|discriminate]. apply Nat.leb_le in L. cbn [rassert rbind] in E.
  destruct (Nat.eqb (unique_count [] l) (length l)) eqn:U; [|discriminate]. apply Nat.eqb_eq in U. cbn [rassert rbind] in E.
  destruct (unique_full _ _ U) as (ND & _). rewrite area_ok in E. cbn [feq flt RNum RNumT f0] in E.
  destruct (Reqb (shoelace l) 0) eqn:Z; [discriminate|]. apply Reqb_nspec in Z.
  rdestr (shoelace l) 0.
  - destruct (calculate_diameter (rev l)) as [d|]; [|discriminate]. cbn [rbind] in E.
    destruct (calculate_poi (rev l) d) as [k|]; [|discriminate]. cbn [rbind] in E. injection E as <-.
    split; [|split; [right; split; [reflexivity|exact H]|reflexivity]].
    constructor; cbn [p_pts p_area p_bbox].
    + rewrite rev_length. exact L.
    + apply NoDup_rev. exact ND.
    + rewrite shoelace_rev. reflexivity.
    + cbn. lra.
    + apply bbox_ok. intros K. apply (f_equal (@length rpoint)) in K. rewrite rev_length in K. simpl in K. lia.
  - destruct (calculate_diameter l) as [d|]; [|discriminate]. cbn [rbind] in E.
    destruct (calculate_poi l d) as [k|]; [|discriminate]. cbn [rbind] in E. injection E as <-.
    split; [|split; [left; split; [reflexivity|lra]|reflexivity]].
    constructor; cbn [p_pts p_area p_bbox]; auto.
    + lra.
    + apply bbox_ok. intros ->. simpl in L. lia.
Qed.

(** *** rigid motion *)
Lemma NoDup_map_inj : forall {A B} (f : A -> B) l, (forall x y, f x = f y -> x = y) -> NoDup l -> NoDup (map f l).
Proof.
  intros A B f l I N. induction N as [|x l H N IH]; simpl; constructor; [|exact IH].
  intros K. apply in_map_iff in K. destruct K as (y & E & K). apply I in E. subst. contradiction.
Qed.
Lemma norm_map : forall t s b, rigid t -> normalised s -> p_pts b = map (tr_point t) (p_pts s) -> p_area b = p_area s ->
  p_bbox b = bbox_of_points (p_pts b) -> normalised b /\ congruent s b.
Proof.
  intros t s b Rg [A B C D E] P Ar Bx. split; [constructor|split].
  - rewrite P, map_length. exact A.
  - rewrite P, (tr_map t Rg). apply NoDup_map_inj; [|exact B]. apply rot_inj. exact (proj2 (proj2 Rg)).
  - rewrite Ar, C, P, (tr_map t Rg), shoelace_rot; [reflexivity|exact (proj2 (proj2 Rg))].
  - rewrite Ar. exact D.
  - rewrite Bx. apply bbox_ok. rewrite P. intros K. apply map_eq_nil in K. rewrite K in A. simpl in A. lia.
  - rewrite P, map_length. reflexivity.
  - intros i j p q p' q' H1 H2 H3 H4. rewrite P, nth_error_map in H3, H4. rewrite H1 in H3. rewrite H2 in H4.
    injection H3 as <-. injection H4 as <-. apply rigid_dist. exact Rg.
Qed.
Theorem norm_tr : forall t s, rigid t -> normalised s -> normalised (tr_poly t s) /\ congruent s (tr_poly t s).
Proof. intros t s Rg N. eapply norm_map; eauto; reflexivity. Qed.
Theorem norm_tr_from : forall t buf s b, rigid t -> normalised s -> length (p_pts buf) = length (p_pts s) ->
  p_area buf = p_area s -> tr_poly_from t buf s = Ok b -> normalised b /\ congruent s b.
Proof.
  intros t buf s b Rg N L Ar E. unfold tr_poly_from in E.
  rewrite zip_from_map in E by exact L.
  destruct (p_surr buf) as [u|]; [destruct (p_surr s) as [v|]; [|discriminate]|]; cbn [expect rbind] in E; injection E as <-;
    eapply norm_map; eauto; reflexivity.
Qed.
Lemma affine_rigid : forall t, affine t -> rigid t.
Proof. intros t H. exact (proj1 H). Qed.

(** *** the centroid moves along *)
Lemma centroid_path : forall l acc first a,
  centroid_sum acc first (a :: l) =
  (fst acc + total (fun e => (px (es e) + px (ee e)) * crs e) (path_edges first a l),
   snd acc + total (fun e => (py (es e) + py (ee e)) * crs e) (path_edges first a l)).
Proof.
  intros l. induction l as [|b l IH]; intros [u v] first a.
  - cbn. f_equal; unfold crs; cbn [es ee]; ring.
  - change (centroid_sum (u, v) first (a :: b :: l)) with
      (centroid_sum (u + fst (centroid_terms a b), v + snd (centroid_terms a b)) first (b :: l)).
    rewrite IH. cbn [fst snd path_edges total fold_right centroid_terms fadd fsub fmul RNum RNumT]. unfold total.
    f_equal; unfold crs at 2; cbn [es ee]; ring.
Qed.
Definition mx (l : list rpoint) : R := total (fun e => (px (es e) + px (ee e)) * crs e) (ring l).
Definition my (l : list rpoint) : R := total (fun e => (py (es e) + py (ee e)) * crs e) (ring l).
Lemma centroid_ok : forall s, p_centroid s = Pt (mx (p_pts s) / (6 * p_area s)) (my (p_pts s) / (6 * p_area s)).
Proof.
  intros s. unfold p_centroid, mx, my. destruct (p_pts s) as [|a l].
  - cbn [ring total fold_right]. unfold f6, f2; cbn [fadd fmul fdiv f0 f1 RNum RNumT]. repeat f_equal; ring.
  - rewrite centroid_path. unfold f6, f2; cbn [fst snd fadd fmul fdiv f0 f1 RNum RNumT ring]. rewrite !Rplus_0_l. repeat f_equal; ring.
Qed.
Lemma mx_rot : forall c s a b l, c * c + s * s = 1 ->
  mx (map (rot c s a b) l) = c * mx l - s * my l + 6 * shoelace l * a /\
  my (map (rot c s a b) l) = s * mx l + c * my l + 6 * shoelace l * b.
Proof.
  intros c s a b l N. unfold mx, my, shoelace. rewrite ring_map, !total_map. fold crs.
  set (X := fun p : rpoint => c * px p - s * py p). set (Y := fun p : rpoint => s * px p + c * py p).
  assert (C : forall e, crs (emap (rot c s a b) e) = crs e + (a * (Y (ee e) - Y (es e)) - b * (X (ee e) - X (es e)))).
  { intros e. unfold crs, emap, rot, X, Y; cbn [px py es ee].
    transitivity ((c * c + s * s) * (px (es e) * py (ee e) - px (ee e) * py (es e)) +
      (a * (s * px (ee e) + c * py (ee e) - (s * px (es e) + c * py (es e))) - b * (c * px (ee e) - s * py (ee e) - (c * px (es e) - s * py (es e))))); [ring|].
    rewrite N. ring. }
  assert (D : forall e, X (es e) * Y (ee e) - X (ee e) * Y (es e) = crs e).
  { intros e. unfold crs, X, Y. transitivity ((c * c + s * s) * (px (es e) * py (ee e) - px (ee e) * py (es e))); [ring|]. rewrite N. ring. }
  split.
  - rewrite (total_ext _ (fun e => (c * ((px (es e) + px (ee e)) * crs e) + - s * ((py (es e) + py (ee e)) * crs e) + 3 * a * crs e) +
      ((a * (X (ee e) * Y (ee e)) - b * (X (ee e) * X (ee e)) + 2 * a * (a * Y (ee e) - b * X (ee e))) -
       (a * (X (es e) * Y (es e)) - b * (X (es e) * X (es e)) + 2 * a * (a * Y (es e) - b * X (es e)))))).
    + rewrite total_add, (total_ring (fun p => a * (X p * Y p) - b * (X p * X p) + 2 * a * (a * Y p - b * X p))).
      rewrite !total_add, !total_scal. unfold crs at 3 6. fold (crs). unfold crs. lra.
    + intros e. rewrite C. unfold emap, rot; cbn [es ee px py].
      change (c * px (es e) - s * py (es e)) with (X (es e)). change (c * px (ee e) - s * py (ee e)) with (X (ee e)).
      replace (c * ((px (es e) + px (ee e)) * crs e) + - s * ((py (es e) + py (ee e)) * crs e)) with ((X (es e) + X (ee e)) * crs e) by (unfold X; ring).
      pose proof (D e) as De. nra.
  - rewrite (total_ext _ (fun e => (s * ((px (es e) + px (ee e)) * crs e) + c * ((py (es e) + py (ee e)) * crs e) + 3 * b * crs e) +
      ((- b * (X (ee e) * Y (ee e)) + a * (Y (ee e) * Y (ee e)) + 2 * b * (a * Y (ee e) - b * X (ee e))) -
       (- b * (X (es e) * Y (es e)) + a * (Y (es e) * Y (es e)) + 2 * b * (a * Y (es e) - b * X (es e)))))).
    + rewrite total_add, (total_ring (fun p => - b * (X p * Y p) + a * (Y p * Y p) + 2 * b * (a * Y p - b * X p))).
      rewrite !total_add, !total_scal. unfold crs. lra.
    + intros e. rewrite C. unfold emap, rot; cbn [es ee px py].
      change (s * px (es e) + c * py (es e)) with (Y (es e)). change (s * px (ee e) + c * py (ee e)) with (Y (ee e)).
      replace (s * ((px (es e) + px (ee e)) * crs e) + c * ((py (es e) + py (ee e)) * crs e)) with ((Y (es e) + Y (ee e)) * crs e) by (unfold Y; ring).
      pose proof (D e) as De. nra.
Qed.
Theorem centroid_tr : forall t s, rigid t -> normalised s -> p_centroid (tr_poly t s) = tr_point t (p_centroid s).
Proof.
  intros t s Rg Nm. rewrite (tr_rot t Rg), !centroid_ok. cbn [tr_poly p_pts p_area].
  rewrite (tr_map t Rg). destruct (mx_rot (m00 t) (m10 t) (m02 t) (m12 t) (p_pts s) (proj2 (proj2 Rg))) as (E & E').
  rewrite E, E'. rewrite <- (nm_area _ Nm). pose proof (nm_positive _ Nm).
  unfold rot; cbn [px py]. f_equal; field; lra.
Qed.
Theorem centred : forall s, normalised s -> p_centroid (fst (center_around_centroid s)) = Pt 0 0.
Proof.
  intros s Nm. unfold center_around_centroid; cbn [fst]. rewrite centroid_tr; [|apply affine_rigid, transl_affine|exact Nm].
  rewrite tr_transl. unfold shifted. cbn. f_equal; lra.
Qed.
