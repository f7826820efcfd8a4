(** More about simple polygons: reversal, spikes, points beside the border, and the
    interior of the simplified polygon. *)
From Coq Require Import Reals List Bool Arith Lra Lia Psatz Permutation.
From Verif Require Import Base Num GeoModel HazardModel QTModel TransfModel PolyModel GeoSpec ShapeSpec SimplModel SimplSpec SimpleSpec
  ParityProofs CrossProofs GeoPrimProofs NormProofs GeoRectProofs RegionProofs PipProofs PierProofs ConstructProofs SimplProofs SimpleProofs OrientProofs SlabProofs
  TriangleProofs DropProofs MergeProofs RoundProofs.
Import ListNotations.
Local Open Scope R_scope.
#[local] Existing Instance RNum.

Lemma simple_rev : forall l, simple l -> simple (rev l).
Proof.
  intros l (L & D & S0). split; [rewrite rev_length; exact L|]. split; [apply NoDup_rev, D|].
  intros e f p He Hf O1 O2. apply (Permutation_in _ (ring_rev l)) in He, Hf. apply in_map_iff in He as ([a b] & <- & He). apply in_map_iff in Hf as ([c d] & <- & Hf).
  unfold e_reverse in *; cbn [es ee] in *. apply on_seg_rev in O1, O2.
  destruct (S0 _ _ p He Hf O1 O2) as [E|[(E1 & E2)|(E1 & E2)]]; cbn [es ee] in *; [left; congruence|right; right; auto|right; left; auto].
Qed.
Lemma region_rev : forall l q, region (rev l) q <-> region l q.
Proof. intros l q. unfold region. rewrite on_border_rev, even_odd_rev. tauto. Qed.
Lemma interior_rev : forall l q, interior (rev l) q <-> interior l q.
Proof. intros l q. unfold interior. rewrite on_border_rev, even_odd_rev. tauto. Qed.
Lemma simple_spikes : forall l, simple l -> no_spikes l.
Proof.
  intros l Sl [u v] [v' w] He Hf E D. cbn [es ee] in E. subst v'.
  assert (T : turn u v w = 0) by (unfold edet, turn in *; cbn [es ee] in *; lra).
  destruct (straight_on l u v w Sl He Hf T) as (m & Hm & Ex & Ey). unfold edot; cbn [es ee]. rewrite Ex, Ey.
  pose proof (edet_ne _ (simple_ne l _ Sl He)) as L. cbn [es ee] in L.
  replace (_ + _) with (m * ((px v - px u) ^ 2 + (py v - py u) ^ 2)) by ring. apply Rmult_lt_0_compat; assumption.
Qed.
Lemma simple_nondegenerate : forall l, simple l -> nondegenerate l.
Proof. intros l Sl e He. exact (simple_ne l e Sl He). Qed.

(** *** beside the border *)
Lemma beside_seen : forall l e s eps, simple l -> In e (ring l) -> 0 < s < 1 -> 0 < eps ->
  exists h, 0 < h /\ edist (beside e s h) (at_t e s) < eps /\ edist (beside e s (- h)) (at_t e s) < eps /\ sees l e (beside e s h) /\ sees l e (beside e s (- h)).
Proof.
  intros l e s eps Sl He Hs Hp. destruct (tube_far l e Sl He s s Hs Hs) as (d & Hd & F).
  pose proof (edet_ne _ (simple_ne l e Sl He)) as Le.
  destruct (beside_small e (Rmin d eps)) as (h & Hh & B); [apply Rmin_glb_lt; assumption|]. destruct (B s) as (B1 & B2).
  pose proof (Rmin_l d eps). pose proof (Rmin_r d eps). exists h. split; [exact Hh|]. split; [lra|]. split; [lra|].
  assert (Z : forall t, at_t (Ed (at_t e s) (at_t e s)) t = at_t e s) by (intros t; rewrite at_t_at_t; f_equal; ring).
  assert (G : forall k, k <> 0 -> edist (beside e s k) (at_t e s) < d -> sees l e (beside e s k)).
  { intros k Nk Bk. exists (at_t e s), s. split; [exact Hs|]. split; [reflexivity|]. intros t Ht. apply (tube_clear l e He s s d F t); [lra| |].
    - apply edist_lin; [lra| |exact Bk]. rewrite edist_refl. exact Hd.
    - rewrite turn_lin, beside_turn. replace (turn (es e) (ee e) (at_t e s)) with 0 by (unfold turn, at_t; cbn [px py]; ring).
      intros E. assert (E' : t * (k * ((px (ee e) - px (es e)) ^ 2 + (py (ee e) - py (es e)) ^ 2)) = 0) by lra.
      apply Rmult_integral in E' as [E'|E']; [lra|]. apply Rmult_integral in E' as [E'|E']; [contradiction|lra]. }
  split; apply G; lra.
Qed.
Lemma sees_off : forall l e q, sees l e q -> ~ on_border l q.
Proof. intros l e q (z & s & _ & _ & V). specialize (V 1 ltac:(lra)). rewrite at_t_1 in V. exact V. Qed.
Lemma border_outside : forall l p eps, simple l -> on_border l p -> 0 < eps -> exists q, edist p q < eps /\ outside l q.
Proof.
  intros l p eps Sl (e & He & (t & Ht & ->)) Hp. assert (E : exists s, 0 < s < 1 /\ edist (at_t e t) (at_t e s) < eps / 2).
  { destruct (close_by (at_t e t) (at_t e (/ 2)) (eps / 2)) as (u & Hu & D); [lra|]. rewrite at_t_at_t in D.
    set (u' := u / 2). exists (t + u' * (/ 2 - t)). split; [unfold u'; nra|]. rewrite edist_sym in D. rewrite edist_at in D |- *.
    eapply Rle_lt_trans; [|exact D]. apply Rmult_le_compat_r; [apply edist_nonneg|]. unfold u'.
    replace (t - (t + u / 2 * (/ 2 - t))) with (/ 2 * (t - (t + u * (/ 2 - t)))) by field. rewrite Rabs_mult, (Rabs_pos_eq (/ 2)) by lra.
    pose proof (Rabs_pos (t - (t + u * (/ 2 - t)))). lra. }
  destruct E as (s & Hs & Ds). destruct (beside_seen l e s (eps / 2) Sl He Hs) as (h & Hh & B1 & B2 & V1 & V2); [lra|].
  destruct (edge_sides l e Sl He) as (c & Sc). pose proof (edet_ne _ (simple_ne l e Sl He)) as Le.
  assert (T1 : 0 < turn (es e) (ee e) (beside e s h)) by (rewrite beside_turn; apply Rmult_lt_0_compat; assumption).
  assert (T2 : turn (es e) (ee e) (beside e s (- h)) < 0).
  { rewrite beside_turn. assert (0 < h * ((px (ee e) - px (es e)) ^ 2 + (py (ee e) - py (es e)) ^ 2)) by (apply Rmult_lt_0_compat; assumption). lra. }
  assert (E1 := proj1 (Sc _ V1) T1). assert (E2 := proj2 (Sc _ V2) T2).
  assert (Tri : forall x, edist x (at_t e s) < eps / 2 -> edist (at_t e t) x < eps).
  { intros x Dx. pose proof (edist_tri (at_t e t) (at_t e s) x). rewrite (edist_sym x) in Dx. lra. }
  destruct c; cbn in E1, E2.
  - exists (beside e s (- h)). split; [apply Tri, B2|]. split; [apply (sees_off l e), V2|exact E2].
  - exists (beside e s h). split; [apply Tri, B1|]. split; [apply (sees_off l e), V1|exact E1].
Qed.
Lemma interior_ball : forall l p, interior l p -> exists d, 0 < d /\ forall q, edist p q < d -> interior l q.
Proof.
  intros l p (N & E). destruct (seg_sep_list (fun _ => False) (Ed p p) (ring l)) as (d & Hd & F).
  { intros f Hf. right. intros x O1 O2. apply seg_point in O1. subst x. apply N. exists f. auto. }
  exists d. split; [exact Hd|]. intros q Dq.
  assert (Off : forall x, on_seg (Ed p q) x -> ~ on_border l x).
  { intros x (t & Ht & ->) (f & Hf & O). destruct (F f Hf) as [[]|X]. specialize (X p (at_t (Ed p q) t) (on_seg_start (Ed p p)) O).
    rewrite <- (at_t_0 (Ed p q)) in X at 1. rewrite edist_at in X. cbn [es ee] in X. rewrite Rabs_left1 in X by lra. pose proof (edist_nonneg p q). nra. }
  split; [apply Off, on_seg_end|]. rewrite <- E. symmetry. apply even_odd_path, Off.
Qed.
Lemma interior_mono : forall o v p, simple v -> (forall q, region o q -> region v q) -> interior o p -> interior v p.
Proof.
  intros o v p Sv H I. destruct (interior_ball o p I) as (d & Hd & B).
  assert (Nb : ~ on_border v p).
  { intros O. destruct (border_outside v p d Sv O Hd) as (q & Dq & (N & E)). specialize (B q Dq). destruct (H q) as [X|X]; [right; apply B|contradiction|congruence]. }
  split; [exact Nb|]. destruct (H p) as [X|X]; [right; apply I|contradiction|exact X].
Qed.
(** built polygons *)
Lemma poly_simple : forall l s, poly_new l = Ok s -> simple l -> simple (p_pts s) /\ inside_left (p_pts s) /\ no_spikes (p_pts s).
Proof.
  intros l s H Sl. destruct (poly_new_ok _ _ H) as (Nm & Or & _).
  assert (S1 : simple (p_pts s)) by (destruct Or as [(-> & _)|(-> & _)]; [exact Sl|apply simple_rev, Sl]).
  split; [exact S1|]. split; [|apply simple_spikes, S1]. apply inside_is_left; [exact S1|]. rewrite <- (nm_area _ Nm). apply Nm.
Qed.
Lemma inside_right : forall l e q, simple l -> shoelace l < 0 -> In e (ring l) -> sees l e q ->
  (turn (es e) (ee e) q < 0 -> even_odd l q = true) /\ (0 < turn (es e) (ee e) q -> even_odd l q = false).
Proof.
  intros l e q Sl A He V. destruct (orientation l Sl) as ([] & Hc & A'); [lra|]. destruct (Hc e He q V) as (H1 & H2). auto.
Qed.
(** *** simplification *)
Lemma inflate_all : forall l s tol s', poly_new l = Ok s -> simple l -> simplify_shape s Inflate tol = Ok s' ->
  simple (p_pts s') /\ forall q, (region l q -> region (p_pts s') q) /\ (interior l q -> interior (p_pts s') q).
Proof.
  intros l s tol s' E Sl H. destruct (poly_simple l s E Sl) as (S1 & _). destruct (poly_new_ok _ _ E) as (Nm & Or & _).
  destruct (inflate_region tol s s' Nm S1 H) as (S2 & R2). split; [exact S2|].
  assert (Rl : forall q, region l q -> region (p_pts s) q) by (intros q Q; destruct Or as [(-> & _)|(-> & _)]; [exact Q|apply region_rev, Q]).
  intros q. split; [intros Q; apply R2, Rl, Q|]. intros I. apply (interior_mono l); [exact S2| |exact I]. intros x X. apply R2, Rl, X.
Qed.
Lemma deflate_all : forall l s tol s', poly_new l = Ok s -> simple l -> tol < 1 -> simplify_shape s Deflate tol = Ok s' ->
  simple (p_pts s') /\ forall q, (region (p_pts s') q -> region l q) /\ (interior (p_pts s') q -> interior l q).
Proof.
  intros l s tol s' E Sl Ht H. destruct (poly_simple l s E Sl) as (S1 & _). destruct (poly_new_ok _ _ E) as (Nm & Or & _).
  destruct (deflate_region tol s s' Nm S1 Ht H) as (S2 & R2). split; [exact S2|].
  assert (Rl : forall q, region (p_pts s) q -> region l q) by (intros q Q; destruct Or as [(E1 & _)|(E1 & _)]; rewrite E1 in Q; [exact Q|apply region_rev, Q]).
  intros q. split; [intros Q; apply Rl, R2, Q|]. intros I. apply (interior_mono (p_pts s')); [exact Sl| |exact I]. intros x X. apply Rl, R2, X.
Qed.
