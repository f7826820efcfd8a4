(** Point in polygon: the ray casting of the code is the even-odd rule (exact
    arithmetic, points off the border). *)
From Coq Require Import Reals List Bool Lra Psatz Lia Permutation.
From Verif Require Import Base Num GeoModel HazardModel QTModel BaseProofs HazVecProofs QTProofs
  GeoSpec ParityProofs GeoPrimProofs GeoRectProofs.
Import ListNotations.
Local Open Scope R_scope.
#[local] Existing Instance RNum.

(** *** the edges of the model are the ring *)
Lemma pt_eq_ok : forall p q : rpoint, pt_eq p q = true <-> p = q.
Proof.
  intros p q. unfold pt_eq. unr. rewrite andb_true_iff, !Reqb_spec. split.
  - intros (A & B). apply pt_ext; assumption.
  - intros ->. auto.
Qed.
Lemma nth_ext2 : forall {A} (l l' : list A), (forall i, nth_error l i = nth_error l' i) -> l = l'.
Proof.
  induction l as [|x l IH]; intros [|y l'] H; [reflexivity|specialize (H 0%nat); discriminate..|].
  pose proof (H 0%nat) as H0. simpl in H0. injection H0 as ->. f_equal. apply IH. intros i. exact (H (S i)).
Qed.
Lemma path_length : forall l first a, length (path_edges first a l) = S (length l).
Proof. induction l as [|b l IH]; intros; simpl; [reflexivity|]. rewrite IH. reflexivity. Qed.
Lemma ring_length : forall l, length (ring l) = length l.
Proof. intros [|a l]; [reflexivity|]. apply path_length. Qed.
Lemma path_nth : forall l first a i, (i <= length l)%nat ->
  nth_error (path_edges first a l) i =
  Some (Ed (nth i (a :: l) a) (if Nat.eqb i (length l) then first else nth (S i) (a :: l) a)).
Proof.
  induction l as [|b l IH]; intros first a i Hi.
  - simpl in Hi. replace i with 0%nat by lia. reflexivity.
  - destruct i as [|i]; [reflexivity|]. cbn [path_edges nth_error]. rewrite IH by (simpl in Hi; lia).
    cbn [length Nat.eqb]. f_equal. f_equal.
    + cbn [nth]. destruct i; [reflexivity|]. apply nth_indep. simpl in Hi; lia.
    + destruct (Nat.eqb i (length l)) eqn:E; [reflexivity|]. apply Nat.eqb_neq in E.
      cbn [nth]. apply nth_indep. simpl in Hi; lia.
Qed.
Lemma get_edge_ring : forall (s : poly R) i, wf_poly s -> (i < n_points s)%nat ->
  nth_error (ring (p_pts s)) i = Some (edge_at s i).
Proof.
  intros s i W Hi. pose proof (get_edge_at s i W Hi) as G. revert G.
  unfold get_edge, n_points in *. destruct (p_pts s) as [|a l] eqn:E; [simpl in Hi; lia|].
  assert (Hi' : (i <= length l)%nat) by (simpl in Hi; lia).
  cbn [ring]. rewrite path_nth by exact Hi'.
  rewrite (nth_error_nth' (a :: l) a Hi). cbn [expect rbind].
  assert (J : nth_error (a :: l) ((i + 1) mod length (a :: l)) =
     Some (if Nat.eqb i (length l) then a else nth (S i) (a :: l) a)).
  { destruct (Nat.eqb i (length l)) eqn:Q.
    - apply Nat.eqb_eq in Q. subst i. cbn [length].
      replace (length l + 1)%nat with (S (length l)) by lia. rewrite Nat.mod_same by lia. reflexivity.
    - apply Nat.eqb_neq in Q. rewrite Nat.mod_small by (simpl; lia).
      replace (i + 1)%nat with (S i) by lia. apply nth_error_nth'. simpl; lia. }
  rewrite J. cbn [expect rbind]. unfold edge_new. destruct (pt_eq _ _); [discriminate|].
  intros G. congruence.
Qed.
Lemma edge_at_ne : forall (s : poly R) i, wf_poly s -> (i < n_points s)%nat -> es (edge_at s i) <> ee (edge_at s i).
Proof.
  intros s i W Hi. pose proof (get_edge_at s i W Hi) as G. unfold get_edge in G.
  destruct (nth_error (p_pts s) i); [|discriminate]. cbn [expect rbind] in G.
  destruct (nth_error (p_pts s) ((i + 1) mod n_points s)); [|discriminate]. cbn [expect rbind] in G.
  unfold edge_new in G. destruct (pt_eq p p0) eqn:E; [discriminate|]. injection G as <-. simpl.
  intros ->. assert (pt_eq p0 p0 = true) by (apply pt_eq_ok; reflexivity). congruence.
Qed.
Lemma wf_ring : forall s : poly R, wf_poly s <-> (forall e, In e (ring (p_pts s)) -> es e <> ee e).
Proof.
  intros s. split.
  - intros W e He. apply In_nth_error in He as (i & Hi).
    assert (L : (i < n_points s)%nat).
    { unfold n_points. rewrite <- ring_length. apply nth_error_Some. congruence. }
    rewrite (get_edge_ring s i W L) in Hi. injection Hi as <-. apply edge_at_ne; assumption.
  - intros H i Hi. unfold get_edge, n_points in *. destruct (p_pts s) as [|a l] eqn:E; [simpl in Hi; lia|].
    assert (Hi' : (i <= length l)%nat) by (simpl in Hi; lia).
    pose proof (path_nth l a a i Hi') as P. rewrite (nth_error_nth' (a :: l) a Hi). cbn [expect rbind].
    assert (J : nth_error (a :: l) ((i + 1) mod length (a :: l)) =
       Some (if Nat.eqb i (length l) then a else nth (S i) (a :: l) a)).
    { destruct (Nat.eqb i (length l)) eqn:Q.
      - apply Nat.eqb_eq in Q. subst i. cbn [length].
        replace (length l + 1)%nat with (S (length l)) by lia. rewrite Nat.mod_same by lia. reflexivity.
      - apply Nat.eqb_neq in Q. rewrite Nat.mod_small by (simpl; lia).
        replace (i + 1)%nat with (S i) by lia. apply nth_error_nth'. simpl; lia. }
    rewrite J. cbn [expect rbind]. unfold edge_new.
    destruct (pt_eq _ _) eqn:Q; [|eauto]. apply pt_eq_ok in Q.
    apply nth_error_In in P. apply (H _) in P. simpl in P. contradiction.
Qed.
Lemma map_edge_at : forall s : poly R, wf_poly s -> map (edge_at s) (edge_indices s) = ring (p_pts s).
Proof.
  intros s W. apply nth_ext2. intros i.
  rewrite nth_error_map. unfold edge_indices. destruct (lt_dec i (n_points s)) as [L|L].
  - rewrite (get_edge_ring s i W L).
    replace (nth_error (seq 0 (n_points s)) i) with (Some i); [reflexivity|].
    symmetry. rewrite (nth_error_nth' (seq 0 (n_points s)) 0%nat) by (rewrite seq_length; exact L).
    rewrite seq_nth by exact L. reflexivity.
  - assert (H : nth_error (seq 0 (n_points s)) i = None) by (apply nth_error_None; rewrite seq_length; lia).
    rewrite H. symmetry. apply nth_error_None. rewrite ring_length. unfold n_points in L. lia.
Qed.
Lemma in_ring_index : forall (s : poly R) e, wf_poly s -> (In e (ring (p_pts s)) <-> exists i, (i < n_points s)%nat /\ e = edge_at s i).
Proof.
  intros s e W. rewrite <- map_edge_at by exact W. rewrite in_map_iff. unfold edge_indices. split.
  - intros (i & <- & Hi). apply in_seq in Hi. exists i. split; [lia|reflexivity].
  - intros (i & Hi & ->). exists i. split; [reflexivity|]. apply in_seq. lia.
Qed.

(** *** one edge *)
Lemma on_seg_y : forall e p, on_seg e p -> py (es e) <> py (ee e) -> px p = cross_x e (py p).
Proof.
  intros [[ax ay] [bx by']] p (t & Ht & ->) N. simpl in *. unfold cross_x; simpl. field. lra.
Qed.
Lemma ray_counts_ok : forall bb p e, x_min bb < x_max bb -> px p <= x_max bb ->
  px (es e) <= x_max bb -> px (ee e) <= x_max bb -> ~ on_seg e p ->
  ray_counts bb p e = crosses p e.
Proof.
  intros bb p e Wd Lp L1 L2 N. unfold ray_counts, fpa_eq, fpa_gt, fpa_lt, r_width. unr.
  assert (Nes : es e <> p) by (intros <-; apply N, on_seg_start).
  assert (Nee : ee e <> p) by (intros <-; apply N, on_seg_end).
  assert (FL : forall a b, (if Reqb a b then false else Rltb a b) = Rltb a b).
  { intros a b. destruct (Reqb a b) eqn:E; [|reflexivity]. apply Reqb_spec in E. subst. symmetry. apply Rltb_nspec. lra. }
  assert (FG : forall a b, (if Reqb a b then false else Rltb b a) = Rltb b a).
  { intros a b. destruct (Reqb a b) eqn:E; [|reflexivity]. apply Reqb_spec in E. subst. symmetry. apply Rltb_nspec. lra. }
  rewrite !FL, !FG.
  destruct ((Reqb (py (es e)) (py p) && Rltb (px p) (px (es e))) || (Reqb (py (ee e)) (py p) && Rltb (px p) (px (ee e))))%bool eqn:V.
  - unfold crosses, straddles. apply orb_true_iff in V as [V|V]; apply andb_true_iff in V as (V1 & V2);
      apply Reqb_spec in V1; apply Rltb_spec in V2.
    + replace (Rltb (py (es e)) (py p)) with false by (symmetry; apply Rltb_nspec; lra). simpl.
      rdestr (py (ee e)) (py p); [|reflexivity]. symmetry. apply Rltb_spec.
      rewrite <- V1. rewrite cross_x_start. exact V2.
    + replace (Rltb (py (ee e)) (py p)) with false by (symmetry; apply Rltb_nspec; lra). rewrite orb_false_r, xorb_false_r.
      rdestr (py (es e)) (py p); [|reflexivity]. symmetry. apply Rltb_spec.
      rewrite <- V1. rewrite cross_x_end by lra. exact V2.
  - apply orb_false_iff in V as (V1 & V2). apply andb_false_iff in V1, V2.
    rewrite Reqb_nspec, Rltb_nspec in V1, V2.
    set (X := x_max bb + (x_max bb - x_min bb)).
    apply Bool.eq_iff_eq_true. rewrite ee_collides_iff. unfold crosses. rewrite andb_true_iff, Rltb_spec. split.
    + intros ((q & Oq & Oe) & D). unfold edet in D; simpl in D.
      assert (Ny : py (es e) <> py (ee e)) by (intros Q; apply D; rewrite Q; ring).
      destruct Oq as (t & Ht & Eq). assert (Qy : py q = py p) by (rewrite Eq; simpl; ring).
      assert (Qx : px q = px p + t * (X - px p)) by (rewrite Eq; reflexivity).
      pose proof (on_seg_y e q Oe Ny) as Qc. rewrite Qy in Qc.
      assert (Lx : px p < px q).
      { assert (0 <= t * (X - px p)) by (apply Rmult_le_pos; unfold X; lra).
        assert (px p <> px q); [|lra]. intros Z. apply N. replace p with q; [exact Oe|]. apply pt_ext; auto. }
      split; [|lra]. pose proof (seg_between e q Oe) as (_ & SY). rewrite Qy in SY.
      assert (A1 : py (es e) <> py p).
      { intros Z. rewrite <- Z, cross_x_start in Qc. destruct V1; [contradiction|lra]. }
      assert (A2 : py (ee e) <> py p).
      { intros Z. rewrite <- Z, cross_x_end in Qc by exact Ny. destruct V2; [contradiction|lra]. }
      unfold straddles. unfold Rmin, Rmax in SY.
      destruct (Rle_dec (py (es e)) (py (ee e))).
      * replace (Rltb (py (es e)) (py p)) with true by (symmetry; apply Rltb_spec; lra).
        replace (Rltb (py (ee e)) (py p)) with false by (symmetry; apply Rltb_nspec; lra). reflexivity.
      * replace (Rltb (py (es e)) (py p)) with false by (symmetry; apply Rltb_nspec; lra).
        replace (Rltb (py (ee e)) (py p)) with true by (symmetry; apply Rltb_spec; lra). reflexivity.
    + intros (S & L).
      assert (Ny : py (es e) <> py (ee e)).
      { intros Q. unfold straddles in S. rewrite Q, xorb_nilpotent in S. discriminate. }
      pose proof (straddles_on e (py p) S) as O. pose proof (seg_between _ _ O) as (SX & _). simpl in SX.
      assert (SX2 : Rmax (px (es e)) (px (ee e)) <= x_max bb) by (apply Rmax_lub; assumption).
      split.
      * exists (Pt (cross_x e (py p)) (py p)). split; [|exact O]. destruct p as [pX pY]. simpl in *.
        apply seg_horiz. left. unfold X. lra.
      * unfold edet; simpl. replace (py p - py p) with 0 by ring. rewrite Rmult_0_l, Rminus_0_r.
        intros Q. apply Rmult_integral in Q as [Q|Q]; [unfold X in Q; lra|lra].
Qed.

(** *** the whole polygon *)
(** the box contains the vertices and is not flat *)
Lemma odd_count : forall {A} (f : A -> bool) l n,
  Nat.odd (fold_left (fun n x => if f x then S n else n) l n) = xorb (Nat.odd n) (parity f l).
Proof.
  induction l as [|x l IH]; intros n; cbn [fold_left parity fold_right].
  - symmetry. apply xorb_false_r.
  - rewrite IH. fold (parity f l). destruct (f x).
    + rewrite Nat.odd_succ, <- Nat.negb_odd. destruct (Nat.odd n), (parity f l); reflexivity.
    + destruct (Nat.odd n), (parity f l); reflexivity.
Qed.
Lemma parity_map : forall {A B} (g : A -> B) (f : B -> bool) l, parity f (map g l) = parity (fun x => f (g x)) l.
Proof. induction l as [|x l IH]; simpl; [reflexivity|]. rewrite IH. reflexivity. Qed.
Lemma pip : forall (s : poly R) p, wf_poly s -> boxed s -> ~ on_border (p_pts s) p ->
  pp_collides s p = Ok (even_odd (p_pts s) p).
Proof.
  intros s p W (Pr & B) N. unfold pp_collides. destruct (rp_collides (p_bbox s) p) eqn:R.
  - apply rp_collides_iff in R.
    rewrite (rfold_ok _ (fun n i => if ray_counts (p_bbox s) p (edge_at s i) then S n else n)).
    2: { intros a i Hi. unfold edge_indices in Hi. apply in_seq in Hi.
         rewrite (get_edge_at s i W) by lia. reflexivity. }
    cbn [rbind]. f_equal. rewrite odd_count. unfold even_odd. rewrite <- map_edge_at by exact W.
    rewrite parity_map. cbn [Nat.odd Nat.even negb xorb].
    transitivity (parity (fun i => ray_counts (p_bbox s) p (edge_at s i)) (edge_indices s)).
    { destruct (parity (fun x => ray_counts (p_bbox s) p (edge_at s x)) (edge_indices s)); reflexivity. }
    apply parity_ext. intros i Hi. unfold edge_indices in Hi. apply in_seq in Hi.
    assert (Ie : In (edge_at s i) (ring (p_pts s))) by (apply in_ring_index; [exact W|exists i; split; [lia|reflexivity]]).
    destruct (ring_in _ _ Ie) as (V1 & V2). apply B in V1, V2.
    apply ray_counts_ok.
    + apply Pr.
    + apply R.
    + apply V1.
    + apply V2.
    + intros O. apply N. exists (edge_at s i). auto.
  - f_equal. apply rp_collides_dec in R. destruct (even_odd (p_pts s) p) eqn:E; [|reflexivity].
    exfalso. apply R. pose proof (even_odd_box _ _ _ B N E) as (X & Y). split; lra.
Qed.
Lemma pip_pure : forall (s : poly R) p, wf_poly s -> boxed s -> ~ on_border (p_pts s) p ->
  pp_pure s p = even_odd (p_pts s) p.
Proof. intros. unfold pp_pure. rewrite pip by assumption. reflexivity. Qed.

(** *** starting vertex and direction *)
Lemma parity_perm : forall {A} (f : A -> bool) l l', Permutation l l' -> parity f l = parity f l'.
Proof.
  intros A f l l' P. induction P; simpl; try congruence.
  destruct (f x), (f y), (parity f l); reflexivity.
Qed.
Lemma path_snoc : forall l first a b, path_edges first a (l ++ [b]) = path_edges b a l ++ [Ed b first].
Proof. induction l as [|c l IH]; intros; simpl; [reflexivity|]. rewrite IH. reflexivity. Qed.
Lemma ring_rotate : forall a l, Permutation (ring (l ++ [a])) (ring (a :: l)).
Proof.
  intros a [|b l]; [apply Permutation_refl|]. simpl. rewrite path_snoc. apply Permutation_sym.
  apply Permutation_cons_append.
Qed.
Lemma ring_rotate_app : forall l1 l2, Permutation (ring (l1 ++ l2)) (ring (l2 ++ l1)).
Proof.
  induction l1 as [|a l1 IH]; intros l2; [rewrite app_nil_r; apply Permutation_refl|].
  simpl app. transitivity (ring ((l1 ++ l2) ++ [a])); [apply Permutation_sym, ring_rotate|].
  rewrite <- app_assoc. rewrite IH. rewrite <- app_assoc. apply Permutation_refl.
Qed.
Lemma path_rev : forall l first a,
  map e_reverse (rev (path_edges first a l)) = path_edges a first (rev l).
Proof.
  induction l as [|b l IH]; intros first a; [reflexivity|].
  simpl. rewrite map_app, IH. simpl. rewrite path_snoc. reflexivity.
Qed.
Lemma ring_rev : forall l, Permutation (ring (rev l)) (map e_reverse (ring l)).
Proof.
  intros [|a l]; [apply Permutation_refl|]. change (rev (a :: l)) with (rev l ++ [a]).
  rewrite ring_rotate. simpl. rewrite <- path_rev. apply Permutation_map. apply Permutation_sym, Permutation_rev.
Qed.
Lemma even_odd_rotate : forall l1 l2 p, even_odd (l1 ++ l2) p = even_odd (l2 ++ l1) p.
Proof. intros. apply parity_perm. apply ring_rotate_app. Qed.
Lemma even_odd_rev : forall l p, even_odd (rev l) p = even_odd l p.
Proof.
  intros l p. unfold even_odd. rewrite (parity_perm _ _ _ (ring_rev l)), parity_map.
  apply parity_ext. intros [a b] _. apply crosses_sym.
Qed.
Lemma on_border_perm : forall l l' p, Permutation (ring l) (ring l') -> on_border l p -> on_border l' p.
Proof. intros l l' p P (e & He & O). exists e. split; [apply (Permutation_in e P He)|exact O]. Qed.
Lemma on_border_rotate : forall l1 l2 p, on_border (l1 ++ l2) p <-> on_border (l2 ++ l1) p.
Proof. intros. split; apply on_border_perm; apply ring_rotate_app. Qed.
Lemma on_border_rev : forall l p, on_border (rev l) p <-> on_border l p.
Proof.
  assert (H : forall l p, on_border (rev l) p -> on_border l p).
  { intros l p (e & He & O). apply (Permutation_in e (ring_rev l)) in He. apply in_map_iff in He as ([a b] & <- & He).
    exists (Ed a b). split; [exact He|]. apply on_seg_rev. exact O. }
  intros l p. split; [apply H|]. intros B. apply H. rewrite rev_involutive. exact B.
Qed.
