(** Thin triangles for which the constructor panics ("no pole present"). *)
From Coq Require Import Reals List Bool Arith Lra Lia Psatz ZArith.
From Verif Require Import Base Num GeoModel HazardModel QTModel TransfModel PolyModel GeoSpec ShapeSpec
  BaseProofs QTProofs ParityProofs GeoPrimProofs GeoRectProofs PipProofs RegionProofs RigidProofs NormProofs HullProofs PoleProofs ConstructProofs.
Import ListNotations.
Local Open Scope R_scope.
#[local] Existing Instance RNum.
#[local] Opaque MAX_POI_TREE_DEPTH.

(** a search all of whose cells have their centre outside finds nothing *)
Section Blind.
  Variable s : poly R.
  Variable poles : list rcircle.
  Hypothesis So : sound_poly s.
  Hypothesis Ne : p_pts s <> [].
  Hypothesis Pn : forall k, In k poles -> 0 <= crad k.
  Variable cells : nat -> rrect -> Prop.
  Hypothesis cells_proper : forall lvl bb, cells lvl bb -> proper bb.
  Hypothesis cells_split : forall lvl bb i, cells (S lvl) bb -> (i < 4)%nat -> cells lvl (q4get (quadrants bb) i).
  Hypothesis cells_blind : forall lvl bb d, cells lvl bb -> 0 < d -> ~ clear_of (p_pts s) poles (r_centroid bb) d.

  Lemma blind_node : forall lvl bb, cells lvl bb -> exists n, pnode_new s poles bb = Ok n /\ pn_bbox n = bb /\ pn_dist n <= 0.
  Proof.
    intros lvl bb C. destruct (node_ok s poles So Ne Pn bb) as (d & E & (S1 & _)). eexists. split; [exact E|]. split; [reflexivity|].
    cbn [pn_dist]. apply Rnot_lt_le. intros P. apply (cells_blind lvl bb d C P). exact (S1 P).
  Qed.
  Definition blind (lvl : nat) (n : pnode R) : Prop := cells lvl (pn_bbox n) /\ pn_dist n <= 0.
  Lemma blind_visit : forall lvl q n, blind lvl n -> (forall m l', lvl = S l' -> In m q -> blind l' m) -> (lvl = 0%nat -> q = []) ->
    exists q', poi_visit s poles lvl (None, q) n = Ok (None, q') /\ (forall m l', lvl = S l' -> In m q' -> blind l' m) /\ (lvl = 0%nat -> q' = []).
  Proof.
    intros lvl q n (C & D) Q Q0. unfold poi_visit. cbn [best_dist].
    assert (E : flt f0 (pn_dist n) = false).
    { cbn [flt f0 RNum RNumT]. destruct (Rltb 0 (pn_dist n)) eqn:L; [apply Rltb_spec in L; lra|reflexivity]. }
    rewrite E. destruct (flt _ (pn_upper n)); [|exists q; destruct lvl; auto].
    destruct lvl as [|lv]; [exists q; auto|].
    destruct (rmapM_inv (pnode_new s poles) (fun bb m => blind lv m) (q4list (quadrants (pn_bbox n)))) as (ch & Ec & F2).
    { intros bb Hb. apply q4_in in Hb. destruct Hb as (i & Hi & <-). pose proof (cells_split _ _ i C Hi) as C'.
      destruct (blind_node _ _ C') as (m & Em & Eb & Dm). exists m. split; [exact Em|]. split; [rewrite Eb; exact C'|exact Dm]. }
    rewrite Ec. cbn [rbind]. exists (q ++ ch). split; [reflexivity|]. split; [|discriminate].
    intros m l' [= <-] I. apply in_app_iff in I. destruct I as [I|I]; [apply Q; auto|].
    clear -F2 I. induction F2 as [|x y xs ys H F2 IH]; [destruct I|]. destruct I as [<-|I]; auto.
  Qed.
  Lemma blind_levels : forall lvl queue, (forall n, In n queue -> blind lvl n) -> poi_levels s poles lvl None queue = Ok None.
  Proof.
    induction lvl as [|lv IH]; intros queue Q; cbn [poi_levels].
    - destruct (rfold_inv (poi_visit s poles 0) (fun _ a => a = (None, [])) queue (None, [])) as (a' & E & ->); [reflexivity| |rewrite E; reflexivity].
      intros done n a -> I. destruct (blind_visit 0 [] n (Q n I)) as (q' & E & _ & Z); auto; [discriminate|].
      exists (None, q'). rewrite Z in * by reflexivity. auto.
    - destruct (rfold_inv (poi_visit s poles (S lv)) (fun _ a => fst a = None /\ forall m, In m (snd a) -> blind lv m) queue (None, [])) as ((b & q) & E & B & H).
      + cbn. split; [reflexivity|intros m []].
      + intros done n (b & q) (Eb & Hq) I. cbn [fst snd] in *. subst b.
        destruct (blind_visit (S lv) q n (Q n I)) as (q' & E & Z & _); [intros m l' [= <-]; apply Hq|discriminate|].
        exists (None, q'). split; [exact E|]. split; [reflexivity|]. cbn [snd]. intros m. apply Z. reflexivity.
      + rewrite E. cbn [fst snd] in *. subst b. cbn [rbind]. apply IH. exact H.
  Qed.
  Lemma blind_search : forall depth, cells depth (inflate_to_square (p_bbox s)) -> next_pole depth s poles = Panic.
  Proof.
    intros depth C. unfold next_pole. destruct (blind_node _ _ C) as (n & E & Eb & D). rewrite E. cbn [rbind].
    rewrite blind_levels; [reflexivity|]. intros m [<-|[]]. split; [rewrite Eb; exact C|exact D].
  Qed.
End Blind.

Definition sliver (e : R) : list rpoint := [Pt 0 0; Pt 1 (1 - e); Pt 1 1].
Lemma sliver_inside : forall e x y, 0 < e < 1 -> even_odd (sliver e) (Pt x y) = true -> 0 <= x - y < e /\ 0 <= y <= 1.
Proof.
  intros e x y He. unfold even_odd, sliver, parity, ring. cbn [path_edges fold_right]. rewrite !crosses_sign. unfold cp. cbn [px py es ee].
  repeat match goal with |- context [Rltb ?a ?b] =>
    let Q := fresh "Q" in destruct (Rltb a b) eqn:Q; [apply Rltb_spec in Q|apply Rltb_nspec in Q]; cbn [xorb andb] end;
    intros H; try discriminate; try lra; split; try lra; nra.
Qed.
Definition dyadic (depth lvl : nat) (bb : rrect) : Prop :=
  (lvl <= depth)%nat /\ exists i j : Z, let h := / 2 ^ (depth - lvl) in
  bb = Rc (IZR i * h) (IZR j * h) (IZR i * h + h) (IZR j * h + h).
Lemma pow_half_pos : forall n, 0 < / 2 ^ n.
Proof. intros. apply Rinv_0_lt_compat, pow_lt. lra. Qed.
Lemma dyadic_proper : forall depth lvl bb, dyadic depth lvl bb -> proper bb.
Proof. intros depth lvl bb (L & i & j & E). cbn zeta in E. subst bb. pose proof (pow_half_pos (depth - lvl)). split; cbn; lra. Qed.
Lemma dyadic_split : forall depth lvl bb i, dyadic depth (S lvl) bb -> (i < 4)%nat -> dyadic depth lvl (q4get (quadrants bb) i).
Proof.
  intros depth lvl bb i D Hi. pose proof (dyadic_proper _ _ _ D) as Pr. destruct D as (L & x & y & E). cbn zeta in E.
  rewrite quadrants_eq by exact Pr. split; [lia|]. unfold mid_x, mid_y.
  assert (H : / 2 ^ (depth - S lvl) = 2 * / 2 ^ (depth - lvl)).
  { replace (depth - lvl)%nat with (S (depth - S lvl)) by lia. cbn [pow]. field. apply pow_nonzero. lra. }
  rewrite H in E. set (h := / 2 ^ (depth - lvl)) in *. clearbody h. subst bb. cbn zeta. cbn [x_min x_max y_min y_max].
  destruct i as [|[|[|[|i]]]]; [..|lia]; cbn [q4get qa qb qc qd].
  - exists (2 * x + 1)%Z, (2 * y + 1)%Z. rewrite !plus_IZR, !mult_IZR. f_equal; field.
  - exists (2 * x)%Z, (2 * y + 1)%Z. rewrite !plus_IZR, !mult_IZR. f_equal; field.
  - exists (2 * x)%Z, (2 * y)%Z. rewrite !mult_IZR. f_equal; field.
  - exists (2 * x + 1)%Z, (2 * y)%Z. rewrite !plus_IZR, !mult_IZR. f_equal; field.
Qed.
Lemma dyadic_blind : forall depth e lvl bb d, 0 < e < 1 -> e <= / 2 ^ depth -> dyadic depth lvl bb -> 0 < d ->
  ~ clear_of (sliver e) [] (r_centroid bb) d.
Proof.
  intros depth e lvl bb d He Hd (L & i & j & E) D (Ev & Bd & _). cbn zeta in E. set (h := / 2 ^ (depth - lvl)) in *.
  assert (Hh : e <= h).
  { eapply Rle_trans; [exact Hd|]. unfold h. apply Rinv_le_contravar; [apply pow_lt; lra|]. apply Rle_pow; [lra|lia]. }
  assert (H0 : 0 < h) by apply pow_half_pos.
  assert (C : r_centroid bb = Pt (IZR i * h + h / 2) (IZR j * h + h / 2)).
  { rewrite E. unfold r_centroid. unr. cbn [x_min x_max y_min y_max]. f_equal; field. }
  rewrite C in *. clearbody h. apply sliver_inside in Ev; [|exact He].
  destruct (Z.eq_dec i j) as [->|N].
  - (* on the diagonal *)
    assert (O : on_border (sliver e) (Pt (IZR j * h + h / 2) (IZR j * h + h / 2))).
    { exists (Ed (Pt 1 1) (Pt 0 0)). split; [unfold sliver, ring; cbn; tauto|]. exists (1 - (IZR j * h + h / 2)). split; [lra|].
      unfold at_t; cbn. f_equal; ring. }
    specialize (Bd _ O). rewrite edist_refl in Bd. lra.
  - assert (i < j \/ j < i)%Z as [K|K] by lia; apply Zlt_le_succ, IZR_le in K; unfold Z.succ in K; rewrite plus_IZR in K; nra.
Qed.
Theorem sliver_panics : forall e, 0 < e < 1 -> e <= / 2 ^ MAX_POI_TREE_DEPTH -> poly_new (sliver e) = Panic.
Proof.
  intros e He Hd. unfold poly_new. cbn [length sliver Nat.leb rassert rbind].
  assert (ND : NoDup (sliver e)).
  { unfold sliver. repeat constructor; cbn [In]; intros H; repeat (destruct H as [H|H]; [injection H; intros; lra|]); exact H. }
  assert (A : shoelace (sliver e) = e / 2) by (unfold shoelace, total, sliver, ring; cbn; lra).
  change [Pt 0 0; Pt 1 (1 - e); Pt 1 1] with (sliver e).
  rewrite (full_unique (sliver e) [] ND) by (intros x _ []). cbn [length sliver Nat.eqb rassert rbind].
  change [Pt 0 0; Pt 1 (1 - e); Pt 1 1] with (sliver e).
  rewrite area_ok, A. cbn [feq flt RNum RNumT f0].
  destruct (Reqb (e / 2) 0) eqn:Z; [reflexivity|]. destruct (Rltb (e / 2) 0) eqn:Z2; [apply Rltb_spec in Z2; lra|].
  destruct (calculate_diameter (sliver e)) as [d|]; [|reflexivity]. cbn [rbind].
  assert (P : calculate_poi (sliver e) d = Panic); [|rewrite P; reflexivity].
  unfold calculate_poi, generate_next_pole. cbn [f0 RNum RNumT].
  destruct (dummy_sound (sliver e) d ND ltac:(cbn; lia) ltac:(rewrite A; lra)) as (So & NE).
  apply (blind_search _ [] So NE ltac:(intros k []) (dyadic MAX_POI_TREE_DEPTH)).
  - apply dyadic_split.
  - intros lvl bb dd. cbn [p_pts]. apply dyadic_blind; assumption.
  - split; [lia|]. exists 0%Z, 0%Z. cbn zeta. rewrite Nat.sub_diag. cbn [pow p_bbox].
    rewrite (box_unique (bbox_of_points (sliver e)) (Rc 0 0 1 1) (sliver e)); [|apply bbox_ok; discriminate|].
    + unfold inflate_to_square. cbn [x_min x_max y_min y_max]. unr. replace (1 - 0) with 1 by ring.
      rewrite Rinv_1. destruct (Rltb 1 1) eqn:Q; [apply Rltb_spec in Q; lra|]. f_equal; ring.
    + unfold smallest_box, in_rect. cbn [x_min x_max y_min y_max]. split; [|split; [|split; [|split]]].
      * intros p H. unfold sliver in H; cbn [In] in H. repeat (destruct H as [<-|H]; [cbn; lra|]). destruct H.
      * exists (Pt 0 0). unfold sliver; cbn; tauto.
      * exists (Pt 1 1). unfold sliver; cbn; tauto.
      * exists (Pt 0 0). unfold sliver; cbn; tauto.
      * exists (Pt 1 1). unfold sliver; cbn; tauto.
Qed.
#[local] Transparent MAX_POI_TREE_DEPTH.
Theorem construct_fails : exists l : list rpoint, (3 <= length l)%nat /\ NoDup l /\ shoelace l <> 0 /\ no_spikes l /\ poly_new l = Panic.
Proof.
  exists (sliver (/ 1024)). split; [cbn; lia|]. split; [|split; [|split]].
  - unfold sliver. repeat constructor; cbn [In]; intros H; repeat (destruct H as [H|H]; [injection H; intros; lra|]); exact H.
  - unfold shoelace, total, sliver, ring; cbn. lra.
  - unfold no_spikes, sliver, ring. cbn [path_edges In]. intros e f H K.
    repeat (destruct H as [<-|H]; [repeat (destruct K as [<-|K]; [unfold edet, edot; cbn; intros E; try (injection E; intros; lra); intros; lra|]); destruct K|]). destruct H.
  - apply sliver_panics; [lra|]. unfold MAX_POI_TREE_DEPTH. cbn [pow]. lra.
Qed.
