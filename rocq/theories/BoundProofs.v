(** The circle around a list of circles. *)
From Coq Require Import Reals List Bool Arith Lra Lia Psatz.
From Verif Require Import Base Num GeoModel TransfModel GeoSpec ShapeSpec ParityProofs GeoPrimProofs PipProofs.
Import ListNotations.
Local Open Scope R_scope.
#[local] Existing Instance RNum.

Lemma disk_in_iff : forall k c, 0 <= crad k -> (disk_in k c <-> edist (ccen k) (ccen c) + crad k <= crad c).
Proof.
  intros k c H. split.
  - intros I. destruct (walk (ccen k) (ccen c) (crad k) H) as (x & E & A & B).
    destruct (Req_dec (edist (ccen k) (ccen c)) 0) as [Z|Z].
    + rewrite Z. specialize (I x). unfold in_disk in I. rewrite edist_sym in E.
      pose proof (edist_tri x (ccen c) (ccen k)) as T. rewrite (edist_sym (ccen c) (ccen k)) in T. specialize (I ltac:(lra)). lra.
    + pose proof (edist_nonneg (ccen k) (ccen c)) as N.
      set (d := edist (ccen k) (ccen c)) in *.
      set (y := Pt (px (ccen k) + (px (ccen k) - px (ccen c)) * (crad k / d)) (py (ccen k) + (py (ccen k) - py (ccen c)) * (crad k / d))).
      assert (Sq : d * d = (px (ccen k) - px (ccen c)) ^ 2 + (py (ccen k) - py (ccen c)) ^ 2) by apply edist_sq.
      assert (E1 : edist y (ccen k) = crad k).
      { unfold edist. apply Rsqr_inj; [apply sqrt_pos|exact H|]. rewrite Rsqr_sqrt by apply sqd_nonneg. unfold Rsqr, y; cbn [px py].
        transitivity (((px (ccen k) - px (ccen c)) ^ 2 + (py (ccen k) - py (ccen c)) ^ 2) * (crad k / d) * (crad k / d)); [ring|].
        rewrite <- Sq. field. lra. }
      assert (E2 : edist y (ccen c) = d + crad k).
      { unfold edist. apply Rsqr_inj; [apply sqrt_pos|lra|]. rewrite Rsqr_sqrt by apply sqd_nonneg. unfold Rsqr, y; cbn [px py].
        transitivity (((px (ccen k) - px (ccen c)) ^ 2 + (py (ccen k) - py (ccen c)) ^ 2) * (1 + crad k / d) * (1 + crad k / d)); [ring|].
        rewrite <- Sq. field. lra. }
      specialize (I y). unfold in_disk in I. lra.
  - intros L p P. unfold in_disk in *. pose proof (edist_tri p (ccen k) (ccen c)). lra.
Qed.

Lemma edist_scaled : forall p q dx dy d k, 0 <= k -> 0 <= d -> d * d = dx ^ 2 + dy ^ 2 ->
  px q - px p = k * dx -> py q - py p = k * dy -> edist p q = k * d.
Proof.
  intros p q dx dy d k K D E X Y. unfold edist. apply Rsqr_inj; [apply sqrt_pos|nra|].
  rewrite Rsqr_sqrt by apply sqd_nonneg. unfold Rsqr.
  replace (px p - px q) with (- (k * dx)) by lra. replace (py p - py q) with (- (k * dy)) by lra. nra.
Qed.

(** one round of the loop *)
Lemma bstep_eq : forall b c d, 0 <= crad b -> 0 <= crad c -> edist (ccen b) (ccen c) = d -> 0 < d -> crad b < d + crad c ->
  let k := (d + crad c - crad b) / (2 * d) in
  bounding_step b c = Ok (Ci (Pt (px (ccen b) + k * (px (ccen c) - px (ccen b))) (py (ccen b) + k * (py (ccen c) - py (ccen b))))
                             ((d + crad b + crad c) / 2)).
Proof.
  intros b c d Hb Hc De Dp H k. unfold bounding_step. rewrite pt_dist_ok, De.
  cbn [flt fadd RNum RNumT]. destruct (Rltb (crad b) (d + crad c)) eqn:H'; [clear H'|apply Rltb_nspec in H'; lra].
  unfold edge_new. destruct (pt_eq (ccen b) (ccen c)) eqn:Q.
  { apply pt_eq_ok in Q. exfalso. rewrite Q, edist_refl in De. lra. }
  cbn [rbind].
  set (dx := px (ccen c) - px (ccen b)). set (dy := py (ccen c) - py (ccen b)).
  assert (Sq : d * d = dx ^ 2 + dy ^ 2) by (rewrite <- De, edist_sq; unfold dx, dy; ring).
  set (e1 := extend_at_front (Ed (ccen b) (ccen c)) (crad b)).
  assert (S1 : es e1 = Pt (px (ccen b) - dx * (crad b / d)) (py (ccen b) - dy * (crad b / d))).
  { unfold e1, extend_at_front, e_diameter; cbn [es ee]. rewrite pt_dist_ok, De. reflexivity. }
  assert (T1 : ee e1 = ccen c) by reflexivity.
  assert (L1 : e_diameter e1 = d + crad b).
  { unfold e_diameter. rewrite pt_dist_ok, S1, T1.
    rewrite (edist_scaled _ _ dx dy d (1 + crad b / d)).
    - field. lra.
    - assert (0 <= crad b / d) by (apply Rmult_le_pos; [lra|left; apply Rinv_0_lt_compat; lra]). lra.
    - lra.
    - exact Sq.
    - cbn [px]. unfold dx. ring.
    - cbn [py]. unfold dy. ring. }
  set (e2 := extend_at_back e1 (crad c)).
  assert (S2 : es e2 = es e1) by reflexivity.
  assert (T2 : ee e2 = Pt (px (ccen c) + dx * (crad c / d)) (py (ccen c) + dy * (crad c / d))).
  { unfold e2, extend_at_back. rewrite L1, S1, T1. cbn [ee px py fadd fsub fmul fdiv RNum RNumT]. f_equal; unfold dx, dy; field; lra. }
  assert (L2 : e_diameter e2 = d + crad b + crad c).
  { unfold e_diameter. rewrite pt_dist_ok, S2, S1, T2.
    rewrite (edist_scaled _ _ dx dy d (1 + crad b / d + crad c / d)).
    - field. lra.
    - assert (0 <= crad b / d) by (apply Rmult_le_pos; [lra|left; apply Rinv_0_lt_compat; lra]).
      assert (0 <= crad c / d) by (apply Rmult_le_pos; [lra|left; apply Rinv_0_lt_compat; lra]). lra.
    - lra.
    - exact Sq.
    - cbn [px]. unfold dx. ring.
    - cbn [py]. unfold dy. ring. }
  assert (F2 : fdiv (e_diameter e2) f2 = (d + crad b + crad c) / 2) by (rewrite L2; unfold f2; cbn; lra).
  assert (Ce : e_centroid e2 = Pt (px (ccen b) + k * dx) (py (ccen b) + k * dy)).
  { unfold e_centroid. rewrite S2, S1, T2. unfold f2; cbn [px py fadd fdiv f1 RNum RNumT]. f_equal; unfold k, dx, dy; field; lra. }
  rewrite F2, Ce. reflexivity.
Qed.
Lemma bstep : forall b c, 0 <= crad b -> 0 <= crad c -> crad c <= edist (ccen b) (ccen c) + crad b ->
  exists b', bounding_step b c = Ok b' /\ crad b <= crad b' /\ disk_in b b' /\ disk_in c b'.
Proof.
  intros b c Hb Hc NL. destruct (Rlt_or_le (crad b) (edist (ccen b) (ccen c) + crad c)) as [H|H].
  - pose proof (edist_nonneg (ccen b) (ccen c)) as D0.
    assert (Dp : 0 < edist (ccen b) (ccen c)) by (destruct (Rle_lt_or_eq_dec _ _ D0); [assumption|lra]).
    pose proof (bstep_eq b c _ Hb Hc eq_refl Dp H) as E. cbn zeta in E.
    set (d := edist (ccen b) (ccen c)) in *. set (dx := px (ccen c) - px (ccen b)) in *. set (dy := py (ccen c) - py (ccen b)) in *.
    assert (Sq : d * d = dx ^ 2 + dy ^ 2) by (unfold d; rewrite edist_sq; unfold dx, dy; ring).
    set (k := (d + crad c - crad b) / (2 * d)) in *.
    assert (K : k * d = (d + crad c - crad b) / 2) by (unfold k; field; lra).
    eexists. split; [exact E|]. cbn [crad ccen]. split; [lra|]. split.
    + apply disk_in_iff; [exact Hb|]. cbn [crad ccen].
      rewrite (edist_scaled _ _ dx dy d k); [lra| |lra|exact Sq|cbn; ring|cbn; ring].
      destruct (Rle_or_lt 0 k); [assumption|nra].
    + apply disk_in_iff; [exact Hc|]. cbn [crad ccen].
      rewrite edist_sym, (edist_scaled _ _ dx dy d (1 - k)); [nra| |lra|exact Sq|cbn; unfold dx; ring|cbn; unfold dy; ring].
      destruct (Rle_or_lt 0 (1 - k)); [assumption|nra].
  - exists b. split.
    { unfold bounding_step. rewrite pt_dist_ok. cbn [flt fadd RNum RNumT].
      destruct (Rltb (crad b) (edist (ccen b) (ccen c) + crad c)) eqn:L; [apply Rltb_spec in L; lra|reflexivity]. }
    split; [lra|]. split; [intros p P; exact P|].
    apply disk_in_iff; [exact Hc|]. rewrite edist_sym. exact H.
Qed.

(** the running circle contains the first one, so no later circle swallows it *)
Lemma bfold : forall r c b, 0 <= crad c -> disk_in c b -> (forall k, In k r -> 0 <= crad k /\ crad k <= edist (ccen c) (ccen k) + crad c) ->
  exists b', rfold bounding_step r b = Ok b' /\ disk_in b b' /\ forall k, In k r -> disk_in k b'.
Proof.
  intros r. induction r as [|k r IH]; intros c b Hc I H.
  - exists b. split; [reflexivity|]. split; [intros p P; exact P|intros k []].
  - destruct (H k (or_introl eq_refl)) as (Hk & L).
    assert (I' := proj1 (disk_in_iff c b Hc) I).
    pose proof (edist_nonneg (ccen c) (ccen b)) as N.
    destruct (bstep b k) as (b' & E & _ & B1 & B2); [lra|exact Hk| |].
    + pose proof (edist_tri (ccen c) (ccen b) (ccen k)). lra.
    + destruct (IH c b' Hc) as (b'' & E' & C1 & C2).
      * intros p P. apply B1, I, P.
      * intros x X. apply H. right. exact X.
      * exists b''. cbn [rfold]. rewrite E. cbn [rbind]. split; [exact E'|]. split; [intros p P; apply C1, B1, P|].
        intros x [<-|X]; [intros p P; apply C1, B2, P|apply C2, X].
Qed.
Theorem bounding_ok : forall c r, 0 <= crad c ->
  (forall k, In k r -> 0 <= crad k /\ crad k <= edist (ccen c) (ccen k) + crad c) ->
  exists b, bounding_circle (c :: r) = Ok b /\ forall k, In k (c :: r) -> disk_in k b.
Proof.
  intros c r Hc H. destruct (bfold r c c Hc) as (b & E & A & B); [intros p P; exact P|exact H|].
  exists b. split; [exact E|]. intros k [<-|K]; [exact A|apply B, K].
Qed.

(** *** the exceptions *)
Lemma edist_h : forall x y x' d, 0 <= d -> (x - x' = d \/ x' - x = d) -> edist (Pt x y) (Pt x' y) = d.
Proof.
  intros x y x' d D H. unfold edist; cbn [px py]. replace ((x - x') ^ 2 + (y - y) ^ 2) with (d * d) by (destruct H as [<-|<-]; ring).
  apply sqrt_square. exact D.
Qed.
Lemma edist_v : forall x y y' d, 0 <= d -> (y - y' = d \/ y' - y = d) -> edist (Pt x y) (Pt x y') = d.
Proof.
  intros x y y' d D H. unfold edist; cbn [px py]. replace ((x - x) ^ 2 + (y - y') ^ 2) with (d * d) by (destruct H as [<-|<-]; ring).
  apply sqrt_square. exact D.
Qed.
Lemma edist_q : forall p q d, 0 <= d -> (px p - px q) ^ 2 + (py p - py q) ^ 2 = d * d -> edist p q = d.
Proof. intros p q d D E. unfold edist. rewrite E. apply sqrt_square. exact D. Qed.
Lemma bounding_not : exists c k b, 0 < crad c /\ 0 < crad k /\ bounding_circle [c; k] = Ok b /\ ~ disk_in k b.
Proof.
  exists (Ci (Pt 0 0) 1), (Ci (Pt 1 0) 5).
  assert (D : edist (ccen (Ci (Pt 0 0) 1)) (ccen (Ci (Pt 1 0) 5)) = 1) by (apply edist_h; lra).
  pose proof (bstep_eq (Ci (Pt 0 0) 1) (Ci (Pt 1 0) 5) 1) as E. cbn [ccen crad px py] in E, D. cbn zeta in E.
  specialize (E ltac:(lra) ltac:(lra) D ltac:(lra) ltac:(lra)).
  eexists. cbn [crad]. split; [lra|]. split; [lra|]. split; [unfold bounding_circle; cbn [rfold]; rewrite E; reflexivity|].
  intros I. apply disk_in_iff in I; [|cbn; lra]. cbn [ccen crad] in I.
  match type of I with ?x + _ <= _ => assert (0 <= x) by apply edist_nonneg end. lra.
Qed.
(** the result need not be the smallest containing circle *)
Lemma bounding_larger : exists l b m, (forall k, In k l -> 0 < crad k) /\ bounding_circle l = Ok b /\
  (forall k, In k l -> disk_in k b) /\ (forall k, In k l -> disk_in k m) /\ crad m < crad b.
Proof.
  set (c1 := Ci (Pt 0 0) 1). set (c2 := Ci (Pt 4 0) 1). set (c3 := Ci (Pt 2 4) 1).
  pose proof (bstep_eq c1 c2 4) as E1. cbn [c1 c2 ccen crad px py] in E1. cbn zeta in E1.
  specialize (E1 ltac:(lra) ltac:(lra) ltac:(apply edist_h; lra) ltac:(lra) ltac:(lra)).
  replace (Pt (0 + (4 + 1 - 1) / (2 * 4) * (4 - 0)) (0 + (4 + 1 - 1) / (2 * 4) * (0 - 0))) with (Pt 2 0) in E1 by (f_equal; field).
  replace ((4 + 1 + 1) / 2) with 3 in E1 by field.
  pose proof (bstep_eq (Ci (Pt 2 0) 3) c3 4) as E2. cbn [c3 ccen crad px py] in E2. cbn zeta in E2.
  specialize (E2 ltac:(lra) ltac:(lra) ltac:(apply edist_v; lra) ltac:(lra) ltac:(lra)).
  replace (Pt (2 + (4 + 1 - 3) / (2 * 4) * (2 - 2)) (0 + (4 + 1 - 3) / (2 * 4) * (4 - 0))) with (Pt 2 1) in E2 by (f_equal; field).
  replace ((4 + 3 + 1) / 2) with 4 in E2 by field.
  assert (E : bounding_circle [c1; c2; c3] = Ok (Ci (Pt 2 1) 4)).
  { unfold bounding_circle. cbn [rfold]. rewrite E1. cbn [rbind]. rewrite E2. reflexivity. }
  exists [c1; c2; c3], (Ci (Pt 2 1) 4), (Ci (Pt 2 (3 / 2)) (7 / 2)).
  split; [intros k [<-|[<-|[<-|[]]]]; cbn; lra|]. split; [exact E|]. split; [|split; [|cbn; lra]].
  - destruct (bounding_ok c1 [c2; c3]) as (b & Eb & B).
    + cbn. lra.
    + intros k [<-|[<-|[]]]; cbn [c1 c2 c3 ccen crad].
      * split; [lra|]. rewrite (edist_h 0 0 4 4); lra.
      * split; [lra|]. pose proof (edist_nonneg (Pt 0 0) (Pt 2 4)). lra.
    + rewrite E in Eb. injection Eb as <-. exact B.
  - intros k [<-|[<-|[<-|[]]]]; (apply disk_in_iff; cbn [c1 c2 c3 ccen crad]; [lra|]);
      [rewrite (edist_q _ _ (5 / 2))|rewrite (edist_q _ _ (5 / 2))|rewrite (edist_q _ _ (5 / 2))]; cbn [px py]; lra.
Qed.
Lemma bounding_panics : exists c k, 0 < crad c /\ 0 < crad k /\ bounding_circle [c; k] = Panic.
Proof.
  exists (Ci (Pt 0 0) 1), (Ci (Pt 0 0) 2). cbn [crad]. split; [lra|]. split; [lra|].
  unfold bounding_circle. cbn [rfold]. unfold bounding_step; cbn [ccen crad]. rewrite pt_dist_ok, edist_refl. cbn [flt fadd RNum RNumT].
  destruct (Rltb 1 (0 + 2)) eqn:L; [|apply Rltb_nspec in L; lra]. unfold edge_new.
  replace (pt_eq (Pt 0 0) (Pt 0 0)) with true; [reflexivity|]. symmetry. apply pt_eq_ok. reflexivity.
Qed.
