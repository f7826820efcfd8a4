(** Simple polygons: the side on which the inside lies is the same along the whole
    border, and it is the left one for a positive area. *)
From Coq Require Import Reals List Bool Lra Lia Psatz Permutation Sorted.
From Verif Require Import Base Num GeoModel HazardModel QTModel GeoSpec ShapeSpec SimplModel SimplSpec SimpleSpec
  ParityProofs CrossProofs GeoPrimProofs GeoRectProofs RegionProofs PierProofs ConstructProofs SimpleProofs.
Import ListNotations.
Local Open Scope R_scope.
#[local] Existing Instance RNum.

(** *** around a vertex *)
Definition side (l : list rpoint) (e : redge) (c : bool) : Prop :=
  forall q, sees l e q ->
    (0 < turn (es e) (ee e) q -> even_odd l q = c) /\ (turn (es e) (ee e) q < 0 -> even_odd l q = negb c).

Lemma near_rays : forall v d L, 0 < d -> exists h, 0 < h < 1 /\ forall x, In x L -> edist (at_t (Ed v x) h) v < d.
Proof.
  intros v d L Hd. induction L as [|x L IH]; [exists (/ 2); split; [lra|intros x []]|].
  destruct IH as (h & Hh & IH). destruct (close_by v x d Hd) as (t & Ht & Dt).
  exists (Rmin h t). pose proof (Rmin_l h t). pose proof (Rmin_r h t).
  assert (P : 0 < Rmin h t) by (apply Rmin_glb_lt; lra). split; [lra|].
  assert (M : forall y s, 0 < s -> Rmin h t <= s -> edist (at_t (Ed v y) s) v < d -> edist (at_t (Ed v y) (Rmin h t)) v < d).
  { intros y s Hs Ls D. rewrite edist_sym in D |- *. rewrite (edist_ray (Ed v y)) in D |- * by lra. cbn [es ee] in *.
    pose proof (edist_nonneg v y). nra. }
  intros y [<-|Hy]; [apply (M _ t); lra|apply (M _ h); try lra; apply IH, Hy].
Qed.

Lemma corner_ball : forall l u v w, simple l -> In (Ed u v) (ring l) -> In (Ed v w) (ring l) ->
  exists d, 0 < d /\ forall f, In f (ring l) -> (f = Ed u v \/ f = Ed v w) \/ far d (Ed v v) f.
Proof.
  intros l u v w Sl H1 H2. apply seg_sep_list. intros f Hf.
  destruct (edge_dec f (Ed u v)) as [->|N1]; [left; left; reflexivity|].
  destruct (edge_dec f (Ed v w)) as [->|N2]; [left; right; reflexivity|]. right.
  intros x (t & _ & ->) O. replace (at_t (Ed v v) t) with v in O by (apply pt_ext; unfold at_t; cbn; ring).
  pose proof (simple_ne l _ Sl H1) as Ne. cbn in Ne. destruct Sl as (_ & D & Sl).
  destruct (Sl (Ed u v) f v H1 Hf (on_seg_end _) O) as [E|[(_ & E)|(E & _)]]; cbn in E; [congruence| |congruence].
  apply N2. apply (start_inj l); auto.
Qed.
Lemma corner_clear : forall l u v w d, (forall f, In f (ring l) -> (f = Ed u v \/ f = Ed v w) \/ far d (Ed v v) f) ->
  forall x, edist x v < d -> turn u v x <> 0 -> turn v w x <> 0 -> ~ on_border l x.
Proof.
  intros l u v w d F x Dx T1 T2 (f & Hf & O). destruct (F f Hf) as [[ -> | -> ]|X].
  - apply T1, turn_on, O.
  - apply T2, turn_on, O.
  - specialize (X v x (on_seg_start (Ed v v)) O). rewrite edist_sym in X. lra.
Qed.
(** two consecutive edges never fold back onto each other *)
Lemma straight_on : forall l u v w, simple l -> In (Ed u v) (ring l) -> In (Ed v w) (ring l) -> turn u v w = 0 ->
  exists m, 0 < m /\ px w - px v = m * (px v - px u) /\ py w - py v = m * (py v - py u).
Proof.
  intros l u v w Sl H1 H2 T. pose proof (simple_ne l _ Sl H1) as N1. pose proof (simple_ne l _ Sl H2) as N2.
  pose proof (edet_ne _ N1) as L. cbn [es ee] in *.
  set (dx := px v - px u) in *. set (dy := py v - py u) in *.
  set (m := ((px w - px v) * dx + (py w - py v) * dy) / (dx ^ 2 + dy ^ 2)).
  assert (Z : dx * (py w - py v) - dy * (px w - px v) = 0) by (unfold turn in T; unfold dx, dy in *; lra).
  assert (Em : m * (dx ^ 2 + dy ^ 2) = (px w - px v) * dx + (py w - py v) * dy) by (unfold m; field; lra).
  assert (Ex : px w - px v = m * dx).
  { apply (Rmult_eq_reg_r (dx ^ 2 + dy ^ 2)); [|lra]. replace (m * dx * (dx ^ 2 + dy ^ 2)) with (m * (dx ^ 2 + dy ^ 2) * dx) by ring.
    rewrite Em. assert (Q : dy * (dx * (py w - py v) - dy * (px w - px v)) = 0) by (rewrite Z; ring). lra. }
  assert (Ey : py w - py v = m * dy).
  { apply (Rmult_eq_reg_r (dx ^ 2 + dy ^ 2)); [|lra]. replace (m * dy * (dx ^ 2 + dy ^ 2)) with (m * (dx ^ 2 + dy ^ 2) * dy) by ring.
    rewrite Em. assert (Q : dx * (dx * (py w - py v) - dy * (px w - px v)) = 0) by (rewrite Z; ring). lra. }
  clearbody m. exists m. split; [|split; assumption].
  destruct (Rlt_or_le 0 m) as [M|M]; [exact M|exfalso].
  destruct (Req_dec m 0) as [->|Nm].
  { apply N2. apply pt_ext; lra. }
  set (s := Rmin 1 (- m) / 2). assert (Hs : 0 < Rmin 1 (- m)) by (apply Rmin_glb_lt; lra).
  pose proof (Rmin_l 1 (- m)). pose proof (Rmin_r 1 (- m)).
  assert (S1 : 0 < s < 1) by (unfold s; lra). assert (S2 : s <= - m) by (unfold s; lra).
  assert (O1 : on_seg (Ed u v) (at_t (Ed u v) (1 - s))) by (apply open_in; lra).
  assert (O2 : on_seg (Ed v w) (at_t (Ed u v) (1 - s))).
  { exists (s / - m). split.
    - split; [apply Rmult_le_pos; [lra|left; apply Rinv_0_lt_compat; lra]|].
      apply (Rmult_le_reg_r (- m)); [lra|]. replace (s / - m * - m) with s by (field; lra). lra.
    - apply pt_ext; unfold at_t; cbn [es ee px py]; rewrite ?Ex, ?Ey; unfold dx, dy; field; lra. }
  assert (E : Ed v w = Ed u v) by (apply (open_only l (Ed u v) (Ed v w) (1 - s)); auto; lra).
  apply N1. congruence.
Qed.
Lemma sees_corner : forall l u v w d e s q, 0 < s < 1 ->
  (forall f, In f (ring l) -> (f = Ed u v \/ f = Ed v w) \/ far d (Ed v v) f) ->
  edist (at_t e s) v < d -> edist q v < d ->
  (forall t, 0 < t <= 1 -> turn u v (at_t (Ed (at_t e s) q) t) <> 0 /\ turn v w (at_t (Ed (at_t e s) q) t) <> 0) ->
  sees l e q.
Proof.
  intros l u v w d e s q Hs F D1 D2 T. exists (at_t e s), s. split; [exact Hs|]. split; [reflexivity|].
  intros t Ht. destruct (T t Ht) as (T1 & T2). apply (corner_clear l u v w d F); [|exact T1|exact T2].
  replace v with (at_t (Ed v v) t) by (apply pt_ext; unfold at_t; cbn; ring). apply edist_lin; try assumption. lra.
Qed.

Lemma corner_side : forall l u v w c1 c2, simple l -> In (Ed u v) (ring l) -> In (Ed v w) (ring l) ->
  side l (Ed u v) c1 -> side l (Ed v w) c2 -> c1 = c2.
Proof.
  intros l u v w c1 c2 Sl H1 H2 S1 S2. destruct (corner_ball l u v w Sl H1 H2) as (d & Hd & F).
  pose proof (edet_ne _ (simple_ne l _ Sl H1)) as Le. cbn [es ee] in Le.
  assert (Z1 : forall h, at_t (Ed u v) (1 - h) = at_t (Ed v u) h) by (intros; apply pt_ext; unfold at_t; cbn; ring).
  destruct (Req_dec (turn u v w) 0) as [T0|T0].
  - destruct (straight_on l u v w Sl H1 H2 T0) as (m & Hm & Ex & Ey).
    set (n := Pt (px v - (py v - py u)) (py v + (px v - px u))).
    destruct (near_rays v d [u; w; n] Hd) as (h & Hh & R).
    assert (Ru := R u ltac:(left; reflexivity)). assert (Rw := R w ltac:(right; left; reflexivity)).
    assert (Rn := R n ltac:(right; right; left; reflexivity)). clear R.
    set (q := at_t (Ed v n) h) in *. set (L := (px v - px u) ^ 2 + (py v - py u) ^ 2) in *.
    assert (A1 : turn u v q = h * L) by (unfold turn, q, n, at_t, L; cbn [es ee px py]; ring).
    assert (A2 : turn v w q = m * (h * L)).
    { unfold turn. rewrite Ex, Ey. unfold q, n, at_t, L; cbn [es ee px py]; ring. }
    assert (B1 : turn u v (at_t (Ed v u) h) = 0) by (unfold turn, at_t; cbn [es ee px py]; ring).
    assert (B2 : turn v w (at_t (Ed v u) h) = 0).
    { unfold turn. rewrite Ex, Ey. unfold at_t; cbn [es ee px py]; ring. }
    assert (B3 : turn u v (at_t (Ed v w) h) = 0).
    { unfold turn, at_t; cbn [es ee px py]. rewrite Ex, Ey. ring. }
    assert (B4 : turn v w (at_t (Ed v w) h) = 0) by (unfold turn, at_t; cbn [es ee px py]; ring).
    assert (P : 0 < h * L) by (apply Rmult_lt_0_compat; lra). assert (P' : 0 < m * (h * L)) by (apply Rmult_lt_0_compat; lra).
    assert (Q1 : sees l (Ed u v) q).
    { apply (sees_corner l u v w d _ (1 - h)); [lra|exact F|rewrite Z1; exact Ru|exact Rn|].
      intros t Ht. rewrite Z1, (turn_lin u v _ q t), (turn_lin v w _ q t), A1, A2, B1, B2. split; nra. }
    assert (Q2 : sees l (Ed v w) q).
    { apply (sees_corner l u v w d _ h); [lra|exact F|exact Rw|exact Rn|].
      intros t Ht. rewrite (turn_lin u v _ q t), (turn_lin v w _ q t), A1, A2, B3, B4. split; nra. }
    destruct (S1 q Q1) as (X1 & _). destruct (S2 q Q2) as (X2 & _). cbn [es ee] in X1, X2.
    rewrite <- X1, <- X2; [reflexivity|lra|lra].
  - set (k := turn u v w) in *.
    set (n := Pt (px u + px w - px v) (py u + py w - py v)).
    destruct (near_rays v d [u; w; n] Hd) as (h & Hh & R).
    assert (Ru := R u ltac:(left; reflexivity)). assert (Rw := R w ltac:(right; left; reflexivity)).
    assert (Rn := R n ltac:(right; right; left; reflexivity)). clear R.
    set (q := at_t (Ed v n) h) in *.
    assert (A1 : turn u v q = h * k) by (unfold k, turn, q, n, at_t; cbn [es ee px py]; ring).
    assert (A2 : turn v w q = h * k) by (unfold k, turn, q, n, at_t; cbn [es ee px py]; ring).
    assert (B1 : turn u v (at_t (Ed v u) h) = 0) by (unfold turn, at_t; cbn [es ee px py]; ring).
    assert (B2 : turn v w (at_t (Ed v u) h) = h * k) by (unfold k, turn, at_t; cbn [es ee px py]; ring).
    assert (B3 : turn u v (at_t (Ed v w) h) = h * k) by (unfold k, turn, at_t; cbn [es ee px py]; ring).
    assert (B4 : turn v w (at_t (Ed v w) h) = 0) by (unfold turn, at_t; cbn [es ee px py]; ring).
    clearbody k.
    assert (N : h * k <> 0) by (apply Rmult_integral_contrapositive_currified; lra).
    assert (N' : forall t, 0 < t <= 1 -> (1 - t) * 0 + t * (h * k) <> 0 /\ (1 - t) * (h * k) + t * (h * k) <> 0).
    { intros t Ht. split.
      - replace ((1 - t) * 0 + t * (h * k)) with (t * (h * k)) by ring. apply Rmult_integral_contrapositive_currified; lra.
      - replace ((1 - t) * (h * k) + t * (h * k)) with (h * k) by ring. exact N. }
    assert (Q1 : sees l (Ed u v) q).
    { apply (sees_corner l u v w d _ (1 - h)); [lra|exact F|rewrite Z1; exact Ru|exact Rn|].
      intros t Ht. rewrite Z1, (turn_lin u v _ q t), (turn_lin v w _ q t), A1, A2, B1, B2. apply N', Ht. }
    assert (Q2 : sees l (Ed v w) q).
    { apply (sees_corner l u v w d _ h); [lra|exact F|exact Rw|exact Rn|].
      intros t Ht. rewrite (turn_lin u v _ q t), (turn_lin v w _ q t), A1, A2, B3, B4. destruct (N' t Ht); split; assumption. }
    destruct (S1 q Q1) as (X1 & Y1). destruct (S2 q Q2) as (X2 & Y2). cbn [es ee] in X1, X2, Y1, Y2.
    rewrite A1 in X1, Y1. rewrite A2 in X2, Y2.
    destruct (Rlt_or_le 0 (h * k)) as [P|P].
    + rewrite <- X1, <- X2; [reflexivity|lra|lra].
    + assert (Y : negb c1 = negb c2) by (rewrite <- Y1, <- Y2; [reflexivity|lra|lra]).
      destruct c1, c2; cbn in Y; congruence.
Qed.

(** *** the whole border *)
Lemma path_head : forall l first a, exists e r, path_edges first a l = e :: r /\ es e = a.
Proof. intros [|b l] first a; cbn; eauto. Qed.
Lemma path_sides : forall l0 c, simple l0 -> forall l first a,
  (forall e, In e (path_edges first a l) -> In e (ring l0)) ->
  (forall e r, path_edges first a l = e :: r -> side l0 e c) -> forall e, In e (path_edges first a l) -> side l0 e c.
Proof.
  intros l0 c Sl. induction l as [|b l IH]; intros first a I H e He.
  - cbn in *. destruct He as [<-|[]]. apply (H _ []). reflexivity.
  - cbn in He. destruct He as [<-|He]; [apply (H _ (path_edges first b l)); reflexivity|].
    apply (IH first b); [intros f Hf; apply I; right; exact Hf| |exact He].
    intros f r E. assert (Hf : In f (ring l0)) by (apply I; cbn; rewrite E; right; left; reflexivity).
    destruct (edge_sides l0 f Sl Hf) as (c' & Sf). replace c with c'; [exact Sf|]. symmetry.
    assert (Eb : es f = b) by (destruct (path_head l first b) as (f' & r' & E' & Eb); rewrite E in E'; congruence).
    destruct f as [b' w]. cbn in Eb. subst b'.
    apply (corner_side l0 a b w c c' Sl); [apply I; left; reflexivity|exact Hf|apply (H _ (path_edges first b l)); reflexivity|exact Sf].
Qed.
Lemma one_side : forall l, simple l -> exists c, forall e, In e (ring l) -> side l e c.
Proof.
  intros [|a l] Sl; [destruct Sl as (N & _); cbn in N; lia|].
  destruct (path_head l a a) as (e0 & r & E & _).
  destruct (edge_sides (a :: l) e0 Sl) as (c & S0); [cbn; rewrite E; left; reflexivity|].
  exists c. apply (path_sides (a :: l) c Sl l a a); [auto|]. intros e r' E'. rewrite E in E'. injection E' as <- <-. exact S0.
Qed.
