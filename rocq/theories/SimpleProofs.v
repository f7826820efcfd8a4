(** Simple polygons: the even-odd rule on the two sides of an edge. *)
From Coq Require Import Reals List Bool Lra Lia Psatz.
From Verif Require Import Base Num GeoModel HazardModel QTModel GeoSpec ShapeSpec SimplModel SimplSpec SimpleSpec
  ParityProofs CrossProofs GeoPrimProofs GeoRectProofs RegionProofs PierProofs ConstructProofs.
Import ListNotations.
Local Open Scope R_scope.
#[local] Existing Instance RNum.

(** *** distances *)
Lemma edist_at : forall e s t, edist (at_t e s) (at_t e t) = Rabs (s - t) * edist (es e) (ee e).
Proof.
  intros [[ax ay] [bx by']] s t. unfold edist, at_t; cbn [es ee px py].
  replace (_ + _) with (((s - t) * (s - t)) * ((ax - bx) ^ 2 + (ay - by') ^ 2)) by ring.
  rewrite sqrt_mult_alt by apply Rle_0_sqr. f_equal. change ((s - t) * (s - t)) with (Rsqr (s - t)). apply sqrt_Rsqr_abs.
Qed.
Lemma e_dist_lip : forall f p q, Rabs (e_dist f p - e_dist f q) <= edist p q.
Proof.
  intros f p q. destruct (e_dist_ok f p) as ((a & Oa & Ea) & Ba). destruct (e_dist_ok f q) as ((b & Ob & Eb) & Bb).
  pose proof (Ba b Ob). pose proof (Bb a Oa). pose proof (edist_tri p q b). pose proof (edist_tri q p a).
  rewrite (edist_sym q p) in *. apply Rabs_le. lra.
Qed.
Lemma e_dist_pos : forall f p, ~ on_seg f p -> 0 < e_dist f p.
Proof.
  intros f p N. destruct (e_dist_ok f p) as ((q & Oq & Eq) & _). pose proof (edist_nonneg p q).
  destruct (Req_dec (e_dist f p) 0) as [Z|Z]; [|lra]. exfalso. apply N. rewrite Z in Eq.
  assert (p = q); [|subst; exact Oq]. pose proof (edist_sq p q) as S. rewrite Eq in S.
  assert (X : (px p - px q) ^ 2 + (py p - py q) ^ 2 = 0) by lra. apply sumsq0 in X. apply pt_ext; lra.
Qed.
(** two disjoint segments have a positive distance *)
Lemma seg_sep : forall e f, disjoint_segs e f ->
  exists d, 0 < d /\ forall p q, on_seg e p -> on_seg f q -> d <= edist p q.
Proof.
  intros e f D. set (h := fun t => e_dist f (at_t e t)).
  assert (C : forall c, 0 <= c <= 1 -> continuity_pt h c).
  { intros c _. unfold continuity_pt, continue_in, limit1_in, limit_in. intros eps He.
    pose proof (edist_nonneg (es e) (ee e)) as L. exists (eps / (edist (es e) (ee e) + 1)).
    split; [apply Rdiv_lt_0_compat; lra|]. intros x (_ & Hx). cbn [dist R_met Base] in *. unfold R_dist in *. unfold h.
    eapply Rle_lt_trans; [apply e_dist_lip|]. rewrite edist_at.
    assert (Rabs (x - c) * (edist (es e) (ee e) + 1) < eps).
    { apply (Rmult_lt_compat_r (edist (es e) (ee e) + 1)) in Hx; [|lra].
      replace (eps / (edist (es e) (ee e) + 1) * (edist (es e) (ee e) + 1)) with eps in Hx by (field; lra). exact Hx. }
    pose proof (Rabs_pos (x - c)). lra. }
  destruct (continuity_ab_min h 0 1 ltac:(lra) C) as (m & Hm & Im).
  exists (h m). split.
  - apply e_dist_pos. intros O. apply (D (at_t e m)); [exists m; split; [exact Im|reflexivity]|exact O].
  - intros p q (t & Ht & ->) Oq. specialize (Hm t Ht). destruct (e_dist_ok f (at_t e t)) as (_ & B).
    specialize (B q Oq). unfold h in *. lra.
Qed.
Definition far (d : R) (s f : redge) : Prop := forall p q, on_seg s p -> on_seg f q -> d <= edist p q.
Lemma seg_sep_list : forall (P : redge -> Prop) s L, (forall f, In f L -> P f \/ disjoint_segs s f) ->
  exists d, 0 < d /\ forall f, In f L -> P f \/ far d s f.
Proof.
  intros P s. induction L as [|f L IH]; intros H; [exists 1; split; [lra|intros f []]|].
  destruct IH as (d & Hd & IH); [intros g Hg; apply H; right; exact Hg|].
  destruct (H f (or_introl eq_refl)) as [Pf|Df].
  - exists d. split; [exact Hd|]. intros g [<-|Hg]; [left; exact Pf|apply IH, Hg].
  - apply seg_sep in Df as (d' & Hd' & F). exists (Rmin d d'). split; [apply Rmin_glb_lt; assumption|].
    intros g [<-|Hg].
    + right. intros p q Hp Hq. eapply Rle_trans; [apply Rmin_r|apply F; assumption].
    + destruct (IH g Hg) as [X|X]; [left; exact X|right]. intros p q Hp Hq.
      eapply Rle_trans; [apply Rmin_l|apply X; assumption].
Qed.
Lemma pt_dec : forall p q : rpoint, {p = q} + {p <> q}.
Proof.
  intros [a b] [c d]. destruct (Req_EM_T a c) as [->|N]; [|right; congruence].
  destruct (Req_EM_T b d) as [->|N]; [left; reflexivity|right; congruence].
Qed.
Lemma edge_dec : forall e f : redge, {e = f} + {e <> f}.
Proof.
  intros [a b] [c d]. destruct (pt_dec a c) as [->|N]; [|right; congruence].
  destruct (pt_dec b d) as [->|N]; [left; reflexivity|right; congruence].
Qed.
(** points near two ends stay near the segment in between *)
Lemma edist_lin : forall z1 z2 w1 w2 t d, 0 <= t <= 1 -> edist w1 z1 < d -> edist w2 z2 < d ->
  edist (at_t (Ed w1 w2) t) (at_t (Ed z1 z2) t) < d.
Proof.
  intros z1 z2 w1 w2 t d Ht H1 H2.
  eapply Rle_lt_trans; [apply (edist_tri _ (at_t (Ed z1 w2) t))|].
  assert (E1 : edist (at_t (Ed w1 w2) t) (at_t (Ed z1 w2) t) = (1 - t) * edist w1 z1).
  { unfold edist, at_t; cbn [es ee px py].
    replace (_ + _) with (((1 - t) * (1 - t)) * ((px w1 - px z1) ^ 2 + (py w1 - py z1) ^ 2)) by ring.
    rewrite sqrt_mult_alt by apply Rle_0_sqr. rewrite sqrt_square by lra. reflexivity. }
  assert (E2 : edist (at_t (Ed z1 w2) t) (at_t (Ed z1 z2) t) = t * edist w2 z2).
  { unfold edist, at_t; cbn [es ee px py].
    replace (_ + _) with ((t * t) * ((px w2 - px z2) ^ 2 + (py w2 - py z2) ^ 2)) by ring.
    rewrite sqrt_mult_alt by apply Rle_0_sqr. rewrite sqrt_square by lra. reflexivity. }
  rewrite E1, E2. pose proof (edist_nonneg w1 z1). pose proof (edist_nonneg w2 z2).
  destruct (Req_dec t 0) as [->|N]; nra.
Qed.
(** points of a segment close to its start *)
Lemma close_by : forall z q d, 0 < d -> exists t, 0 < t <= 1 /\ edist (at_t (Ed z q) t) z < d.
Proof.
  intros z q d Hd. pose proof (edist_nonneg z q) as L. exists (d / (d + edist z q)).
  assert (E : d / (d + edist z q) * (d + edist z q) = d) by (field; lra).
  assert (P : 0 < d / (d + edist z q)) by (apply Rdiv_lt_0_compat; lra).
  split; [split; [exact P|nra]|].
  rewrite edist_sym. rewrite (edist_ray (Ed z q)) by lra. cbn [es ee]. nra.
Qed.
Lemma turn_lin : forall a b w1 w2 t, turn a b (at_t (Ed w1 w2) t) = (1 - t) * turn a b w1 + t * turn a b w2.
Proof. intros. unfold turn, at_t; cbn [es ee px py]. ring. Qed.
Lemma turn_on : forall a b p, on_seg (Ed a b) p -> turn a b p = 0.
Proof. intros a b p (t & _ & ->). unfold turn, at_t; cbn [es ee px py]. ring. Qed.
Lemma at_t_0 : forall e, at_t e 0 = es e.
Proof. intros [[ax ay] [bx by']]. apply pt_ext; unfold at_t; cbn; ring. Qed.
Lemma at_t_1 : forall e, at_t e 1 = ee e.
Proof. intros [[ax ay] [bx by']]. apply pt_ext; unfold at_t; cbn; ring. Qed.
Lemma at_t_inj : forall e s t, es e <> ee e -> at_t e s = at_t e t -> s = t.
Proof.
  intros [[ax ay] [bx by']] s t N E. unfold at_t in E; cbn in *.
  assert (X : (s - t) * (bx - ax) = 0 /\ (s - t) * (by' - ay) = 0) by (injection E; intros; split; lra).
  destruct X as (X & Y). destruct (Req_dec s t) as [H|H]; [exact H|exfalso].
  apply Rmult_integral in X. apply Rmult_integral in Y. apply N. f_equal; lra.
Qed.
Lemma edet_ne : forall e : redge, es e <> ee e -> 0 < (px (ee e) - px (es e)) ^ 2 + (py (ee e) - py (es e)) ^ 2.
Proof.
  intros [[ax ay] [bx by']] N. cbn [es ee px py] in *.
  pose proof (Rle_0_sqr (bx - ax)) as P. pose proof (Rle_0_sqr (by' - ay)) as Q. unfold Rsqr in *.
  destruct (Req_dec bx ax) as [->|H].
  - destruct (Req_dec by' ay) as [->|H]; [exfalso; apply N; reflexivity|].
    assert (0 < (by' - ay) * (by' - ay)) by (apply Rsqr_pos_lt; lra). lra.
  - assert (0 < (bx - ax) * (bx - ax)) by (apply Rsqr_pos_lt; lra). lra.
Qed.

(** *** what belongs to a simple polygon *)
Lemma simple_ne : forall l e, simple l -> In e (ring l) -> es e <> ee e.
Proof. intros l e (N & D & _) He. apply (nodup_nondegenerate l D); [lia|exact He]. Qed.
Lemma open_in : forall e s, 0 <= s <= 1 -> on_seg e (at_t e s).
Proof. intros e s H. exists s. split; [exact H|reflexivity]. Qed.
(** an inner point of an edge lies on no other edge *)
Lemma open_only : forall l e f s, simple l -> In e (ring l) -> In f (ring l) -> 0 < s < 1 -> on_seg f (at_t e s) -> f = e.
Proof.
  intros l e f s Sl He Hf Hs O. pose proof (simple_ne l e Sl He) as N. destruct Sl as (_ & _ & Sl).
  destruct (Sl e f (at_t e s) He Hf (open_in e s ltac:(lra)) O) as [X|[(X & _)|(X & _)]]; [congruence| |].
  - rewrite <- at_t_1 in X. apply at_t_inj in X; [lra|exact N].
  - rewrite <- at_t_0 in X. apply at_t_inj in X; [lra|exact N].
Qed.
Lemma ring_map_es : forall l, map es (ring l) = l.
Proof.
  assert (H : forall l first a, map es (path_edges first a l) = a :: l).
  { induction l as [|b l IH]; intros first a; simpl; [reflexivity|]. rewrite IH. reflexivity. }
  intros [|a l]; [reflexivity|]. apply H.
Qed.
Lemma vertex_edge : forall l v, In v l -> exists e, In e (ring l) /\ es e = v.
Proof. intros l v H. rewrite <- (ring_map_es l) in H. apply in_map_iff in H as (e & E & He). eauto. Qed.
Lemma start_inj : forall l e f, NoDup l -> In e (ring l) -> In f (ring l) -> es e = es f -> e = f.
Proof.
  intros l e f D. rewrite <- (ring_map_es l) in D. revert D. generalize (ring l) as L.
  induction L as [|g L IH]; intros D He Hf E; [destruct He|]. cbn in D. inversion D as [|x y N D']; subst.
  destruct He as [->|He], Hf as [->|Hf]; [reflexivity| | |auto].
  - exfalso. apply N. rewrite E. apply in_map, Hf.
  - exfalso. apply N. rewrite <- E. apply in_map, He.
Qed.
(** the number of times a listed edge is met in the ring *)
Lemma parity_one : forall l e, NoDup l -> In e (ring l) ->
  parity (fun f => if edge_dec f e then true else false) (ring l) = true.
Proof.
  intros l e D. rewrite <- (ring_map_es l) in D. revert D. generalize (ring l) as L.
  induction L as [|g L IH]; intros D He; [destruct He|]. cbn in D. inversion D as [|x y N D']; subst.
  change (xorb (if edge_dec g e then true else false) (parity (fun f => if edge_dec f e then true else false) L) = true).
  destruct (edge_dec g e) as [->|Ng].
  - assert (Z : forall M : list redge, ~ In e M -> parity (fun f => if edge_dec f e then true else false) M = false).
    { induction M as [|f M IHM]; intros NI; [reflexivity|].
      change (xorb (if edge_dec f e then true else false) (parity (fun f => if edge_dec f e then true else false) M) = false).
      destruct (edge_dec f e) as [->|]; [exfalso; apply NI; left; reflexivity|].
      rewrite xorb_false_l. apply IHM. intros X. apply NI. right. exact X. }
    rewrite Z; [reflexivity|]. intros X. apply N. apply in_map, X.
  - destruct He as [<-|He]; [contradiction|]. rewrite IH; auto.
Qed.

Lemma mix_in : forall a b t lo hi, lo < a < hi -> lo < b < hi -> 0 <= t <= 1 -> lo < a + t * (b - a) < hi.
Proof.
  intros a b t lo hi Ha Hb Ht. destruct (Rle_or_lt a b) as [L|L].
  - assert (0 <= t * (b - a)) by (apply Rmult_le_pos; lra).
    assert (0 <= (1 - t) * (b - a)) by (apply Rmult_le_pos; lra). lra.
  - assert (0 <= t * (a - b)) by (apply Rmult_le_pos; lra).
    assert (0 <= (1 - t) * (a - b)) by (apply Rmult_le_pos; lra). lra.
Qed.
Lemma mix_pos : forall u v t, 0 < u -> 0 < v -> 0 <= t <= 1 -> 0 < (1 - t) * u + t * v.
Proof.
  intros u v t Hu Hv Ht. pose proof (mix_in u v t 0 (u + v + 1) ltac:(lra) ltac:(lra) Ht). lra.
Qed.
(** *** near an edge *)
Section Edge.
  Variables (l : list rpoint) (e : redge).
  Hypotheses (Sl : simple l) (He : In e (ring l)).
  Lemma tube_far : forall s1 s2, 0 < s1 < 1 -> 0 < s2 < 1 ->
    exists d, 0 < d /\ forall f, In f (ring l) -> f = e \/ far d (Ed (at_t e s1) (at_t e s2)) f.
  Proof.
    intros s1 s2 H1 H2. apply seg_sep_list. intros f Hf. destruct (edge_dec f e) as [->|N]; [left; reflexivity|right].
    intros x (t & Ht & ->) O. apply N. rewrite at_t_at_t in O. apply (open_only l e f _ Sl He Hf) in O; [exact O|]. apply mix_in; assumption.
  Qed.
  (** a point next to the edge, but not in its line, is off the border *)
  Lemma tube_clear : forall s1 s2 d, (forall f, In f (ring l) -> f = e \/ far d (Ed (at_t e s1) (at_t e s2)) f) ->
    forall t w, 0 <= t <= 1 -> edist w (at_t (Ed (at_t e s1) (at_t e s2)) t) < d -> turn (es e) (ee e) w <> 0 -> ~ on_border l w.
  Proof.
    intros s1 s2 d F t w Ht Hw N (f & Hf & O). destruct (F f Hf) as [->|X].
    - apply N. apply turn_on. destruct e; exact O.
    - specialize (X _ w (open_in _ t Ht) O). rewrite edist_sym in X. lra.
  Qed.
  Lemma tube : forall s1 s2, 0 < s1 < 1 -> 0 < s2 < 1 ->
    exists d, 0 < d /\ forall w1 w2, edist w1 (at_t e s1) < d -> edist w2 (at_t e s2) < d ->
      0 < turn (es e) (ee e) w1 * turn (es e) (ee e) w2 -> even_odd l w1 = even_odd l w2.
  Proof.
    intros s1 s2 H1 H2. destruct (tube_far s1 s2 H1 H2) as (d & Hd & F). exists d. split; [exact Hd|].
    intros w1 w2 D1 D2 P. apply even_odd_path. intros x (t & Ht & ->).
    apply (tube_clear s1 s2 d F t); [exact Ht|apply edist_lin; assumption|].
    rewrite turn_lin. set (u := turn _ _ w1) in *. set (v := turn _ _ w2) in *. clearbody u v.
    destruct (Rlt_or_le 0 u) as [U|U].
    - assert (V : 0 < v) by nra. pose proof (mix_pos u v t U V Ht). lra.
    - assert (U' : 0 < - u) by (destruct (Req_dec u 0) as [->|]; lra). assert (V : 0 < - v) by nra. pose proof (mix_pos _ _ t U' V Ht). lra.
  Qed.
  Definition beside (s h : R) : rpoint :=
    Pt (px (at_t e s) - h * (py (ee e) - py (es e))) (py (at_t e s) + h * (px (ee e) - px (es e))).
  Lemma beside_turn : forall s h, turn (es e) (ee e) (beside s h) = h * ((px (ee e) - px (es e)) ^ 2 + (py (ee e) - py (es e)) ^ 2).
  Proof. intros. unfold turn, beside, at_t; cbn [px py]. ring. Qed.
  Lemma beside_dist : forall s h, edist (beside s h) (at_t e s) = Rabs h * edist (es e) (ee e).
  Proof.
    intros s h. unfold edist, beside; cbn [px py].
    match goal with |- sqrt ?x = _ => replace x with ((h * h) * ((px (es e) - px (ee e)) ^ 2 + (py (es e) - py (ee e)) ^ 2)) by ring end.
    rewrite sqrt_mult_alt by apply Rle_0_sqr. f_equal. change (h * h) with (Rsqr h). apply sqrt_Rsqr_abs.
  Qed.
  Lemma beside_small : forall d, 0 < d -> exists h, 0 < h /\ forall s, edist (beside s h) (at_t e s) < d /\ edist (beside s (- h)) (at_t e s) < d.
  Proof.
    intros d Hd. pose proof (edist_nonneg (es e) (ee e)) as L. set (D := edist (es e) (ee e)) in *.
    exists (d / (d + D)).
    assert (E : d / (d + D) * (d + D) = d) by (field; lra).
    assert (P : 0 < d / (d + D)) by (apply Rdiv_lt_0_compat; lra).
    split; [exact P|]. intros s. rewrite !beside_dist, Rabs_Ropp, Rabs_right by lra. fold D. split; nra.
  Qed.
  (** crossing the edge flips the rule *)
  Lemma flip : exists d, 0 < d /\ forall h, 0 < h -> h * edist (es e) (ee e) < d ->
    even_odd l (beside (/2) h) = negb (even_odd l (beside (/2) (- h))).
  Proof.
    assert (Hs : 0 < / 2 < 1) by lra. destruct (tube_far _ _ Hs Hs) as (d & Hd & F). exists d. split; [exact Hd|].
    pose proof (simple_ne l e Sl He) as Ne. pose proof (edet_ne e Ne) as Le.
    assert (Z : forall t, at_t (Ed (at_t e (/ 2)) (at_t e (/ 2))) t = at_t e (/ 2)).
    { intros t. rewrite at_t_at_t. f_equal. ring. }
    assert (C : forall w, edist w (at_t e (/ 2)) < d -> turn (es e) (ee e) w <> 0 -> ~ on_border l w).
    { intros w Hw N. apply (tube_clear _ _ d F 0 w); [lra|rewrite Z; exact Hw|exact N]. }
    intros h Hh Hd'.
    assert (D1 : edist (beside (/ 2) h) (at_t e (/ 2)) < d) by (rewrite beside_dist, Rabs_right; lra).
    assert (D2 : edist (beside (/ 2) (- h)) (at_t e (/ 2)) < d) by (rewrite beside_dist, Rabs_Ropp, Rabs_right; lra).
    set (p := beside (/ 2) h) in *. set (q := beside (/ 2) (- h)) in *.
    assert (Tp : 0 < turn (es e) (ee e) p) by (unfold p; rewrite beside_turn; nra).
    assert (Tq : turn (es e) (ee e) q < 0) by (unfold q; rewrite beside_turn; nra).
    assert (In_seg : forall x, on_seg (Ed p q) x -> edist x (at_t e (/ 2)) < d).
    { intros x (t & Ht & ->). rewrite <- (Z t). apply edist_lin; assumption. }
    assert (Mid : forall x, on_seg (Ed p q) x -> turn (es e) (ee e) x = 0 -> x = at_t e (/ 2)).
    { intros x (t & Ht & ->) T0. rewrite turn_lin in T0. unfold p, q in T0. rewrite !beside_turn in T0.
      set (L := (px (ee e) - px (es e)) ^ 2 + (py (ee e) - py (es e)) ^ 2) in *.
      assert (t = / 2).
      { assert (X : (1 - 2 * t) * (h * L) = 0) by lra. apply Rmult_integral in X as [X|X]; [lra|].
        assert (0 < h * L) by (apply Rmult_lt_0_compat; assumption). lra. }
      subst t. apply pt_ext; unfold p, q, beside, at_t; cbn [es ee px py]; field. }
    assert (X : xorb (even_odd l p) (even_odd l q) = true).
    { rewrite (even_odd_cross l p q (fun f => if edge_dec f e then true else false)).
      - apply parity_one; [apply Sl|exact He].
      - apply C; [exact D1|lra].
      - apply C; [exact D2|lra].
      - intros v Hv O. destruct (vertex_edge l v Hv) as (f & Hf & <-). destruct (F f Hf) as [->|X].
        + assert (M := Mid _ O ltac:(unfold turn; ring)). rewrite <- at_t_0 in M. apply at_t_inj in M; [lra|exact Ne].
        + specialize (X (at_t e (/ 2)) (es f)). rewrite edist_sym in X. specialize (In_seg _ O).
          assert (d <= edist (es f) (at_t e (/ 2))); [|lra]. apply X; [|apply on_seg_start].
          exists 0. split; [lra|]. rewrite Z. reflexivity.
      - intros f Hf. destruct (edge_dec f e) as [->|N].
        + split; [intros _|reflexivity]. exists (at_t e (/ 2)). split; [apply open_in; lra|].
          exists (/ 2). split; [lra|]. apply pt_ext; unfold p, q, beside, at_t; cbn [es ee px py]; field.
        + split; [discriminate|]. intros (x & Ox & Os). exfalso. destruct (F f Hf) as [->|X]; [contradiction|].
          specialize (X (at_t e (/ 2)) x). rewrite edist_sym in X. specialize (In_seg _ Os).
          assert (d <= edist x (at_t e (/ 2))); [|lra]. apply X; [|exact Ox].
          exists 0. split; [lra|]. rewrite Z. reflexivity. }
    destruct (even_odd l p), (even_odd l q); cbn in *; congruence.
  Qed.
  (** each side of an edge has one value, and the other side the other value *)
  Lemma edge_sides : exists c, forall q, sees l e q ->
    (0 < turn (es e) (ee e) q -> even_odd l q = c) /\ (turn (es e) (ee e) q < 0 -> even_odd l q = negb c).
  Proof.
    pose proof (simple_ne l e Sl He) as Ne. pose proof (edet_ne e Ne) as Le.
    assert (H2 : 0 < / 2 < 1) by lra. destruct (tube _ _ H2 H2) as (d0 & Hd0 & T0). destruct flip as (d1 & Hd1 & F1).
    destruct (beside_small (Rmin d0 d1)) as (h0 & Hh0 & B0); [apply Rmin_glb_lt; assumption|].
    assert (M0 := Rmin_l d0 d1). assert (M1 := Rmin_r d0 d1).
    exists (even_odd l (beside (/ 2) h0)). intros q (z & s & Hs & -> & V).
    destruct (tube _ _ H2 Hs) as (d & Hd & T).
    destruct (beside_small (Rmin d d0)) as (h & Hh & B); [apply Rmin_glb_lt; assumption|].
    assert (M2 := Rmin_l d d0). assert (M3 := Rmin_r d d0).
    destruct (close_by (at_t e s) q d Hd) as (t & Ht & Dt). set (w := at_t (Ed (at_t e s) q) t) in *.
    assert (Eq : even_odd l w = even_odd l q).
    { apply even_odd_path. intros x (u & Hu & ->). unfold w.
      replace (at_t (Ed (at_t (Ed (at_t e s) q) t) q) u) with (at_t (Ed (at_t e s) q) (t + u * (1 - t))).
      - apply V. nra.
      - apply pt_ext; unfold at_t; cbn [es ee px py]; ring. }
    assert (Tw : turn (es e) (ee e) w = t * turn (es e) (ee e) q).
    { unfold w. rewrite turn_lin. replace (turn (es e) (ee e) (at_t e s)) with 0; [ring|]. unfold turn, at_t; cbn [px py]; ring. }
    destruct (B (/ 2)) as (B1 & B2). destruct (B0 (/ 2)) as (C1 & C2).
    split; intros Tq; rewrite <- Eq.
    - rewrite <- (T (beside (/ 2) h) w); [|lra|exact Dt|rewrite Tw, beside_turn; apply Rmult_lt_0_compat; [nra|apply Rmult_lt_0_compat; lra]].
      apply T0; [lra|lra|]. rewrite !beside_turn. apply Rmult_lt_0_compat; nra.
    - rewrite <- (T (beside (/ 2) (- h)) w); [|lra|exact Dt|].
      + rewrite (F1 h0); [rewrite negb_involutive|exact Hh0|rewrite beside_dist, Rabs_right in C1; lra].
        apply T0; [lra|lra|]. rewrite !beside_turn. set (L := _ + _) in *. clearbody L.
        replace (- h * L * (- h0 * L)) with ((h * L) * (h0 * L)) by ring. repeat apply Rmult_lt_0_compat; assumption.
      + rewrite Tw, beside_turn. set (L := _ + _) in *. clearbody L.
        replace (- h * L * (t * turn (es e) (ee e) q)) with ((h * L) * (t * - turn (es e) (ee e) q)) by ring.
        repeat apply Rmult_lt_0_compat; lra.
  Qed.
End Edge.
