(** Clipping a ray to a polygon. *)
From Coq Require Import Reals List Bool Arith Lra Lia Psatz Permutation Sorted.
From Verif Require Import Base Num GeoModel HazardModel QTModel TransfModel PolyModel GeoSpec ShapeSpec PlaceSpec
  BaseProofs QTProofs ParityProofs GeoPrimProofs GeoRectProofs PipProofs TouchProofs RegionProofs HullProofs PoleProofs CrossProofs.
Import ListNotations.
Local Open Scope R_scope.
#[local] Existing Instance RNum.
#[local] Existing Instance RTrig.

(** *** what [clip] returns *)
Definition hits (l : list rpoint) (ray : redge) : list rpoint := omap (fun e => e_collides_at e ray) (ring l).
Lemma omap_map : forall {A B C} (g : A -> B) (f : B -> option C) l, omap f (map g l) = omap (fun x => f (g x)) l.
Proof. intros. induction l as [|x l IH]; cbn; [reflexivity|]. rewrite IH. reflexivity. Qed.
Lemma omap_id_map : forall {A C} (f : A -> option C) l, omap (fun x => x) (map f l) = omap f l.
Proof. intros. induction l as [|x l IH]; cbn; [reflexivity|]. rewrite IH. reflexivity. Qed.
Lemma in_omap : forall {A B} (f : A -> option B) l y, In y (omap f l) <-> exists x, In x l /\ f x = Some y.
Proof.
  intros A B f l y. induction l as [|x l IH]; cbn.
  - split; [intros []|intros (x & [] & _)].
  - destruct (f x) as [z|] eqn:E; cbn; rewrite IH; split.
    + intros [->|(x' & I & F)]; eauto.
    + intros (x' & [<-|I] & F); [left; congruence|right; eauto].
    + intros (x' & I & F); eauto.
    + intros (x' & [<-|I] & F); [congruence|eauto].
Qed.
Lemma clip_eq : forall trim s ray, wf_poly s ->
  clip trim s ray = (a <- pp_collides s (es ray) ;; b <- pp_collides s (ee ray) ;; _ <- rassert (negb a && negb b) ;;
    Ok (clip_pairs trim (sort_by (fun p => pt_dist (es ray) p) (hits (p_pts s) ray)))).
Proof.
  intros trim s ray W. unfold clip. destruct (pp_collides s (es ray)) as [a|]; [|reflexivity]. cbn [rbind].
  destruct (pp_collides s (ee ray)) as [b|]; [|reflexivity]. cbn [rbind].
  destruct (rassert (negb a && negb b)); [|reflexivity]. cbn [rbind].
  rewrite (rmapM_ok _ (fun i => e_collides_at (edge_at s i) ray)).
  2: { intros i Hi. unfold edge_indices in Hi. apply in_seq in Hi. rewrite (get_edge_at s i W) by lia. reflexivity. }
  cbn [rbind]. rewrite omap_id_map. unfold hits. rewrite <- (map_edge_at s W), omap_map. reflexivity.
Qed.
Lemma clip_inv : forall trim s ray segs, wf_poly s -> clip trim s ray = Ok segs ->
  segs = clip_pairs trim (sort_by (fun p => pt_dist (es ray) p) (hits (p_pts s) ray)).
Proof.
  intros trim s ray segs W E. rewrite (clip_eq trim s ray W) in E.
  destruct (pp_collides s (es ray)) as [a|]; [|discriminate]. cbn [rbind] in E.
  destruct (pp_collides s (ee ray)) as [b|]; [|discriminate]. cbn [rbind] in E.
  destruct (rassert (negb a && negb b)); [|discriminate]. cbn [rbind] in E. injection E as <-. reflexivity.
Qed.
(** the pieces are the pairs at even positions *)
Lemma pairs_at : forall trim n l e, (length l <= n)%nat -> In e (clip_pairs trim l) ->
  exists k pre a b r, length pre = (k + k)%nat /\ l = pre ++ a :: b :: r /\ a <> b /\ e = e_scale (Ed a b) trim.
Proof.
  intros trim n. induction n as [|n IH]; intros [|a [|b r]] e L H; cbn [clip_pairs length] in *; try (destruct H; fail); try lia.
  assert (Rec : In e (clip_pairs trim r) -> exists k pre a' b' r', length pre = (k + k)%nat /\ a :: b :: r = pre ++ a' :: b' :: r' /\ a' <> b' /\ e = e_scale (Ed a' b') trim).
  { intros K. destruct (IH r e ltac:(lia) K) as (k & pre & a' & b' & r' & Lp & -> & Ne & ->).
    exists (S k), (a :: b :: pre), a', b', r'. cbn [length]. repeat split; auto. lia. }
  destruct (pt_eq a b) eqn:Q; [exact (Rec H)|]. destruct H as [<-|H]; [|exact (Rec H)].
  exists 0%nat, [], a, b, r. repeat split. intros ->. assert (pt_eq b b = true) by (apply pt_eq_ok; reflexivity). congruence.
Qed.
Lemma scale_sub : forall e f p, 0 <= f <= 1 -> on_seg (e_scale e f) p -> on_seg e p.
Proof.
  intros [[ax ay] [bx by']] f p Hf (t & Ht & ->). exists ((1 - f) / 2 + t * f). split; [nra|].
  apply pt_ext; unfold e_scale, at_t, f2; cbn [es ee px py fadd fsub fmul fdiv f1 RNum RNumT]; field.
Qed.

(** *** along a ray *)
Lemma edist_ray : forall e t, 0 <= t -> edist (es e) (at_t e t) = t * edist (es e) (ee e).
Proof.
  intros [[ax ay] [bx by']] t Ht. unfold edist, at_t; cbn [es ee px py].
  replace (_ + _) with ((t * t) * ((ax - bx) * (ax - bx) + (ay - by') * (ay - by'))) by ring.
  rewrite sqrt_mult_alt by nra. rewrite sqrt_square by exact Ht. f_equal. f_equal. ring.
Qed.
Lemma at_t_at_t : forall e s t u, at_t (Ed (at_t e s) (at_t e t)) u = at_t e (s + u * (t - s)).
Proof. intros [[ax ay] [bx by']] s t u. apply pt_ext; unfold at_t; cbn [es ee px py]; ring. Qed.
Lemma at_t_0 : forall e, at_t e 0 = es e.
Proof. intros [[ax ay] [bx by']]. apply pt_ext; unfold at_t; cbn [es ee px py]; ring. Qed.
Lemma at_t_inj : forall e s t, 0 < edist (es e) (ee e) -> 0 <= s -> 0 <= t -> at_t e s = at_t e t -> s = t.
Proof.
  intros e s t L Hs Ht E. pose proof (edist_ray e s Hs) as E1. rewrite E, (edist_ray e t Ht) in E1. nra.
Qed.

(** parity of the number of hits in a list *)
Lemma parity_omap : forall {A B} (f : A -> option B) (g : B -> bool) l,
  parity g (omap f l) = parity (fun x => match f x with Some y => g y | None => false end) l.
Proof.
  intros A B f g l. unfold parity in *. induction l as [|x l IH]; cbn; [reflexivity|]. destruct (f x); cbn; rewrite IH; [reflexivity|].
  symmetry. apply xorb_false_l.
Qed.
Lemma parity_app : forall {A} (f : A -> bool) l m, parity f (l ++ m) = xorb (parity f l) (parity f m).
Proof. intros A f l m. induction l as [|x l IH]; cbn; [symmetry; apply xorb_false_l|]. unfold parity in *. rewrite IH. symmetry. apply xorb_assoc. Qed.
Lemma parity_none : forall {A} (f : A -> bool) l, (forall x, In x l -> f x = false) -> parity f l = false.
Proof.
  intros A f l. induction l as [|x l IH]; intros H; [reflexivity|]. cbn [parity fold_right]. rewrite (H x) by (left; reflexivity). rewrite xorb_false_l.
  apply IH. intros y I. apply H. right; exact I.
Qed.
Lemma parity_all : forall {A} (f : A -> bool) l, (forall x, In x l -> f x = true) -> parity f l = Nat.odd (length l).
Proof.
  intros A f l. induction l as [|x l IH]; intros H; [reflexivity|]. cbn [length parity fold_right]. rewrite (H x) by (left; reflexivity).
  change (fold_right (fun x0 b => xorb (f x0) b) false l) with (parity f l).
  rewrite IH by (intros y I; apply H; right; exact I). rewrite Nat.odd_succ, <- Nat.negb_odd. reflexivity.
Qed.

Section Clip.
  Variable l : list rpoint.
  Variable ray : redge.
  Hypothesis Gen : ray_general l ray.
  Lemma hit_spec : forall e x, In e (ring l) -> (e_collides_at e ray = Some x <-> on_seg e x /\ on_seg ray x).
  Proof.
    intros e x He. split.
    - intros H. apply ei_sound in H. tauto.
    - intros (A & B). apply ei_complete; [|assumption|assumption].
      apply (properly_det e ray x A B). destruct Gen as (G1 & G2 & G3). destruct (ring_in _ _ He) as (V1 & V2). repeat split.
      + intros O. apply G1. left. exists e. auto.
      + intros O. apply G2. left. exists e. auto.
      + apply G3, V1.
      + apply G3, V2.
  Qed.
  Lemma in_hits : forall x, In x (hits l ray) -> on_border l x /\ on_seg ray x.
  Proof.
    intros x H. apply in_omap in H as (e & He & Ex). apply ei_sound in Ex as (A & B & _). split; [exists e; auto|exact B].
  Qed.
  (** a point of the ray off the border is inside iff an odd number of hits lie before it *)
  Lemma inside_odd : forall z, on_seg ray z -> ~ on_border l z ->
    even_odd l z = parity (fun x => Rltb (edist (es ray) x) (edist (es ray) z)) (hits l ray).
  Proof.
    intros z (tz & Hz & Ez) Nz. pose proof Gen as (G1 & G2 & G3).
    assert (O1 : ~ on_border l (es ray)) by (intros O; apply G1; left; exact O).
    assert (E1 : even_odd l (es ray) = false) by (destruct (even_odd l (es ray)) eqn:E; [exfalso; apply G1; right; exact E|reflexivity]).
    pose proof (edist_nonneg (es ray) (ee ray)) as Len.
    rewrite <- (xorb_false_l (even_odd l z)), <- E1.
    assert (V : forall v, In v l -> ~ on_seg (Ed (es ray) z) v).
    { intros v Hv (u & Hu & ->). apply (G3 _ Hv). rewrite <- (at_t_0 ray), Ez, at_t_at_t. eexists. split; [|reflexivity]. nra. }
    unfold hits. rewrite parity_omap.
    apply (even_odd_cross l (es ray) z); auto.
    intros e He. cbn beta. split.
    - destruct (e_collides_at e ray) as [x|] eqn:Ex; [|discriminate]. intros L. apply Rltb_spec in L.
      apply hit_spec in Ex as (A & (tx & Hx & B)); [|exact He]. exists x. split; [exact A|].
      rewrite B, Ez, !edist_ray in L by lra.
      assert (tx <= tz) by nra. rewrite <- (at_t_0 ray), Ez, B.
      destruct (Req_dec tz 0); [exists 0; split; [lra|]; rewrite at_t_at_t; f_equal; lra|].
      exists (tx / tz). split; [|rewrite at_t_at_t; f_equal; field; assumption].
      split; [apply Rmult_le_reg_r with tz|apply Rmult_le_reg_r with tz]; try lra; unfold Rdiv; rewrite Rmult_assoc, Rinv_l; lra.
    - intros (x & A & (u & Hu & B)).
      assert (Ox : on_seg ray x) by (rewrite B, <- (at_t_0 ray), Ez, at_t_at_t; eexists; split; [|reflexivity]; nra).
      rewrite (proj2 (hit_spec e x He)) by auto. apply Rltb_spec.
      assert (Bx : x = at_t ray (0 + u * (tz - 0))) by (rewrite B, <- (at_t_0 ray), Ez, at_t_at_t; reflexivity).
      rewrite Bx, Ez, !edist_ray by nra.
      assert (u * tz <> tz). { intros Q. apply Nz. exists e. split; [exact He|]. rewrite Ez, <- Q. replace (u * tz) with (0 + u * (tz - 0)) by ring. rewrite <- Bx. exact A. }
      assert (0 < edist (es ray) (ee ray)); [|nra]. destruct Len as [|Z]; [assumption|]. exfalso. apply O1. exists e. split; [exact He|].
      symmetry in Z. assert (Zx : edist (es ray) x = 0) by (rewrite Bx, edist_ray, Z by nra; ring). apply zero_eq in Zx. rewrite Zx. exact A.
  Qed.
  (** between the hits at positions 2k and 2k + 1 the ray is inside *)
  Lemma between_inside : forall k pre a b r, length pre = (k + k)%nat ->
    sort_by (fun p => pt_dist (es ray) p) (hits l ray) = pre ++ a :: b :: r -> seg_inside l (Ed a b).
  Proof.
    intros k pre a b r Lp E z Oz. destruct (sort_ok (fun p => pt_dist (es ray) p) (hits l ray)) as (Ss & Sp & _).
    change (sort_by (fun p => pt_dist (es ray) p) (hits l ray)) with (sort_by (fun p : rpoint => pt_dist (es ray) p) (hits l ray)) in *.
    rewrite E in Ss, Sp.
    assert (D : forall p, pt_dist (es ray) p = edist (es ray) p) by (intros; apply pt_dist_ok).
    assert (I : forall x, In x (pre ++ a :: b :: r) -> on_border l x /\ on_seg ray x) by (intros x Hx; apply in_hits; eapply Permutation_in; eauto).
    destruct (I a) as (_ & (ta & Ha & Ea)); [apply in_elt|].
    destruct (I b) as (_ & (tb & Hb & Eb)); [apply in_or_app; right; right; left; reflexivity|].
    assert (Split : forall x, In x (pre ++ [a]) -> edist (es ray) x <= edist (es ray) a).
    { intros x Hx. clear - Ss Hx D. apply in_app_iff in Hx. destruct Hx as [Hx|[<-|[]]]; [|lra].
      induction pre as [|y pre IH]; [destruct Hx|]. cbn [app] in Ss. apply StronglySorted_inv in Ss as (S1 & S2).
      destruct Hx as [<-|Hx]; [|apply IH; assumption]. rewrite Forall_forall in S2. rewrite <- !D. apply (S2 a). apply in_elt. }
    assert (Split2 : forall x, In x (b :: r) -> edist (es ray) b <= edist (es ray) x /\ edist (es ray) a <= edist (es ray) b).
    { intros x Hx. clear - Ss Hx D.
      induction pre as [|y pre IH]; cbn [app] in Ss; apply StronglySorted_inv in Ss as (S1 & S2); [|auto].
      apply StronglySorted_inv in S1 as (S3 & S4). rewrite Forall_forall in S2, S4. split.
      - destruct Hx as [<-|Hx]; [lra|]. rewrite <- !D. apply (S4 x Hx).
      - rewrite <- !D. apply (S2 b). left; reflexivity. }
    destruct (Split2 b) as (_ & Hab); [left; reflexivity|].
    destruct Oz as (u & Hu & Ez). assert (Ez' : z = at_t ray (ta + u * (tb - ta))) by (rewrite Ez, Ea, Eb; apply at_t_at_t).
    pose proof (edist_nonneg (es ray) (ee ray)) as Len.
    assert (Hz : edist (es ray) a <= edist (es ray) z <= edist (es ray) b).
    { rewrite Ez', Ea, Eb, !edist_ray in * by nra. nra. }
    destruct (on_border_dec l z) as [O|O]; [left; exact O|]. right.
    rewrite inside_odd; [|eexists; split; [|exact Ez']; nra|exact O].
    rewrite (parity_perm _ _ _ (Permutation_sym Sp)).
    replace (pre ++ a :: b :: r) with ((pre ++ [a]) ++ b :: r) by (rewrite <- app_assoc; reflexivity).
    rewrite parity_app, parity_all, parity_none.
    - rewrite app_length, Lp. cbn [length]. rewrite xorb_false_r. replace (k + k + 1)%nat with (1 + 2 * k)%nat by lia.
      rewrite Nat.odd_add_mul_2. reflexivity.
    - intros x Hx. apply Rltb_nspec. destruct (Split2 x Hx). lra.
    - intros x Hx. apply Rltb_spec. pose proof (Split x Hx) as L. destruct (Rlt_dec (edist (es ray) x) (edist (es ray) z)) as [|N]; [assumption|].
      exfalso. assert (Q : edist (es ray) x = edist (es ray) z) by lra.
      destruct (I x) as (Bx & (tx & Ht & Ex)). { apply in_app_iff in Hx. apply in_or_app. destruct Hx as [Hx|[<-|[]]]; [left; exact Hx|right; left; reflexivity]. }
      apply O. replace z with x; [exact Bx|]. rewrite Ex, Ez' in *. rewrite !edist_ray in Q by nra.
      destruct Len as [Len|Len].
      + f_equal. nra.
      + symmetry in Len. apply zero_eq in Len. destruct ray as [[rx ry] [sx sy]]. cbn [es ee] in Len. injection Len as -> ->.
        apply pt_ext; unfold at_t; cbn [es ee px py]; ring.
  Qed.
End Clip.

(** *** all pieces *)
Theorem clip_inside : forall trim s ray segs e, sound_poly s -> 0 <= trim <= 1 -> ray_general (p_pts s) ray ->
  clip trim s ray = Ok segs -> In e segs -> seg_inside (p_pts s) e.
Proof.
  intros trim s ray segs e (Nd & Bx) Ht G E I. assert (W : wf_poly s) by (apply wf_ring; exact Nd).
  rewrite (clip_inv _ _ _ _ W E) in I. destruct (pairs_at _ _ _ _ (Nat.le_refl _) I) as (k & pre & a & b & r & L & Eq & _ & ->).
  intros p O. apply (between_inside (p_pts s) ray G k pre a b r L Eq). exact (scale_sub _ _ _ Ht O).
Qed.
Theorem clip_convex : forall trim s ray segs e, sound_poly s -> 0 <= trim <= 1 -> convex_shape (p_pts s) ->
  clip trim s ray = Ok segs -> In e segs -> seg_inside (p_pts s) e.
Proof.
  intros trim s ray segs e (Nd & Bx) Ht G E I. assert (W : wf_poly s) by (apply wf_ring; exact Nd).
  rewrite (clip_inv _ _ _ _ W E) in I. destruct (pairs_at _ _ _ _ (Nat.le_refl _) I) as (k & pre & a & b & r & L & Eq & _ & ->).
  destruct (sort_ok (fun p => pt_dist (es ray) p) (hits (p_pts s) ray)) as (_ & Sp & _).
  assert (H : forall x, In x (pre ++ a :: b :: r) -> on_border (p_pts s) x).
  { intros x Hx. rewrite <- Eq in Hx. assert (Hh : In x (hits (p_pts s) ray)) by (eapply Permutation_in; [exact Sp|exact Hx]).
    apply in_omap in Hh as (f & Hf & Ef). apply ei_sound in Ef as (A & _). exists f. auto. }
  intros p O. apply (G a b); [apply H, in_elt|apply H, in_or_app; right; right; left; reflexivity|]. exact (scale_sub _ _ _ Ht O).
Qed.
(** without a vertex on the ray and with both ends outside [clip] does not panic *)
Theorem clip_total : forall trim s ray, sound_poly s -> ray_general (p_pts s) ray -> exists segs, clip trim s ray = Ok segs.
Proof.
  intros trim s ray (Nd & Bx) (G1 & G2 & _). assert (W : wf_poly s) by (apply wf_ring; exact Nd). rewrite (clip_eq _ _ _ W).
  assert (P : forall p, ~ region (p_pts s) p -> pp_collides s p = Ok false).
  { intros p N. rewrite pip; auto; [|intros O; apply N; left; exact O]. f_equal. destruct (even_odd (p_pts s) p) eqn:E; [|reflexivity]. exfalso. apply N. right; exact E. }
  rewrite (P _ G1), (P _ G2). cbn. eauto.
Qed.
