(** When the borders of two polygons meet, two of their edges meet at an angle. *)
From Coq Require Import Reals List Bool Lra Psatz Lia.
From Verif Require Import Base Num GeoModel HazardModel GeoSpec ParityProofs GeoPrimProofs PipProofs.
Import ListNotations.
Local Open Scope R_scope.
#[local] Existing Instance RNum.

Lemma path_next : forall l first a e, In e (path_edges first a l) ->
  ee e = first \/ exists f, In f (path_edges first a l) /\ es f = ee e.
Proof.
  induction l as [|b l IH]; intros first a e; cbn [path_edges]; intros [<-|H]; cbn [ee].
  - left; reflexivity.
  - destruct H.
  - right. destruct l as [|c l]; [exists (Ed b first)|exists (Ed b c)]; (split; [right; left; reflexivity|reflexivity]).
  - destruct (IH first b e H) as [E|(f & Hf & E)]; [left; exact E|right; exists f; split; [right; exact Hf|exact E]].
Qed.
Lemma path_prev : forall l first a e, In e (path_edges first a l) ->
  es e = a \/ exists f, In f (path_edges first a l) /\ ee f = es e.
Proof.
  induction l as [|b l IH]; intros first a e; cbn [path_edges]; intros [<-|H]; cbn [es]; try (left; reflexivity).
  - destruct H.
  - right. destruct (IH first b e H) as [E|(f & Hf & E)].
    + exists (Ed a b). split; [left; reflexivity|]. simpl. congruence.
    + exists f. split; [right; exact Hf|exact E].
Qed.
Lemma path_first : forall l first a, exists e, In e (path_edges first a l) /\ es e = a.
Proof. intros [|b l] first a; simpl; eauto. Qed.
Lemma path_last : forall l first a, exists e, In e (path_edges first a l) /\ ee e = first.
Proof.
  induction l as [|b l IH]; intros first a; [simpl; eauto|].
  destruct (IH first b) as (e & H & E). exists e. split; [right; exact H|exact E].
Qed.
Lemma ring_next : forall l e, In e (ring l) -> exists f, In f (ring l) /\ es f = ee e.
Proof.
  intros [|a l] e H; [destruct H|]. destruct (path_next l a a e H) as [E|K]; [|exact K].
  destruct (path_first l a a) as (f & Hf & Ef). exists f. split; [exact Hf|congruence].
Qed.
Lemma ring_prev : forall l e, In e (ring l) -> exists f, In f (ring l) /\ ee f = es e.
Proof.
  intros [|a l] e H; [destruct H|]. destruct (path_prev l a a e H) as [E|K]; [|exact K].
  destruct (path_last l a a) as (f & Hf & Ef). exists f. split; [exact Hf|congruence].
Qed.
Lemma vertex_border : forall l v, In v l -> on_border l v.
Proof.
  intros [|a l] v H; [destruct H|].
  assert (K : forall l first a, In v (a :: l) -> exists e, In e (path_edges first a l) /\ es e = v).
  { clear. induction l as [|b l IH]; intros first a [<-|H]; simpl; eauto; [destruct H|].
    destruct (IH first b H) as (e & He & E). eauto. }
  destruct (K l a a H) as (e & He & <-). exists e. split; [exact He|]. apply on_seg_start.
Qed.

(** an ever increasing walk on a finite set *)
Lemma no_ascent : forall {A} (f : A -> R) (L : list A) (P : A -> Prop),
  (forall x, In x L -> P x -> exists y, In y L /\ P y /\ f x < f y) -> forall x, In x L -> P x -> False.
Proof.
  intros A f L P H.
  assert (K : forall n x, (length (filter (fun y => Rltb (f x) (f y)) L) <= n)%nat -> In x L -> P x -> False).
  { induction n as [|n IH]; intros x Ln Ix Px; destruct (H x Ix Px) as (y & Iy & Py & L').
    - assert (Q : In y (filter (fun y => Rltb (f x) (f y)) L)) by (apply filter_In; split; [exact Iy|apply Rltb_spec; exact L']).
      destruct (filter _ L); [destruct Q|simpl in Ln; lia].
    - apply (IH y); auto.
      assert (C : forall M, (length (filter (fun z => Rltb (f y) (f z)) M) <= length (filter (fun z => Rltb (f x) (f z)) M))%nat /\
         (In y M -> (length (filter (fun z => Rltb (f y) (f z)) M) < length (filter (fun z => Rltb (f x) (f z)) M))%nat)).
      { induction M as [|z M (IM1 & IM2)]; [split; [simpl; lia|intros []]|]. simpl.
        rdestr (f y) (f z); rdestr (f x) (f z); simpl; try (exfalso; lra); (split; [lia|]); intros [->|Q];
          try (exfalso; lra); try (specialize (IM2 Q)); lia. }
      specialize (proj2 (C L) Iy). lia. }
  intros x. apply (K (length (filter (fun y => Rltb (f x) (f y)) L))). lia.
Qed.

(** *** collinear edges *)
Definition along (u : rpoint) (p : rpoint) : R := px u * px p + py u * py p.
Definition dir (e : redge) : rpoint := Pt (px (ee e) - px (es e)) (py (ee e) - py (es e)).
Definition par (u : rpoint) (e : redge) : Prop := px u * py (dir e) - py u * px (dir e) = 0.
Definition top (u : rpoint) (e : redge) : R := Rmax (along u (es e)) (along u (ee e)).

Lemma along_dir : forall u e, along u (ee e) - along u (es e) = along u (dir e).
Proof. intros u e. unfold along, dir; simpl; ring. Qed.
(** parallel to a non-zero direction: a multiple of it *)
Lemma par_mult : forall u e, 0 < along u u -> par u e ->
  px (dir e) = along u (dir e) / along u u * px u /\ py (dir e) = along u (dir e) / along u u * py u.
Proof.
  intros [a b] e U P. unfold par, along in *. cbn [px py] in *. set (c := px (dir e)) in *. set (d := py (dir e)) in *.
  assert (H : a * d = b * c) by lra.
  split; (apply Rmult_eq_reg_r with (a * a + b * b); [|lra]).
  - transitivity ((a * c + b * d) * a); [|field; lra].
    transitivity (a * a * c + b * (b * c)); [ring|]. rewrite <- H. ring.
  - transitivity ((a * c + b * d) * b); [|field; lra].
    transitivity (b * b * d + a * (a * d)); [ring|]. rewrite H. ring.
Qed.
Lemma sumsq_zero : forall a b : R, a * a + b * b = 0 -> a = 0 /\ b = 0.
Proof. intros a b H. split; nra. Qed.
Lemma par_along : forall u e, 0 < along u u -> par u e -> es e <> ee e -> along u (dir e) <> 0.
Proof.
  intros u e U P N Z. destruct (par_mult u e U P) as (A & B). rewrite Z in A, B.
  apply N. unfold dir in A, B; simpl in A, B. apply pt_ext; lra.
Qed.
Lemma par_edet : forall u e f, 0 < along u u -> par u e -> par u f -> edet e f = 0.
Proof.
  intros u e f U Pe Pf. destruct (par_mult u e U Pe) as (A & B). destruct (par_mult u f U Pf) as (C & D).
  set (k := along u (dir e)) in *. set (k' := along u (dir f)) in *. unfold edet.
  change (px (ee e) - px (es e)) with (px (dir e)). change (py (ee e) - py (es e)) with (py (dir e)).
  change (px (ee f) - px (es f)) with (px (dir f)). change (py (ee f) - py (es f)) with (py (dir f)).
  rewrite A, B, C, D. ring.
Qed.
Lemma par_edot : forall u e f, 0 < along u u -> par u e -> par u f ->
  along u (dir e) * along u (dir f) = edot e f * along u u.
Proof.
  intros u e f U Pe Pf. destruct (par_mult u e U Pe) as (A & B). destruct (par_mult u f U Pf) as (C & D).
  set (k := along u (dir e)) in *. set (k' := along u (dir f)) in *. unfold edot.
  change (px (ee e) - px (es e)) with (px (dir e)). change (py (ee e) - py (es e)) with (py (dir e)).
  change (px (ee f) - px (es f)) with (px (dir f)). change (py (ee f) - py (es f)) with (py (dir f)).
  rewrite A, B, C, D. unfold along in *. field. lra.
Qed.
Lemma div01 : forall a k, k <> 0 -> (0 < k -> 0 <= a <= k) -> (k < 0 -> k <= a <= 0) -> 0 <= a / k <= 1.
Proof.
  intros a k K P N. assert (E : a = a / k * k) by (field; exact K). set (q := a / k) in *.
  destruct (Rlt_or_le 0 k) as [S|S]; [specialize (P S)|assert (S' : k < 0) by lra; specialize (N S')];
    split; destruct (Rle_or_lt 0 q); destruct (Rle_or_lt q 1); try lra; exfalso; nra.
Qed.
(** points of one line, between two points of a segment *)
Lemma between_on : forall u f x v, 0 < along u u -> par u f -> es f <> ee f -> on_seg f x ->
  px u * (py v - py x) - py u * (px v - px x) = 0 ->
  along u x <= along u v <= top u f -> on_seg f v.
Proof.
  intros u f x v U P N (t & Ht & Ex) L (B1 & B2).
  set (k := along u (dir f)). assert (K : k <> 0) by (apply par_along; assumption).
  destruct (par_mult u f U P) as (A1 & A2). fold k in A1, A2.
  set (d := along u v - along u x). exists (t + d / k).
  assert (T : along u x = along u (es f) + t * k).
  { rewrite Ex. unfold k, along, dir, at_t; simpl. ring. }
  assert (R : 0 <= t + d / k <= 1).
  { pose proof (along_dir u f) as AD. fold k in AD. unfold top in B2. unfold d.
    assert (Q : t + (along u v - along u x) / k = (along u v - along u (es f)) / k) by (rewrite T; field; exact K).
    rewrite Q. apply div01; [exact K| |]; intros S; [rewrite Rmax_right in B2 by lra|rewrite Rmax_left in B2 by lra]; nra. }
  split; [exact R|].
  assert (V : px v - px x = d / along u u * px u /\ py v - py x = d / along u u * py u).
  { unfold d, along. assert (U' : px u * px u + py u * py u <> 0) by (unfold along in U; lra).
    set (X := px v - px x) in *. set (Y := py v - py x) in *.
    assert (H : px u * Y = py u * X) by lra.
    split; (apply Rmult_eq_reg_r with (px u * px u + py u * py u); [|exact U']).
    - transitivity ((px u * X + py u * Y) * px u); [|unfold X, Y; field; exact U'].
      transitivity (px u * px u * X + py u * (py u * X)); [ring|]. rewrite <- H. ring.
    - transitivity ((px u * X + py u * Y) * py u); [|unfold X, Y; field; exact U'].
      transitivity (py u * py u * Y + px u * (px u * Y)); [ring|]. rewrite H. ring. }
  destruct V as (V1 & V2). rewrite Ex in V1, V2. unfold at_t in V1, V2; simpl in V1, V2.
  unfold at_t. change (px (ee f) - px (es f)) with (px (dir f)) in *. change (py (ee f) - py (es f)) with (py (dir f)) in *.
  assert (W1 : d / k * px (dir f) = d / along u u * px u) by (rewrite A1; field; lra).
  assert (W2 : d / k * py (dir f) = d / along u u * py u) by (rewrite A2; field; lra).
  apply pt_ext; cbn [px py]; lra.
Qed.
Lemma seg_line : forall u e x y, par u e -> on_seg e x -> on_seg e y -> px u * (py y - py x) - py u * (px y - px x) = 0.
Proof.
  intros u e x y P (t & _ & ->) (t' & _ & ->). unfold par, dir in P. unfold at_t. cbn [px py] in *.
  transitivity ((t' - t) * (px u * (py (ee e) - py (es e)) - py u * (px (ee e) - px (es e)))); [ring|]. rewrite P. ring.
Qed.
Lemma seg_top : forall u e x, on_seg e x -> along u x <= top u e.
Proof.
  intros u e x (t & Ht & ->).
  assert (E : along u (at_t e t) = (1 - t) * along u (es e) + t * along u (ee e)) by (unfold along, at_t; simpl; ring).
  rewrite E. unfold top. pose proof (Rmax_l (along u (es e)) (along u (ee e))). pose proof (Rmax_r (along u (es e)) (along u (ee e))).
  nra.
Qed.

(** one step up: the edge after the top end of [e] *)
Lemma step_up : forall l u e, nondegenerate l -> no_spikes l -> 0 < along u u -> In e (ring l) -> par u e ->
  exists v, on_seg e v /\ along u v = top u e /\
    forall (Q : forall e', In e' (ring l) -> on_seg e' v -> par u e'),
      exists e', In e' (ring l) /\ on_seg e' v /\ par u e' /\ top u e < top u e'.
Proof.
  intros l u e ND NS U He P.
  assert (K : along u (dir e) <> 0) by (apply par_along; auto).
  pose proof (along_dir u e) as AD.
  destruct (Rlt_or_le 0 (along u (dir e))) as [Kp|Kn].
  - exists (ee e). split; [apply on_seg_end|]. split; [unfold top; rewrite Rmax_right by lra; reflexivity|]. intros Q.
    destruct (ring_next l e He) as (e' & He' & E). exists e'. split; [exact He'|].
    assert (O : on_seg e' (ee e)) by (rewrite <- E; apply on_seg_start). split; [exact O|].
    assert (P' : par u e') by (apply Q; assumption). split; [exact P'|].
    pose proof (NS e e' He He' (eq_sym E) (par_edet u e e' U P P')) as D.
    pose proof (par_edot u e e' U P P') as DD. pose proof (along_dir u e') as AD'.
    assert (0 < along u (dir e')).
    { apply Rmult_lt_reg_l with (along u (dir e)); [exact Kp|]. rewrite Rmult_0_r, DD. apply Rmult_lt_0_compat; assumption. }
    unfold top. rewrite (Rmax_right (along u (es e))) by lra. rewrite <- E.
    pose proof (Rmax_r (along u (es e')) (along u (ee e'))). lra.
  - assert (Kn' : along u (dir e) < 0) by lra.
    exists (es e). split; [apply on_seg_start|]. split; [unfold top; rewrite Rmax_left by lra; reflexivity|]. intros Q.
    destruct (ring_prev l e He) as (e' & He' & E). exists e'. split; [exact He'|].
    assert (O : on_seg e' (es e)) by (rewrite <- E; apply on_seg_end). split; [exact O|].
    assert (P' : par u e') by (apply Q; assumption). split; [exact P'|].
    pose proof (NS e' e He' He E (par_edet u e' e U P' P)) as D.
    pose proof (par_edot u e e' U P P') as DD. pose proof (along_dir u e') as AD'.
    assert (edot e e' = edot e' e) by (unfold edot; ring).
    assert (along u (dir e') < 0).
    { assert (0 < (- along u (dir e)) * (- along u (dir e'))) by (replace (- along u (dir e) * - along u (dir e')) with (edot e e' * along u u) by lra; apply Rmult_lt_0_compat; lra).
      apply Ropp_lt_cancel. rewrite Ropp_0. apply Rmult_lt_reg_l with (- along u (dir e)); lra. }
    unfold top. rewrite (Rmax_left (along u (es e))) by lra. rewrite <- E.
    pose proof (Rmax_l (along u (es e')) (along u (ee e'))). lra.
Qed.

(** if some edges of two rings touch, then two non-parallel edges touch *)
Lemma edet_dec_list : forall (L : list (redge * redge)),
  (exists e f, In (e, f) L /\ edet e f <> 0 /\ touch e f) \/ (forall e f, In (e, f) L -> touch e f -> edet e f = 0).
Proof.
  induction L as [|[e f] L IH]; [right; intros e f []|].
  destruct IH as [(e' & f' & H & K)|H]; [left; exists e', f'; split; [right; exact H|exact K]|].
  destruct (ee_collides e f) eqn:C.
  - left. apply ee_collides_iff in C as (T & D). exists e, f. split; [left; reflexivity|]. auto.
  - right. intros e' f' [E|I] T; [|apply H; assumption]. injection E as <- <-.
    destruct (Req_dec (edet e f) 0) as [Z|Z]; [exact Z|]. exfalso.
    assert (ee_collides e f = true) by (apply ee_collides_iff; auto). congruence.
Qed.
Theorem touch_crossing : forall l m, nondegenerate l -> nondegenerate m -> no_spikes l -> no_spikes m ->
  forall x, on_border l x -> on_border m x ->
  exists e f, In e (ring l) /\ In f (ring m) /\ touch e f /\ edet e f <> 0.
Proof.
  intros l m Nl Nm Sl Sm x (e0 & He0 & O0) (f0 & Hf0 & P0).
  destruct (edet_dec_list (list_prod (ring l) (ring m))) as [(e & f & I & D & T)|A].
  { apply in_prod_iff in I as (Ie & If). exists e, f. auto. }
  exfalso.
  assert (A' : forall e f, In e (ring l) -> In f (ring m) -> touch e f -> edet e f = 0).
  { intros e f Ie If. apply A. apply in_prod_iff. auto. }
  clear A. set (u := dir e0).
  assert (U : 0 < along u u).
  { destruct (Req_dec (along u u) 0) as [Z|Z].
    - exfalso. apply sumsq_zero in Z as (Z1 & Z2). apply (Nl e0 He0). unfold u, dir in Z1, Z2; simpl in Z1, Z2. apply pt_ext; lra.
    - unfold along in *. nra. }
  assert (ParDet : forall e f, par u e -> es e <> ee e -> edet e f = 0 -> par u f).
  { intros e f Pe Ne D. destruct (par_mult u e U Pe) as (E1 & E2). pose proof (par_along u e U Pe Ne) as K.
    unfold edet in D. change (px (ee e) - px (es e)) with (px (dir e)) in D. change (py (ee e) - py (es e)) with (py (dir e)) in D.
    rewrite E1, E2 in D. unfold par. unfold dir at 1 2; cbn [px py].
    apply Rmult_eq_reg_l with (along u (dir e) / along u u).
    - rewrite Rmult_0_r. rewrite <- D. ring.
    - unfold Rdiv. intros Z. apply Rmult_integral in Z as [Z|Z]; [contradiction|]. apply Rinv_neq_0_compat in Z; lra. }
  assert (edet_sym0 : forall e f, edet e f = 0 -> edet f e = 0) by (intros e f Z; rewrite edet_swap; lra).
  apply (no_ascent (fun ef => top u (fst ef) + top u (snd ef)) (list_prod (ring l) (ring m))
    (fun ef => touch (fst ef) (snd ef) /\ par u (fst ef) /\ par u (snd ef))) with (x := (e0, f0)).
  - intros [e f] I (T & Pe & Pf). cbn [fst snd] in *. apply in_prod_iff in I as (Ie & If).
    destruct (step_up l u e Nl Sl U Ie Pe) as (v & Ov & Tv & Ve).
    destruct (step_up m u f Nm Sm U If Pf) as (w & Ow & Tw & Vf).
    destruct T as (y & Oy & Oy').
    destruct (Rle_or_lt (along u v) (along u w)) as [L|L].
    + assert (Of : on_seg f v).
      { apply (between_on u f y v); auto; [apply (seg_line u e); assumption|].
        rewrite Tv at 1. split; [apply seg_top; exact Oy|lra]. }
      destruct Ve as (e' & He' & O' & P' & L').
      { intros e' He' O'. apply (ParDet f); auto. apply edet_sym0, A'; auto. exists v; auto. }
      exists (e', f). cbn [fst snd]. split; [apply in_prod_iff; auto|]. split; [|lra]. split; [exists v; auto|auto].
    + assert (Oe : on_seg e w).
      { apply (between_on u e y w); auto; [apply (seg_line u f); assumption|].
        rewrite Tw at 1. split; [apply seg_top; exact Oy'|lra]. }
      destruct Vf as (f' & Hf' & O' & P' & L').
      { intros f' Hf' O'. apply (ParDet e); auto. apply A'; auto. exists w; auto. }
      exists (e, f'). cbn [fst snd]. split; [apply in_prod_iff; auto|]. split; [|lra]. split; [exists w; auto|auto].
  - apply in_prod_iff; auto.
  - cbn [fst snd]. assert (P1 : par u e0) by (unfold par, u; ring). split; [exists x; auto|]. split; [exact P1|].
    apply (ParDet e0); auto. apply A'; auto. exists x; auto.
Qed.
