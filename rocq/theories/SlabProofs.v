(** Simple polygons: a positive area means that the inside is to the left of the edges.
    The area is cut into horizontal slabs; within a slab the edges met from left to right
    alternate in direction. *)
From Coq Require Import Reals List Bool Lra Lia Psatz Permutation Sorted.
From Verif Require Import Base Num GeoModel HazardModel QTModel GeoSpec ShapeSpec SimplModel SimplSpec SimpleSpec
  ParityProofs CrossProofs GeoPrimProofs GeoRectProofs RegionProofs PipProofs PierProofs ConstructProofs SimpleProofs OrientProofs.
Import ListNotations.
Local Open Scope R_scope.
#[local] Existing Instance RNum.

(** *** sums *)
Lemma total_ext : forall {A} (f g : A -> R) l, (forall x, In x l -> f x = g x) -> total f l = total g l.
Proof. intros A f g l H. induction l as [|x l IH]; cbn; [reflexivity|]. unfold total in IH. rewrite IH, H; [reflexivity|left; reflexivity|intros; apply H; right; assumption]. Qed.
Lemma total_add : forall {A} (f g : A -> R) l, total (fun x => f x + g x) l = total f l + total g l.
Proof. intros A f g l. unfold total. induction l as [|x l IH]; cbn; [lra|]. rewrite IH. lra. Qed.
Lemma total_scal : forall {A} (f : A -> R) k l, total (fun x => k * f x) l = k * total f l.
Proof. intros A f k l. unfold total. induction l as [|x l IH]; cbn; [lra|]. rewrite IH. lra. Qed.
Lemma total_zero : forall {A} (l : list A), total (fun _ => 0) l = 0.
Proof. intros A l. unfold total. induction l as [|x l IH]; cbn; [lra|]. rewrite IH. lra. Qed.
Lemma total_swap : forall {A B} (f : A -> B -> R) l m,
  total (fun x => total (f x) m) l = total (fun y => total (fun x => f x y) l) m.
Proof.
  intros A B f l m. induction l as [|x l IH]; cbn; [symmetry; apply total_zero|].
  unfold total at 1 in IH. rewrite IH. rewrite <- total_add. reflexivity.
Qed.
Lemma total_perm : forall {A} (f : A -> R) l m, Permutation l m -> total f l = total f m.
Proof. intros A f l m P. unfold total. induction P; cbn; lra. Qed.
Lemma total_filter : forall {A} (f : A -> R) (b : A -> bool) l, (forall x, In x l -> b x = false -> f x = 0) ->
  total f l = total f (filter b l).
Proof.
  intros A f b l H. induction l as [|x l IH]; cbn; [reflexivity|].
  assert (E := IH (fun y Hy => H y (or_intror Hy))). unfold total in *. destruct (b x) eqn:Bx; cbn; rewrite E; [reflexivity|].
  rewrite (H x (or_introl eq_refl) Bx). lra.
Qed.
Lemma total_le0 : forall {A} (f : A -> R) l, (forall x, In x l -> f x <= 0) -> total f l <= 0.
Proof.
  intros A f l H. induction l as [|x l IH]; cbn; [lra|]. unfold total in IH.
  assert (f x <= 0) by (apply H; left; reflexivity). assert (fold_right (fun x s => f x + s) 0 l <= 0) by (apply IH; intros; apply H; right; assumption). lra.
Qed.
Lemma total_lt0 : forall {A} (f : A -> R) l x, (forall x, In x l -> f x <= 0) -> In x l -> f x < 0 -> total f l < 0.
Proof.
  intros A f l x H Hx Fx. apply in_split in Hx as (l1 & l2 & ->).
  rewrite (total_perm f _ (x :: l1 ++ l2)) by (symmetry; apply Permutation_middle). cbn.
  assert (total f (l1 ++ l2) <= 0); [|unfold total in *; lra]. apply total_le0.
  intros y Hy. apply H. apply in_app_iff in Hy. apply in_app_iff. cbn. tauto.
Qed.
Lemma total_pos_ex : forall {A} (f : A -> R) l, 0 < total f l -> exists x, In x l /\ 0 < f x.
Proof.
  intros A f l. unfold total. induction l as [|x l IH]; cbn; intros H; [lra|].
  destruct (Rlt_or_le 0 (f x)) as [P|P]; [exists x; auto|]. destruct IH as (y & Hy & Py); [lra|]. exists y. auto.
Qed.

(** *** numbers with alternating signs *)
Lemma alternating : forall n (L : list (R * bool)), length L = n -> NoDup (map fst L) ->
  (forall p, In p L -> snd p = parity (fun p' => Rltb (fst p) (fst p')) L) ->
  parity (fun _ => true) L = false -> L <> [] -> total (fun p : R * bool => if snd p then fst p else - fst p) L < 0.
Proof.
  induction n as [n IHn] using lt_wf_ind. intros L EL D H E NE.
  destruct (argmin (fun p : R * bool => - fst p) L NE) as (p1 & H1 & M1).
  apply in_split in H1 as (a & b & ->). set (L1 := a ++ b).
  assert (P1 : Permutation (a ++ p1 :: b) (p1 :: L1)) by (symmetry; apply Permutation_middle).
  rewrite (parity_perm _ _ _ P1) in E. change (xorb true (parity (fun _ => true) L1) = false) in E.
  destruct L1 as [|x L1'] eqn:EL1; [discriminate|]. rewrite <- EL1 in *.
  destruct (argmin (fun p : R * bool => - fst p) L1) as (p2 & H2 & M2); [rewrite EL1; discriminate|].
  clear EL1 x L1'. clearbody L1. apply in_split in H2 as (a' & b' & ->). set (L2 := a' ++ b').
  assert (P2 : Permutation (a' ++ p2 :: b') (p2 :: L2)) by (symmetry; apply Permutation_middle).
  assert (P : Permutation (a ++ p1 :: b) (p1 :: p2 :: L2)) by (rewrite P1, P2; reflexivity).
  rewrite (total_perm _ _ _ P).
  assert (D' : NoDup (map fst (p1 :: p2 :: L2))) by (apply (Permutation_NoDup (Permutation_map fst P)), D).
  cbn [map] in D'. inversion D' as [|? ? N1 D1]; subst. inversion D1 as [|? ? N2 D2]; subst. cbn [In] in N1.
  assert (G1 : forall p, In p (p2 :: L2) -> fst p < fst p1).
  { intros p Hp. assert (fst p <= fst p1).
    { assert (X : In p (a ++ p1 :: b)) by (apply (Permutation_in p (Permutation_sym P)); right; exact Hp). specialize (M1 p X). lra. }
    assert (fst p <> fst p1); [|lra]. intros X. apply N1. destruct Hp as [->|Hp]; [left; exact X|right]. rewrite <- X. apply in_map, Hp. }
  assert (G2 : forall p, In p L2 -> fst p < fst p2).
  { intros p Hp. assert (fst p <= fst p2).
    { assert (X : In p (a' ++ p2 :: b')) by (apply (Permutation_in p (Permutation_sym P2)); right; exact Hp). specialize (M2 p X). lra. }
    assert (fst p <> fst p2); [|lra]. intros X. apply N2. rewrite <- X. apply in_map, Hp. }
  assert (H' : forall p, In p (p1 :: p2 :: L2) -> snd p = parity (fun p' => Rltb (fst p) (fst p')) (p1 :: p2 :: L2)).
  { intros p Hp. rewrite <- (parity_perm _ _ _ P). apply H. apply (Permutation_in p (Permutation_sym P)), Hp. }
  assert (S1 : snd p1 = false).
  { rewrite H' by (left; reflexivity). apply parity_none. intros p [<-|Hp]; apply Rltb_nspec; [lra|]. specialize (G1 p Hp). lra. }
  assert (S2 : snd p2 = true).
  { rewrite H' by (right; left; reflexivity).
    change (xorb (Rltb (fst p2) (fst p1)) (xorb (Rltb (fst p2) (fst p2)) (parity (fun p' => Rltb (fst p2) (fst p')) L2)) = true).
    rewrite (proj2 (Rltb_spec (fst p2) (fst p1))) by (apply G1; left; reflexivity).
    rewrite (proj2 (Rltb_nspec (fst p2) (fst p2))) by lra. rewrite parity_none; [reflexivity|].
    intros p Hp. apply Rltb_nspec. specialize (G2 p Hp). lra. }
  assert (G12 := G1 p2 (or_introl eq_refl)).
  change ((if snd p1 then fst p1 else - fst p1) + ((if snd p2 then fst p2 else - fst p2) + total (fun p : R * bool => if snd p then fst p else - fst p) L2) < 0).
  rewrite S1, S2. assert (total (fun p : R * bool => if snd p then fst p else - fst p) L2 <= 0); [|lra].
  destruct L2 as [|y L3] eqn:E3; [cbn; lra|]. rewrite <- E3 in *. left.
  assert (EL : length (a ++ p1 :: b) = S (S (length L2))) by (rewrite (Permutation_length P); reflexivity).
  apply (IHn (length L2)); [rewrite EL; lia|reflexivity|exact D2| | |rewrite E3; discriminate].
  - intros p Hp. rewrite H' by (right; right; exact Hp).
    change (xorb (Rltb (fst p) (fst p1)) (xorb (Rltb (fst p) (fst p2)) (parity (fun p' => Rltb (fst p) (fst p')) L2)) = parity (fun p' => Rltb (fst p) (fst p')) L2).
    rewrite (proj2 (Rltb_spec (fst p) (fst p1))) by (apply G1; right; exact Hp).
    rewrite (proj2 (Rltb_spec (fst p) (fst p2))) by (apply G2, Hp). destruct (parity _ L2); reflexivity.
  - rewrite (parity_perm _ _ _ P2) in E. change (xorb true (xorb true (parity (fun _ : R * bool => true) L2)) = false) in E.
    destruct (parity (fun _ => true) L2); [discriminate E|reflexivity].
Qed.

Lemma parity_cons : forall {A} (f : A -> bool) x l, parity f (x :: l) = xorb (f x) (parity f l).
Proof. reflexivity. Qed.
Lemma parity_filter : forall {A} (g b : A -> bool) L, (forall x, b x = false -> g x = false) -> parity g (filter b L) = parity g L.
Proof.
  intros A g b L H. induction L as [|x L IH]; [reflexivity|]. cbn [filter]. destruct (b x) eqn:Bx; rewrite !parity_cons, ?IH; [reflexivity|].
  rewrite (H x Bx). symmetry. apply xorb_false_l.
Qed.

(** *** slabs *)
Fixpoint slabs (H : list R) : list (R * R) :=
  match H with a :: ((b :: _) as r) => (a, b) :: slabs r | _ => [] end.
Lemma last_step : forall (H : list R) a b, last (b :: H) a = last H b.
Proof.
  induction H as [|c H IH]; intros a b; [reflexivity|].
  change (last (c :: H) a = last (c :: H) b). rewrite !IH. reflexivity.
Qed.
Lemma slabs_tele : forall (g : R -> R) H a, total (fun p => g (snd p) - g (fst p)) (slabs (a :: H)) = g (last H a) - g a.
Proof.
  intros g. induction H as [|b H IH]; intros a; [cbn; lra|].
  change (g b - g a + total (fun p => g (snd p) - g (fst p)) (slabs (b :: H)) = g (last (b :: H) a) - g a).
  rewrite IH, last_step. lra.
Qed.
Lemma slabs_gap : forall H, StronglySorted Rle H -> forall p x, In p (slabs H) -> In x H -> fst p <= snd p /\ (x <= fst p \/ snd p <= x).
Proof.
  induction H as [|a H IH]; intros S p x Hp Hx; [destruct Hp|]. destruct H as [|b H]; [destruct Hp|].
  inversion S as [|? ? S' F]; subst. rewrite Forall_forall in F.
  cbn [slabs] in Hp. destruct Hp as [<-|Hp].
  - cbn. split; [apply F; left; reflexivity|]. destruct Hx as [<-|[<-|Hx]]; [left; lra|right; lra|].
    right. inversion S' as [|? ? _ F']; subst. rewrite Forall_forall in F'. apply F', Hx.
  - destruct Hx as [<-|Hx]; [|apply IH; assumption].
    destruct (IH S' p b Hp (or_introl eq_refl)) as (L & _). split; [exact L|]. left.
    assert (I : In (fst p) (b :: H)).
    { clear -Hp. revert b Hp. induction H as [|c H IH]; intros b Hp; [destruct Hp|]. cbn [slabs] in Hp.
      destruct Hp as [<-|Hp]; [left; reflexivity|right; apply IH, Hp]. }
    apply F, I.
Qed.
Lemma sorted_last : forall H a x, StronglySorted Rle (a :: H) -> In x (a :: H) -> a <= x <= last H a.
Proof.
  induction H as [|b H IH]; intros a x S Hx.
  - destruct Hx as [<-|[]]. cbn. lra.
  - inversion S as [|? ? S' F]; subst. rewrite Forall_forall in F.
    rewrite last_step. assert (Lb := IH b b S' (or_introl eq_refl)). assert (a <= b) by (apply F; left; reflexivity).
    destruct Hx as [<-|Hx]; [lra|]. assert (X := IH b x S' Hx). lra.
Qed.
Lemma sort_ex : forall l : list R, exists H, StronglySorted Rle H /\ forall x, In x l <-> In x H.
Proof.
  induction l as [|a l (H & S & I)]; [exists []; split; [constructor|tauto]|].
  assert (Ins : forall H, StronglySorted Rle H -> exists H', StronglySorted Rle H' /\ forall x, (a = x \/ In x H) <-> In x H').
  { clear. induction H as [|b H IH]; intros S.
    - exists [a]. split; [repeat constructor|cbn; tauto].
    - inversion S as [|? ? S' F]; subst. destruct (Rle_or_lt a b) as [L|L].
      + exists (a :: b :: H). split; [|cbn; tauto]. constructor; [exact S|]. constructor; [exact L|].
        rewrite Forall_forall in *. intros x Hx. specialize (F x Hx). lra.
      + destruct (IH S') as (H' & S'' & I). exists (b :: H'). split.
        * constructor; [exact S''|]. rewrite Forall_forall in *. intros x Hx. apply I in Hx as [<-|Hx]; [lra|apply F, Hx].
        * intros x. cbn. rewrite <- I. tauto. }
  destruct (Ins H S) as (H' & S' & I'). exists H'. split; [exact S'|]. intros x. rewrite <- I'. cbn. rewrite I. tauto.
Qed.

(** *** the area of an edge, slab by slab *)
Definition upward (e : redge) : bool := Rltb (py (es e)) (py (ee e)).
Definition sgn (e : redge) (y : R) : R := if straddles e y then (if upward e then 1 else -1) else 0.
Definition mid (p : R * R) : R := (fst p + snd p) / 2.
Definition clamp (e : redge) (y : R) : R :=
  Rmax (Rmin (py (es e)) (py (ee e))) (Rmin (Rmax (py (es e)) (py (ee e))) y).
Definition under (e : redge) (y : R) : R := (y - py (es e)) * (px (es e) + cross_x e y).

Lemma slab_term : forall e p, fst p <= snd p ->
  (py (es e) <= fst p \/ snd p <= py (es e)) -> (py (ee e) <= fst p \/ snd p <= py (ee e)) ->
  (snd p - fst p) * (2 * (sgn e (mid p) * cross_x e (mid p))) =
  (if upward e then 1 else -1) * (under e (clamp e (snd p)) - under e (clamp e (fst p))) /\
  (snd p - fst p) * sgn e (mid p) = (if upward e then 1 else -1) * (clamp e (snd p) - clamp e (fst p)).
Proof.
  intros [[ax ay] [bx by']] [u v] L Ha Hb. cbn [es ee px py fst snd] in *.
  destruct (Req_dec u v) as [->|Nuv]; [split; lra|]. assert (Luv : u < v) by lra. clear L Nuv.
  unfold sgn, upward, mid, clamp, straddles; cbn [es ee px py fst snd].
  destruct (Rlt_or_le ay by') as [U|U].
  - rewrite (proj2 (Rltb_spec ay by') U). rewrite (Rmin_left ay by'), (Rmax_right ay by') by lra.
    destruct (Rle_or_lt v ay) as [C1|C1].
    + rewrite (proj2 (Rltb_nspec ay ((u + v) / 2))) by lra. rewrite (proj2 (Rltb_nspec by' ((u + v) / 2))) by lra. cbn [xorb].
      rewrite !(Rmin_right by') by lra. rewrite !(Rmax_left ay) by lra. split; ring.
    + destruct (Rle_or_lt by' u) as [C2|C2].
      * rewrite (proj2 (Rltb_spec ay ((u + v) / 2))) by lra. rewrite (proj2 (Rltb_spec by' ((u + v) / 2))) by lra. cbn [xorb].
        rewrite !(Rmin_left by') by lra. split; ring.
      * rewrite (proj2 (Rltb_spec ay ((u + v) / 2))) by lra. rewrite (proj2 (Rltb_nspec by' ((u + v) / 2))) by lra. cbn [xorb].
        rewrite !(Rmin_right by') by lra. rewrite !(Rmax_right ay) by lra.
        unfold under, cross_x; cbn [es ee px py]. split; field; lra.
  - rewrite (proj2 (Rltb_nspec ay by') U). rewrite (Rmin_right ay by'), (Rmax_left ay by') by lra.
    destruct (Rle_or_lt v by') as [C1|C1].
    + rewrite (proj2 (Rltb_nspec ay ((u + v) / 2))) by lra. rewrite (proj2 (Rltb_nspec by' ((u + v) / 2))) by lra. cbn [xorb].
      rewrite !(Rmin_right ay) by lra. rewrite !(Rmax_left by') by lra. split; ring.
    + destruct (Rle_or_lt ay u) as [C2|C2].
      * rewrite (proj2 (Rltb_spec ay ((u + v) / 2))) by lra. rewrite (proj2 (Rltb_spec by' ((u + v) / 2))) by lra. cbn [xorb].
        rewrite !(Rmin_left ay) by lra. split; ring.
      * rewrite (proj2 (Rltb_nspec ay ((u + v) / 2))) by lra. rewrite (proj2 (Rltb_spec by' ((u + v) / 2))) by lra. cbn [xorb].
        rewrite !(Rmin_right ay) by lra. rewrite !(Rmax_right by') by lra.
        unfold under, cross_x; cbn [es ee px py]. split; field; lra.
Qed.
Lemma clamp_ends : forall e lo hi, lo <= py (es e) <= hi -> lo <= py (ee e) <= hi ->
  clamp e lo = Rmin (py (es e)) (py (ee e)) /\ clamp e hi = Rmax (py (es e)) (py (ee e)).
Proof.
  intros e lo hi H1 H2. unfold clamp.
  assert (A := Rmin_glb (py (es e)) (py (ee e)) lo ltac:(lra) ltac:(lra)).
  assert (B := Rmax_lub (py (es e)) (py (ee e)) hi ltac:(lra) ltac:(lra)).
  assert (C := Rmin_l (py (es e)) (py (ee e))). assert (D := Rmax_l (py (es e)) (py (ee e))).
  rewrite (Rmin_right _ lo) by lra. rewrite (Rmin_left _ hi) by lra.
  split; [apply Rmax_left; lra|apply Rmax_right; lra].
Qed.
Lemma slab_edge : forall e H, StronglySorted Rle H -> In (py (es e)) H -> In (py (ee e)) H ->
  total (fun p => (snd p - fst p) * (2 * (sgn e (mid p) * cross_x e (mid p)))) (slabs H)
  = (px (es e) + px (ee e)) * (py (ee e) - py (es e)) /\
  total (fun p => (snd p - fst p) * sgn e (mid p)) (slabs H) = py (ee e) - py (es e).
Proof.
  intros e [|a H] S I1 I2; [destruct I1|].
  assert (B1 := sorted_last H a _ S I1). assert (B2 := sorted_last H a _ S I2).
  destruct (clamp_ends e a (last H a) B1 B2) as (C1 & C2).
  assert (T : forall g : R -> R, total (fun p => (if upward e then 1 else -1) * (g (clamp e (snd p)) - g (clamp e (fst p)))) (slabs (a :: H))
    = (if upward e then 1 else -1) * (g (Rmax (py (es e)) (py (ee e))) - g (Rmin (py (es e)) (py (ee e))))).
  { intros g. rewrite total_scal, (slabs_tele (fun y => g (clamp e y))), C1, C2. reflexivity. }
  assert (X : forall p, In p (slabs (a :: H)) -> fst p <= snd p /\
    (py (es e) <= fst p \/ snd p <= py (es e)) /\ (py (ee e) <= fst p \/ snd p <= py (ee e))).
  { intros p Hp. destruct (slabs_gap _ S p _ Hp I1) as (L & G1). destruct (slabs_gap _ S p _ Hp I2) as (_ & G2). auto. }
  split.
  - rewrite (total_ext _ (fun p => (if upward e then 1 else -1) * (under e (clamp e (snd p)) - under e (clamp e (fst p))))).
    2:{ intros p Hp. destruct (X p Hp) as (L & G1 & G2). apply (slab_term e p L G1 G2). }
    rewrite T. unfold upward, under. rdestr (py (es e)) (py (ee e)).
    + rewrite Rmin_left, Rmax_right by lra. rewrite cross_x_end, cross_x_start by lra. ring.
    + destruct (Req_dec (py (es e)) (py (ee e))) as [E|N].
      * rewrite Rmin_left, Rmax_left by lra. rewrite <- E. ring.
      * rewrite Rmin_right, Rmax_left by lra. rewrite cross_x_end, cross_x_start by lra. ring.
  - rewrite (total_ext _ (fun p => (if upward e then 1 else -1) * (clamp e (snd p) - clamp e (fst p)))).
    2:{ intros p Hp. destruct (X p Hp) as (L & G1 & G2). apply (slab_term e p L G1 G2). }
    rewrite (T (fun y => y)). unfold upward. rdestr (py (es e)) (py (ee e)).
    + rewrite Rmin_left, Rmax_right by lra. ring.
    + rewrite Rmin_right, Rmax_left by lra. ring.
Qed.

(** *** within a slab *)
Section Level.
  Variables (l : list rpoint) (y : R) (c : bool).
  Hypotheses (Sl : simple l) (Hc : forall e, In e (ring l) -> side l e c) (Hy : forall v, In v l -> py v <> y).
  Notation met := (filter (fun e => straddles e y) (ring l)).
  Lemma met_in : forall e, In e met -> In e (ring l) /\ straddles e y = true.
  Proof. intros e H. apply filter_In in H. exact H. Qed.
  Lemma met_open : forall e, In e met -> exists s, 0 < s < 1 /\ Pt (cross_x e y) y = at_t e s.
  Proof.
    intros e H. apply met_in in H as (He & Hs). destruct (straddles_on e y Hs) as (s & H01 & E). exists s. split; [|exact E].
    destruct (ring_in l e He) as (I1 & I2). apply Hy in I1. apply Hy in I2.
    assert (Ey : y = py (es e) + s * (py (ee e) - py (es e))) by (apply (f_equal py) in E; exact E).
    destruct (Req_dec s 0) as [->|]; [exfalso; lra|]. destruct (Req_dec s 1) as [->|]; [exfalso; lra|]. lra.
  Qed.
  Lemma met_distinct : forall e f, In e met -> In f met -> cross_x e y = cross_x f y -> e = f.
  Proof.
    intros e f H1 H2 E. destruct (met_open e H1) as (s & Hs & Es). symmetry.
    apply (open_only l e f s Sl); [apply met_in, H1|apply met_in, H2|exact Hs|].
    rewrite <- Es, E. apply straddles_on. apply met_in, H2.
  Qed.
  Lemma border_level : forall x, on_border l (Pt x y) -> exists f, In f met /\ x = cross_x f y.
  Proof.
    intros x (f & Hf & O). destruct (ring_in l f Hf) as (I1 & I2). apply Hy in I1. apply Hy in I2.
    destruct (seg_between f _ O) as (_ & B). cbn [py] in B.
    assert (N : py (es f) <> py (ee f)).
    { intros E. rewrite <- E, Rmin_left, Rmax_left in B by lra. lra. }
    exists f. split; [|exact (seg_cross_x f _ N O)]. apply filter_In. split; [exact Hf|]. unfold straddles.
    destruct (Rle_or_lt (py (es f)) (py (ee f))).
    - rewrite Rmin_left, Rmax_right in B by lra. rewrite (proj2 (Rltb_spec (py (es f)) y)) by lra.
      rewrite (proj2 (Rltb_nspec (py (ee f)) y)) by lra. reflexivity.
    - rewrite Rmin_right, Rmax_left in B by lra. rewrite (proj2 (Rltb_nspec (py (es f)) y)) by lra.
      rewrite (proj2 (Rltb_spec (py (ee f)) y)) by lra. reflexivity.
  Qed.
  Lemma gap_ex : forall (x : R) (L : list R), exists h, 0 < h /\ forall z, In z L -> (z < x -> z < x - h) /\ (x < z -> x + h < z).
  Proof.
    intros x. induction L as [|a L (h & Hh & IH)]; [exists 1; split; [lra|intros z []]|].
    destruct (Req_dec a x) as [->|N].
    - exists h. split; [exact Hh|]. intros z [<-|Hz]; [lra|apply IH, Hz].
    - assert (P : 0 < Rabs (x - a)) by (apply Rabs_pos_lt; lra). exists (Rmin h (Rabs (x - a) / 2)).
      assert (A := Rmin_l h (Rabs (x - a) / 2)). assert (B := Rmin_r h (Rabs (x - a) / 2)).
      split; [apply Rmin_glb_lt; lra|]. intros z [<-|Hz].
      + unfold Rabs in *. destruct (Rcase_abs (x - a)); lra.
      + destruct (IH z Hz). split; intros; lra.
  Qed.
  Lemma even_odd_level : forall x, even_odd l (Pt x y) = parity (fun f => Rltb x (cross_x f y)) met.
  Proof.
    intros x. unfold even_odd, crosses; cbn [px py]. generalize (ring l) as L. induction L as [|f L IH]; [reflexivity|].
    cbn [filter]. change (xorb (straddles f y && Rltb x (cross_x f y)) (parity (fun e => straddles e y && Rltb x (cross_x e y)) L) =
      parity (fun f0 => Rltb x (cross_x f0 y)) (if straddles f y then f :: filter (fun e => straddles e y) L else filter (fun e => straddles e y) L)).
    rewrite IH. destruct (straddles f y); cbn [andb]; [reflexivity|]. apply xorb_false_l.
  Qed.
  (** the direction of an edge is given by the number of edges to its right *)
  Lemma direction : forall e, In e met -> upward e = xorb c (parity (fun f => Rltb (cross_x e y) (cross_x f y)) met).
  Proof.
    intros e He. destruct (met_open e He) as (s & Hs & Es). destruct (met_in e He) as (Hr & St).
    destruct (gap_ex (cross_x e y) (map (fun f => cross_x f y) met)) as (h & Hh & G).
    assert (G' : forall f, In f met -> (cross_x f y < cross_x e y -> cross_x f y < cross_x e y - h) /\ (cross_x e y < cross_x f y -> cross_x e y + h < cross_x f y)).
    { intros f Hf. apply G. apply (in_map (fun f => cross_x f y)), Hf. } clear G.
    assert (T : forall x, turn (es e) (ee e) (Pt x y) = (py (ee e) - py (es e)) * (cross_x e y - x)).
    { intros x. assert (N : py (ee e) - py (es e) <> 0).
      { unfold straddles in St. rdestr (py (es e)) y; rdestr (py (ee e)) y; cbn in St; try discriminate; lra. }
      unfold turn, cross_x; cbn [px py]. field. exact N. }
    assert (Q : forall k, -1 <= k <= 1 -> k <> 0 -> sees l e (Pt (cross_x e y + k * h) y)).
    { intros k Hk Nk. exists (Pt (cross_x e y) y), s. split; [exact Hs|]. split; [exact Es|]. intros t Ht O.
      replace (at_t (Ed (Pt (cross_x e y) y) (Pt (cross_x e y + k * h) y)) t) with (Pt (cross_x e y + t * k * h) y) in O
        by (apply pt_ext; unfold at_t; cbn [es ee px py]; ring).
      apply border_level in O as (f & Hf & E). destruct (G' f Hf) as (A & B). rewrite <- E in A, B.
      assert (K : -1 <= t * k <= 1) by nra. destruct (Rlt_or_le 0 k) as [P|P].
      - assert (0 < t * k * h) by (repeat apply Rmult_lt_0_compat; lra). assert (t * k * h <= h) by nra. lra.
      - assert (0 < t * (- k) * h) by (repeat apply Rmult_lt_0_compat; lra). assert (- h <= t * k * h) by nra. lra. }
    unfold upward. rdestr (py (es e)) (py (ee e)).
    - assert (V := Q (-1) ltac:(lra) ltac:(lra)). destruct (Hc e Hr _ V) as (X & _). rewrite T in X. rewrite even_odd_level in X.
      assert (E : parity (fun f => Rltb (cross_x e y + -1 * h) (cross_x f y)) met = c) by (apply X; apply Rmult_lt_0_compat; lra).
      assert (E' : parity (fun f => xorb (if edge_dec f e then true else false) (Rltb (cross_x e y) (cross_x f y))) met = c).
      { rewrite <- E. apply parity_ext. intros f Hf. destruct (edge_dec f e) as [->|N].
        - rewrite (proj2 (Rltb_nspec (cross_x e y) (cross_x e y))) by lra. symmetry. apply Rltb_spec. lra.
        - rewrite xorb_false_l. destruct (G' f Hf) as (A & B).
          assert (cross_x f y <> cross_x e y) by (intros Z; apply N, met_distinct; assumption).
          rdestr (cross_x e y) (cross_x f y); symmetry; [apply Rltb_spec; lra|apply Rltb_nspec; lra]. }
      rewrite <- parity_xor in E'.
      replace (parity (fun f => if edge_dec f e then true else false) met) with true in E'.
      + rewrite <- E'. destruct (parity (fun f => Rltb (cross_x e y) (cross_x f y)) met); reflexivity.
      + symmetry. clear -Sl Hr St. destruct Sl as (_ & D & _). pose proof (parity_one l e D Hr) as P. refine (eq_trans _ P).
        apply parity_filter. intros f Sf. destruct (edge_dec f e) as [->|]; [congruence|reflexivity].
    - assert (N : py (es e) <> py (ee e)).
      { unfold straddles in St. rdestr (py (es e)) y; rdestr (py (ee e)) y; cbn in St; try discriminate; lra. }
      assert (V := Q 1 ltac:(lra) ltac:(lra)). destruct (Hc e Hr _ V) as (X & _). rewrite T in X. rewrite even_odd_level in X.
      assert (E : parity (fun f => Rltb (cross_x e y + 1 * h) (cross_x f y)) met = c).
      { apply X. replace (cross_x e y - (cross_x e y + 1 * h)) with (- h) by ring. nra. }
      rewrite <- E. assert (E' : parity (fun f => Rltb (cross_x e y + 1 * h) (cross_x f y)) met = parity (fun f => Rltb (cross_x e y) (cross_x f y)) met).
      { apply parity_ext. intros f Hf. destruct (G' f Hf) as (A & B).
        rdestr (cross_x e y) (cross_x f y); [apply Rltb_spec; lra|apply Rltb_nspec; lra]. }
      rewrite E'. destruct (parity (fun f => Rltb (cross_x e y) (cross_x f y)) met); reflexivity.
  Qed.
  Definition flow : R := total (fun e => sgn e y * cross_x e y) (ring l).
  Lemma flow_sign : (if c then -1 else 1) * flow <= 0 /\ (met <> [] -> (if c then -1 else 1) * flow < 0).
  Proof.
    assert (F : (if c then -1 else 1) * flow = total (fun p : R * bool => if snd p then fst p else - fst p) (map (fun e => (cross_x e y, xorb c (upward e))) met)).
    { unfold flow. rewrite (total_filter _ (fun e => straddles e y)).
      - assert (Gn : forall L : list redge, (forall e, In e L -> straddles e y = true) -> (if c then -1 else 1) * total (fun e => sgn e y * cross_x e y) L =
          total (fun p : R * bool => if snd p then fst p else - fst p) (map (fun e => (cross_x e y, xorb c (upward e))) L)).
        { induction L as [|e L IH]; intros A; [cbn; lra|]. unfold total in *. cbn. rewrite <- IH by (intros; apply A; right; assumption).
          unfold sgn at 1. rewrite (A e (or_introl eq_refl)). destruct c, (upward e); cbn; lra. }
        apply Gn. intros e He. apply met_in, He.
      - intros e _ E. unfold sgn. rewrite E. ring. }
    rewrite F.
    assert (A : met <> [] -> total (fun p : R * bool => if snd p then fst p else - fst p) (map (fun e => (cross_x e y, xorb c (upward e))) met) < 0).
    { intros N. apply (alternating (length (map (fun e => (cross_x e y, xorb c (upward e))) met))); [reflexivity| | | |].
      - rewrite map_map. cbn [fst]. assert (D : NoDup met).
        { apply NoDup_filter. apply (NoDup_map_inv es). rewrite ring_map_es. apply Sl. }
        assert (I : forall e f, In e met -> In f met -> cross_x e y = cross_x f y -> e = f) by exact met_distinct.
        revert D I. generalize met as L. induction L as [|e L IH]; intros D I; [constructor|]. inversion D as [|? ? Ne D']; subst. cbn. constructor.
        + intros X. apply in_map_iff in X as (f & E & Hf). apply Ne. rewrite (I e f); [exact Hf|left; reflexivity|right; exact Hf|symmetry; exact E].
        + apply IH; [exact D'|]. intros e' f' H1 H2. apply I; right; assumption.
      - intros p Hp. apply in_map_iff in Hp as (e & <- & He). cbn [fst snd]. rewrite parity_map. cbn [fst].
        rewrite (direction e He). rewrite <- xorb_assoc, xorb_nilpotent. apply xorb_false_l.
      - rewrite parity_map. rewrite <- (straddle_even l y). generalize (ring l) as L. induction L as [|e L IH]; [reflexivity|].
        cbn [filter]. destruct (straddles e y) eqn:Es; rewrite !parity_cons, ?Es, IH; [reflexivity|]. symmetry; apply xorb_false_l.
      - intros E. apply map_eq_nil in E. exact (N E). }
    split; [|exact A]. destruct met as [|e L] eqn:E; [cbn; lra|]. left. apply A. discriminate.
  Qed.
End Level.

(** *** the whole polygon *)
Lemma path_tele : forall (g : rpoint -> R) l first a, total (fun e => g (ee e) - g (es e)) (path_edges first a l) = g first - g a.
Proof.
  intros g. induction l as [|b l IH]; intros first a; [cbn; lra|].
  change (g b - g a + total (fun e => g (ee e) - g (es e)) (path_edges first b l) = g first - g a). rewrite IH. lra.
Qed.
Lemma shoelace_trapezes : forall l, 2 * shoelace l = total (fun e => (px (es e) + px (ee e)) * (py (ee e) - py (es e))) (ring l).
Proof.
  intros l. unfold shoelace.
  replace (2 * (/ 2 * total (fun e => px (es e) * py (ee e) - px (ee e) * py (es e)) (ring l)))
    with (total (fun e => px (es e) * py (ee e) - px (ee e) * py (es e)) (ring l)) by lra.
  assert (Z : total (fun e => px (ee e) * py (ee e) - px (es e) * py (es e)) (ring l) = 0).
  { destruct l as [|a l]; [reflexivity|]. cbn [ring]. rewrite (path_tele (fun p => px p * py p)). lra. }
  rewrite <- (Rplus_0_r (total _ (ring l))), <- Z, <- total_add. apply total_ext. intros e _. ring.
Qed.
Lemma area_slabs : forall l H, StronglySorted Rle H -> (forall v, In v l -> In (py v) H) ->
  2 * shoelace l = total (fun p => (snd p - fst p) * (2 * flow l (mid p))) (slabs H).
Proof.
  intros l H S I. rewrite shoelace_trapezes.
  rewrite (total_ext _ (fun e => total (fun p => (snd p - fst p) * (2 * (sgn e (mid p) * cross_x e (mid p)))) (slabs H))).
  2:{ intros e He. symmetry. destruct (ring_in l e He) as (H1 & H2). apply slab_edge; auto. }
  rewrite total_swap. apply total_ext. intros p _. unfold flow. rewrite total_scal, total_scal. reflexivity.
Qed.
Lemma sloped : forall l e, simple l -> In e (ring l) -> exists f, In f (ring l) /\ py (es f) <> py (ee f).
Proof.
  intros l e Sl He. destruct (flip l e Sl He) as (d & Hd & F).
  pose proof (edist_nonneg (es e) (ee e)) as L.
  assert (X : exists p, even_odd l p = true).
  { assert (P : 0 < d / (d + edist (es e) (ee e))) by (apply Rdiv_lt_0_compat; lra).
    assert (E : d / (d + edist (es e) (ee e)) * (d + edist (es e) (ee e)) = d) by (field; lra).
    specialize (F _ P ltac:(nra)). destruct (even_odd l (beside e (/ 2) (d / (d + edist (es e) (ee e))))) eqn:E1; [eauto|].
    destruct (even_odd l (beside e (/ 2) (- (d / (d + edist (es e) (ee e)))))) eqn:E2; [eauto|discriminate]. }
  destruct X as (p & X). apply parity_nonempty in X.
  destruct (filter (crosses p) (ring l)) as [|f r] eqn:E; [contradiction|].
  assert (Hf : In f (filter (crosses p) (ring l))) by (rewrite E; left; reflexivity).
  apply filter_In in Hf as (Hf & C). exists f. split; [exact Hf|]. intros Q.
  unfold crosses, straddles in C. rewrite Q, xorb_nilpotent in C. discriminate.
Qed.
Lemma orientation_c : forall l c, simple l -> (forall e, In e (ring l) -> side l e c) -> (if c then -1 else 1) * shoelace l < 0.
Proof.
  intros l c Sl Hc. destruct (sort_ex (map py l)) as (H & S & I).
  assert (I' : forall v, In v l -> In (py v) H) by (intros v Hv; apply I, in_map, Hv).
  assert (G : forall p, In p (slabs H) -> fst p < snd p -> forall v, In v l -> py v <> mid p).
  { intros p Hp Lp v Hv. destruct (slabs_gap H S p _ Hp (I' v Hv)) as (_ & G). unfold mid. lra. }
  assert (E : (if c then -1 else 1) * (2 * shoelace l) = total (fun p => (if c then -1 else 1) * ((snd p - fst p) * (2 * flow l (mid p)))) (slabs H)).
  { rewrite total_scal, <- area_slabs by assumption. reflexivity. }
  assert (T : forall p, In p (slabs H) -> (if c then -1 else 1) * ((snd p - fst p) * (2 * flow l (mid p))) <= 0).
  { intros p Hp. destruct (Req_dec (fst p) (snd p)) as [Q|N]; [rewrite Q; lra|].
    assert (Lp : fst p < snd p).
    { destruct H as [|a H]; [destruct Hp|]. destruct (slabs_gap _ S p a Hp (or_introl eq_refl)). lra. }
    destruct (flow_sign l (mid p) c Sl Hc (G p Hp Lp)) as (F & _). nra. }
  assert (X : exists p, In p (slabs H) /\ (if c then -1 else 1) * ((snd p - fst p) * (2 * flow l (mid p))) < 0).
  { destruct (ring l) as [|e0 r0] eqn:Er.
    { destruct Sl as (N & _). rewrite <- ring_length, Er in N. cbn in N. lia. }
    destruct (sloped l e0 Sl) as (f & Hf & N); [rewrite Er; left; reflexivity|].
    destruct (ring_in l f Hf) as (I1 & I2). destruct (slab_edge f H S (I' _ I1) (I' _ I2)) as (_ & Y).
    assert (Z : 0 < total (fun p => (py (ee f) - py (es f)) * ((snd p - fst p) * sgn f (mid p))) (slabs H)).
    { rewrite total_scal, Y. apply Rsqr_pos_lt. lra. }
    apply total_pos_ex in Z as (p & Hp & P). exists p. split; [exact Hp|].
    assert (Ns : sgn f (mid p) <> 0) by (intros Q; rewrite Q in P; lra).
    assert (Np : fst p <> snd p) by (intros Q; rewrite Q in P; lra).
    assert (Lp : fst p < snd p).
    { destruct (slabs_gap _ S p _ Hp (I' _ I1)). lra. }
    rewrite Er in *. rewrite <- Er in *.
    destruct (flow_sign l (mid p) c Sl Hc (G p Hp Lp)) as (_ & F).
    assert (F' : (if c then -1 else 1) * flow l (mid p) < 0).
    { apply F. intros Q. assert (In f (filter (fun e => straddles e (mid p)) (ring l))).
      - apply filter_In. split; [exact Hf|]. unfold sgn in Ns. destruct (straddles f (mid p)); [reflexivity|contradiction].
      - rewrite Q in *. contradiction. }
    nra. }
  destruct X as (p & Hp & P). pose proof (total_lt0 _ _ p T Hp P) as R0. rewrite <- E in R0. lra.
Qed.
(** a simple polygon has an area, and its sign tells the side of the inside *)
Lemma orientation : forall l, simple l -> exists c, (forall e, In e (ring l) -> side l e c) /\ (if c then 0 < shoelace l else shoelace l < 0).
Proof.
  intros l Sl. destruct (one_side l Sl) as (c & Hc). exists c. split; [exact Hc|].
  pose proof (orientation_c l c Sl Hc). destruct c; lra.
Qed.
Lemma inside_is_left : forall l, simple l -> 0 < shoelace l -> inside_left l.
Proof.
  intros l Sl P. destruct (orientation l Sl) as ([] & Hc & A); [|lra]. intros e q He V. exact (Hc e He q V).
Qed.
Lemma simple_area : forall l, simple l -> shoelace l <> 0.
Proof. intros l Sl. destruct (orientation l Sl) as ([] & _ & A); lra. Qed.
