(** The primitive tests and distances, in exact real arithmetic. *)
From Coq Require Import Reals List Bool Lra Psatz.
From Verif Require Import Base Num GeoModel HazardModel GeoSpec ParityProofs.
Import ListNotations.
Local Open Scope R_scope.
#[local] Existing Instance RNum.

Ltac unr := unfold fsq, f2, fhalf in *;
  cbn [f0 f1 fadd fsub fmul fdiv fneg fabs fmin fmax fle flt feq fsqrt falmost fofN fceilN fMAX RNum RNumT] in *.

(** *** segments *)
Lemma minmax_disj : forall a b c d, Rmin (Rmax a b) (Rmax c d) < Rmax (Rmin a b) (Rmin c d) ->
  forall s t, 0 <= s <= 1 -> 0 <= t <= 1 -> a + s * (b - a) <> c + t * (d - c).
Proof.
  intros a b c d H s t Hs Ht E.
  assert (A : Rmin a b <= a + s * (b - a) <= Rmax a b)
    by (unfold Rmin, Rmax; destruct (Rle_dec a b); nra).
  assert (B : Rmin c d <= c + t * (d - c) <= Rmax c d)
    by (unfold Rmin, Rmax; destruct (Rle_dec c d); nra).
  assert (a + s * (b - a) <= Rmin (Rmax a b) (Rmax c d)) by (apply Rmin_glb; lra).
  assert (Rmax (Rmin a b) (Rmin c d) <= a + s * (b - a)) by (apply Rmax_lub; lra). lra.
Qed.

Lemma ei_sound : forall e f p, edge_intersection e f = Some p ->
  on_seg e p /\ on_seg f p /\ edet e f <> 0.
Proof.
  intros [[x1 y1] [x2 y2]] [[x3 y3] [x4 y4]] p. unfold edge_intersection.
  destruct (_ || _)%bool; [discriminate|]. cbn [px py es ee]. unr.
  set (D := (x2 - x1) * (y4 - y3) - (y2 - y1) * (x4 - x3)).
  destruct (Reqb D 0) eqn:E; simpl; [discriminate|]. apply Reqb_nspec in E.
  set (tn := (x2 - x4) * (y4 - y3) - (y2 - y4) * (x4 - x3)).
  set (un := (x2 - x4) * (y2 - y1) - (y2 - y4) * (x2 - x1)).
  destruct (Rleb 0 (tn / D)) eqn:T0; simpl; [|discriminate].
  destruct (Rleb (tn / D) 1) eqn:T1; simpl; [|discriminate].
  destruct (Rleb 0 (un / D)) eqn:U0; simpl; [|discriminate].
  destruct (Rleb (un / D) 1) eqn:U1; simpl; [|discriminate].
  apply Rleb_spec in T0, T1, U0, U1. intros H; injection H as <-.
  split; [|split].
  - exists (1 - tn / D). split; [lra|]. apply pt_ext; simpl; ring.
  - exists (1 - un / D). split; [lra|]. apply pt_ext; simpl; unfold tn, un, D; field; exact E.
  - exact E.
Qed.
Lemma ei_complete : forall e f p, edet e f <> 0 -> on_seg e p -> on_seg f p ->
  edge_intersection e f = Some p.
Proof.
  intros [[x1 y1] [x2 y2]] [[x3 y3] [x4 y4]] p D (s & Hs & Ps) (t & Ht & Pt').
  unfold edet in D; simpl in D.
  assert (Ex : x1 + s * (x2 - x1) = x3 + t * (x4 - x3)) by (rewrite Ps in Pt'; injection Pt'; auto).
  assert (Ey : y1 + s * (y2 - y1) = y3 + t * (y4 - y3)) by (rewrite Ps in Pt'; injection Pt'; auto).
  unfold edge_intersection, e_xmin, e_xmax, e_ymin, e_ymax. cbn [px py es ee]. unr.
  destruct (Rltb (Rmin (Rmax x1 x2) (Rmax x3 x4)) (Rmax (Rmin x1 x2) (Rmin x3 x4))) eqn:E1.
  { apply Rltb_spec in E1. destruct (minmax_disj _ _ _ _ E1 s t Hs Ht Ex). }
  destruct (Rltb (Rmin (Rmax y1 y2) (Rmax y3 y4)) (Rmax (Rmin y1 y2) (Rmin y3 y4))) eqn:E2.
  { apply Rltb_spec in E2. destruct (minmax_disj _ _ _ _ E2 s t Hs Ht Ey). }
  cbn [orb].
  replace (Reqb ((x2 - x1) * (y4 - y3) - (y2 - y1) * (x4 - x3)) 0) with false
    by (symmetry; apply Reqb_nspec; exact D).
  cbn [orb].
  assert (Ax : x2 - x4 = (1 - s) * (x2 - x1) - (1 - t) * (x4 - x3)) by lra.
  assert (Ay : y2 - y4 = (1 - s) * (y2 - y1) - (1 - t) * (y4 - y3)) by lra.
  assert (T : ((x2 - x4) * (y4 - y3) - (y2 - y4) * (x4 - x3)) / ((x2 - x1) * (y4 - y3) - (y2 - y1) * (x4 - x3)) = 1 - s).
  { apply Rmult_eq_reg_r with ((x2 - x1) * (y4 - y3) - (y2 - y1) * (x4 - x3)); [|exact D].
    unfold Rdiv. rewrite Rmult_assoc, Rinv_l, Rmult_1_r by exact D. rewrite Ax, Ay. ring. }
  assert (U : ((x2 - x4) * (y2 - y1) - (y2 - y4) * (x2 - x1)) / ((x2 - x1) * (y4 - y3) - (y2 - y1) * (x4 - x3)) = 1 - t).
  { apply Rmult_eq_reg_r with ((x2 - x1) * (y4 - y3) - (y2 - y1) * (x4 - x3)); [|exact D].
    unfold Rdiv. rewrite Rmult_assoc, Rinv_l, Rmult_1_r by exact D. rewrite Ax, Ay. ring. }
  rewrite T, U.
  replace (Rleb 0 (1 - s)) with true by (symmetry; apply Rleb_spec; lra).
  replace (Rleb (1 - s) 1) with true by (symmetry; apply Rleb_spec; lra).
  replace (Rleb 0 (1 - t)) with true by (symmetry; apply Rleb_spec; lra).
  replace (Rleb (1 - t) 1) with true by (symmetry; apply Rleb_spec; lra).
  simpl. f_equal. rewrite Ps. apply pt_ext; simpl; ring.
Qed.
Lemma ee_collides_iff : forall e f, ee_collides e f = true <-> touch e f /\ edet e f <> 0.
Proof.
  intros e f. unfold ee_collides. split.
  - destruct (edge_intersection e f) as [p|] eqn:E; [|discriminate]. intros _.
    apply ei_sound in E as (A & B & C). split; [exists p; auto|exact C].
  - intros ((p & A & B) & C). rewrite (ei_complete e f p); auto.
Qed.
Lemma edet_swap : forall e f, edet f e = - edet e f.
Proof. intros. unfold edet. ring. Qed.
Lemma edet_rev : forall e f, edet (e_reverse e) f = - edet e f.
Proof. intros. unfold edet; simpl. ring. Qed.

(** *** rectangle and point *)
Lemma rp_collides_iff : forall r p, rp_collides r p = true <-> in_rect r p.
Proof.
  intros r p. unfold rp_collides, in_rect. unr. rewrite !andb_true_iff, !Rleb_spec. tauto.
Qed.
Lemma rp_collides_dec : forall r p, rp_collides r p = false <-> ~ in_rect r p.
Proof. intros. rewrite <- rp_collides_iff. destruct (rp_collides r p); split; congruence. Qed.

(** *** rectangle and segment *)
Lemma enter1 : forall a d lo hi T, 0 <= T -> lo <= a + T * d <= hi ->
  exists t0, 0 <= t0 <= T /\ (forall t, t0 <= t <= T -> lo <= a + t * d <= hi) /\
    ((t0 = 0 /\ lo <= a <= hi) \/ (d <> 0 /\ (a + t0 * d = lo \/ a + t0 * d = hi))).
Proof.
  intros a d lo hi T HT H.
  destruct (Rlt_dec a lo) as [L|L].
  - assert (Dp : 0 < d) by nra. exists ((lo - a) / d).
    assert (E : (lo - a) / d * d = lo - a) by (field; lra).
    assert (0 < (lo - a) / d) by (apply Rdiv_lt_0_compat; lra).
    split; [split; nra|]. split; [intros t Ht; nra|]. right. split; [lra|]. left. lra.
  - destruct (Rlt_dec hi a) as [G|G].
    + assert (Dp : d < 0) by nra. exists ((hi - a) / d).
      assert (E : (hi - a) / d * d = hi - a) by (field; lra).
      assert (0 < (hi - a) / d). { replace ((hi - a) / d) with ((a - hi) / (- d)) by (field; lra). apply Rdiv_lt_0_compat; lra. }
      split; [split; nra|]. split; [intros t Ht; nra|]. right. split; [lra|]. right. lra.
    + exists 0. split; [lra|]. split; [|left; lra]. intros t Ht.
      destruct (Rle_dec 0 d); [assert (0 <= t * d <= T * d) by nra|assert (T * d <= t * d <= 0) by nra]; lra.
Qed.
Lemma seg_horiz : forall a b x y, (a <= x <= b \/ b <= x <= a) -> on_seg (Ed (Pt a y) (Pt b y)) (Pt x y).
Proof. intros a b x y H. apply (at_x (Ed (Pt a y) (Pt b y))); simpl; auto. Qed.
Lemma seg_vert : forall a b x y, (a <= y <= b \/ b <= y <= a) -> on_seg (Ed (Pt x a) (Pt x b)) (Pt x y).
Proof.
  intros a b x y H. destruct (seg_horiz a b y x H) as (t & Ht & E). exists t. split; [exact Ht|].
  injection E as E1 E2. apply pt_ext; simpl; lra.
Qed.
Lemma side_on : forall r p, proper r -> in_rect r p ->
  (px p = x_min r \/ px p = x_max r -> exists f, In f (r_edges r) /\ on_seg f p /\ px (es f) = px (ee f) /\
      py (es f) <> py (ee f)) /\
  (py p = y_min r \/ py p = y_max r -> exists f, In f (r_edges r) /\ on_seg f p /\ py (es f) = py (ee f) /\
      px (es f) <> px (ee f)).
Proof.
  intros [x0 y0 x1 y1] [x y] Pr H. unfold in_rect, proper in *; simpl in H, Pr. simpl.
  split; intros [->| ->].
  - exists (Ed (Pt x0 y1) (Pt x0 y0)). split; [tauto|]. split; [|simpl; split; [reflexivity|lra]].
    apply seg_vert; lra.
  - exists (Ed (Pt x1 y0) (Pt x1 y1)). split; [tauto|]. split; [|simpl; split; [reflexivity|lra]].
    apply seg_vert; lra.
  - exists (Ed (Pt x0 y0) (Pt x1 y0)). split; [tauto|]. split; [|simpl; split; [reflexivity|lra]].
    apply seg_horiz; lra.
  - exists (Ed (Pt x1 y1) (Pt x0 y1)). split; [tauto|]. split; [|simpl; split; [reflexivity|lra]].
    apply seg_horiz; lra.
Qed.
(** a segment that enters the rectangle crosses one of its sides transversally *)
Lemma enter_side : forall r e p, proper r -> on_seg e p -> in_rect r p -> ~ in_rect r (es e) ->
  exists f, In f (r_edges r) /\ touch e f /\ edet e f <> 0.
Proof.
  intros r e p Pr (T & HT & ->) IR NI.
  set (dx := px (ee e) - px (es e)). set (dy := py (ee e) - py (es e)).
  destruct IR as (IX & IY). simpl in IX, IY.
  destruct (enter1 (px (es e)) dx (x_min r) (x_max r) T) as (tx & Htx & Rx & Cx); [lra|exact IX|].
  destruct (enter1 (py (es e)) dy (y_min r) (y_max r) T) as (ty & Hty & Ry & Cy); [lra|exact IY|].
  assert (G : forall t0, tx <= t0 <= T -> ty <= t0 <= T -> 0 <= t0 <= 1 -> in_rect r (at_t e t0)).
  { intros t0 A B C. split; simpl; [apply Rx|apply Ry]; lra. }
  assert (CX : ty <= tx -> dx <> 0 -> px (es e) + tx * dx = x_min r \/ px (es e) + tx * dx = x_max r ->
     exists f, In f (r_edges r) /\ touch e f /\ edet e f <> 0).
  { intros L Nd Hs. destruct (side_on r (at_t e tx) Pr) as (S & _); [apply G; lra|].
    destruct (S Hs) as (f & Hf & Of & E1 & E2). exists f. split; [exact Hf|]. split.
    - exists (at_t e tx). split; [exists tx; split; [lra|reflexivity]|exact Of].
    - unfold edet. rewrite E1. fold dx dy. intros Q. apply Nd. nra. }
  assert (CY : tx <= ty -> dy <> 0 -> py (es e) + ty * dy = y_min r \/ py (es e) + ty * dy = y_max r ->
     exists f, In f (r_edges r) /\ touch e f /\ edet e f <> 0).
  { intros L Nd Hs. destruct (side_on r (at_t e ty) Pr) as (_ & S); [apply G; lra|].
    destruct (S Hs) as (f & Hf & Of & E1 & E2). exists f. split; [exact Hf|]. split.
    - exists (at_t e ty). split; [exists ty; split; [lra|reflexivity]|exact Of].
    - unfold edet. rewrite E1. fold dx dy. intros Q. apply Nd. nra. }
  destruct Cx as [(X0 & XI)|(Nx & Sx)], Cy as [(Y0 & YI)|(Ny & Sy)].
  - destruct NI. split; assumption.
  - apply CY; auto. lra.
  - apply CX; auto. lra.
  - destruct (Rle_dec tx ty); [apply CY|apply CX]; auto; lra.
Qed.
Lemma r_edges_in : forall r f p, proper r -> In f (r_edges r) -> on_seg f p -> in_rect r p.
Proof.
  intros [x0 y0 x1 y1] f p (A & B) Hf (t & Ht & ->). simpl in *.
  destruct Hf as [<-|[<-|[<-|[<-|[]]]]]; split; simpl; nra.
Qed.

Lemma fcmp_sign : forall v, match fcmp v 0 with Lt => v < 0 | Eq => v = 0 | Gt => 0 < v end.
Proof.
  intros v. unfold fcmp. unr. rdestr v 0; [assumption|].
  destruct (Reqb v 0) eqn:E; [apply Reqb_spec in E; exact E|apply Reqb_nspec in E; lra].
Qed.
Lemma cmp_eqb_ok : forall a b, cmp_eqb a b = true -> a = b.
Proof. intros [] []; simpl; congruence. Qed.
Lemma weights4 : forall w1 w2 w3 w4 a b c d, 0 <= w1 -> 0 <= w2 -> 0 <= w3 -> 0 <= w4 ->
  0 < w1 + w2 + w3 + w4 -> 0 < a -> 0 < b -> 0 < c -> 0 < d ->
  w1 * a + w2 * b + w3 * c + w4 * d = 0 -> False.
Proof.
  intros. assert (0 <= w1 * a) by nra. assert (0 <= w2 * b) by nra. assert (0 <= w3 * c) by nra.
  assert (0 <= w4 * d) by nra.
  assert (E1 : w1 * a = 0) by lra. assert (E2 : w2 * b = 0) by lra. assert (E3 : w3 * c = 0) by lra.
  assert (E4 : w4 * d = 0) by lra.
  apply Rmult_integral in E1, E2, E3, E4. lra.
Qed.
Lemma re_collides_iff : forall r e, proper r ->
  (re_collides r e = true <-> exists p, on_seg e p /\ in_rect r p).
Proof.
  intros r e Pr. unfold re_collides.
  destruct (_ || _ || _ || _)%bool eqn:B.
  { split; [discriminate|]. intros (p & Op & (IX & IY)). exfalso.
    apply seg_between in Op as (SX & SY). unfold e_xmax, e_xmin, e_ymax, e_ymin in B. unr.
    apply orb_true_iff in B as [B|B]; [apply orb_true_iff in B as [B|B]; [apply orb_true_iff in B as [B|B]|]|];
      apply Rltb_spec in B; lra. }
  clear B. destruct (rp_collides r (es e) || rp_collides r (ee e))%bool eqn:E.
  { split; [intros _|reflexivity]. apply orb_true_iff in E as [E|E]; apply rp_collides_iff in E.
    - exists (es e). split; [apply on_seg_start|exact E].
    - exists (ee e). split; [apply on_seg_end|exact E]. }
  apply orb_false_iff in E as (E1 & E2). apply rp_collides_dec in E1, E2.
  assert (EX : existsb (fun re => ee_collides e re) (r_edges r) = true <-> exists p, on_seg e p /\ in_rect r p).
  { rewrite existsb_exists. split.
    - intros (f & Hf & C). apply ee_collides_iff in C as ((p & A & A') & _). exists p. split; [exact A|].
      apply (r_edges_in r f p Pr Hf A').
    - intros (p & Op & Ip). destruct (enter_side r e p Pr Op Ip E1) as (f & Hf & T & Nd).
      exists f. split; [exact Hf|]. apply ee_collides_iff. auto. }
  destruct (cmp_eqb _ _ && cmp_eqb _ _ && cmp_eqb _ _)%bool eqn:C; [|exact EX].
  split; [discriminate|]. intros (p & Op & Ip). exfalso.
  assert (NE : es e <> ee e).
  { intros Q. apply E1. destruct Op as (t & Ht & ->). replace (es e) with (at_t e t); [exact Ip|].
    rewrite <- Q || idtac. destruct e as [a b]; simpl in *; subst. apply pt_ext; simpl; ring. }
  destruct Op as (t & Ht & ->). destruct e as [[x1 y1] [x2 y2]], r as [a b c d].
  unfold proper, in_rect in *; simpl in *. unfold point_edge_relation in C. cbn [px py es ee] in C. unr.
  assert (N2 : x1 <> x2 \/ y1 <> y2).
  { destruct (Req_dec x1 x2) as [->|]; [|auto]. right. intros ->. apply NE. reflexivity. }
  set (px' := x1 + t * (x2 - x1)) in *. set (py' := y1 + t * (y2 - y1)) in *.
  set (va := (c - x1) * (y2 - y1) - (d - y1) * (x2 - x1)) in *.
  set (vb := (a - x1) * (y2 - y1) - (d - y1) * (x2 - x1)) in *.
  set (vc := (a - x1) * (y2 - y1) - (b - y1) * (x2 - x1)) in *.
  set (vd := (c - x1) * (y2 - y1) - (b - y1) * (x2 - x1)) in *.
  assert (Z : (px' - x1) * (y2 - y1) - (py' - y1) * (x2 - x1) = 0) by (unfold px', py'; ring).
  assert (CV : (c - px') * (d - py') * vc + (px' - a) * (d - py') * vd + (px' - a) * (py' - b) * va + (c - px') * (py' - b) * vb
     = (c - a) * (d - b) * ((px' - x1) * (y2 - y1) - (py' - y1) * (x2 - x1))).
  { unfold va, vb, vc, vd. ring. }
  rewrite Z, Rmult_0_r in CV.
  assert (S : (va < 0 /\ vb < 0 /\ vc < 0 /\ vd < 0) \/ (0 < va /\ 0 < vb /\ 0 < vc /\ 0 < vd)
     \/ (va = 0 /\ vb = 0 /\ vc = 0 /\ vd = 0)).
  { clear CV. clearbody va vb vc vd.
    apply andb_true_iff in C as (C & C3). apply andb_true_iff in C as (C1 & C2).
    apply cmp_eqb_ok in C1, C2, C3. change f0 with 0 in *.
    pose proof (fcmp_sign va). pose proof (fcmp_sign vb). pose proof (fcmp_sign vc). pose proof (fcmp_sign vd).
    rewrite <- C3, <- C2, <- C1 in *. destruct (fcmp va 0); tauto. }
  destruct S as [S|[S|S]].
  - assert (W : 0 < (c - px') * (d - py') + (px' - a) * (d - py') + (px' - a) * (py' - b) + (c - px') * (py' - b)).
    { replace (_ + _) with ((c - a) * (d - b)) by ring. apply Rmult_lt_0_compat; lra. }
    assert (0 <= (c - px') * (d - py')) by (apply Rmult_le_pos; lra). assert (0 <= (px' - a) * (d - py')) by (apply Rmult_le_pos; lra).
    assert (0 <= (px' - a) * (py' - b)) by (apply Rmult_le_pos; lra). assert (0 <= (c - px') * (py' - b)) by (apply Rmult_le_pos; lra).
    apply (weights4 ((c - px') * (d - py')) ((px' - a) * (d - py')) ((px' - a) * (py' - b)) ((c - px') * (py' - b)) (-vc) (-vd) (-va) (-vb)); lra.
  - assert (W : 0 < (c - px') * (d - py') + (px' - a) * (d - py') + (px' - a) * (py' - b) + (c - px') * (py' - b)).
    { replace (_ + _) with ((c - a) * (d - b)) by ring. apply Rmult_lt_0_compat; lra. }
    assert (0 <= (c - px') * (d - py')) by (apply Rmult_le_pos; lra). assert (0 <= (px' - a) * (d - py')) by (apply Rmult_le_pos; lra).
    assert (0 <= (px' - a) * (py' - b)) by (apply Rmult_le_pos; lra). assert (0 <= (c - px') * (py' - b)) by (apply Rmult_le_pos; lra).
    apply (weights4 ((c - px') * (d - py')) ((px' - a) * (d - py')) ((px' - a) * (py' - b)) ((c - px') * (py' - b)) vc vd va vb); lra.
  - unfold va, vb, vc, vd in S.
    assert ((c - a) * (y2 - y1) = 0) by lra. assert ((d - b) * (x2 - x1) = 0) by lra.
    apply Rmult_integral in H, H0. lra.
Qed.

(** *** rectangle and rectangle *)
Definition nonempty_rect (r : rrect) : Prop := x_min r <= x_max r /\ y_min r <= y_max r.
Lemma proper_nonempty : forall r, proper r -> nonempty_rect r.
Proof. intros r (A & B). split; lra. Qed.
Lemma minmax_le : forall a b c d, Rmax a b <= Rmin c d <-> (a <= c /\ a <= d) /\ (b <= c /\ b <= d).
Proof.
  intros. unfold Rmax, Rmin. destruct (Rle_dec a b), (Rle_dec c d); split; intros; lra.
Qed.
Lemma rr_collides_iff : forall a b, nonempty_rect a -> nonempty_rect b ->
  (rr_collides a b = true <-> exists p, in_rect a p /\ in_rect b p).
Proof.
  intros a b (A1 & A2) (B1 & B2). unfold rr_collides. unr. rewrite andb_true_iff, !Rleb_spec, !minmax_le. split.
  - intros ((X1 & X2) & (Y1 & Y2)).
    exists (Pt (Rmax (x_min a) (x_min b)) (Rmax (y_min a) (y_min b))). unfold in_rect; simpl.
    unfold Rmax. destruct (Rle_dec (x_min a) (x_min b)), (Rle_dec (y_min a) (y_min b)); lra.
  - intros (p & (X & Y) & (X' & Y')). lra.
Qed.

(** *** distances *)
Lemma sqrt_le_iff : forall x y, 0 <= x -> 0 <= y -> (sqrt x <= y <-> x <= y * y).
Proof.
  intros x y Hx Hy. split; intros H.
  - rewrite <- (sqrt_sqrt x Hx). pose proof (sqrt_pos x). nra.
  - rewrite <- (sqrt_square y Hy). apply sqrt_le_1_alt. exact H.
Qed.
Lemma sqd_nonneg : forall a b : R, 0 <= a ^ 2 + b ^ 2.
Proof. intros. nra. Qed.
Lemma edist_nonneg : forall p q, 0 <= edist p q.
Proof. intros. apply sqrt_pos. Qed.
Lemma edist_sq : forall p q, edist p q * edist p q = (px p - px q) ^ 2 + (py p - py q) ^ 2.
Proof. intros. unfold edist. apply sqrt_sqrt. apply sqd_nonneg. Qed.
Lemma edist_sym : forall p q, edist p q = edist q p.
Proof. intros. unfold edist. f_equal. ring. Qed.
Lemma edist_le : forall p q d, 0 <= d -> (edist p q <= d <-> (px p - px q) ^ 2 + (py p - py q) ^ 2 <= d * d).
Proof. intros. unfold edist. apply sqrt_le_iff; [apply sqd_nonneg|assumption]. Qed.
Lemma edist_mono : forall p q p' q',
  (px p - px q) ^ 2 + (py p - py q) ^ 2 <= (px p' - px q') ^ 2 + (py p' - py q') ^ 2 -> edist p q <= edist p' q'.
Proof. intros. unfold edist. apply sqrt_le_1_alt. assumption. Qed.
Lemma edist_tri : forall p q r, edist p r <= edist p q + edist q r.
Proof.
  intros p q r. pose proof (edist_nonneg p q). pose proof (edist_nonneg q r).
  apply edist_le; [lra|].
  assert (C : (px p - px q) * (px q - px r) + (py p - py q) * (py q - py r) <= edist p q * edist q r).
  { destruct (Rle_dec ((px p - px q) * (px q - px r) + (py p - py q) * (py q - py r)) 0) as [L|L].
    - assert (0 <= edist p q * edist q r) by (apply Rmult_le_pos; assumption). lra.
    - apply Rsqr_incr_0_var; [|apply Rmult_le_pos; assumption]. unfold Rsqr.
      replace (edist p q * edist q r * (edist p q * edist q r))
        with ((edist p q * edist p q) * (edist q r * edist q r)) by ring.
      rewrite !edist_sq.
      pose proof (pow2_ge_0 ((px p - px q) * (py q - py r) - (py p - py q) * (px q - px r))). nra. }
  pose proof (edist_sq p q). pose proof (edist_sq q r). nra.
Qed.
Lemma pt_sqdist_ok : forall p q, pt_sqdist p q = edist p q * edist p q.
Proof. intros. rewrite edist_sq. unfold pt_sqdist. unr. ring. Qed.
Lemma pt_dist_ok : forall p q, pt_dist p q = edist p q.
Proof. intros. unfold pt_dist. rewrite pt_sqdist_ok. unr. apply sqrt_square. apply edist_nonneg. Qed.

(** the closest point of a segment *)
Lemma closest_ok : forall e p, on_seg e (closest_point_on_edge e p) /\
  forall q, on_seg e q -> edist p (closest_point_on_edge e p) <= edist p q.
Proof.
  intros [[x1 y1] [x2 y2]] [x y]. unfold closest_point_on_edge. cbn [px py es ee]. unr.
  set (c := x2 - x1). set (d := y2 - y1). set (dot := (x - x1) * c + (y - y1) * d).
  destruct (Reqb (c * c + d * d) 0) eqn:E; [apply Reqb_spec in E|apply Reqb_nspec in E].
  { assert (C0 : c = 0) by nra. assert (D0 : d = 0) by nra.
    rdestr (- (1)) 0; [|lra]. split.
    - apply (on_seg_start (Ed (Pt x1 y1) (Pt x2 y2))).
    - intros q (t & Ht & ->). apply edist_mono; unfold at_t; cbn [px py es ee]; fold c d. rewrite C0, D0. apply Req_le. ring. }
  set (len := c * c + d * d) in *. assert (L : 0 < len) by (unfold len in *; nra).
  assert (DE : dot / len * len = dot) by (field; lra).
  set (k := dot / len) in *.
  assert (V : forall s, (x - (x1 + s * c)) ^ 2 + (y - (y1 + s * d)) ^ 2
     = (x - x1) ^ 2 + (y - y1) ^ 2 - 2 * s * (k * len) + s * s * len).
  { intros s. rewrite DE. unfold dot, len. ring. }
  rdestr k 0; [|rdestr 1 k].
  - split; [apply (on_seg_start (Ed (Pt x1 y1) (Pt x2 y2)))|].
    intros q (t & Ht & ->). apply edist_mono; unfold at_t; cbn [px py es ee]; fold c d. rewrite V.
    assert (0 <= (- t * k) * len) by (apply Rmult_le_pos; nra). assert (0 <= t * t * len) by (apply Rmult_le_pos; nra). lra.
  - split; [apply (on_seg_end (Ed (Pt x1 y1) (Pt x2 y2)))|].
    intros q (t & Ht & ->). apply edist_mono; unfold at_t; cbn [px py es ee]; fold c d.
    replace x2 with (x1 + 1 * c) by (unfold c; ring). replace y2 with (y1 + 1 * d) by (unfold d; ring).
    rewrite !V. assert (0 <= (1 - t) * (2 * k - 1 - t) * len) by (apply Rmult_le_pos; nra). lra.
  - split; [exists k; split; [lra|]; apply pt_ext; simpl; reflexivity|].
    intros q (t & Ht & ->). apply edist_mono; unfold at_t; cbn [px py es ee]; fold c d. rewrite !V. assert (0 <= (k - t) * (k - t) * len) by (apply Rmult_le_pos; [apply Rle_0_sqr|lra]). lra.
Qed.
Lemma e_sqdist_ok : forall e p, e_sqdist e p = edist p (closest_point_on_edge e p) * edist p (closest_point_on_edge e p).
Proof. intros. rewrite edist_sq. unfold e_sqdist. unr. ring. Qed.
Lemma e_dist_ok : forall e p, distance_to (on_seg e) p (e_dist e p).
Proof.
  intros e p. destruct (closest_ok e p) as (A & B).
  assert (E : e_dist e p = edist p (closest_point_on_edge e p)).
  { unfold e_dist. rewrite e_sqdist_ok. unr. apply sqrt_square. apply edist_nonneg. }
  rewrite E. split; [eauto|exact B].
Qed.

(** the closest point of a rectangle *)
Definition clamp (lo hi x : R) : R := Rmax lo (Rmin x hi).
Lemma clamp_in : forall lo hi x, lo <= hi -> lo <= clamp lo hi x <= hi.
Proof. intros. unfold clamp, Rmax, Rmin. destruct (Rle_dec x hi); destruct (Rle_dec lo _); lra. Qed.
Lemma sq_le : forall a b, (0 <= a <= b) \/ (b <= a <= 0) -> a ^ 2 <= b ^ 2.
Proof.
  intros a b [H|H].
  - assert (0 <= (b - a) * (b + a)) by (apply Rmult_le_pos; lra). lra.
  - assert (0 <= (a - b) * (- b - a)) by (apply Rmult_le_pos; lra). lra.
Qed.
Lemma clamp_best : forall lo hi x y, lo <= y <= hi -> (clamp lo hi x - x) ^ 2 <= (y - x) ^ 2.
Proof.
  intros. apply sq_le. unfold clamp, Rmax, Rmin. destruct (Rle_dec x y).
  - left. destruct (Rle_dec x hi); destruct (Rle_dec lo _); lra.
  - right. destruct (Rle_dec x hi); destruct (Rle_dec lo _); lra.
Qed.
Definition nearest (r : rrect) (p : rpoint) : rpoint :=
  Pt (clamp (x_min r) (x_max r) (px p)) (clamp (y_min r) (y_max r) (py p)).
Lemma nearest_in : forall r p, nonempty_rect r -> in_rect r (nearest r p).
Proof. intros r p (A & B). split; simpl; apply clamp_in; assumption. Qed.
Lemma nearest_best : forall r p q, in_rect r q -> edist p (nearest r p) <= edist p q.
Proof.
  intros r p q (A & B). apply edist_mono. unfold nearest; cbn [px py].
  pose proof (clamp_best (x_min r) (x_max r) (px p) (px q) A).
  pose proof (clamp_best (y_min r) (y_max r) (py p) (py q) B). nra.
Qed.
Lemma r_sqdist_ok : forall r p, nonempty_rect r -> r_sqdist r p = edist p (nearest r p) * edist p (nearest r p).
Proof.
  intros r p (A & B). rewrite edist_sq. unfold r_sqdist. unr.
  assert (K : forall lo hi x, lo <= hi -> (if Rltb x lo then (x - lo) * (x - lo) else if Rltb hi x then (x - hi) * (x - hi) else 0)
     = (x - clamp lo hi x) ^ 2).
  { intros lo hi x H. unfold clamp, Rmax, Rmin. rdestr x lo; [|rdestr hi x];
      destruct (Rle_dec x hi); destruct (Rle_dec lo _); try lra; try ring;
      replace hi with lo by lra; ring. }
  rewrite !K by assumption. simpl px. simpl py. rewrite Rabs_pos_eq; [ring|].
  pose proof (sqd_nonneg (px p - clamp (x_min r) (x_max r) (px p)) (py p - clamp (y_min r) (y_max r) (py p))). lra.
Qed.
Lemma r_dist_ok : forall r p, nonempty_rect r -> distance_to (in_rect r) p (r_dist r p).
Proof.
  intros r p H.
  assert (E : r_dist r p = edist p (nearest r p)).
  { unfold r_dist. rewrite r_sqdist_ok by exact H. unr. apply sqrt_square. apply edist_nonneg. }
  rewrite E. split; [exists (nearest r p); split; [apply nearest_in; exact H|reflexivity]|apply nearest_best].
Qed.

(** *** circles *)
Lemma disk_iff : forall c p, 0 <= crad c -> (in_disk c p <-> edist p (ccen c) * edist p (ccen c) <= crad c * crad c).
Proof.
  intros c p H. unfold in_disk. rewrite edist_sq. apply edist_le. exact H.
Qed.
Lemma cp_collides_iff : forall c p, 0 <= crad c -> (cp_collides c p = true <-> in_disk c p).
Proof.
  intros c p H. unfold cp_collides. rewrite pt_sqdist_ok. unr. rewrite Rleb_spec. symmetry. apply disk_iff. exact H.
Qed.
Lemma ce_collides_iff : forall c e, 0 <= crad c ->
  (ce_collides c e = true <-> exists p, in_disk c p /\ on_seg e p).
Proof.
  intros c e H. unfold ce_collides. rewrite e_sqdist_ok. unr. rewrite Rleb_spec.
  destruct (closest_ok e (ccen c)) as (A & B). split.
  - intros L. exists (closest_point_on_edge e (ccen c)). split; [|exact A]. apply disk_iff; [exact H|].
    rewrite (edist_sym _ (ccen c)). exact L.
  - intros (p & D & O). specialize (B p O). unfold in_disk in D. rewrite edist_sym in D.
    pose proof (edist_nonneg (ccen c) (closest_point_on_edge e (ccen c))). nra.
Qed.
Lemma cr_collides_iff : forall c r, 0 <= crad c -> nonempty_rect r ->
  (cr_collides c r = true <-> exists p, in_disk c p /\ in_rect r p).
Proof.
  intros c r H NR. unfold cr_collides. unr.
  change (Rmax (x_min r) (Rmin (px (ccen c)) (x_max r))) with (px (nearest r (ccen c))).
  change (Rmax (y_min r) (Rmin (py (ccen c)) (y_max r))) with (py (nearest r (ccen c))).
  rewrite Rleb_spec. split.
  - intros L. exists (nearest r (ccen c)). split; [|apply nearest_in; exact NR].
    apply disk_iff; [exact H|]. rewrite edist_sq. lra.
  - intros (p & D & O). pose proof (nearest_best r (ccen c) p O) as B. unfold in_disk in D. rewrite edist_sym in D.
    assert (X : edist (ccen c) (nearest r (ccen c)) <= crad c) by lra.
    apply edist_le in X; [|exact H]. lra.
Qed.
Lemma sumsq0 : forall a b : R, a ^ 2 + b ^ 2 = 0 -> a = 0 /\ b = 0.
Proof.
  intros a b H. pose proof (pow2_ge_0 a). pose proof (pow2_ge_0 b).
  split; apply Rsqr_0_uniq; unfold Rsqr; lra.
Qed.
(** the point at distance [d] from [p] towards [q] *)
Lemma walk : forall p q d, 0 <= d -> exists x, edist p x = d /\
  (d <= edist p q -> edist x q = edist p q - d) /\ (edist p q <= d -> edist x q = d - edist p q).
Proof.
  intros p q d Hd. destruct (Req_dec (edist p q) 0) as [E|E].
  - exists (Pt (px p + d) (py p)).
    assert (E2 := edist_sq p q). rewrite E, Rmult_0_l in E2. symmetry in E2.
    apply sumsq0 in E2 as (E2 & E3).
    assert (px p = px q) by lra. assert (py p = py q) by lra.
    assert (A : forall z, px z = px p -> py z = py p -> edist z (Pt (px p + d) (py p)) = d).
    { intros z X Y. unfold edist; simpl. rewrite X, Y.
      replace ((px p - (px p + d)) * ((px p - (px p + d)) * 1) + (py p - py p) * ((py p - py p) * 1)) with (d * d) by ring.
      apply sqrt_square. exact Hd. }
    split; [apply A; reflexivity|]. split; intros; rewrite (edist_sym _ q), A; lra.
  - set (n := edist p q) in *. assert (N : 0 < n) by (pose proof (edist_nonneg p q); unfold n in *; lra).
    assert (S := edist_sq p q). fold n in S.
    exists (Pt (px p + d / n * (px q - px p)) (py p + d / n * (py q - py p))).
    assert (K : forall z k, 0 <= k -> (px p - px q) ^ 2 * z ^ 2 + (py p - py q) ^ 2 * z ^ 2 = k * k -> sqrt ((px p - px q) ^ 2 * z ^ 2 + (py p - py q) ^ 2 * z ^ 2) = k).
    { intros z k Hk Ez. rewrite Ez. apply sqrt_square. exact Hk. }
    split; [|split].
    + unfold edist; simpl px; simpl py.
      replace ((px p - (px p + d / n * (px q - px p))) ^ 2 + (py p - (py p + d / n * (py q - py p))) ^ 2)
        with ((px p - px q) ^ 2 * (d / n) ^ 2 + (py p - py q) ^ 2 * (d / n) ^ 2) by ring.
      apply K; [exact Hd|]. rewrite <- Rmult_plus_distr_r, <- S. field. lra.
    + intros L. unfold edist at 1; simpl px; simpl py.
      replace ((px p + d / n * (px q - px p) - px q) ^ 2 + (py p + d / n * (py q - py p) - py q) ^ 2)
        with ((px p - px q) ^ 2 * (1 - d / n) ^ 2 + (py p - py q) ^ 2 * (1 - d / n) ^ 2) by ring.
      apply K; [fold n in L; lra|]. rewrite <- Rmult_plus_distr_r, <- S. field. lra.
    + intros L. unfold edist at 1; simpl px; simpl py.
      replace ((px p + d / n * (px q - px p) - px q) ^ 2 + (py p + d / n * (py q - py p) - py q) ^ 2)
        with ((px p - px q) ^ 2 * (1 - d / n) ^ 2 + (py p - py q) ^ 2 * (1 - d / n) ^ 2) by ring.
      apply K; [fold n in L; lra|]. rewrite <- Rmult_plus_distr_r, <- S. field. lra.
Qed.
Lemma cc_collides_iff : forall a b, 0 <= crad a -> 0 <= crad b ->
  (cc_collides a b = true <-> exists p, in_disk a p /\ in_disk b p).
Proof.
  intros a b Ha Hb. unfold cc_collides. unr. rewrite Rleb_spec.
  assert (X : edist (ccen a) (ccen b) <= crad a + crad b <->
    (px (ccen a) - px (ccen b)) ^ 2 + (py (ccen a) - py (ccen b)) ^ 2 <= (crad a + crad b) * (crad a + crad b))
    by (apply edist_le; lra).
  split.
  - intros L. assert (D : edist (ccen a) (ccen b) <= crad a + crad b) by (apply X; lra).
    destruct (Rle_dec (crad a) (edist (ccen a) (ccen b))) as [G|G].
    + destruct (walk (ccen a) (ccen b) (crad a) Ha) as (p & P1 & P2 & _). exists p. unfold in_disk.
      rewrite (edist_sym p (ccen a)), P1, (P2 G). lra.
    + exists (ccen b). unfold in_disk. rewrite (edist_sym (ccen b) (ccen a)). split; [lra|].
      unfold edist. replace (_ + _) with 0 by ring. rewrite sqrt_0. exact Hb.
  - intros (p & A & B). unfold in_disk in A, B. pose proof (edist_tri (ccen a) p (ccen b)).
    rewrite (edist_sym (ccen a) p) in H. assert (D : edist (ccen a) (ccen b) <= crad a + crad b) by lra.
    apply X in D. lra.
Qed.

(** *** distances to and from circles *)
Lemma edist_refl : forall p, edist p p = 0.
Proof. intros. unfold edist. replace (_ + _) with 0 by ring. apply sqrt_0. Qed.
Lemma cp_dist_ok : forall c p, 0 <= crad c -> distance_to (in_disk c) p (cp_dist c p).
Proof.
  intros c p H. unfold cp_dist. unr.
  replace ((px p - px (ccen c)) * (px p - px (ccen c)) + (py p - py (ccen c)) * (py p - py (ccen c)))
    with (edist p (ccen c) * edist p (ccen c)) by (rewrite edist_sq; ring).
  pose proof (edist_nonneg p (ccen c)) as N. rewrite sqrt_square by exact N.
  rdestr (edist p (ccen c) * edist p (ccen c)) (crad c * crad c).
  - split; [|intros; apply edist_nonneg]. exists p. split; [unfold in_disk; nra|apply edist_refl].
  - assert (L : crad c <= edist p (ccen c)) by nra. split.
    + destruct (walk p (ccen c) (edist p (ccen c) - crad c)) as (x & A & B & _); [lra|].
      exists x. split; [|exact A]. unfold in_disk. rewrite B; lra.
    + intros q D. unfold in_disk in D. pose proof (edist_tri p q (ccen c)). lra.
Qed.
Lemma cp_dist_border_ok : forall c p, 0 <= crad c ->
  let '(pos, d) := cp_dist_border c p in
  distance_to (on_circle c) p d /\ (pos = Interior <-> in_disk c p).
Proof.
  intros c p H. unfold cp_dist_border. unr.
  replace ((px p - px (ccen c)) * (px p - px (ccen c)) + (py p - py (ccen c)) * (py p - py (ccen c)))
    with (edist p (ccen c) * edist p (ccen c)) by (rewrite edist_sq; ring).
  pose proof (edist_nonneg p (ccen c)) as N. rewrite sqrt_square by exact N.
  destruct (Rleb (edist p (ccen c)) (crad c)) eqn:E; [apply Rleb_spec in E|apply Rleb_nspec in E].
  - split; [|unfold in_disk; tauto]. split.
    + destruct (walk (ccen c) p (crad c) H) as (x & A & _ & B). exists x.
      unfold on_circle. rewrite edist_sym, A. split; [reflexivity|].
      rewrite edist_sym, B by (rewrite edist_sym; exact E). rewrite (edist_sym (ccen c)). reflexivity.
    + intros q D. unfold on_circle in D. pose proof (edist_tri q p (ccen c)). rewrite (edist_sym q p) in H0. lra.
  - split; [|unfold in_disk; split; [discriminate|lra]]. split.
    + destruct (walk (ccen c) p (crad c) H) as (x & A & B & _). exists x.
      unfold on_circle. rewrite edist_sym, A. split; [reflexivity|].
      rewrite edist_sym, B by (rewrite edist_sym; lra). rewrite (edist_sym (ccen c)). reflexivity.
    + intros q D. unfold on_circle in D. pose proof (edist_tri p q (ccen c)). lra.
Qed.
Lemma ce_dist_border_ok : forall c e, 0 <= crad c ->
  let '(pos, d) := ce_dist_border c e in
  0 <= d /\
  (pos = Interior -> exists m, distance_to (on_seg e) (ccen c) m /\ m < crad c /\ d = crad c - m) /\
  (pos = Exterior -> (exists p q, in_disk c p /\ on_seg e q /\ edist p q = d) /\
     (forall p q, in_disk c p -> on_seg e q -> d <= edist p q)).
Proof.
  intros c e H. unfold ce_dist_border. destruct (e_dist_ok e (ccen c)) as ((q0 & Oq & Eq) & B).
  unr. pose proof (edist_nonneg (ccen c) q0) as N.
  rdestr (e_dist e (ccen c)) (crad c).
  - split; [lra|]. split; [intros _|discriminate]. exists (e_dist e (ccen c)). split; [|split; [lra|reflexivity]].
    split; eauto.
  - split; [lra|]. split; [discriminate|intros _]. split.
    + destruct (walk (ccen c) q0 (crad c) H) as (x & A & C & _). exists x, q0. unfold in_disk.
      rewrite edist_sym, A. split; [lra|]. split; [exact Oq|]. rewrite C; lra.
    + intros p q D O. unfold in_disk in D. specialize (B q O). pose proof (edist_tri (ccen c) p q).
      rewrite (edist_sym (ccen c) p) in H1. lra.
Qed.
Lemma cc_dist_border_ok : forall a b, 0 <= crad a -> 0 <= crad b ->
  let '(pos, d) := cc_dist_border a b in
  0 <= d /\
  (pos = Interior -> edist (ccen a) (ccen b) < crad a + crad b /\ d = crad a + crad b - edist (ccen a) (ccen b)) /\
  (pos = Exterior -> (exists p q, in_disk a p /\ in_disk b q /\ edist p q = d) /\
     (forall p q, in_disk a p -> in_disk b q -> d <= edist p q)).
Proof.
  intros a b Ha Hb. unfold cc_dist_border. rewrite pt_sqdist_ok. unr.
  pose proof (edist_nonneg (ccen a) (ccen b)) as N.
  rewrite !sqrt_square by lra.
  rdestr (edist (ccen a) (ccen b) * edist (ccen a) (ccen b)) ((crad a + crad b) * (crad a + crad b)).
  - assert (L : edist (ccen a) (ccen b) < crad a + crad b) by nra.
    split; [lra|]. split; [intros _; split; [exact L|reflexivity]|discriminate].
  - assert (L : crad a + crad b <= edist (ccen a) (ccen b)) by nra.
    split; [lra|]. split; [discriminate|intros _]. split.
    + destruct (walk (ccen a) (ccen b) (crad a) Ha) as (x & A & C & _).
      destruct (walk x (ccen b) (edist x (ccen b) - crad b)) as (y & Y1 & Y2 & _).
      { rewrite C; lra. }
      exists x, y. unfold in_disk. rewrite edist_sym, A. split; [lra|]. split.
      * rewrite Y2; lra.
      * rewrite Y1, C; lra.
    + intros p q D1 D2. unfold in_disk in *. pose proof (edist_tri (ccen a) p (ccen b)).
      pose proof (edist_tri p q (ccen b)). rewrite (edist_sym (ccen a) p) in H0. lra.
Qed.
