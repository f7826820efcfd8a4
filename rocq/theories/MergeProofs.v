(** Replacing an edge of a simple polygon by the point in which its neighbours meet:
    the result is simple again and its region contains (or is contained in) the old
    one. *)
From Coq Require Import Reals List Bool Lra Lia Psatz Permutation.
From Verif Require Import Base Num GeoModel HazardModel QTModel GeoSpec ShapeSpec SimplModel SimplSpec SimpleSpec
  ParityProofs CrossProofs GeoPrimProofs GeoRectProofs RegionProofs PipProofs PierProofs SimplProofs SimpleProofs OrientProofs SlabProofs
  TriangleProofs DropProofs.
Import ListNotations.
Local Open Scope R_scope.
#[local] Existing Instance RNum.

Lemma seg_sub : forall f x y z, on_seg f x -> on_seg f y -> on_seg (Ed x y) z -> on_seg f z.
Proof.
  intros [f1 f2] x y z (s & Hs & ->) (t & Ht & ->) O. apply sub_seg_inv in O as (u & Hu & ->). exists u. split; [lra|reflexivity].
Qed.
(** two segments from opposite corners of a triangle meet *)
Lemma cevian : forall a b v b0 x f, beyond b0 b v -> on_seg (Ed a v) x -> on_seg f b0 -> on_seg f x ->
  exists y, on_seg f y /\ on_seg (Ed a b) y.
Proof.
  intros a b v b0 x f (t & Ht & Ev) (w & Hw & Ex) O1 O2. assert (P : 0 < 1 + t * w) by (assert (0 <= t * w) by (apply Rmult_le_pos; lra); lra).
  set (m := / (1 + t * w)). assert (Pm : 0 < m) by (apply Rinv_0_lt_compat, P). assert (Em : m * (1 + t * w) = 1) by (unfold m; field; lra).
  assert (Pw : 0 <= t * w) by (apply Rmult_le_pos; lra).
  assert (M1 : m <= 1) by (assert (0 <= m * (t * w)) by (apply Rmult_le_pos; lra); lra).
  assert (Q1 : 0 <= m * (1 - w)) by (apply Rmult_le_pos; lra). assert (Q2 : m * (1 - w) <= 1) by (assert (0 <= m * w) by (apply Rmult_le_pos; lra); lra).
  exists (at_t (Ed b0 x) m). split.
  - apply (seg_sub f b0 x); auto. exists m. split; [lra|reflexivity].
  - apply on_seg_rev. exists (m * (1 - w)). split; [lra|]. rewrite Ex, Ev. apply pt_ext; unfold at_t, m; cbn [es ee px py]; field; lra.
Qed.
Lemma seg_point : forall b y, on_seg (Ed b b) y -> y = b.
Proof. intros b y (t & _ & ->). apply pt_ext; unfold at_t; cbn [es ee px py]; ring. Qed.
(** a segment on the line of [av] that meets [av] and contains neither end lies within *)
Lemma within : forall a v f x, a <> v -> edet f (Ed a v) = 0 -> on_seg f x -> on_seg (Ed a v) x -> ~ on_seg f a -> ~ on_seg f v -> on_seg (Ed a v) (es f).
Proof.
  intros a v f x N Par O Oa Na Nv. destruct (par_on a v f x Par O (turn_on a v x Oa)) as (T1 & T2).
  destruct (on_line a v _ N T1) as (s & Es). destruct (on_line a v _ N T2) as (u & Eu). destruct Oa as (t & Ht & Ex).
  assert (Ef : f = Ed (at_t (Ed a v) s) (at_t (Ed a v) u)) by (destruct f; cbn in *; congruence).
  assert (O' := O). rewrite Ef in O'. apply sub_seg_inv in O' as (w & Hw & Ew).
  assert (w = t) as -> by (apply (at_t_inj (Ed a v)); [exact N|congruence]).
  assert (A0 : ~ (s <= 0 <= u \/ u <= 0 <= s)).
  { intros H. apply Na. rewrite Ef. pose proof (sub_seg a v s u 0 H) as Q. rewrite at_t_0 in Q. exact Q. }
  assert (A1 : ~ (s <= 1 <= u \/ u <= 1 <= s)).
  { intros H. apply Nv. rewrite Ef. pose proof (sub_seg a v s u 1 H) as Q. rewrite at_t_1 in Q. exact Q. }
  exists s. split; [lra|exact Es].
Qed.
(** a property that passes along a path *)
Lemma path_all : forall (P : rpoint -> Prop) r a b, P b -> (forall f, In f (path_edges a b r) -> P (es f) -> P (ee f)) ->
  forall f, In f (path_edges a b r) -> P (es f).
Proof.
  intros P. induction r as [|c r IH]; intros a b Pb H f Hf.
  - destruct Hf as [<-|[]]. exact Pb.
  - destruct Hf as [<-|Hf]; [exact Pb|]. apply (IH a c); [|intros g Hg; apply H; right; exact Hg|exact Hf].
    apply (H (Ed b c)); [left; reflexivity|exact Pb].
Qed.
(** the value of the region in the triangle beside an edge *)
Lemma tri_seen : forall l a p b q, inside_left l -> In (Ed a p) (ring l) -> turn a p b <> 0 -> (forall q, in_tri a p b q -> ~ on_border l q) ->
  in_tri a p b q -> even_odd l q = Rltb 0 (turn a p b).
Proof.
  intros l a p b q Il He K Fr I. assert (V : sees l (Ed a p) q).
  { exists (at_t (Ed a p) (/ 2)), (/ 2). split; [lra|]. split; [reflexivity|]. intros t Ht. apply Fr. apply tri_towards; [exact I|exact Ht| | |].
    - rewrite turn_lin, turn_start, turn_end. lra.
    - rewrite turn_lin, turn_start, (turn_rot a p b). pose proof (Rle_0_sqr (turn a p b)) as Q. unfold Rsqr in Q. lra.
    - rewrite turn_lin, turn_end, (turn_rot p b a), (turn_rot a p b). pose proof (Rle_0_sqr (turn a p b)) as Q. unfold Rsqr in Q. lra. }
  destruct (Il _ q He V) as (L & R0). cbn [es ee] in *. destruct I as (I & _).
  destruct (Rlt_or_le 0 (turn a p b)) as [P|P].
  - rewrite (proj2 (Rltb_spec 0 _) P). apply L. nra.
  - rewrite (proj2 (Rltb_nspec 0 _) P). apply R0. assert (turn a p b < 0) by lra. nra.
Qed.

Section Merge.
  Variables (a b b0 a0 v : rpoint) (r : list rpoint).
  Notation l := (a :: b :: b0 :: r ++ [a0]).
  Notation l' := (v :: b0 :: r ++ [a0]).
  Notation C := (path_edges a0 b0 r).
  Hypotheses (Sl : simple l) (Va : beyond a0 a v) (Vb : beyond b0 b v) (K : turn a b v <> 0).
  Lemma mring_l : ring l = Ed a b :: Ed b b0 :: C ++ [Ed a0 a].
  Proof. apply (ring_merge a b b0 r a0 v). Qed.
  Lemma mring_l' : ring l' = Ed v b0 :: C ++ [Ed a0 v].
  Proof. apply (ring_merge a b b0 r a0 v). Qed.
  Lemma mchain_in : forall f, In f C -> In f (ring l).
  Proof. intros f Hf. rewrite mring_l. right; right. apply in_or_app. left. exact Hf. Qed.
  Lemma ab_in : In (Ed a b) (ring l).
  Proof. rewrite mring_l. left. reflexivity. Qed.
  Lemma bb0_in : In (Ed b b0) (ring l).
  Proof. rewrite mring_l. right; left. reflexivity. Qed.
  Lemma a0a_in : In (Ed a0 a) (ring l).
  Proof. rewrite mring_l. right; right. apply in_or_app. right. left. reflexivity. Qed.
  Lemma chain_pts : forall f, In f C -> In (es f) (b0 :: r) /\ In (ee f) (r ++ [a0]).
  Proof. intros f Hf. apply path_in in Hf as (H1 & H2). split; [exact H1|]. apply in_or_app. destruct H2 as [<-|H2]; [right; left; reflexivity|left; exact H2]. Qed.
  Lemma mdistinct : NoDup (b0 :: r ++ [a0]) /\ ~ In a (b :: b0 :: r ++ [a0]) /\ ~ In b (b0 :: r ++ [a0]).
  Proof. destruct Sl as (_ & D & _). inversion D as [|? ? N1 D1]; subst. inversion D1 as [|? ? N2 D2]; subst. auto. Qed.
  Lemma not_a : forall f, In f C -> es f <> a /\ ee f <> a /\ es f <> b /\ ee f <> b.
  Proof.
    intros f Hf. destruct (chain_pts f Hf) as (H1 & H2). destruct mdistinct as (_ & Na & Nb).
    assert (I1 : In (es f) (b0 :: r ++ [a0])) by (destruct H1 as [H1|H1]; [left; exact H1|right; apply in_or_app; left; exact H1]).
    assert (I2 : In (ee f) (b0 :: r ++ [a0])) by (right; exact H2).
    split; [|split; [|split]]; intros E; rewrite E in *; [apply Na; right; exact I1|apply Na; right; exact I2|apply Nb, I1|apply Nb, I2].
  Qed.
  (** the chain does not meet [ab] at all *)
  Lemma off_ab : forall f x, In f C -> on_seg f x -> ~ on_seg (Ed a b) x.
  Proof.
    intros f x Hf O1 O2. destruct (not_a f Hf) as (N1 & N2 & N3 & N4). destruct Sl as (_ & _ & S0).
    destruct (S0 f (Ed a b) x (mchain_in f Hf) ab_in O1 O2) as [E|[(E1 & E2)|(E1 & E2)]]; cbn [es ee] in *; [subst f; apply N1; reflexivity|congruence|congruence].
  Qed.
  Lemma at_b0 : forall f x, In f C -> on_seg f x -> on_seg (Ed b b0) x -> x = b0 /\ es f = b0.
  Proof.
    intros f x Hf O1 O2. destruct (not_a f Hf) as (N1 & N2 & N3 & N4). destruct Sl as (_ & _ & S0).
    destruct (S0 f (Ed b b0) x (mchain_in f Hf) bb0_in O1 O2) as [E|[(E1 & E2)|(E1 & E2)]]; cbn [es ee] in *; [subst f; exfalso; apply N3; reflexivity|congruence|split; congruence].
  Qed.
  Lemma at_a0 : forall f x, In f C -> on_seg f x -> on_seg (Ed a0 a) x -> x = a0 /\ ee f = a0.
  Proof.
    intros f x Hf O1 O2. destruct (not_a f Hf) as (N1 & N2 & N3 & N4). destruct Sl as (_ & _ & S0).
    destruct (S0 f (Ed a0 a) x (mchain_in f Hf) a0a_in O1 O2) as [E|[(E1 & E2)|(E1 & E2)]]; cbn [es ee] in *; [subst f; exfalso; apply N2; reflexivity|split; congruence|congruence].
  Qed.
  Lemma av_ne : a <> v /\ b <> v.
  Proof. split; intros E; apply K; rewrite <- E; unfold turn; ring. Qed.
  (** where the corners lie on the new sides *)
  Lemma a_mid : exists s, 0 < s < 1 /\ a = at_t (Ed a0 v) s.
  Proof.
    destruct Va as (t & Ht & Ev). exists (/ (1 + t)). assert (P : 0 < / (1 + t)) by (apply Rinv_0_lt_compat; lra). assert (Q : / (1 + t) * (1 + t) = 1) by (field; lra).
    split; [nra|]. rewrite Ev. apply pt_ext; unfold at_t; cbn [es ee px py]; field; lra.
  Qed.
  Lemma b_mid : exists s, 0 < s < 1 /\ b = at_t (Ed v b0) s.
  Proof.
    destruct Vb as (t & Ht & Ev). exists (t / (1 + t)). assert (P : 0 < / (1 + t)) by (apply Rinv_0_lt_compat; lra). assert (Q : / (1 + t) * (1 + t) = 1) by (field; lra).
    unfold Rdiv. split; [split; [apply Rmult_lt_0_compat; lra|nra]|]. rewrite Ev. apply pt_ext; unfold at_t; cbn [es ee px py]; field; lra.
  Qed.
  Lemma on_a0v : forall x, on_seg (Ed a0 v) x <-> on_seg (Ed a0 a) x \/ on_seg (Ed a v) x.
  Proof.
    destruct a_mid as (s & Hs & Ea). intros x. split.
    - intros (t & Ht & ->). destruct (Rle_or_lt t s).
      + left. rewrite Ea. rewrite <- (at_t_0 (Ed a0 v)) at 1. apply (sub_seg a0 v 0 s t). lra.
      + right. rewrite Ea. rewrite <- (at_t_1 (Ed a0 v)) at 2. apply (sub_seg a0 v s 1 t). lra.
    - assert (Oa : on_seg (Ed a0 v) a) by (exists s; split; [lra|exact Ea]).
      intros [O|O]; eapply seg_sub; [| |exact O| | |exact O]; auto; [apply on_seg_start|apply on_seg_end].
  Qed.
  Lemma on_vb0 : forall x, on_seg (Ed v b0) x <-> on_seg (Ed b v) x \/ on_seg (Ed b b0) x.
  Proof.
    destruct b_mid as (s & Hs & Eb). intros x. split.
    - intros (t & Ht & ->). destruct (Rle_or_lt t s).
      + left. apply on_seg_rev. rewrite Eb. rewrite <- (at_t_0 (Ed v b0)) at 1. apply (sub_seg v b0 0 s t). lra.
      + right. rewrite Eb. rewrite <- (at_t_1 (Ed v b0)) at 2. apply (sub_seg v b0 s 1 t). lra.
    - assert (Ob : on_seg (Ed v b0) b) by (exists s; split; [lra|exact Eb]).
      intros [O|O]; [apply on_seg_rev in O|]; eapply seg_sub; [| |exact O| | |exact O]; auto; [apply on_seg_start|apply on_seg_end].
  Qed.
  Lemma b0_line : turn b v b0 = 0.
  Proof. destruct Vb as (t & Ht & Ev). rewrite Ev. unfold turn; cbn [px py]. ring. Qed.
  Lemma a0_line : turn v a a0 = 0.
  Proof. destruct Va as (t & Ht & Ev). rewrite Ev. unfold turn; cbn [px py]. ring. Qed.

  (** *** what the test of the code excludes *)
  Definition mtested : Prop := forall f, In f C -> es f <> b0 -> ee f <> a0 ->
    ~ (touch f (Ed a0 v) /\ edet f (Ed a0 v) <> 0) /\ ~ (touch f (Ed v b0) /\ edet f (Ed v b0) <> 0).
  Definition mclear : Prop := forall f x, In f C -> on_seg f x -> ~ on_seg (Ed a v) x /\ ~ on_seg (Ed b v) x.
  Lemma with_b0 : forall f x, In f C -> on_seg f b0 -> on_seg f x -> ~ on_seg (Ed a v) x /\ ~ on_seg (Ed b v) x.
  Proof.
    intros f x Hf O1 O2. split; intros O.
    - destruct (cevian a b v b0 x f Vb O O1 O2) as (y & Y1 & Y2). exact (off_ab f y Hf Y1 Y2).
    - destruct (cevian b b v b0 x f Vb O O1 O2) as (y & Y1 & Y2). apply seg_point in Y2. subst y. exact (off_ab f b Hf Y1 (on_seg_end (Ed a b))).
  Qed.
  Lemma with_a0 : forall f x, In f C -> on_seg f a0 -> on_seg f x -> ~ on_seg (Ed a v) x /\ ~ on_seg (Ed b v) x.
  Proof.
    intros f x Hf O1 O2. split; intros O.
    - destruct (cevian a a v a0 x f Va O O1 O2) as (y & Y1 & Y2). apply seg_point in Y2. subst y. exact (off_ab f a Hf Y1 (on_seg_start (Ed a b))).
    - destruct (cevian b a v a0 x f Va O O1 O2) as (y & Y1 & Y2). apply on_seg_rev in Y2. exact (off_ab f y Hf Y1 Y2).
  Qed.
  Lemma par_a : forall f, edet f (Ed a0 v) = 0 -> edet f (Ed a v) = 0.
  Proof.
    intros f D. destruct Va as (t & Ht & Ev). rewrite Ev in *. unfold edet in *; cbn [es ee px py] in *.
    match goal with |- ?g = 0 => assert (E : (1 + t) * g = 0) end; [|apply Rmult_integral in E; lra].
    match type of D with ?d = 0 => transitivity (t * d); [ring|rewrite D; ring] end.
  Qed.
  Lemma par_b : forall f, edet f (Ed v b0) = 0 -> edet f (Ed b v) = 0.
  Proof.
    intros f D. destruct Vb as (t & Ht & Ev). rewrite Ev in *. unfold edet in *; cbn [es ee px py] in *.
    match goal with |- ?g = 0 => assert (E : (1 + t) * g = 0) end; [|apply Rmult_integral in E; lra].
    match type of D with ?d = 0 => transitivity (- t * d); [ring|rewrite D; ring] end.
  Qed.
  Lemma not_both : forall f, es f <> ee f -> edet f (Ed a v) = 0 -> edet f (Ed b v) = 0 -> False.
  Proof.
    intros f N D1 D2. apply K. unfold edet in *; cbn [es ee px py] in *.
    set (dx := px (ee f) - px (es f)) in *. set (dy := py (ee f) - py (es f)) in *.
    assert (Z : dx <> 0 \/ dy <> 0).
    { destruct (Req_dec dx 0) as [Zx|]; [|auto]. destruct (Req_dec dy 0) as [Zy|]; [|auto]. exfalso. apply N. apply pt_ext; unfold dx, dy in *; lra. }
    unfold turn. destruct Z as [Z|Z].
    - apply (Rmult_eq_reg_l dx); [|exact Z]. rewrite Rmult_0_r.
      match type of D1 with ?x = 0 => match type of D2 with ?y = 0 => transitivity ((px v - px a) * y - (px v - px b) * x); [ring|rewrite D1, D2; ring] end end.
    - apply (Rmult_eq_reg_l dy); [|exact Z]. rewrite Rmult_0_r.
      match type of D1 with ?x = 0 => match type of D2 with ?y = 0 => transitivity ((py v - py a) * y - (py v - py b) * x); [ring|rewrite D1, D2; ring] end end.
  Qed.
  Lemma b0_off : ~ on_seg (Ed a v) b0 /\ ~ on_seg (Ed b v) b0.
  Proof.
    destruct mdistinct as (_ & Na & Nb). split; intros O.
    - destruct (cevian a b v b0 b0 (Ed b0 b0) Vb O (on_seg_start _) (on_seg_start _)) as (y & Y1 & Y2). apply seg_point in Y1. subst y.
      destruct Sl as (_ & _ & S0). destruct (S0 (Ed a b) (Ed b b0) b0 ab_in bb0_in Y2 (on_seg_end _)) as [E|[(E1 & E2)|(E1 & E2)]]; cbn [es ee] in *.
      + injection E as E1 E2. apply Nb. left. congruence.
      + apply Nb. left. congruence.
      + apply Na. right; left. congruence.
    - destruct (cevian b b v b0 b0 (Ed b0 b0) Vb O (on_seg_start _) (on_seg_start _)) as (y & Y1 & Y2). apply seg_point in Y1, Y2. apply Nb. left. congruence.
  Qed.
  Lemma mtested_clear : mtested -> mclear.
  Proof.
    intros T. destruct av_ne as (Nav & Nbv).
    assert (Ofv : forall f, In f C -> es f <> b0 -> ee f <> a0 -> ~ on_seg f v).
    { intros f Hf N1 N2 O. destruct (T f Hf N1 N2) as (T1 & T2). apply (not_both f); [apply (simple_ne l f Sl), mchain_in, Hf| |].
      - apply par_a. destruct (Req_dec (edet f (Ed a0 v)) 0) as [Z|Z]; [exact Z|exfalso; apply T1; split; [exists v; split; [exact O|apply on_seg_end]|exact Z]].
      - apply par_b. destruct (Req_dec (edet f (Ed v b0)) 0) as [Z|Z]; [exact Z|exfalso; apply T2; split; [exists v; split; [exact O|apply on_seg_start]|exact Z]]. }
    assert (StepA : forall f x, In f C -> ~ on_seg (Ed a v) (es f) -> on_seg f x -> ~ on_seg (Ed a v) x).
    { intros f x Hf Nf Ox O. destruct (pt_dec (es f) b0) as [E|N1]; [destruct (with_b0 f x Hf) as (W & _); [rewrite <- E; apply on_seg_start|exact Ox|exact (W O)]|].
      destruct (pt_dec (ee f) a0) as [E|N2]; [destruct (with_a0 f x Hf) as (W & _); [rewrite <- E; apply on_seg_end|exact Ox|exact (W O)]|].
      apply Nf. apply (within a v f x); auto.
      - apply par_a. destruct (Req_dec (edet f (Ed a0 v)) 0) as [Z|Z]; [exact Z|exfalso]. apply (proj1 (T f Hf N1 N2)). split; [exists x; split; [exact Ox|apply on_a0v; right; exact O]|exact Z].
      - intros Oa. exact (off_ab f a Hf Oa (on_seg_start (Ed a b))). }
    assert (StepB : forall f x, In f C -> ~ on_seg (Ed b v) (es f) -> on_seg f x -> ~ on_seg (Ed b v) x).
    { intros f x Hf Nf Ox O. destruct (pt_dec (es f) b0) as [E|N1]; [destruct (with_b0 f x Hf) as (_ & W); [rewrite <- E; apply on_seg_start|exact Ox|exact (W O)]|].
      destruct (pt_dec (ee f) a0) as [E|N2]; [destruct (with_a0 f x Hf) as (_ & W); [rewrite <- E; apply on_seg_end|exact Ox|exact (W O)]|].
      apply Nf. apply (within b v f x); auto.
      - apply par_b. destruct (Req_dec (edet f (Ed v b0)) 0) as [Z|Z]; [exact Z|exfalso]. apply (proj2 (T f Hf N1 N2)). split; [exists x; split; [exact Ox|apply on_vb0; left; exact O]|exact Z].
      - intros Ob. exact (off_ab f b Hf Ob (on_seg_end (Ed a b))). }
    intros f x Hf Ox. split.
    - apply (StepA f x Hf); [|exact Ox]. apply (path_all (fun y => ~ on_seg (Ed a v) y) r a0 b0); [apply b0_off| |exact Hf].
      intros g Hg Pg. apply (StepA g (ee g) Hg Pg), on_seg_end.
    - apply (StepB f x Hf); [|exact Ox]. apply (path_all (fun y => ~ on_seg (Ed b v) y) r a0 b0); [apply b0_off| |exact Hf].
      intros g Hg Pg. apply (StepB g (ee g) Hg Pg), on_seg_end.
  Qed.

  (** *** the new polygon *)
  Lemma on_line_a : forall x, on_seg (Ed a0 v) x -> turn v a x = 0.
  Proof.
    intros x (t & Ht & ->). rewrite (turn_lin v a a0 v t), a0_line, turn_start. ring.
  Qed.
  Lemma on_line_b : forall x, on_seg (Ed v b0) x -> turn b v x = 0.
  Proof.
    intros x (t & Ht & ->). rewrite (turn_lin b v v b0 t), b0_line, turn_end. ring.
  Qed.
  Lemma lines_meet : forall x, on_seg (Ed a0 v) x -> on_seg (Ed v b0) x -> x = v.
  Proof.
    intros x O1 O2. apply on_line_a in O1. apply on_line_b in O2.
    destruct (on_line v a x (not_eq_sym (proj1 av_ne)) O1) as (s & ->). rewrite (turn_lin b v v a s), turn_end in O2.
    assert (E : turn b v a <> 0) by (rewrite (turn_rot a b v); exact K).
    assert (s = 0) as -> by (assert (Z : s * turn b v a = 0) by lra; apply Rmult_integral in Z; tauto). apply at_t_0.
  Qed.
  Lemma merged_simple : mclear -> simple l'.
  Proof.
    intros Cl. destruct mdistinct as (D & Na & Nb). destruct Sl as (_ & _ & S0). split; [|split].
    - cbn. rewrite app_length. cbn. lia.
    - constructor; [|exact D]. intros H. assert (E : exists f, In f C /\ on_seg f v \/ v = a0).
      { destruct (pt_dec v a0) as [->|N]; [exists (Ed a b); right; reflexivity|].
        assert (Hv : In v (b0 :: r)) by (destruct H as [H|H]; [left; exact H|apply in_app_or in H as [H|[H|[]]]; [right; exact H|congruence]]).
        assert (E : In v (map es C)).
        { clear - Hv. revert Hv. generalize b0. induction r as [|c r' IH]; intros b' Hv; cbn in *.
          - destruct Hv as [->|[]]. auto.
          - destruct Hv as [->|Hv]; [auto|right; apply IH, Hv]. }
        apply in_map_iff in E as (g & <- & Hg). exists g. left. split; [exact Hg|apply on_seg_start]. }
      destruct E as (f & [(Hf & Of)|E]).
      + apply (Cl f v Hf Of). apply on_seg_end.
      + destruct a_mid as (s & Hs & Ea). apply (proj1 av_ne). rewrite E in Ea |- *. rewrite Ea. apply (seg_point a0). exists s. split; [lra|reflexivity].
    - assert (NewA : forall f x, In f C -> on_seg f x -> on_seg (Ed a0 v) x -> x = ee f /\ x = a0).
      { intros f x Hf O1 O2. apply on_a0v in O2 as [O2|O2]; [destruct (at_a0 f x Hf O1 O2); split; congruence|]. exfalso. exact (proj1 (Cl f x Hf O1) O2). }
      assert (NewB : forall f x, In f C -> on_seg f x -> on_seg (Ed v b0) x -> x = es f /\ x = b0).
      { intros f x Hf O1 O2. apply on_vb0 in O2 as [O2|O2]; [exfalso; exact (proj2 (Cl f x Hf O1) O2)|destruct (at_b0 f x Hf O1 O2); split; congruence]. }
      intros e f x He Hf O1 O2. rewrite mring_l' in He, Hf. cbn [In] in He, Hf. rewrite in_app_iff in He, Hf. cbn [In] in He, Hf.
      destruct He as [<-|[He|[<-|[]]]], Hf as [<-|[Hf|[<-|[]]]]; cbn [es ee].
      + left; reflexivity.
      + right. destruct (NewB f x Hf O2 O1). auto.
      + right. pose proof (lines_meet x O2 O1). auto.
      + right. destruct (NewB e x He O1 O2). auto.
      + apply S0; auto using mchain_in.
      + right. destruct (NewA e x He O1 O2). auto.
      + right. pose proof (lines_meet x O1 O2). auto.
      + right. destruct (NewA f x Hf O2 O1). auto.
      + left; reflexivity.
  Qed.
  Lemma mparity_tri : forall q, xorb (even_odd l q) (even_odd l' q) = even_odd [a; b; v] q.
  Proof.
    intros q. unfold even_odd. rewrite mring_l, mring_l'. cbn [ring path_edges].
    rewrite !parity_cons, !parity_app, !parity_cons. cbn [parity fold_right].
    destruct a_mid as (s & Hs & Ea). destruct b_mid as (t & Ht & Eb).
    rewrite <- (crosses_split a0 v s q), <- Ea. rewrite <- (crosses_split v b0 t q), <- Eb. rewrite (crosses_sym v a q), (crosses_sym v b q).
    destruct (parity (crosses q) C), (crosses q (Ed a b)), (crosses q (Ed b b0)), (crosses q (Ed a0 a)), (crosses q (Ed v a)), (crosses q (Ed v b)); reflexivity.
  Qed.
  Section Cleared.
    Hypothesis Cl : mclear.
    Lemma moff : forall f x, In f C -> on_seg f x -> ~ on_border [a; b; v] x.
    Proof.
      intros f x Hf O (e & He & Oe). cbn in He. destruct He as [<-|[<-|[<-|[]]]].
      - exact (off_ab f x Hf O Oe).
      - exact (proj2 (Cl f x Hf O) Oe).
      - apply on_seg_rev in Oe. exact (proj1 (Cl f x Hf O) Oe).
    Qed.
    Lemma msame : forall f x y, In f C -> on_seg f x -> on_seg f y -> even_odd [a; b; v] x = even_odd [a; b; v] y.
    Proof. intros f x y Hf Ox Oy. apply even_odd_path. intros z Oz. apply (moff f z Hf). apply (seg_sub f x y); assumption. Qed.
    Lemma chain_false : forall f x, In f C -> on_seg f x -> even_odd [a; b; v] x = false.
    Proof.
      intros f x Hf O. rewrite (msame f x (es f) Hf O (on_seg_start f)).
      apply (path_all (fun y => even_odd [a; b; v] y = false) r a0 b0); [| |exact Hf].
      - destruct (even_odd [a; b; v] b0) eqn:E; [exfalso|reflexivity].
        assert (Off : ~ on_border [a; b; v] b0).
        { destruct (path_head r a0 b0) as (g & L & Eg & Es). rewrite <- Es. apply (moff g); [rewrite Eg; left; reflexivity|apply on_seg_start]. }
        destruct (tri_outside a b v b0 K Off E) as (_ & I & _). rewrite b0_line in I. lra.
      - intros g Hg P. rewrite <- P. apply (msame g); auto using on_seg_start, on_seg_end.
    Qed.
    Lemma mtri_free : forall q, in_tri a b v q -> ~ on_border l q /\ ~ on_border l' q.
    Proof.
      intros q I. assert (I' := I). destruct I' as (I1 & I2 & I3).
      assert (Fc : forall f, In f C -> ~ on_seg f q) by (intros f Hf O; pose proof (chain_false f q Hf O) as Z; rewrite (tri_inside a b v q I) in Z; discriminate).
      assert (Fa : ~ on_seg (Ed a0 v) q) by (intros O; rewrite (on_line_a q O) in I3; lra).
      assert (Fb : ~ on_seg (Ed v b0) q) by (intros O; rewrite (on_line_b q O) in I2; lra).
      split; intros (f & Hf & O).
      - rewrite mring_l in Hf. destruct Hf as [<-|[<-|Hf]]; [rewrite (turn_on a b q O) in I1; lra|apply Fb, on_vb0; right; exact O|].
        apply in_app_or in Hf as [Hf|[<-|[]]]; [exact (Fc f Hf O)|apply Fa, on_a0v; left; exact O].
      - rewrite mring_l' in Hf. destruct Hf as [<-|Hf]; [exact (Fb O)|]. apply in_app_or in Hf as [Hf|[<-|[]]]; [exact (Fc f Hf O)|exact (Fa O)].
    Qed.
    Lemma merge_grows : inside_left l -> turn a b v < 0 -> forall q, region l q -> region l' q.
    Proof.
      intros Il T. apply (glue l l' a b v K).
      - intros q. rewrite <- mparity_tri. destruct (even_odd l q), (even_odd l' q); reflexivity.
      - intros q I. split; [apply mtri_free, I|]. rewrite (tri_seen l a b v q Il ab_in K (fun z Hz => proj1 (mtri_free z Hz)) I). apply Rltb_nspec. lra.
      - intros q (f & Hf & O). rewrite mring_l in Hf. destruct Hf as [<-|[<-|Hf]].
        + right. exists (Ed a b). cbn. auto.
        + left. exists (Ed v b0). rewrite mring_l'. split; [left; reflexivity|apply on_vb0; right; exact O].
        + left. apply in_app_or in Hf as [Hf|[<-|[]]].
          * exists f. rewrite mring_l'. split; [right; apply in_or_app; left; exact Hf|exact O].
          * exists (Ed a0 v). rewrite mring_l'. split; [right; apply in_or_app; right; left; reflexivity|apply on_a0v; left; exact O].
    Qed.
    Lemma merge_shrinks : inside_left l -> 0 < turn a b v -> forall q, region l' q -> region l q.
    Proof.
      intros Il T. apply (glue l' l a b v K).
      - intros q. rewrite <- mparity_tri. destruct (even_odd l q), (even_odd l' q); reflexivity.
      - intros q I. split; [apply mtri_free, I|]. pose proof (mparity_tri q) as X.
        rewrite (tri_seen l a b v q Il ab_in K (fun z Hz => proj1 (mtri_free z Hz)) I), (tri_inside a b v q I), (proj2 (Rltb_spec 0 _) T) in X.
        destruct (even_odd l' q); [discriminate|reflexivity].
      - intros q (f & Hf & O). rewrite mring_l' in Hf. destruct Hf as [<-|Hf].
        + apply on_vb0 in O as [O|O]; [right; exists (Ed b v); cbn; auto|left; exists (Ed b b0); split; [apply bb0_in|exact O]].
        + apply in_app_or in Hf as [Hf|[<-|[]]]; [left; exists f; split; [apply mchain_in, Hf|exact O]|].
          apply on_a0v in O as [O|O]; [left; exists (Ed a0 a); split; [apply a0a_in|exact O]|right; exists (Ed v a); cbn; split; [auto|apply on_seg_rev, O]].
    Qed.
  End Cleared.
End Merge.
