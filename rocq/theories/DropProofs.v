(** Dropping a vertex of a simple polygon: the result is simple again and its region
    contains (or is contained in) the old one. *)
From Coq Require Import Reals List Bool Lra Lia Psatz Permutation.
From Verif Require Import Base Num GeoModel HazardModel QTModel GeoSpec ShapeSpec SimplModel SimplSpec SimpleSpec
  ParityProofs CrossProofs GeoPrimProofs GeoRectProofs RegionProofs PipProofs PierProofs SimplProofs SimpleProofs OrientProofs SlabProofs
  TriangleProofs.
Import ListNotations.
Local Open Scope R_scope.
#[local] Existing Instance RNum.

(** *** rotations *)
Lemma cyclic_sym : forall {A} (l l' : list A), cyclic l l' -> cyclic l' l.
Proof. intros A l l' (x & y & -> & ->). exists y, x. auto. Qed.
Lemma cyclic_ring : forall l l', cyclic l l' -> Permutation (ring l) (ring l').
Proof. intros l l' (x & y & -> & ->). apply ring_rotate_app. Qed.
Lemma cyclic_perm : forall {A} (l l' : list A), cyclic l l' -> Permutation l l'.
Proof. intros A l l' (x & y & -> & ->). apply Permutation_app_comm. Qed.
Lemma simple_cyclic : forall l l', cyclic l l' -> simple l -> simple l'.
Proof.
  intros l l' C (N & D & S). split; [rewrite <- (cyc_length l l' C); exact N|].
  split; [apply (Permutation_NoDup (cyclic_perm _ _ C)), D|].
  intros e f p He Hf. apply S; apply (Permutation_in _ (Permutation_sym (cyclic_ring _ _ C))); assumption.
Qed.
Lemma region_cyclic : forall l l' q, cyclic l l' -> region l q -> region l' q.
Proof.
  intros l l' q C [O|E].
  - left. apply (on_border_perm l l' q (cyclic_ring _ _ C) O).
  - right. destruct C as (x & y & -> & ->). rewrite even_odd_rotate. exact E.
Qed.

(** *** vertices in line *)
Lemma flat_area : forall a b l, a <> b -> (forall v, In v l -> turn a b v = 0) -> shoelace l = 0.
Proof.
  intros a b l N H. pose proof (edet_ne (Ed a b) N) as L. cbn [es ee] in L.
  set (dx := px b - px a) in *. set (dy := py b - py a) in *. set (k := (px a * dy - py a * dx) / (dx ^ 2 + dy ^ 2)).
  set (g := fun v : rpoint => k * ((px v - px a) * dx + (py v - py a) * dy)).
  assert (E : forall e, In e (ring l) -> px (es e) * py (ee e) - px (ee e) * py (es e) = g (ee e) - g (es e)).
  { intros e He. destruct (ring_in l e He) as (H1 & H2).
    destruct (on_line a b _ N (H _ H1)) as (s & E1). destruct (on_line a b _ N (H _ H2)) as (t & E2).
    rewrite E1, E2. unfold g, k, at_t; cbn [es ee px py]. fold dx dy. field. lra. }
  unfold shoelace. rewrite (total_ext _ _ _ E). destruct l as [|v l]; [cbn; lra|]. cbn [ring]. rewrite (path_tele g). lra.
Qed.
Lemma par_on : forall a b f x, edet f (Ed a b) = 0 -> on_seg f x -> turn a b x = 0 -> turn a b (es f) = 0 /\ turn a b (ee f) = 0.
Proof.
  intros a b f x D (u & Hu & ->) T. unfold edet, turn, at_t in *; cbn [es ee px py] in *.
  set (X := px (es f)) in *. set (Y := py (es f)) in *. set (U := px (ee f)) in *. set (V := py (ee f)) in *.
  assert (E : (px b - px a) * (V - Y) - (py b - py a) * (U - X) = 0) by lra.
  assert (E' : u * ((px b - px a) * (V - Y) - (py b - py a) * (U - X)) = 0) by (rewrite E; ring). split; lra.
Qed.
Lemma two_on : forall a b f x y, x <> y -> on_seg f x -> on_seg f y -> turn a b x = 0 -> turn a b y = 0 -> edet f (Ed a b) = 0.
Proof.
  intros a b f x y N (s & Hs & ->) (t & Ht & ->) T1 T2. assert (Nst : s - t <> 0) by (intros Z; apply N; f_equal; lra).
  unfold edet, turn, at_t in *; cbn [es ee px py] in *.
  set (X := px (es f)) in *. set (Y := py (es f)) in *. set (U := px (ee f)) in *. set (V := py (ee f)) in *.
  assert (Z : (s - t) * ((U - X) * (py b - py a) - (V - Y) * (px b - px a)) = 0) by lra.
  apply Rmult_integral in Z. tauto.
Qed.
(** the segment between two parameters *)
Lemma sub_seg : forall a b s t u, (s <= u <= t \/ t <= u <= s) -> on_seg (Ed (at_t (Ed a b) s) (at_t (Ed a b) t)) (at_t (Ed a b) u).
Proof.
  intros a b s t u H. destruct (Req_dec s t) as [->|N].
  - assert (u = t) as -> by lra. apply on_seg_start.
  - exists ((u - s) / (t - s)). split.
    + destruct H as [H|H].
      * split; [apply Rmult_le_pos; [lra|left; apply Rinv_0_lt_compat; lra]|]. apply (Rmult_le_reg_r (t - s)); [lra|].
        replace ((u - s) / (t - s) * (t - s)) with (u - s) by (field; lra). lra.
      * replace ((u - s) / (t - s)) with ((s - u) / (s - t)) by (field; lra).
        split; [apply Rmult_le_pos; [lra|left; apply Rinv_0_lt_compat; lra]|]. apply (Rmult_le_reg_r (s - t)); [lra|].
        replace ((s - u) / (s - t) * (s - t)) with (s - u) by (field; lra). lra.
    + rewrite at_t_at_t. f_equal. field. lra.
Qed.
Lemma sub_seg_inv : forall a b s t x, on_seg (Ed (at_t (Ed a b) s) (at_t (Ed a b) t)) x -> exists u, (s <= u <= t \/ t <= u <= s) /\ x = at_t (Ed a b) u.
Proof.
  intros a b s t x (w & Hw & ->). exists (s + w * (t - s)). split; [|apply at_t_at_t].
  destruct (Rle_or_lt s t).
  - left. assert (0 <= w * (t - s)) by (apply Rmult_le_pos; lra). assert (0 <= (1 - w) * (t - s)) by (apply Rmult_le_pos; lra). lra.
  - right. assert (0 <= w * (s - t)) by (apply Rmult_le_pos; lra). assert (0 <= (1 - w) * (s - t)) by (apply Rmult_le_pos; lra). lra.
Qed.
(** a property that passes along the edges of a chain *)
Lemma chain_all : forall (P : rpoint -> Prop) r a b, (forall s t, In (Ed s t) (path_edges a b r) -> In s r -> In t r -> P s -> P t) ->
  (forall c r', r = c :: r' -> P c) -> forall x, In x r -> P x.
Proof.
  intros P. induction r as [|c r IH]; intros a b H H0 x Hx; [destruct Hx|].
  assert (Pc : P c) by (apply (H0 c r); reflexivity).
  destruct Hx as [<-|Hx]; [exact Pc|]. apply (IH a c); [| |exact Hx].
  - intros s t He Hs Ht. apply H; [right; exact He|right; exact Hs|right; exact Ht].
  - intros d r' ->. apply (H c d); [right; left; reflexivity|left; reflexivity|right; left; reflexivity|exact Pc].
Qed.
Lemma chain_back : forall (P : rpoint -> Prop) r a b, (forall s t, In (Ed s t) (path_edges a b r) -> In s r -> In t r -> P t -> P s) ->
  forall x c r', r = c :: r' -> In x r -> P x -> P c.
Proof.
  intros P. induction r as [|c r IH]; intros a b H x c' r' E Hx Px; [discriminate|]. injection E as <- <-.
  destruct Hx as [<-|Hx]; [exact Px|]. destruct r as [|d r]; [destruct Hx|].
  apply (H c d); [right; left; reflexivity|left; reflexivity|right; left; reflexivity|].
  apply (IH a c) with (x := x) (r' := r); [|reflexivity|exact Hx|exact Px].
  intros s t He Hs Ht. apply H; [right; exact He|right; exact Hs|right; exact Ht].
Qed.

Lemma cons_of : forall {A} (l : list A), l <> [] -> exists c l', l = c :: l'.
Proof. intros A [|c l'] H; [contradiction|]. eauto. Qed.

(** *** dropping a vertex *)
Section Drop.
  Variables (p b a : rpoint) (r : list rpoint).
  Notation l := (p :: b :: r ++ [a]).
  Notation l' := (b :: r ++ [a]).
  Notation C := (path_edges a b r).
  Hypotheses (Sl : simple l) (Hr : r <> []).
  Lemma ring_l : ring l = Ed p b :: C ++ [Ed a p].
  Proof. apply (ring_drop p b r a). Qed.
  Lemma ring_l' : ring l' = C ++ [Ed a b].
  Proof. apply (ring_drop p b r a). Qed.
  Lemma chain_in : forall f, In f C -> In f (ring l).
  Proof. intros f Hf. rewrite ring_l. right. apply in_or_app. left. exact Hf. Qed.
  Lemma ap_in : In (Ed a p) (ring l).
  Proof. rewrite ring_l. right. apply in_or_app. right. left. reflexivity. Qed.
  Lemma pb_in : In (Ed p b) (ring l).
  Proof. rewrite ring_l. left. reflexivity. Qed.
  Lemma distinct : p <> b /\ p <> a /\ a <> b /\ ~ In p r /\ ~ In b r /\ ~ In a r /\ NoDup r.
  Proof.
    destruct Sl as (_ & D & _). inversion D as [|? ? N1 D1]; subst. inversion D1 as [|? ? N2 D2]; subst.
    assert (Na : ~ In a r) by (apply NoDup_remove_2 in D2; rewrite app_nil_r in D2; exact D2).
    apply NoDup_remove_1 in D2. rewrite app_nil_r in D2.
    assert (X1 : p <> b) by (intros ->; apply N1; left; reflexivity).
    assert (X2 : p <> a) by (intros ->; apply N1; right; apply in_or_app; right; left; reflexivity).
    assert (X3 : a <> b) by (intros ->; apply N2; apply in_or_app; right; left; reflexivity).
    assert (X4 : ~ In p r) by (intros X; apply N1; right; apply in_or_app; left; exact X).
    assert (X5 : ~ In b r) by (intros X; apply N2; apply in_or_app; left; exact X).
    auto 10.
  Qed.
  Lemma chain_start : forall f, In f C -> es f = b \/ In (es f) r.
  Proof. intros f Hf. apply path_in in Hf as (H & _). destruct H as [<-|H]; auto. Qed.
  Lemma chain_end : forall f, In f C -> ee f = a \/ In (ee f) r.
  Proof. intros f Hf. apply path_in in Hf as (_ & H). destruct H as [<-|H]; auto. Qed.
  (** the chain meets the two old edges in [a] and [b] only *)
  Lemma meet_ap : forall f x, In f C -> on_seg f x -> on_seg (Ed a p) x -> x = a /\ ee f = a.
  Proof.
    intros f x Hf O1 O2. destruct distinct as (D1 & D2 & D3 & D4 & D5 & D6 & _). pose proof (chain_start f Hf) as St.
    destruct Sl as (_ & _ & S0). destruct (S0 f (Ed a p) x (chain_in f Hf) ap_in O1 O2) as [E|[(E1 & E2)|(E1 & E2)]]; cbn in *.
    - subst f. cbn in St. exfalso. destruct St as [E|E]; [congruence|contradiction].
    - subst x. auto.
    - exfalso. destruct St as [E|E]; [congruence|]. apply D4. congruence.
  Qed.
  Lemma meet_pb : forall f x, In f C -> on_seg f x -> on_seg (Ed p b) x -> x = b /\ es f = b.
  Proof.
    intros f x Hf O1 O2. destruct distinct as (D1 & D2 & D3 & D4 & D5 & D6 & _). pose proof (chain_start f Hf) as St. pose proof (chain_end f Hf) as En.
    destruct Sl as (_ & _ & S0). destruct (S0 f (Ed p b) x (chain_in f Hf) pb_in O1 O2) as [E|[(E1 & E2)|(E1 & E2)]]; cbn in *.
    - subst f. cbn in St. exfalso. destruct St as [E|E]; [congruence|contradiction].
    - exfalso. destruct En as [E|E]; [congruence|]. apply D4. congruence.
    - subst x. auto.
  Qed.
  Lemma a_on : forall f, In f C -> on_seg f a -> ee f = a.
  Proof. intros f Hf O. apply (meet_ap f a Hf O (on_seg_start (Ed a p))). Qed.
  Lemma b_on : forall f, In f C -> on_seg f b -> es f = b.
  Proof. intros f Hf O. apply (meet_pb f b Hf O (on_seg_end (Ed p b))). Qed.
  Lemma not_ba : forall f, In f C -> es f = b -> ee f = a -> False.
  Proof.
    intros f Hf E1 E2. destruct (cons_of r Hr) as (c & r' & Er). destruct distinct as (_ & _ & D3 & _ & D5 & D6 & _). rewrite Er in Hf, D5, D6. cbn in Hf.
    destruct Hf as [<-|Hf]; cbn in *; [apply D6; left; congruence|]. apply path_in in Hf as (H & _). rewrite E1 in H. apply D5. exact H.
  Qed.

  (** *** what the test of the code excludes *)
  (** the edges of the chain that share no end with the corner do not properly meet [ab] *)
  Definition tested : Prop := forall f, In f C -> es f <> b -> ee f <> a -> ~ (touch f (Ed a b) /\ edet f (Ed a b) <> 0).
  Definition clear : Prop := forall f x, In f C -> on_seg f x -> on_seg (Ed a b) x -> x = a \/ x = b.
  Definition inner (x : rpoint) : Prop := exists t, 0 < t < 1 /\ x = at_t (Ed a b) t.
  Lemma inner_ne : forall x, inner x -> x <> a /\ x <> b.
  Proof.
    intros x (t & Ht & ->). destruct distinct as (_ & _ & D3 & _). split; intros E.
    - rewrite <- (at_t_0 (Ed a b)) in E at 2. cbn [es ee] in E. apply (at_t_inj (Ed a b)) in E; [lra|exact D3].
    - rewrite <- (at_t_1 (Ed a b)) in E at 2. cbn [es ee] in E. apply (at_t_inj (Ed a b)) in E; [lra|exact D3].
  Qed.
  (** an edge of the chain that meets the inner part of [ab] is part of it *)
  Lemma overlap : tested -> forall f x, In f C -> on_seg f x -> inner x ->
    (inner (es f) \/ es f = b) /\ (inner (ee f) \/ ee f = a) /\ (inner (es f) \/ inner (ee f)).
  Proof.
    intros T f x Hf O Ix. destruct (inner_ne x Ix) as (Na & Nb). destruct Ix as (t & Ht & Ex). destruct distinct as (_ & _ & D3 & _).
    assert (Ox : on_seg (Ed a b) x) by (exists t; split; [lra|exact Ex]). assert (Tx := turn_on a b x Ox).
    assert (Par : edet f (Ed a b) = 0).
    { destruct (pt_dec (es f) b) as [E|N1].
      - apply (two_on a b f x b); auto; [|apply turn_end]. rewrite <- E. apply on_seg_start.
      - destruct (pt_dec (ee f) a) as [E|N2].
        + apply (two_on a b f x a); auto; [|apply turn_start]. rewrite <- E. apply on_seg_end.
        + destruct (Req_dec (edet f (Ed a b)) 0) as [Z|Z]; [exact Z|exfalso]. apply (T f Hf N1 N2). split; [exists x; auto|exact Z]. }
    destruct (par_on a b f x Par O Tx) as (T1 & T2).
    destruct (on_line a b _ D3 T1) as (s & Es). destruct (on_line a b _ D3 T2) as (u & Eu).
    assert (Ef : f = Ed (at_t (Ed a b) s) (at_t (Ed a b) u)) by (destruct f; cbn in *; congruence).
    assert (O' := O). rewrite Ef in O'. apply sub_seg_inv in O' as (w & Hw & Ew).
    assert (w = t) as -> by (apply (at_t_inj (Ed a b)); [exact D3|congruence]).
    assert (A : forall z, (s <= z <= u \/ u <= z <= s) -> on_seg f (at_t (Ed a b) z)) by (intros z Hz; rewrite Ef; apply sub_seg, Hz).
    assert (A0 : (s <= 0 <= u \/ u <= 0 <= s) -> u = 0).
    { intros H. apply A in H. rewrite at_t_0 in H. apply a_on in H; [|exact Hf]. cbn [es] in H.
      apply (at_t_inj (Ed a b)); [exact D3|]. rewrite at_t_0, <- Eu. exact H. }
    assert (B0 : (s <= 1 <= u \/ u <= 1 <= s) -> s = 1).
    { intros H. apply A in H. rewrite at_t_1 in H. apply b_on in H; [|exact Hf]. cbn [ee] in H.
      apply (at_t_inj (Ed a b)); [exact D3|]. rewrite at_t_1, <- Es. exact H. }
    assert (Hs : 0 < s <= 1).
    { destruct (Rle_or_lt s 0) as [L|L].
      - assert (u = 0) by (apply A0; lra). lra.
      - destruct (Rle_or_lt s 1); [lra|]. assert (u <= t) by lra. assert (s = 1) by (apply B0; lra). lra. }
    assert (Hu : 0 <= u < 1).
    { destruct (Rle_or_lt 1 u) as [L|L].
      - assert (s = 1) by (apply B0; lra). lra.
      - destruct (Rle_or_lt 0 u); [lra|]. assert (u = 0) by (apply A0; lra). lra. }
    assert (I1 : inner (es f) \/ es f = b).
    { destruct (Req_dec s 1) as [->|]; [right; rewrite Es; apply at_t_1|left; exists s; split; [lra|exact Es]]. }
    assert (I2 : inner (ee f) \/ ee f = a).
    { destruct (Req_dec u 0) as [->|]; [right; rewrite Eu; apply at_t_0|left; exists u; split; [lra|exact Eu]]. }
    split; [exact I1|]. split; [exact I2|]. destruct I1 as [I1|I1]; [auto|]. destruct I2 as [I2|I2]; [auto|].
    exfalso. exact (not_ba f Hf I1 I2).
  Qed.
  Lemma tested_clear : tested -> shoelace l' <> 0 -> clear.
  Proof.
    intros T A f x Hf O1 O2. destruct distinct as (_ & _ & D3 & _ & D5 & D6 & _).
    destruct (pt_dec x a) as [->|Na]; [left; reflexivity|]. destruct (pt_dec x b) as [->|Nb]; [right; reflexivity|]. exfalso.
    assert (Ix : inner x).
    { destruct O2 as (t & Ht & E). exists t. split; [|exact E].
      destruct (Req_dec t 0) as [->|]; [exfalso; apply Na; rewrite E; apply at_t_0|].
      destruct (Req_dec t 1) as [->|]; [exfalso; apply Nb; rewrite E; apply at_t_1|]. lra. }
    assert (Y : exists y, In y r /\ inner y).
    { destruct (overlap T f x Hf O1 Ix) as (_ & _ & [I|I]); destruct (inner_ne _ I) as (N1 & N2).
      - destruct (chain_start f Hf) as [E|E]; [contradiction|eauto].
      - destruct (chain_end f Hf) as [E|E]; [contradiction|eauto]. }
    destruct Y as (y & Hy & Iy). destruct (cons_of r Hr) as (c & r' & Er).
    assert (Ic : inner c).
    { apply (chain_back inner r a b) with (x := y) (r' := r'); [|exact Er|exact Hy|exact Iy].
      intros s t He Hs Ht It. destruct (overlap T (Ed s t) t He (on_seg_end _) It) as ([I|I] & _); [exact I|]. cbn in I. subst s. contradiction. }
    assert (All : forall z, In z r -> inner z).
    { apply (chain_all inner r a b).
      - intros s t He Hs Ht Is. destruct (overlap T (Ed s t) s He (on_seg_start _) Is) as (_ & [I|I] & _); [exact I|]. cbn in I. subst t. contradiction.
      - intros c' r'' E. rewrite Er in E. injection E as <- <-. exact Ic. }
    apply A. apply (flat_area a b); [exact D3|]. intros v Hv. destruct Hv as [<-|Hv]; [apply turn_end|].
    apply in_app_or in Hv as [Hv|[<-|[]]]; [|apply turn_start]. destruct (All v Hv) as (t & Ht & ->). apply turn_on. exists t. split; [lra|reflexivity].
  Qed.

  (** *** the new polygon *)
  Lemma new_simple : clear -> simple l'.
  Proof.
    intros Cl. destruct distinct as (D1 & D2 & D3 & D4 & D5 & D6 & D7). destruct Sl as (_ & D & S0). split; [|split].
    - destruct (cons_of r Hr) as (c & r' & ->). cbn. rewrite app_length. cbn. lia.
    - inversion D; assumption.
    - assert (New : forall f x, In f C -> on_seg f x -> on_seg (Ed a b) x -> (x = ee f /\ x = a) \/ (x = es f /\ x = b)).
      { intros f x Hf O1 O2. destruct (Cl f x Hf O1 O2) as [->| ->].
        - left. split; [symmetry; apply a_on; assumption|reflexivity].
        - right. split; [symmetry; apply b_on; assumption|reflexivity]. }
      intros e f x He Hf O1 O2. rewrite ring_l' in He, Hf. apply in_app_or in He, Hf.
      destruct He as [He|[<-|[]]], Hf as [Hf|[<-|[]]]; cbn [es ee].
      + apply S0; auto using chain_in.
      + right. destruct (New e x He O1 O2) as [(E1 & E2)|(E1 & E2)]; auto.
      + right. destruct (New f x Hf O2 O1) as [(E1 & E2)|(E1 & E2)]; auto.
      + left. reflexivity.
  Qed.
  Lemma parity_tri : forall q, xorb (even_odd l q) (even_odd l' q) = even_odd [a; p; b] q.
  Proof.
    intros q. unfold even_odd. rewrite ring_l, ring_l'. cbn [ring path_edges].
    rewrite parity_cons, !parity_app, !parity_cons. cbn [parity fold_right].
    rewrite (crosses_sym a b q). destruct (parity (crosses q) C), (crosses q (Ed p b)), (crosses q (Ed a p)), (crosses q (Ed a b)); reflexivity.
  Qed.

  Section Corner.
    Hypotheses (K : turn a p b <> 0) (Cl : clear).
    Lemma off_tri : forall f x, In f C -> on_seg f x -> x <> a -> x <> b -> ~ on_border [a; p; b] x.
    Proof.
      intros f x Hf O Na Nb (e & He & Oe). cbn in He. destruct He as [<-|[<-|[<-|[]]]].
      - apply Na. apply (meet_ap f x Hf O Oe).
      - apply Nb. apply (meet_pb f x Hf O Oe).
      - apply on_seg_rev in Oe. destruct (Cl f x Hf O Oe); contradiction.
    Qed.
    Lemma same_tri : forall f x y, In f C -> on_seg f x -> on_seg f y -> x <> a -> x <> b -> y <> a -> y <> b ->
      even_odd [a; p; b] x = even_odd [a; p; b] y.
    Proof.
      intros f x y Hf Ox Oy Xa Xb Ya Yb. apply even_odd_path. intros z Oz.
      destruct Ox as (s & Hs & Ex), Oy as (t & Ht & Ey). rewrite Ex, Ey in Oz. destruct f as [f1 f2]. apply sub_seg_inv in Oz as (u & Hu & Ez).
      assert (Nf : f1 <> f2).
      { intros E. subst f2. pose proof (simple_ne l _ Sl (chain_in _ Hf)). cbn in *. congruence. }
      assert (Oz : on_seg (Ed f1 f2) z) by (exists u; split; [lra|exact Ez]).
      apply (off_tri _ z Hf Oz); intros ->.
      - assert (E := a_on _ Hf Oz). cbn in E. assert (u = 1) by (apply (at_t_inj (Ed f1 f2)); [exact Nf|rewrite at_t_1; cbn; congruence]).
        assert (s = 1 \/ t = 1) as [->| ->] by lra; [apply Xa|apply Ya]; rewrite at_t_1 in *; cbn in *; congruence.
      - assert (E := b_on _ Hf Oz). cbn in E. assert (u = 0) by (apply (at_t_inj (Ed f1 f2)); [exact Nf|rewrite at_t_0; cbn; congruence]).
        assert (s = 0 \/ t = 0) as [->| ->] by lra; [apply Xb|apply Yb]; rewrite at_t_0 in *; cbn in *; congruence.
    Qed.
    Lemma in_r_ne : forall x, In x r -> x <> a /\ x <> b.
    Proof. intros x Hx. destruct distinct as (_ & _ & _ & _ & D5 & D6 & _). split; intros ->; contradiction. Qed.
    Lemma one_value : exists c, (forall x, In x r -> even_odd [a; p; b] x = c) /\
      forall f x, In f C -> on_seg f x -> x <> a -> x <> b -> even_odd [a; p; b] x = c.
    Proof.
      destruct (cons_of r Hr) as (x0 & r' & Er). exists (even_odd [a; p; b] x0).
      assert (V : forall x, In x r -> even_odd [a; p; b] x = even_odd [a; p; b] x0).
      { apply (chain_all (fun x => even_odd [a; p; b] x = even_odd [a; p; b] x0) r a b).
        - intros s t He Hs Ht <-. destruct (in_r_ne s Hs), (in_r_ne t Ht). symmetry.
          apply (same_tri (Ed s t)); auto; [apply on_seg_start|apply on_seg_end].
        - intros c r'' E. rewrite Er in E. injection E as <- <-. reflexivity. }
      split; [exact V|]. intros f x Hf O Na Nb.
      assert (W : exists y, In y r /\ on_seg f y).
      { destruct (chain_start f Hf) as [E1|E1]; [|eauto using on_seg_start]. destruct (chain_end f Hf) as [E2|E2]; [|eauto using on_seg_end].
        exfalso. exact (not_ba f Hf E1 E2). }
      destruct W as (y & Hy & Oy). destruct (in_r_ne y Hy). rewrite <- (V y Hy). apply (same_tri f); auto.
    Qed.
    (** the rest of the polygon stays out of the triangle *)
    Hypothesis Side : (0 < shoelace l /\ turn a p b < 0) \/ (0 < shoelace l' /\ 0 < turn a p b).
    Lemma chain_out : forall f x, In f C -> on_seg f x -> ~ in_tri a p b x.
    Proof.
      intros f x Hf O I. destruct distinct as (D1 & D2 & D3 & _).
      assert (Na : x <> a) by (intros ->; destruct I as (I & _); rewrite turn_start in I; lra).
      assert (Nb : x <> b) by (intros ->; destruct I as (_ & _ & I); rewrite turn_start in I; lra).
      destruct one_value as (c & V & W). assert (c = true) as -> by (rewrite <- (W f x Hf O Na Nb); apply tri_inside, I).
      assert (In_r : forall y, In y r -> in_tri a p b y).
      { intros y Hy. apply tri_outside; [exact K| |apply V, Hy].
        destruct (in_r_ne y Hy). clear - Hy Cl Sl Hr H H0. assert (Ey : exists g, In g C /\ on_seg g y).
        { assert (E : In y (map es C)).
          { clear - Hy. revert Hy. generalize b. induction r as [|c r' IH]; intros b' Hy; [destruct Hy|]. cbn. right.
            destruct Hy as [<-|Hy]; [|apply IH, Hy]. destruct (path_head r' a c) as (g & r'' & E & Eg). rewrite E. left. exact Eg. }
          apply in_map_iff in E as (g & <- & Hg). exists g. split; [exact Hg|apply on_seg_start]. }
        destruct Ey as (g & Hg & Og). exact (off_tri g y Hg Og H H0). }
      destruct Side as [(A & T)|(A & T)].
      - apply (left_some l (Ed a p)); [apply inside_is_left; assumption|apply ap_in|exact (not_eq_sym D2)|]. cbn [es ee].
        intros v [<-|[<-|Hv]]; [rewrite turn_end; lra|lra|]. apply in_app_or in Hv as [Hv|[<-|[]]]; [|rewrite turn_start; lra].
        destruct (In_r v Hv) as (Q & _). nra.
      - apply (left_some l' (Ed a b)); [apply inside_is_left; [apply new_simple, Cl|assumption]|rewrite ring_l'; apply in_or_app; right; left; reflexivity|exact D3|].
        cbn [es ee]. intros v [<-|Hv]; [rewrite turn_end; lra|]. apply in_app_or in Hv as [Hv|[<-|[]]]; [|rewrite turn_start; lra].
        destruct (In_r v Hv) as (_ & _ & Q). rewrite (turn_swap a b v) in Q. nra.
    Qed.
    Lemma tri_free : forall q, in_tri a p b q -> ~ on_border l q /\ ~ on_border l' q.
    Proof.
      intros q I. assert (I' := I). destruct I' as (I1 & I2 & I3). split; intros (f & Hf & O).
      - rewrite ring_l in Hf. destruct Hf as [<-|Hf]; [apply turn_on in O; rewrite O in I2; lra|].
        apply in_app_or in Hf as [Hf|[<-|[]]]; [exact (chain_out f q Hf O I)|apply turn_on in O; rewrite O in I1; lra].
      - rewrite ring_l' in Hf. apply in_app_or in Hf as [Hf|[<-|[]]]; [exact (chain_out f q Hf O I)|].
        apply turn_on in O. rewrite (turn_swap a b q), O in I3. lra.
    Qed.
    Lemma tri_side : inside_left l -> forall q, in_tri a p b q -> even_odd l q = Rltb 0 (turn a p b).
    Proof.
      intros Il q I. assert (V : sees l (Ed a p) q).
      { exists (at_t (Ed a p) (/ 2)), (/ 2). split; [lra|]. split; [reflexivity|]. intros t Ht. apply tri_free. apply tri_towards; [exact I|exact Ht| | |].
        - rewrite turn_lin, turn_start, turn_end. lra.
        - rewrite turn_lin, turn_start, (turn_rot a p b). pose proof (Rle_0_sqr (turn a p b)) as Q. unfold Rsqr in Q. lra.
        - rewrite turn_lin, turn_end, (turn_rot p b a), (turn_rot a p b). pose proof (Rle_0_sqr (turn a p b)) as Q. unfold Rsqr in Q. lra. }
      destruct (Il _ q ap_in V) as (L & R0). cbn [es ee] in *. destruct I as (I & _).
      destruct (Rlt_or_le 0 (turn a p b)) as [P|P].
      - rewrite (proj2 (Rltb_spec 0 _) P). apply L. nra.
      - rewrite (proj2 (Rltb_nspec 0 _) P). apply R0. assert (turn a p b < 0) by lra. nra.
    Qed.
    Lemma old_border : forall q, on_border l q -> on_border l' q \/ on_border [a; p; b] q.
    Proof.
      intros q (f & Hf & O). rewrite ring_l in Hf. destruct Hf as [<-|Hf]; [right; exists (Ed p b); cbn; auto|].
      apply in_app_or in Hf as [Hf|[<-|[]]]; [left; exists f; rewrite ring_l'; split; [apply in_or_app; left; exact Hf|exact O]|].
      right. exists (Ed a p). cbn. auto.
    Qed.
    Lemma new_border : forall q, on_border l' q -> on_border l q \/ on_border [a; p; b] q.
    Proof.
      intros q (f & Hf & O). rewrite ring_l' in Hf. apply in_app_or in Hf as [Hf|[<-|[]]].
      - left. exists f. split; [apply chain_in, Hf|exact O].
      - right. exists (Ed b a). cbn. split; [auto|]. apply on_seg_rev, O.
    Qed.
    Lemma drop_grows : inside_left l -> turn a p b < 0 -> forall q, region l q -> region l' q.
    Proof.
      intros Il T. apply (glue l l' a p b K).
      - intros q. rewrite <- parity_tri. destruct (even_odd l q), (even_odd l' q); reflexivity.
      - intros q I. split; [apply tri_free, I|]. rewrite (tri_side Il q I). apply Rltb_nspec. lra.
      - exact old_border.
    Qed.
    Lemma drop_shrinks : inside_left l -> 0 < turn a p b -> forall q, region l' q -> region l q.
    Proof.
      intros Il T. apply (glue l' l a p b K).
      - intros q. rewrite <- parity_tri. destruct (even_odd l q), (even_odd l' q); reflexivity.
      - intros q I. split; [apply tri_free, I|]. pose proof (parity_tri q) as X. rewrite (tri_side Il q I), (tri_inside a p b q I) in X.
        rewrite (proj2 (Rltb_spec 0 _) T) in X. destruct (even_odd l' q); [discriminate|reflexivity].
      - exact new_border.
    Qed.
  End Corner.

  (** *** a vertex in the middle of a straight side *)
  Section Flat.
    Hypothesis K : turn a p b = 0.
    Lemma flat_mid : exists s, 0 < s < 1 /\ p = at_t (Ed a b) s.
    Proof.
      destruct (straight_on l a p b Sl ap_in pb_in K) as (m & Hm & Ex & Ey). exists (/ (1 + m)).
      assert (P : 0 < / (1 + m)) by (apply Rinv_0_lt_compat; lra). assert (Q : / (1 + m) * (1 + m) = 1) by (field; lra).
      split; [nra|]. apply pt_ext; unfold at_t; cbn [es ee px py].
      - replace (px b) with (px p + m * (px p - px a)) by lra. field. lra.
      - replace (py b) with (py p + m * (py p - py a)) by lra. field. lra.
    Qed.
    Lemma flat_on : forall x, on_seg (Ed a b) x <-> on_seg (Ed a p) x \/ on_seg (Ed p b) x.
    Proof.
      destruct flat_mid as (s & Hs & Ep). intros x. split.
      - intros (t & Ht & ->). destruct (Rle_or_lt t s).
        + left. rewrite Ep. rewrite <- (at_t_0 (Ed a b)) at 1. apply (sub_seg a b 0 s t). lra.
        + right. rewrite Ep. rewrite <- (at_t_1 (Ed a b)) at 2. apply (sub_seg a b s 1 t). lra.
      - intros [O|O].
        + assert (O' : on_seg (Ed (at_t (Ed a b) 0) (at_t (Ed a b) s)) x) by (rewrite at_t_0, <- Ep; exact O).
          apply sub_seg_inv in O' as (u & Hu & ->). apply open_in. lra.
        + assert (O' : on_seg (Ed (at_t (Ed a b) s) (at_t (Ed a b) 1)) x) by (rewrite at_t_1, <- Ep; exact O).
          apply sub_seg_inv in O' as (u & Hu & ->). apply open_in. lra.
    Qed.
    Lemma flat_clear : clear.
    Proof.
      intros f x Hf O1 O2. apply flat_on in O2 as [O2|O2]; [left; apply (meet_ap f x Hf O1 O2)|right; apply (meet_pb f x Hf O1 O2)].
    Qed.
    Lemma flat_region : forall q, region l q <-> region l' q.
    Proof.
      intros q. assert (B : on_border l q <-> on_border l' q).
      { unfold on_border. rewrite ring_l, ring_l'. split; intros (f & Hf & O).
        - destruct Hf as [<-|Hf].
          + exists (Ed a b). split; [apply in_or_app; right; left; reflexivity|apply flat_on; right; exact O].
          + apply in_app_or in Hf as [Hf|[<-|[]]]; [exists f; split; [apply in_or_app; left; exact Hf|exact O]|].
            exists (Ed a b). split; [apply in_or_app; right; left; reflexivity|apply flat_on; left; exact O].
        - apply in_app_or in Hf as [Hf|[<-|[]]]; [exists f; split; [right; apply in_or_app; left; exact Hf|exact O]|].
          apply flat_on in O as [O|O]; [exists (Ed a p)|exists (Ed p b)]; (split; [|exact O]); [right; apply in_or_app; right; left; reflexivity|left; reflexivity]. }
      assert (E : even_odd l q = even_odd l' q).
      { unfold even_odd. rewrite ring_l, ring_l'. rewrite parity_cons, !parity_app, !parity_cons. cbn [parity fold_right].
        destruct flat_mid as (s & Hs & Ep). rewrite <- (crosses_split a b s q), <- Ep.
        destruct (parity (crosses q) C), (crosses q (Ed p b)), (crosses q (Ed a p)); reflexivity. }
      unfold region. rewrite B, E. tauto.
    Qed.
  End Flat.
End Drop.
