(** Simplifying a simple polygon: every round keeps it simple and moves its border in
    one direction only. *)
From Coq Require Import Reals List Bool Arith Lra Lia Psatz Permutation.
From Verif Require Import Base Num GeoModel HazardModel QTModel TransfModel PolyModel GeoSpec ShapeSpec SimplModel SimplSpec SimpleSpec
  ParityProofs CrossProofs GeoPrimProofs NormProofs GeoRectProofs RegionProofs PipProofs PierProofs ConstructProofs SimplProofs SimpleProofs OrientProofs SlabProofs
  TriangleProofs DropProofs MergeProofs.
Import ListNotations.
Local Open Scope R_scope.
#[local] Existing Instance RNum.

Lemma rany_false : forall {A} (f : A -> res bool) l, rany f l = Ok false -> forall x, In x l -> f x = Ok false.
Proof.
  intros A f l. induction l as [|y l IH]; intros H x Hx; [destruct Hx|]. cbn in H. destruct (f y) as [[]|] eqn:E; cbn in H; try discriminate.
  destruct Hx as [<-|Hx]; [exact E|apply IH; assumption].
Qed.
(** *** the test of the code *)
Lemma ring_at : forall (l : list rpoint) f, In f (ring l) -> exists i, (i < length l)%nat /\ vertex l i = Ok (es f) /\
  vertex l (if Nat.eqb (S i) (length l) then 0%nat else S i) = Ok (ee f).
Proof.
  intros l f H. apply In_nth_error in H as (i & Hi). assert (Li : (i < length l)%nat) by (rewrite <- ring_length; apply nth_error_Some; congruence).
  exists i. split; [exact Li|]. destruct l as [|a l]; [cbn in Li; lia|]. cbn [ring] in Hi. assert (Li' : (i <= length l)%nat) by (cbn in Li; lia). rewrite path_nth in Hi by exact Li'.
  injection Hi as <-. cbn [es ee]. split.
  - apply vertex_ok. exact (nth_error_nth' (a :: l) a Li).
  - cbn [length Nat.eqb]. destruct (Nat.eqb_spec i (length l)) as [E|E]; [reflexivity|]. apply vertex_ok. refine (nth_error_nth' (a :: l) a _). cbn; lia.
Qed.
Lemma not_affected : forall ps (p : rpoint), affected ps p = false <-> ~ In p ps.
Proof.
  intros ps p. unfold affected. split.
  - intros H I. assert (E : existsb (fun q => pt_eq q p) ps = true) by (apply existsb_exists; exists p; split; [exact I|apply pt_eq_ok; reflexivity]). congruence.
  - intros N. destruct (existsb _ ps) eqn:E; [|reflexivity]. apply existsb_exists in E as (q & Hq & Eq). apply pt_eq_ok in Eq. subst q. contradiction.
Qed.
Lemma no_hits : forall (l : list rpoint) ps news, some_edge_hits l ps news = Ok false ->
  forall f n, In f (ring l) -> ~ In (es f) ps -> ~ In (ee f) ps -> In n news -> ~ (touch f n /\ edet f n <> 0).
Proof.
  intros l ps news H f n Hf N1 N2 Hn T. apply ring_at in Hf as (i & Hi & V1 & V2).
  pose proof (rany_false _ _ H i) as R. cbv beta in R. rewrite V1, V2 in R. cbn [rbind] in R.
  specialize (R ltac:(apply in_seq; lia)). destruct (edge_new (es f) (ee f)) as [e|] eqn:E; [|discriminate]. cbn [rbind] in R.
  unfold edge_new in E. destruct (pt_eq _ _); [discriminate|]. injection E as <-. cbn [es ee] in R.
  rewrite (proj2 (not_affected _ _) N1), (proj2 (not_affected _ _) N2) in R. cbn [negb andb] in R. injection R as R.
  assert (X : existsb (fun n => ee_collides {| es := es f; ee := ee f |} n) news = true).
  { apply existsb_exists. exists n. split; [exact Hn|]. destruct f as [f1 f2]. apply ee_collides_iff. exact T. }
  congruence.
Qed.
Lemma touch_rev : forall f a b, touch f (Ed a b) /\ edet f (Ed a b) <> 0 -> touch f (Ed b a) /\ edet f (Ed b a) <> 0.
Proof.
  intros f a b ((x & O1 & O2) & D). split; [exists x; split; [exact O1|apply on_seg_rev, O2]|].
  intros Z. apply D. unfold edet in *; cbn [es ee] in *. lra.
Qed.

(** *** one round *)
Definition moved (m : simpl_mode) (l l' : list rpoint) : Prop :=
  match m with Inflate => forall q, region l q -> region l' q | Deflate => forall q, region l' q -> region l q end.
Lemma moved_cyclic : forall m l l1 l' l1', cyclic l l1 -> cyclic l' l1' -> moved m l1 l1' -> moved m l l'.
Proof.
  intros [] l l1 l' l1' C C' H q Q; cbn in H.
  - apply (region_cyclic l1' l' q (cyclic_sym _ _ C')), H, (region_cyclic l l1 q C), Q.
  - apply (region_cyclic l1 l q (cyclic_sym _ _ C)), H, (region_cyclic l' l1' q C'), Q.
Qed.
Lemma flat_round : forall m l l' r a p b, (4 <= length l)%nat -> simple l -> cyclic l (p :: b :: r ++ [a]) -> cyclic l' (b :: r ++ [a]) ->
  turn a p b = 0 -> simple l' /\ moved m l l'.
Proof.
  intros m l l' r a p b L Sl C C' K. assert (S1 := simple_cyclic _ _ C Sl).
  assert (Hr : r <> []) by (intros ->; apply cyc_length in C; cbn in C; lia).
  assert (Cl := flat_clear p b a r S1 K). split; [apply (simple_cyclic _ _ (cyclic_sym _ _ C')), (new_simple p b a r S1 Hr Cl)|].
  apply (moved_cyclic m _ _ _ _ C C'). destruct m; cbn; intros q; apply (flat_region p b a r S1 K).
Qed.
Lemma bent_round : forall m l l' r a p b, (4 <= length l)%nat -> simple l -> 0 < shoelace l -> 0 < shoelace l' ->
  cyclic l (p :: b :: r ++ [a]) -> cyclic l' (b :: r ++ [a]) -> dir m * turn a p b < 0 ->
  (forall f, In f (ring l) -> ~ In (es f) [a; p; b] -> ~ In (ee f) [a; p; b] -> ~ (touch f (Ed a b) /\ edet f (Ed a b) <> 0)) ->
  simple l' /\ moved m l l'.
Proof.
  intros m l l' r a p b L Sl A A' C C' K T. assert (S1 := simple_cyclic _ _ C Sl).
  assert (Hr : r <> []) by (intros ->; apply cyc_length in C; cbn in C; lia).
  rewrite (shoelace_cyclic _ _ C) in A. rewrite (shoelace_cyclic _ _ C') in A'.
  assert (K' : turn a p b <> 0) by (intros Z; rewrite Z in K; lra).
  assert (Ts : tested b a r).
  { intros f Hf N1 N2. destruct (distinct p b a r S1) as (D1 & D2 & D3 & D4 & D5 & D6 & _).
    pose proof (chain_start b a r f Hf) as St. pose proof (chain_end b a r f Hf) as En. apply T.
    - apply (Permutation_in _ (Permutation_sym (cyclic_ring _ _ C))). apply (chain_in p b a r f Hf).
    - intros [E|[E|[E|[]]]]; destruct St as [St|St]; try congruence; rewrite <- E in St; contradiction.
    - intros [E|[E|[E|[]]]]; destruct En as [En|En]; try congruence; rewrite <- E in En; contradiction. }
  assert (Cl := tested_clear p b a r S1 Hr Ts ltac:(lra)). assert (S2 := new_simple p b a r S1 Hr Cl).
  split; [apply (simple_cyclic _ _ (cyclic_sym _ _ C')), S2|]. apply (moved_cyclic m _ _ _ _ C C').
  assert (Il := inside_is_left _ S1 A). destruct m; cbn [dir] in K.
  - cbn. apply (drop_grows p b a r S1 Hr K' Cl); [left; split; [exact A|lra]|exact Il|lra].
  - cbn. apply (drop_shrinks p b a r S1 Hr K' Cl); [right; split; [exact A'|lra]|exact Il|lra].
Qed.
Lemma merge_round : forall m l l' r a0 a b b0 v, simple l -> 0 < shoelace l ->
  cyclic l (a :: b :: b0 :: r ++ [a0]) -> cyclic l' (v :: b0 :: r ++ [a0]) -> 0 < dir m * turn a0 a b -> beyond a0 a v -> beyond b0 b v ->
  (forall f, In f (ring l) -> ~ In (es f) [a; a0; b; b0] -> ~ In (ee f) [a; a0; b; b0] ->
    ~ (touch f (Ed a0 v) /\ edet f (Ed a0 v) <> 0) /\ ~ (touch f (Ed v b0) /\ edet f (Ed v b0) <> 0)) ->
  simple l' /\ moved m l l'.
Proof.
  intros m l l' r a0 a b b0 v Sl A C C' K Va Vb T. assert (S1 := simple_cyclic _ _ C Sl).
  rewrite (shoelace_cyclic _ _ C) in A. destruct (merge_sign a0 a b v Va) as (s & Hs & Es).
  assert (Kv : dir m * turn a b v < 0).
  { replace (turn a b v) with (- turn a v b) by (unfold turn; ring). rewrite Es. assert (0 < s * (dir m * turn a0 a b)) by (apply Rmult_lt_0_compat; assumption). lra. }
  assert (K' : turn a b v <> 0) by (intros Z; rewrite Z in Kv; lra).
  assert (Ts : mtested b0 a0 v r).
  { intros f Hf N1 N2. destruct (mdistinct a b b0 a0 r S1) as (D & D1 & D2). destruct (not_a a b b0 a0 r S1 f Hf) as (X1 & X2 & X3 & X4).
    destruct (chain_pts b0 a0 r f Hf) as (St & En). apply T.
    - apply (Permutation_in _ (Permutation_sym (cyclic_ring _ _ C))). apply (mchain_in a b b0 a0 v r f Hf).
    - intros [E|[E|[E|[E|[]]]]]; try congruence. destruct St as [St|St]; [congruence|]. rewrite <- E in St.
      inversion D as [|? ? _ D']; subst. apply NoDup_remove_2 in D'. rewrite app_nil_r in D'. contradiction.
    - intros [E|[E|[E|[E|[]]]]]; try congruence. rewrite <- E in En. inversion D; contradiction. }
  assert (Cl := mtested_clear a b b0 a0 v r S1 Va Vb K' Ts). assert (S2 := merged_simple a b b0 a0 v r S1 Va Vb K' Cl).
  split; [apply (simple_cyclic _ _ (cyclic_sym _ _ C')), S2|]. apply (moved_cyclic m _ _ _ _ C C').
  assert (Il := inside_is_left _ S1 A). destruct m; cbn [dir] in Kv; cbn.
  - apply (merge_grows a b b0 a0 v r S1 Va Vb K' Cl Il). lra.
  - apply (merge_shrinks a b b0 a0 v r S1 Va Vb K' Cl Il). lra.
Qed.
Theorem round_region : forall m l cs c l', (4 <= length l)%nat -> candidates_of m l = Ok cs -> In c cs -> candidate_is_valid l c = Ok true ->
  execute_candidate l c = Ok l' -> simple l -> 0 < shoelace l -> 0 < shoelace l' -> simple l' /\ moved m l l'.
Proof.
  intros m l cs c l' L Ec Hc Va Ex Sl A A'. unfold candidates_of in Ec. cbn zeta in Ec.
  destruct (hd_error (rev (corners_of m (length l)))) as [prev|] eqn:Ep; [|discriminate]. cbn [expect rbind] in Ec.
  destruct (type_at l prev) as [pt|] eqn:Et; [|discriminate]. cbn [rbind] in Ec.
  destruct (in_candidates _ _ _ _ _ _ Et Ec Hc) as [(d & Hd & -> & T)|[(d & Hd & -> & T)|(i & c1 & c2 & I1 & I2 & -> & T1 & T2)]].
  - cbn [execute_candidate candidate_is_valid] in Ex, Va. apply in_corners in Hd as (i & Hi & ->).
    apply typed_spec in T as (a & p & b & Ha & Hp & Hb & K).
    apply vertex_ok in Ha, Hp, Hb. rewrite Ha, Hp, Hb in Va. apply vertex_ok in Ha, Hp, Hb. cbn [rbind] in Va.
    destruct (edge_new a b) as [ne|] eqn:En; [|discriminate]. cbn [rbind] in Va. unfold edge_new in En. destruct (pt_eq a b); [discriminate|]. injection En as <-.
    destruct (some_edge_hits _ _ _) as [h|] eqn:Eh; [|discriminate]. cbn in Va. assert (h = false) as -> by (destruct h; [discriminate|reflexivity]). clear Va.
    assert (Nh := no_hits _ _ _ Eh). destruct m; cbn [cflip c_flip corner_at c_prev c_mid c_next] in *.
    + destruct (drop_cyclic l l' i a p b ltac:(lia) Ex Ha Hp Hb) as (r & R1 & R2). apply (bent_round Inflate l l' r a p b); auto; [cbn; lra|].
      intros f Hf N1 N2. apply (Nh f (Ed a b) Hf N1 N2). left; reflexivity.
    + destruct (drop_cyclic l l' i b p a ltac:(lia) Ex Hb Hp Ha) as (r & R1 & R2). apply (bent_round Deflate l l' r b p a); auto; [cbn; rewrite turn_flip; lra|].
      intros f Hf N1 N2 Q. apply touch_rev in Q. revert Q. apply (Nh f (Ed a b) Hf); [| |left; reflexivity].
      * intros I. apply N1. cbn in I |- *. tauto.
      * intros I. apply N2. cbn in I |- *. tauto.
  - cbn [execute_candidate] in Ex. apply in_corners in Hd as (i & Hi & ->). apply typed_spec in T as (a & p & b & Ha & Hp & Hb & K).
    destruct m; cbn [cflip c_flip corner_at c_prev c_mid c_next] in *.
    + destruct (drop_cyclic l l' i a p b ltac:(lia) Ex Ha Hp Hb) as (r & R1 & R2). exact (flat_round Inflate l l' r a p b L Sl R1 R2 K).
    + destruct (drop_cyclic l l' i b p a ltac:(lia) Ex Hb Hp Ha) as (r & R1 & R2). apply (flat_round Deflate l l' r b p a L Sl R1 R2). rewrite turn_flip. lra.
  - destruct (adjacent m (length l) prev i c1 c2 ltac:(lia) Ep I1 I2) as (k & Hk & Ck). cbn [execute_candidate candidate_is_valid] in Ex, Va.
    destruct (replacing_vertex l c1 c2) as [o|] eqn:Er; [|discriminate]. cbn [rbind] in Ex, Va. destruct o as [v|]; [|discriminate]. cbn [expect rbind] in Ex.
    destruct (replacing_spec _ _ _ _ Er) as (a0 & a & b0 & b & A0 & Aa & B0 & Ab & Bv). destruct (Bv v eq_refl) as (V1 & V2).
    apply vertex_ok in A0, Aa, B0, Ab. rewrite A0, Aa, B0, Ab in Va. apply vertex_ok in A0, Aa, B0, Ab. cbn [rbind] in Va.
    destruct (edge_new a0 v) as [n1|] eqn:E1; [|discriminate]. cbn [rbind] in Va. destruct (edge_new v b0) as [n2|] eqn:E2; [|discriminate]. cbn [rbind] in Va.
    unfold edge_new in E1, E2. destruct (pt_eq a0 v); [discriminate|]. destruct (pt_eq v b0); [discriminate|]. injection E1 as <-. injection E2 as <-.
    destruct (some_edge_hits _ _ _) as [h|] eqn:Eh; [|discriminate]. cbn in Va. assert (h = false) as -> by (destruct h; [discriminate|reflexivity]). clear Va.
    assert (Nh := no_hits _ _ _ Eh).
    apply typed_spec in T1 as (t1 & t2 & t3 & T11 & T12 & T13 & T1). apply typed_spec in T2 as (u1 & u2 & u3 & T21 & T22 & T23 & T2).
    change (swap_out l (c_mid c1) (c_mid c2) v = Ok l') in Ex.
    destruct m; destruct Ck as (-> & ->); cbn [c_flip corner_at c_prev c_mid c_next] in *;
      rewrite ?(pv_nx _ _ Hk) in *; rewrite A0 in T11; injection T11 as <-; rewrite Aa in T12, T21; injection T12 as <-; injection T21 as <-;
      rewrite Ab in T13, T22; injection T13 as <-; injection T22 as <-; rewrite B0 in T23; injection T23 as <-.
    + destruct (merge_cyclic l l' k k _ a b a0 b0 v L Hk A0 Aa Ab B0 (or_introl (conj eq_refl eq_refl)) Ex) as (r & R1 & R2).
      apply (merge_round Inflate l l' r a0 a b b0 v); auto; [cbn; lra|]. intros f Hf N1 N2. split.
      * apply (Nh f (Ed a0 v) Hf N1 N2). left; reflexivity.
      * apply (Nh f (Ed v b0) Hf N1 N2). right; left; reflexivity.
    + destruct (merge_cyclic l l' k _ k b a b0 a0 v L Hk B0 Ab Aa A0 (or_intror (conj eq_refl eq_refl)) Ex) as (r & R1 & R2).
      apply (merge_round Deflate l l' r b0 b a a0 v); auto; [cbn; rewrite turn_flip; lra|]. intros f Hf N1 N2.
      assert (M1 : ~ In (es f) [a; a0; b; b0]) by (intros I; apply N1; cbn in I |- *; tauto).
      assert (M2 : ~ In (ee f) [a; a0; b; b0]) by (intros I; apply N2; cbn in I |- *; tauto). split; intros Q; apply touch_rev in Q; revert Q.
      * apply (Nh f (Ed v b0) Hf M1 M2). right; left; reflexivity.
      * apply (Nh f (Ed a0 v) Hf M1 M2). left; reflexivity.
Qed.
Lemma best_valid : forall m l c, best_candidate m l = Ok (Some c) -> exists cs, candidates_of m l = Ok cs /\ In c cs /\ candidate_is_valid l c = Ok true.
Proof.
  intros m l c Eb. unfold best_candidate in Eb. destruct (candidates_of m l) as [cs|] eqn:Ec; [|discriminate]. cbn [rbind] in Eb.
  destruct (rmapM _ cs) as [keyed|] eqn:Ek; [|discriminate]. cbn [rbind] in Eb. destruct (rfind _ _) as [best|] eqn:Ef; [|discriminate]. cbn [rbind] in Eb.
  destruct best as [(k, c0)|]; [|discriminate]. cbn in Eb. injection Eb as ->.
  destruct (rfind_first _ _ _ Ef) as (l1 & l2 & Es & V & _). destruct (rmapM_in _ _ _ Ek) as (K1 & K2). exists cs. split; [reflexivity|]. split; [|exact V].
  assert (I : In (k, c) keyed) by (eapply Permutation_in; [apply sort_keys_perm|]; rewrite Es; apply in_elt).
  destruct (K2 _ I) as (x & Ix & Ex'). destruct (area_delta l x) as [kx|] eqn:Ed; [|discriminate]. cbn in Ex'. injection Ex' as -> ->. exact Ix.
Qed.
(** *** all rounds *)
Theorem rounds_region : forall m o tol n l l', 0 < o -> m = Inflate \/ tol < 1 -> (3 <= length l)%nat -> simple l -> 0 < shoelace l ->
  simpl_rounds n m o tol l = Ok l' -> simple l' /\ 0 < shoelace l' /\ moved m l l'.
Proof.
  intros m o tol n. induction n as [|n IH]; intros l l' Ho Hm L Sl A H; cbn [simpl_rounds] in H.
  - injection H as <-. split; [exact Sl|]. split; [exact A|]. destruct m; cbn; auto.
  - assert (Stop : simple l /\ 0 < shoelace l /\ moved m l l) by (split; [exact Sl|]; split; [exact A|]; destruct m; cbn; auto).
    destruct (Nat.ltb_spec (length l) 4) as [S4|S4]; [injection H as <-; exact Stop|].
    destruct (best_candidate m l) as [[c|]|] eqn:Eb; cbn [rbind] in H; [|injection H as <-; exact Stop|discriminate].
    destruct (execute_candidate l c) as [l1|] eqn:Ex; [|discriminate]. cbn [rbind] in H.
    destruct (round_spec m l c l1 S4 Eb Ex) as (St & _). pose proof (step_length _ _ _ St) as Ln. pose proof (step_area _ _ _ St) as Ar.
    destruct (fle _ _) eqn:Q; [|injection H as <-; exact Stop].
    apply Rleb_spec in Q. rewrite area_ok in Q. cbn [fabs fdiv fsub RNum RNumT] in Q.
    assert (A1 : 0 < shoelace l1).
    { destruct Hm as [->|Ht]; [cbn in Ar; lra|].
      apply (Rmult_le_compat_r o) in Q; [|lra]. unfold Rdiv in Q. rewrite Rmult_assoc, Rinv_l, Rmult_1_r in Q by lra.
      assert (tol * o < 1 * o) by (apply Rmult_lt_compat_r; lra). revert Q. unfold Rabs. destruct Rcase_abs; lra. }
    destruct (best_valid m l c Eb) as (cs & Ec & Hc & Vc).
    destruct (round_region m l cs c l1 S4 Ec Hc Vc Ex Sl A A1) as (S1 & M1).
    destruct (IH l1 l' Ho Hm ltac:(lia) S1 A1 H) as (S2 & A2 & M2). split; [exact S2|]. split; [exact A2|].
    destruct m; cbn in *; auto.
Qed.
Theorem simplify_region : forall m tol s s', normalised s -> simple (p_pts s) -> m = Inflate \/ tol < 1 -> simplify_shape s m tol = Ok s' ->
  simple (p_pts s') /\ moved m (p_pts s) (p_pts s').
Proof.
  intros m tol s s' Nm Sl Hm H. unfold simplify_shape in H. destruct (simpl_rounds _ _ _ _ _) as [l|] eqn:Er; [|discriminate]. cbn [rbind] in H.
  pose proof (nm_positive _ Nm) as Ps. pose proof (nm_area _ Nm) as As. pose proof (nm_size _ Nm) as Ls.
  destruct (rounds_region m (p_area s) tol _ _ _ Ps Hm Ls Sl ltac:(rewrite <- As; exact Ps) Er) as (S1 & A1 & M1).
  destruct (poly_new_ok _ _ H) as (_ & [(E & _)|(_ & P)] & _); [|lra]. rewrite E. auto.
Qed.
Lemma inflate_region : forall tol s s', normalised s -> simple (p_pts s) -> simplify_shape s Inflate tol = Ok s' ->
  simple (p_pts s') /\ forall q, region (p_pts s) q -> region (p_pts s') q.
Proof. intros tol s s' Nm Sl H. exact (simplify_region Inflate tol s s' Nm Sl (or_introl eq_refl) H). Qed.
Lemma deflate_region : forall tol s s', normalised s -> simple (p_pts s) -> tol < 1 -> simplify_shape s Deflate tol = Ok s' ->
  simple (p_pts s') /\ forall q, region (p_pts s') q -> region (p_pts s) q.
Proof. intros tol s s' Nm Sl Ht H. exact (simplify_region Deflate tol s s' Nm Sl (or_intror Ht) H). Qed.
