(** The comparison of two quadtrees finds out exactly whether they agree.  Every [Num F]. *)
From Coq Require Import List Bool Arith ZArith Lia.
From Verif Require Import Base Num GeoModel HazardModel QTModel TransfModel HpgModel CdeModel CdeSpec
  PolyModel SlotMapModel LayoutModel ProblemModel ProblemSpec AssertModel AssertLayoutModel SelfCheckSpec ChecksSpec TreeMatchSpec
  BaseProofs HazVecProofs SelfCheckProofs ChecksProofs.
Import ListNotations.

Section TM.
  Context {F : Type} {D : Type} {ED : EqD D}.
  Local Notation node := (node F D).
  Local Notation qth := (qth F D).

  Lemma active_match_true : forall n1 n2 : node, active_match n1 n2 = Ok true <-> sees_same n1 n2.
  Proof.
    intros n1 n2. split.
    - intros H. destruct (active_hazards (n_haz n1)) as [l1|] eqn:E1; [|unfold active_match in H; rewrite E1 in H; discriminate].
      destruct (active_hazards (n_haz n2)) as [l2|] eqn:E2; [|unfold active_match in H; rewrite E1, E2 in H; discriminate].
      exists l1, l2. split; [exact E1|]. split; [exact E2|]. exact (proj1 (proj1 (node_comparison_exact n1 n2 l1 l2 E1 E2)) H).
    - intros (l1 & l2 & E1 & E2 & A). exact (proj2 (proj1 (node_comparison_exact n1 n2 l1 l2 E1 E2)) A).
  Qed.
  Lemma lone_true : forall n : node, lone_match n = Ok true <-> active_hazards (n_haz n) = Ok [].
  Proof.
    intros [l b hv ch]. cbn [lone_match n_haz]. destruct (active_hazards hv) as [[|h act]|]; cbn [rbind]; split; try discriminate; try reflexivity.
    intros _. destruct ch as [[c0 c1 c2 c3]|]; reflexivity.
  Qed.
  Lemma lone_fold : forall (l : list node) b, rfold (fun acc n => if negb acc then Ok false else lone_match n) l b = Ok true <->
    b = true /\ forall c, In c l -> active_hazards (n_haz c) = Ok [].
  Proof.
    induction l as [|n l IH]; intros b; cbn [rfold].
    - split; [intros H; injection H as ->; split; [reflexivity|intros c []]|intros (-> & _); reflexivity].
    - destruct b; cbn [negb rbind].
      + destruct (lone_match n) as [b'|] eqn:E; cbn [rbind].
        * rewrite IH. split.
          -- intros (-> & H). split; [reflexivity|]. intros c [<-|Hc]; [apply lone_true, E|apply H, Hc].
          -- intros (_ & H). split; [|intros c Hc; apply H; right; exact Hc]. assert (X := proj2 (lone_true n) (H n (or_introl eq_refl))). congruence.
        * split; [discriminate|]. intros (_ & H). assert (X := proj2 (lone_true n) (H n (or_introl eq_refl))). congruence.
      + rewrite IH. split; intros (X & _); discriminate.
  Qed.
  Lemma partial_ex : forall l : list qth, existsb is_partial l = true <-> exists h r, In h l /\ q_pres h = PPartial r.
  Proof.
    intros l. rewrite existsb_exists. unfold is_partial. split.
    - intros (h & Hh & E). destruct (q_pres h) eqn:P; try discriminate. eauto.
    - intros (h & r & Hh & E). exists h. rewrite E. auto.
  Qed.
  Lemma deeper_leaf : forall m1 m2 : node, n_children m1 = None -> deeper_empty m1 m2.
  Proof. intros m1 m2 E _ l h r i c _ _ _ A. cbn [at_path] in A. rewrite E in A. discriminate. Qed.
  Lemma deeper_inner : forall m1 m2 : node, n_children m2 <> None -> deeper_empty m1 m2.
  Proof. intros m1 m2 E E'. contradiction. Qed.
  Lemma child_in : forall (m c : node) q i, n_children m = Some q -> at_path m [i] = Some c -> In c (q4list q).
  Proof.
    intros m c q i E A. cbn [at_path] in A. rewrite E in A. destruct (nth_error _ i) as [k|] eqn:X; [|discriminate]. injection A as <-. apply nth_error_In in X. destruct q. exact X.
  Qed.
  Lemma in_child : forall (m c : node) q, n_children m = Some q -> In c (q4list q) -> exists i, at_path m [i] = Some c.
  Proof.
    intros m c q E A. assert (X : In c [qa q; qb q; qc q; qd q]) by (destruct q; exact A). apply In_nth_error in X as (i & X). exists i. cbn [at_path]. rewrite E, X. reflexivity.
  Qed.
  Definition lone_check (m : node) (q : q4 node) : res bool :=
    act <- active_hazards (n_haz m) ;;
    if existsb is_partial act then rfold (fun acc n => if negb acc then Ok false else lone_match n) (q4list q) true else Ok true.
  Lemma deeper_check : forall (m1 m2 : node) q l, n_children m1 = Some q -> n_children m2 = None -> active_hazards (n_haz m1) = Ok l ->
    lone_check m1 q = Ok true <-> deeper_empty m1 m2.
  Proof.
    intros m1 m2 q l E1 E2 El. unfold lone_check. rewrite El. cbn [rbind]. destruct (existsb is_partial l) eqn:P.
    - rewrite lone_fold. apply partial_ex in P as (h & r & Hh & Hr). split.
      + intros (_ & H) _ l' h' r' i c _ _ _ A. apply H. exact (child_in m1 c q i E1 A).
      + intros H. split; [reflexivity|]. intros c Hc. destruct (in_child m1 c q E1 Hc) as (i & A). exact (H E2 l h r i c El Hh Hr A).
    - split; [|reflexivity]. intros _ _ l' h r i c El' Hh Hr. exfalso. assert (X : existsb is_partial l = true) by (apply partial_ex; exists h, r; split; [congruence|exact Hr]). congruence.
  Qed.
  Lemma agree_split : forall (n1 n2 : node) q1 q2, n_children n1 = Some q1 -> n_children n2 = Some q2 ->
    trees_agree n1 n2 <-> sees_same n1 n2 /\ forall i, i < 4 -> trees_agree (q4get q1 i) (q4get q2 i).
  Proof.
    intros n1 n2 q1 q2 E1 E2. split.
    - intros H. split; [exact (proj1 (H [] n1 n2 eq_refl eq_refl))|]. intros i Hi path m1 m2 A1 A2. apply (H (i :: path)); cbn [at_path].
      + rewrite E1, (proj2 (q4_nth q1 i _) (conj Hi eq_refl)). exact A1.
      + rewrite E2, (proj2 (q4_nth q2 i _) (conj Hi eq_refl)). exact A2.
    - intros (S & H) [|i path] m1 m2 A1 A2; cbn [at_path] in A1, A2.
      + injection A1 as <-. injection A2 as <-. split; [exact S|]. split; apply deeper_inner; congruence.
      + rewrite E1 in A1. rewrite E2 in A2. destruct (nth_error [qa q1; _; _; _] i) as [k1|] eqn:X1; [|discriminate]. destruct (nth_error [qa q2; _; _; _] i) as [k2|] eqn:X2; [|discriminate].
        apply q4_nth in X1 as (Hi & ->). apply q4_nth in X2 as (_ & ->). exact (H i Hi path m1 m2 A1 A2).
  Qed.
  Lemma agree_end : forall n1 n2 : node, n_children n1 = None \/ n_children n2 = None ->
    trees_agree n1 n2 <-> sees_same n1 n2 /\ deeper_empty n1 n2 /\ deeper_empty n2 n1.
  Proof.
    intros n1 n2 E. split; [intros H; exact (H [] n1 n2 eq_refl eq_refl)|]. intros H [|i path] m1 m2 A1 A2; cbn [at_path] in A1, A2.
    - injection A1 as <-. injection A2 as <-. exact H.
    - destruct E as [E|E]; [rewrite E in A1|rewrite E in A2]; discriminate.
  Qed.
  Lemma rand_true : forall (a b : res bool), (x <- a ;; if negb x then Ok false else b) = Ok true <-> a = Ok true /\ b = Ok true.
  Proof. intros [[|]|] b; cbn [rbind negb]; split; try discriminate; try tauto; intros (X & _); discriminate. Qed.
  Theorem tree_comparison_exact : forall n1 n2 : node, nodes_match n1 n2 = Ok true <-> trees_agree n1 n2.
  Proof.
    fix IH 1. intros [v1 b1 h1 [[c0 c1 c2 c3]|]] n2.
    - pose proof (IH c0) as H0. pose proof (IH c1) as H1. pose proof (IH c2) as H2. pose proof (IH c3) as H3. clear IH.
      set (n1 := Node v1 b1 h1 (Some (Q4 c0 c1 c2 c3))). cbn [nodes_match]. unfold n1 at 1. cbn [nodes_match]. fold n1. rewrite rand_true, active_match_true.
      change (n_children n1) with (Some (Q4 c0 c1 c2 c3)). destruct (n_children n2) as [d|] eqn:E2.
      + rewrite !rand_true, H0, H1, H2, H3. rewrite (agree_split n1 n2 (Q4 c0 c1 c2 c3) d eq_refl E2). split.
        * intros (S & A0 & A1 & A2 & A3). split; [exact S|]. intros i Hi. destruct d. destruct i as [|[|[|[|i]]]]; try lia; assumption.
        * intros (S & A). split; [exact S|]. pose proof (A 0 ltac:(lia)). pose proof (A 1 ltac:(lia)). pose proof (A 2 ltac:(lia)). pose proof (A 3 ltac:(lia)). destruct d. cbn in *. tauto.
      + rewrite (agree_end n1 n2 (or_intror E2)). clear H0 H1 H2 H3. change (sees_same n1 n2 /\ lone_check n1 (Q4 c0 c1 c2 c3) = Ok true <-> sees_same n1 n2 /\ deeper_empty n1 n2 /\ deeper_empty n2 n1).
        assert (X := deeper_leaf n2 n1 E2). split.
        * intros (S & A). split; [exact S|]. split; [|exact X]. destruct S as (l1 & l2 & El & _). exact (proj1 (deeper_check n1 n2 _ l1 eq_refl E2 El) A).
        * intros (S & A & _). split; [exact S|]. destruct S as (l1 & l2 & El & _). exact (proj2 (deeper_check n1 n2 _ l1 eq_refl E2 El) A).
    - clear IH. set (n1 := Node v1 b1 h1 None). unfold n1 at 1. cbn [nodes_match]. fold n1. rewrite rand_true, active_match_true.
      change (n_children n1) with (@None (q4 node)). rewrite (agree_end n1 n2 (or_introl eq_refl)). assert (X := deeper_leaf n1 n2 eq_refl). destruct (n_children n2) as [d|] eqn:E2.
      + change (sees_same n1 n2 /\ lone_check n2 d = Ok true <-> sees_same n1 n2 /\ deeper_empty n1 n2 /\ deeper_empty n2 n1). split.
        * intros (S & A). split; [exact S|]. split; [exact X|]. destruct S as (l1 & l2 & _ & El & _). exact (proj1 (deeper_check n2 n1 _ l2 E2 eq_refl El) A).
        * intros (S & _ & A). split; [exact S|]. destruct S as (l1 & l2 & _ & El & _). exact (proj2 (deeper_check n2 n1 _ l2 E2 eq_refl El) A).
      + assert (Y := deeper_leaf n2 n1 E2). tauto.
  Qed.
  Theorem tree_comparison_sym : forall n1 n2 : node, nodes_match n1 n2 = Ok true <-> nodes_match n2 n1 = Ok true.
  Proof.
    intros n1 n2. rewrite !tree_comparison_exact. split; intros H path m1 m2 A1 A2; destruct (H path m2 m1 A2 A1) as ((l1 & l2 & E1 & E2 & S1 & S2) & X & Y);
      (split; [exists l2, l1; auto|split; assumption]).
  Qed.
  Theorem tree_comparison_self : forall n : node, nodes_match n n = Ok true <-> (forall path m, at_path n path = Some m -> exists l, active_hazards (n_haz m) = Ok l).
  Proof.
    intros n. rewrite tree_comparison_exact. split.
    - intros H path m A. destruct (H path m m A A) as ((l & _ & E & _) & _). eauto.
    - intros H path m1 m2 A1 A2. assert (m1 = m2) by congruence. subst m2. destruct (H path m1 A1) as (l & E). split; [exists l, l; split; [exact E|split; [exact E|split; intros e a k X; exact X]]|].
      assert (K : deeper_empty m1 m1) by (intros E'; exact (deeper_leaf m1 m1 E' E')). split; exact K.
  Qed.
End TM.
