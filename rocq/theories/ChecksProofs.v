(** What the checks of util/assertions.rs find out about any tree and any layout.  Every [Num F]. *)
From Coq Require Import List Bool Arith ZArith Lia Permutation.
From Verif Require Import Base Num GeoModel HazardModel QTModel TransfModel HpgModel CdeModel CdeSpec
  PolyModel SlotMapModel LayoutModel ProblemModel ProblemSpec AssertModel AssertLayoutModel SelfCheckSpec ChecksSpec
  BaseProofs HazVecProofs SelfCheckProofs.
Import ListNotations.

Section CK.
  Context {F : Type} {N : Num F} {D : Type} {ED : EqD D}.
  Local Notation hazard := (hazard F D).
  Local Notation entity := (entity D).
  Local Notation node := (node F D).
  Local Notation qth := (qth F D).
  Local Notation layout := (layout F D).
  Local Notation lsnap := (lsnap F D).

  (** *** dangling hazards *)
  Lemma at_root : forall (n : node), at_path n [] = Some n.
  Proof. reflexivity. Qed.
  Lemma names_in : forall (l l' : list qth), forallb (fun e => memb ent_eqb e (map (fun h : qth => q_ent h) l')) (map (fun h : qth => q_ent h) l) = true <->
    (forall h, In h l -> exists h', In h' l' /\ q_ent h' = q_ent h).
  Proof.
    intros l l'. rewrite forallb_forall. split.
    - intros H h Hh. assert (X := H (q_ent h) (in_map _ _ _ Hh)). apply memb_ent, in_map_iff in X as (h' & E & Hh'). eauto.
    - intros H e He. apply in_map_iff in He as (h & <- & Hh). destruct (H h Hh) as (h' & Hh' & E). apply memb_ent. rewrite <- E. apply (in_map (fun h => q_ent h)), Hh'.
  Qed.
  Definition child_above (p n : node) : Prop := forall h, In h (hv_list (n_haz n)) -> exists h', In h' (hv_list (n_haz p)) /\ q_ent h' = q_ent h.
  Lemma q4_nth : forall (c : q4 node) i k, nth_error [qa c; qb c; qc c; qd c] i = Some k <-> i < 4 /\ k = q4get c i.
  Proof.
    intros c i k. split.
    - intros H. destruct i as [|[|[|[|i]]]]; cbn in H; try (injection H as <-; split; [lia|reflexivity]). destruct i; discriminate.
    - intros (H & ->). destruct i as [|[|[|[|i]]]]; try reflexivity. lia.
  Qed.
  Lemma above_split : forall l b hv (c : q4 node), kept_above (Node l b hv (Some c)) <->
    (forall i, i < 4 -> child_above (Node l b hv (Some c)) (q4get c i) /\ kept_above (q4get c i)).
  Proof.
    intros l b hv c. set (n := Node l b hv (Some c)). split.
    - intros H i Hi. assert (A : at_path n [i] = Some (q4get c i)).
      { unfold n. cbn [at_path n_children]. rewrite (proj2 (q4_nth c i _) (conj Hi eq_refl)). reflexivity. }
      split.
      + intros h Hh. exact (H [] i n (q4get c i) h eq_refl A Hh).
      + intros path j m k h A1 A2 Hh. apply (H (i :: path) j m k h); [| |exact Hh]; unfold n; cbn [app at_path n_children]; rewrite (proj2 (q4_nth c i _) (conj Hi eq_refl)); assumption.
    - intros H [|i path] j m k h A1 A2 Hh; unfold n in A1, A2; cbn [app at_path n_children] in A1, A2.
      + injection A1 as <-. destruct (nth_error _ j) as [k'|] eqn:E; [|discriminate]. injection A2 as ->. apply q4_nth in E as (Hj & ->). exact (proj1 (H j Hj) h Hh).
      + destruct (nth_error _ i) as [k'|] eqn:E; [|discriminate]. apply q4_nth in E as (Hi & ->). exact (proj2 (H i Hi) path j m k h A1 A2 Hh).
  Qed.
  Lemma above_leaf : forall l b hv, kept_above (Node l b hv None : node).
  Proof. intros l b hv [|i path] j m k h A1 A2; cbn in A1, A2; discriminate. Qed.
  Lemma node_dangling_iff : forall (n p : node), node_no_dangling n (node_ents p) = true <-> child_above p n /\ kept_above n.
  Proof.
    fix IH 1. intros [l b hv ch] p. cbn [node_no_dangling]. rewrite andb_true_iff.
    assert (A : forallb (fun e => memb ent_eqb e (node_ents p)) (map (fun h : qth => q_ent h) (hv_list hv)) = true <-> child_above p (Node l b hv ch)) by apply names_in.
    rewrite A. clear A. destruct ch as [[c0 c1 c2 c3]|].
    - set (n := Node l b hv (Some (Q4 c0 c1 c2 c3))). change (map (fun h : qth => q_ent h) (hv_list hv)) with (node_ents n).
      pose proof (IH c0 n) as H0. pose proof (IH c1 n) as H1. pose proof (IH c2 n) as H2. pose proof (IH c3 n) as H3. clear IH. rewrite !andb_true_iff, H0, H1, H2, H3. clear H0 H1 H2 H3.
      assert (K : kept_above n <-> _) by exact (above_split l b hv (Q4 c0 c1 c2 c3)). fold n in K. rewrite K. clear K. split.
      + intros (A & ((B0 & B1) & B2) & B3). split; [exact A|]. intros i Hi. destruct i as [|[|[|[|i]]]]; try lia; assumption.
      + intros (A & B). split; [exact A|]. pose proof (B 0 ltac:(lia)). pose proof (B 1 ltac:(lia)). pose proof (B 2 ltac:(lia)). pose proof (B 3 ltac:(lia)). cbn in *. tauto.
    - clear IH. split; [intros (A & _); split; [exact A|apply above_leaf]|intros (A & _); auto].
  Qed.
  Theorem no_dangling_exact : forall n : node, no_dangling n = true <-> kept_above n.
  Proof.
    intros [l b hv [c|]]; unfold no_dangling; cbn [n_children].
    - rewrite above_split. set (n := Node l b hv (Some c)). destruct c as [c0 c1 c2 c3]. cbn [q4list qa qb qc qd forallb]. rewrite !andb_true_iff, !node_dangling_iff. split.
      + intros (A0 & A1 & A2 & A3 & _) i Hi. destruct i as [|[|[|[|i]]]]; try lia; assumption.
      + intros B. pose proof (B 0 ltac:(lia)). pose proof (B 1 ltac:(lia)). pose proof (B 2 ltac:(lia)). pose proof (B 3 ltac:(lia)). cbn in *. tauto.
    - split; [intros _; apply above_leaf|reflexivity].
  Qed.

  (** *** activity *)
  Theorem no_deactivated_exact : forall n : node, no_deactivated n = true <-> (forall h, kept_in n h -> q_act h = true).
  Proof. exact no_deactivated_iff. Qed.
  Lemma once_child : forall l b hv (c : q4 node) i, named_once (Node l b hv (Some c)) -> i < 4 -> named_once (q4get c i).
  Proof.
    intros l b hv c i H Hi path m A. apply (H (i :: path) m). cbn [at_path n_children]. rewrite (proj2 (q4_nth c i _) (conj Hi eq_refl)). exact A.
  Qed.
  Lemma find_name : forall (l : list qth) e, NoDup (map (fun h : qth => q_ent h) l) ->
    match find (fun h : qth => ent_eqb (q_ent h) e) l with
    | Some h => In h l /\ q_ent h = e /\ (forall h', In h' l -> q_ent h' = e -> h' = h)
    | None => forall h', In h' l -> q_ent h' <> e
    end.
  Proof.
    intros l e Nd. destruct (find _ l) as [h|] eqn:Ef.
    - apply find_some in Ef as (Hh & E). apply ent_eqb_ok in E. split; [exact Hh|]. split; [exact E|]. intros h' Hh' E'.
      clear - Nd Hh Hh' E E'. induction l as [|x r IH]; [contradiction|]. cbn [map] in Nd. apply NoDup_cons_iff in Nd as (N1 & N2). destruct Hh as [->|Hh], Hh' as [->|Hh'].
      + reflexivity.
      + exfalso. apply N1. rewrite E, <- E'. apply (in_map (fun h => q_ent h)), Hh'.
      + exfalso. apply N1. rewrite E', <- E. apply (in_map (fun h => q_ent h)), Hh.
      + apply IH; assumption.
    - intros h' Hh' E. pose proof (find_none _ _ Ef h' Hh') as X. cbn in X. assert (Y : ent_eqb (q_ent h') e = true) by (apply ent_eqb_ok; exact E). congruence.
  Qed.
  Lemma same_everywhere_iff : forall e a (n : node), named_once n -> (same_everywhere n e a = true <-> forall h, kept_in n h -> q_ent h = e -> q_act h = a).
  Proof.
    intros e a n On. split; [|apply same_everywhere_ok]. revert n On. fix IH 1. intros [l b hv ch] On. cbn [same_everywhere]. rewrite andb_true_iff.
    assert (Top : match find (fun h : qth => ent_eqb (q_ent h) e) (hv_list hv) with Some h => Bool.eqb (q_act h) a | None => true end = true -> forall h, In h (hv_list hv) -> q_ent h = e -> q_act h = a).
    { clear IH. intros A h Hk E. pose proof (find_name (hv_list hv) e (On [] _ eq_refl)) as Fn. destruct (find _ _) as [h0|]; [|destruct (Fn h Hk E)]. destruct Fn as (_ & _ & Fn). rewrite (Fn h Hk E). apply Bool.eqb_prop in A. exact A. }
    destruct ch as [[c0 c1 c2 c3]|].
    - pose proof (IH c0 (once_child _ _ _ (Q4 c0 c1 c2 c3) 0 On ltac:(lia))) as H0. pose proof (IH c1 (once_child _ _ _ (Q4 c0 c1 c2 c3) 1 On ltac:(lia))) as H1.
      pose proof (IH c2 (once_child _ _ _ (Q4 c0 c1 c2 c3) 2 On ltac:(lia))) as H2. pose proof (IH c3 (once_child _ _ _ (Q4 c0 c1 c2 c3) 3 On ltac:(lia))) as H3. clear IH.
      rewrite !andb_true_iff. intros (A & ((B0 & B1) & B2) & B3) h Hk E. apply kept_inv in Hk as [Hk|(c & i & Ec & Hi & Hk)]; [exact (Top A h Hk E)|]. injection Ec as <-.
      destruct i as [|[|[|[|i]]]]; try lia; cbn in Hk; auto.
    - clear IH. intros (A & _) h Hk E. apply kept_inv in Hk as [Hk|(c & i & Ec & _)]; [exact (Top A h Hk E)|discriminate].
  Qed.
  Theorem activation_exact : forall n : node, named_once n -> (activation_consistent n = true <-> active_like_root n).
  Proof.
    intros n On. unfold activation_consistent. rewrite forallb_forall. split.
    - intros H h h' Hh Hk E. exact (proj1 (same_everywhere_iff _ _ n On) (H h Hh) h' Hk E).
    - intros H h Hh. apply (same_everywhere_iff _ _ n On). intros h' Hk E. exact (H h h' Hh Hk E).
  Qed.
  (** together the two checks say that a hazard is active everywhere or nowhere *)
  Lemma kept_at_top : forall n : node, kept_above n -> forall h, kept_in n h -> exists h', In h' (hv_list (n_haz n)) /\ q_ent h' = q_ent h.
  Proof.
    intros n Ka h (path & m & A & Hh). revert m h A Hh. induction path as [|i path IH] using rev_ind; intros m h A Hh.
    - injection A as <-. eauto.
    - assert (P : exists p, at_path n path = Some p).
      { clear - A. revert n A. induction path as [|j r IH]; intros n A; [eexists; reflexivity|]. cbn [app at_path] in *. destruct (n_children n) as [c|]; [|discriminate]. destruct (nth_error _ j); [|discriminate]. exact (IH _ A). }
      destruct P as (p & Ap). destruct (Ka path i p m h Ap A Hh) as (h1 & H1 & E1). destruct (IH p h1 Ap H1) as (h2 & H2 & E2). exists h2. split; [exact H2|congruence].
  Qed.
  Theorem checks_together : forall n : node, named_once n -> no_dangling n = true -> activation_consistent n = true ->
    forall h h', kept_in n h -> kept_in n h' -> q_ent h = q_ent h' -> q_act h = q_act h'.
  Proof.
    intros n On Nd Ac h h' Hk Hk' E. apply no_dangling_exact in Nd. apply (activation_exact n On) in Ac. destruct (kept_at_top n Nd h Hk) as (r & Hr & Er).
    rewrite (Ac r h Hr Hk (eq_sym Er)), (Ac r h' Hr Hk' ltac:(congruence)). reflexivity.
  Qed.

  (** *** order *)
  Lemma sorted_iff : forall (l : list qth) b, sorted_correctly l b = Ok true <->
    (forall h, In h l -> q_pres h <> PNone) /\ (b = true -> forall h, In h l -> q_pres h <> PEntire) /\ entire_first l.
  Proof.
    intros l b. split.
    - intros H. split; [|exact (sorted_correctly_true l b H)]. revert b H. induction l as [|h l IH]; intros b H k; [intros []|]. cbn [sorted_correctly] in H.
      intros [<-|Hk]; destruct (q_pres h) as [|x|] eqn:E; try discriminate; destruct b; try discriminate; eapply IH; eassumption.
    - revert b. induction l as [|h l IH]; intros b (Np & B & Ef); [reflexivity|]. cbn [sorted_correctly]. destruct (q_pres h) as [|x|] eqn:E.
      + destruct (Np h (or_introl eq_refl) E).
      + apply IH. split; [intros k Hk; apply Np; right; exact Hk|]. split.
        * intros _ k Hk Ek. assert (X := Ef [] h l k eq_refl Hk Ek). congruence.
        * intros l1 a l2 c El Hc Ec. apply (Ef (h :: l1) a l2 c); [rewrite El; reflexivity|exact Hc|exact Ec].
      + destruct b; [destruct (B eq_refl h (or_introl eq_refl) E)|]. apply IH. split; [intros k Hk; apply Np; right; exact Hk|]. split; [discriminate|].
        intros l1 a l2 c El Hc Ec. apply (Ef (h :: l1) a l2 c); [rewrite El; reflexivity|exact Hc|exact Ec].
  Qed.
  Theorem order_check_exact : forall l : list qth, sorted_correctly l false = Ok true <-> (forall h, In h l -> q_pres h <> PNone) /\ entire_first l.
  Proof. intros l. rewrite sorted_iff. split; [tauto|]. intros (A & B). split; [exact A|]. split; [discriminate|exact B]. Qed.

  (** *** engines *)
  Theorem hazards_match_exact : forall l1 l2 : list hazard, hazards_match l1 l2 = true <-> forall e, active_names l1 e <-> active_names l2 e.
  Proof.
    intros l1 l2. unfold hazards_match.
    assert (A : forall (l : list hazard) e, In e (map (@h_ent F D) (filter (fun h => h_active h) l)) <-> active_names l e).
    { intros l e. rewrite in_map_iff. unfold active_names. split; [intros (h & E & H)|intros (h & H1 & H2 & E)]; exists h; rewrite filter_In in *; tauto. }
    rewrite andb_true_iff, !forallb_forall. split.
    - intros (H1 & H2) e. rewrite <- !A. split; intros H; apply memb_ent; [apply H1|apply H2]; exact H.
    - intros H. split; intros e He; apply memb_ent; apply A; apply H; apply A; exact He.
  Qed.
  Lemma qkey_eqb_ok : forall a b, qkey_eqb a b = true <-> a = b :> entity * bool * nat.
  Proof.
    intros [[e a] k] [[e' a'] k']. unfold qkey_eqb. cbn [fst snd]. rewrite !andb_true_iff, ent_eqb_ok, Nat.eqb_eq. split.
    - intros ((-> & A) & ->). apply Bool.eqb_prop in A. rewrite A. reflexivity.
    - intros E. injection E as -> -> ->. rewrite Bool.eqb_reflx. auto.
  Qed.
  Lemma diff_nil : forall l l' : list qth, filter (fun k => no_member qkey_eqb k (map qkey l')) (map qkey l) = [] <-> all_seen l l'.
  Proof.
    intros l l'. assert (S : forall (x : list qth) e a k, seen_in x e a k <-> In (e, a, k) (map qkey x)).
    { intros x e a k. rewrite in_map_iff. unfold seen_in, qkey. split; [intros (h & H & <- & <- & <-)|intros (h & E & H)]; exists h; [auto|]. injection E as <- <- <-. auto. }
    unfold all_seen. split.
    - intros H e a k Hs. apply S in Hs. apply S. assert (X : ~ In (e, a, k) (filter (fun k => no_member qkey_eqb k (map qkey l')) (map qkey l))) by (rewrite H; intros []).
      rewrite filter_In in X. unfold no_member in X. destruct (existsb (qkey_eqb (e, a, k)) (map qkey l')) eqn:Ex; [|exfalso; apply X; auto].
      apply existsb_exists in Ex as (y & Hy & E). apply qkey_eqb_ok in E. rewrite E. exact Hy.
    - intros H. destruct (filter _ _) as [|[[e a] k] r] eqn:Ef; [reflexivity|]. exfalso. assert (X : In (e, a, k) ((e, a, k) :: r)) by (left; reflexivity). rewrite <- Ef in X. apply filter_In in X as (X & Y).
      apply S in X. apply H, S in X. unfold no_member in Y. apply negb_true_iff in Y. assert (Z : existsb (qkey_eqb (e, a, k)) (map qkey l') = true) by (apply existsb_exists; exists (e, a, k); split; [exact X|apply qkey_eqb_ok; reflexivity]). congruence.
  Qed.
  Theorem node_comparison_exact : forall (n1 n2 : node) l1 l2, active_hazards (n_haz n1) = Ok l1 -> active_hazards (n_haz n2) = Ok l2 ->
    (active_match n1 n2 = Ok true <-> all_seen l1 l2 /\ all_seen l2 l1) /\
    (active_match n1 n2 = Ok false <-> ~ all_seen l1 l2 /\ ~ all_seen l2 l1) /\
    (active_match n1 n2 = Panic <-> (all_seen l1 l2 /\ ~ all_seen l2 l1) \/ (~ all_seen l1 l2 /\ all_seen l2 l1)).
  Proof.
    intros n1 n2 l1 l2 E1 E2. unfold active_match. rewrite E1, E2. cbn [rbind]. pose proof (diff_nil l1 l2) as A. pose proof (diff_nil l2 l1) as B.
    destruct (filter _ (map qkey l1)) as [|x r]; destruct (filter _ (map qkey l2)) as [|y r'].
    - assert (all_seen l1 l2) by (apply A; reflexivity). assert (all_seen l2 l1) by (apply B; reflexivity). repeat split; try discriminate; try tauto.
    - assert (all_seen l1 l2) by (apply A; reflexivity). assert (~ all_seen l2 l1) by (intros X; apply B in X; discriminate). repeat split; try discriminate; try tauto.
    - assert (~ all_seen l1 l2) by (intros X; apply A in X; discriminate). assert (all_seen l2 l1) by (apply B; reflexivity). repeat split; try discriminate; try tauto.
    - assert (~ all_seen l1 l2) by (intros X; apply A in X; discriminate). assert (~ all_seen l2 l1) by (intros X; apply B in X; discriminate). repeat split; try discriminate; try tauto.
  Qed.

  (** *** layouts *)
  Theorem layouts_match_exact : forall (l : layout) (s : lsnap), layouts_match l s = true <-> bn_id (ly_bin l) = bn_id (ls_bin s) /\ incl (snap_placed s) (placed l).
  Proof.
    intros l s. unfold layouts_match. rewrite andb_true_iff, Nat.eqb_eq, forallb_forall. unfold incl, snap_placed, placed. split; intros (A & B); (split; [exact A|]).
    - intros x Hx. apply in_map_iff in Hx as (p & <- & Hp). specialize (B p Hp). apply existsb_exists in B as (p' & Hp' & E). apply andb_true_iff in E as (E1 & E2). apply Nat.eqb_eq in E1. apply deq_ok in E2.
      apply in_map_iff. exists p'. rewrite E1, E2. auto.
    - intros p Hp. assert (X := B _ (in_map (fun p => (pi_item p, pi_dt p)) _ _ Hp)). apply in_map_iff in X as (p' & E & Hp'). injection E as E1 E2.
      apply existsb_exists. exists p'. split; [exact Hp'|]. apply andb_true_iff. split; [apply Nat.eqb_eq; exact E1|apply deq_ok; exact E2].
  Qed.
End CK.
