(** Addressing of grid cells. *)
From Coq Require Import Reals List Bool Arith Lia Lra Sorted.
From Verif Require Import Base Num GeoModel HazardModel HpgModel BaseProofs GeoSpec ParityProofs HpgSpec.
Import ListNotations.

Section Addr.
  Context {F : Type} {N : Num F} {BS : BSearch} {T : Type}.
  Variable g : grid F T.
  Local Notation nr := (n_rows g).
  Local Notation nc := (n_cols g).

  Lemma index_inverse : forall row col, row < nr -> col < nc ->
    exists i, to_index g row col = Some i /\ i < nr * nc /\ to_row_col g i = Some (row, col).
  Proof.
    intros row col Hr Hc. exists (row * nc + col). unfold to_index, calculate_index, to_row_col.
    rewrite (proj2 (Nat.ltb_lt row nr) Hr), (proj2 (Nat.ltb_lt col nc) Hc). cbn [andb].
    assert (L : row * nc + col < nr * nc) by nia. split; [reflexivity|]. split; [exact L|].
    rewrite (proj2 (Nat.ltb_lt _ _) L). f_equal. f_equal.
    - rewrite Nat.add_comm, Nat.div_add by lia. rewrite Nat.div_small by lia. lia.
    - rewrite Nat.add_comm, Nat.mod_add by lia. apply Nat.mod_small. lia.
  Qed.
  Lemma div_lt : forall i, i < nr * nc -> Nat.div i nc < nr.
  Proof. intros i H. apply Nat.div_lt_upper_bound; nia. Qed.
  Lemma mod_lt : forall i, i < nr * nc -> Nat.modulo i nc < nc.
  Proof. intros i H. apply Nat.mod_upper_bound. nia. Qed.
  Lemma row_col_inverse : forall i row col, to_row_col g i = Some (row, col) ->
    row < nr /\ col < nc /\ to_index g row col = Some i.
  Proof.
    intros i row col H. unfold to_row_col in H. destruct (Nat.ltb_spec i (nr * nc)) as [L|L]; [|discriminate].
    injection H as <- <-. pose proof (div_lt i L). pose proof (mod_lt i L). split; [assumption|]. split; [assumption|].
    unfold to_index, calculate_index. rewrite (proj2 (Nat.ltb_lt _ _) H), (proj2 (Nat.ltb_lt _ _) H0). cbn [andb]. f_equal.
    rewrite (Nat.div_mod i nc) at 3 by lia. lia.
  Qed.
  Lemma out_of_bounds : (forall row col, to_index g row col = None <-> nr <= row \/ nc <= col) /\
    (forall i, to_row_col g i = None <-> nr * nc <= i).
  Proof.
    split.
    - intros row col. unfold to_index, calculate_index. destruct (Nat.ltb_spec row nr), (Nat.ltb_spec col nc); simpl;
        split; intros; try discriminate; try reflexivity; lia.
    - intros i. unfold to_row_col. destruct (Nat.ltb_spec i (nr * nc)); split; intros; try discriminate; try reflexivity; lia.
  Qed.

  Lemma dm_unique : forall a b q r, 0 < b -> a = b * q + r -> r < b -> Nat.div a b = q /\ Nat.modulo a b = r.
  Proof.
    intros a b q r B E L. split; [symmetry; apply (Nat.div_unique a b q r L E)|symmetry; apply (Nat.mod_unique a b q r L E)].
  Qed.
  Lemma neighbors_spec : forall i j, i < nr * nc ->
    (In j (get_neighbors g i) <-> j < nr * nc /\ touching nc i j /\ (j = i -> at_rim nr nc i)).
  Proof.
    intros i j L. pose proof (div_lt i L) as Lr. pose proof (mod_lt i L) as Lc. assert (C0 : 0 < nc) by lia.
    pose proof (Nat.div_mod i nc ltac:(lia)) as Ei. unfold get_neighbors.
    set (row := Nat.div i nc) in *. set (col := Nat.modulo i nc) in *.
    assert (K : forall r c k, r < nr -> c < nc -> k = nc * r + c -> k < nr * nc /\ Nat.div k nc = r /\ Nat.modulo k nc = c).
    { intros r c k Hr Hc ->. split; [nia|]. apply dm_unique; [exact C0|reflexivity|exact Hc]. }
    unfold touching, at_rim. fold row col.
    split.
    - intros H.
      assert (X : (j = i /\ (row = 0 \/ S row = nr \/ col = 0 \/ S col = nc)) \/
                  exists r c, r < nr /\ c < nc /\ j = nc * r + c /\ row <= S r /\ r <= S row /\ col <= S c /\ c <= S col /\ (r <> row \/ c <> col)).
      { simpl in H. repeat (destruct H as [<-|H]); [..|destruct H].
        - destruct (Nat.ltb_spec 0 row), (Nat.ltb_spec 0 col); cbn [andb]; try (left; split; [reflexivity|lia]).
          right. exists (row - 1), (col - 1). split; [lia|]. split; [lia|]. split; [nia|lia].
        - destruct (Nat.ltb_spec 0 row); try (left; split; [reflexivity|lia]).
          right. exists (row - 1), col. split; [lia|]. split; [lia|]. split; [nia|lia].
        - destruct (Nat.ltb_spec 0 row), (Nat.ltb_spec col (nc - 1)); cbn [andb]; try (left; split; [reflexivity|lia]).
          right. exists (row - 1), (col + 1). split; [lia|]. split; [lia|]. split; [nia|lia].
        - destruct (Nat.ltb_spec 0 col); try (left; split; [reflexivity|lia]).
          right. exists row, (col - 1). split; [lia|]. split; [lia|]. split; [nia|lia].
        - destruct (Nat.ltb_spec col (nc - 1)); try (left; split; [reflexivity|lia]).
          right. exists row, (col + 1). split; [lia|]. split; [lia|]. split; [nia|lia].
        - destruct (Nat.ltb_spec row (nr - 1)), (Nat.ltb_spec 0 col); cbn [andb]; try (left; split; [reflexivity|lia]).
          right. exists (row + 1), (col - 1). split; [lia|]. split; [lia|]. split; [nia|lia].
        - destruct (Nat.ltb_spec row (nr - 1)); try (left; split; [reflexivity|lia]).
          right. exists (row + 1), col. split; [lia|]. split; [lia|]. split; [nia|lia].
        - destruct (Nat.ltb_spec row (nr - 1)), (Nat.ltb_spec col (nc - 1)); cbn [andb]; try (left; split; [reflexivity|lia]).
          right. exists (row + 1), (col + 1). split; [lia|]. split; [lia|]. split; [nia|lia]. }
      destruct X as [(-> & B)|(r & c & Hr & Hc & Ej & A1 & A2 & A3 & A4 & Ne)].
      + split; [exact L|]. fold row col. split; [lia|intros _; exact B].
      + destruct (K r c j Hr Hc Ej) as (Lj & E1 & E2). split; [exact Lj|]. rewrite E1, E2. split; [lia|].
        intros ->. exfalso. fold row in E1. fold col in E2. lia.
    - intros (Lj & (A1 & A2 & A3 & A4) & B). pose proof (div_lt j Lj) as Lrj. pose proof (mod_lt j Lj) as Lcj.
      pose proof (Nat.div_mod j nc ltac:(lia)) as Ej. set (r := Nat.div j nc) in *. set (c := Nat.modulo j nc) in *.
      assert (R3 : r = row \/ r = row + 1 \/ r = row - 1 /\ 0 < row) by lia.
      assert (C3 : c = col \/ c = col + 1 \/ c = col - 1 /\ 0 < col) by lia.
      simpl. destruct R3 as [Er|[Er|(Er & Pr)]], C3 as [Ec|[Ec|(Ec & Pc)]].
      + assert (E : j = i) by (rewrite Ej, Er, Ec; symmetry; exact Ei). specialize (B E). 
        destruct B as [B|[B|[B|B]]].
        * right; left. rewrite B. cbn. congruence.
        * do 6 right; left. replace (Nat.ltb row (nr - 1)) with false by (symmetry; apply Nat.ltb_ge; lia). congruence.
        * do 3 right; left. rewrite B. cbn. congruence.
        * do 4 right; left. replace (Nat.ltb col (nc - 1)) with false by (symmetry; apply Nat.ltb_ge; lia). congruence.
      + do 4 right; left. replace (Nat.ltb col (nc - 1)) with true by (symmetry; apply Nat.ltb_lt; lia). nia.
      + do 3 right; left. replace (Nat.ltb 0 col) with true by (symmetry; apply Nat.ltb_lt; lia). nia.
      + do 6 right; left. replace (Nat.ltb row (nr - 1)) with true by (symmetry; apply Nat.ltb_lt; lia). nia.
      + do 7 right; left. replace (Nat.ltb row (nr - 1)) with true by (symmetry; apply Nat.ltb_lt; lia).
        replace (Nat.ltb col (nc - 1)) with true by (symmetry; apply Nat.ltb_lt; lia). cbn [andb]. nia.
      + do 5 right; left. replace (Nat.ltb row (nr - 1)) with true by (symmetry; apply Nat.ltb_lt; lia).
        replace (Nat.ltb 0 col) with true by (symmetry; apply Nat.ltb_lt; lia). cbn [andb]. nia.
      + do 1 right; left. replace (Nat.ltb 0 row) with true by (symmetry; apply Nat.ltb_lt; lia). nia.
      + do 2 right; left. replace (Nat.ltb 0 row) with true by (symmetry; apply Nat.ltb_lt; lia).
        replace (Nat.ltb col (nc - 1)) with true by (symmetry; apply Nat.ltb_lt; lia). cbn [andb]. nia.
      + left. replace (Nat.ltb 0 row) with true by (symmetry; apply Nat.ltb_lt; lia).
        replace (Nat.ltb 0 col) with true by (symmetry; apply Nat.ltb_lt; lia). cbn [andb]. nia.
  Qed.
  Lemma touching_sym : forall i j, touching nc i j -> touching nc j i.
  Proof. unfold touching. intros i j H. lia. Qed.
  Lemma neighbors_sym : forall i j, i < nr * nc -> j < nr * nc ->
    (In j (get_neighbors g i) <-> In i (get_neighbors g j)).
  Proof.
    intros i j Li Lj. rewrite !neighbors_spec by assumption. split; intros (_ & A & B); (split; [assumption|]; split; [apply touching_sym; exact A|]);
      intros ->; apply B; reflexivity.
  Qed.
  Lemma neighbors_eight : forall i, length (get_neighbors g i) = 8.
  Proof. reflexivity. Qed.
End Addr.

(** *** coordinates, in exact arithmetic *)
Section Range.
  Context {BS : BSearch}.
  Hypothesis BSok : bsearch_ok BS.
  Variable M : R.
  #[local] Instance NM : Num R := RNumT Reqb M.
  Local Open Scope R_scope.
  Notation ssorted := (StronglySorted Rlt).

  Lemma fcmp_lt : forall x y : R, x < y -> fcmp x y = Lt.
  Proof. intros x y H. unfold fcmp. cbn. rewrite (proj2 (Rltb_spec x y) H). reflexivity. Qed.
  Lemma fcmp_eq : forall x : R, fcmp x x = Eq.
  Proof. intros x. unfold fcmp. cbn. rewrite (proj2 (Rltb_nspec x x)) by lra. unfold Reqb. destruct (Req_EM_T x x); [reflexivity|congruence]. Qed.
  Lemma fcmp_gt : forall x y : R, y < x -> fcmp x y = Gt.
  Proof. intros x y H. unfold fcmp. cbn. rewrite (proj2 (Rltb_nspec x y)) by lra. unfold Reqb. destruct (Req_EM_T x y); [lra|reflexivity]. Qed.
  Lemma fcmp_inv : forall x y : R, match fcmp x y with Lt => x < y | Eq => x = y | Gt => y < x end.
  Proof.
    intros x y. destruct (Rtotal_order x y) as [H|[->|H]]; [rewrite fcmp_lt|rewrite fcmp_eq|rewrite fcmp_gt]; auto.
  Qed.
  Lemma sorted_part : forall x l, ssorted l -> bs_partitioned (fun p => fcmp p x) l.
  Proof.
    intros x l H. induction H as [|y l Hl IH Hy]; [exists [], [], []; auto|].
    destruct IH as (l1 & l2 & l3 & E & A & B & C). rewrite Forall_forall in Hy.
    destruct (Rtotal_order y x) as [L|[->|L]].
    - exists (y :: l1), l2, l3. rewrite E. split; [reflexivity|]. split; [constructor; [apply fcmp_lt; exact L|exact A]|auto].
    - exists [], [x], l. split; [reflexivity|]. split; [constructor|]. split; [constructor; [apply fcmp_eq|constructor]|].
      apply Forall_forall. intros z Hz. apply fcmp_gt. apply Hy. exact Hz.
    - exists [], [], (y :: l). split; [reflexivity|]. split; [constructor|]. split; [constructor|].
      constructor; [apply fcmp_gt; exact L|]. apply Forall_forall. intros z Hz. apply fcmp_gt. specialize (Hy z Hz). lra.
  Qed.
  Lemma bs_sorted : forall x l, ssorted l ->
    match bs x l with
    | BFound i => nth_error l i = Some x
    | BInsert i => (i <= length l)%nat /\ ~ In x l /\ (forall k y, nth_error l k = Some y -> (k < i)%nat <-> y < x)
    end.
  Proof.
    intros x l S. pose proof (BSok R (fun p => fcmp p x) l (sorted_part x l S)) as H. unfold bs.
    destruct (bsearch (fun p => fcmp p x) l) as [i|i].
    - destruct H as (y & E & C). pose proof (fcmp_inv y x) as I. rewrite C in I. rewrite E, I. reflexivity.
    - destruct H as (L & A & B). rewrite Forall_forall in A, B.
      assert (K : forall k y, nth_error l k = Some y -> ((k < i)%nat -> y < x) /\ ((i <= k)%nat -> x < y)).
      { intros k y Hk. split; intros Hi.
        - assert (In y (firstn i l)).
          { rewrite <- (firstn_skipn i l) in Hk. rewrite nth_error_app1 in Hk by (rewrite firstn_length; lia). eapply nth_error_In; exact Hk. }
          pose proof (fcmp_inv y x) as I. rewrite (A y H) in I. exact I.
        - assert (In y (skipn i l)).
          { rewrite <- (firstn_skipn i l) in Hk. rewrite nth_error_app2 in Hk by (rewrite firstn_length; lia). eapply nth_error_In; exact Hk. }
          pose proof (fcmp_inv y x) as I. rewrite (B y H) in I. exact I. }
      split; [exact L|]. split.
      + intros Hx. apply In_nth_error in Hx as (k & Hk). destruct (K k x Hk) as (K1 & K2). destruct (Nat.lt_ge_cases k i); [specialize (K1 H)|specialize (K2 H)]; lra.
      + intros k y Hk. destruct (K k y Hk) as (K1 & K2). split; [exact K1|]. intros Hl. destruct (Nat.lt_ge_cases k i); [assumption|]. specialize (K2 H). lra.
  Qed.
  Lemma sorted_nth : forall l, ssorted l -> forall i j x y, nth_error l i = Some x -> nth_error l j = Some y -> ((i < j)%nat <-> x < y).
  Proof.
    intros l S. induction S as [|z l Sl IH Hz]; intros i j x y Hi Hj; [destruct i; discriminate|].
    rewrite Forall_forall in Hz.
    destruct i as [|i], j as [|j]; simpl in Hi, Hj.
    - injection Hi as <-. injection Hj as <-. split; [lia|lra].
    - injection Hi as <-. pose proof (Hz y (nth_error_In _ _ Hj)). split; [auto|lia].
    - injection Hj as <-. pose proof (Hz x (nth_error_In _ _ Hi)). split; [lia|lra].
    - rewrite <- (IH i j x y Hi Hj). lia.
  Qed.
  (** the index range of a coordinate interval *)
  Lemma range_ok : forall cs a b, ssorted cs -> cs <> [] -> a <= b ->
    exists st en, range_in cs a b = Ok (st, en) /\ (st <= en)%nat /\ (en < length cs)%nat /\
      (forall k y, nth_error cs k = Some y -> a <= y <= b -> (st <= k <= en)%nat) /\
      (st = 0%nat \/ exists y, nth_error cs st = Some y /\ y <= a) /\
      (S en = length cs \/ exists y, nth_error cs en = Some y /\ b <= y) /\
      (forall k y, nth_error cs k = Some y -> (st < k)%nat -> a < y) /\
      (forall k y, nth_error cs k = Some y -> (k < en)%nat -> y < b).
  Proof.
    intros cs a b So NE AB. unfold range_in. pose proof (bs_sorted a cs So) as Ha. pose proof (bs_sorted b cs So) as Hb.
    assert (L0 : (0 < length cs)%nat) by (destruct cs; [congruence|simpl; lia]).
    set (st := match bs a cs with BFound i => i | BInsert i => (i - 1)%nat end).
    assert (ST : (st < length cs)%nat /\ (st = 0%nat \/ exists y, nth_error cs st = Some y /\ y <= a) /\
       (forall k y, nth_error cs k = Some y -> a <= y -> (st <= k)%nat) /\
       (forall k y, nth_error cs k = Some y -> (st < k)%nat -> a < y)).
    { unfold st. destruct (bs a cs) as [i|i].
      - split; [apply nth_error_Some; congruence|]. split; [right; exists a; split; [exact Ha|lra]|].
        split; [|intros k y Hk Hi; apply (sorted_nth cs So i k a y Ha Hk); exact Hi].
        intros k y Hk Hy. destruct (Nat.lt_ge_cases k i) as [H|H]; [|exact H]. apply (sorted_nth cs So k i y a Hk Ha) in H. lra.
      - destruct Ha as (L & N & K). split; [lia|]. split.
        + destruct i as [|i]; [left; reflexivity|]. right. replace (S i - 1)%nat with i by lia.
          destruct (nth_error cs i) as [y|] eqn:E; [|apply nth_error_None in E; lia]. exists y. split; [reflexivity|].
          apply K in E. assert (y < a) by (apply E; lia). lra.
        + split; [intros k y Hk Hy; destruct (Nat.lt_ge_cases k (i - 1)) as [H|H]; [|exact H]; apply K in Hk; assert (y < a) by (apply Hk; lia); lra|].
          intros k y Hk Hi. pose proof (K k y Hk) as Q. destruct (Rtotal_order a y) as [H|[H|H]]; [exact H| |apply Q in H; lia].
          exfalso. apply N. rewrite H. eapply nth_error_In; exact Hk. }
    assert (EN : exists en, match bs b cs with BFound i => Ok i
          | BInsert i => match length cs with 0%nat => Panic | S m => Ok (Nat.min i m) end end = Ok en /\
       (en < length cs)%nat /\ (S en = length cs \/ exists y, nth_error cs en = Some y /\ b <= y) /\
       (forall k y, nth_error cs k = Some y -> y <= b -> (k <= en)%nat) /\
       (forall k y, nth_error cs k = Some y -> (k < en)%nat -> y < b)).
    { destruct (bs b cs) as [i|i].
      - exists i. split; [reflexivity|]. split; [apply nth_error_Some; congruence|]. split; [right; exists b; split; [exact Hb|lra]|].
        split; [|intros k y Hk Hi; apply (sorted_nth cs So k i y b Hk Hb); exact Hi].
        intros k y Hk Hy. destruct (Nat.lt_ge_cases i k) as [H|H]; [|exact H]. apply (sorted_nth cs So i k b y Hb Hk) in H. lra.
      - destruct Hb as (L & N & K). destruct (length cs) as [|m] eqn:Em; [lia|]. exists (Nat.min i m). split; [reflexivity|].
        split; [lia|]. split.
        + destruct (Nat.lt_ge_cases i m) as [H|H]; [|left; lia]. right. rewrite Nat.min_l by lia.
          destruct (nth_error cs i) as [y|] eqn:E; [|apply nth_error_None in E; lia]. exists y. split; [reflexivity|].
          pose proof (K i y E) as Q. destruct (Rlt_or_le y b) as [Y|Y]; [apply Q in Y; lia|exact Y].
        + split; [|intros k y Hk Hi; apply (K k y Hk); lia].
          intros k y Hk Hy. assert (Lk : (k < S m)%nat) by (rewrite <- Em; apply nth_error_Some; congruence).
          destruct (Rle_lt_or_eq_dec y b Hy) as [Y| ->]; [apply (K k y Hk) in Y; lia|]. exfalso. apply N. eapply nth_error_In; exact Hk. }
    destruct EN as (en & E & EL & EB & EK & EX). destruct ST as (SL & SB & SK & SX). rewrite E. exists st, en. cbn [rbind].
    split; [reflexivity|]. split; [|split; [exact EL|]]; [|split; [|split; [exact SB|split; [exact EB|split; [exact SX|exact EX]]]]].
    - destruct SB as [->|(y & Hy & Ly)]; [lia|]. apply (EK st y Hy). lra.
    - intros k y Hk (A & B). split; [apply (SK k y Hk A)|apply (EK k y Hk B)].
  Qed.

  (** [unique().sorted()] *)
  Lemma iset_from_mem : forall l seen x, In x (iset_collect_from feq seen l) <-> In x l /\ ~ In x seen.
  Proof.
    assert (Q : forall (x : R) seen, existsb (feq x) seen = true <-> In x seen).
    { intros x seen. rewrite existsb_exists. split.
      - intros (y & Hy & E). cbn in E. unfold Reqb in E. destruct (Req_EM_T x y); [subst; exact Hy|discriminate].
      - intros H. exists x. split; [exact H|]. cbn. unfold Reqb. destruct (Req_EM_T x x); [reflexivity|congruence]. }
    induction l as [|y l IH]; intros seen x; cbn [iset_collect_from]; [simpl; tauto|].
    destruct (existsb (feq y) seen) eqn:E.
    - apply Q in E. rewrite IH. simpl. split; [tauto|]. intros ([->|H] & Ns); [contradiction|auto].
    - assert (Ny : ~ In y seen) by (intros K; apply Q in K; congruence).
      cbn [In]. rewrite IH, in_app_iff. simpl. split.
      + intros [->|(A & B)]; [auto|]. split; [auto|]. tauto.
      + intros ([->|A] & B); [auto|]. destruct (Req_EM_T y x); [auto|]. right. split; [exact A|]. tauto.
  Qed.
  Lemma iset_nodup : forall l seen, NoDup (iset_collect_from feq seen l).
  Proof.
    induction l as [|y l IH]; intros seen; cbn [iset_collect_from]; [constructor|].
    destruct (existsb (feq y) seen); [apply IH|]. constructor; [|apply IH].
    rewrite iset_from_mem. intros (_ & H). apply H. apply in_or_app. right. left. reflexivity.
  Qed.
  Lemma insert_mem : forall x l y, In y (sort_insert x l) <-> y = x \/ In y l.
  Proof.
    induction l as [|z l IH]; intros y; cbn [sort_insert]; [simpl; intuition congruence|].
    destruct (flt z x); cbn [In]; [rewrite IH; intuition congruence|intuition congruence].
  Qed.
  Lemma insert_sorted : forall x l, ssorted l -> ~ In x l -> ssorted (sort_insert x l).
  Proof.
    intros x l S. induction S as [|z l Sl IH Hz]; intros N; cbn [sort_insert]; [repeat constructor|].
    cbn [flt NM RNumT]. rdestr z x.
    - constructor; [apply IH; intros K; apply N; right; exact K|]. apply Forall_forall. intros y Hy. apply insert_mem in Hy as [->|Hy]; [assumption|].
      rewrite Forall_forall in Hz. apply Hz. exact Hy.
    - assert (x < z) by (destruct (Req_EM_T x z); [subst; exfalso; apply N; left; reflexivity|lra]).
      constructor; [constructor; assumption|]. constructor; [assumption|]. rewrite Forall_forall in *. intros y Hy. specialize (Hz y Hy). lra.
  Qed.
  Lemma unique_sorted_ok : forall l, ssorted (unique_sorted l) /\ forall x, In x (unique_sorted l) <-> In x l.
  Proof.
    intros l. unfold unique_sorted, iset_collect.
    assert (K : forall l', NoDup l' -> ssorted (fold_right sort_insert [] l') /\ forall x, In x (fold_right sort_insert [] l') <-> In x l').
    { induction 1 as [|x l' Nx ND IH]; cbn [fold_right]; [split; [constructor|simpl; tauto]|]. destruct IH as (S & Mm). split.
      - apply insert_sorted; [exact S|]. rewrite Mm. exact Nx.
      - intros y. rewrite insert_mem, Mm. simpl. intuition congruence. }
    destruct (K _ (iset_nodup l [])) as (S & Mm). split; [exact S|]. intros x. rewrite Mm, iset_from_mem. simpl. tauto.
  Qed.

  (** *** building a grid *)
  Lemma bs_in : forall x l, ssorted l -> In x l -> exists i, bs x l = BFound i /\ nth_error l i = Some x.
  Proof.
    intros x l S H. pose proof (bs_sorted x l S) as B. destruct (bs x l) as [i|i]; [eauto|]. destruct B as (_ & N & _). contradiction.
  Qed.
  Lemma sorted_index_inj : forall l, ssorted l -> forall i j x, nth_error l i = Some x -> nth_error l j = Some x -> i = j.
  Proof.
    intros l S i j x Hi Hj. pose proof (sorted_nth l S i j x x Hi Hj). pose proof (sorted_nth l S j i x x Hj Hi). 
    destruct (Nat.lt_trichotomy i j) as [L|[E|L]]; [|exact E|]; exfalso; [apply H in L|apply H0 in L]; lra.
  Qed.
  Context {T : Type}.
  Lemma vset_length : forall {A} i (x : A) l, length (vset i x l) = length l.
  Proof. intros A i x l. revert i. induction l as [|y l IH]; intros [|i]; simpl; auto. Qed.
  Lemma vset_eq : forall {A} i (x : A) l, (i < length l)%nat -> nth_error (vset i x l) i = Some x.
  Proof. intros A i x l. revert i. induction l as [|y l IH]; intros [|i] H; simpl in *; try lia; [reflexivity|]. apply IH. lia. Qed.
  Lemma vset_neq : forall {A} i j (x : A) l, i <> j -> nth_error (vset i x l) j = nth_error l j.
  Proof. intros A i j x l. revert i j. induction l as [|y l IH]; intros [|i] [|j] H; simpl; try reflexivity; try congruence. apply IH. lia. Qed.

  Lemma grid_new_ok : forall els : list (T * rpoint), NoDup (map snd els) ->
    exists g, grid_new els = Ok g /\ ssorted (g_rows g) /\ ssorted (g_cols g) /\
      (forall y, In y (g_rows g) <-> exists e, In e els /\ py (snd e) = y) /\
      (forall x, In x (g_cols g) <-> exists e, In e els /\ px (snd e) = x) /\
      length (g_cells g) = (n_rows g * n_cols g)%nat /\
      (forall r c y x, nth_error (g_rows g) r = Some y -> nth_error (g_cols g) c = Some x ->
         exists o, nth_error (g_cells g) (r * n_cols g + c) = Some o /\
           forall t, o = Some t <-> In (t, Pt x y) els).
  Proof.
    intros els ND. unfold grid_new.
    set (rows := unique_sorted (map (fun e => py (snd e)) els)). set (cols := unique_sorted (map (fun e => px (snd e)) els)).
    destruct (unique_sorted_ok (map (fun e => py (snd e)) els)) as (Sr & Mr). fold rows in Sr, Mr.
    destruct (unique_sorted_ok (map (fun e => px (snd e)) els)) as (Sc & Mc). fold cols in Sc, Mc.
    assert (K : forall todo done cells, els = done ++ todo -> length cells = (length rows * length cols)%nat ->
      (forall r c y x, nth_error rows r = Some y -> nth_error cols c = Some x ->
         exists o, nth_error cells (r * length cols + c) = Some o /\ forall t, o = Some t <-> In (t, Pt x y) done) ->
      exists cells', rfold (grid_put rows cols) todo cells = Ok cells' /\ length cells' = (length rows * length cols)%nat /\
       (forall r c y x, nth_error rows r = Some y -> nth_error cols c = Some x ->
         exists o, nth_error cells' (r * length cols + c) = Some o /\ forall t, o = Some t <-> In (t, Pt x y) els)).
    { induction todo as [|[t [x y]] todo IH]; intros done cells E L H.
      - exists cells. cbn [rfold]. split; [reflexivity|]. split; [exact L|]. rewrite E, app_nil_r. exact H.
      - cbn [rfold]. unfold grid_put at 1. cbn [snd fst px py].
        assert (Ie : In (t, Pt x y) els) by (rewrite E; apply in_or_app; right; left; reflexivity).
        destruct (bs_in y rows Sr) as (r & Br & Nr); [apply Mr, (in_map (fun e : T * rpoint => py (snd e)) _ _ Ie)|].
        destruct (bs_in x cols Sc) as (c & Bc & Nc); [apply Mc, (in_map (fun e : T * rpoint => px (snd e)) _ _ Ie)|].
        rewrite Br, Bc. unfold calculate_index.
        assert (Lr : (r < length rows)%nat) by (apply nth_error_Some; congruence).
        assert (Lc : (c < length cols)%nat) by (apply nth_error_Some; congruence).
        rewrite (proj2 (Nat.ltb_lt _ _) Lr), (proj2 (Nat.ltb_lt _ _) Lc). cbn [andb expect rbind].
        assert (Li : (r * length cols + c < length cells)%nat) by (rewrite L; nia).
        rewrite (proj2 (Nat.ltb_lt _ _) Li).  cbn [rbind].
        apply (IH (done ++ [(t, Pt x y)])); [rewrite <- app_assoc; exact E|rewrite vset_length; exact L|].
        intros r' c' y' x' Hr Hc. destruct (Nat.eq_dec (r * length cols + c) (r' * length cols + c')) as [Q|Q].
        + assert (Lc' : (c' < length cols)%nat) by (apply nth_error_Some; congruence).
          assert (r' = r /\ c' = c) as (-> & ->).
          { assert (r = r') by nia. subst. split; [reflexivity|lia]. }
          rewrite Nr in Hr. injection Hr as <-. rewrite Nc in Hc. injection Hc as <-.
          exists (Some t). split; [apply vset_eq; exact Li|]. intros t'. rewrite in_app_iff. simpl. split.
          * intros [= <-]. auto.
          * intros [Hd|[Hd|[]]]; [|congruence]. exfalso. rewrite E, map_app in ND. cbn [map snd] in ND.
            apply NoDup_remove_2 in ND. apply ND. apply in_or_app. left. apply (in_map snd) in Hd. exact Hd.
        + destruct (H r' c' y' x' Hr Hc) as (o & Ho & Hi). exists o. split; [rewrite vset_neq by exact Q; exact Ho|].
          intros t'. rewrite Hi, in_app_iff. simpl. split; [auto|]. intros [A|[A|[]]]; [exact A|]. exfalso. apply Q.
          injection A as _ Ex Ey. subst x' y'.
          rewrite (sorted_index_inj rows Sr r r' y Nr Hr), (sorted_index_inj cols Sc c c' x Nc Hc). reflexivity. }
    destruct (K els [] (repeat None (length rows * length cols)) eq_refl) as (cells & E & L & H).
    - apply repeat_length.
    - intros r c y x Hr Hc. exists None. split; [|intros t; split; [discriminate|intros []]].
      apply nth_error_repeat. assert ((r < length rows)%nat) by (apply nth_error_Some; congruence).
      assert ((c < length cols)%nat) by (apply nth_error_Some; congruence). nia.
    - rewrite E. eexists. cbn [rbind]. split; [reflexivity|]. cbn [g_rows g_cols g_cells]. unfold n_rows, n_cols; cbn [g_rows g_cols].
      split; [exact Sr|]. split; [exact Sc|]. split; [|split; [|split; [exact L|exact H]]].
      + intros y. rewrite (Mr y), in_map_iff. split; intros (e & A & B); exists e; auto.
      + intros x. rewrite (Mc x), in_map_iff. split; intros (e & A & B); exists e; auto.
  Qed.
End Range.
