(** The slot map behaves as a finite map with never-reused keys. *)
From Coq Require Import List Bool Arith Lia Permutation.
From Verif Require Import Base BaseProofs SlotMapModel.
Import ListNotations.

Section SMP.
  Context {V : Type}.
  Local Notation smap := (smap V).
  Local Notation slot := (slot V).

  Fixpoint chain (sl : list slot) (fh : nat) (ch : list nat) : Prop :=
    match ch with
    | [] => fh = length sl
    | i :: r => fh = i /\ exists ver n, nth_error sl i = Some (Slot ver (Vacant n)) /\
                  Nat.even ver = true /\ chain sl n r
    end.
  Record sm_ok (m : smap) : Prop := {
    so_chain : exists ch, NoDup ch /\ chain (sm_slots m) (sm_free m) ch;
    so_odd : forall i ver v, nth_error (sm_slots m) i = Some (Slot ver (Occupied v)) -> Nat.odd ver = true;
    so_num : sm_num m = length (sm_iter m)
  }.

  Lemma chain_vset : forall ch sl fh i s, chain sl fh ch -> ~ In i ch -> chain (vset i s sl) fh ch.
  Proof.
    induction ch as [|j r IH]; intros sl fh i s H Hn; cbn [chain] in *.
    - rewrite vset_length. exact H.
    - destruct H as (-> & ver & n & E & Ev & C). split; [reflexivity|]. exists ver, n.
      rewrite nth_error_vset_neq by (intros ->; apply Hn; left; reflexivity).
      split; [exact E|]. split; [exact Ev|]. apply IH; [exact C|]. intros X; apply Hn; right; exact X.
  Qed.
  Lemma chain_in : forall ch sl fh i, chain sl fh ch -> In i ch ->
    exists ver n, nth_error sl i = Some (Slot ver (Vacant n)).
  Proof.
    induction ch as [|j r IH]; intros sl fh i H Hi; cbn [chain In] in *; [contradiction|].
    destruct H as (-> & ver & n & E & Ev & C). destruct Hi as [<-|Hi]; eauto.
  Qed.

  Lemma iter_from_app : forall l1 l2 n,
    @sm_iter_from V n (l1 ++ l2) = sm_iter_from n l1 ++ sm_iter_from (n + length l1) l2.
  Proof.
    induction l1 as [|[ver [nf|v]] l1 IH]; intros l2 n; cbn [app sm_iter_from length].
    - rewrite Nat.add_0_r. reflexivity.
    - rewrite IH. replace (n + S (length l1)) with (S n + length l1) by lia. reflexivity.
    - rewrite IH. replace (n + S (length l1)) with (S n + length l1) by lia. reflexivity.
  Qed.
  Lemma iter_from_in : forall l n i ver v,
    In ((i, ver), v) (@sm_iter_from V n l) <-> n <= i /\ nth_error l (i - n) = Some (Slot ver (Occupied v)).
  Proof.
    induction l as [|[w [nf|x]] l IH]; intros n i ver v; cbn [sm_iter_from In].
    - split; [intros []|]. intros (_ & H). destruct (i - n); discriminate.
    - rewrite IH. destruct (Nat.eq_dec i n) as [->|Hn].
      + rewrite Nat.sub_diag. cbn. split; [lia|intros (_ & H); discriminate].
      + split; intros (A & B).
        * split; [lia|]. replace (i - n) with (S (i - S n)) by lia. exact B.
        * split; [lia|]. replace (i - n) with (S (i - S n)) in B by lia. exact B.
    - rewrite IH. destruct (Nat.eq_dec i n) as [->|Hn].
      + rewrite Nat.sub_diag. cbn. split.
        * intros [H|(H & _)]; [|lia]. injection H as -> ->. auto.
        * intros (_ & H). injection H as -> ->. auto.
      + split.
        * intros [H|(A & B)]; [injection H; intros; lia|].
          split; [lia|]. replace (i - n) with (S (i - S n)) by lia. exact B.
        * intros (A & B). right. split; [lia|]. replace (i - n) with (S (i - S n)) in B by lia. exact B.
  Qed.
  Lemma iter_in : forall (m : smap) i ver v,
    In ((i, ver), v) (sm_iter m) <-> nth_error (sm_slots m) i = Some (Slot ver (Occupied v)).
  Proof. intros. unfold sm_iter. rewrite iter_from_in, Nat.sub_0_r. split; [tauto|]. auto with arith. Qed.
  Lemma get_iter : forall (m : smap) k v, sm_get m k = Some v <-> In (k, v) (sm_iter m).
  Proof.
    intros m [i ver] v. rewrite iter_in. unfold sm_get. cbn [fst snd].
    destruct (nth_error (sm_slots m) i) as [[w [nf|x]]|]; try (split; discriminate).
    destruct (Nat.eqb_spec w ver) as [->|Hn].
    - split; intros H; injection H as ->; reflexivity.
    - split; [discriminate|]. intros H. injection H as H1 H2. lia.
  Qed.
  Lemma iter_from_nodup : forall l n, NoDup (map (fun p => fst (fst p)) (@sm_iter_from V n l)).
  Proof.
    induction l as [|[w [nf|x]] l IH]; intros n; cbn [sm_iter_from map].
    - constructor.
    - apply IH.
    - constructor; [|apply IH]. cbn [fst]. intros H. apply in_map_iff in H as ([[i ver] v] & E & H).
      cbn [fst] in E. apply iter_from_in in H. lia.
  Qed.
  Lemma iter_nodup : forall m : smap, NoDup (map fst (sm_iter m)).
  Proof.
    intros m. pose proof (iter_from_nodup (sm_slots m) 0) as H. fold (sm_iter m) in H.
    rewrite <- map_map in H. apply NoDup_map_inv in H. exact H.
  Qed.

  Lemma new_ok : sm_ok (@sm_new V).
  Proof.
    split; cbn.
    - exists []. split; [constructor|reflexivity].
    - intros [|[|i]] ver v H; cbn in H; discriminate.
    - reflexivity.
  Qed.
  Lemma new_iter : sm_iter (@sm_new V) = [].
  Proof. reflexivity. Qed.

  Lemma occupied_odd : forall v, Nat.odd (occupied_version v) = true.
  Proof.
    intros v. unfold occupied_version. destruct (Nat.odd v) eqn:E; [exact E|].
    rewrite Nat.odd_succ, <- Nat.negb_odd, E. reflexivity.
  Qed.

  Lemma nth_split_len : forall {A} (l : list A) i x, nth_error l i = Some x ->
    exists l1 l2, l = l1 ++ x :: l2 /\ length l1 = i.
  Proof. intros A l i x H. apply nth_error_split in H. exact H. Qed.

  Lemma insert_spec : forall (m : smap) v, sm_ok m ->
    sm_ok (snd (sm_insert m v)) /\
    exists a b, sm_iter m = a ++ b /\ sm_iter (snd (sm_insert m v)) = a ++ (fst (sm_insert m v), v) :: b.
  Proof.
    intros m v [(ch & ND & C) Odd Num]. unfold sm_insert.
    destruct ch as [|i r]; cbn [chain] in C.
    - replace (nth_error (sm_slots m) (sm_free m)) with (@None slot)
        by (symmetry; apply nth_error_None; lia).
      cbn [fst snd].
      assert (It : sm_iter (SM (sm_slots m ++ [Slot 1 (Occupied v)]) (S (length (sm_slots m))) (S (sm_num m)))
                   = sm_iter m ++ [((length (sm_slots m), 1), v)]).
      { unfold sm_iter. cbn [sm_slots]. rewrite iter_from_app. cbn. reflexivity. }
      split; [split; cbn [sm_slots sm_free sm_num]|].
      + exists []. split; [constructor|]. cbn [chain]. rewrite app_length. cbn. lia.
      + intros i ver w H. destruct (Nat.lt_ge_cases i (length (sm_slots m))) as [Hl|Hl].
        * rewrite nth_error_app1 in H by exact Hl. eapply Odd; exact H.
        * rewrite nth_error_app2 in H by exact Hl. destruct (i - length (sm_slots m)) as [|[|j]]; cbn in H;
            try discriminate. injection H as <- _. reflexivity.
      + rewrite It, app_length, Num. cbn. lia.
      + exists (sm_iter m), []. rewrite app_nil_r. split; [reflexivity|exact It].
    - destruct C as (-> & ver & n & E & Ev & C). rewrite E. cbn [sl_ver sl_con fst snd].
      destruct (nth_split_len _ _ _ E) as (l1 & l2 & Es & <-).
      inversion ND as [|? ? Nr NDr]; subst.
      assert (V' : occupied_version ver = S ver).
      { unfold occupied_version. rewrite <- Nat.negb_even, Ev. reflexivity. }
      assert (It0 : sm_iter m = sm_iter_from 0 l1 ++ sm_iter_from (S (length l1)) l2).
      { unfold sm_iter. rewrite Es, iter_from_app. cbn. reflexivity. }
      assert (It : sm_iter (SM (vset (length l1) (Slot (occupied_version ver) (Occupied v)) (sm_slots m))
                              n (S (sm_num m)))
                   = sm_iter_from 0 l1 ++ ((length l1, occupied_version ver), v) :: sm_iter_from (S (length l1)) l2).
      { unfold sm_iter. cbn [sm_slots]. rewrite Es, vset_app, iter_from_app. cbn. reflexivity. }
      split; [split; cbn [sm_slots sm_free sm_num]|].
      + exists r. split; [exact NDr|]. apply chain_vset; assumption.
      + intros i w x H. destruct (Nat.eq_dec (length l1) i) as [<-|Hn].
        * rewrite nth_error_vset_eq in H by (rewrite Es, app_length; cbn; lia).
          injection H as <- _. apply occupied_odd.
        * rewrite nth_error_vset_neq in H by exact Hn. eapply Odd; exact H.
      + rewrite It, Num, It0, !app_length. cbn. lia.
      + exists (sm_iter_from 0 l1), (sm_iter_from (S (length l1)) l2). auto.
  Qed.

  Lemma remove_spec : forall (m : smap) k v m', sm_ok m -> sm_remove m k = Some (v, m') ->
    sm_ok m' /\ exists a b, sm_iter m = a ++ (k, v) :: b /\ sm_iter m' = a ++ b.
  Proof.
    intros m [i ver] v m' [(ch & ND & C) Odd Num] H. unfold sm_remove in H. cbn [fst snd] in H.
    destruct (nth_error (sm_slots m) i) as [[w [nf|x]]|] eqn:E; try discriminate.
    destruct (Nat.eqb_spec w ver) as [->|]; [|discriminate]. injection H as -> <-.
    destruct (nth_split_len _ _ _ E) as (l1 & l2 & Es & <-).
    assert (It0 : sm_iter m = sm_iter_from 0 l1 ++ ((length l1, ver), v) :: sm_iter_from (S (length l1)) l2).
    { unfold sm_iter. rewrite Es, iter_from_app. cbn. reflexivity. }
    assert (It : sm_iter (SM (vset (length l1) (Slot (S ver) (Vacant (sm_free m))) (sm_slots m))
                            (length l1) (sm_num m - 1))
                 = sm_iter_from 0 l1 ++ sm_iter_from (S (length l1)) l2).
    { unfold sm_iter. cbn [sm_slots]. rewrite Es, vset_app, iter_from_app. cbn. reflexivity. }
    assert (Nc : ~ In (length l1) ch).
    { intros X. destruct (chain_in _ _ _ _ C X) as (a & b & Y). congruence. }
    split; [split; cbn [sm_slots sm_free sm_num]|].
    - exists (length l1 :: ch). split; [constructor; assumption|]. cbn [chain]. split; [reflexivity|].
      exists (S ver), (sm_free m). rewrite nth_error_vset_eq by (rewrite Es, app_length; cbn; lia).
      split; [reflexivity|]. split; [rewrite Nat.even_succ; eapply Odd; exact E|].
      apply chain_vset; assumption.
    - intros j w x H. destruct (Nat.eq_dec (length l1) j) as [<-|Hn].
      + rewrite nth_error_vset_eq in H by (rewrite Es, app_length; cbn; lia). discriminate.
      + rewrite nth_error_vset_neq in H by exact Hn. eapply Odd; exact H.
    - rewrite It, Num, It0, !app_length. cbn. lia.
    - exists (sm_iter_from 0 l1), (sm_iter_from (S (length l1)) l2). auto.
  Qed.
  Lemma remove_some : forall (m : smap) k v, sm_get m k = Some v <-> exists m', sm_remove m k = Some (v, m').
  Proof.
    intros m [i ver] v. unfold sm_get, sm_remove. cbn [fst snd].
    destruct (nth_error (sm_slots m) i) as [[w [nf|x]]|];
      try (split; [discriminate|intros (m' & H); discriminate]).
    destruct (Nat.eqb w ver); [|split; [discriminate|intros (m' & H); discriminate]].
    split; [intros H; injection H as ->; eauto|intros (m' & H); injection H as -> _; reflexivity].
  Qed.

  Lemma insert_perm : forall (m : smap) v, sm_ok m ->
    Permutation (sm_values (snd (sm_insert m v))) (v :: sm_values m).
  Proof.
    intros m v H. destruct (insert_spec m v H) as (_ & a & b & E1 & E2). unfold sm_values.
    rewrite E1, E2, !map_app. cbn [map snd]. rewrite Permutation_middle. reflexivity.
  Qed.
  Lemma remove_perm : forall (m : smap) k v m', sm_ok m -> sm_remove m k = Some (v, m') ->
    Permutation (sm_values m) (v :: sm_values m').
  Proof.
    intros m k v m' H E. destruct (remove_spec m k v m' H E) as (_ & a & b & E1 & E2). unfold sm_values.
    rewrite E1, E2, !map_app. cbn [map snd]. rewrite Permutation_middle. reflexivity.
  Qed.
  Lemma empty_spec : forall m : smap, sm_ok m -> (sm_is_empty m = true <-> sm_values m = []).
  Proof.
    intros m [_ _ Num]. unfold sm_is_empty, sm_values. rewrite Nat.eqb_eq, Num.
    destruct (sm_iter m); cbn; split; intros; (reflexivity || discriminate || lia).
  Qed.
  Lemma len_spec : forall m : smap, sm_ok m -> sm_len m = length (sm_values m).
  Proof. intros m [_ _ Num]. unfold sm_len, sm_values. rewrite map_length. exact Num. Qed.

  (** *** freshness of keys: the version of a slot never decreases *)
  Definition ver_at (m : smap) (i : nat) : nat :=
    match nth_error (sm_slots m) i with Some s => sl_ver s | None => 0 end.
  Definition used (m : smap) (k : skey) : Prop := snd k <= ver_at m (fst k) /\ 1 <= snd k.

  Lemma ver_at_vset : forall (m : smap) i s f n j, i < length (sm_slots m) ->
    ver_at (SM (vset i s (sm_slots m)) f n) j = if Nat.eqb i j then sl_ver s else ver_at m j.
  Proof.
    intros m i s f n j Hl. unfold ver_at. cbn [sm_slots]. destruct (Nat.eqb_spec i j) as [<-|Hn].
    - rewrite nth_error_vset_eq by exact Hl. reflexivity.
    - rewrite nth_error_vset_neq by exact Hn. reflexivity.
  Qed.
  Lemma insert_fresh : forall (m : smap) v, sm_ok m ->
    ~ used m (fst (sm_insert m v)) /\ used (snd (sm_insert m v)) (fst (sm_insert m v)) /\
    forall k, used m k -> used (snd (sm_insert m v)) k.
  Proof.
    intros m v [(ch & ND & C) Odd Num]. unfold sm_insert, used. destruct ch as [|i r]; cbn [chain] in C.
    - replace (nth_error (sm_slots m) (sm_free m)) with (@None slot)
        by (symmetry; apply nth_error_None; lia).
      cbn [fst snd].
      replace (ver_at m (length (sm_slots m))) with 0
        by (unfold ver_at; rewrite (proj2 (nth_error_None _ _)); [reflexivity|lia]).
      split; [lia|]. split.
      + unfold ver_at. cbn [sm_slots]. rewrite nth_error_app2, Nat.sub_diag by lia. cbn. lia.
      + intros [j w] (H1 & H2). cbn [fst snd] in *. split; [|exact H2]. unfold ver_at in *. cbn [sm_slots].
        destruct (nth_error (sm_slots m) j) as [s|] eqn:E; [|lia].
        rewrite nth_error_app1, E; [exact H1|]. apply nth_error_Some. congruence.
    - destruct C as (-> & ver & n & E & Ev & C). rewrite E. cbn [sl_ver sl_con fst snd].
      assert (Hl : i < length (sm_slots m)) by (apply nth_error_Some; congruence).
      assert (V' : occupied_version ver = S ver).
      { unfold occupied_version. rewrite <- Nat.negb_even, Ev. reflexivity. }
      assert (Vi : ver_at m i = ver) by (unfold ver_at; rewrite E; reflexivity).
      rewrite V', Vi. split; [lia|]. split.
      + rewrite ver_at_vset, Nat.eqb_refl by exact Hl. cbn. lia.
      + intros [j w] (H1 & H2). cbn [fst snd] in *. rewrite ver_at_vset by exact Hl.
        destruct (Nat.eqb_spec i j) as [<-|]; cbn [sl_ver]; lia.
  Qed.
  Lemma remove_fresh : forall (m : smap) k v m', sm_remove m k = Some (v, m') ->
    forall k', used m k' -> used m' k'.
  Proof.
    intros m [i ver] v m' H [j w] (H1 & H2). unfold sm_remove in H. cbn [fst snd] in *.
    destruct (nth_error (sm_slots m) i) as [[x [nf|y]]|] eqn:E; try discriminate.
    destruct (Nat.eqb_spec x ver) as [->|]; [|discriminate]. injection H as -> <-.
    assert (Hl : i < length (sm_slots m)) by (apply nth_error_Some; congruence).
    unfold used. cbn [fst snd]. rewrite ver_at_vset by exact Hl.
    destruct (Nat.eqb_spec i j) as [<-|]; [|auto]. cbn [sl_ver].
    unfold ver_at in H1. rewrite E in H1. cbn in H1. lia.
  Qed.
  Lemma get_used : forall (m : smap) k v, sm_ok m -> sm_get m k = Some v -> used m k.
  Proof.
    intros m [i ver] v [_ Odd _] H. unfold used, ver_at. apply get_iter, iter_in in H. cbn [fst snd].
    rewrite H. cbn. split; [lia|]. specialize (Odd _ _ _ H). destruct ver; [discriminate|lia].
  Qed.
End SMP.
