(** Keys of placed items: a key names one item until it is removed, and no other item
    afterwards, as long as no snapshot is restored. *)
From Coq Require Import List Bool Arith ZArith Lia Permutation.
From Verif Require Import Base Num GeoModel HazardModel QTModel TransfModel HpgModel CdeModel
  PolyModel SlotMapModel LayoutModel ProblemModel ProblemSpec BaseProofs CdeSpec SlotMapProofs ProblemProofs
  ProblemOpsProofs ProblemThmProofs.
Import ListNotations.

Section KP.
  Context {F : Type} {N : Num F} {D : Type} {ED : EqD D} {BS : BSearch} {DC : DComp F D}.
  Local Notation layout := (layout F D).
  Local Notation lsnap := (lsnap F D).
  Local Notation pitem := (pitem F D).
  Local Notation lop := (lop F D).

  Lemma change_bin_content : forall (l : layout) b l', layout_change_bin l b = Ok l' ->
    ly_id l' = ly_id l /\ ly_bin l' = b /\ ly_items l' = ly_items l.
  Proof. intros l b l' H. unfold layout_change_bin in H. apply rbind_ok in H as (c & _ & H). injection H as <-. auto. Qed.

  (** slot maps stay well-formed, snapshots included *)
  Definition KI (s : layout * list lsnap) : Prop :=
    sm_ok (ly_items (fst s)) /\ Forall (fun x => sm_ok (ls_items x)) (snd s).
  Lemma lstep_KI : forall s o s', KI s -> lstep s o = Ok s' -> KI s'.
  Proof.
    intros (l & sn) o s' (H1 & H2) H. cbn [fst snd] in *. destruct o as [it d ptr|k b|b| |k|]; cbn [lstep] in H.
    - apply rbind_ok in H as ((k & l') & H & E). injection E as <-. apply place_content in H as (_ & _ & H).
      split; [|exact H2]. cbn [fst]. pose proof (proj1 (insert_spec _ (pi_new it d ptr) H1)) as K. rewrite H in K. exact K.
    - apply rbind_ok in H as ((p & l') & H & E). injection E as <-. apply remove_content in H as (_ & _ & H).
      split; [|exact H2]. exact (proj1 (remove_spec _ _ _ _ H1 H)).
    - apply rbind_ok in H as (l' & H & E). injection E as <-. apply change_bin_content in H as (_ & _ & H).
      split; [|exact H2]. cbn [fst]. rewrite H. exact H1.
    - apply rbind_ok in H as ((x & l') & H & E). injection E as <-. apply snapshot_content in H as (E1 & E2 & _).
      unfold ProblemSpec.content, snap_content in *. split; cbn [fst snd].
      + replace (ly_items l') with (ly_items l) by congruence. exact H1.
      + apply Forall_app. split; [exact H2|]. constructor; [|constructor].
        replace (ls_items x) with (ly_items l) by congruence. exact H1.
    - apply rbind_ok in H as (x & Ex & H). apply rbind_ok in H as (l' & H & E). injection E as <-.
      apply restore_content in H as (_ & E). split; cbn [fst snd]; [|exact H2].
      replace (ly_items l') with (ls_items x) by (unfold ProblemSpec.content in E; congruence).
      rewrite Forall_forall in H2. apply H2. destruct (nth_error sn k) eqn:En; [|discriminate].
      injection Ex as <-. eapply nth_error_In; eassumption.
    - apply rbind_ok in H as (l' & H & E). injection E as <-. apply flush_content in H.
      split; [|exact H2]. cbn [fst]. replace (ly_items l') with (ly_items l) by (unfold ProblemSpec.content in H; congruence).
      exact H1.
  Qed.
  Lemma lrun_KI : forall ops s s', KI s -> rfold lstep ops s = Ok s' -> KI s'.
  Proof.
    induction ops as [|o ops IH]; intros s s' K H; cbn [rfold] in H; [injection H as <-; exact K|].
    apply rbind_ok in H as (s1 & H1 & H). apply (IH s1); [|exact H]. exact (lstep_KI _ _ _ K H1).
  Qed.

  (** a key keeps its meaning *)
  Lemma insert_get : forall (m : smap pitem) v k, sm_ok m -> used m k ->
    sm_get (snd (sm_insert m v)) k = sm_get m k.
  Proof.
    intros m v k Hm Hk. pose proof (insert_fresh m v Hm) as (Hf & _ & _).
    pose proof (insert_spec m v Hm) as (_ & a & b & E1 & E2).
    destruct (sm_get m k) as [x|] eqn:G.
    - apply get_iter in G. apply get_iter. rewrite E2. rewrite E1 in G. apply in_app_or in G as [G|G];
        apply in_or_app; [left; exact G|right; right; exact G].
    - destruct (sm_get (snd (sm_insert m v)) k) as [x|] eqn:G'; [exfalso|reflexivity].
      apply get_iter in G'. rewrite E2 in G'. apply in_app_or in G' as [G'|[G'|G']].
      + assert (sm_get m k = Some x) by (apply get_iter; rewrite E1; apply in_or_app; left; exact G'). congruence.
      + apply Hf. injection G' as E _. rewrite E. exact Hk.
      + assert (sm_get m k = Some x) by (apply get_iter; rewrite E1; apply in_or_app; right; exact G'). congruence.
  Qed.
  Lemma remove_get : forall (m : smap pitem) v k k' m', sm_ok m -> sm_remove m k' = Some (v, m') ->
    sm_get m' k = if skey_eqb k k' then None else sm_get m k.
  Proof.
    intros m v k k' m' Hm H. pose proof (remove_spec _ _ _ _ Hm H) as (Hm' & a & b & E1 & E2).
    pose proof (iter_nodup m) as Nd. rewrite E1, map_app in Nd. cbn [map] in Nd.
    pose proof (NoDup_remove_2 _ _ _ Nd) as Nin. rewrite <- map_app, <- E2 in Nin. cbn [fst] in Nin.
    assert (skey_eqb k k' = true <-> k = k') as Ek.
    { destruct k, k'. unfold skey_eqb. cbn. rewrite andb_true_iff, !Nat.eqb_eq. split; [intros (-> & ->); reflexivity|].
      intros E. injection E as -> ->. auto. }
    destruct (skey_eqb k k') eqn:Eq.
    - apply proj1 in Ek. specialize (Ek eq_refl). subst k'. destruct (sm_get m' k) as [x|] eqn:G; [exfalso|reflexivity].
      apply get_iter in G. apply Nin. change k with (fst (k, x)). apply in_map. exact G.
    - assert (k <> k') as Hne by (intros E; apply Ek in E; discriminate).
      destruct (sm_get m k) as [x|] eqn:G.
      + apply get_iter in G. apply get_iter. rewrite E2. rewrite E1 in G. apply in_app_or in G as [G|[G|G]];
          apply in_or_app; auto. injection G as E _. congruence.
      + destruct (sm_get m' k) as [x|] eqn:G'; [exfalso|reflexivity]. apply get_iter in G'. rewrite E2 in G'.
        assert (sm_get m k = Some x); [|congruence]. apply get_iter. rewrite E1.
        apply in_app_or in G' as [G'|G']; apply in_or_app; [left|right; right]; exact G'.
  Qed.
  Lemma lstep_key : forall s o s' k, KI s -> no_restore o -> used (ly_items (fst s)) k -> lstep s o = Ok s' ->
    used (ly_items (fst s')) k /\
    ((~ removes k o /\ sm_get (ly_items (fst s')) k = sm_get (ly_items (fst s)) k) \/
     (removes k o /\ sm_get (ly_items (fst s')) k = None)).
  Proof.
    intros (l & sn) o s' k (H1 & H2) Hn Hu H. cbn [fst snd] in *. destruct o as [it d ptr|k' b|b| |k'|]; cbn [lstep] in H; cbn [removes].
    - apply rbind_ok in H as ((k' & l') & H & E). injection E as <-. apply place_content in H as (_ & _ & H).
      pose proof (insert_fresh _ (pi_new it d ptr) H1) as (_ & _ & K).
      pose proof (insert_get _ (pi_new it d ptr) k H1 Hu) as G. rewrite H in K, G. cbn [fst snd] in *. split; [apply K; exact Hu|]. left. auto.
    - apply rbind_ok in H as ((p & l') & H & E). injection E as <-. apply remove_content in H as (_ & _ & H). cbn [fst].
      split; [exact (remove_fresh _ _ _ _ H k Hu)|]. rewrite (remove_get _ _ k _ _ H1 H).
      destruct (skey_eqb k k') eqn:Eq.
      + right. split; [|reflexivity]. destruct k, k'. unfold skey_eqb in Eq. cbn in Eq. apply andb_true_iff in Eq as (E1 & E2).
        apply Nat.eqb_eq in E1, E2. congruence.
      + left. split; [|reflexivity]. intros ->. destruct k. unfold skey_eqb in Eq. cbn in Eq. rewrite !Nat.eqb_refl in Eq. discriminate.
    - apply rbind_ok in H as (l' & H & E). injection E as <-. apply change_bin_content in H as (_ & _ & H). cbn [fst]. rewrite H. auto.
    - apply rbind_ok in H as ((x & l') & H & E). injection E as <-. apply snapshot_content in H as (E1 & _ & _). cbn [fst].
      replace (ly_items l') with (ly_items l) by (unfold ProblemSpec.content in E1; congruence). auto.
    - destruct Hn.
    - apply rbind_ok in H as (l' & H & E). injection E as <-. apply flush_content in H. cbn [fst].
      replace (ly_items l') with (ly_items l) by (unfold ProblemSpec.content in H; congruence). auto.
  Qed.
  Lemma lrun_key : forall ops s s' k, KI s -> Forall no_restore ops -> used (ly_items (fst s)) k ->
    rfold lstep ops s = Ok s' ->
    (Forall (fun o => ~ removes k o) ops -> sm_get (ly_items (fst s')) k = sm_get (ly_items (fst s)) k) /\
    (Exists (removes k) ops -> sm_get (ly_items (fst s')) k = None) /\
    (sm_get (ly_items (fst s)) k = None -> sm_get (ly_items (fst s')) k = None).
  Proof.
    induction ops as [|o ops IH]; intros s s' k K Hn Hu H; cbn [rfold] in H.
    - injection H as <-. split; [auto|]. split; [intros E; inversion E|auto].
    - apply rbind_ok in H as (s1 & H1 & H). inversion Hn as [|? ? N1 N2]; subst.
      destruct (lstep_key _ _ _ k K N1 Hu H1) as (Hu1 & Hc).
      destruct (IH s1 s' k (lstep_KI _ _ _ K H1) N2 Hu1 H) as (A & B & C).
      split; [|split].
      + intros Fo. inversion Fo; subst. rewrite A by assumption. destruct Hc as [(_ & E)|(R & _)]; [exact E|contradiction].
      + intros E. inversion E as [? ? R|? ? R]; subst; [|apply B; exact R].
        apply C. destruct Hc as [(R' & _)|(_ & E')]; [contradiction|exact E'].
      + intros E. apply C. destruct Hc as [(_ & E')|(_ & E')]; [congruence|exact E'].
  Qed.
  (** the key returned by a placement, from any reachable layout *)
  Lemma key_names : forall id b ops1 l sn it d ptr k l1 ops2 l2 sn2,
    rfold lstep ops1 (layout_new id b, []) = Ok (l, sn) ->
    layout_place l it d ptr = Ok (k, l1) -> Forall no_restore ops2 ->
    rfold lstep ops2 (l1, sn) = Ok (l2, sn2) ->
    (Forall (fun o => ~ removes k o) ops2 -> sm_get (ly_items l2) k = Some (pi_new it d ptr)) /\
    (Exists (removes k) ops2 -> sm_get (ly_items l2) k = None) /\ sm_get (ly_items l) k = None.
  Proof.
    intros id b ops1 l sn it d ptr k l1 ops2 l2 sn2 H1 Hp Hn H2.
    assert (KI (@layout_new F D id b, [])) as K0 by (split; [exact new_ok|constructor]).
    pose proof (lrun_KI _ _ _ K0 H1) as K.
    assert (lstep (l, sn) (LPlace it d ptr) = Ok (l1, sn)) as Hs by (cbn [lstep]; rewrite Hp; reflexivity).
    pose proof (lstep_KI _ _ _ K Hs) as K1. apply place_content in Hp as (_ & _ & Hi).
    pose proof (insert_fresh _ (pi_new it d ptr) (proj1 K)) as (Hf & Hu & _).
    pose proof (insert_spec _ (pi_new it d ptr) (proj1 K)) as (_ & x & y & E1 & E2).
    cbn [fst] in *. rewrite Hi in *. cbn [fst snd] in *.
    assert (sm_get (ly_items l1) k = Some (pi_new it d ptr)) as G
      by (apply get_iter; rewrite E2; apply in_or_app; right; left; reflexivity).
    destruct (lrun_key _ _ _ k K1 Hn Hu H2) as (A & B & _). cbn [fst] in *.
    split; [intros Fo; rewrite (A Fo); exact G|]. split; [exact B|].
    destruct (sm_get (ly_items l) k) eqn:G'; [exfalso|reflexivity]. apply Hf. eapply get_used; [exact (proj1 K)|exact G'].
  Qed.
End KP.
