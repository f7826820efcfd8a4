(** The hazard vector: sortedness, count of active hazards, [strongest]. *)
From Coq Require Import List Bool Arith ZArith Lia Permutation Sorting.Sorted.
From Verif Require Import Base Num GeoModel HazardModel BaseProofs.
Import ListNotations.

Section HV.
  Context {F : Type} {N : Num F} {D : Type} {ED : EqD D} {BS : BSearch}.
  Hypothesis BSok : bsearch_ok BS.
  Local Notation entity := (entity D).
  Local Notation qth := (qth F D).
  Local Notation hvec := (hvec F D).

  Lemma ent_eqb_ok : forall a b : entity, ent_eqb a b = true <-> a = b.
  Proof.
    intros [i d| |i|q i] [j e| |j|r j]; simpl; try (split; intros; congruence).
    - rewrite andb_true_iff, Nat.eqb_eq, deq_ok. split; [intros [-> ->]; reflexivity|].
      intros H; injection H; auto.
    - rewrite Nat.eqb_eq. split; [intros ->; reflexivity|intros H; injection H; auto].
    - rewrite andb_true_iff, !Nat.eqb_eq. split; [intros [-> ->]; reflexivity|].
      intros H; injection H; auto.
  Qed.
  Lemma ent_eqb_refl : forall a : entity, ent_eqb a a = true.
  Proof. intros; apply ent_eqb_ok; reflexivity. Qed.
  Lemma ent_eqb_false : forall a b : entity, ent_eqb a b = false <-> a <> b.
  Proof.
    intros. rewrite <- not_true_iff_false, ent_eqb_ok. reflexivity.
  Qed.
  Lemma ent_eqb_sym : forall a b : entity, ent_eqb a b = ent_eqb b a.
  Proof.
    intros a b. destruct (ent_eqb a b) eqn:E.
    - apply ent_eqb_ok in E. subst. symmetry. apply ent_eqb_refl.
    - symmetry. apply ent_eqb_false. apply ent_eqb_false in E. congruence.
  Qed.
  Lemma memb_ent : forall (e : entity) l, memb ent_eqb e l = true <-> In e l.
  Proof.
    intros. unfold memb. rewrite existsb_exists. split.
    - intros (x & Hx & E). apply ent_eqb_ok in E. subst. assumption.
    - intros H. exists e. split; [assumption|apply ent_eqb_refl].
  Qed.
  Lemma memb_ent_false : forall (e : entity) l, memb ent_eqb e l = false <-> ~ In e l.
  Proof. intros. rewrite <- memb_ent, not_true_iff_false. reflexivity. Qed.

  (** strength: a single number, larger is stronger *)
  Definition strength (h : qth) : nat := (if q_act h then 3 else 0) + pres_u8 (q_pres h).

  Lemma pres_u8_le2 : forall p : presence F, pres_u8 p <= 2.
  Proof. intros [| |]; simpl; lia. Qed.

  Lemma order_desc_strength : forall a b : qth,
    order_desc a b = Nat.compare (strength b) (strength a).
  Proof.
    intros [e1 p1 a1] [e2 p2 a2]. destruct a1, a2, p1, p2; reflexivity.
  Qed.

  Definition desc (l : list qth) : Prop := StronglySorted (fun a b => strength b <= strength a) l.

  Lemma desc_partitioned : forall l h, desc l -> bs_partitioned (fun p => order_desc p h) l.
  Proof.
    intros l h H. induction H as [|a l H IH Fa].
    - exists [], [], []. repeat split; constructor.
    - destruct IH as (l1 & l2 & l3 & -> & F1 & F2 & F3).
      rewrite Forall_forall in Fa.
      destruct (Nat.compare_spec (strength h) (strength a)) as [E|E|E].
      + (* equal: l1 must be empty *)
        destruct l1 as [|b l1].
        * exists [], (a :: l2), l3. simpl. repeat split; auto. constructor; auto.
          rewrite order_desc_strength. apply Nat.compare_eq_iff. exact E.
        * exfalso. inversion F1 as [|? ? Hb _]; subst. rewrite order_desc_strength in Hb.
          apply Nat.compare_lt_iff in Hb. specialize (Fa b (or_introl eq_refl)). lia.
      + exists (a :: l1), l2, l3. simpl. repeat split; auto. constructor; auto.
        rewrite order_desc_strength. apply Nat.compare_lt_iff. exact E.
      + destruct l1 as [|b l1]; [destruct l2 as [|b l2]|].
        * exists [], [], (a :: l3). simpl. repeat split; auto. constructor; auto.
          rewrite order_desc_strength. apply Nat.compare_gt_iff. exact E.
        * exfalso. inversion F2 as [|? ? Hb _]; subst. rewrite order_desc_strength in Hb.
          apply Nat.compare_eq_iff in Hb. specialize (Fa b (or_introl eq_refl)). lia.
        * exfalso. inversion F1 as [|? ? Hb _]; subst. rewrite order_desc_strength in Hb.
          apply Nat.compare_lt_iff in Hb. specialize (Fa b (or_introl eq_refl)). lia.
  Qed.

  Lemma desc_app : forall l1 l2,
    desc (l1 ++ l2) <-> desc l1 /\ desc l2 /\
      (forall a b, In a l1 -> In b l2 -> strength b <= strength a).
  Proof.
    unfold desc. induction l1 as [|x l1 IH]; intros l2; simpl.
    - split; [intros H; repeat split; auto; [constructor|intros ? ? []]|tauto].
    - split.
      + intros H. inversion H as [|? ? H1 Fx]; subst. apply IH in H1 as (A & B & C).
        rewrite Forall_forall in Fx. repeat split; auto.
        * constructor; auto. apply Forall_forall. intros; apply Fx, in_or_app; auto.
        * intros a b [<-|Ha] Hb; auto. apply Fx, in_or_app; auto.
      + intros (A & B & C). inversion A as [|? ? H1 Fx]; subst. rewrite Forall_forall in Fx.
        constructor.
        * apply IH. repeat split; auto.
        * apply Forall_forall. intros y Hy. apply in_app_or in Hy as [Hy|Hy]; auto.
  Qed.

  Lemma desc_insert : forall l h, desc l ->
    desc (vinsert (match bsearch (fun probe => order_desc probe h) l with
                   | BFound i | BInsert i => i end) h l).
  Proof.
    intros l h Hl.
    pose proof (BSok _ _ _ (desc_partitioned l h Hl)) as S.
    assert (G : forall i, desc l ->
        (forall x, In x (firstn i l) -> strength h <= strength x) ->
        (forall x, In x (skipn i l) -> strength x <= strength h) ->
        desc (vinsert i h l)).
    { intros i H A B. unfold vinsert. rewrite <- (firstn_skipn i l) in H.
      apply desc_app in H as (H1 & H2 & H3). apply desc_app. repeat split; auto.
      - constructor; auto. apply Forall_forall; auto.
      - intros a b Ha [<-|Hb]; auto. }
    destruct (bsearch (fun probe => order_desc probe h) l) as [i|i].
    - destruct S as (x & Hx & E). rewrite order_desc_strength in E.
      apply Nat.compare_eq_iff in E. apply nth_error_split in Hx as (l1 & l2 & -> & <-).
      apply desc_app in Hl as Hl'. destruct Hl' as (H1 & H2 & H3).
      apply G; auto.
      + rewrite firstn_app, Nat.sub_diag, firstn_all, app_nil_r. simpl.
        intros y Hy. specialize (H3 y x Hy (or_introl eq_refl)). lia.
      + rewrite skipn_app, Nat.sub_diag, skipn_all. simpl.
        inversion H2 as [|? ? _ Fx]; subst. rewrite Forall_forall in Fx.
        intros y [<-|Hy]; [lia|]. specialize (Fx y Hy). lia.
    - destruct S as (_ & A & B). apply G; auto.
      + intros x Hx. rewrite Forall_forall in A. specialize (A x Hx).
        rewrite order_desc_strength in A. apply Nat.compare_lt_iff in A. lia.
      + intros x Hx. rewrite Forall_forall in B. specialize (B x Hx).
        rewrite order_desc_strength in B. apply Nat.compare_gt_iff in B. lia.
  Qed.

  (** *** the vector represents a multiset of hazards *)
  Definition n_act (l : list qth) : nat := length (filter (fun h => q_act h) l).
  Definition hv_rep (v : hvec) (hs : list qth) : Prop :=
    desc (hv_list v) /\ Permutation (hv_list v) hs /\ hv_n v = Z.of_nat (n_act hs).

  Lemma n_act_perm : forall l l', Permutation l l' -> n_act l = n_act l'.
  Proof.
    intros l l' H. unfold n_act. apply Permutation_length, perm_filter, H.
  Qed.

  Lemma hv_rep_perm : forall v hs hs', hv_rep v hs -> Permutation hs hs' -> hv_rep v hs'.
  Proof.
    intros v hs hs' (A & B & C) P. repeat split; auto.
    - etransitivity; eassumption.
    - rewrite C. f_equal. apply n_act_perm; assumption.
  Qed.

  Lemma hv_new_rep : hv_rep hv_new [].
  Proof. repeat split; constructor. Qed.

  Lemma hv_add_rep : forall v hs h, hv_rep v hs -> hv_rep (hv_add v h) (h :: hs).
  Proof.
    intros v hs h (A & B & C). unfold hv_add. repeat split; simpl.
    - apply desc_insert; auto.
    - rewrite vinsert_perm. constructor. assumption.
    - rewrite C. unfold n_act. simpl. destruct (q_act h); simpl; lia.
  Qed.

  (** removing the hazard of one entity *)
  Definition not_ent (e : entity) (h : qth) : bool := negb (ent_eqb (q_ent h) e).

  Lemma filter_id : forall {A} (f : A -> bool) l, (forall x, In x l -> f x = true) -> filter f l = l.
  Proof.
    induction l as [|x l IH]; intros H; simpl; [reflexivity|].
    rewrite (H x (or_introl eq_refl)), IH; auto. intros; apply H; right; auto.
  Qed.

  Lemma nodup_ent_split : forall (l1 : list qth) h l2,
    NoDup (map q_ent (l1 ++ h :: l2)) ->
    filter (not_ent (q_ent h)) (l1 ++ h :: l2) = l1 ++ l2.
  Proof.
    intros l1 h l2 ND. rewrite map_app in ND. simpl in ND. apply NoDup_remove_2 in ND.
    rewrite filter_app. simpl. unfold not_ent at 2. rewrite ent_eqb_refl. simpl.
    f_equal; apply filter_id; intros x Hx; unfold not_ent; apply negb_true_iff, ent_eqb_false;
      intros E; apply ND, in_or_app; [left|right]; rewrite <- E; apply in_map; assumption.
  Qed.

  Lemma desc_remove : forall l1 h l2, desc (l1 ++ h :: l2) -> desc (l1 ++ l2).
  Proof.
    intros l1 h l2 H. apply desc_app in H as (A & B & C). apply desc_app.
    inversion B; subst. repeat split; auto. intros; apply C; auto. right; auto.
  Qed.

  (** [hv_list v] split at the first hazard of entity [e] *)
  Lemma hv_find_cases : forall (v : hvec) e,
    (position (fun ch => ent_eqb (q_ent ch) e) (hv_list v) = None /\
     (forall h, In h (hv_list v) -> q_ent h <> e))
    \/ (exists l1 h l2, hv_list v = l1 ++ h :: l2 /\ q_ent h = e /\
        position (fun ch => ent_eqb (q_ent ch) e) (hv_list v) = Some (length l1) /\
        vremove (length l1) (hv_list v) = Some (h, l1 ++ l2)).
  Proof.
    intros v e. destruct (position (fun ch => ent_eqb (q_ent ch) e) (hv_list v)) as [i|] eqn:P.
    - right. destruct (position_some _ _ _ P) as (l1 & h & l2 & E & L & Fh & _).
      exists l1, h, l2. subst i. repeat split; auto.
      + apply ent_eqb_ok; assumption.
      + rewrite E. apply vremove_app.
    - left. split; [reflexivity|]. intros h Hh. rewrite position_none in P.
      apply ent_eqb_false. apply P; assumption.
  Qed.

  Lemma hv_remove_rep : forall (v : hvec) hs e, hv_rep v hs -> NoDup (map q_ent hs) ->
    hv_rep (snd (hv_remove v e)) (filter (not_ent e) hs) /\
    (is_some (fst (hv_remove v e)) = true <-> In e (map q_ent hs)).
  Proof.
    intros v hs e (A & B & C) ND. unfold hv_remove.
    destruct (hv_find_cases v e) as [(-> & Hno)|(l1 & h & l2 & E & He & -> & ->)].
    - simpl. assert (Hno' : forall x, In x hs -> not_ent e x = true).
      { intros x Hx. apply negb_true_iff, ent_eqb_false, Hno.
        eapply Permutation_in; [symmetry; exact B|exact Hx]. }
      split.
      + rewrite filter_id by assumption. repeat split; auto.
      + split; [discriminate|]. intros H. apply in_map_iff in H as (x & Ex & Hx).
        specialize (Hno' x Hx). unfold not_ent in Hno'. rewrite Ex, ent_eqb_refl in Hno'.
        discriminate.
    - simpl. split.
      + assert (P : Permutation (l1 ++ l2) (filter (not_ent e) hs)).
        { rewrite <- (perm_filter (not_ent e) _ _ B). rewrite E, <- He.
          rewrite nodup_ent_split; [reflexivity|].
          rewrite <- E. eapply Permutation_NoDup; [|exact ND].
          apply Permutation_map. symmetry. exact B. }
        repeat split; simpl.
        * rewrite E in A. eapply desc_remove; exact A.
        * exact P.
        * rewrite C. rewrite <- (n_act_perm _ _ P), <- (n_act_perm _ _ B), E.
          unfold n_act. rewrite !filter_app, !app_length. simpl.
          destruct (q_act h); simpl; lia.
      + split; [intros _|reflexivity].
        rewrite <- He. apply in_map. eapply Permutation_in; [exact B|].
        rewrite E. apply in_elt.
  Qed.

  Definition set_act (e : entity) (b : bool) (h : qth) : qth :=
    if ent_eqb (q_ent h) e then Qh (q_ent h) (q_pres h) b else h.

  Lemma map_set_act_other : forall e b (l : list qth), (forall h, In h l -> q_ent h <> e) ->
    map (set_act e b) l = l.
  Proof.
    induction l as [|h l IH]; intros H; simpl; [reflexivity|].
    rewrite IH by (intros; apply H; right; auto). f_equal.
    unfold set_act. destruct (ent_eqb (q_ent h) e) eqn:E; [|reflexivity].
    apply ent_eqb_ok in E. destruct (H h (or_introl eq_refl) E).
  Qed.

  Lemma map_set_act_split : forall b l1 h l2, NoDup (map q_ent (l1 ++ h :: l2)) ->
    map (set_act (q_ent h) b) (l1 ++ h :: l2) = l1 ++ Qh (q_ent h) (q_pres h) b :: l2.
  Proof.
    intros b l1 h l2 ND. rewrite map_app in ND. simpl in ND. apply NoDup_remove_2 in ND.
    rewrite map_app. simpl. unfold set_act at 2. rewrite ent_eqb_refl.
    f_equal; [|f_equal]; apply map_set_act_other; intros x Hx E; apply ND, in_or_app;
      [left|right]; rewrite <- E; apply in_map; assumption.
  Qed.

  Lemma hv_toggle_rep : forall (b : bool) (v : hvec) hs e,
    hv_rep v hs -> NoDup (map q_ent hs) ->
    (forall h, In h hs -> q_ent h = e -> q_act h = negb b) ->
    let r := (if b then hv_activate v e else hv_deactivate v e) in
    hv_rep (snd r) (map (set_act e b) hs) /\ (fst r = true <-> In e (map q_ent hs)).
  Proof.
    intros b v hs e (A & B & C) ND Hact r. subst r.
    assert (ND' : NoDup (map q_ent (hv_list v))).
    { eapply Permutation_NoDup; [|exact ND]. apply Permutation_map. symmetry. exact B. }
    unfold hv_activate, hv_deactivate.
    destruct (hv_find_cases v e) as [(-> & Hno)|(l1 & h & l2 & E & He & -> & ->)].
    - assert (Hno' : forall x, In x hs -> q_ent x <> e).
      { intros x Hx. apply Hno. eapply Permutation_in; [symmetry; exact B|exact Hx]. }
      replace (if b then (false, v) else (false, v)) with (false, v) by (destruct b; reflexivity).
      simpl. rewrite map_set_act_other by assumption. split; [repeat split; auto|].
      split; [discriminate|]. intros H. apply in_map_iff in H as (x & Ex & Hx).
      destruct (Hno' x Hx Ex).
    - assert (Hh : q_act h = negb b).
      { apply Hact; auto. eapply Permutation_in; [exact B|]. rewrite E. apply in_elt. }
      assert (Hin : In e (map q_ent hs)).
      { rewrite <- He. apply in_map. eapply Permutation_in; [exact B|]. rewrite E. apply in_elt. }
      assert (P : Permutation (Qh (q_ent h) (q_pres h) b :: l1 ++ l2) (map (set_act e b) hs)).
      { rewrite <- (Permutation_map (set_act e b) B). rewrite E, <- He.
        rewrite map_set_act_split by (rewrite <- E; exact ND').
        apply Permutation_middle. }
      assert (R : hv_rep (Hv (l1 ++ l2) (Z.of_nat (n_act (l1 ++ l2)))) (l1 ++ l2)).
      { repeat split; auto. simpl. rewrite E in A. eapply desc_remove; exact A. }
      assert (Cn : hv_n v = (Z.of_nat (n_act (l1 ++ l2)) + b2z (negb b))%Z).
      { rewrite C, <- (n_act_perm _ _ B), E. unfold n_act.
        rewrite !filter_app, !app_length. simpl. rewrite Hh. destruct b; simpl; lia. }
      destruct b; simpl in Cn; cbv beta iota; simpl fst; simpl snd;
        (split; [|split; [intros _; exact Hin|reflexivity]]).
      + rewrite Z.add_0_r in Cn. rewrite Cn.
        eapply hv_rep_perm; [apply hv_add_rep; exact R|exact P].
      + replace (hv_n v - 1)%Z with (Z.of_nat (n_act (l1 ++ l2))) by lia.
        eapply hv_rep_perm; [apply hv_add_rep; exact R|exact P].
  Qed.

  (** the active hazards are exactly the prefix of length [n_active] *)
  Lemma desc_filter_prefix : forall l, desc l -> firstn (n_act l) l = filter (fun h => q_act h) l.
  Proof.
    intros l H. induction H as [|a l H IH Fa]; [reflexivity|].
    unfold n_act in *. simpl. destruct (q_act a) eqn:E; simpl.
    - f_equal. exact IH.
    - assert (Z : filter (fun h => q_act h) l = []).
      { rewrite Forall_forall in Fa. clear IH H. induction l as [|b l IHl]; [reflexivity|].
        simpl. pose proof (Fa b (or_introl eq_refl)) as Fb. unfold strength in Fb.
        rewrite E in Fb. pose proof (pres_u8_le2 (q_pres a)).
        destruct (q_act b); [lia|]. apply IHl. intros; apply Fa; right; auto. }
      rewrite Z. reflexivity.
  Qed.

  Lemma n_act_le : forall l, n_act l <= length l.
  Proof. intros. unfold n_act. induction l as [|x l IH]; simpl; [lia|]. destruct (q_act x); simpl; lia. Qed.

  Lemma active_hazards_rep : forall v hs, hv_rep v hs ->
    exists l, active_hazards v = Ok l /\ Permutation l (filter (fun h => q_act h) hs) /\ desc l.
  Proof.
    intros v hs (A & B & C). unfold active_hazards. rewrite C.
    assert (E : n_act hs = n_act (hv_list v)) by (apply n_act_perm; symmetry; exact B).
    rewrite E. pose proof (n_act_le (hv_list v)) as L.
    destruct (Z.leb_spec 0 (Z.of_nat (n_act (hv_list v)))); [|lia].
    destruct (Z.leb_spec (Z.of_nat (n_act (hv_list v))) (Z.of_nat (length (hv_list v)))); [|lia].
    simpl. rewrite Nat2Z.id, desc_filter_prefix by exact A. eexists; split; [reflexivity|].
    split; [apply perm_filter; exact B|].
    clear -A. unfold desc in *. induction A as [|a l H IH Fa]; simpl; [constructor|].
    destruct (q_act a); [|exact IH]. constructor; [exact IH|].
    rewrite Forall_forall in *. intros x Hx. apply filter_In in Hx as [Hx _]. auto.
  Qed.

  Definition relevant (irr : list entity) (h : qth) : bool :=
    q_act h && negb (memb ent_eqb (q_ent h) irr).

  Lemma desc_find_max : forall (g : qth -> bool) l h, desc l -> find g l = Some h ->
    In h l /\ g h = true /\ (forall x, In x l -> g x = true -> strength x <= strength h).
  Proof.
    intros g l h H. induction H as [|a l H IH Fa]; simpl; [discriminate|].
    destruct (g a) eqn:E.
    - intros X; injection X as <-. repeat split; auto.
      rewrite Forall_forall in Fa. intros x [<-|Hx] _; [lia|auto].
    - intros X. destruct (IH X) as (I & G & M). repeat split; auto.
      intros x [<-|Hx] Gx; [congruence|auto].
  Qed.

  Lemma strongest_spec : forall v hs irr, hv_rep v hs ->
    exists o, strongest v irr = Ok o /\
      match o with
      | None => forall h, In h hs -> relevant irr h = false
      | Some h => In h hs /\ relevant irr h = true /\
          forall h', In h' hs -> relevant irr h' = true ->
            pres_u8 (q_pres h') <= pres_u8 (q_pres h)
      end.
  Proof.
    intros v hs irr R. pose proof R as (A & B & C). unfold strongest.
    destruct (Z.eqb_spec (hv_n v) 0) as [Z0|Z0].
    - exists None. split; [reflexivity|]. intros h Hh. unfold relevant.
      destruct (q_act h) eqn:E; [|reflexivity]. exfalso.
      assert (In h (filter (fun h => q_act h) hs)) by (apply filter_In; auto).
      rewrite C in Z0. unfold n_act in Z0.
      destruct (filter (fun h => q_act h) hs); [contradiction|simpl in Z0; lia].
    - destruct irr as [|e irr].
      + rewrite C in Z0. rewrite <- (n_act_perm _ _ B) in Z0.
        destruct (hv_list v) as [|h l] eqn:E; [simpl in Z0; lia|].
        simpl. exists (Some h). split; [reflexivity|].
        inversion A as [|? ? Al Fl]; subst. rewrite Forall_forall in Fl.
        assert (Ha : q_act h = true).
        { destruct (q_act h) eqn:Eh; [reflexivity|]. exfalso. apply Z0.
          unfold n_act. simpl. rewrite Eh.
          assert (Z : filter (fun h => q_act h) l = []).
          { clear -Fl Eh. induction l as [|b l IHl]; [reflexivity|]. simpl.
            pose proof (Fl b (or_introl eq_refl)) as Fb. unfold strength in Fb.
            rewrite Eh in Fb. pose proof (pres_u8_le2 (q_pres h)).
            destruct (q_act b); [lia|]. apply IHl. intros; apply Fl; right; auto. }
          rewrite Z. reflexivity. }
        split; [|split].
        * eapply Permutation_in; [exact B|left; reflexivity].
        * unfold relevant. rewrite Ha. reflexivity.
        * intros h' Hh' Rh'. unfold relevant in Rh'. apply andb_true_iff in Rh' as [Ah' _].
          assert (Hin : In h' (h :: l)).
          { eapply Permutation_in; [symmetry; exact B|exact Hh']. }
          destruct Hin as [<-|Hin]; [lia|]. specialize (Fl h' Hin). unfold strength in Fl.
          rewrite Ha, Ah' in Fl. lia.
      + destruct (active_hazards_rep v hs R) as (l & -> & P & Dl). simpl.
        eexists; split; [reflexivity|].
        set (g := fun hz : qth => negb (memb ent_eqb (q_ent hz) (e :: irr))).
        change (find _ l) with (find g l). destruct (find g l) as [h|] eqn:Ef.
        * destruct (desc_find_max g l h Dl Ef) as (Hin & Gh & M).
          assert (Hin' : In h (filter (fun h => q_act h) hs)) by (eapply Permutation_in; eauto).
          apply filter_In in Hin' as (Hhs & Ha). split; [exact Hhs|]. split.
          { unfold relevant. rewrite Ha. exact Gh. }
          intros h' Hh' Rh'. apply andb_true_iff in Rh' as [Ah' Gh'].
          assert (Hin' : In h' l).
          { eapply Permutation_in; [symmetry; exact P|]. apply filter_In; auto. }
          specialize (M h' Hin' Gh'). unfold strength in M. rewrite Ha, Ah' in M. lia.
        * intros h Hh. destruct (relevant (e :: irr) h) eqn:Rh; [|reflexivity].
          apply andb_true_iff in Rh as [Ah Gh].
          assert (Hin' : In h l).
          { eapply Permutation_in; [symmetry; exact P|]. apply filter_In; auto. }
          pose proof (find_none g l Ef h Hin') as X. unfold g in X. 
          rewrite X in Gh. discriminate.
  Qed.

  Lemma hv_get_spec : forall (v : hvec) hs e, hv_rep v hs -> NoDup (map q_ent hs) ->
    match hv_get v e with
    | None => forall h, In h hs -> q_act h = true -> q_ent h <> e
    | Some h => In h hs /\ q_act h = true /\ q_ent h = e
    end.
  Proof.
    intros v hs e (A & B & C) ND. unfold hv_get.
    destruct (find _ _) as [h|] eqn:Ef.
    - apply find_some in Ef as (Hin & E). apply ent_eqb_ok in E.
      apply filter_In in Hin as (Hin & Ha). repeat split; auto.
      eapply Permutation_in; eauto.
    - intros h Hh Ha E. pose proof (find_none _ _ Ef h) as X. simpl in X.
      rewrite E, ent_eqb_refl in X. discriminate X. apply filter_In. split; auto.
      eapply Permutation_in; [symmetry; exact B|exact Hh].
  Qed.
End HV.
