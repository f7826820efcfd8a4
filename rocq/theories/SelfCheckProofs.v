(** The checks of util/assertions.rs on the quadtree that nothing calls.  Every [Num F]. *)
From Coq Require Import List Bool Arith ZArith Lia Permutation Sorted.
From Verif Require Import Base Num GeoModel HazardModel QTModel TransfModel HpgModel CdeModel CdeSpec
  PolyModel SlotMapModel LayoutModel ProblemModel AssertModel AssertLayoutModel SelfCheckSpec
  BaseProofs HazVecProofs QTProofs CdeProofs CdeOpsProofs CdeHistProofs CdeThmProofs AssertRefProofs AssertProofs.
Import ListNotations.

Section SCP.
  Context {F : Type} {N : Num F} {D : Type} {ED : EqD D} {BS : BSearch}.
  Hypothesis BSok : bsearch_ok BS.
  Local Notation rect := (rect F).
  Local Notation hazard := (hazard F D).
  Local Notation entity := (entity D).
  Local Notation node := (node F D).
  Local Notation qth := (qth F D).
  Local Notation cde := (cde F D).
  Local Notation op := (op F D).

  Lemma node_at : forall alive path lvl bb hs (n m : node), repr lvl bb hs n -> Forall (wf_qth alive) hs -> at_path n path = Some m ->
    exists lvl' bb' hs', repr lvl' bb' hs' m /\ Forall (wf_qth alive) hs' /\
      (forall h, In h hs' -> exists h0, In h0 hs /\ q_ent h0 = q_ent h /\ q_act h0 = q_act h).
  Proof.
    intros alive. induction path as [|i path IH]; intros lvl bb hs n m Rp W H; cbn [at_path] in H.
    - injection H as <-. exists lvl, bb, hs. split; [exact Rp|]. split; [exact W|]. intros h Hh. exists h. auto.
    - destruct (n_children n) as [c|] eqn:Ec; [|discriminate].
      destruct (nth_error [qa c; qb c; qc c; qd c] i) as [k|] eqn:Ek; [|discriminate].
      destruct lvl as [|l]; cbn [repr] in Rp; destruct Rp as (_ & _ & _ & C); [congruence|].
      destruct (existsb is_partial hs); [|congruence]. destruct C as (c' & E' & C). rewrite Ec in E'. injection E' as <-.
      assert (Hi : i < 4) by (apply (nth_error_Some [qa c; qb c; qc c; qd c]); rewrite Ek; discriminate).
      assert (K : k = q4get c i).
      { destruct i as [|[|[|[|i]]]]; cbn in Ek; try (injection Ek as <-; reflexivity). lia. }
      subst k. destruct (IH _ _ _ _ _ (C i Hi) (omap_con_wf alive bb i hs Hi W) H) as (l' & b' & h' & A1 & A2 & A3).
      exists l', b', h'. split; [exact A1|]. split; [exact A2|]. intros h Hh. destruct (A3 h Hh) as (h0 & H0 & E1 & E2).
      apply in_omap in H0 as (h1 & H1 & Eh). rewrite Forall_forall in W.
      pose proof (con_spec alive h1 bb i (W h1 H1) Hi) as X. rewrite Eh in X. destruct X as (X1 & X2 & _).
      exists h1. split; [exact H1|]. split; congruence.
  Qed.
  Lemma kept_root : forall alive lvl bb hs (n : node) h, repr lvl bb hs n -> Forall (wf_qth alive) hs -> kept_in n h ->
    exists h0, In h0 hs /\ q_ent h0 = q_ent h /\ q_act h0 = q_act h.
  Proof.
    intros alive lvl bb hs n h Rp W (path & m & A & Hh).
    destruct (node_at alive path lvl bb hs n m Rp W A) as (l' & b' & hs' & R' & _ & K). apply K.
    destruct (repr_hv _ _ _ _ R') as (_ & P & _). eapply Permutation_in; [exact P|exact Hh].
  Qed.
  Lemma kept_at_root : forall lvl bb hs (n : node) h, repr lvl bb hs n -> In h hs -> exists h', kept_in n h' /\ q_ent h' = q_ent h /\ q_act h' = q_act h.
  Proof.
    intros lvl bb hs n h Rp Hh. destruct (repr_hv _ _ _ _ Rp) as (_ & P & _). exists h. split; [|auto]. exists [], n. split; [reflexivity|].
    eapply Permutation_in; [symmetry; exact P|exact Hh].
  Qed.

  (** *** the checks, read back *)
  Lemma kept_child : forall l b hv (c : q4 node) i (h : qth), kept_in (q4get c i) h -> i < 4 -> kept_in (Node l b hv (Some c)) h.
  Proof.
    intros l b hv c i h (path & m & A & Hh) Hi. exists (i :: path), m. split; [|exact Hh]. cbn [at_path n_children].
    destruct i as [|[|[|[|i]]]]; try lia; exact A.
  Qed.
  Lemma kept_inv : forall l b hv (ch : option (q4 node)) (h : qth), kept_in (Node l b hv ch) h ->
    In h (hv_list hv) \/ exists c i, ch = Some c /\ i < 4 /\ kept_in (q4get c i) h.
  Proof.
    intros l b hv ch h ([|i path] & m & A & Hh); cbn [at_path n_children] in A.
    - injection A as <-. left. exact Hh.
    - right. destruct ch as [c|]; [|discriminate]. exists c, i. split; [reflexivity|].
      destruct i as [|[|[|[|i]]]]; cbn [nth_error] in A;
        try (split; [lia|]; exists path, m; split; [exact A|exact Hh]). destruct i; discriminate.
  Qed.
  Lemma no_deactivated_iff : forall (n : node), no_deactivated n = true <-> (forall h, kept_in n h -> q_act h = true).
  Proof.
    fix IH 1. intros [l b hv ch]. cbn [no_deactivated]. rewrite andb_true_iff, forallb_forall.
    destruct ch as [[c0 c1 c2 c3]|].
    - pose proof (IH c0) as H0. pose proof (IH c1) as H1. pose proof (IH c2) as H2. pose proof (IH c3) as H3. clear IH. rewrite !andb_true_iff, H0, H1, H2, H3. clear. split.
      + intros (A & ((B0 & B1) & B2) & B3) h Hk. apply kept_inv in Hk as [Hk|(c & i & E & Hi & Hk)]; [auto|].
        injection E as <-. destruct i as [|[|[|[|i]]]]; try lia; auto.
      + intros A. split; [|repeat split]; intros h Hk; apply A.
        * exists [], (Node l b hv (Some (Q4 c0 c1 c2 c3))). auto.
        * exact (kept_child l b hv (Q4 c0 c1 c2 c3) 0 h Hk ltac:(lia)).
        * exact (kept_child l b hv (Q4 c0 c1 c2 c3) 1 h Hk ltac:(lia)).
        * exact (kept_child l b hv (Q4 c0 c1 c2 c3) 2 h Hk ltac:(lia)).
        * exact (kept_child l b hv (Q4 c0 c1 c2 c3) 3 h Hk ltac:(lia)).
    - clear IH. split.
      + intros (A & _) h Hk. apply kept_inv in Hk as [Hk|(c & i & E & _)]; [auto|discriminate].
      + intros A. split; [|reflexivity]. intros h Hk. apply A. exists [], (Node l b hv None). auto.
  Qed.
  Lemma same_everywhere_ok : forall e a (n : node), (forall h, kept_in n h -> q_ent h = e -> q_act h = a) -> same_everywhere n e a = true.
  Proof.
    intros e a. fix IH 1. intros [l b hv ch] A. cbn [same_everywhere]. apply andb_true_iff. split.
    - destruct (find _ _) as [h|] eqn:Ef; [|reflexivity]. apply find_some in Ef as (Hh & E). apply ent_eqb_ok in E.
      apply Bool.eqb_true_iff. apply A; [|exact E]. exists [], (Node l b hv ch). auto.
    - destruct ch as [[c0 c1 c2 c3]|]; [|reflexivity].
      assert (K : forall i, i < 4 -> forall h, kept_in (q4get (Q4 c0 c1 c2 c3) i) h -> q_ent h = e -> q_act h = a)
        by (intros i Hi h Hk; apply A; eapply kept_child; eassumption).
      rewrite (IH c0 (K 0 ltac:(lia))), (IH c1 (K 1 ltac:(lia))), (IH c2 (K 2 ltac:(lia))), (IH c3 (K 3 ltac:(lia))). reflexivity.
  Qed.
  Lemma sorted_correctly_ok : forall (l : list qth) b, (forall h, In h l -> q_pres h <> PNone) -> (forall h, In h l -> q_act h = true) -> desc l ->
    (b = true -> forall h, In h l -> q_pres h <> PEntire) -> sorted_correctly l b = Ok true.
  Proof.
    induction l as [|h l IH]; intros b Wf Ac Ds B; [reflexivity|]. cbn [sorted_correctly]. inversion Ds as [|? ? Ds' Fa]; subst.
    destruct (q_pres h) as [|p|] eqn:E.
    - destruct (Wf h (or_introl eq_refl) E).
    - apply IH; auto; try (intros; apply Wf || apply Ac; right; assumption). intros _ k Hk Ek. rewrite Forall_forall in Fa. specialize (Fa k Hk).
      unfold strength in Fa. rewrite E, Ek, (Ac h (or_introl eq_refl)), (Ac k (or_intror Hk)) in Fa. cbn in Fa. lia.
    - destruct b; [destruct (B eq_refl h (or_introl eq_refl) E)|]. apply IH; auto; try (intros; apply Wf || apply Ac; right; assumption). discriminate.
  Qed.
  (** what the check of the order says *)
  Lemma sorted_correctly_true : forall (l : list qth) b, sorted_correctly l b = Ok true ->
    (b = true -> forall h, In h l -> q_pres h <> PEntire) /\ entire_first l.
  Proof.
    induction l as [|h l IH]; intros b H; cbn [sorted_correctly] in H.
    - split; [intros _ h []|]. intros [|x l1] a l2 c E; discriminate.
    - destruct (q_pres h) as [|p|] eqn:E; [discriminate| |]; swap 1 2.
      + destruct b; [discriminate|]. apply IH in H as (_ & H). split; [discriminate|].
        intros [|x l1] a l2 c El Hc Ec; cbn in El; injection El as -> ->; [exact E|]. eapply H; [reflexivity|exact Hc|exact Ec].
      + apply IH in H as (H1 & H). specialize (H1 eq_refl). split.
        * intros _ k [<-|Hk]; [rewrite E; discriminate|apply H1, Hk].
        * intros [|x l1] a l2 c El Hc Ec; cbn in El; injection El as -> ->; [destruct (H1 c Hc Ec)|]. eapply H; [reflexivity|exact Hc|exact Ec].
  Qed.

  (** *** on the engines that histories reach *)
  Lemma act_iff : forall bb st lvl n (ops : list op) c sn h, valid st ops -> engine bb st lvl n ops = Ok (c, sn) -> kept_in (cd_qt c) h ->
    (q_act h = true <-> In (q_ent h) (map f_ent (facts st ops))).
  Proof.
    intros bb st lvl n ops c sn h V E Hk. destruct (engine_inv BSok _ _ _ _ _ _ _ V E) as (I & P & _).
    destruct (kept_root _ _ _ _ _ h (inv_repr _ _ _ I) (inv_wf_qts _ _ _ I) Hk) as (h0 & H0 & E1 & E2). rewrite <- E1, <- E2. clear h Hk E1 E2.
    assert (Pe : Permutation (map (@h_ent F D) (cd_static c ++ cd_dyn c)) (map f_ent (facts st ops))).
    { apply (Permutation_map o_ent) in P. unfold registered in P. rewrite map_map in P. exact P. }
    pose proof (inv_nodup _ _ _ I) as ND. unfold stored in ND. rewrite app_assoc, map_app in ND.
    unfold qts in H0. apply in_app_or in H0 as [H0|H0]; apply in_map_iff in H0 as (z & <- & Hz).
    - cbn. split; [|reflexivity]. intros _. eapply Permutation_in; [exact Pe|]. apply in_map, Hz.
    - cbn. split; [discriminate|]. intros Hi. exfalso. apply (Permutation_in _ (Permutation_sym Pe)) in Hi.
      eapply NoDup_app_dis in ND; [apply ND, in_map, Hz|exact Hi].
  Qed.
  Lemma activation_ok : forall bb st lvl n (ops : list op) c sn, valid st ops -> engine bb st lvl n ops = Ok (c, sn) ->
    activation_consistent (cd_qt c) = true.
  Proof.
    intros bb st lvl n ops c sn V E. unfold activation_consistent. apply forallb_forall. intros h Hh. apply same_everywhere_ok. intros k Hk Ek.
    assert (Kh : kept_in (cd_qt c) h) by (exists [], (cd_qt c); auto).
    pose proof (act_iff _ _ _ _ _ _ _ _ V E Hk) as A. pose proof (act_iff _ _ _ _ _ _ _ _ V E Kh) as B. rewrite Ek in A.
    destruct (q_act k), (q_act h); try reflexivity; exfalso.
    - assert (X : false = true) by (apply B, A; reflexivity). discriminate.
    - assert (X : false = true) by (apply A, B; reflexivity). discriminate.
  Qed.
  Lemma order_ok : forall bb st lvl n (ops : list op) c sn path m, valid st ops -> engine bb st lvl n ops = Ok (c, sn) -> at_path (cd_qt c) path = Some m ->
    exists l, active_hazards (n_haz m) = Ok l /\ sorted_correctly l false = Ok true /\ entire_first l /\
      (forall h, In h l <-> In h (hv_list (n_haz m)) /\ q_act h = true).
  Proof.
    intros bb st lvl n ops c sn path m V E A. destruct (engine_inv BSok _ _ _ _ _ _ _ V E) as (I & _).
    destruct (node_at _ path _ _ _ _ m (inv_repr _ _ _ I) (inv_wf_qts _ _ _ I) A) as (l' & b' & hs' & R' & W' & _).
    pose proof (repr_hv _ _ _ _ R') as Rv. destruct (active_hazards_rep _ _ Rv) as (l & El & Pl & Dl). exists l. split; [exact El|].
    assert (Sc : sorted_correctly l false = Ok true).
    { apply sorted_correctly_ok; [| |exact Dl|discriminate].
      - intros h Hh En. apply (Permutation_in _ Pl) in Hh. apply filter_In in Hh as (Hh & _). rewrite Forall_forall in W'. specialize (W' h Hh).
        unfold wf_qth in W'. rewrite En in W'. exact W'.
      - intros h Hh. apply (Permutation_in _ Pl) in Hh. apply filter_In in Hh as (_ & Hh). exact Hh. }
    split; [exact Sc|]. split; [apply (sorted_correctly_true l false Sc)|]. destruct Rv as (_ & P & _). intros h. split.
    - intros Hh. apply (Permutation_in _ Pl) in Hh. apply filter_In in Hh as (Hh & Ha). split; [eapply Permutation_in; [symmetry; exact P|exact Hh]|exact Ha].
    - intros (Hh & Ha). eapply Permutation_in; [symmetry; exact Pl|]. apply filter_In. split; [eapply Permutation_in; [exact P|exact Hh]|exact Ha].
  Qed.

  (** *** removals put off *)
  Lemma removed_ents : forall (l : list hazard) i u l' e, NoDup (map (@h_ent F D) l) -> position (ent_is e) l = Some i -> swap_remove i l = Some (u, l') ->
    h_ent u = e /\ forall x, In x (map (@h_ent F D) l') <-> In x (map (@h_ent F D) l) /\ x <> e.
  Proof.
    intros l i u l' e ND Ep Es. apply position_some in Ep as (l1 & x & l2 & -> & <- & Ex & _). unfold ent_is in Ex. apply ent_eqb_ok in Ex.
    assert (x = u) as ->. { rewrite swap_remove_spec in Es. congruence. }
    apply swap_remove_perm in Es. split; [exact Ex|]. intros y. rewrite map_app in ND. cbn [map] in ND.
    pose proof (NoDup_remove_2 _ _ _ ND) as Nx. rewrite <- map_app in Nx. rewrite Ex in Nx.
    assert (Q : In y (map (@h_ent F D) l') <-> In y (map (@h_ent F D) (l1 ++ l2))).
    { split; apply Permutation_in; [apply Permutation_map; exact Es|apply Permutation_map; symmetry; exact Es]. }
    rewrite Q. clear Q. split.
    - intros H. split; [|intros ->; contradiction]. rewrite map_app in *. cbn [map]. apply in_app_or in H. apply in_or_app. cbn. tauto.
    - intros (H & Hn). rewrite map_app in *. cbn [map] in H. apply in_or_app. apply in_app_or in H. cbn in H. rewrite Ex in H. intuition congruence.
  Qed.
  Definition same_ents (l : list hazard) (P : list entity) : Prop := forall e, In e (map (@h_ent F D) l) <-> In e P.
  Lemma unc_step : forall lvl bb (c : cde) sn o c' sn' P, inv lvl bb c -> step (c, sn) o = Ok (c', sn') -> same_ents (cd_unc c) P -> same_ents (cd_unc c') (pstep P o).
  Proof.
    intros lvl bb c sn o c' sn' P I E S. pose proof (inv_nodup _ _ _ I) as ND. unfold stored in ND. rewrite app_assoc, map_app in ND.
    pose proof (NoDup_app_r _ _ ND) as NDu. apply NoDup_app_l in ND. rewrite map_app in ND. apply NoDup_app_r in ND.
    destruct o as [h|e b| | | |k]; cbn [step pstep] in *.
    - apply rbind_ok in E as (c1 & E & X). injection X as <- <-. unfold cde_register in E. apply rbind_ok in E as ([[qt unc] h'] & E & X).
      apply rbind_ok in X as (g & _ & X). injection X as <-. cbn [cd_unc]. intros y. rewrite filter_In, negb_true_iff, ent_eqb_false, <- (S y).
      destruct (position (ent_is (h_ent h)) (cd_unc c)) as [i|] eqn:Ep.
      + apply rbind_ok in E as ([u unc'] & Es & E). injection E as <- <- <-.
        destruct (swap_remove i (cd_unc c)) as [[u' l']|] eqn:Er; [|discriminate]. injection Es as -> ->.
        apply (removed_ents _ _ _ _ _ NDu Ep Er).
      + apply rbind_ok in E as (qt' & _ & E). injection E as <- <- <-. split; [|tauto]. intros Hy. split; [exact Hy|]. intros ->.
        rewrite position_none in Ep. apply in_map_iff in Hy as (z & Ez & Hz). specialize (Ep z Hz). unfold ent_is in Ep. rewrite Ez in Ep.
        apply ent_eqb_false in Ep. congruence.
    - apply rbind_ok in E as (c1 & E & X). injection X as <- <-. unfold cde_deregister in E. apply rbind_ok in E as (i & Ei & E).
      apply rbind_ok in E as ([h dyn] & Es & E). destruct (position (ent_is e) (cd_dyn c)) as [j|] eqn:Ep; [|discriminate]. injection Ei as ->.
      destruct (swap_remove i (cd_dyn c)) as [[u l']|] eqn:Er; [|discriminate]. injection Es as -> ->.
      destruct (removed_ents _ _ _ _ _ ND Ep Er) as (Eh & _).
      destruct b; apply rbind_ok in E as (g & _ & E); injection E as <-; cbn [cd_unc].
      + exact S.
      + intros y. rewrite map_app, in_app_iff, (S y). cbn. rewrite Eh. tauto.
    - apply rbind_ok in E as (c1 & E & X). injection X as <- <-. unfold cde_commit in E. apply rbind_ok in E as (g & _ & E). injection E as <-. intros y. tauto.
    - apply rbind_ok in E as (c1 & E & X). injection X as <- <-. unfold cde_flush in E. apply rbind_ok in E as (g & _ & E). injection E as <-. exact S.
    - apply rbind_ok in E as ([s1 c1] & E & X). injection X as <- <-. unfold cde_snapshot in E. apply rbind_ok in E as (c2 & E & X).
      apply rbind_ok in X as (u & _ & X). injection X as <- <-. unfold cde_commit in E. apply rbind_ok in E as (g & _ & E). injection E as <-. intros y. tauto.
    - apply rbind_ok in E as (s & _ & E). apply rbind_ok in E as (c1 & E & X). injection X as <- <-. unfold cde_restore in E.
      destruct (fold_left restore_split (sn_dyn s) _) as [rem add]. apply rbind_ok in E as ([q1 d1] & _ & E). apply rbind_ok in E as ([[q2 d2] a2] & _ & E).
      apply rbind_ok in E as ([q3 d3] & _ & E). apply rbind_ok in E as (g & _ & E). injection E as <-. intros y. tauto.
  Qed.
  Lemma unc_pending : forall bb st lvl n (ops : list op) c sn, valid st ops -> engine bb st lvl n ops = Ok (c, sn) -> same_ents (cd_unc c) (pending ops).
  Proof.
    intros bb st lvl n ops c sn (So & shp & V) E. unfold engine in E. apply rbind_ok in E as (c0 & E0 & E).
    pose proof (new_related BSok lvl bb shp st n c0 So E0) as R0.
    assert (S0 : same_ents (cd_unc c0) []).
    { unfold cde_new in E0. apply rbind_ok in E0 as (g & _ & E0). apply rbind_ok in E0 as (qt & _ & E0). injection E0 as <-. intros y. tauto. }
    unfold pending. clear E0. revert R0 V E S0. generalize (@nil (snapshot F D)) as s0. generalize (@nil (fact F D), @nil (list (fact F D))) as a0. generalize (@nil entity) as P0.
    revert c0. induction ops as [|o ops IH]; intros c0 P0 a0 s0 R0 V E S0; cbn [rfold fold_left ops_ok] in *.
    - injection E as -> ->. exact S0.
    - apply rbind_ok in E as ([c1 s1] & E1 & E). destruct V as (V1 & V2).
      eapply (IH c1 (pstep P0 o) (astep a0 o) s1); [|exact V2|exact E|].
      + eapply step_related; eassumption.
      + eapply unc_step; [apply R0|exact E1|exact S0].
  Qed.
  (** which hazards are kept although they are not registered *)
  Lemma deactivated_iff : forall bb st lvl n (ops : list op) c sn, valid st ops -> engine bb st lvl n ops = Ok (c, sn) ->
    (forall e, In e (pending ops) <-> exists h, kept_in (cd_qt c) h /\ q_ent h = e /\ q_act h = false) /\
    (no_deactivated (cd_qt c) = true <-> pending ops = []).
  Proof.
    intros bb st lvl n ops c sn V E. pose proof (unc_pending _ _ _ _ _ _ _ V E) as S. destruct (engine_inv BSok _ _ _ _ _ _ _ V E) as (I & _).
    assert (A : forall e, In e (pending ops) <-> exists h, kept_in (cd_qt c) h /\ q_ent h = e /\ q_act h = false).
    { intros e. rewrite <- (S e). split.
      - intros Hu. apply in_map_iff in Hu as (u & <- & Hu).
        destruct (kept_at_root _ _ _ _ (inactive (qth_of_hazard u)) (inv_repr _ _ _ I)) as (h & K & E1 & E2).
        { unfold qts. apply in_or_app. right. apply (in_map (fun h => inactive (qth_of_hazard h))). exact Hu. }
        exists h. split; [exact K|]. rewrite E1, E2. split; reflexivity.
      - intros (h & K & <- & Ha). destruct (kept_root _ _ _ _ _ h (inv_repr _ _ _ I) (inv_wf_qts _ _ _ I) K) as (h0 & H0 & E1 & E2).
        unfold qts in H0. apply in_app_or in H0 as [H0|H0]; apply in_map_iff in H0 as (z & <- & Hz); cbn in E1, E2; [congruence|].
        rewrite <- E1. apply in_map. exact Hz. }
    split; [exact A|]. rewrite no_deactivated_iff. split.
    - intros K. destruct (pending ops) as [|e P]; [reflexivity|]. destruct (proj1 (A e) (or_introl eq_refl)) as (h & Kh & _ & Ha). rewrite (K h Kh) in Ha. discriminate.
    - intros Ep h Kh. destruct (q_act h) eqn:Ha; [reflexivity|]. assert (X : In (q_ent h) (pending ops)) by (apply A; eauto). rewrite Ep in X. destruct X.
  Qed.
End SCP.
