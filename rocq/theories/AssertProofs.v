(** On the states that valid histories reach, every check of the quadtree and the engine
    passes: the debug variants equal the release variants.  Holds for every [Num F]. *)
From Coq Require Import List Bool Arith ZArith Lia Permutation Sorted.
From Verif Require Import Base Num GeoModel HazardModel QTModel TransfModel HpgModel CdeModel CdeSpec AssertModel AssertSpec
  BaseProofs HazVecProofs QTProofs CdeProofs CdeOpsProofs CdeHistProofs AssertRefProofs.
Import ListNotations.

Section AP.
  Context {F : Type} {N : Num F} {D : Type} {ED : EqD D} {BS : BSearch}.
  Hypothesis BSok : bsearch_ok BS.
  Local Notation rect := (rect F).
  Local Notation hazard := (hazard F D).
  Local Notation entity := (entity D).
  Local Notation node := (node F D).
  Local Notation qth := (qth F D).
  Local Notation hvec := (hvec F D).
  Local Notation cde := (cde F D).
  Local Notation snapshot := (snapshot F D).

  (** *** the hazard vectors *)
  Lemma filter_none : forall {A} (f : A -> bool) l, (forall x, In x l -> f x = false) -> filter f l = [].
  Proof.
    intros A f l H. induction l as [|x l IH]; [reflexivity|]. cbn [filter]. rewrite (H x) by (left; reflexivity).
    apply IH. intros y Hy. apply H. right; exact Hy.
  Qed.
  Lemma rep_nodup : forall (v : hvec) hs, hv_rep v hs -> NoDup (map q_ent hs) -> NoDup (map q_ent (hv_list v)).
  Proof.
    intros v hs (_ & P & _) ND. eapply Permutation_NoDup; [|exact ND]. apply Permutation_map. symmetry. exact P.
  Qed.
  Lemma hv_add_d_ok : forall (v : hvec) (h : qth), ~ In (q_ent h) (map q_ent (hv_list v)) -> hv_add_d v h = Ok (hv_add v h).
  Proof.
    intros v h H. unfold hv_add_d. rewrite filter_none; [reflexivity|]. intros x Hx.
    destruct (ent_eqb (q_ent x) (q_ent h)) eqn:E; [|reflexivity]. apply ent_eqb_ok in E.
    destruct H. rewrite <- E. apply in_map; exact Hx.
  Qed.
  Lemma once : forall (l : list qth) e f, NoDup (map q_ent l) -> length (filter (fun o => ent_eqb (q_ent o) e && f o) l) <= 1.
  Proof.
    intros l e f. induction l as [|x l IH]; intros ND; cbn [filter length]; [lia|].
    cbn [map] in ND. inversion ND as [|? ? Nx ND']; subst. destruct (ent_eqb (q_ent x) e) eqn:E; cbn [andb].
    - apply ent_eqb_ok in E. subst e. rewrite filter_none; [destruct (f x); cbn [length]; lia|]. intros y Hy.
      destruct (ent_eqb (q_ent y) (q_ent x)) eqn:E; [|reflexivity]. apply ent_eqb_ok in E. destruct Nx. rewrite <- E.
      apply in_map; exact Hy.
    - apply IH; assumption.
  Qed.
  Lemma hv_remove_d_ok : forall (v : hvec) e, NoDup (map q_ent (hv_list v)) -> hv_remove_d v e = Ok (hv_remove v e).
  Proof.
    intros v e ND. unfold hv_remove_d.
    pose proof (once (hv_list v) e (fun o => ent_dynamic (q_ent o)) ND) as H. apply Nat.leb_le in H. rewrite H. reflexivity.
  Qed.
  Lemma desc_windows : forall l : list qth, desc l -> windows2 (fun a b => not_gt (order_desc a b)) l = true.
  Proof.
    intros l H. induction H as [|a l H IH Fa]; [reflexivity|]. destruct l as [|b l]; [reflexivity|].
    change (not_gt (order_desc a b) && windows2 (fun a b => not_gt (order_desc a b)) (b :: l) = true). rewrite IH, andb_true_r.
    inversion Fa as [|? ? Hb _]; subst. rewrite order_desc_strength. unfold not_gt.
    destruct (Nat.compare_spec (strength b) (strength a)); try reflexivity. lia.
  Qed.
  Lemma strongest_d_ok : forall (v : hvec) hs irr, hv_rep v hs -> strongest_d v irr = strongest v irr.
  Proof.
    intros v hs irr (A & B & C). unfold strongest_d. rewrite (desc_windows _ A), C.
    change (length (filter (fun h : qth => q_act h) (hv_list v))) with (n_act (hv_list v)).
    rewrite (n_act_perm _ _ B), Z.eqb_refl. reflexivity.
  Qed.
  Lemma hv_activate_d_ok : forall (v : hvec) hs e, hv_rep v hs -> NoDup (map q_ent hs) ->
    (forall h, In h hs -> q_ent h = e -> q_act h = false) -> hv_activate_d v e = Ok (hv_activate v e).
  Proof.
    intros v hs e V ND H. pose proof (rep_nodup v hs V ND) as ND'. unfold hv_activate_d, hv_activate.
    destruct (hv_find_cases v e) as [(-> & _)|(l1 & h & l2 & E & He & -> & ->)]; [reflexivity|].
    rewrite (H h); [|destruct V as (_ & P & _); eapply Permutation_in; [exact P|rewrite E; apply in_elt]|exact He].
    cbn [negb rassert rbind]. rewrite hv_add_d_ok; [reflexivity|]. cbn [q_ent hv_list].
    rewrite E in ND'. rewrite map_app in ND'. cbn [map] in ND'. apply NoDup_remove_2 in ND'. rewrite map_app. exact ND'.
  Qed.
  Lemma hv_deactivate_d_ok : forall (v : hvec) hs e, hv_rep v hs -> NoDup (map q_ent hs) ->
    (forall h, In h hs -> q_ent h = e -> q_act h = true) -> hv_deactivate_d v e = Ok (hv_deactivate v e).
  Proof.
    intros v hs e V ND H. pose proof (rep_nodup v hs V ND) as ND'. unfold hv_deactivate_d, hv_deactivate.
    destruct (hv_find_cases v e) as [(-> & _)|(l1 & h & l2 & E & He & -> & ->)]; [reflexivity|].
    rewrite (H h); [|destruct V as (_ & P & _); eapply Permutation_in; [exact P|rewrite E; apply in_elt]|exact He].
    cbn [negb rassert rbind]. rewrite hv_add_d_ok; [reflexivity|]. cbn [q_ent hv_list].
    rewrite E in ND'. rewrite map_app in ND'. cbn [map] in ND'. apply NoDup_remove_2 in ND'. rewrite map_app. exact ND'.
  Qed.

  (** *** the tree *)
  Definition reg_d_spec (alive : nat -> bool) (l : nat) (recd rec : node -> qth -> res node) : Prop :=
    forall bb hs n h, divides l bb -> repr l bb hs n -> Forall (wf_qth alive) hs -> wf_qth alive h ->
      NoDup (map q_ent (h :: hs)) -> recd n h = rec n h.

  Lemma to_children_d_ok : forall alive l recd rec bb hs c h,
    reg_d_spec alive l recd rec -> divides (S l) bb -> children_repr l bb hs c ->
    Forall (wf_qth alive) hs -> wf_qth alive h -> NoDup (map q_ent (h :: hs)) ->
    register_to_children_d alive recd (Some c) h = register_to_children alive rec (Some c) h.
  Proof.
    intros alive l recd rec bb hs c h Hr (_ & Hv & Hd) C W Wh ND. unfold register_to_children_d, register_to_children, constrict_d.
    rewrite (children_bboxes _ _ _ _ C), Hv. cbn [rassert rbind].
    rewrite (constrict_con alive h bb Wh). cbn [rbind].
    assert (G : forall i, i < 4 -> reg_opt recd (q4get c i) (con bb i h) = reg_opt rec (q4get c i) (con bb i h)).
    { intros i Hi. pose proof (con_spec alive h bb i Wh Hi) as K. destruct (con bb i h) as [h'|] eqn:Ec; [|reflexivity].
      destruct K as (K1 & _ & K3). cbn [reg_opt].
      apply Hr with (q4get (quadrants bb) i) (omap (con bb i) hs).
      - apply Hd; exact Hi.
      - apply C; exact Hi.
      - apply omap_con_wf; assumption.
      - exact K3.
      - pose proof (omap_con_ents alive bb i (h :: hs) Hi (Forall_cons _ Wh W) ND) as X.
        cbn [omap] in X. rewrite Ec in X. exact X. }
    pose proof (G 0 ltac:(lia)) as G0. pose proof (G 1 ltac:(lia)) as G1.
    pose proof (G 2 ltac:(lia)) as G2. pose proof (G 3 ltac:(lia)) as G3.
    cbn [q4get qa qb qc qd] in G0, G1, G2, G3 |- *. rewrite G0, G1, G2, G3. reflexivity.
  Qed.
  Lemma register_all_d_ok : forall alive l recd rec bb l0, reg_d_spec alive l recd rec -> reg_spec alive l rec -> divides (S l) bb ->
    Forall (wf_qth alive) l0 -> forall hs c, children_repr l bb hs c -> Forall (wf_qth alive) hs -> NoDup (map q_ent (l0 ++ hs)) ->
    rfold (register_to_children_d alive recd) l0 (Some c) = rfold (register_to_children alive rec) l0 (Some c).
  Proof.
    intros alive l recd rec bb l0 Hr Hs Hd W. induction W as [|h l0 Wh W IH]; intros hs c C Whs ND; cbn [rfold]; [reflexivity|].
    assert (NDh : NoDup (map q_ent (h :: hs))).
    { cbn [app map] in ND. inversion ND as [|? ? Nh ND']; subst. rewrite map_app in *. cbn [map]. constructor.
      - intros X. apply Nh. apply in_or_app. right; exact X.
      - apply NoDup_app_r in ND'. exact ND'. }
    rewrite (to_children_d_ok alive l recd rec bb hs c h Hr Hd C Whs Wh NDh).
    destruct (register_to_children_ok alive l rec bb hs c h Hs C Whs Wh) as (c' & E & C').
    rewrite E. cbn [rbind]. apply (IH (h :: hs) c' C'); [constructor; assumption|].
    eapply Permutation_NoDup; [|exact ND]. apply Permutation_map. cbn [app]. apply Permutation_middle.
  Qed.
  Lemma node_register_d_ok : forall alive lvl, reg_d_spec alive lvl (node_register_d alive lvl) (node_register alive lvl).
  Proof.
    intros alive. induction lvl as [|l IH]; intros bb hs n h Hd R W Wh ND;
      destruct n as [lv b hv ch]; cbn [repr n_level n_bbox n_haz n_children] in R; destruct R as (-> & -> & V & C);
      assert (Na : hv_add_d hv h = Ok (hv_add hv h))
        by (apply hv_add_d_ok; cbn [map] in ND; inversion ND as [|? ? Nh _]; subst; intros X; apply Nh;
            destruct V as (_ & P & _); eapply Permutation_in; [apply Permutation_map, P|exact X]).
    - subst ch. cbn. rewrite Na. reflexivity.
    - cbn [node_register_d node_register]. destruct (existsb is_partial hs) eqn:Ep.
      + destruct C as (c & -> & C). cbn [is_some negb andb rbind].
        rewrite (to_children_d_ok alive l _ (node_register alive l) bb hs c h IH Hd C W Wh ND).
        destruct (register_to_children alive (node_register alive l) (Some c) h); [|reflexivity]. cbn [rbind]. rewrite Na. reflexivity.
      + subst ch. cbn [is_some negb andb]. change (0 <? S l) with true. cbn [andb].
        destruct (is_partial h) eqn:Eh.
        * assert (Eg : generate_children_d (S l) bb = Ok (generate_children (F := F) (D := D) (S l) bb)).
          { cbn [generate_children_d]. unfold quadrants_d. destruct Hd as (Hq & _). rewrite Hq. reflexivity. }
          rewrite Eg. cbn [rbind].
          destruct (generate_children_repr (F := F) (D := D) l bb) as (c0 & Ec0 & C0). rewrite Ec0.
          pose proof (hv_rep_wf _ _ _ V W) as Wv.
          assert (NDv : NoDup (map q_ent (hv_list hv ++ []))).
          { rewrite app_nil_r. eapply rep_nodup; [exact V|]. cbn [map] in ND. inversion ND; assumption. }
          rewrite (register_all_d_ok alive l _ (node_register alive l) bb (hv_list hv) IH (node_register_ok BSok alive l) Hd Wv [] c0 C0
            (Forall_nil _) NDv).
          destruct (register_all_ok alive l _ bb (hv_list hv) (node_register_ok BSok alive l) Wv [] c0 C0) as (c1 & E1 & C1);
            [constructor|]. rewrite E1. cbn [rbind].
          assert (C2 : children_repr l bb hs c1).
          { eapply children_repr_perm; [exact C1|]. rewrite app_nil_r. rewrite <- Permutation_rev. apply V. }
          rewrite (to_children_d_ok alive l _ (node_register alive l) bb hs c1 h IH Hd C2 W Wh ND).
          destruct (register_to_children alive (node_register alive l) (Some c1) h); [|reflexivity]. cbn [rbind]. rewrite Na. reflexivity.
        * cbn [rbind register_to_children_d register_to_children]. rewrite Na. reflexivity.
  Qed.

  Lemma node_deregister_d_ok : forall alive lvl bb hs n e,
    repr lvl bb hs n -> Forall (wf_qth alive) hs -> NoDup (map q_ent hs) -> node_deregister_d n e = Ok (node_deregister n e).
  Proof.
    intros alive. induction lvl as [|l IH]; intros bb hs n e R W ND;
      destruct n as [lv b hv ch]; cbn [repr n_level n_bbox n_haz n_children] in R; destruct R as (-> & -> & V & C);
      cbn [node_deregister_d node_deregister]; rewrite (hv_remove_d_ok hv e (rep_nodup hv hs V ND)); cbn [rbind];
      destruct (hv_remove hv e) as [rm hv'].
    - subst ch. destruct rm; reflexivity.
    - destruct (existsb is_partial hs).
      + destruct C as ([c0 c1 c2 c3] & -> & C). destruct rm as [h|]; [|reflexivity].
        destruct (hv_is_empty hv' || has_only_entire hv'); [reflexivity|].
        assert (K : forall i, i < 4 -> node_deregister_d (q4get (Q4 c0 c1 c2 c3) i) e = Ok (node_deregister (q4get (Q4 c0 c1 c2 c3) i) e)).
        { intros i Hi. eapply IH; [apply C; exact Hi|apply omap_con_wf; assumption|eapply omap_con_ents; eassumption]. }
        pose proof (K 0 ltac:(lia)) as K0. pose proof (K 1 ltac:(lia)) as K1.
        pose proof (K 2 ltac:(lia)) as K2. pose proof (K 3 ltac:(lia)) as K3.
        cbn [q4get qa qb qc qd] in K0, K1, K2, K3. rewrite K0. cbn [rbind]. rewrite K1. cbn [rbind]. rewrite K2. cbn [rbind]. rewrite K3. reflexivity.
      + subst ch. destruct rm; reflexivity.
  Qed.
  Lemma child_act : forall alive bb i (e : entity) (b : bool) hs, i < 4 -> Forall (wf_qth alive) hs ->
    (forall h, In h hs -> q_ent h = e -> q_act h = b) -> forall h, In h (omap (con bb i) hs) -> q_ent h = e -> q_act h = b.
  Proof.
    intros alive bb i e b hs Hi W Hact h Hh Eh. apply in_omap in Hh as (h0 & Hh0 & Ec). rewrite Forall_forall in W.
    pose proof (con_spec alive h0 bb i (W h0 Hh0) Hi) as K. rewrite Ec in K. destruct K as (K1 & K2 & _). rewrite K2.
    apply Hact; congruence.
  Qed.
  Lemma node_activate_d_ok : forall alive lvl bb hs n e,
    repr lvl bb hs n -> Forall (wf_qth alive) hs -> NoDup (map q_ent hs) ->
    (forall h, In h hs -> q_ent h = e -> q_act h = false) -> node_activate_d n e = Ok (node_activate n e).
  Proof.
    intros alive. induction lvl as [|l IH]; intros bb hs n e R W ND Hact;
      destruct n as [lv b hv ch]; cbn [repr n_level n_bbox n_haz n_children] in R; destruct R as (-> & -> & V & C);
      cbn [node_activate_d node_activate]; rewrite (hv_activate_d_ok hv hs e V ND Hact); cbn [rbind];
      destruct (hv_activate hv e) as [m hv'].
    - subst ch. destruct m; reflexivity.
    - destruct (existsb is_partial hs).
      + destruct C as ([c0 c1 c2 c3] & -> & C). destruct m; [|reflexivity].
        assert (K : forall i, i < 4 -> node_activate_d (q4get (Q4 c0 c1 c2 c3) i) e = Ok (node_activate (q4get (Q4 c0 c1 c2 c3) i) e)).
        { intros i Hi. eapply IH; [apply C; exact Hi|apply omap_con_wf; assumption|eapply omap_con_ents; eassumption|].
          eapply child_act; eassumption. }
        pose proof (K 0 ltac:(lia)) as K0. pose proof (K 1 ltac:(lia)) as K1.
        pose proof (K 2 ltac:(lia)) as K2. pose proof (K 3 ltac:(lia)) as K3.
        cbn [q4get qa qb qc qd] in K0, K1, K2, K3. rewrite K0. cbn [rbind]. rewrite K1. cbn [rbind]. rewrite K2. cbn [rbind]. rewrite K3. reflexivity.
      + subst ch. destruct m; reflexivity.
  Qed.
  Lemma node_deactivate_d_ok : forall alive lvl bb hs n e,
    repr lvl bb hs n -> Forall (wf_qth alive) hs -> NoDup (map q_ent hs) ->
    (forall h, In h hs -> q_ent h = e -> q_act h = true) -> node_deactivate_d n e = Ok (node_deactivate n e).
  Proof.
    intros alive. induction lvl as [|l IH]; intros bb hs n e R W ND Hact;
      destruct n as [lv b hv ch]; cbn [repr n_level n_bbox n_haz n_children] in R; destruct R as (-> & -> & V & C);
      cbn [node_deactivate_d node_deactivate]; rewrite (hv_deactivate_d_ok hv hs e V ND Hact); cbn [rbind];
      destruct (hv_deactivate hv e) as [m hv'].
    - subst ch. destruct m; reflexivity.
    - destruct (existsb is_partial hs).
      + destruct C as ([c0 c1 c2 c3] & -> & C). destruct m; [|reflexivity].
        assert (K : forall i, i < 4 -> node_deactivate_d (q4get (Q4 c0 c1 c2 c3) i) e = Ok (node_deactivate (q4get (Q4 c0 c1 c2 c3) i) e)).
        { intros i Hi. eapply IH; [apply C; exact Hi|apply omap_con_wf; assumption|eapply omap_con_ents; eassumption|].
          eapply child_act; eassumption. }
        pose proof (K 0 ltac:(lia)) as K0. pose proof (K 1 ltac:(lia)) as K1.
        pose proof (K 2 ltac:(lia)) as K2. pose proof (K 3 ltac:(lia)) as K3.
        cbn [q4get qa qb qc qd] in K0, K1, K2, K3. rewrite K0. cbn [rbind]. rewrite K1. cbn [rbind]. rewrite K2. cbn [rbind]. rewrite K3. reflexivity.
      + subst ch. destruct m; reflexivity.
  Qed.

  (** no hazard dangles *)
  Lemma no_dangling_node : forall alive lvl bb hs (n : node) parent, repr lvl bb hs n -> Forall (wf_qth alive) hs ->
    (forall h, In h hs -> In (q_ent h) parent) -> node_no_dangling n parent = true.
  Proof.
    intros alive. induction lvl as [|l IH]; intros bb hs n parent R W Hp;
      destruct n as [lv b hv ch]; cbn [repr n_level n_bbox n_haz n_children] in R; destruct R as (-> & -> & V & C);
      cbn [node_no_dangling];
      (assert (Hes : forallb (fun e => memb ent_eqb e parent) (map (fun h : qth => q_ent h) (hv_list hv)) = true)
        by (apply forallb_forall; intros e He; apply in_map_iff in He as (h & <- & Hh); apply memb_ent, Hp;
            destruct V as (_ & P & _); eapply Permutation_in; [exact P|exact Hh])); rewrite Hes; cbn [andb].
    - subst ch. reflexivity.
    - destruct (existsb is_partial hs).
      + destruct C as ([c0 c1 c2 c3] & -> & C).
        assert (K : forall i, i < 4 -> node_no_dangling (q4get (Q4 c0 c1 c2 c3) i) (map (fun h : qth => q_ent h) (hv_list hv)) = true).
        { intros i Hi. eapply IH; [apply C; exact Hi|apply omap_con_wf; assumption|]. intros h Hh.
          apply in_omap in Hh as (h0 & Hh0 & Ec). rewrite Forall_forall in W.
          pose proof (con_spec alive h0 bb i (W h0 Hh0) Hi) as X. rewrite Ec in X. destruct X as (X & _). rewrite X.
          apply in_map. destruct V as (_ & P & _). eapply Permutation_in; [symmetry; exact P|exact Hh0]. }
        pose proof (K 0 ltac:(lia)) as K0. pose proof (K 1 ltac:(lia)) as K1.
        pose proof (K 2 ltac:(lia)) as K2. pose proof (K 3 ltac:(lia)) as K3.
        cbn [q4get qa qb qc qd] in K0, K1, K2, K3. rewrite K0, K1, K2, K3. reflexivity.
      + subst ch. reflexivity.
  Qed.
  Lemma no_dangling_ok : forall alive lvl bb hs (n : node), repr lvl bb hs n -> Forall (wf_qth alive) hs -> no_dangling n = true.
  Proof.
    intros alive lvl bb hs n R W.
    assert (K : node_no_dangling n (node_ents n) = true).
    { eapply no_dangling_node; [exact R|exact W|]. intros h Hh. apply in_map.
      pose proof (repr_hv _ _ _ _ R) as (_ & P & _). eapply Permutation_in; [symmetry; exact P|exact Hh]. }
    destruct n as [lv b hv [[c0 c1 c2 c3]|]]; [|reflexivity]. cbn [node_no_dangling] in K.
    apply andb_true_iff in K as (_ & K). unfold no_dangling, node_ents. cbn [n_children n_haz q4list forallb qa qb qc qd].
    rewrite !andb_true_iff in K. destruct K as (((A & B) & C) & E). rewrite A, B, C, E. reflexivity.
  Qed.

  (** *** queries *)
  Lemma node_collides_d_ok : forall alive q irr lvl bb hs n, repr lvl bb hs n -> node_collides_d alive n q irr = node_collides alive n q irr.
  Proof.
    intros alive q irr. induction lvl as [|l IH]; intros bb hs n R;
      destruct n as [lv b hv ch]; cbn [repr n_level n_bbox n_haz n_children] in R; destruct R as (-> & -> & V & C);
      cbn [node_collides_d node_collides]; rewrite (strongest_d_ok hv hs irr V).
    - subst ch. reflexivity.
    - destruct (existsb is_partial hs); [|subst ch; reflexivity]. destruct C as ([c0 c1 c2 c3] & -> & C).
      pose proof (IH _ _ _ (C 0 ltac:(lia))) as K0. pose proof (IH _ _ _ (C 1 ltac:(lia))) as K1.
      pose proof (IH _ _ _ (C 2 ltac:(lia))) as K2. pose proof (IH _ _ _ (C 3 ltac:(lia))) as K3.
      cbn [q4get qa qb qc qd] in K0, K1, K2, K3. rewrite K0, K1, K2, K3. reflexivity.
  Qed.
  Lemma node_definitely_d_ok : forall qr irr lvl bb hs n, repr lvl bb hs n -> node_definitely_d n qr irr = node_definitely n qr irr.
  Proof.
    intros qr irr. induction lvl as [|l IH]; intros bb hs n R;
      destruct n as [lv b hv ch]; cbn [repr n_level n_bbox n_haz n_children] in R; destruct R as (-> & -> & V & C);
      cbn [node_definitely_d node_definitely]; rewrite (strongest_d_ok hv hs irr V).
    - subst ch. reflexivity.
    - destruct (existsb is_partial hs); [|subst ch; reflexivity]. destruct C as ([c0 c1 c2 c3] & -> & C).
      pose proof (IH _ _ _ (C 0 ltac:(lia))) as K0. pose proof (IH _ _ _ (C 1 ltac:(lia))) as K1.
      pose proof (IH _ _ _ (C 2 ltac:(lia))) as K2. pose proof (IH _ _ _ (C 3 ltac:(lia))) as K3.
      cbn [q4get qa qb qc qd] in K0, K1, K2, K3. rewrite K0, K1, K2, K3. reflexivity.
  Qed.
  Lemma bind_ext : forall {A B} (x : res A) (f g : A -> res B), (forall a, f a = g a) -> rbind x f = rbind x g.
  Proof. intros A B [a|] f g H; [apply H|reflexivity]. Qed.
  Lemma rfold_ext : forall {A B} (f g : A -> B -> res A) l a, (forall a b, f a b = g a b) -> rfold f l a = rfold g l a.
  Proof.
    intros A B f g l. induction l as [|x l IH]; intros a H; cbn [rfold]; [reflexivity|]. rewrite H. apply bind_ext. intros; apply IH, H.
  Qed.
  Lemma rany_ext : forall {A} (f g : A -> res bool) l, (forall a, f a = g a) -> rany f l = rany g l.
  Proof.
    intros A f g l H. induction l as [|x l IH]; cbn [rany]; [reflexivity|]. rewrite H. apply bind_ext. intros [|]; [reflexivity|exact IH].
  Qed.
  Lemma node_collect_d_ok : forall alive q lvl bb hs n, repr lvl bb hs n -> forall det, node_collect_d alive n q det = node_collect alive n q det.
  Proof.
    intros alive q. induction lvl as [|l IH]; intros bb hs n R det;
      destruct n as [lv b hv ch]; cbn [repr n_level n_bbox n_haz n_children] in R; destruct R as (-> & -> & V & C);
      cbn [node_collect_d node_collect]; rewrite (strongest_d_ok hv hs det V).
    - subst ch. reflexivity.
    - destruct (existsb is_partial hs); [|subst ch; reflexivity]. destruct C as ([c0 c1 c2 c3] & -> & C).
      pose proof (IH _ _ _ (C 0 ltac:(lia))) as K0. pose proof (IH _ _ _ (C 1 ltac:(lia))) as K1.
      pose proof (IH _ _ _ (C 2 ltac:(lia))) as K2. pose proof (IH _ _ _ (C 3 ltac:(lia))) as K3.
      cbn [q4get qa qb qc qd] in K0, K1, K2, K3. apply bind_ext. intros [s|]; [|reflexivity]. destruct (qy_rect q bb); [|reflexivity].
      destruct (q_pres s); try reflexivity. rewrite K0. apply bind_ext. intros d0. rewrite K1. apply bind_ext. intros d1.
      rewrite K2. apply bind_ext. intros d2. apply K3.
  Qed.

  (** *** the engine *)
  Variable lvl : nat.
  Variable bb : rect.
  Hypothesis Div : divides lvl bb.
  Local Notation R := (@R F N D lvl bb).
  Local Notation inv := (@inv F N D lvl bb).

  Lemma R_register_d : forall al qt st dyn unc (h : hazard), R qt st dyn unc -> wf_hazard h ->
    ~ In (h_ent h) (ents (st ++ dyn ++ unc)) ->
    (forall x, In x (h :: st ++ dyn ++ unc) -> al (a_ptr (h_shape x)) = true) ->
    qt_register_d al qt h = qt_register al qt h.
  Proof.
    intros al qt st dyn unc h HR Wh Nh Hal. unfold qt_register_d, qt_register.
    rewrite (repr_level lvl bb _ _ (r_repr _ _ _ _ _ _ HR)).
    apply node_register_d_ok with bb (qtl st dyn unc).
    - exact Div.
    - apply HR.
    - eapply R_wfq; [exact HR|]. intros x Hx. apply Hal. right; exact Hx.
    - apply wf_qth_hazard; [exact Wh|]. apply Hal. left; reflexivity.
    - cbn [map q_ent qth_of_hazard]. constructor; [rewrite qtl_ents; exact Nh|apply (R_ndq _ _ _ _ _ _ HR)].
  Qed.
  Lemma R_dereg_d : forall qt st dyn unc e, R qt st dyn unc -> node_deregister_d qt e = Ok (node_deregister qt e).
  Proof.
    intros qt st dyn unc e HR. eapply (node_deregister_d_ok (fun _ => true)); [apply HR|eapply R_wfq; [exact HR|reflexivity]|eapply R_ndq; exact HR].
  Qed.
  Lemma R_activate_d : forall qt st dyn u unc, R qt st dyn (u :: unc) -> node_activate_d qt (h_ent u) = Ok (node_activate qt (h_ent u)).
  Proof.
    intros qt st dyn u unc HR. eapply (node_activate_d_ok (fun _ => true)); [apply HR|eapply R_wfq; [exact HR|reflexivity]|eapply R_ndq; exact HR|].
    intros h Hh E. apply (Permutation_in _ (qtl_unc st u dyn unc)) in Hh.
    destruct Hh as [<-|Hh]; [reflexivity|]. exfalso.
    pose proof (Permutation_NoDup (Permutation_map q_ent (qtl_unc st u dyn unc)) (R_ndq _ _ _ _ _ _ HR)) as ND.
    cbn [map] in ND. inversion ND as [|? ? Nq _]; subst. apply Nq. cbn [inactive with_act q_ent qth_of_hazard].
    rewrite <- E. apply in_map; exact Hh.
  Qed.
  Lemma R_deactivate_d : forall qt st dyn h unc, R qt st (h :: dyn) unc -> node_deactivate_d qt (h_ent h) = Ok (node_deactivate qt (h_ent h)).
  Proof.
    intros qt st dyn u unc HR. eapply (node_deactivate_d_ok (fun _ => true)); [apply HR|eapply R_wfq; [exact HR|reflexivity]|eapply R_ndq; exact HR|].
    intros h Hh E. apply (Permutation_in _ (qtl_dyn st u dyn unc)) in Hh.
    destruct Hh as [<-|Hh]; [reflexivity|]. exfalso.
    pose proof (Permutation_NoDup (Permutation_map q_ent (qtl_dyn st u dyn unc)) (R_ndq _ _ _ _ _ _ HR)) as ND.
    cbn [map] in ND. inversion ND as [|? ? Nq _]; subst. apply Nq. cbn [q_ent qth_of_hazard].
    rewrite <- E. apply in_map; exact Hh.
  Qed.
  Lemma R_dangling : forall qt st dyn unc, R qt st dyn unc -> no_dangling qt = true.
  Proof. intros qt st dyn unc HR. eapply (no_dangling_ok (fun _ => true)); [apply HR|eapply R_wfq; [exact HR|reflexivity]]. Qed.

  Lemma cde_new_d_ok : forall statics n_cells, Forall wf_hazard statics -> NoDup (ents statics) ->
    (n_cells <> 0 -> hpg_new_d bb statics n_cells = hpg_new bb statics n_cells) ->
    cde_new_d bb statics lvl n_cells = cde_new bb statics lvl n_cells.
  Proof.
    intros statics n W ND Hg.
    assert (K : forall l, Forall wf_hazard l -> forall st qt, R qt st [] [] ->
              NoDup (ents (st ++ l)) -> incl (st ++ l) statics ->
              rfold (qt_register_d (owned statics)) l qt = rfold (qt_register (owned statics)) l qt).
    { intros l Wl. induction Wl as [|h l Wh Wl IH]; intros st qt HR NDl I; [reflexivity|].
      cbn [rfold].
      assert (Nh : ~ In (h_ent h) (ents (st ++ [] ++ []))).
      { rewrite !app_nil_r. unfold ents in NDl. rewrite map_app in NDl. cbn [map] in NDl.
          apply NoDup_remove_2 in NDl. intros X. apply NDl. apply in_or_app. left; exact X. }
      assert (Hal : forall x, In x (h :: st ++ [] ++ []) -> owned statics (a_ptr (h_shape x)) = true).
      { intros x Hx. apply owned_in. apply I. rewrite !app_nil_r in Hx.
        apply in_or_app. destruct Hx as [<-|Hx]; [right; left; reflexivity|left; exact Hx]. }
      rewrite (R_register_d (owned statics) qt st [] [] h HR Wh Nh Hal).
      destruct (R_register BSok lvl bb (owned statics) qt st [] [] h HR Wh Nh Hal) as (qt1 & E & R1).
      rewrite E. cbn [rbind].
      assert (R2 : R qt1 (st ++ [h]) [] []).
      { destruct R1 as [A B C]. unfold qtl in *. cbn [app] in *. rewrite !app_nil_r in *.
        split; unfold qtl; rewrite ?app_nil_r; assumption. }
      apply (IH (st ++ [h]) qt1 R2); rewrite <- app_assoc; assumption. }
    unfold cde_new_d, cde_new.
    rewrite (K statics W [] (node_new lvl bb)); [|split; [apply repr_new|constructor|constructor]|exact ND|apply incl_refl].
    destruct n as [|n]; [reflexivity|]. rewrite (Hg ltac:(lia)). reflexivity.
  Qed.

  Lemma opt_hpg_ext : forall (f g : hpg F D -> res (hpg F D)) o, (forall x, o = Some x -> f x = g x) -> opt_hpg f o = opt_hpg g o.
  Proof. intros f g [x|] H; [cbn [opt_hpg]; rewrite (H x eq_refl); reflexivity|reflexivity]. Qed.

  Lemma cde_register_d_ok : forall c h, inv c -> wf_hazard h ->
    ~ In (h_ent h) (ents (cd_static c ++ cd_dyn c)) ->
    (forall g h', cd_hpg c = Some g -> In h' (h :: cd_unc c) -> h_ent h' = h_ent h -> hpg_register_d g h' = hpg_register g h') ->
    cde_register_d c h = cde_register c h.
  Proof.
    intros c h I W Nh Hg. destruct (cde_register_ok BSok lvl bb c h I W Nh) as (qt & unc & h' & E & R' & _).
    unfold cde_register_d.
    assert (Nx : existsb (ent_is (h_ent h)) (cd_dyn c) = false).
    { apply existsb_false. intros x Hx. unfold ent_is. apply ent_eqb_false. intros X. apply Nh.
      unfold ents. rewrite map_app. apply in_or_app. right. rewrite <- X. apply in_map; exact Hx. }
    rewrite Nx. cbn [negb rassert rbind]. unfold cde_register in *.
    destruct (position (ent_is (h_ent h)) (cd_unc c)) as [i|] eqn:P.
    - destruct (take_ent _ _ _ P) as (u & unc' & X & Pm & Eu). rewrite X in *. cbn [expect rbind] in *.
      assert (Ru : R (cd_qt c) (cd_static c) (cd_dyn c) (u :: unc')) by (eapply R_perm; [apply inv_R; exact I|reflexivity|exact Pm]).
      rewrite (R_activate_d _ _ _ _ _ Ru). cbn [rbind].
      rewrite (opt_hpg_ext _ (fun g => hpg_register g u)).
      2:{ intros g Eg. apply Hg; [exact Eg| |exact Eu]. right. eapply Permutation_in; [symmetry; exact Pm|left; reflexivity]. }
      apply bind_ext. intros g. rewrite (R_dangling (node_activate (cd_qt c) (h_ent u)) (cd_static c) (u :: cd_dyn c) unc'); [reflexivity|].
      apply R_activate; assumption.
    - apply pos_none in P.
      assert (Nu : ~ In (h_ent h) (ents (cd_static c ++ cd_dyn c ++ cd_unc c))).
      { unfold ents in *. rewrite app_assoc, map_app. intros X. apply in_app_or in X as [X|X]; auto. }
      assert (Hal : forall x, In x (h :: cd_static c ++ cd_dyn c ++ cd_unc c) -> owned (h :: cd_static c ++ cd_dyn c ++ cd_unc c) (a_ptr (h_shape x)) = true)
        by (intros x Hx; apply owned_in; exact Hx).
      rewrite (R_register_d _ _ _ _ _ h (inv_R _ _ c I) W Nu Hal).
      destruct (R_register BSok lvl bb _ _ _ _ _ h (inv_R _ _ c I) W Nu Hal) as (qt1 & E1 & HR1). rewrite E1 in *. cbn [rbind] in *.
      rewrite (opt_hpg_ext _ (fun g => hpg_register g h)).
      2:{ intros g Eg. apply Hg; [exact Eg|left; reflexivity|reflexivity]. }
      apply bind_ext. intros g. rewrite (R_dangling _ _ _ _ HR1). reflexivity.
  Qed.
  Lemma cde_deregister_d_ok : forall c e (ci : bool), inv c -> In e (ents (cd_dyn c)) ->
    (forall g dyn, cd_hpg c = Some g -> incl dyn (cd_dyn c) -> hpg_deregister_d g e dyn ci = hpg_deregister g e dyn ci) ->
    cde_deregister_d c e ci = cde_deregister c e ci.
  Proof.
    intros c e ci I He Hg. unfold cde_deregister_d, cde_deregister.
    destruct (pos_ent _ _ He) as (i & P). rewrite P. cbn [expect rbind].
    destruct (take_ent _ _ _ P) as (h & dyn & -> & Pm & Eh). cbn [expect rbind]. subst e.
    assert (R0 : R (cd_qt c) (cd_static c) (h :: dyn) (cd_unc c))
      by (eapply R_perm; [apply inv_R; exact I|exact Pm|reflexivity]).
    assert (Inc : incl dyn (cd_dyn c)) by (intros x Hx; eapply Permutation_in; [symmetry; exact Pm|right; exact Hx]).
    destruct ci.
    - rewrite (R_dereg_d _ _ _ _ (h_ent h) R0). cbn [rbind].
      rewrite (opt_hpg_ext _ (fun g => hpg_deregister g (h_ent h) dyn true)) by (intros g Eg; apply Hg; assumption).
      apply bind_ext. intros g. rewrite (R_dangling _ _ _ _ (R_drop_dyn lvl bb _ _ _ _ _ R0)). reflexivity.
    - rewrite (R_deactivate_d _ _ _ _ _ R0). cbn [rbind].
      rewrite (opt_hpg_ext _ (fun g => hpg_deregister g (h_ent h) dyn false)) by (intros g Eg; apply Hg; assumption).
      apply bind_ext. intros g. rewrite (R_dangling _ _ _ _ (R_deactivate BSok lvl bb _ _ _ _ _ R0)). reflexivity.
  Qed.
  Lemma cde_commit_d_ok : forall c, inv c ->
    (forall g, cd_hpg c = Some g -> hpg_flush_d g (cd_dyn c) = hpg_flush g (cd_dyn c)) -> cde_commit_d c = cde_commit c.
  Proof.
    intros c I Hg. unfold cde_commit_d, cde_commit.
    assert (K : forall unc qt, R qt (cd_static c) (cd_dyn c) unc ->
      rfold (fun n (h : hazard) => node_deregister_d n (h_ent h)) unc qt = Ok (fold_left (fun n h => node_deregister n (h_ent h)) unc qt)).
    { induction unc as [|u unc IH]; intros qt HR; [reflexivity|]. cbn [rfold fold_left]. rewrite (R_dereg_d _ _ _ _ (h_ent u) HR).
      cbn [rbind]. apply IH. apply R_drop_unc. exact HR. }
    rewrite (K _ _ (inv_R _ _ c I)). cbn [rbind]. rewrite (opt_hpg_ext _ (fun g => hpg_flush g (cd_dyn c)) _ Hg). reflexivity.
  Qed.
  Lemma cde_flush_d_ok : forall c : cde,
    (forall g, cd_hpg c = Some g -> hpg_flush_d g (cd_dyn c) = hpg_flush g (cd_dyn c)) -> cde_flush_d c = cde_flush c.
  Proof. intros c Hg. unfold cde_flush_d, cde_flush. rewrite (opt_hpg_ext _ (fun g => hpg_flush g (cd_dyn c)) _ Hg). reflexivity. Qed.

  Lemma restore_remove_d_ok : forall st unc rem qt dyn, R qt st dyn unc -> NoDup rem ->
    (forall e, In e rem -> In e (ents dyn)) ->
    rfold restore_remove_d rem (qt, dyn) = rfold restore_remove rem (qt, dyn).
  Proof.
    intros st unc. induction rem as [|e rem IH]; intros qt dyn HR ND Hin; [reflexivity|]. cbn [rfold].
    inversion ND as [|? ? Ne ND']; subst.
    unfold restore_remove_d at 1, restore_remove at 1.
    destruct (pos_ent e dyn (Hin e (or_introl eq_refl))) as (i & P). rewrite P. cbn [expect rbind].
    destruct (take_ent _ _ _ P) as (h & dyn1 & -> & Pm & Eh). cbn [expect rbind].
    rewrite (R_dereg_d _ _ _ _ e HR). cbn [rbind].
    assert (R1 : R (node_deregister qt e) st dyn1 unc).
    { rewrite <- Eh. apply R_drop_dyn. eapply R_perm; [exact HR|exact Pm|reflexivity]. }
    apply (IH _ _ R1 ND'). intros x Hx. specialize (Hin x (or_intror Hx)). apply in_map_iff in Hin as (y & Ey & Hy).
    eapply Permutation_in in Hy; [|exact Pm]. destruct Hy as [<-|Hy]; [congruence|]. rewrite <- Ey. apply in_map; exact Hy.
  Qed.
  Lemma restore_unc_d_ok : forall st unc qt dyn add, R qt st dyn unc ->
    rfold restore_unc_d unc (qt, dyn, add) = rfold restore_unc unc (qt, dyn, add).
  Proof.
    intros st. induction unc as [|u unc IH]; intros qt dyn add HR; [reflexivity|]. cbn [rfold].
    unfold restore_unc_d at 1, restore_unc at 1.
    destruct (position (ent_is (h_ent u)) add) as [pos|] eqn:P.
    - destruct (take_ent _ _ _ P) as (h & add1 & -> & Pm & Eh). cbn [expect rbind].
      rewrite (R_activate_d _ _ _ _ _ HR). cbn [rbind]. apply IH.
      eapply R_perm; [apply R_activate; [exact BSok|exact HR]|apply Permutation_cons_append|reflexivity].
    - rewrite (R_dereg_d _ _ _ _ (h_ent u) HR). cbn [rbind]. apply IH. apply R_drop_unc. exact HR.
  Qed.
  Lemma restore_add_d_ok : forall al st add qt dyn, R qt st dyn [] ->
    Forall wf_hazard add -> NoDup (ents (st ++ dyn ++ add)) ->
    (forall x, In x (st ++ dyn ++ add) -> al (a_ptr (h_shape x)) = true) ->
    rfold (restore_add_d al) add (qt, dyn) = rfold (restore_add al) add (qt, dyn).
  Proof.
    intros al st. induction add as [|h add IH]; intros qt dyn HR W ND Hal; [reflexivity|]. cbn [rfold].
    inversion W as [|? ? Wh W']; subst. unfold restore_add_d at 1, restore_add at 1.
    assert (Nh : ~ In (h_ent h) (ents (st ++ dyn ++ []))).
    { rewrite app_nil_r. unfold ents in *. rewrite app_assoc, map_app in ND. cbn [map] in ND.
      apply NoDup_remove_2 in ND. intros X. apply ND, in_or_app. left; exact X. }
    assert (Ha : forall x, In x (h :: st ++ dyn ++ []) -> al (a_ptr (h_shape x)) = true).
    { intros x [<-|Hx]; apply Hal.
      * apply in_or_app; right; apply in_or_app; right; left; reflexivity.
      * rewrite app_nil_r in Hx. apply in_app_or in Hx as [Hx|Hx]; apply in_or_app; [left|right; apply in_or_app; left]; exact Hx. }
    rewrite (R_register_d al qt st dyn [] h HR Wh Nh Ha).
    destruct (R_register BSok lvl bb al qt st dyn [] h HR Wh Nh Ha) as (qt1 & E & R1). rewrite E. cbn [rbind].
    replace (dyn ++ h :: add) with ((dyn ++ [h]) ++ add) in * by (rewrite <- app_assoc; reflexivity).
    apply (IH qt1 (dyn ++ [h]) R1 W' ND Hal).
  Qed.
  Lemma cde_restore_d_ok : forall c s, inv c -> snap_ok (cd_static c) s -> cde_restore_d c s = cde_restore c s.
  Proof.
    intros c s I (Ws & NDs). pose proof (inv_R _ _ c I) as HR.
    destruct (cde_restore_ok BSok lvl bb c s I (conj Ws NDs)) as (qtf & dynf & Ef & _ & _ & Pf).
    unfold cde_restore_d. unfold cde_restore in *.
    pose proof (r_nd _ _ _ _ _ _ HR) as ND0. unfold ents in ND0. rewrite !map_app in ND0.
    assert (NDd : NoDup (ents (cd_dyn c))).
    { unfold ents. apply NoDup_app_r in ND0. apply NoDup_app_l in ND0. exact ND0. }
    pose proof NDs as NDs'. unfold ents in NDs'. rewrite map_app in NDs'. pose proof (NoDup_app_r _ _ NDs') as NDsn.
    change (map (@h_ent F D) (cd_dyn c)) with (ents (cd_dyn c)) in *. cbv zeta in *.
    rewrite (iset_collect_nodup _ NDd) in *.
    replace (length (ents (cd_dyn c)) =? length (cd_dyn c)) with true
      by (symmetry; apply Nat.eqb_eq; apply map_length). cbn [rassert rbind].
    pose proof (restore_split_ok (sn_dyn s) (ents (cd_dyn c)) [] NDd NDsn) as K.
    destruct (fold_left restore_split (sn_dyn s) (ents (cd_dyn c), [])) as [rem add].
    destruct K as (NDr & Hrem & Eadd). cbn [app] in Eadd.
    assert (Hin : forall e, In e rem -> In e (ents (cd_dyn c))) by (intros e He; apply Hrem in He; apply He).
    rewrite (restore_remove_d_ok _ _ _ _ _ HR NDr Hin).
    destruct (restore_remove_ok lvl bb (cd_static c) (cd_unc c) rem (cd_qt c) (cd_dyn c) HR NDr Hin)
      as (qt1 & dyn1 & E1 & R1 & Inc1 & Hm1).
    rewrite E1 in *. cbn [rbind] in *.
    assert (Ina : incl add (sn_dyn s)).
    { subst add. intros x Hx. apply filter_In in Hx. apply Hx. }
    assert (NDa : NoDup (ents add)).
    { subst add. clear -NDsn. unfold ents in *. induction (sn_dyn s) as [|h l IH]; cbn [filter map]; [constructor|].
      cbn [map] in NDsn. inversion NDsn as [|? ? Nh ND]; subst.
      destruct (negb _); cbn [map]; [constructor|]; auto. intros X. apply Nh.
      apply in_map_iff in X as (y & <- & Hy). apply filter_In in Hy. apply in_map. apply Hy. }
    assert (Dis : forall e, In e (ents add) -> ~ In e (ents dyn1)).
    { intros e He X. apply Hm1 in X as (X & _). subst add. apply in_map_iff in He as (h & <- & Hh).
      apply filter_In in Hh as (_ & Hh). apply negb_true_iff in Hh.
      apply has_in in X. congruence. }
    rewrite (restore_unc_d_ok _ _ _ _ add R1).
    destruct (restore_unc_ok BSok lvl bb (cd_static c) (cd_unc c) qt1 dyn1 add R1 NDa Dis)
      as (qt2 & dyn2 & add2 & E2 & R2 & Inc2 & Inca2 & NDa2 & Dis2 & Hm2).
    rewrite E2 in *. cbn [rbind] in *.
    assert (Hset : forall e, In e (ents (dyn2 ++ add2)) <-> In e (ents (sn_dyn s))).
    { intros e. rewrite Hm2. unfold ents. rewrite map_app, in_app_iff. fold (ents dyn1) (ents add).
      rewrite Hm1, Hrem. subst add. split.
      - intros [(A & B)|A].
        + destruct (has (ents (sn_dyn s)) e) eqn:X; [apply has_in in X; exact X|].
          exfalso. apply B. split; [exact A|]. intros Y. apply has_in in Y. congruence.
        + apply in_map_iff in A as (h & <- & Hh). apply filter_In in Hh. apply in_map. apply Hh.
      - intros A. destruct (has (ents (cd_dyn c)) e) eqn:X.
        + left. apply has_in in X. split; [exact X|]. intros (_ & Y). contradiction.
        + right. apply in_map_iff in A as (h & <- & Hh). apply in_map. apply filter_In.
          split; [exact Hh|]. rewrite X. reflexivity. }
    assert (ND2 : NoDup (ents (cd_static c ++ dyn2 ++ add2))).
    { unfold ents. rewrite map_app. apply QTProofs.NoDup_app.
      - apply NoDup_app_l in NDs'. exact NDs'.
      - rewrite map_app. apply QTProofs.NoDup_app.
        + pose proof (r_nd _ _ _ _ _ _ R2) as X. rewrite app_nil_r in X. unfold ents in X. rewrite map_app in X.
          apply NoDup_app_r in X. exact X.
        + exact NDa2.
        + intros x Hx X. apply (Dis2 x X Hx).
      - intros x Hx X. apply Hset in X. apply (NoDup_app_dis _ _ x NDs' Hx X). }
    assert (W2 : Forall wf_hazard add2) by (rewrite Forall_forall in *; intros x Hx; apply Ws, Ina, Inca2, Hx).
    assert (Hal : forall x, In x (cd_static c ++ dyn2 ++ add2) -> owned (cd_static c ++ dyn2 ++ add2) (a_ptr (h_shape x)) = true)
      by (intros x Hx; apply owned_in; exact Hx).
    rewrite (restore_add_d_ok _ _ _ _ _ R2 W2 ND2 Hal).
    destruct (restore_add_ok BSok lvl bb _ (cd_static c) add2 qt2 dyn2 R2 W2 ND2 Hal) as (qt3 & E3 & R3).
    rewrite E3 in *. cbn [rbind] in *. apply bind_ext. intros g.
    replace (length (dyn2 ++ add2) =? length (sn_dyn s)) with true; [reflexivity|]. symmetry. apply Nat.eqb_eq.
    rewrite <- (map_length (@h_ent F D) (dyn2 ++ add2)), <- (map_length (@h_ent F D) (sn_dyn s)).
    apply Permutation_length. apply NoDup_Permutation; [|exact NDsn|exact Hset].
    unfold ents in ND2. rewrite map_app in ND2. apply NoDup_app_r in ND2. exact ND2.
  Qed.

  (** *** histories *)
  Variable shp : entity -> poly F * bool.
  Variable st : list hazard.
  Local Notation related := (@related F N D lvl bb shp st).

  (** the grid's own checks pass for this operation *)
  Definition grid_agrees (c : cde) (o : op F D) : Prop :=
    forall g, cd_hpg c = Some g ->
    match o with
    | OReg h => forall h', In h' (h :: cd_unc c) -> h_ent h' = h_ent h -> hpg_register_d g h' = hpg_register g h'
    | ODereg e b => forall dyn, incl dyn (cd_dyn c) -> hpg_deregister_d g e dyn b = hpg_deregister g e dyn b
    | OCommit | OFlush | OSnap => hpg_flush_d g (cd_dyn c) = hpg_flush g (cd_dyn c)
    | ORestore _ => True
    end.
  Lemma step_d_ok : forall c sn a o, related c sn a -> op_ok shp st a o -> grid_agrees c o -> step_d (c, sn) o = step (c, sn) o.
  Proof.
    intros c sn [A sv] o [I Es P Coh Sn So] V Hg. cbn [fst snd] in *.
    pose proof (perm_ents _ _ P) as Pe.
    destruct o as [h|e b| | | |k]; cbn [step_d step op_ok astep fst snd] in *.
    - destruct V as (Wh & Dh & N1 & N2). rewrite (cde_register_d_ok c h I Wh).
      + reflexivity.
      + rewrite Es. unfold ents. rewrite map_app. intros X. apply in_app_or in X as [X|X]; [contradiction|].
        apply N2. eapply Permutation_in; [exact Pe|exact X].
      + intros g h' Eg. apply (Hg g Eg).
    - assert (He : In e (ents (cd_dyn c))) by (eapply Permutation_in; [symmetry; exact Pe|exact V]).
      rewrite (cde_deregister_d_ok c e b I He); [reflexivity|]. intros g dyn Eg. apply (Hg g Eg).
    - rewrite (cde_commit_d_ok c I); [reflexivity|exact Hg].
    - rewrite (cde_flush_d_ok c); [reflexivity|exact Hg].
    - unfold cde_snapshot_d, cde_snapshot. rewrite (cde_commit_d_ok c I); [reflexivity|exact Hg].
    - destruct (nth_error sn k) as [s|] eqn:H0; [|reflexivity]. cbn [expect rbind].
      rewrite Forall_forall in So. destruct (So s (nth_error_In _ _ H0)) as (Sok & Sd). rewrite <- Es in Sok.
      rewrite (cde_restore_d_ok c s I Sok). reflexivity.
  Qed.
  Fixpoint grid_run (s : cde * list snapshot) (ops : list (op F D)) : Prop :=
    match ops with
    | [] => True
    | o :: r => grid_agrees (fst s) o /\ forall s', step s o = Ok s' -> grid_run s' r
    end.
  Lemma run_d_ok : forall ops c sn a, related c sn a -> ops_ok shp st a ops -> grid_run (c, sn) ops ->
    rfold step_d ops (c, sn) = rfold step ops (c, sn).
  Proof.
    induction ops as [|o ops IH]; intros c sn a HR V Hg; [reflexivity|]. cbn [rfold ops_ok grid_run fst] in *.
    destruct V as (V1 & V2), Hg as (G1 & G2). rewrite (step_d_ok c sn a o HR V1 G1).
    destruct (step (c, sn) o) as [[c' sn']|] eqn:E; [|reflexivity]. cbn [rbind].
    apply (IH c' sn' (astep a o)); [eapply step_related; eassumption|exact V2|apply G2; reflexivity].
  Qed.
  Lemma no_grid_run : forall ops c sn a, related c sn a -> ops_ok shp st a ops -> cd_hpg c = None -> grid_run (c, sn) ops.
  Proof.
    induction ops as [|o ops IH]; intros c sn a HR V Hn; cbn [grid_run fst]; [exact I|]. destruct V as (V1 & V2).
    split; [intros g E; congruence|]. intros [c' sn'] E.
    destruct (step_total BSok lvl bb shp st c sn a o HR V1 Hn) as (c1 & sn1 & E1 & Hn1). rewrite E in E1. injection E1 as <- <-.
    eapply IH; [eapply step_related; eassumption|exact V2|exact Hn1].
  Qed.
End AP.

Section APThm.
  Context {F : Type} {N : Num F} {D : Type} {ED : EqD D} {BS : BSearch}.
  Hypothesis BSok : bsearch_ok BS.
  Lemma debug_engine : forall bb (sts : list (hazard F D)) depth ops, divides depth bb -> valid sts ops ->
    engine_d bb sts depth 0 ops = engine bb sts depth 0 ops.
  Proof.
    intros bb sts depth ops Hd (Sok & shp & V). unfold engine_d, engine.
    rewrite (cde_new_d_ok BSok depth bb Hd sts 0 (proj1 Sok) (proj2 Sok)) by congruence.
    destruct (cde_new bb sts depth 0) as [c|] eqn:E; [|reflexivity]. cbn [rbind].
    pose proof (new_related BSok depth bb shp sts 0 c Sok E) as HR.
    eapply run_d_ok; try eassumption. eapply no_grid_run; try eassumption.
    unfold cde_new in E. cbn [rbind] in E. destruct (rfold _ _ _) in E; [|discriminate]. injection E as <-. reflexivity.
  Qed.
  Lemma debug_engine_grid : forall bb (sts : list (hazard F D)) depth n ops, divides depth bb -> valid sts ops ->
    (n <> 0 -> hpg_new_d bb sts n = hpg_new bb sts n) -> (forall c, cde_new bb sts depth n = Ok c -> grid_run (c, []) ops) ->
    engine_d bb sts depth n ops = engine bb sts depth n ops.
  Proof.
    intros bb sts depth n ops Hd (Sok & shp & V) Hn Hg. unfold engine_d, engine.
    rewrite (cde_new_d_ok BSok depth bb Hd sts n (proj1 Sok) (proj2 Sok) Hn).
    destruct (cde_new bb sts depth n) as [c|] eqn:E; [|reflexivity]. cbn [rbind].
    pose proof (new_related BSok depth bb shp sts n c Sok E) as HR.
    eapply run_d_ok; try eassumption. apply Hg. reflexivity.
  Qed.

  (** *** questions to a reachable engine, with or without a grid *)
  Section Ask.
  Variable c : cde F D.
  Variable depth : nat.
  Variable bb : rect F.
  Variable hs : list (qth F D).
  Hypothesis Hr : repr depth bb hs (cd_qt c).
  Lemma hit_d_ok : forall irr q, qt_hit_d c irr q = qt_hit c irr q.
  Proof. intros. unfold qt_hit_d, qt_hit. rewrite (node_collides_d_ok _ _ _ _ _ _ _ Hr). reflexivity. Qed.
  Lemma poly_d_ok : forall s irr, poly_collides_d c s irr = poly_collides c s irr.
  Proof.
    intros. unfold poly_collides_d, poly_collides, by_edge_intersection_d, by_edge_intersection. destruct (relation_to _ _); try reflexivity.
    rewrite (rany_ext (fun i => e <- get_edge s i ;; qt_hit_d c irr (edge_query e)) (fun i => e <- get_edge s i ;; qt_hit c irr (edge_query e)));
      [reflexivity|]. intros i. apply bind_ext. intros; apply hit_d_ok.
  Qed.
  Lemma surr_d_ok : forall s t irr, surrogate_collides_d c s t irr = surrogate_collides c s t irr.
  Proof.
    intros. unfold surrogate_collides_d, surrogate_collides. apply bind_ext. intros ps.
    rewrite (rany_ext (fun p => qt_hit_d c irr (circle_query (tr_circle t p))) (fun p => qt_hit c irr (circle_query (tr_circle t p)))) by (intros; apply hit_d_ok).
    apply bind_ext. intros [|]; [reflexivity|]. apply rany_ext. intros; apply hit_d_ok.
  Qed.
  Lemma tr_d_ok : forall t (buf s : poly F), same_sizes buf s -> tr_poly_from_d t buf s = tr_poly_from t buf s.
  Proof.
    intros t buf s H. unfold tr_poly_from_d, same_sizes in *. destruct (p_surr buf) as [b|]; [|reflexivity].
    destruct (p_surr s) as [r|]; [|contradiction]. destruct H as (A & B). cbn [expect rbind].
    apply Nat.eqb_eq in A. apply Nat.eqb_eq in B. rewrite A, B. reflexivity.
  Qed.
  Lemma ask_d_ok : forall q, sized_question q -> ask_d c q = ask c q.
  Proof.
    intros [s irr|s t irr|s t buf irr|q irr|p e|e irr|k irr] Sz; cbn [ask_d ask].
    - rewrite poly_d_ok. reflexivity.
    - rewrite surr_d_ok. reflexivity.
    - unfold surrogate_or_poly_collides_d, surrogate_or_poly_collides. destruct (expect (p_surr s)) as [u|]; [|reflexivity]. cbn [rbind].
      rewrite surr_d_ok. destruct (surrogate_collides c u t irr) as [[|]|]; try reflexivity. cbn [rbind].
      rewrite (tr_d_ok t buf s Sz). destruct (tr_poly_from t buf s) as [b|]; [|reflexivity]. cbn [rbind].
      rewrite poly_d_ok. reflexivity.
    - rewrite hit_d_ok. reflexivity.
    - reflexivity.
    - unfold edge_definitely_d, edge_definitely. rewrite (node_definitely_d_ok _ _ _ _ _ _ Hr). reflexivity.
    - unfold circle_definitely_d, circle_definitely. rewrite (node_definitely_d_ok _ _ _ _ _ _ Hr). reflexivity.
  Qed.
  Lemma collect_d_ok : forall k irr buf, collect_d c k irr buf = collect c k irr buf.
  Proof.
    assert (K : forall q d, qt_collect_d c q d = qt_collect c q d) by (intros; apply (node_collect_d_ok _ _ _ _ _ _ Hr)).
    intros [s|s t|q] irr buf; cbn [collect_d collect].
    - unfold collect_poly_d, collect_poly.
      rewrite (rfold_ext (fun d i => e <- get_edge s i ;; qt_collect_d c (edge_query e) d) (fun d i => e <- get_edge s i ;; qt_collect c (edge_query e) d));
        [reflexivity|]. intros a b. apply bind_ext. intros; apply K.
    - unfold collect_surrogate_d, collect_surrogate. apply bind_ext. intros ps.
      rewrite (rfold_ext (fun d p => qt_collect_d c (circle_query (tr_circle t p)) d) (fun d p => qt_collect c (circle_query (tr_circle t p)) d)) by (intros; apply K).
      apply bind_ext. intros d1.
      rewrite (rfold_ext (fun d p => qt_collect_d c (edge_query (tr_edge t p)) d) (fun d p => qt_collect c (edge_query (tr_edge t p)) d)) by (intros; apply K).
      reflexivity.
    - unfold hazards_within_d, hazards_within. rewrite K. reflexivity.
  Qed.
  End Ask.
  Lemma debug_queries : forall bb (sts : list (hazard F D)) depth n ops c sn, valid sts ops -> engine bb sts depth n ops = Ok (c, sn) ->
    (forall q, sized_question q -> ask_d c q = ask c q) /\ (forall k irr buf, collect_d c k irr buf = collect c k irr buf).
  Proof.
    intros bb sts depth n ops c sn (Sok & shp & V) E.
    pose proof (engine_related BSok depth bb shp sts n ops c sn Sok V E) as HR.
    pose proof (inv_repr _ _ _ (rl_inv _ _ _ _ _ _ _ HR)) as Rp.
    split; intros; [eapply ask_d_ok|eapply collect_d_ok]; eassumption.
  Qed.
End APThm.
