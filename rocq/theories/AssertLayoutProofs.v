(** Debug builds of layouts: the tree of a layout matches the tree built afresh, so on
    valid histories the debug operations equal the release ones.  Every [Num F]. *)
From Coq Require Import List Bool Arith ZArith Lia Permutation Sorted.
From Verif Require Import Base Num GeoModel HazardModel QTModel TransfModel HpgModel CdeModel CdeSpec
  PolyModel SlotMapModel LayoutModel ProblemModel ProblemSpec AssertModel AssertSpec AssertLayoutModel AssertLayoutSpec
  BaseProofs HazVecProofs QTProofs CdeProofs CdeOpsProofs CdeHistProofs SlotMapProofs LayoutProofs AssertRefProofs AssertProofs.
Import ListNotations.

Section Erase.
  Context {F : Type} {N : Num F} {D : Type} {ED : EqD D} {BS : BSearch}.
  Local Notation rect := (rect F).
  Local Notation entity := (entity D).
  Local Notation node := (node F D).
  Local Notation qth := (qth F D).
  Local Notation arc := (arc F).
  Local Notation presence := (presence F).

  (** forget where a shape is allocated *)
  Definition era (a : arc) : arc := Arc 0 (a_obj a).
  Definition erp (p : presence) : presence :=
    match p with PPartial (Par a e) => PPartial (Par (era a) e) | p => p end.
  Definition erase (h : qth) : qth := Qh (q_ent h) (erp (q_pres h)) (q_act h).
  Lemma erase_ent : forall h, q_ent (erase h) = q_ent h. Proof. reflexivity. Qed.
  Lemma erase_act : forall h, q_act (erase h) = q_act h. Proof. reflexivity. Qed.
  Lemma erase_key : forall h, qkey (erase h) = qkey h.
  Proof. intros [e [|[a l]|] b]; reflexivity. Qed.
  Lemma erase_partial : forall h, is_partial (erase h) = is_partial h.
  Proof. intros [e [|[a l]|] b]; reflexivity. Qed.

  Definition erq (q : q4 (option presence)) : q4 (option presence) := q4map (option_map erp) q.
  Lemma rmap_bind : forall {A B C} (f : A -> res B) (g : B -> C) x, rmap g (rbind x f) = rbind x (fun a => rmap g (f a)).
  Proof. intros A B C f g [a|]; reflexivity. Qed.
  Lemma bind_rmap : forall {A B C} (f : A -> B) (g : B -> res C) x, rbind (rmap f x) g = rbind x (fun a => g (f a)).
  Proof. intros A B C f g [a|]; reflexivity. Qed.
  Lemma rfold_map : forall {A B C} (m : A -> B) (f : A -> C -> res A) (g : B -> C -> res B) l a,
    (forall a c, g (m a) c = rmap m (f a c)) -> rfold g l (m a) = rmap m (rfold f l a).
  Proof.
    intros A B C m f g l. induction l as [|x l IH]; intros a H; cbn [rfold]; [reflexivity|].
    rewrite H. rewrite rmap_bind, bind_rmap. apply bind_ext. intros a'. apply IH, H.
  Qed.
  Lemma add_edge_q_er : forall a i e q (p : option presence),
    add_edge_q (era a) i e q (option_map erp p) = rmap (option_map erp) (add_edge_q a i e q p).
  Proof.
    intros a i e q p. unfold add_edge_q. destruct (re_collides q e); [|reflexivity].
    destruct p as [[|[b [|l]]|]|]; reflexivity.
  Qed.
  Lemma add_edge_er : forall a quads qp i,
    add_edge_to_q_presences (era a) quads (erq qp) i = rmap erq (add_edge_to_q_presences a quads qp i).
  Proof.
    intros a quads [p0 p1 p2 p3] i. unfold add_edge_to_q_presences. cbn [era a_obj erq q4map qa qb qc qd]. rewrite rmap_bind.
    apply bind_ext. intros e. rewrite !add_edge_q_er.
    rewrite bind_rmap, rmap_bind. apply bind_ext. intros x0. rewrite bind_rmap, rmap_bind. apply bind_ext. intros x1.
    rewrite bind_rmap, rmap_bind. apply bind_ext. intros x2. rewrite bind_rmap, rmap_bind. apply bind_ext. intros x3. reflexivity.
  Qed.
  Lemma erq_get : forall qp i, q4get (erq qp) i = option_map erp (q4get qp i).
  Proof. intros [p0 p1 p2 p3] i. destruct i as [|[|[|i]]]; reflexivity. Qed.
  Lemma erq_set : forall qp i p, q4set (erq qp) i (option_map erp p) = erq (q4set qp i p).
  Proof. intros [p0 p1 p2 p3] i p. destruct i as [|[|[|i]]]; reflexivity. Qed.
  Lemma er_entire : forall p, is_entire (option_map erp p) = is_entire p.
  Proof. intros [[|[a l]|]|]; reflexivity. Qed.
  Lemma er_pnone : forall p, is_pnone (option_map erp p) = is_pnone p.
  Proof. intros [[|[a l]|]|]; reflexivity. Qed.
  Lemma resolve_er : forall pos s quads qp i, resolve_quadrant pos s quads (erq qp) i = rmap erq (resolve_quadrant pos s quads qp i).
  Proof.
    intros pos s quads qp i. unfold resolve_quadrant. rewrite erq_get. destruct (q4get qp i) as [p|]; [reflexivity|]. cbn [option_map].
    destruct (quadrant_neighbors i) as [n0 n1]. rewrite !erq_get, !er_entire, !er_pnone.
    destruct (is_entire (q4get qp n0)); [cbn [rmap]; rewrite <- erq_set; reflexivity|].
    destruct (is_entire (q4get qp n1)); [cbn [rmap]; rewrite <- erq_set; reflexivity|].
    destruct (is_pnone (q4get qp n0)); [cbn [rmap]; rewrite <- erq_set; reflexivity|].
    destruct (is_pnone (q4get qp n1)); [cbn [rmap]; rewrite <- erq_set; reflexivity|].
    rewrite rmap_bind. apply bind_ext. intros b. cbn [rmap]. rewrite <- erq_set. destruct pos, b; reflexivity.
  Qed.
  Lemma constrict_er : forall (h : qth) quads,
    constrict all_alive (erase h) quads = rmap (q4map (option_map erase)) (constrict all_alive h quads).
  Proof.
    intros [e p b] quads. unfold constrict. cbn [erase q_pres q_ent q_act]. destruct p as [|[a l]|]; cbn [erp]; [reflexivity| |reflexivity].
    unfold shape_arc, all_alive. cbn [rbind pa_shape pa_edges]. change (a_obj (era a)) with (a_obj a).
    assert (E : forall (X Y : res (q4 (option presence))), X = rmap erq Y ->
      (qp <- X ;; p0 <- expect (qa qp) ;; p1 <- expect (qb qp) ;; p2 <- expect (qc qp) ;; p3 <- expect (qd qp) ;;
       Ok (Q4 (qth_new e p0 b) (qth_new e p1 b) (qth_new e p2 b) (qth_new e p3 b))) =
      rmap (q4map (option_map erase)) (qp <- Y ;; p0 <- expect (qa qp) ;; p1 <- expect (qb qp) ;; p2 <- expect (qc qp) ;; p3 <- expect (qd qp) ;;
       Ok (Q4 (qth_new e p0 b) (qth_new e p1 b) (qth_new e p2 b) (qth_new e p3 b)))).
    { intros X Y ->. rewrite bind_rmap, rmap_bind. apply bind_ext. intros [p0 p1 p2 p3]. cbn [erq q4map qa qb qc qd].
      assert (Q : forall p, qth_new e (erp p) b = option_map erase (qth_new e p b)) by (intros [|[a' l']|]; reflexivity).
      destruct p0 as [p0|], p1 as [p1|], p2 as [p2|], p3 as [p3|]; cbn [option_map expect rbind rmap q4map qa qb qc qd]; try reflexivity.
      rewrite !Q. reflexivity. }
    apply E. clear E.
    destruct (position _ _) as [k|].
    - cbn [rmap]. rewrite <- erq_set. reflexivity.
    - change (Q4 None None None None) with (erq (Q4 None None None None)) at 1.
      rewrite (rfold_map erq (add_edge_to_q_presences a quads) (add_edge_to_q_presences (era a) quads) _ (Q4 None None None None) (fun qp i => add_edge_er a quads qp i)).
      rewrite bind_rmap, rmap_bind. apply bind_ext. intros qp.
      apply rfold_map. intros. apply resolve_er.
  Qed.
  Lemma con_er : forall bb i (h : qth), i < 4 -> con bb i (erase h) = option_map erase (con bb i h).
  Proof.
    intros bb i h Hi. unfold con. rewrite constrict_er. destruct (constrict _ h _) as [[a b c d]|]; [|reflexivity]. cbn [rmap].
    destruct i as [|[|[|[|i]]]]; try lia; reflexivity.
  Qed.
  Lemma omap_con_er : forall bb i l, i < 4 -> omap (con bb i) (map erase l) = map erase (omap (con bb i) l).
  Proof.
    intros bb i l Hi. induction l as [|h l IH]; [reflexivity|]. cbn [map omap]. rewrite con_er by exact Hi.
    destruct (con bb i h); cbn [option_map map]; rewrite IH; reflexivity.
  Qed.
  Lemma omap_con_active : forall alive bb i hs, i < 4 -> Forall (wf_qth alive) hs ->
    omap (con bb i) (filter (fun h : HazardModel.qth F D => q_act h) hs) = filter (fun h : HazardModel.qth F D => q_act h) (omap (con bb i) hs).
  Proof.
    intros alive bb i hs Hi W. induction W as [|h hs Wh W IH]; [reflexivity|]. cbn [filter omap].
    pose proof (con_spec alive h bb i Wh Hi) as C.
    destruct (q_act h) eqn:E; cbn [omap]; destruct (con bb i h) as [h'|]; cbn [filter]; rewrite ?IH; auto;
      destruct C as (_ & Ea & _); rewrite Ea, E; reflexivity.
  Qed.

  (** two lists of hazards whose active members are the same up to allocation *)
  Definition same_active (hs1 hs2 : list qth) : Prop :=
    Permutation (map erase (filter (fun h : HazardModel.qth F D => q_act h) hs1)) (map erase (filter (fun h : HazardModel.qth F D => q_act h) hs2)).
  Lemma same_active_con : forall alive bb i hs1 hs2, i < 4 -> Forall (wf_qth alive) hs1 -> Forall (wf_qth alive) hs2 ->
    same_active hs1 hs2 -> same_active (omap (con bb i) hs1) (omap (con bb i) hs2).
  Proof.
    intros alive bb i hs1 hs2 Hi W1 W2 H. unfold same_active in *.
    rewrite <- !(omap_con_active alive) by assumption. rewrite <- !omap_con_er by exact Hi. apply omap_perm, H.
  Qed.
  Lemma qkey_eqb_refl : forall k : entity * bool * nat, qkey_eqb k k = true.
  Proof. intros [[e b] n]. unfold qkey_eqb. cbn. rewrite ent_eqb_refl, eqb_reflx, Nat.eqb_refl. reflexivity. Qed.
  Lemma no_missing : forall l1 l2 : list (entity * bool * nat), (forall k, In k l1 -> In k l2) ->
    filter (fun k => no_member qkey_eqb k l2) l1 = [].
  Proof.
    intros l1 l2 H. apply filter_none. intros k Hk. unfold no_member. apply negb_false_iff, existsb_exists.
    exists k. split; [apply H, Hk|apply qkey_eqb_refl].
  Qed.
  Lemma same_keys : forall hs1 hs2 l1 l2, same_active hs1 hs2 -> Permutation l1 (filter (fun h : HazardModel.qth F D => q_act h) hs1) ->
    Permutation l2 (filter (fun h : HazardModel.qth F D => q_act h) hs2) -> Permutation (map qkey l1) (map qkey l2).
  Proof.
    intros hs1 hs2 l1 l2 H P1 P2. rewrite P1, P2. apply (Permutation_map qkey) in H. rewrite !map_map in H.
    rewrite (map_ext _ _ (fun h => erase_key h)) in H. rewrite (map_ext _ _ (fun h => erase_key h)) in H. exact H.
  Qed.
  Lemma active_match_ok : forall lvl1 lvl2 bb hs1 hs2 (n1 n2 : node), repr lvl1 bb hs1 n1 -> repr lvl2 bb hs2 n2 ->
    same_active hs1 hs2 -> active_match n1 n2 = Ok true.
  Proof.
    intros lvl1 lvl2 bb hs1 hs2 n1 n2 R1 R2 H. unfold active_match.
    destruct (active_hazards_rep _ _ (repr_hv _ _ _ _ R1)) as (l1 & -> & P1 & _).
    destruct (active_hazards_rep _ _ (repr_hv _ _ _ _ R2)) as (l2 & -> & P2 & _). cbn [rbind].
    pose proof (same_keys _ _ _ _ H P1 P2) as P.
    rewrite (no_missing (map qkey l1) (map qkey l2)) by (intros k; apply Permutation_in; exact P).
    rewrite (no_missing (map qkey l2) (map qkey l1)) by (intros k; apply Permutation_in; symmetry; exact P). reflexivity.
  Qed.
  Lemma partial_same : forall hs1 hs2, same_active hs1 hs2 -> existsb is_partial hs2 = false ->
    existsb is_partial (filter (fun h : HazardModel.qth F D => q_act h) hs1) = false.
  Proof.
    intros hs1 hs2 H E. apply existsb_false. intros x Hx.
    apply (in_map erase) in Hx. eapply Permutation_in in Hx; [|exact H]. apply in_map_iff in Hx as (y & Ey & Hy).
    rewrite existsb_false in E. rewrite <- erase_partial, <- Ey, erase_partial. apply E. apply filter_In in Hy. apply Hy.
  Qed.
  Lemma partial_perm : forall (l1 l2 : list qth), Permutation l1 l2 -> existsb is_partial l2 = false -> existsb is_partial l1 = false.
  Proof.
    intros l1 l2 P E. rewrite existsb_false in *. intros x Hx. apply E. eapply Permutation_in; eassumption.
  Qed.
  Lemma nodes_match_ok : forall alive lvl bb hs1 hs2 n1 n2, repr lvl bb hs1 n1 -> repr lvl bb hs2 n2 ->
    Forall (wf_qth alive) hs1 -> Forall (wf_qth alive) hs2 -> same_active hs1 hs2 -> nodes_match n1 n2 = Ok true.
  Proof.
    intros alive. induction lvl as [|l IH]; intros bb hs1 hs2 n1 n2 R1 R2 W1 W2 H;
      pose proof (active_match_ok _ _ _ _ _ _ _ R1 R2 H) as Am;
      destruct n1 as [lv1 b1 hv1 ch1], n2 as [lv2 b2 hv2 ch2];
      cbn [repr n_level n_bbox n_haz n_children] in R1, R2; destruct R1 as (-> & -> & V1 & C1), R2 as (-> & -> & V2 & C2);
      cbn [nodes_match]; rewrite Am; cbn [rbind negb n_children n_haz].
    - subst. reflexivity.
    - destruct (active_hazards_rep _ _ V1) as (l1 & El1 & P1 & _). destruct (active_hazards_rep _ _ V2) as (l2 & El2 & P2 & _).
      assert (H' : same_active hs2 hs1) by (apply Permutation_sym; exact H).
      destruct (existsb is_partial hs1) eqn:Ep1, (existsb is_partial hs2) eqn:Ep2.
      + destruct C1 as ([c0 c1 c2 c3] & -> & C1), C2 as ([d0 d1 d2 d3] & -> & C2). cbn [qa qb qc qd].
        assert (K : forall i, i < 4 -> nodes_match (q4get (Q4 c0 c1 c2 c3) i) (q4get (Q4 d0 d1 d2 d3) i) = Ok true).
        { intros i Hi. eapply IH; [apply C1; exact Hi|apply C2; exact Hi| | |]; try (apply omap_con_wf; assumption).
          eapply same_active_con; eassumption. }
        pose proof (K 0 ltac:(lia)) as K0. pose proof (K 1 ltac:(lia)) as K1.
        pose proof (K 2 ltac:(lia)) as K2. pose proof (K 3 ltac:(lia)) as K3.
        cbn [q4get qa qb qc qd] in K0, K1, K2, K3. rewrite K0. cbn [rbind negb]. rewrite K1. cbn [rbind negb]. rewrite K2. cbn [rbind negb]. exact K3.
      + destruct C1 as (c & -> & C1). subst ch2. rewrite El1. cbn [rbind].
        rewrite (partial_perm _ _ P1 (partial_same _ _ H Ep2)). reflexivity.
      + destruct C2 as (c & -> & C2). subst ch1. rewrite El2. cbn [rbind].
        rewrite (partial_perm _ _ P2 (partial_same _ _ H' Ep1)). reflexivity.
      + subst. reflexivity.
  Qed.
End Erase.

Section LP.
  Context {F : Type} {N : Num F} {D : Type} {ED : EqD D} {BS : BSearch} {DC : DComp F D}.
  Hypothesis BSok : bsearch_ok BS.
  Variable cat : nat -> poly F.
  Local Notation entity := (entity D).
  Local Notation hazard := (hazard F D).
  Local Notation cde := (cde F D).
  Local Notation bin := (bin F D).
  Local Notation pitem := (pitem F D).
  Local Notation layout := (layout F D).
  Local Notation lsnap := (lsnap F D).
  Local Notation LI := (LI (F := F) (D := D) cat).
  Local Notation SI := (SI (F := F) (D := D) cat).
  Local Notation shpE := (shpE (F := F) (D := D) cat).

  (** the layout's engine and bin have no grid, and the box can be divided *)
  Definition DI (l : layout) : Prop := LI l /\ checked_bin (ly_bin l) /\ cd_hpg (ly_cde l) = None.
  Lemma no_grid_bin : forall b : bin, checked_bin b -> cd_hpg (bn_cde b) = None.
  Proof.
    intros b (((id & outer & value & pre & holes & zs & c & H) & _) & Hc & _). apply bin_new_spec in H as (_ & _ & _ & _ & _ & H).
    rewrite Hc in H. unfold cde_new in H. destruct (rfold _ _ _) in H; [|discriminate]. cbn [rbind] in H. injection H as H. rewrite <- H. reflexivity.
  Qed.
  Lemma no_agree : forall (c : cde) o, cd_hpg c = None -> grid_agrees c o.
  Proof. intros c o H g E. congruence. Qed.

  (** an operation on the engine of a layout *)
  Lemma engine_step : forall (b : bin) c sn a o, checked_bin b -> rel_l cat b c sn a -> cd_hpg c = None ->
    op_ok shpE (bin_statics b) a o ->
    step_d (c, sn) o = step (c, sn) o /\ exists c' sn', step (c, sn) o = Ok (c', sn') /\ cd_hpg c' = None.
  Proof.
    intros b c sn a o (G & Hc & Hd) R Hn V. split.
    - eapply (step_d_ok BSok); try eassumption. apply no_agree, Hn.
    - eapply (step_total BSok); eassumption.
  Qed.
  Lemma reg_all : forall (b : bin) ps c a, checked_bin b -> rel_l cat b c [] (a, []) -> cd_hpg c = None ->
    Forall (pi_fine cat) ps -> NoDup (map pi_entity ps) -> (forall p, In p ps -> ~ In (pi_entity p) (map f_ent a)) ->
    rfold (fun c p => cde_register_d c (pi_hazard p)) ps c = rfold (fun c p => cde_register c (pi_hazard p)) ps c /\
    exists c', rfold (fun c p => cde_register c (pi_hazard p)) ps c = Ok c' /\ cd_hpg c' = None.
  Proof.
    intros b ps. induction ps as [|p ps IH]; intros c a B R Hn Fp ND Na; cbn [rfold]; [eauto|].
    inversion Fp as [|? ? F1 Fp']; subst. cbn [map] in ND. inversion ND as [|? ? N1 ND']; subst.
    assert (V : op_ok shpE (bin_statics b) (a, []) (OReg (pi_hazard p))).
    { cbn [op_ok fst]. split; [exact (proj2 F1)|]. split; [apply pi_denotes, F1|]. split; [apply pi_not_static|].
      apply Na. left; reflexivity. }
    destruct (engine_step b c [] (a, []) _ B R Hn V) as (Ed & c1 & sn1 & E1 & Hn1).
    assert (Sn : sn1 = []).
    { cbn [step] in E1. apply rbind_ok in E1 as (c' & _ & E1). congruence. }
    subst sn1.
    assert (R1 : rel_l cat b c1 [] (fact_of (pi_hazard p) :: a, [])).
    { eapply (step_related BSok) in E1; [|exact R|exact V]. exact E1. }
    cbn [step step_d] in Ed, E1. apply rbind_ok in E1 as (c' & E1 & X). injection X as <-.
    rewrite E1 in *. cbn [rbind] in *. apply rbind_ok in Ed as (c3 & Ed & X). injection X as ->. rewrite Ed. cbn [rbind].
    eapply IH; try eassumption. intros p' Hp'. cbn [map]. intros [X|X].
    - apply N1. change (pi_entity p = pi_entity p') in X. rewrite X. apply in_map, Hp'.
    - eapply Na; [right; exact Hp'|exact X].
  Qed.
  Lemma change_d : forall l b, LI l -> checked_bin b -> layout_change_bin_d l b = layout_change_bin l b /\
    exists l', layout_change_bin l b = Ok l' /\ DI l'.
  Proof.
    intros l b I B. pose proof I as (G & (S1 & S2 & S3) & R).
    pose proof (new_LI BSok cat 0 b (proj1 B)) as (_ & _ & R0). cbn [ly_bin ly_cde ly_items layout_new] in R0.
    destruct (reg_all b (sm_values (ly_items l)) (bn_cde b) [] B R0 (no_grid_bin b B) S2 S3 (fun _ _ X => X)) as (Ed & c' & E & Hn).
    unfold layout_change_bin_d. rewrite Ed. unfold layout_change_bin. rewrite E. cbn [rbind]. split; [reflexivity|].
    eexists. split; [reflexivity|]. split; [|split; [exact B|exact Hn]].
    eapply (change_bin_LI BSok); [exact I|exact (proj1 B)|]. unfold layout_change_bin. rewrite E. reflexivity.
  Qed.

  Lemma filter_all : forall {A} (f : A -> bool) l, (forall x, In x l -> f x = true) -> filter f l = l.
  Proof.
    intros A f l H. induction l as [|x l IH]; [reflexivity|]. cbn [filter]. rewrite (H x) by (left; reflexivity).
    rewrite IH; [reflexivity|]. intros y Hy. apply H. right; exact Hy.
  Qed.
  Lemma qts_active : forall c : cde, filter (fun h : HazardModel.qth F D => q_act h) (qts c) = map qth_of_hazard (cd_static c ++ cd_dyn c).
  Proof.
    intros c. unfold qts. rewrite filter_app. rewrite filter_all.
    - rewrite filter_none; [apply app_nil_r|]. intros x Hx. apply in_map_iff in Hx as (h & <- & _). reflexivity.
    - intros x Hx. apply in_map_iff in Hx as (h & <- & _). reflexivity.
  Qed.
  Definition fkey (f : fact F D) : qth F D := Qh (f_ent f) (PPartial (Par (Arc 0 (snd (fst f))) REAll)) true.
  Lemma erase_haz : forall h : hazard, erase (qth_of_hazard h) = fkey (fact_of h).
  Proof. intros h. reflexivity. Qed.
  Lemma same_tree : forall (b : bin) c1 c2 a1 a2, rel_l cat b c1 [] (a1, []) -> rel_l cat b c2 [] (a2, []) -> Permutation a1 a2 ->
    nodes_match (cd_qt c1) (cd_qt c2) = Ok true /\ hazards_match (cd_dyn c1) (cd_dyn c2) = true.
  Proof.
    intros b c1 c2 a1 a2 R1 R2 P.
    pose proof (rl_inv _ _ _ _ _ _ _ R1) as I1. pose proof (rl_inv _ _ _ _ _ _ _ R2) as I2.
    pose proof (rl_static _ _ _ _ _ _ _ R1) as St1. pose proof (rl_static _ _ _ _ _ _ _ R2) as St2.
    pose proof (rl_facts _ _ _ _ _ _ _ R1) as P1. pose proof (rl_facts _ _ _ _ _ _ _ R2) as P2. cbn [fst] in P1, P2.
    assert (Pd : Permutation (map fact_of (cd_dyn c1)) (map fact_of (cd_dyn c2))) by (rewrite P1, P2; exact P).
    split.
    - apply (nodes_match_ok (fun _ => true) (cfg_depth (bn_cfg b)) (bin_box b) (qts c1) (qts c2)).
      + apply I1.
      + apply I2.
      + apply wf_qts; [apply I1|reflexivity].
      + apply wf_qts; [apply I2|reflexivity].
      + unfold same_active. rewrite !qts_active, !map_map, St1, St2, !map_app.
        apply Permutation_app_head. apply (Permutation_map fkey) in Pd. rewrite !map_map in Pd. exact Pd.
    - unfold hazards_match.
      assert (K : forall d1 d2 : list hazard, Permutation (map fact_of d1) (map fact_of d2) ->
        forallb (fun e => memb ent_eqb e (map (@h_ent F D) (filter (fun h : HazardModel.hazard F D => h_active h) d2))) (map (@h_ent F D) (filter (fun h : HazardModel.hazard F D => h_active h) d1)) = true).
      { clear. intros d1 d2 P. apply forallb_forall. intros e He. apply in_map_iff in He as (h & <- & Hh). apply filter_In in Hh as (Hh & Ha).
        apply memb_ent. apply (in_map fact_of) in Hh. eapply Permutation_in in Hh; [|exact P]. apply in_map_iff in Hh as (h' & E & Hh').
        unfold fact_of in E. injection E as E1 E2 E3. rewrite <- E1. apply in_map, filter_In. split; [exact Hh'|congruence]. }
      rewrite (K _ _ Pd), (K _ _ (Permutation_sym Pd)). reflexivity.
  Qed.
  Lemma fresh_match : forall l, DI l -> qt_matches_fresh l = Ok true.
  Proof.
    intros l (I & B & Hn). destruct (change_d l (ly_bin l) I B) as (Ed & l' & E & I' & _ & _).
    unfold layout_change_bin_d, layout_change_bin in Ed, E. unfold qt_matches_fresh.
    apply rbind_ok in E as (c & E & X). injection X as X. rewrite E in Ed. cbn [rbind] in Ed. apply rbind_ok in Ed as (c' & Ed & Y).
    injection Y as Y. subst c'. rewrite Ed. cbn [rbind].
    pose proof I as (_ & _ & R). destruct I' as (_ & _ & R'). rewrite <- X in R'. cbn [ly_bin ly_items ly_cde] in R'.
    destruct (same_tree _ _ _ _ _ R R' (Permutation_refl _)) as (A & C). rewrite A, C. reflexivity.
  Qed.

  (** *** the operations *)
  Lemma place_d : forall l it d ptr, DI l -> it_shape it = cat (it_id it) -> good_poly (shape_at cat (it_id it) d) ->
    ~ In (it_id it, d) (placed l) ->
    layout_place_d l it d ptr = layout_place l it d ptr /\ exists k l', layout_place l it d ptr = Ok (k, l') /\ DI l'.
  Proof.
    intros l it d ptr (I & B & Hn) Es Gp Nd. pose proof I as (G & Fi & R).
    unfold layout_place_d.
    assert (X : exists k l', layout_place l it d ptr = Ok (k, l') /\ cd_hpg (ly_cde l') = None /\ ly_bin l' = ly_bin l /\
      cde_register_d (ly_cde l) (pi_hazard (pi_new it d ptr)) = cde_register (ly_cde l) (pi_hazard (pi_new it d ptr))).
    { unfold layout_place. destruct (sm_insert (ly_items l) (pi_new it d ptr)) as [k m] eqn:Ei.
      assert (V : op_ok shpE (bin_statics (ly_bin l)) (map pfact (sm_values (ly_items l)), []) (OReg (pi_hazard (pi_new it d ptr)))).
      { cbn [op_ok fst]. split; [cbn; rewrite Es; exact Gp|]. split; [apply pi_denotes; split; cbn; rewrite Es; [reflexivity|exact Gp]|].
        split; [apply pi_not_static|]. rewrite pfact_ents. intros X. apply Nd. apply in_map_iff in X as (p' & E & Hp').
        change (pi_entity p' = pi_entity (pi_new it d ptr)) in E. unfold pi_entity in E. cbn in E. injection E as E1 E2.
        unfold placed. rewrite <- E1, <- E2. apply in_map_iff. eauto. }
      destruct (engine_step _ _ _ _ _ B R Hn V) as (Ed & c' & sn' & E & Hn'). cbn [step step_d] in Ed, E.
      apply rbind_ok in E as (c1 & E1 & E). injection E as <- <-. rewrite E1 in *. cbn [rbind] in *.
      apply rbind_ok in Ed as (c2 & Ed & Y). injection Y as ->. rewrite Ed. cbn [rbind]. eauto 10. }
    destruct X as (k & l' & E & Hn' & Eb & Ed).
    assert (I' : DI l').
    { split; [eapply (place_LI BSok); eassumption|]. split; [rewrite Eb; exact B|exact Hn']. }
    split; [|eauto]. rewrite Ed. unfold layout_place in *. destruct (sm_insert (ly_items l) (pi_new it d ptr)) as [k0 m].
    apply rbind_ok in E as (c & Ec & E). rewrite Ec. cbn [rbind]. injection E as E1 E2. rewrite E2, (fresh_match l' I'). cbn [rbind rassert]. reflexivity.
  Qed.
  Lemma remove_d : forall l k b, DI l -> layout_remove_d l k b = layout_remove l k b /\
    forall p l', layout_remove l k b = Ok (p, l') -> DI l'.
  Proof.
    intros l k b (I & B & Hn). pose proof I as (G & Fi & R). unfold layout_remove_d, layout_remove.
    destruct (sm_remove (ly_items l) k) as [[p m]|] eqn:Er; cbn [expect rbind]; [|split; [reflexivity|discriminate]].
    destruct (remove_fine _ _ _ _ _ Fi Er) as (Fi' & P & Fp & Np).
    assert (V : op_ok shpE (bin_statics (ly_bin l)) (map pfact (sm_values (ly_items l)), []) (ODereg (pi_entity p) b)).
    { cbn [op_ok fst]. rewrite pfact_ents. eapply Permutation_in; [symmetry; apply (Permutation_map pi_entity P)|]. left. reflexivity. }
    destruct (engine_step _ _ _ _ _ B R Hn V) as (Ed & c' & sn' & E & Hn'). cbn [step step_d] in Ed, E.
    apply rbind_ok in E as (c1 & E1 & E). injection E as <- <-. rewrite E1 in *. cbn [rbind] in *.
    apply rbind_ok in Ed as (c2 & Ed & Y). injection Y as ->. rewrite Ed. cbn [rbind].
    assert (I' : DI (Ly (ly_id l) (ly_bin l) m c1)).
    { split; [|split; [exact B|exact Hn']]. eapply (remove_LI BSok cat l k b p); [exact I|]. unfold layout_remove. rewrite Er. cbn [expect rbind].
      rewrite E1. reflexivity. }
    rewrite (fresh_match _ I'). cbn [rbind rassert]. split; [reflexivity|]. intros p' l' X. injection X as <- <-. exact I'.
  Qed.
  Lemma snapshot_d : forall l, DI l -> layout_snapshot_d l = layout_snapshot l /\
    exists s l', layout_snapshot l = Ok (s, l') /\ DI l' /\ SI s /\ ls_bin s = ly_bin l /\ ly_bin l' = ly_bin l.
  Proof.
    intros l (I & B & Hn). pose proof I as (G & Fi & R). unfold layout_snapshot_d.
    destruct (engine_step _ _ _ _ OSnap B R Hn Logic.I) as (Ed & c' & sn' & E & Hn'). cbn [step step_d] in Ed, E.
    apply rbind_ok in E as ([s c1] & E1 & E). injection E as <- <-. rewrite E1 in Ed. cbn [rbind] in Ed.
    apply rbind_ok in Ed as ([s2 c2] & Ed & Y). cbn [app] in Y. injection Y as -> ->. rewrite Ed.
    assert (Es : exists s' l', layout_snapshot l = Ok (s', l') /\ ls_bin s' = ly_bin l /\ ly_bin l' = ly_bin l /\ cd_hpg (ly_cde l') = None).
    { unfold layout_snapshot. rewrite E1. cbn [rbind]. do 2 eexists. split; [reflexivity|]. auto. }
    destruct Es as (s' & l' & Es & Eb & Eb' & Hn2). split; [unfold layout_snapshot; rewrite E1; reflexivity|].
    destruct (snap_SI BSok cat l s' l' I Es) as (Il & Is). exists s', l'. split; [exact Es|].
    split; [split; [exact Il|split; [rewrite Eb'; exact B|exact Hn2]]|]. auto.
  Qed.
  Lemma restore_d : forall l s, DI l -> SI s -> bn_id (ly_bin l) = bn_id (ls_bin s) ->
    layout_restore_d l s = layout_restore l s /\ forall l', layout_restore l s = Ok l' -> DI l'.
  Proof.
    intros l s (I & B & Hn) Ss Eb. pose proof I as (G & Fi & R). unfold layout_restore_d, layout_restore.
    destruct (Nat.eqb (ly_id l) (ls_id s)) eqn:Eid; cbn [rassert rbind]; [|split; [reflexivity|discriminate]].
    pose proof Ss as (_ & Fs & P & Sd).
    pose proof (rel_add _ _ _ _ _ _ R (SI_snap_ok cat s _ Ss G) Sd P) as R1.
    assert (V : op_ok shpE (bin_statics (ly_bin l)) (map pfact (sm_values (ly_items l)), [map pfact (sm_values (ls_items s))]) (ORestore 0))
      by (cbn; lia).
    destruct (engine_step _ _ _ _ _ B R1 Hn V) as (Ed & c' & sn' & E & Hn'). cbn [step step_d nth_error expect rbind] in Ed, E.
    apply rbind_ok in E as (c1 & E1 & E). injection E as <- <-. rewrite E1 in *. cbn [rbind] in *.
    apply rbind_ok in Ed as (c2 & Ed & Y). injection Y as ->. rewrite Ed. cbn [rbind].
    assert (I' : DI (Ly (ly_id l) (ly_bin l) (ls_items s) c1)).
    { split; [|split; [exact B|exact Hn']]. eapply (restore_LI BSok cat l s); [exact I|exact Ss|]. unfold layout_restore. rewrite Eid. cbn [rassert rbind].
      rewrite E1. reflexivity. }
    rewrite (fresh_match _ I'). cbn [rbind rassert].
    assert (Em : layouts_match (Ly (ly_id l) (ly_bin l) (ls_items s) c1) s = true).
    { unfold layouts_match. cbn [ly_bin ly_items]. rewrite Eb, Nat.eqb_refl. cbn [andb]. apply forallb_forall. intros p Hp.
      apply existsb_exists. exists p. split; [exact Hp|]. rewrite Nat.eqb_refl. cbn [andb]. apply deq_ok. reflexivity. }
    rewrite Em. cbn [rassert rbind]. split; [reflexivity|]. intros l' X. injection X as <-. exact I'.
  Qed.
  Lemma new_DI : forall id b, checked_bin b -> DI (layout_new id b).
  Proof. intros id b B. split; [apply (new_LI BSok), B|]. split; [exact B|apply no_grid_bin, B]. Qed.
  Lemma from_snapshot_d : forall s, SI s -> checked_bin (ls_bin s) -> layout_from_snapshot_d s = layout_from_snapshot s /\
    forall l', layout_from_snapshot s = Ok l' -> DI l'.
  Proof. intros s Ss B. apply restore_d; [apply new_DI, B|exact Ss|reflexivity]. Qed.
  Lemma flush_d : forall l, DI l -> layout_flush_d l = layout_flush l /\ forall l', layout_flush l = Ok l' -> DI l'.
  Proof.
    intros l (I & B & Hn). pose proof I as (G & Fi & R). unfold layout_flush_d.
    destruct (engine_step _ _ _ _ OFlush B R Hn Logic.I) as (Ed & c' & sn' & E & Hn'). cbn [step step_d] in Ed, E.
    apply rbind_ok in E as (c1 & E1 & E). injection E as <- <-. rewrite E1 in *. cbn [rbind] in *.
    apply rbind_ok in Ed as (c2 & Ed & Y). injection Y as ->. rewrite Ed. unfold layout_flush. rewrite E1. cbn [rbind].
    split; [reflexivity|]. intros l' X. injection X as <-. split; [|split; [exact B|exact Hn']].
    eapply (flush_LI BSok cat l); [exact I|]. unfold layout_flush. rewrite E1. reflexivity.
  Qed.

  Lemma lstep_d_ok : forall l sn o, DI l -> Forall SI sn -> lop_ok cat l o -> checked_op o ->
    match o with LRestore k => forall s, nth_error sn k = Some s -> bn_id (ly_bin l) = bn_id (ls_bin s) | _ => True end ->
    lstep_d (l, sn) o = lstep (l, sn) o /\ forall l' sn', lstep (l, sn) o = Ok (l', sn') -> DI l' /\ Forall SI sn'.
  Proof.
    intros l sn o I Is V C K. destruct o as [it d ptr|k b|b| |k|]; cbn [lstep_d lstep lop_ok checked_op] in *.
    - destruct V as (V1 & V2 & V3). destruct (place_d l it d ptr I V1 V2 V3) as (Ed & k & l' & E & I'). rewrite Ed, E. cbn [rbind].
      split; [reflexivity|]. intros l1 sn1 X. injection X as <- <-. auto.
    - destruct (remove_d l k b I) as (Ed & Hl). rewrite Ed. split; [reflexivity|]. intros l1 sn1 X.
      apply rbind_ok in X as ([p l2] & E & X). injection X as <- <-. split; [eapply Hl; exact E|exact Is].
    - destruct (change_d l b (proj1 I) C) as (Ed & l' & E & I'). rewrite Ed, E. split; [reflexivity|]. cbn [rbind].
      intros l1 sn1 X. injection X as <- <-. auto.
    - destruct (snapshot_d l I) as (Ed & s & l' & E & I' & Ss & _). rewrite Ed, E. cbn [rbind]. split; [reflexivity|].
      intros l1 sn1 X. injection X as <- <-. split; [exact I'|]. apply Forall_app. auto.
    - destruct (nth_error sn k) as [s|] eqn:En; [|split; [reflexivity|discriminate]]. cbn [expect rbind].
      rewrite Forall_forall in Is. destruct (restore_d l s I (Is s (nth_error_In _ _ En)) (K s eq_refl)) as (Ed & Hl). rewrite Ed.
      split; [reflexivity|]. intros l1 sn1 X. apply rbind_ok in X as (l2 & E & X). injection X as <- <-.
      split; [apply Hl, E|rewrite Forall_forall; exact Is].
    - destruct (flush_d l I) as (Ed & Hl). rewrite Ed. split; [reflexivity|]. intros l1 sn1 X.
      apply rbind_ok in X as (l2 & E & X). injection X as <- <-. split; [apply Hl, E|exact Is].
  Qed.
  Lemma lrun_d : forall ops l sn, DI l -> Forall SI sn -> lops_ok cat (l, sn) ops -> Forall checked_op ops -> bins_kept (l, sn) ops ->
    rfold lstep_d ops (l, sn) = rfold lstep ops (l, sn) /\ forall l' sn', rfold lstep ops (l, sn) = Ok (l', sn') -> DI l' /\ Forall SI sn'.
  Proof.
    induction ops as [|o ops IH]; intros l sn I Is V C K; cbn [rfold].
    - split; [reflexivity|]. intros l' sn' X. injection X as <- <-. auto.
    - cbn [lops_ok bins_kept fst snd] in *. destruct V as (V1 & V2), K as (K1 & K2). inversion C as [|? ? C1 C2]; subst.
      destruct (lstep_d_ok l sn o I Is V1 C1 K1) as (Ed & Hs). rewrite Ed.
      destruct (lstep (l, sn) o) as [[l1 sn1]|] eqn:E; [|split; [reflexivity|discriminate]]. cbn [rbind].
      destruct (Hs l1 sn1 eq_refl) as (I1 & Is1). apply IH; assumption.
  Qed.
  Lemma debug_layout : forall id b ops, checked_bin b -> lops_ok cat (layout_new id b, []) ops -> Forall checked_op ops ->
    bins_kept (layout_new id b, []) ops ->
    rfold lstep_d ops (layout_new id b, []) = rfold lstep ops (layout_new id b, []) /\
    forall l sn, rfold lstep ops (layout_new id b, []) = Ok (l, sn) -> qt_matches_fresh l = Ok true.
  Proof.
    intros id b ops B V C K. destruct (lrun_d ops _ [] (new_DI id b B) (Forall_nil _) V C K) as (Ed & H).
    split; [exact Ed|]. intros l sn E. apply fresh_match. apply (H l sn E).
  Qed.
  (** *** what the checks catch *)
  Lemma place_twice : forall l it d ptr, LI l -> In (it_id it, d) (placed l) -> layout_place_d l it d ptr = Panic.
  Proof.
    intros l it d ptr (G & Fi & R) H. unfold layout_place_d. destruct (sm_insert _ _) as [k m].
    assert (E : cde_register_d (ly_cde l) (pi_hazard (pi_new it d ptr)) = Panic).
    { unfold cde_register_d. assert (K : existsb (ent_is (h_ent (pi_hazard (pi_new it d ptr)))) (cd_dyn (ly_cde l)) = true).
      { unfold placed in H. apply in_map_iff in H as (p & E & Hp). injection E as E1 E2.
        apply (in_map pfact) in Hp. pose proof (rl_facts _ _ _ _ _ _ _ R) as P. cbn [fst] in P.
        eapply Permutation_in in Hp; [|symmetry; exact P]. apply in_map_iff in Hp as (h & Eh & Hh).
        apply existsb_exists. exists h. split; [exact Hh|]. apply ent_eqb_ok.
        unfold fact_of, pfact in Eh. injection Eh as Eh _ _. rewrite Eh. unfold pi_entity. cbn. rewrite E1, E2. reflexivity. }
      rewrite K. reflexivity. }
    rewrite E. reflexivity.
  Qed.
  Lemma restore_other_bin : forall l s, DI l -> SI s -> ly_id l = ls_id s -> bn_id (ly_bin l) <> bn_id (ls_bin s) ->
    layout_restore_d l s = Panic /\ exists l', layout_restore l s = Ok l' /\ ly_bin l' = ly_bin l /\ ly_items l' = ls_items s.
  Proof.
    intros l s (I & B & Hn) Ss Ei Eb. pose proof I as (G & Fi & R). unfold layout_restore_d, layout_restore.
    rewrite Ei, Nat.eqb_refl. cbn [rassert rbind].
    pose proof Ss as (_ & Fs & P & Sd).
    pose proof (rel_add _ _ _ _ _ _ R (SI_snap_ok cat s _ Ss G) Sd P) as R1.
    assert (V : op_ok shpE (bin_statics (ly_bin l)) (map pfact (sm_values (ly_items l)), [map pfact (sm_values (ls_items s))]) (ORestore 0))
      by (cbn; lia).
    destruct (engine_step _ _ _ _ _ B R1 Hn V) as (Ed & c' & sn' & E & Hn'). cbn [step step_d nth_error expect rbind] in Ed, E.
    apply rbind_ok in E as (c1 & E1 & E). injection E as <- <-. rewrite E1 in *. cbn [rbind] in *.
    apply rbind_ok in Ed as (c2 & Ed & Y). injection Y as ->. rewrite Ed. cbn [rbind].
    split; [|eexists; split; [reflexivity|]; split; reflexivity].
    destruct (qt_matches_fresh _) as [b|]; [|reflexivity]. cbn [rbind]. destruct b; [|reflexivity]. cbn [rassert rbind].
    unfold layouts_match. cbn [ly_bin]. apply Nat.eqb_neq in Eb. rewrite Eb. reflexivity.
  Qed.
  Lemma debug_twice : forall id b ops l sn it d ptr, good_bin b -> lops_ok cat (layout_new id b, []) ops ->
    rfold lstep ops (layout_new id b, []) = Ok (l, sn) -> In (it_id it, d) (placed l) -> layout_place_d l it d ptr = Panic.
  Proof.
    intros id b ops l sn it d ptr B V E H. apply place_twice; [|exact H].
    apply (lrun_LI BSok cat ops _ [] l sn (new_LI BSok cat id b B) (Forall_nil _) V E).
  Qed.
  Lemma debug_other_bin : forall id b ops l sn k s, checked_bin b -> lops_ok cat (layout_new id b, []) ops -> Forall checked_op ops ->
    rfold lstep ops (layout_new id b, []) = Ok (l, sn) -> nth_error sn k = Some s -> bn_id (ly_bin l) <> bn_id (ls_bin s) ->
    lstep_d (l, sn) (LRestore k) = Panic /\
    exists l', lstep (l, sn) (LRestore k) = Ok (l', sn) /\ ly_bin l' = ly_bin l /\ ly_items l' = ls_items s.
  Proof.
    intros id b ops l sn k s B V C E Ek Eb.
    assert (K : DI l /\ Forall SI sn /\ Forall (fun s => ls_id s = ly_id l) sn).
    { clear Ek Eb s k. revert V C E. generalize (new_DI id b B). generalize (Forall_nil SI). generalize (Forall_nil (fun s : lsnap => ls_id s = ly_id (layout_new id b))).
      generalize (@nil lsnap) at 1 2 3 4. generalize (layout_new id b) at 1 2 3 4. induction ops as [|o ops IH]; intros l0 sn0 Hid Is I V C E; cbn [rfold] in E.
      - injection E as <- <-. auto.
      - cbn [lops_ok] in V. destruct V as (V1 & V2). cbn [fst] in V1. inversion C as [|? ? C1 C2]; subst.
        destruct (lstep (l0, sn0) o) as [[l1 sn1]|] eqn:Eo; [|discriminate]. cbn [rbind] in E.
        destruct (lstep_LI BSok cat _ _ _ _ _ (proj1 I) Is V1 Eo) as (I1 & Is1).
        assert (X : ly_id l1 = ly_id l0 /\ Forall (fun s => ls_id s = ly_id l0) sn1 /\ DI l1).
        { destruct o as [it d ptr|k b0|b0| |k|]; cbn [lstep lop_ok checked_op] in *.
          - destruct V1 as (A1 & A2 & A3). destruct (place_d l0 it d ptr I A1 A2 A3) as (_ & k & l' & E' & I'). rewrite E' in Eo. cbn [rbind] in Eo.
            injection Eo as <- <-. split; [|auto]. unfold layout_place in E'. destruct (sm_insert _ _). apply rbind_ok in E' as (? & _ & E'). injection E' as _ <-. reflexivity.
          - apply rbind_ok in Eo as ([p l'] & E' & Eo). injection Eo as <- <-. split; [|split; [exact Hid|]].
            + unfold layout_remove in E'. apply rbind_ok in E' as ([p0 m] & _ & E'). apply rbind_ok in E' as (? & _ & E'). injection E' as _ <-. reflexivity.
            + apply (proj2 (remove_d l0 k b0 I) _ _ E').
          - destruct (change_d l0 b0 (proj1 I) C1) as (_ & l' & E' & I'). rewrite E' in Eo. cbn [rbind] in Eo. injection Eo as <- <-.
            split; [|auto]. unfold layout_change_bin in E'. apply rbind_ok in E' as (? & _ & E'). injection E' as <-. reflexivity.
          - destruct (snapshot_d l0 I) as (_ & s & l' & E' & I' & _). rewrite E' in Eo. cbn [rbind] in Eo. injection Eo as <- <-.
            unfold layout_snapshot in E'. apply rbind_ok in E' as ([? ?] & _ & E'). injection E' as <- <-. split; [reflexivity|]. split; [|exact I'].
            apply Forall_app. split; [exact Hid|]. constructor; [reflexivity|constructor].
          - apply rbind_ok in Eo as (s & En & Eo). apply expect_ok in En. apply rbind_ok in Eo as (l' & E' & Eo). injection Eo as <- <-.
            unfold layout_restore in E'. apply rbind_ok in E' as (? & _ & E'). apply rbind_ok in E' as (c & Ec & E'). injection E' as <-.
            split; [reflexivity|]. split; [exact Hid|]. split; [exact I1|]. split; [exact (proj1 (proj2 I))|]. cbn [ly_cde].
            destruct I as (I & B0 & Hn0). pose proof I as (G & Fi & R). rewrite Forall_forall in Is. pose proof (Is s (nth_error_In _ _ En)) as Ss. pose proof Ss as (_ & Fs & P & Sd).
            pose proof (rel_add _ _ _ _ _ _ R (SI_snap_ok cat s _ Ss G) Sd P) as R1.
            destruct (engine_step _ _ _ _ (ORestore 0) B0 R1 Hn0 ltac:(cbn; lia)) as (_ & c' & sn' & E0 & Hn').
            cbn [step nth_error expect rbind] in E0. rewrite Ec in E0. cbn [rbind] in E0. injection E0 as <- _. exact Hn'.
          - apply rbind_ok in Eo as (l' & E' & Eo). injection Eo as <- <-. split; [|split; [exact Hid|]].
            + unfold layout_flush in E'. apply rbind_ok in E' as (? & _ & E'). injection E' as <-. reflexivity.
            + apply (proj2 (flush_d l0 I) _ E'). }
        destruct X as (Xi & Xs & I2). eapply IH; [| | |exact V2|exact C2|exact E]; auto. rewrite Xi. exact Xs. }
    destruct K as (I & Is & Hid). rewrite Forall_forall in Is, Hid. pose proof (nth_error_In _ _ Ek) as Hin.
    destruct (restore_other_bin l s I (Is s Hin) (eq_sym (Hid s Hin)) Eb) as (Ed & l' & E' & H).
    cbn [lstep_d lstep]. rewrite Ek. cbn [expect rbind]. rewrite Ed, E'. split; [reflexivity|]. exists l'. split; [reflexivity|exact H].
  Qed.
End LP.
