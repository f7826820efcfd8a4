(** What importing layouts places where; which bins the layouts of a history have. *)
From Coq Require Import List Bool Arith ZArith Lia Permutation.
From Verif Require Import Base Num GeoModel HazardModel QTModel TransfModel HpgModel CdeModel CdeSpec
  PolyModel SlotMapModel LayoutModel ProblemModel ProblemSpec ParserModel LbfModel IoModel BaseProofs HazVecProofs QTProofs CdeProofs
  SlotMapProofs ProblemProofs ProblemOpsProofs ProblemThmProofs StripProofs.
Import ListNotations.

Section IO.
  Context {F : Type} {N : Num F} {T : Trig F} {ED : EqD (dtransf F)} {BS : BSearch}.
  Local Notation D := (dtransf F).
  Local Notation bin := (bin F D).
  Local Notation layout := (layout F D).
  Local Notation lsnap := (lsnap F D).
  Local Notation solution := (solution F D).
  Local Notation bp := (bp F D).
  Local Notation sp := (sp F D).
  Local Notation pitem := (pitem F D).

  Definition lview (l : layout) : bin * list (nat * D) := (ly_bin l, placed l).
  Definition sview (s : lsnap) : bin * list (nat * D) := (ls_bin s, snap_placed s).
  Definition view (p : bp) := map lview (bp_layouts p).

  Lemma lview_content : forall l l' : layout, content l = content l' -> lview l = lview l'.
  Proof. intros [i b m c] [i' b' m' c'] E. unfold content in E. cbn in E. injection E as <- <- <-. reflexivity. Qed.
  Lemma sview_content : forall s (l : layout), snap_content s = content l -> sview s = lview l.
  Proof. intros [i b m c u] [i' b' m' c'] E. unfold content, snap_content in E. cbn in E. injection E as <- <- <-. reflexivity. Qed.
  Lemma rmapM_map : forall {A B C} (f : A -> res B) (g : B -> C) (h : A -> C) l l', rmapM f l = Ok l' ->
    (forall x y, f x = Ok y -> g y = h x) -> map g l' = map h l.
  Proof.
    intros A B C f g h. induction l as [|x l IH]; intros l' H K; cbn [rmapM] in H; [injection H as <-; reflexivity|].
    apply rbind_ok in H as (y & E & H). apply rbind_ok in H as (r & Er & H). injection H as <-. cbn [map]. f_equal; [exact (K _ _ E)|exact (IH _ Er K)].
  Qed.
  Lemma flush_view : forall p p' : bp, bp_flush p = Ok p' -> view p' = view p /\ bp_templates p' = bp_templates p /\ bp_inst p' = bp_inst p.
  Proof.
    intros p p' H. unfold bp_flush in H. apply rbind_ok in H as (ls & E & H). injection H as <-. unfold view. cbn [bp_layouts bp_templates bp_inst]. split; [|auto].
    unfold flush_all in E. eapply rmapM_map; [exact E|]. intros l l' El. apply lview_content. exact (flush_content _ _ El).
  Qed.
  Lemma create_view : forall (p : bp) s p', bp_create p None = Ok (s, p') -> map sview (so_layouts s) = view p.
  Proof.
    intros p s p' H. unfold bp_create in H. apply rbind_ok in H as (pl & _ & H). cbn [rbind option_map] in H. apply rbind_ok in H as (sl & E & H). injection H as <- _.
    cbn [so_layouts]. rewrite map_map. unfold view. eapply rmapM_map; [exact E|]. intros l [s l'] El. cbn [bp_snapshot_layout] in El. apply snapshot_content in El as (_ & K & _).
    cbn [fst]. apply sview_content. exact K.
  Qed.
  Lemma placed_insert : forall (l l' : layout) it d ptr k, sm_ok (ly_items l) -> layout_place l it d ptr = Ok (k, l') ->
    ly_bin l' = ly_bin l /\ Permutation (placed l') ((it_id it, d) :: placed l) /\ sm_ok (ly_items l').
  Proof.
    intros l l' it d ptr k Sm H. apply place_content in H as (_ & Eb & Ins). split; [exact Eb|].
    pose proof (insert_perm _ (pi_new it d ptr) Sm) as P. pose proof (insert_spec _ (pi_new it d ptr) Sm) as (Sm' & _). rewrite Ins in P, Sm'. cbn [snd] in P, Sm'. split; [|exact Sm'].
    apply (Permutation_map (fun p : pitem => (pi_item p, pi_dt p))) in P. exact P.
  Qed.
  Lemma place_new_view : forall inst (p : bp) t i d ptr r p', ids_ok inst -> BInv inst p [] -> bp_place p (PO (Template t) i d) ptr = Ok (r, p') ->
    exists b q, nth_error (bi_bins inst) t = Some (b, q) /\ fst r = Real (length (bp_layouts p)) /\ view p' = view p ++ [(b, [(i, d)])].
  Proof.
    intros inst p t i d ptr r p' Ids I H. unfold bp_place in H. cbn [po_layout po_item po_dt] in H.
    apply rbind_ok in H as ([j p1] & E1 & H). apply rbind_ok in H as (l & El & H). apply expect_ok in El.
    apply rbind_ok in H as (it & Eit & H). apply item_of_inv in Eit as (q & Eit).
    apply rbind_ok in H as ([k l'] & Epl & H). apply rbind_ok in H as (m & Em & H). injection H as <- <-.
    apply rbind_ok in E1 as (tl & Et & E1). apply expect_ok in Et.
    rewrite (b_tmpl _ _ _ I) in Et. apply nth_template in Et as (b & qb & Hb & ->).
    unfold bp_register_layout in E1. cbn [bp_inst bp_layouts bp_templates bp_missing bp_bins bp_lctr bp_sctr bp_unmod bp_ref bp_removed] in E1.
    apply rbind_ok in E1 as (bins & Ebins & E1). apply rbind_ok in E1 as (m0 & Em0 & E1).
    cbn in Em0. injection Em0 as <-. injection E1 as <- <-.
    cbn [bp_inst bp_layouts bp_templates bp_missing bp_bins bp_lctr bp_sctr bp_unmod bp_ref bp_removed] in *.
    rewrite nth_error_app2, Nat.sub_diag in El by lia. cbn in El. injection El as <-.
    rewrite (b_inst _ _ _ I) in Eit. pose proof (proj1 Ids _ _ _ Eit) as Eid.
    destruct (placed_insert (clone_with_id (layout_new t b) (S (bp_lctr p))) l' it d ptr k new_ok Epl) as (Eb & P & _). rewrite Eid in P. apply Permutation_sym, Permutation_length_1_inv in P.
    exists b, qb. split; [exact Hb|]. split; [reflexivity|]. unfold view. cbn [bp_layouts]. rewrite vset_app, map_app. cbn [map]. unfold lview at 2. rewrite Eb, P. reflexivity.
  Qed.
  Lemma place_real_view : forall inst (p : bp) v b pl i d ptr r p', ids_ok inst -> BInv inst p [] -> view p = v ++ [(b, pl)] ->
    bp_place p (PO (Real (length v)) i d) ptr = Ok (r, p') ->
    exists pl', view p' = v ++ [(b, pl')] /\ Permutation pl' ((i, d) :: pl).
  Proof.
    intros inst p v b pl i d ptr r p' Ids I V H. unfold bp_place in H. cbn [po_layout po_item po_dt rbind] in H.
    apply rbind_ok in H as (l & El & H). apply expect_ok in El.
    apply rbind_ok in H as (it & Eit & H). apply item_of_inv in Eit as (q & Eit).
    apply rbind_ok in H as ([k l'] & Epl & H). apply rbind_ok in H as (m & Em & H). injection H as <- <-.
    rewrite (b_inst _ _ _ I) in Eit. pose proof (proj1 Ids _ _ _ Eit) as Eid.
    destruct (placed_insert _ _ _ _ _ _ (recorded_sm _ _ _ l I (nth_error_In _ _ El)) Epl) as (Eb & P & _). rewrite Eid in P.
    destruct (vset_split (length v) l l' _ El) as (x & y & Es & Ev & Lx). unfold view in *. cbn [bp_layouts]. rewrite Ev. rewrite Es in V.
    rewrite map_app in V |- *. cbn [map] in V |- *.
    assert (K : map lview x = v /\ lview l :: map lview y = [(b, pl)]).
    { clear - V Lx. revert v V Lx. induction x as [|z x IH]; intros [|w v] V L; cbn in *; try discriminate; [auto|].
      injection V as <- V. injection L as L. destruct (IH v V L) as (<- & K). auto. }
    destruct K as (<- & K). injection K as Kb Kp Ky. exists (placed l'). rewrite Ky. unfold lview at 2. rewrite Eb, Kb. split; [reflexivity|]. rewrite <- Kp. exact P.
  Qed.

  (** *** importing bin packing layouts *)
  Variable pre : nat -> transf F.
  Definition imported (b : bin) (l : list (nat * D)) : list (nat * D) := map (fun x => (fst x, import_dt pre b x)) l.
  Lemma put_view : forall inst p ptr b li x r p' ptr', ids_ok inst -> BInv inst p [] -> bp_put pre b li (p, ptr) x = Ok (r, (p', ptr')) ->
    exists k p1, bp_place p (PO li (fst x) (import_dt pre b x)) ptr = Ok ((r, k), p1) /\ view p' = view p1 /\ BInv inst p' [] /\ bp_templates p' = bp_templates p1.
  Proof.
    intros inst p ptr b li x r p' ptr' Ids I H. unfold bp_put in H. apply rbind_ok in H as (it & Eit & H). apply item_of_inv in Eit as (q & Eit).
    rewrite (b_inst _ _ _ I) in Eit. rewrite (proj1 Ids _ _ _ Eit) in H.
    apply rbind_ok in H as ([[r0 k] p1] & Ep & H). apply rbind_ok in H as (p2 & Ef & H). injection H as <- <- _. exists k, p1. split; [exact Ep|].
    destruct (flush_view _ _ Ef) as (V & Et & _). split; [exact V|]. split; [|exact Et].
    eapply flush_inv; [exact (place_inv _ _ _ _ _ _ _ Ids I Ep)|exact Ef].
  Qed.
  Lemma import_rest : forall inst b li xs p ptr p' ptr' v pl, ids_ok inst -> BInv inst p [] -> view p = v ++ [(b, pl)] -> li = Real (length v) ->
    rfold (fun st y => '(_, st') <- bp_put pre b li st y ;; Ok st') xs (p, ptr) = Ok (p', ptr') ->
    BInv inst p' [] /\ exists pl', view p' = v ++ [(b, pl')] /\ Permutation pl' (pl ++ imported b xs).
  Proof.
    intros inst b li. induction xs as [|x xs IH]; intros p ptr p' ptr' v pl Ids I V El H; cbn [rfold] in H.
    - injection H as <- _. split; [exact I|]. exists pl. split; [exact V|]. rewrite app_nil_r. reflexivity.
    - apply rbind_ok in H as ([p1 ptr1] & E & H). apply rbind_ok in E as ([r st] & E & E'). injection E' as ->.
      destruct (put_view _ _ _ _ _ _ _ _ _ Ids I E) as (k & p0 & Ep & V1 & I1 & _). rewrite El in Ep.
      destruct (place_real_view _ _ _ _ _ _ _ _ _ _ Ids I V Ep) as (pl1 & V0 & P1). rewrite V0 in V1.
      destruct (IH p1 ptr1 p' ptr' v pl1 Ids I1 V1 El H) as (I' & pl' & V' & P'). split; [exact I'|]. exists pl'. split; [exact V'|].
      rewrite P', P1. cbn [imported map app]. apply Permutation_middle.
  Qed.
  Definition import_of (inst : bpinst F D) (j : jlayout F) (v : bin * list (nat * D)) : Prop :=
    exists k q, jl_container j = JBin k /\ nth_error (bi_bins inst) k = Some (fst v, q) /\ Permutation (snd v) (imported (fst v) (jl_items j)).
  Lemma import_layout_view : forall inst j p ptr p' ptr', ids_ok inst -> BInv inst p [] -> bp_import_layout pre inst (p, ptr) j = Ok (p', ptr') ->
    BInv inst p' [] /\ exists v, view p' = view p ++ [v] /\ import_of inst j v.
  Proof.
    intros inst j p ptr p' ptr' Ids I H. unfold bp_import_layout in H. apply rbind_ok in H as (b & Eb & H). destruct (jl_container j) as [k|] eqn:Ec; [|discriminate].
    apply rbind_ok in Eb as ([b' q] & Ek & Eb). apply expect_ok in Ek. cbn [fst] in Eb. injection Eb as ->.
    apply rbind_ok in H as (t & Et & H). apply expect_ok in Et. cbn [fst] in Et. destruct (jl_items j) as [|x xs] eqn:Ej; [discriminate|].
    apply rbind_ok in H as ([li [p1 ptr1]] & E1 & H).
    destruct (put_view _ _ _ _ _ _ _ _ _ Ids I E1) as (kk & p0 & Ep & V1 & I1 & _).
    destruct (place_new_view _ _ _ _ _ _ _ _ Ids I Ep) as (b' & q' & Eb' & Er & V0). cbn [fst] in Er. rewrite V0 in V1.
    assert (Bb : b' = b).
    { pose proof (proj2 Ids _ _ _ Ek) as Id1. pose proof (proj2 Ids _ _ _ Eb') as Id2.
      assert (K : bn_id b' = bn_id b).
      { apply position_some in Et as (l1 & l0 & l2 & El0 & Et & Ef & _). apply (f_equal (fun l => nth_error l t)) in El0. rewrite nth_error_app2, Et, Nat.sub_diag in El0 by lia. cbn [nth_error] in El0. rewrite (b_tmpl _ _ _ I) in El0. apply nth_template in El0 as (b0 & q0 & E0 & ->).
        rewrite Eb' in E0. injection E0 as <- <-. apply Nat.eqb_eq in Ef. exact Ef. }
      rewrite <- Id1, <- K, Id2 in Ek. congruence. }
    subst b'.
    assert (El : li = Real (length (view p))) by (rewrite Er; unfold view; rewrite map_length; reflexivity).
    destruct (import_rest _ _ _ _ _ _ _ _ _ _ Ids I1 V1 El H) as (I' & pl & V' & P). split; [exact I'|]. exists (b, pl). split; [exact V'|].
    exists k, q. cbn [fst snd]. rewrite Ej. auto.
  Qed.
  Lemma imports_view : forall inst js p ptr p' ptr', ids_ok inst -> BInv inst p [] -> rfold (bp_import_layout pre inst) js (p, ptr) = Ok (p', ptr') ->
    BInv inst p' [] /\ exists vs, view p' = view p ++ vs /\ Forall2 (import_of inst) js vs.
  Proof.
    induction js as [|j js IH]; intros p ptr p' ptr' Ids I H; cbn [rfold] in H.
    - injection H as <- _. split; [exact I|]. exists []. split; [rewrite app_nil_r; reflexivity|constructor].
    - apply rbind_ok in H as ([p1 ptr1] & E & H). destruct (import_layout_view _ _ _ _ _ _ Ids I E) as (I1 & v & V1 & K1).
      destruct (IH _ _ _ _ Ids I1 H) as (I' & vs & V' & K'). split; [exact I'|]. exists (v :: vs). split; [|constructor; assumption].
      rewrite V', V1, <- app_assoc. reflexivity.
  Qed.
  Lemma bp_import_spec : forall inst js ptr s, ids_ok inst -> bp_import pre inst js ptr = Ok s -> Forall2 (import_of inst) js (map sview (so_layouts s)) /\
    sol_ok (bi_items inst) (map snd (bi_bins inst)) s.
  Proof.
    intros inst js ptr s Ids H. unfold bp_import in H. apply rbind_ok in H as ([p ptr'] & E & H). apply rbind_ok in H as ([s' p'] & Ec & H). injection H as ->.
    destruct (imports_view _ _ _ _ _ _ Ids (new_inv inst) E) as (I & vs & V & K). rewrite (create_view _ _ _ Ec), V. split; [exact K|].
    destruct (create_inv _ _ _ None _ _ I Logic.I Ec) as (I' & _). pose proof (b_sols _ _ _ I') as So. rewrite Forall_forall in So. apply So. apply in_or_app. right. left. reflexivity.
  Qed.

  (** *** importing a strip packing layout *)
  Lemma sp_put_view : forall inst (p : sp) ptr x p' ptr', sids_ok inst -> SInv inst p [] -> sp_put pre (p, ptr) x = Ok (p', ptr') ->
    SInv inst p' [] /\ ly_bin (sp_layout p') = ly_bin (sp_layout p) /\
    Permutation (placed (sp_layout p')) ((fst x, import_dt pre (ly_bin (sp_layout p)) x) :: placed (sp_layout p)).
  Proof.
    intros inst p ptr x p' ptr' Ids I H. unfold sp_put in H. apply rbind_ok in H as (it & Eit & H). apply item_of_inv in Eit as (q & Eit).
    rewrite (s_inst _ _ _ I) in Eit. rewrite (Ids _ _ _ Eit) in H.
    apply rbind_ok in H as ([r p1] & Ep & H). apply rbind_ok in H as (p2 & Ef & H). injection H as <- _.
    pose proof (sp_place_inv _ _ _ _ _ _ _ Ids I Ep) as I1. split; [exact (sp_flush_inv _ _ _ _ I1 Ef)|].
    assert (V : lview (sp_layout p2) = lview (sp_layout p1)).
    { unfold sp_flush in Ef. apply rbind_ok in Ef as (l & El & Ef). injection Ef as <-. cbn [sp_layout]. apply lview_content. exact (flush_content _ _ El). }
    unfold lview in V. injection V as -> ->.
    unfold sp_place in Ep. apply rbind_ok in Ep as (u & _ & Ep). cbn [po_item po_dt] in Ep. apply rbind_ok in Ep as (it' & Eit' & Ep).
    apply item_of_inv in Eit' as (q' & Eit'). rewrite (s_inst _ _ _ I), Eit in Eit'. injection Eit' as <- <-.
    apply rbind_ok in Ep as ([k l] & El & Ep). apply rbind_ok in Ep as (m & _ & Ep). injection Ep as _ <-. cbn [sp_layout].
    destruct (placed_insert _ _ _ _ _ _ (s_sm _ _ _ I) El) as (Eb & P & _). rewrite (Ids _ _ _ Eit) in P. auto.
  Qed.
  Lemma sp_puts_view : forall inst xs (p : sp) ptr p' ptr', sids_ok inst -> SInv inst p [] -> rfold (sp_put pre) xs (p, ptr) = Ok (p', ptr') ->
    SInv inst p' [] /\ ly_bin (sp_layout p') = ly_bin (sp_layout p) /\ Permutation (placed (sp_layout p')) (placed (sp_layout p) ++ imported (ly_bin (sp_layout p)) xs).
  Proof.
    induction xs as [|x xs IH]; intros p ptr p' ptr' Ids I H; cbn [rfold] in H.
    - injection H as <- _. rewrite app_nil_r. auto.
    - apply rbind_ok in H as ([p1 ptr1] & E & H). destruct (sp_put_view _ _ _ _ _ _ Ids I E) as (I1 & B1 & P1).
      destruct (IH _ _ _ _ Ids I1 H) as (I' & B' & P'). split; [exact I'|]. split; [congruence|]. rewrite P', P1, B1. cbn [imported map app]. apply Permutation_middle.
  Qed.
  Lemma sp_import_spec : forall inst js c ptr s, sids_ok inst -> sp_import pre inst js c ptr = Ok s ->
    exists j w h b sn, js = [j] /\ jl_container j = JStrip w h /\ bin_from_strip (Rc f0 f0 w (si_height inst)) c ptr = Ok b /\
      so_layouts s = [sn] /\ ls_bin sn = b /\ Permutation (snap_placed sn) (imported b (jl_items j)) /\ PQ (si_items inst) (so_placed s) (map fst (snap_placed sn)).
  Proof.
    intros inst js c ptr s Ids H. unfold sp_import in H. destruct js as [|j [|? ?]]; [discriminate| |discriminate]. unfold sp_import_layout in H.
    destruct (jl_container j) as [|w h] eqn:Ec; [discriminate|]. apply rbind_ok in H as (p & En & H). apply rbind_ok in H as ([p' ptr'] & Ep & H).
    apply rbind_ok in H as ([s' p''] & Es & H). injection H as ->. pose proof (sp_new_inv _ _ _ _ _ En) as I0.
    destruct (sp_puts_view _ _ _ _ _ _ Ids I0 Ep) as (I & B & P). unfold sp_new in En. apply rbind_ok in En as (b & Eb & En). injection En as <-. cbn [sp_layout layout_new ly_bin] in B, P.
    pose proof (sp_create_inv _ _ _ _ _ I Es) as I'. apply sp_create_spec in Es as (sn & l & Esn & _ & Esol & _). apply snapshot_content in Esn as (_ & Cn & _).
    apply sview_content in Cn. unfold sview, lview in Cn. injection Cn as Cb Cp.
    exists j, w, h, b, sn. split; [reflexivity|]. split; [exact Ec|]. split; [exact Eb|]. assert (Sl : so_layouts s = [sn]) by (rewrite Esol; reflexivity).
    split; [exact Sl|]. split; [congruence|]. split; [rewrite Cp; exact P|].
    pose proof (s_sols _ _ _ I') as So. rewrite Forall_forall in So. destruct (So s) as (sn' & K); [left; reflexivity|]. pose proof (ss_one _ _ _ K) as K1. rewrite Sl in K1. injection K1 as <-.
    pose proof (ss_placed _ _ _ K) as K2. unfold snap_placed. rewrite map_map. exact K2.
  Qed.

  (** *** exporting *)
  Definition exported (b : bin) (l : list (nat * D)) : list (nat * D) :=
    map (fun x => (fst x, decompose (internal_to_absolute (snd x) (pre (fst x)) (bn_pre b)))) l.
  Lemma export_items_ok : forall (items : list (item F * nat)) (b : bin) (l : list pitem), Forall (fun i => i < length items) (map (@pi_item F D) l) ->
    rmapM (export_item pre items b) l = Ok (exported b (map (fun p => (pi_item p, pi_dt p)) l)).
  Proof.
    intros items b. induction l as [|p l IH]; intros H; cbn [rmapM map] in *; [reflexivity|]. inversion H as [|? ? H1 H2]; subst.
    unfold export_item at 1, item_of. destruct (nth_error items (pi_item p)) as [[it q]|] eqn:E; [|apply nth_error_None in E; lia]. cbn [expect rbind].
    rewrite (IH H2). reflexivity.
  Qed.
  Lemma export_ok : forall (items : list (item F * nat)) (ct : bin -> jcontainer F) (s : solution),
    Forall (fun i => i < length items) (flat_map c_list (map snap_content (so_layouts s))) ->
    compose_json pre items ct s = Ok (JS (so_usage s) (map (fun sn => JL (ct (ls_bin sn)) (exported (ls_bin sn) (snap_placed sn)) (ls_usage sn)) (so_layouts s))).
  Proof.
    intros items ct s H. unfold compose_json. assert (E : rmapM (export_layout pre items ct) (so_layouts s) = Ok (map (fun sn => JL (ct (ls_bin sn)) (exported (ls_bin sn) (snap_placed sn)) (ls_usage sn)) (so_layouts s))).
    { induction (so_layouts s) as [|sn l IH]; cbn [rmapM map flat_map] in *; [reflexivity|]. apply Forall_app in H as (H1 & H2).
      unfold export_layout at 1. rewrite export_items_ok by exact H1. cbn [rbind]. rewrite (IH H2). reflexivity. }
    rewrite E. reflexivity.
  Qed.
End IO.
