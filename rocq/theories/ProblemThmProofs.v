(** What the bookkeeping invariants say about histories of API calls. *)
From Coq Require Import List Bool Arith ZArith Lia Permutation.
From Verif Require Import Base Num GeoModel HazardModel QTModel TransfModel HpgModel CdeModel
  PolyModel SlotMapModel LayoutModel ProblemModel ProblemSpec BaseProofs CdeSpec SlotMapProofs ProblemProofs
  ProblemOpsProofs StripProofs.
Import ListNotations.

Lemma rfold_app : forall {A B} (f : B -> A -> res B) l l' s, rfold f (l ++ l') s = (s' <- rfold f l s ;; rfold f l' s').
Proof.
  induction l as [|x l IH]; intros l' s; cbn [rfold app]; [reflexivity|].
  destruct (f s x); cbn [rbind]; auto.
Qed.

Lemma nth_ext : forall {A} (l l' : list A), (forall i, nth_error l i = nth_error l' i) -> l = l'.
Proof.
  induction l as [|x l IH]; intros [|y l'] H; auto.
  - specialize (H 0). discriminate.
  - specialize (H 0). discriminate.
  - pose proof (H 0) as H0. injection H0 as ->. f_equal. apply IH. intros i. exact (H (S i)).
Qed.

Section PT.
  Context {F : Type} {N : Num F} {D : Type} {ED : EqD D} {BS : BSearch} {DC : DComp F D}.
  Local Notation item := (item F).
  Local Notation bin := (bin F D).
  Local Notation layout := (layout F D).
  Local Notation lsnap := (lsnap F D).
  Local Notation solution := (solution F D).
  Local Notation bp := (bp F D).
  Local Notation sp := (sp F D).
  Local Notation pitem := (pitem F D).

  (** *** accounting *)
  Lemma bp_demand : forall items bins inst ovf ops (p : bp) h i it q,
    bpinst_new items bins = Ok inst -> bp_run ovf inst ops = Ok (p, h) -> nth_error items i = Some (it, q) ->
    nth_error (bp_missing p) i = Some (Z.of_nat q - Z.of_nat (copies i (bp_layouts p)))%Z.
  Proof.
    intros items bins inst ovf ops p h i it q Hi Hr Hn.
    pose proof (b_miss _ _ _ (run_inv _ _ _ _ _ (inst_ids _ _ _ Hi) Hr)) as (_ & _ & K).
    assert (bi_items inst = items) as E
      by (unfold bpinst_new in Hi; apply rbind_ok in Hi as (? & _ & Hi); injection Hi as <-; reflexivity).
    rewrite E in K. apply (K _ _ _ Hn).
  Qed.
  Lemma sp_demand : forall items hgt inst ovf tol w c ptr ops (p : sp) h i it q,
    spinst_new items hgt = Ok inst -> sp_run ovf tol inst w c ptr ops = Ok (p, h) ->
    nth_error items i = Some (it, q) ->
    nth_error (sp_missing p) i = Some (Z.of_nat q - Z.of_nat (copies i [sp_layout p]))%Z.
  Proof.
    intros items hgt inst ovf tol w c ptr ops p h i it q Hi Hr Hn.
    pose proof (s_miss _ _ _ (srun_inv _ _ _ _ _ _ _ _ _ (sinst_ids _ _ _ Hi) Hr)) as (_ & _ & K).
    assert (si_items inst = items) as E
      by (unfold spinst_new in Hi; apply rbind_ok in Hi as (? & _ & Hi); injection Hi as <-; reflexivity).
    rewrite E in K. rewrite (K _ _ _ Hn). unfold copies, items_in, lst. cbn [flat_map].
    rewrite app_nil_r. reflexivity.
  Qed.

  Lemma bp_stock : forall items bins inst ovf ops (p : bp) h b x n,
    bpinst_new items bins = Ok inst -> bp_run ovf inst ops = Ok (p, h) -> nth_error bins b = Some (x, n) ->
    exists a, nth_error (bp_bins p) b = Some a /\ a + open_of b (bp_layouts p) = n.
  Proof.
    intros items bins inst ovf ops p h b x n Hi Hr Hn.
    pose proof (b_stock _ _ _ (run_inv _ _ _ _ _ (inst_ids _ _ _ Hi) Hr)) as (_ & K).
    assert (bi_bins inst = bins) as E
      by (unfold bpinst_new in Hi; apply rbind_ok in Hi as (? & _ & Hi); injection Hi as <-; reflexivity).
    rewrite E in K. apply (K b n). rewrite (map_nth_error _ _ _ Hn). reflexivity.
  Qed.
  Lemma bp_no_empty : forall items bins inst ovf ops (p : bp) h l,
    bpinst_new items bins = Ok inst -> bp_run ovf inst ops = Ok (p, h) -> In l (bp_layouts p) -> placed l <> [].
  Proof.
    intros items bins inst ovf ops p h l Hi Hr Hl.
    pose proof (b_ne _ _ _ (run_inv _ _ _ _ _ (inst_ids _ _ _ Hi) Hr)) as K.
    rewrite Forall_forall in K. specialize (K l Hl). unfold placed. destruct (sm_values (ly_items l)); [congruence|discriminate].
  Qed.
  Lemma bp_refused : forall items bins inst ovf ops (p : bp) h t i d ptr,
    bpinst_new items bins = Ok inst -> bp_run ovf inst ops = Ok (p, h) -> nth_error (bp_bins p) t = Some 0 ->
    bp_place p (PO (Template t) i d) ptr = Panic.
  Proof.
    intros items bins inst ovf ops p h t i d ptr Hi Hr Hn.
    pose proof (run_inv _ _ _ _ _ (inst_ids _ _ _ Hi) Hr) as I.
    unfold bp_place. cbn [po_layout]. rewrite (b_tmpl _ _ _ I).
    destruct (nth_error (bp_templates (bp_new inst)) t) as [tl|] eqn:E; [|reflexivity].
    cbn [expect rbind]. apply nth_template in E as (b & q & E & ->).
    pose proof (proj2 (inst_ids _ _ _ Hi) _ _ _ E) as Eb.
    unfold bp_register_layout, clone_with_id, layout_new. cbn [ly_bin ly_items ly_cde ly_id bp_bins].
    unfold register_bin. rewrite Eb, Hn. reflexivity.
  Qed.

  (** *** identifiers *)
  Lemma bp_ids : forall items bins inst ovf ops (p : bp) h,
    bpinst_new items bins = Ok inst -> bp_run ovf inst ops = Ok (p, h) ->
    NoDup (map (@ly_id F D) (bp_layouts p)) /\ NoDup (map (@so_id F D) h) /\
    Forall (fun s => NoDup (map (@ls_id F D) (so_layouts s))) h.
  Proof.
    intros items bins inst ovf ops p h Hi Hr. pose proof (run_inv _ _ _ _ _ (inst_ids _ _ _ Hi) Hr) as I.
    split; [|split].
    - pose proof (b_ids _ _ _ I) as H. rewrite map_app in H. eapply nodup_app_l; eassumption.
    - exact (b_sids _ _ _ I).
    - eapply Forall_impl; [|exact (b_sols _ _ _ I)]. intros s H. exact (sk_ids _ _ _ H).
  Qed.
  Lemma sp_ids : forall items hgt inst ovf tol w c ptr ops (p : sp) h,
    spinst_new items hgt = Ok inst -> sp_run ovf tol inst w c ptr ops = Ok (p, h) -> NoDup (map (@so_id F D) h).
  Proof.
    intros items hgt inst ovf tol w c ptr ops p h Hi Hr. exact (s_sids _ _ _ (srun_inv _ _ _ _ _ _ _ _ _ (sinst_ids _ _ _ Hi) Hr)).
  Qed.

  Lemma dereg_ctr : forall (p : bp) li p', bp_deregister_layout p li = Ok p' ->
    bp_lctr p' = bp_lctr p /\ bp_sctr p' = bp_sctr p.
  Proof.
    intros p [i|t] p' H; cbn [bp_deregister_layout] in H; [|discriminate].
    apply rbind_ok in H as ((l & ls) & _ & H). apply rbind_ok in H as (bins & _ & H).
    apply rbind_ok in H as (m & _ & H). injection H as <-. auto.
  Qed.
  Lemma step_ctr : forall ovf (p : bp) h o p' h', bstep ovf (p, h) o = Ok (p', h') ->
    bp_lctr p <= bp_lctr p' /\ bp_sctr p <= bp_sctr p'.
  Proof.
    intros ovf p h o p' h' H. destruct o as [o ptr|li k b|li|old|k|]; cbn [bstep] in H.
    - apply rbind_ok in H as ((r & px) & H1 & H). injection H as <- <-. unfold bp_place in H1.
      apply rbind_ok in H1 as ((i & p1) & H0 & H1).
      assert (bp_lctr p <= bp_lctr p1 /\ bp_sctr p <= bp_sctr p1) as K.
      { destruct (po_layout o) as [j|t]; [injection H0 as _ <-; auto|].
        apply rbind_ok in H0 as (tl & _ & H0). unfold bp_register_layout in H0.
        apply rbind_ok in H0 as (bins & _ & H0). apply rbind_ok in H0 as (m & _ & H0).
        injection H0 as _ <-. cbn. auto. }
      apply rbind_ok in H1 as (l & _ & H1). apply rbind_ok in H1 as (it & _ & H1).
      apply rbind_ok in H1 as ((kk & l') & _ & H1). apply rbind_ok in H1 as (m & _ & H1).
      injection H1 as _ <-. exact K.
    - apply rbind_ok in H as ((r & p1) & H1 & H). injection H as <- <-. unfold bp_remove in H1.
      destruct li as [i|t]; [|discriminate].
      apply rbind_ok in H1 as (l & _ & H1). apply rbind_ok in H1 as ((pi & l') & _ & H1).
      apply rbind_ok in H1 as (p2 & H2 & H1). apply rbind_ok in H1 as (m & _ & H1). injection H1 as _ <-.
      cbn [bp_lctr bp_sctr]. destruct (layout_is_empty l').
      + apply dereg_ctr in H2 as (-> & ->). auto.
      + injection H2 as <-. auto.
    - apply rbind_ok in H as (p1 & H1 & H). injection H as <- <-. apply dereg_ctr in H1 as (-> & ->). auto.
    - apply rbind_ok in H as (old' & _ & H). apply rbind_ok in H as ((s' & p1) & H1 & H). injection H as <- <-.
      unfold bp_create in H1. apply rbind_ok in H1 as (pl & _ & H1). apply rbind_ok in H1 as (u & _ & H1).
      apply rbind_ok in H1 as (sl & _ & H1). injection H1 as _ <-. cbn. auto.
    - apply rbind_ok in H as (s' & _ & H). apply rbind_ok in H as (p1 & H1 & H). injection H as <- <-.
      unfold bp_restore in H1. apply rbind_ok in H1 as (ls & _ & H1). apply rbind_ok in H1 as (m & _ & H1).
      apply rbind_ok in H1 as (u & _ & H1). injection H1 as <-. cbn. auto.
    - apply rbind_ok in H as (p1 & H1 & H). injection H as <- <-. unfold bp_flush in H1.
      apply rbind_ok in H1 as (ls & _ & H1). injection H1 as <-. cbn. auto.
  Qed.
  Lemma run_ctr : forall ovf ops (p : bp) h p' h', rfold (bstep ovf) ops (p, h) = Ok (p', h') ->
    bp_lctr p <= bp_lctr p' /\ bp_sctr p <= bp_sctr p'.
  Proof.
    intros ovf. induction ops as [|o ops IH]; intros p h p' h' H; cbn [rfold] in H.
    - injection H as <- <-. auto.
    - apply rbind_ok in H as ((p1 & h1) & H1 & H). apply step_ctr in H1. apply IH in H. lia.
  Qed.
  (** a layout opened from a template has an identifier never seen before *)
  Lemma bp_fresh : forall items bins inst ovf ops1 ops2 (p1 : bp) h1 p h t i d ptr r p',
    bpinst_new items bins = Ok inst ->
    bp_run ovf inst ops1 = Ok (p1, h1) -> bp_run ovf inst (ops1 ++ ops2) = Ok (p, h) ->
    bp_place p (PO (Template t) i d) ptr = Ok (r, p') ->
    exists l, In l (bp_layouts p') /\ placed l = [(i, d)] /\
      ~ In (ly_id l) (map (@ly_id F D) (bp_templates p1 ++ bp_layouts p1)) /\
      ~ In (ly_id l) (flat_map (fun s => map (@ls_id F D) (so_layouts s)) h).
  Proof.
    intros items bins inst ovf ops1 ops2 p1 h1 p h t i d ptr r p' Hi H1 H Hp.
    pose proof (inst_ids _ _ _ Hi) as Io.
    pose proof (run_inv _ _ _ _ _ Io H1) as I1. pose proof (run_inv _ _ _ _ _ Io H) as I.
    unfold bp_run in H1, H. rewrite rfold_app, H1 in H. cbn [rbind] in H. apply run_ctr in H as (Hc & _).
    unfold bp_place in Hp. cbn [po_layout po_item po_dt] in Hp.
    apply rbind_ok in Hp as ((j & q) & H0 & Hp). apply rbind_ok in H0 as (tl & Et & H0).
    destruct (nth_error (bp_templates p) t) as [tl'|] eqn:Etl; [|discriminate]. injection Et as ->.
    rewrite (b_tmpl _ _ _ I) in Etl. apply nth_template in Etl as (b & n & Eb & ->).
    unfold bp_register_layout in H0. apply rbind_ok in H0 as (bins' & _ & H0).
    apply rbind_ok in H0 as (m & _ & H0). injection H0 as <- <-.
    cbn [bp_layouts bp_inst bp_templates bp_missing bp_bins bp_lctr bp_sctr bp_unmod bp_ref bp_removed] in Hp.
    rewrite nth_error_app2, Nat.sub_diag in Hp by lia. cbn [nth_error expect rbind] in Hp.
    apply rbind_ok in Hp as (it & Eit & Hp). apply rbind_ok in Hp as ((k & l') & Hl & Hp).
    apply rbind_ok in Hp as (m' & _ & Hp). injection Hp as <- <-. cbn [bp_layouts].
    pose proof (place_content _ _ _ _ _ _ Hl) as (Eid & _ & Ein).
    unfold clone_with_id, layout_new in Eid, Ein. cbn [ly_id ly_items] in Eid, Ein.
    exists l'. split; [|split; [|split]].
    - rewrite vset_app. apply in_or_app. right. left. reflexivity.
    - unfold placed. injection Ein as _ <-. cbn. apply item_of_inv in Eit as (n' & Eit).
      rewrite (b_inst _ _ _ I) in Eit. rewrite (proj1 Io _ _ _ Eit). reflexivity.
    - rewrite Eid, map_app. intros J. apply in_app_or in J as [J|J].
      + rewrite (b_tmpl _ _ _ I1) in J. apply in_map_iff in J as (x & Ex & J).
        apply In_nth_error in J as (n0 & J). pose proof J as J'. apply nth_template in J as (b' & q' & J & ->).
        cbn in Ex. assert (n0 < length (bi_bins inst)) by (apply nth_error_Some; congruence).
        pose proof (b_ctr _ _ _ I). lia.
      + apply in_map_iff in J as (x & Ex & J).
        assert (c_id (content x) <= bp_lctr p1) as K.
        { apply (ci_le _ _ (b_rec _ _ _ I1)). unfold recorded. apply in_or_app. left. apply in_map.
          apply in_or_app. auto. }
        unfold c_id, ProblemSpec.content in K. cbn in K. lia.
    - rewrite Eid. intros J. apply in_flat_map in J as (s & Hs & J). apply in_map_iff in J as (x & Ex & J).
      assert (c_id (snap_content x) <= bp_lctr p) as K.
      { apply (ci_le _ _ (b_rec _ _ _ I)). unfold recorded. apply in_or_app. right.
        apply in_flat_map. exists s. split; [exact Hs|]. apply in_map. exact J. }
      unfold c_id, snap_content in K. cbn in K. lia.
  Qed.
  (** a created solution has an identifier never seen before *)
  Lemma bp_fresh_sol : forall items bins inst ovf ops (p : bp) h old s p',
    bpinst_new items bins = Ok inst -> bp_run ovf inst ops = Ok (p, h) -> bp_create p old = Ok (s, p') ->
    ~ In (so_id s) (map (@so_id F D) h).
  Proof.
    intros items bins inst ovf ops p h old s p' Hi Hr Hc J.
    pose proof (b_sle _ _ _ (run_inv _ _ _ _ _ (inst_ids _ _ _ Hi) Hr)) as K.
    rewrite Forall_forall in K. apply in_map_iff in J as (x & Ex & J). specialize (K x J).
    unfold bp_create in Hc. apply rbind_ok in Hc as (pl & _ & Hc). apply rbind_ok in Hc as (u & _ & Hc).
    apply rbind_ok in Hc as (sl & _ & Hc). injection Hc as <- _. cbn in Ex. lia.
  Qed.
  Lemma replace_id : forall xs (p p' : sp), rfold replace_item xs p = Ok p' ->
    ly_id (sp_layout p') = ly_id (sp_layout p) /\ ly_bin (sp_layout p') = ly_bin (sp_layout p).
  Proof.
    induction xs as [|[[i d] ptr] xs IH]; intros p p' H; cbn [rfold] in H; [injection H as <-; auto|].
    apply rbind_ok in H as (p1 & H1 & H). apply IH in H as (-> & ->). unfold replace_item in H1.
    apply rbind_ok in H1 as (it & _ & H1). apply rbind_ok in H1 as (b & _ & H1).
    destruct b; [injection H1 as <-; auto|]. apply rbind_ok in H1 as ((r & p2) & H2 & H1). injection H1 as <-.
    unfold sp_place in H2. apply rbind_ok in H2 as (u & _ & H2). apply rbind_ok in H2 as (it' & _ & H2).
    apply rbind_ok in H2 as ((k & l) & Hl & H2). apply rbind_ok in H2 as (m & _ & H2). injection H2 as _ <-.
    cbn [sp_layout]. apply place_content in Hl as (-> & -> & _). auto.
  Qed.
  (** a resized strip gets a layout identifier never seen before *)
  Lemma sp_fresh : forall items hgt inst ovf tol w c ptr0 ops (p : sp) h r ptr p',
    spinst_new items hgt = Ok inst -> sp_run ovf tol inst w c ptr0 ops = Ok (p, h) ->
    modify_strip p r ptr = Ok p' ->
    ~ In (ly_id (sp_layout p')) (ly_id (sp_layout p) :: flat_map (fun s => map (@ls_id F D) (so_layouts s)) h).
  Proof.
    intros items hgt inst ovf tol w c ptr0 ops p h r ptr p' Hi Hr Hm J.
    pose proof (srun_inv _ _ _ _ _ _ _ _ _ (sinst_ids _ _ _ Hi) Hr) as I.
    unfold modify_strip in Hm. apply rbind_ok in Hm as (m & _ & Hm). apply rbind_ok in Hm as (b & _ & Hm).
    apply replace_id in Hm as (E & _). cbn [sp_layout layout_new ly_id] in E. rewrite E in J.
    destruct J as [J|J].
    - assert (c_id (content (sp_layout p)) <= sp_lctr p) as K
        by (apply (ci_le _ _ (s_rec _ _ _ I)); left; reflexivity).
      unfold c_id, ProblemSpec.content in K. cbn in K. lia.
    - apply in_flat_map in J as (s & Hs & J). apply in_map_iff in J as (x & Ex & J).
      assert (c_id (snap_content x) <= sp_lctr p) as K.
      { apply (ci_le _ _ (s_rec _ _ _ I)). right. apply in_flat_map. exists s. split; [exact Hs|].
        apply in_map. exact J. }
      unfold c_id, snap_content in K. cbn in K. lia.
  Qed.

  (** *** restoring *)
  Lemma MS_fun : forall (items : list (item * nat)) m m' L L', Permutation L L' -> MS items m L -> MS items m' L' -> m = m'.
  Proof.
    intros items m m' L L' P H H'. apply (MS_perm _ _ _ _ P) in H. destruct H as (E & _ & K), H' as (E' & _ & K').
    apply nth_ext. intros i. destruct (nth_error items i) as [[it q]|] eqn:G.
    - rewrite (K _ _ _ G), (K' _ _ _ G). reflexivity.
    - apply nth_error_None in G. transitivity (@None Z); [|symmetry]; apply nth_error_None; lia.
  Qed.

  Lemma last_nth : forall {A} (l : list A) x, nth_error (l ++ [x]) (length (l ++ [x]) - 1) = Some x.
  Proof.
    intros A l x. rewrite app_length, Nat.add_1_r. cbn. rewrite Nat.sub_0_r, nth_error_app2, Nat.sub_diag by lia.
    reflexivity.
  Qed.

  Lemma bp_restored : forall items bins inst ovf ops1 o ops2 (p1 : bp) h1 p2 h2,
    bpinst_new items bins = Ok inst ->
    bp_run ovf inst (ops1 ++ [BCreate o]) = Ok (p1, h1) ->
    bp_run ovf inst (ops1 ++ [BCreate o] ++ ops2 ++ [BRestore (length h1 - 1)]) = Ok (p2, h2) ->
    bp_missing p2 = bp_missing p1 /\ bp_bins p2 = bp_bins p1 /\
    Permutation (map content (bp_layouts p2)) (map content (bp_layouts p1)).
  Proof.
    intros items bins inst ovf ops1 o ops2 p1 h1 p2 h2 Hi H1 H2. pose proof (inst_ids _ _ _ Hi) as Io.
    pose proof (run_inv _ _ _ _ _ Io H1) as I1. pose proof (run_inv _ _ _ _ _ Io H2) as I2.
    unfold bp_run in H1, H2. rewrite app_assoc, rfold_app, H1 in H2. cbn [rbind] in H2.
    rewrite rfold_app in H1. apply rbind_ok in H1 as ((p0 & h0) & H0 & H1).
    pose proof (run_inv_from _ _ _ _ _ _ _ Io (new_inv inst) H0) as I0.
    cbn [rfold rbind] in H1. apply rbind_ok in H1 as ((px & hx) & H1 & E). injection E as -> ->.
    cbn [bstep] in H1. apply rbind_ok in H1 as (old & Eo & H1). apply rbind_ok in H1 as ((s & py) & Hc & H1).
    injection H1 as -> <-.
    assert (match old with Some s => In s h0 | None => True end) as Hold.
    { destruct o as [k|]; [|injection Eo as <-; exact I]. apply rbind_ok in Eo as (s' & Es & Eo). injection Eo as <-.
      destruct (nth_error h0 k) eqn:En; [|discriminate]. injection Es as <-. eapply nth_error_In; eassumption. }
    destruct (create_content _ _ _ _ _ _ I0 Hold Hc) as (sl & E1 & E2 & E3 & E4 & _ & Epl & Es & Ep).
    rewrite rfold_app in H2. apply rbind_ok in H2 as ((p3 & h3) & H3 & H2).
    pose proof (run_inv_from _ _ _ _ _ _ _ Io I1 H3) as I3.
    apply run_hist in H3 as (t & Et).
    cbn [rfold] in H2. apply rbind_ok in H2 as ((p4 & h4) & H2 & E). injection E as -> ->.
    cbn [bstep] in H2. apply rbind_ok in H2 as (s' & En & H2). apply rbind_ok in H2 as (p5 & H2 & E).
    injection E as -> ->.
    assert (s' = s) as ->.
    { rewrite Et in En. rewrite nth_error_app1 in En.
      - rewrite last_nth in En. injection En as <-. reflexivity.
      - rewrite app_length. cbn. lia. }
    assert (In s h2) as Hs by (rewrite Et; apply in_or_app; left; apply in_or_app; right; left; reflexivity).
    pose proof (restore_layouts _ _ _ _ _ _ I3 Hs H2) as P.
    rewrite <- E1, E4, <- E3, <- E2 in P.
    split; [|split; [|exact P]].
    - refine (MS_fun _ _ _ _ _ _ (b_miss _ _ _ I2) (b_miss _ _ _ I1)).
      rewrite !items_in_c. apply Permutation_flat_map. exact P.
    - unfold bp_restore in H2. apply rbind_ok in H2 as (ls & _ & H2). apply rbind_ok in H2 as (m & _ & H2).
      apply rbind_ok in H2 as (u & _ & H2). injection H2 as <-. cbn [bp_bins]. rewrite Es, Ep. reflexivity.
  Qed.
  Lemma sp_restored : forall items hgt inst ovf tol w c ptr ops1 ops2 (p1 : sp) h1 p2 h2,
    spinst_new items hgt = Ok inst ->
    sp_run ovf tol inst w c ptr (ops1 ++ [SCreate]) = Ok (p1, h1) ->
    sp_run ovf tol inst w c ptr (ops1 ++ [SCreate] ++ ops2 ++ [SRestore (length h1 - 1)]) = Ok (p2, h2) ->
    sp_missing p2 = sp_missing p1 /\ content (sp_layout p2) = content (sp_layout p1).
  Proof.
    intros items hgt inst ovf tol w c ptr ops1 ops2 p1 h1 p2 h2 Hi H1 H2. pose proof (sinst_ids _ _ _ Hi) as Io.
    pose proof (srun_inv _ _ _ _ _ _ _ _ _ Io H1) as I1. pose proof (srun_inv _ _ _ _ _ _ _ _ _ Io H2) as I2.
    unfold sp_run in H1, H2. destruct (sp_new inst w c ptr) as [pn|] eqn:En; [|discriminate].
    cbn [rbind] in H1, H2. rewrite app_assoc, rfold_app, H1 in H2. cbn [rbind] in H2.
    rewrite rfold_app in H1. apply rbind_ok in H1 as ((p0 & h0) & H0 & H1).
    pose proof (srun_inv_from _ _ _ _ _ _ _ _ Io (sp_new_inv _ _ _ _ _ En) H0) as I0.
    cbn [rfold rbind] in H1. apply rbind_ok in H1 as ((px & hx) & H1 & E). injection E as -> ->.
    cbn [sstep] in H1. apply rbind_ok in H1 as ((s & py) & Hc & H1). injection H1 as -> <-.
    destruct (sp_create_spec _ _ _ Hc) as (sn & l & Hl & Epl & Es & Ep).
    apply snapshot_content in Hl as (El1 & El2 & _).
    rewrite rfold_app in H2. apply rbind_ok in H2 as ((p3 & h3) & H3 & H2).
    pose proof (srun_inv_from _ _ _ _ _ _ _ _ Io I1 H3) as I3.
    apply srun_hist in H3 as (t & Et).
    cbn [rfold] in H2. apply rbind_ok in H2 as ((p4 & h4) & H2 & E). injection E as -> ->.
    cbn [sstep] in H2. apply rbind_ok in H2 as (s' & Ek & H2). apply rbind_ok in H2 as (p5 & H2 & E).
    injection E as -> ->.
    assert (s' = s) as ->.
    { rewrite Et in Ek. rewrite nth_error_app1 in Ek.
      - rewrite last_nth in Ek. injection Ek as <-. reflexivity.
      - rewrite app_length. cbn. lia. }
    assert (In s h2) as Hs by (rewrite Et; apply in_or_app; left; apply in_or_app; right; left; reflexivity).
    destruct (sp_restore_content _ _ _ _ _ _ I3 Hs H2) as (sn' & m & Esn & Ec & _ & _).
    rewrite Es in Esn. cbn [so_layouts] in Esn. injection Esn as <-.
    assert (content (sp_layout p2) = content (sp_layout p1)) as E by (rewrite Ec, El2, <- El1, Ep; reflexivity).
    split; [|exact E]. refine (MS_fun _ _ _ _ _ _ (s_miss _ _ _ I2) (s_miss _ _ _ I1)).
    unfold lst. unfold ProblemSpec.content in E. injection E as _ _ ->. apply Permutation_refl.
  Qed.

  (** *** incremental solutions *)
  Lemma usage_of_content : forall ls ls' : list layout, map content ls = map content ls' -> usage_of ls = usage_of ls'.
  Proof.
    intros ls ls' E. unfold usage_of. generalize (@f0 F N, @f0 F N). revert ls' E.
    assert (forall ls ls' : list layout, map content ls = map content ls' -> forall a,
      fold_left (fun acc l => (fadd (fst acc) (bn_area (ly_bin l)), fadd (snd acc) (fmul (bn_area (ly_bin l)) (layout_usage l)))) ls a =
      fold_left (fun acc l => (fadd (fst acc) (bn_area (ly_bin l)), fadd (snd acc) (fmul (bn_area (ly_bin l)) (layout_usage l)))) ls' a) as K.
    { induction ls0 as [|l ls0 IH]; intros [|l' ls'] E a; cbn [map] in E; try discriminate; auto.
      assert (content l = content l' /\ map content ls0 = map content ls') as (E1 & E2) by (split; congruence).
      cbn [fold_left]. rewrite (layout_usage_content _ _ E1).
      assert (ly_bin l = ly_bin l') as -> by (unfold ProblemSpec.content in E1; congruence).
      apply IH. exact E2. }
    intros ls' E a. rewrite (K ls ls' E a). reflexivity.
  Qed.
  Lemma bp_incremental : forall items bins inst ovf ops (p : bp) h s s1 p1 s2 p2,
    bpinst_new items bins = Ok inst -> bp_run ovf inst ops = Ok (p, h) -> In s h ->
    bp_create p None = Ok (s1, p1) -> bp_create p (Some s) = Ok (s2, p2) ->
    map snap_content (so_layouts s2) = map snap_content (so_layouts s1) /\
    map (@ls_usage F D) (so_layouts s2) = map (@ls_usage F D) (so_layouts s1) /\
    so_id s2 = so_id s1 /\ so_usage s2 = so_usage s1 /\ so_placed s2 = so_placed s1 /\
    so_target s2 = so_target s1 /\ so_bins s2 = so_bins s1.
  Proof.
    intros items bins inst ovf ops p h s s1 p1 s2 p2 Hi Hr Hs H1 H2.
    pose proof (run_inv _ _ _ _ _ (inst_ids _ _ _ Hi) Hr) as I.
    destruct (create_content inst p h None s1 p1 I Logic.I H1)
      as (a & A1 & A2 & A3 & A4 & A5 & A6 & A7 & A8).
    destruct (create_content inst p h (Some s) s2 p2 I Hs H2)
      as (b & B1 & B2 & B3 & B4 & B5 & B6 & B7 & B8).
    assert (map snap_content (so_layouts s2) = map snap_content (so_layouts s1)) as E by congruence.
    split; [exact E|]. split; [|].
    - rewrite <- A1, <- B1 in *. clear - A5 B5 E. revert A5 B5 E. generalize (map fst a), (map fst b).
      intros l l'. revert l'. induction l as [|x l IH]; intros [|y l'] H H' E; try discriminate; auto.
      cbn [map] in E |- *. inversion H; inversion H'; subst.
      assert (snap_content y = snap_content x /\ map snap_content l' = map snap_content l) as (E1 & E2) by (split; congruence).
      f_equal; [congruence|]. apply IH; assumption.
    - rewrite A7, B7. cbn [so_id so_usage so_placed so_target so_bins]. repeat split; try congruence.
      apply usage_of_content. congruence.
  Qed.
  Lemma bp_incremental_total : forall items bins inst ovf ops (p : bp) h s s1 p1,
    bpinst_new items bins = Ok inst -> bp_run ovf inst ops = Ok (p, h) -> In s h -> bp_ref p = Some (so_id s) ->
    bp_create p None = Ok (s1, p1) -> exists s2 p2, bp_create p (Some s) = Ok (s2, p2).
  Proof.
    intros items bins inst ovf ops p h s s1 p1 Hi Hr Hs Hf H1.
    pose proof (run_inv _ _ _ _ _ (inst_ids _ _ _ Hi) Hr) as I.
    unfold bp_create in *. apply rbind_ok in H1 as (pl & -> & H1). apply rbind_ok in H1 as (u & _ & H1).
    apply rbind_ok in H1 as (sl & Hsl & _). cbn [rbind]. rewrite Hf. cbn [expect rbind]. rewrite Nat.eqb_refl.
    cbn [rassert rbind].
    assert (forall ls, incl ls (bp_layouts p) -> (exists sl, rmapM (bp_snapshot_layout (bp_unmod p) (option_map (@so_layouts F D) None)) ls = Ok sl) ->
      exists sl, rmapM (bp_snapshot_layout (bp_unmod p) (option_map (@so_layouts F D) (Some s))) ls = Ok sl) as K.
    { induction ls as [|l ls IH]; intros Hin (a & Ha); cbn [rmapM] in *; [eauto|].
      apply rbind_ok in Ha as (x & Hx & Ha). apply rbind_ok in Ha as (xs & Hxs & _).
      destruct IH as (ys & Hys); [intros z Hz; apply Hin; right; exact Hz|eauto|]. rewrite Hys.
      cbn [bp_snapshot_layout option_map] in *.
      destruct (existsb (Nat.eqb (ly_id l)) (bp_unmod p)) eqn:Eu.
      - apply existsb_exists in Eu as (n & Hn & En). apply Nat.eqb_eq in En. subst n.
        pose proof (b_ref _ _ _ I) as R. rewrite Hf in R. destruct R as (s' & Hs' & Es & R).
        assert (s' = s) as -> by (eapply nodup_inj; [exact (b_sids _ _ _ I)|exact Hs'|exact Hs|exact Es]).
        destruct (R l (Hin l (or_introl eq_refl)) Hn) as (sn & Ef & _). rewrite Ef. cbn. eauto.
      - rewrite Hx. cbn. eauto. }
    destruct (K (bp_layouts p) (incl_refl _) (ex_intro _ _ Hsl)) as (ys & ->). cbn. eauto.
  Qed.

  (** *** undoing a removal *)
  Lemma vremove_len : forall {A} i (l : list A) x r, vremove i l = Some (x, r) -> length l = S (length r).
  Proof. intros A i l x r H. apply vremove_split in H as (a & b & -> & -> & _). rewrite !app_length. cbn. lia. Qed.
  Lemma vset_len : forall {A} i (x : A) l, length (vset i x l) = length l.
  Proof. intros. apply vset_length. Qed.
  Lemma bp_undo : forall items bins inst ovf ops (p : bp) h i k b o p1 ptr r p2,
    bpinst_new items bins = Ok inst -> bp_run ovf inst ops = Ok (p, h) ->
    bp_remove p (Real i) k b = Ok (o, p1) -> length (bp_layouts p1) = length (bp_layouts p) ->
    bp_place p1 o ptr = Ok (r, p2) ->
    bp_missing p2 = bp_missing p /\ bp_bins p2 = bp_bins p /\
    exists a l l2 c, bp_layouts p = a ++ l :: c /\ bp_layouts p2 = a ++ l2 :: c /\ length a = i /\
      ly_id l2 = ly_id l /\ ly_bin l2 = ly_bin l /\ Permutation (placed l2) (placed l).
  Proof.
    intros items bins inst ovf ops p h i k b o p1 ptr r p2 Hi Hr H1 Hlen H2.
    pose proof (inst_ids _ _ _ Hi) as Io. pose proof (run_inv _ _ _ _ _ Io Hr) as I.
    pose proof (remove_inv _ _ _ _ _ _ _ _ I H1) as I1. pose proof (place_inv _ _ _ _ _ _ _ Io I1 H2) as I2.
    unfold bp_remove in H1. apply rbind_ok in H1 as (l & El & H1). apply rbind_ok in H1 as ((pi & l') & Hl & H1).
    apply rbind_ok in H1 as (px & Hx & H1). apply rbind_ok in H1 as (m & _ & H1). injection H1 as <- <-.
    destruct (nth_error (bp_layouts p) i) as [l0|] eqn:En; [|discriminate]. injection El as ->.
    assert (Hil : i < length (bp_layouts p)) by (apply nth_error_Some; congruence).
    destruct (layout_is_empty l').
    { exfalso. unfold bp_deregister_layout in Hx. apply rbind_ok in Hx as ((lx & ls) & Ev & Hx).
      apply rbind_ok in Hx as (bs & _ & Hx). apply rbind_ok in Hx as (mm & _ & Hx). injection Hx as <-.
      cbn [bp_layouts] in *. destruct (vremove i (vset i l' (bp_layouts p))) as [[ly lz]|] eqn:Ez; [|discriminate].
      injection Ev as -> ->. apply vremove_len in Ez. rewrite vset_length in Ez. lia. }
    injection Hx as <-. cbn [bp_layouts bp_inst bp_templates bp_bins bp_lctr bp_sctr bp_unmod bp_ref bp_removed] in *.
    pose proof (remove_content _ _ _ _ _ Hl) as (Eid & Ebin & Erm).
    unfold bp_place in H2. cbn [po_layout po_item po_dt rbind bp_layouts bp_inst bp_bins] in H2.
    apply rbind_ok in H2 as (lq & Eq & H2). apply rbind_ok in H2 as (it & Eit & H2).
    apply rbind_ok in H2 as ((k2 & l2) & Hl2 & H2). apply rbind_ok in H2 as (m2 & _ & H2). injection H2 as <- <-.
    cbn [bp_missing bp_bins bp_layouts] in *.
    apply nth_error_split in En as (a & c & Ea & La).
    assert (vset i l' (bp_layouts p) = a ++ l' :: c) as Ev by (rewrite Ea, <- La; apply vset_app).
    rewrite Ev in *. rewrite nth_error_app2 in Eq by lia. rewrite La, Nat.sub_diag in Eq. cbn in Eq. injection Eq as <-.
    pose proof (place_content _ _ _ _ _ _ Hl2) as (Eid2 & Ebin2 & Ein).
    assert (vset i l2 (a ++ l' :: c) = a ++ l2 :: c) as Ev2 by (rewrite <- La; apply vset_app).
    rewrite Ev2 in *.
    assert (sm_ok (ly_items l)) as Sl by (apply (recorded_sm _ _ _ _ I); rewrite Ea; apply in_or_app; right; left; reflexivity).
    pose proof (remove_perm _ _ _ _ Sl Erm) as P1. pose proof (proj1 (remove_spec _ _ _ _ Sl Erm)) as Sl'.
    pose proof (insert_perm _ (pi_new it (pi_dt pi) ptr) Sl') as P2. rewrite Ein in P2. cbn [snd] in P2.
    apply item_of_inv in Eit as (n & Eit). rewrite (b_inst _ _ _ I) in Eit. pose proof (proj1 Io _ _ _ Eit) as Eii.
    assert (Permutation (placed l2) (placed l)) as P.
    { unfold placed. etransitivity; [apply Permutation_map; exact P2|]. symmetry.
      etransitivity; [apply Permutation_map; exact P1|]. cbn [map]. unfold pi_new. cbn [pi_item pi_dt]. rewrite Eii. reflexivity. }
    split; [|split; [reflexivity|]].
    - refine (MS_fun _ _ _ _ _ _ (b_miss _ _ _ I2) (b_miss _ _ _ I)). cbn [bp_layouts]. rewrite Ea.
      rewrite !items_in_app, !items_in_cons. apply Permutation_app_head, Permutation_app_tail.
      unfold lst. assert (forall q : smap pitem, map (@pi_item F D) (sm_values q) = map fst (map (fun p => (pi_item p, pi_dt p)) (sm_values q))) as Em
        by (intros q; rewrite map_map; reflexivity).
      rewrite !Em. apply Permutation_map. exact P.
    - exists a, l, l2, c. repeat split; congruence.
  Qed.
  Lemma sp_undo : forall items hgt inst ovf tol w c ptr0 ops (p : sp) h k b o p1 ptr r p2,
    spinst_new items hgt = Ok inst -> sp_run ovf tol inst w c ptr0 ops = Ok (p, h) ->
    sp_remove p (Real 0) k b = Ok (o, p1) -> sp_place p1 o ptr = Ok (r, p2) ->
    sp_missing p2 = sp_missing p /\ ly_id (sp_layout p2) = ly_id (sp_layout p) /\
    ly_bin (sp_layout p2) = ly_bin (sp_layout p) /\
    Permutation (placed (sp_layout p2)) (placed (sp_layout p)).
  Proof.
    intros items hgt inst ovf tol w c ptr0 ops p h k b o p1 ptr r p2 Hi Hr H1 H2.
    pose proof (sinst_ids _ _ _ Hi) as Io. pose proof (srun_inv _ _ _ _ _ _ _ _ _ Io Hr) as I.
    pose proof (sp_remove_inv _ _ _ _ _ _ _ _ I H1) as I1. pose proof (sp_place_inv _ _ _ _ _ _ _ Io I1 H2) as I2.
    unfold sp_remove in H1. cbn [is_strip rassert rbind] in H1. apply rbind_ok in H1 as ((pi & l') & Hl & H1).
    apply rbind_ok in H1 as (m & _ & H1). injection H1 as <- <-.
    unfold sp_place in H2. cbn [po_layout po_item po_dt is_strip rassert rbind sp_inst sp_layout] in H2.
    apply rbind_ok in H2 as (it & Eit & H2).
    apply rbind_ok in H2 as ((k2 & l2) & Hl2 & H2). apply rbind_ok in H2 as (m2 & _ & H2). injection H2 as <- <-.
    cbn [sp_missing sp_layout] in *.
    pose proof (remove_content _ _ _ _ _ Hl) as (Eid & Ebin & Erm).
    pose proof (place_content _ _ _ _ _ _ Hl2) as (Eid2 & Ebin2 & Ein).
    pose proof (s_sm _ _ _ I) as Sl.
    pose proof (remove_perm _ _ _ _ Sl Erm) as P1. pose proof (proj1 (remove_spec _ _ _ _ Sl Erm)) as Sl'.
    pose proof (insert_perm _ (pi_new it (pi_dt pi) ptr) Sl') as P2. rewrite Ein in P2. cbn [snd] in P2.
    apply item_of_inv in Eit as (n & Eit). rewrite (s_inst _ _ _ I) in Eit. pose proof (Io _ _ _ Eit) as Eii.
    assert (Permutation (placed l2) (placed (sp_layout p))) as P.
    { unfold placed. etransitivity; [apply Permutation_map; exact P2|]. symmetry.
      etransitivity; [apply Permutation_map; exact P1|]. cbn [map]. unfold pi_new. cbn [pi_item pi_dt]. rewrite Eii. reflexivity. }
    split; [|repeat split; congruence || exact P].
    refine (MS_fun _ _ _ _ _ _ (s_miss _ _ _ I2) (s_miss _ _ _ I)). cbn [sp_layout].
    unfold lst. assert (forall q : smap pitem, map (@pi_item F D) (sm_values q) = map fst (map (fun p => (pi_item p, pi_dt p)) (sm_values q))) as Em
      by (intros q; rewrite map_map; reflexivity).
    rewrite !Em. apply Permutation_map. exact P.
  Qed.

  (** *** figures of solutions *)
  Lemma sol_items_c : forall s : solution, sol_items s = flat_map c_list (map snap_content (so_layouts s)).
  Proof.
    intros s. unfold sol_items. induction (so_layouts s) as [|x l IH]; [reflexivity|]. cbn [flat_map map]. f_equal; [|exact IH].
    unfold snap_placed, c_list, c_items, snap_content. cbn [snd]. rewrite map_map. reflexivity.
  Qed.
  Definition solPQ (items : list (item * nat)) (s : solution) : Prop := PQ items (so_placed s) (sol_items s).
  Lemma bp_solPQ : forall items bins inst ovf ops (p : bp) h s,
    bpinst_new items bins = Ok inst -> bp_run ovf inst ops = Ok (p, h) -> In s h -> solPQ items s.
  Proof.
    intros items bins inst ovf ops p h s Hi Hr Hs.
    pose proof (b_sols _ _ _ (run_inv _ _ _ _ _ (inst_ids _ _ _ Hi) Hr)) as K.
    rewrite Forall_forall in K. pose proof (sk_placed _ _ _ (K s Hs)) as P. rewrite <- sol_items_c in P.
    unfold bpinst_new in Hi; apply rbind_ok in Hi as (? & _ & Hi); injection Hi as <-. exact P.
  Qed.
  Lemma sp_solPQ : forall items hgt inst ovf tol w c ptr ops (p : sp) h s,
    spinst_new items hgt = Ok inst -> sp_run ovf tol inst w c ptr ops = Ok (p, h) -> In s h -> solPQ items s.
  Proof.
    intros items hgt inst ovf tol w c ptr ops p h s Hi Hr Hs.
    pose proof (s_sols _ _ _ (srun_inv _ _ _ _ _ _ _ _ _ (sinst_ids _ _ _ Hi) Hr)) as K.
    rewrite Forall_forall in K. destruct (K s Hs) as (sn & O). pose proof (ss_placed _ _ _ O) as P.
    unfold spinst_new in Hi; apply rbind_ok in Hi as (? & _ & Hi); injection Hi as <-.
    unfold solPQ. rewrite sol_items_c, (ss_one _ _ _ O). cbn [map flat_map]. rewrite app_nil_r. exact P.
  Qed.
  Lemma qty_nth : forall (items : list (item * nat)) i it q, nth_error items i = Some (it, q) -> item_qty items i = Ok q.
  Proof. intros items i it q H. unfold item_qty. rewrite H. reflexivity. Qed.
  Lemma nth_some : forall {A} (l : list A) i, i < length l -> exists x, nth_error l i = Some x.
  Proof. intros A l i H. destruct (nth_error l i) eqn:E; [eauto|]. apply nth_error_None in E. lia. Qed.
  Lemma combine_seq_in : forall {A} (l : list A) s j x, In (j, x) (combine (seq s (length l)) l) ->
    s <= j /\ nth_error l (j - s) = Some x.
  Proof.
    induction l as [|y l IH]; intros s j x H; cbn [length seq combine] in H; [destruct H|].
    destruct H as [E|H].
    - injection E as -> ->. rewrite Nat.sub_diag. auto.
    - apply IH in H as (H1 & H2). split; [lia|]. replace (j - s) with (S (j - S s)) by lia. exact H2.
  Qed.
  Lemma rany_ok : forall {A} (f : A -> res bool) l, (forall x, In x l -> exists b, f x = Ok b) ->
    exists b, rany f l = Ok b /\ (b = true <-> exists x, In x l /\ f x = Ok true).
  Proof.
    intros A f. induction l as [|x l IH]; intros H; cbn [rany].
    - exists false. split; [reflexivity|]. split; [discriminate|]. intros (x & [] & _).
    - destruct (H x (or_introl eq_refl)) as (b & E). rewrite E. cbn [rbind]. destruct b.
      + exists true. split; [reflexivity|]. split; [|reflexivity]. intros _. exists x. split; [left; reflexivity|exact E].
      + destruct IH as (b & Eb & K); [intros y Hy; apply H; right; exact Hy|]. exists b. split; [exact Eb|].
        rewrite K. split; intros (y & Hy & Ey).
        * exists y. split; [right; exact Hy|exact Ey].
        * destruct Hy as [<-|Hy]; [congruence|]. eauto.
  Qed.
  Lemma complete_spec : forall items (s : solution), solPQ items s -> exists b, is_complete s items = Ok b /\
    (b = true <-> forall i it q, nth_error items i = Some (it, q) -> q <= count i (sol_items s)).
  Proof.
    intros items s (Hl & _ & K). unfold is_complete.
    destruct (rany_ok (fun p => q <- item_qty items (fst p) ;; Ok (snd p <? Z.of_nat q)%Z)
                (combine (seq 0 (length (so_placed s))) (so_placed s))) as (b & E & Hb).
    { intros (j & z) J. apply combine_seq_in in J as (_ & J). rewrite Nat.sub_0_r in J.
      assert (j < length items) as Hj by (rewrite <- Hl; apply nth_error_Some; congruence).
      apply nth_some in Hj as ((it & q) & Hj). cbn [fst snd]. rewrite (qty_nth _ _ _ _ Hj). cbn. eauto. }
    rewrite E. cbn [rmap]. exists (negb b). split; [reflexivity|]. rewrite negb_true_iff. split.
    - intros -> i it q Hn. destruct (le_lt_dec q (count i (sol_items s))) as [|Hlt]; [assumption|exfalso].
      assert (Hi : i < length items) by (apply nth_error_Some; congruence).
      enough (false = true) by discriminate. apply Hb. exists (i, Z.of_nat (count i (sol_items s))). split.
      + pose proof (nth_combine_seq (so_placed s) 0 i _ (K i Hi)) as J. cbn in J. eapply nth_error_In. exact J.
      + cbn [fst snd]. rewrite (qty_nth _ _ _ _ Hn). cbn [rbind]. f_equal. apply Z.ltb_lt. lia.
    - intros H. destruct b; [exfalso|reflexivity]. destruct (proj1 Hb eq_refl) as ((j & z) & J & Ej).
      apply combine_seq_in in J as (_ & J). rewrite Nat.sub_0_r in J. cbn [fst snd] in Ej.
      apply rbind_ok in Ej as (q & Eq & Ej). apply item_qty_inv in Eq as (it & Eq).
      assert (Hj : j < length items) by (apply nth_error_Some; congruence).
      rewrite (K j Hj) in J. injection J as <-. injection Ej as Ej. apply Z.ltb_lt in Ej. specialize (H _ _ _ Eq). lia.
  Qed.
  Lemma rmapM_ok : forall {A B} (f : A -> res B) l, (forall x, In x l -> exists y, f x = Ok y) -> exists l', rmapM f l = Ok l'.
  Proof.
    intros A B f. induction l as [|x l IH]; intros H; cbn [rmapM]; [eauto|].
    destruct (H x (or_introl eq_refl)) as (y & ->). destruct IH as (ys & ->); [intros z Hz; apply H; right; exact Hz|].
    cbn. eauto.
  Qed.
  Lemma missing_spec : forall items (s : solution), solPQ items s -> exists m, sol_missing s items = Ok m /\
    length m = length items /\
    forall i it q, nth_error items i = Some (it, q) ->
      nth_error m i = Some (Z.of_nat q - Z.of_nat (count i (sol_items s)))%Z.
  Proof.
    intros items s (Hl & _ & K). unfold sol_missing.
    destruct (rmapM_ok (fun p => q <- item_qty items (fst p) ;; Ok (Z.of_nat q - snd p)%Z)
                (combine (seq 0 (length (so_placed s))) (so_placed s))) as (m & E).
    { intros (j & z) J. apply combine_seq_in in J as (_ & J). rewrite Nat.sub_0_r in J.
      assert (j < length items) as Hj by (rewrite <- Hl; apply nth_error_Some; congruence).
      apply nth_some in Hj as ((it & q) & Hj). cbn [fst snd]. rewrite (qty_nth _ _ _ _ Hj). cbn. eauto. }
    rewrite E. exists m. split; [reflexivity|]. apply rmapM_F2 in E. apply F2_nth in E as (E1 & E2).
    rewrite combine_length, seq_length, Nat.min_id in E1. split; [lia|]. intros i it q Hn.
    assert (Hi : i < length items) by (apply nth_error_Some; congruence).
    destruct (E2 i _ (nth_combine_seq _ 0 _ _ (K i Hi))) as (y & Ey & Ez). cbn [fst snd Nat.add] in Ez.
    rewrite (qty_nth _ _ _ _ Hn) in Ez. injection Ez as <-. exact Ey.
  Qed.
  (** summing the counts of all ids gives the length *)
  Definition counts (n : nat) (L : list nat) : list Z := map (fun i => Z.of_nat (count i L)) (seq 0 n).
  Lemma fold_add : forall l a, fold_left Z.add l a = (a + fold_left Z.add l 0)%Z.
  Proof.
    induction l as [|x l IH]; intros a; cbn [fold_left]; [lia|]. rewrite (IH (a + x)%Z), (IH (0 + x)%Z). lia.
  Qed.
  Lemma sum_counts : forall L n, Forall (fun i => i < n) L ->
    fold_left Z.add (counts n L) 0%Z = Z.of_nat (length L).
  Proof.
    induction L as [|x L IH]; intros n H.
    - unfold counts. induction (seq 0 n) as [|y l IHl]; [reflexivity|]. cbn [map fold_left]. exact IHl.
    - inversion H; subst. cbn [length]. rewrite Nat2Z.inj_succ, <- (IH n) by assumption. unfold counts.
      assert (forall s m, fold_left Z.add (map (fun i => Z.of_nat (count i (x :: L))) (seq s m)) 0%Z =
        (fold_left Z.add (map (fun i => Z.of_nat (count i L)) (seq s m)) 0 +
         if ((s <=? x) && (x <? s + m))%nat then 1 else 0)%Z) as G.
      { intros s m. revert s. induction m as [|m IHm]; intros s; cbn [seq map fold_left].
        - replace ((s <=? x) && (x <? s + 0)) with false; [reflexivity|]. symmetry.
          destruct (s <=? x) eqn:E; [|reflexivity]. apply Nat.leb_le in E. cbn. apply Nat.ltb_ge. lia.
        - rewrite fold_add, IHm, (fold_add _ (0 + Z.of_nat (count s L))). rewrite count_cons.
          destruct (Nat.eqb_spec s x) as [->|Hne].
          + replace (x <=? x) with true by (symmetry; apply Nat.leb_refl).
            replace (x <? x + S m) with true by (symmetry; apply Nat.ltb_lt; lia).
            replace (S x <=? x) with false by (symmetry; apply Nat.leb_gt; lia). cbn [andb]. lia.
          + replace (s + S m) with (S s + m) by lia.
            replace (s <=? x) with (S s <=? x); [lia|].
            destruct (S s <=? x) eqn:E1, (s <=? x) eqn:E2; try reflexivity;
              rewrite ?Nat.leb_le, ?Nat.leb_gt in *; lia. }
      rewrite G. cbn [Nat.add]. replace (0 <=? x) with true by reflexivity.
      replace (x <? n) with true by (symmetry; apply Nat.ltb_lt; lia). cbn [andb]. lia.
  Qed.
  Lemma n_placed_spec : forall items (s : solution), solPQ items s -> n_items_placed s = Z.of_nat (length (sol_items s)).
  Proof.
    intros items s (Hl & B & K). rewrite <- (sum_counts _ _ B). unfold n_items_placed. f_equal.
    apply nth_ext. intros i. destruct (le_lt_dec (length items) i) as [Hi|Hi].
    - transitivity (@None Z); [|symmetry]; apply nth_error_None; [lia|]. unfold counts. rewrite map_length, seq_length. lia.
    - rewrite (K i Hi). unfold counts. symmetry. rewrite (map_nth_error _ _ _ (nth_seq _ _ _ Hi)). reflexivity.
  Qed.
End PT.
