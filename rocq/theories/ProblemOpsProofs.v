(** Every operation of the bin packing problem preserves the bookkeeping invariant. *)
From Coq Require Import List Bool Arith ZArith Lia Permutation.
From Verif Require Import Base Num GeoModel HazardModel QTModel TransfModel HpgModel CdeModel CdeSpec
  PolyModel SlotMapModel LayoutModel ProblemModel ProblemSpec BaseProofs SlotMapProofs ProblemProofs.
Import ListNotations.

Lemma F2_impl : forall {A B} (P Q : A -> B -> Prop) l l', (forall a b, P a b -> Q a b) -> Forall2 P l l' -> Forall2 Q l l'.
Proof. intros A B P Q l l' I H. induction H; constructor; auto. Qed.

Lemma F2_in_r : forall {A B} (P : A -> B -> Prop) l l' y, Forall2 P l l' -> In y l' -> exists x, In x l /\ P x y.
Proof.
  intros A B P l l' y H Hy. induction H as [|a b l l' Hab H IH]; [contradiction|].
  destruct Hy as [<-|Hy]; [exists a; split; [left; reflexivity|exact Hab]|].
  destruct (IH Hy) as (x & Hx & K). exists x. split; [right; exact Hx|exact K].
Qed.
Lemma F2_in_l : forall {A B} (P : A -> B -> Prop) l l' x, Forall2 P l l' -> In x l -> exists y, In y l' /\ P x y.
Proof.
  intros A B P l l' x H Hx. induction H as [|a b l l' Hab H IH]; [contradiction|].
  destruct Hx as [<-|Hx]; [exists b; split; [left; reflexivity|exact Hab]|].
  destruct (IH Hx) as (y & Hy & K). exists y. split; [right; exact Hy|exact K].
Qed.

Section PO.
  Context {F : Type} {N : Num F} {D : Type} {ED : EqD D} {BS : BSearch} {DC : DComp F D}.
  Local Notation item := (item F).
  Local Notation bin := (bin F D).
  Local Notation layout := (layout F D).
  Local Notation lsnap := (lsnap F D).
  Local Notation solution := (solution F D).
  Local Notation bp := (bp F D).
  Local Notation pitem := (pitem F D).
  Local Notation cont := (nat * bin * smap pitem)%type.

  Lemma item_of_inv : forall (items : list (item * nat)) i it, item_of items i = Ok it ->
    exists q, nth_error items i = Some (it, q).
  Proof.
    intros items i it H. unfold item_of in H. apply rbind_ok in H as ([it' q] & E & H).
    apply expect_ok in E. injection H as <-. eauto.
  Qed.
  (** item ids are positions *)
  Definition ids_ok (inst : bpinst F D) : Prop :=
    (forall i it q, nth_error (bi_items inst) i = Some (it, q) -> it_id it = i) /\
    (forall i b q, nth_error (bi_bins inst) i = Some (b, q) -> bn_id b = i).
  Lemma ids_correct_spec : forall ids, ids_correct ids = true -> forall i x, nth_error ids i = Some x -> x = i.
  Proof.
    intros ids H i x E. unfold ids_correct in H. rewrite forallb_forall in H.
    pose proof (nth_combine_seq ids 0 i x E) as G. apply nth_error_In in G. specialize (H _ G). cbn in H.
    apply Nat.eqb_eq in H. congruence.
  Qed.
  Lemma inst_ids : forall items bins (inst : bpinst F D), bpinst_new items bins = Ok inst -> ids_ok inst.
  Proof.
    intros items bins inst H. unfold bpinst_new in H. apply rbind_ok in H as (u & E & H).
    destruct (ids_correct _ && ids_correct _) eqn:G; [|discriminate]. apply andb_true_iff in G as (G1 & G2).
    injection H as <-. split; cbn [bi_items bi_bins]; intros i x q Ex.
    - eapply ids_correct_spec; [exact G1|]. rewrite nth_error_map, Ex. reflexivity.
    - eapply ids_correct_spec; [exact G2|]. rewrite nth_error_map, Ex. reflexivity.
  Qed.

  Lemma insert_lst : forall (m : smap pitem) p k m', sm_ok m -> sm_insert m p = (k, m') ->
    sm_ok m' /\ Permutation (map (@pi_item F D) (sm_values m')) (pi_item p :: map (@pi_item F D) (sm_values m)) /\
    sm_values m' <> [].
  Proof.
    intros m p k m' H E. pose proof (insert_spec m p H) as (A & _). pose proof (insert_perm m p H) as P.
    rewrite E in *. cbn [snd] in *. split; [exact A|].
    split; [apply (Permutation_map (@pi_item F D)) in P; exact P|].
    intros X. rewrite X in P. symmetry in P. apply Permutation_sym, Permutation_nil_cons in P. exact P.
  Qed.

  Lemma recorded_sm : forall inst p h (l : layout), BInv inst p h -> In l (bp_layouts p) -> sm_ok (ly_items l).
  Proof.
    intros inst p h l I H. apply (ci_sm _ _ (b_rec _ _ _ I) (content l)).
    apply in_or_app. left. apply in_map, in_or_app. auto.
  Qed.
  Lemma nth_template : forall inst t (l : layout), nth_error (bp_templates (bp_new inst)) t = Some l ->
    exists b q, nth_error (bi_bins inst) t = Some (b, q) /\ l = layout_new t b.
  Proof.
    intros inst t l H. cbn [bp_new bp_templates] in H. rewrite nth_error_map in H.
    destruct (nth_error (bi_bins inst) t) as [[b q]|] eqn:E.
    - rewrite (nth_combine_seq (bi_bins inst) 0 t _ E) in H. cbn in H. injection H as <-. eauto.
    - rewrite (proj2 (nth_error_None _ _)) in H; [discriminate|].
      rewrite combine_length, seq_length, Nat.min_id. apply nth_error_None, E.
  Qed.

  Lemma place_inv : forall inst p h o ptr r p', ids_ok inst -> BInv inst p h -> bp_place p o ptr = Ok (r, p') ->
    BInv inst p' h.
  Proof.
    intros inst p h [li i d] ptr r p' Ids I H. unfold bp_place in H. cbn [po_layout po_item po_dt] in H.
    apply rbind_ok in H as ([j p1] & E1 & H).
    apply rbind_ok in H as (l & El & H). apply expect_ok in El.
    apply rbind_ok in H as (it & Eit & H). apply item_of_inv in Eit as (q & Eit).
    apply rbind_ok in H as ([k l'] & Epl & H). apply rbind_ok in H as (m & Em & H). injection H as <- <-.
    apply place_content in Epl as (Ei & Eb & Ins).
    destruct li as [j0|t].
    - injection E1 as <- <-. pose proof (b_inst _ _ _ I) as Einst. rewrite Einst in Eit.
      assert (Eid : pi_item (@pi_new F N D DC it d ptr) = i) by (cbn; apply (proj1 Ids) with (1 := Eit)).
      destruct (insert_lst _ _ _ _ (recorded_sm _ _ _ l I (nth_error_In _ _ El)) Ins) as (Sm & P & Ne).
      rewrite Eid in P.
      destruct (vset_split j0 l l' _ El) as (a & b & Es & Ev & La). rewrite Ev, Ei.
      destruct (layout_changed_nodup (bp_unmod p) (ly_id l) (b_und _ _ _ I)) as (U1 & U2).
      eapply upd_inv; try eassumption; try (intros x Hx; eapply layout_changed_in; exact Hx).
      eapply MS_perm; [|eapply MS_register; [exact (b_miss _ _ _ I)|exact Em]].
      rewrite Es, !items_in_app, !items_in_cons. unfold lst. rewrite P. cbn [app].
      apply Permutation_middle.
    - apply rbind_ok in E1 as (tl & Et & E1). apply expect_ok in Et.
      rewrite (b_tmpl _ _ _ I) in Et. apply nth_template in Et as (b & qb & Hb & ->).
      unfold bp_register_layout in E1. cbn [bp_inst bp_layouts bp_templates bp_missing bp_bins bp_lctr bp_sctr
        bp_unmod bp_ref bp_removed] in E1.
      apply rbind_ok in E1 as (bins & Ebins & E1). apply rbind_ok in E1 as (m0 & Em0 & E1).
      cbn in Em0. injection Em0 as <-. injection E1 as <- <-.
      cbn [bp_inst bp_layouts bp_templates bp_missing bp_bins bp_lctr bp_sctr bp_unmod bp_ref bp_removed] in *.
      rewrite nth_error_app2, Nat.sub_diag in El by lia. cbn in El. injection El as <-.
      cbn [ly_id ly_bin ly_items clone_with_id layout_new] in *.
      pose proof (b_inst _ _ _ I) as Einst. rewrite Einst in Eit.
      assert (Eid : pi_item (@pi_new F N D DC it d ptr) = i) by (cbn; apply (proj1 Ids) with (1 := Eit)).
      destruct (insert_lst _ _ _ _ new_ok Ins) as (Sm & P & Ne). rewrite Eid in P. cbn in P.
      rewrite vset_app.
      destruct (layout_changed_nodup (bp_unmod p) (ly_id l') (b_und _ _ _ I)) as (U1 & U2).
      apply add_inv; try assumption; try (intros x Hx; eapply layout_changed_in; exact Hx).
      + eapply MS_perm; [|eapply MS_register; [exact (b_miss _ _ _ I)|exact Em]].
        rewrite items_in_app, items_in_cons. unfold lst. rewrite P. cbn. apply Permutation_cons_append.
      + eapply BSt_perm; [|eapply BSt_register; [exact (b_stock _ _ _ I)|exact Ebins]].
        rewrite map_app. cbn [map]. rewrite Eb. apply Permutation_cons_append.
  Qed.

  Lemma deregister_inv : forall inst (p : bp) h li p', BInv inst p h -> bp_deregister_layout p li = Ok p' -> BInv inst p' h.
  Proof.
    intros inst p h [i|t] p' I H; [|discriminate]. unfold bp_deregister_layout in H.
    apply rbind_ok in H as ([l ls] & E & H). apply expect_ok in E.
    apply vremove_split in E as (a & b & Es & -> & _).
    apply rbind_ok in H as (bins & Eb & H). apply rbind_ok in H as (m & Em & H). injection H as <-.
    destruct (layout_changed_nodup (bp_unmod p) (ly_id l) (b_und _ _ _ I)) as (U1 & U2).
    assert (Hl : In l (bp_layouts p)) by (rewrite Es; apply in_or_app; right; left; reflexivity).
    eapply del_inv; try eassumption; try reflexivity; try (intros x Hx; eapply layout_changed_in; exact Hx).
    - eapply recorded_sm; eassumption.
    - eapply MS_deregisters; [|exact Em]. eapply MS_perm; [|exact (b_miss _ _ _ I)].
      rewrite Es, !items_in_app, items_in_cons. unfold lst. rewrite Permutation_app_swap_app. reflexivity.
    - eapply BSt_deregister; [|exact Eb]. eapply BSt_perm; [|exact (b_stock _ _ _ I)].
      rewrite Es, !map_app. cbn [map]. symmetry. apply Permutation_middle.
  Qed.

  Lemma remove_inv : forall inst (p : bp) h li k b r p', BInv inst p h -> bp_remove p li k b = Ok (r, p') -> BInv inst p' h.
  Proof.
    intros inst p h [i|t] k b0 r p' I H; [|discriminate]. unfold bp_remove in H.
    apply rbind_ok in H as (l & El & H). apply expect_ok in El.
    apply rbind_ok in H as ([pi l'] & Er & H). apply rbind_ok in H as (p2 & E2 & H).
    apply rbind_ok in H as (m & Em & H). injection H as <- <-.
    apply remove_content in Er as (Ei & Eb & Rem).
    assert (Hl : In l (bp_layouts p)) by (eapply nth_error_In; exact El).
    pose proof (recorded_sm _ _ _ l I Hl) as Smo.
    pose proof (remove_spec _ _ _ _ Smo Rem) as (Sm & _). pose proof (remove_perm _ _ _ _ Smo Rem) as P.
    apply (Permutation_map (@pi_item F D)) in P. cbn [map] in P.
    destruct (vset_split i l l' _ El) as (a & b & Es & Ev & La). rewrite Ev in E2.
    destruct (layout_changed_nodup (bp_unmod p) (ly_id l) (b_und _ _ _ I)) as (U1 & U2).
    assert (Mi : MS (bi_items inst) (bp_missing p) (pi_item pi :: items_in (a ++ l' :: b))).
    { eapply MS_perm; [|exact (b_miss _ _ _ I)]. rewrite Es, !items_in_app, !items_in_cons. unfold lst.
      rewrite P. cbn [app]. symmetry. apply Permutation_middle. }
    destruct (layout_is_empty l') eqn:Emp.
    - unfold layout_is_empty in Emp. apply (empty_spec _ Sm) in Emp.
      unfold bp_deregister_layout in E2.
      cbn [bp_inst bp_layouts bp_templates bp_missing bp_bins bp_lctr bp_sctr bp_unmod bp_ref bp_removed] in E2.
      subst i. rewrite vremove_app in E2. cbn [expect rbind] in E2.
      apply rbind_ok in E2 as (bins & Ebins & E2). apply rbind_ok in E2 as (m0 & Em0 & E2). injection E2 as <-.
      rewrite Emp in Em0. cbn in Em0. injection Em0 as <-.
      cbn [bp_inst bp_layouts bp_templates bp_missing bp_bins bp_lctr bp_sctr bp_unmod bp_ref bp_removed] in *.
      destruct (layout_changed_nodup (layout_changed (bp_unmod p) (ly_id l)) (ly_id l') U1) as (W1 & W2).
      eapply del_inv; try eassumption.
      + eapply MS_deregister; [|exact Em]. eapply MS_perm; [|exact Mi].
        rewrite !items_in_app, items_in_cons. unfold lst. rewrite Emp. reflexivity.
      + eapply BSt_deregister; [|exact Ebins]. eapply BSt_perm; [|exact (b_stock _ _ _ I)].
        rewrite Es, !map_app. cbn [map]. rewrite Eb. symmetry. apply Permutation_middle.
      + intros x Hx. apply layout_changed_in, layout_changed_in in Hx. exact Hx.
      + intros X. apply W2. rewrite Ei at 1. exact X.
    - injection E2 as <-.
      cbn [bp_inst bp_layouts bp_templates bp_missing bp_bins bp_lctr bp_sctr bp_unmod bp_ref bp_removed] in *.
      eapply upd_inv; try eassumption.
      + intros X. apply (empty_spec _ Sm) in X. unfold layout_is_empty in Emp. congruence.
      + eapply MS_deregister; [exact Mi|exact Em].
      + intros x Hx. apply layout_changed_in in Hx. exact Hx.
  Qed.

  (** replacing the engines only *)
  Lemma content_inv : forall inst (p : bp) h ls, BInv inst p h -> map content ls = map content (bp_layouts p) ->
    BInv inst (BP (bp_inst p) ls (bp_templates p) (bp_missing p) (bp_bins p) (bp_lctr p) (bp_sctr p)
                  (bp_unmod p) (bp_ref p) (bp_removed p)) h.
  Proof.
    intros inst p h ls [I1 I2 I3 I4 I5 I6 I7 I8 I9 I10 I11 I12 I13 I14] E.
    assert (Eid : map (@ly_id F D) ls = map (@ly_id F D) (bp_layouts p)).
    { apply (f_equal (map c_id)) in E. rewrite !map_map in E. exact E. }
    split; cbn [bp_inst bp_layouts bp_templates bp_missing bp_bins bp_lctr bp_sctr bp_unmod bp_ref bp_removed];
      auto.
    - rewrite items_in_c, E, <- items_in_c. exact I4.
    - apply (f_equal (map (fun c : cont => bn_id (c_bin c)))) in E. rewrite !map_map in E.
      change (map (fun l : layout => bn_id (ly_bin l)) ls = map (fun l : layout => bn_id (ly_bin l)) (bp_layouts p)) in E.
      rewrite E. exact I5.
    - rewrite map_app in *. rewrite Eid. exact I6.
    - unfold recorded in *. cbn [bp_layouts bp_removed]. rewrite map_app in *. rewrite E. exact I7.
    - clear -E I8. revert I8. generalize dependent (bp_layouts p). induction ls as [|l ls IH]; intros L E I8; [constructor|].
      destruct L as [|l0 L]; [discriminate|]. cbn in E. injection E as _ _ Ec E. inversion I8; subst.
      constructor; [rewrite Ec; assumption|eapply IH; eassumption].
    - rewrite Eid. exact I13.
    - destruct (bp_ref p) as [r|]; [|exact I14]. destruct I14 as (s & Hs & Er & K).
      exists s. split; [exact Hs|]. split; [exact Er|]. intros l Hl Hu.
      assert (X : In (content l) (map content (bp_layouts p))) by (rewrite <- E; apply in_map, Hl).
      apply in_map_iff in X as (l0 & Ec & Hl0).
      assert (Ei : ly_id l0 = ly_id l) by (unfold content in Ec; congruence).
      destruct (K l0 Hl0) as (sn & Hf & Hc); [rewrite Ei; exact Hu|].
      exists sn. rewrite <- Ei. split; [exact Hf|congruence].
  Qed.
  Lemma flush_all_content : forall ls ls' : list layout, flush_all ls = Ok ls' -> map content ls' = map content ls.
  Proof.
    intros ls ls' H. apply rmapM_F2 in H. induction H as [|x y l l' Hxy H IH]; [reflexivity|].
    cbn [map]. rewrite IH, (flush_content _ _ Hxy). reflexivity.
  Qed.
  Lemma flush_inv : forall inst (p : bp) h p', BInv inst p h -> bp_flush p = Ok p' -> BInv inst p' h.
  Proof.
    intros inst p h p' I H. unfold bp_flush in H. apply rbind_ok in H as (ls & E & H). injection H as <-.
    apply content_inv; [exact I|]. apply flush_all_content, E.
  Qed.

  (** *** creating a solution *)
  Lemma find_snap_in : forall id (sn : list lsnap) s, NoDup (map (@ls_id F D) sn) -> In s sn -> ls_id s = id ->
    find_snap id sn = Some s.
  Proof.
    intros id sn s. unfold find_snap. induction sn as [|x sn IH]; intros ND H E; [contradiction|].
    cbn [find]. cbn [map] in ND. inversion ND as [|? ? Nx ND']; subst.
    destruct H as [<-|H]; [rewrite Nat.eqb_refl; reflexivity|].
    destruct (Nat.eqb_spec (ls_id x) (ls_id s)) as [Ex|_]; [|apply IH; auto].
    exfalso. apply Nx. rewrite Ex. apply in_map, H.
  Qed.
  Lemma find_snap_some : forall id (sn : list lsnap) s, find_snap id sn = Some s -> In s sn /\ ls_id s = id.
  Proof. intros id sn s H. apply find_some in H as (H1 & H2). apply Nat.eqb_eq in H2. auto. Qed.

  Lemma create_content : forall inst (p : bp) h old sol p', BInv inst p h ->
    match old with Some s => In s h | None => True end ->
    bp_create p old = Ok (sol, p') ->
    exists sl, map fst sl = so_layouts sol /\ bp_layouts p' = map snd sl /\
      map content (map snd sl) = map content (bp_layouts p) /\
      map snap_content (map fst sl) = map content (bp_layouts p) /\
      Forall (fun s => ls_usage s = c_usage (snap_content s)) (map fst sl) /\
      placed_qtys (bi_items (bp_inst p)) (bp_missing p) = Ok (so_placed sol) /\
      sol = Sol (S (bp_sctr p)) (map fst sl) (usage_of (map snd sl)) (so_placed sol)
              (map snd (bi_items (bp_inst p))) (bp_bins p) /\
      p' = BP (bp_inst p) (map snd sl) (bp_templates p) (bp_missing p) (bp_bins p) (bp_lctr p) (S (bp_sctr p))
           (map (@ly_id F D) (map snd sl)) (Some (S (bp_sctr p))) (bp_removed p).
  Proof.
    intros inst p h old sol p' I Ho H. unfold bp_create in H.
    apply rbind_ok in H as (pl & Epl & H). apply rbind_ok in H as (u & Eold & H).
    apply rbind_ok in H as (sl & Esl & H). injection H as <- <-.
    exists sl. cbn [so_layouts bp_layouts so_placed].
    assert (K : Forall2 (fun l x => content (snd x) = content l /\ snap_content (fst x) = content l /\
                  ls_usage (fst x) = c_usage (snap_content (fst x))) (bp_layouts p) sl).
    { apply rmapM_F2 in Esl.
      assert (G : forall l, In l (bp_layouts p) -> forall x,
        bp_snapshot_layout (bp_unmod p) (option_map (@so_layouts F D) old) l = Ok x ->
        content (snd x) = content l /\ snap_content (fst x) = content l /\
        ls_usage (fst x) = c_usage (snap_content (fst x))).
      { intros l Hl [s l'] Ex. cbn [fst snd].
        assert (Snap : layout_snapshot l = Ok (s, l') -> content l' = content l /\ snap_content s = content l /\
                  ls_usage s = c_usage (snap_content s)).
        { intros E. apply snapshot_content in E as (A & B & C). rewrite C, B. auto. }
        unfold bp_snapshot_layout in Ex. destruct old as [so|]; cbn [option_map] in Ex; [|apply Snap, Ex].
        destruct (existsb (Nat.eqb (ly_id l)) (bp_unmod p)) eqn:Hu; [|apply Snap, Ex].
        apply rbind_ok in Ex as (s0 & Es & Ex). apply expect_ok in Es. injection Ex as <- <-.
        apply existsb_exists in Hu as (z & Hz & Ez). apply Nat.eqb_eq in Ez. subst z.
        apply rbind_ok in Eold as (r & Er & Eold). apply expect_ok in Er.
        destruct (Nat.eqb_spec (so_id so) r) as [Eid|]; [|discriminate].
        pose proof (b_ref _ _ _ I) as Rf. rewrite Er in Rf. destruct Rf as (s1 & Hs1 & Es1 & Kk).
        assert (s1 = so) by (eapply nodup_inj; [exact (b_sids _ _ _ I)|exact Hs1|exact Ho|congruence]). subst s1.
        destruct (Kk l Hl Hz) as (sn & Hf & Hc). rewrite Es in Hf. injection Hf as <-.
        split; [reflexivity|]. split; [exact Hc|].
        pose proof (b_sols _ _ _ I) as So. rewrite Forall_forall in So. specialize (So _ Ho).
        pose proof (sk_usage _ _ _ So) as Us. rewrite Forall_forall in Us. apply Us.
        apply find_snap_some in Es. apply Es. }
      clear -Esl G. induction Esl as [|x y l l' Hxy H IH]; constructor.
      - apply G; [left; reflexivity|exact Hxy].
      - apply IH. intros z Hz. apply G. right. exact Hz. }
    split; [reflexivity|]. split; [reflexivity|].
    repeat split; auto.
    - clear -K. induction K as [|x y l l' (A & B & C) K IH]; cbn [map]; congruence.
    - clear -K. induction K as [|x y l l' (A & B & C) K IH]; cbn [map]; congruence.
    - clear -K. induction K as [|x y l l' (A & B & C) K IH]; cbn [map]; constructor; auto.
  Qed.

  Lemma map_content_id : forall (sn : list lsnap) (ls : list layout), map snap_content sn = map content ls ->
    map (@ls_id F D) sn = map (@ly_id F D) ls.
  Proof. intros sn ls E. apply (f_equal (map c_id)) in E. rewrite !map_map in E. exact E. Qed.

  Lemma create_inv : forall inst (p : bp) h old sol p', BInv inst p h ->
    match old with Some s => In s h | None => True end ->
    bp_create p old = Ok (sol, p') -> BInv inst p' (h ++ [sol]) /\ same_as sol = same_as sol /\
    forall l, In l (bp_layouts p') -> same_as sol l.
  Proof.
    intros inst p h old sol p' I Ho H.
    destruct (create_content _ _ _ _ _ _ I Ho H) as (sl & E1 & E2 & E3 & E4 & E5 & E6 & E7 & E8).
    assert (I' := content_inv _ _ _ (map snd sl) I E3).
    assert (Eid : map (@ls_id F D) (so_layouts sol) = map (@ly_id F D) (map snd sl)).
    { rewrite <- E1. apply map_content_id. congruence. }
    assert (NDi : NoDup (map (@ls_id F D) (so_layouts sol))).
    { rewrite Eid. pose proof (b_ids _ _ _ I') as X. cbn [bp_layouts bp_removed] in X.
      rewrite map_app in X. apply nodup_app_l in X. exact X. }
    assert (Same : forall l, In l (map snd sl) -> same_as sol l).
    { intros l Hl. assert (X : In (content l) (map snap_content (so_layouts sol))).
      { rewrite <- E1, E4, <- E3. apply in_map, Hl. }
      apply in_map_iff in X as (s & Es & Hs). exists s. split; [|exact Es].
      apply find_snap_in; auto. unfold snap_content, content in Es. congruence. }
    destruct I' as [I1 I2 I3 I4 I5 I6 I7 I8 I9 I10 I11 I12 I13 I14].
    cbn [bp_inst bp_layouts bp_templates bp_missing bp_bins bp_lctr bp_sctr bp_unmod bp_ref bp_removed] in *.
    split; [|split; [reflexivity|]].
    2:{ rewrite E2. exact Same. }
    assert (Sid : so_id sol = S (bp_sctr p)) by (rewrite E7; reflexivity).
    rewrite E8. split;
      cbn [bp_inst bp_layouts bp_templates bp_missing bp_bins bp_lctr bp_sctr bp_unmod bp_ref bp_removed];
      auto.
    - eapply CInv_incl; [exact I7|]. unfold recorded. cbn [bp_layouts bp_removed].
      intros c Hc. apply in_app_or in Hc as [Hc|Hc]; [apply in_or_app; auto|].
      rewrite flat_map_app in Hc. apply in_app_or in Hc as [Hc|Hc]; [apply in_or_app; auto|].
      cbn [flat_map] in Hc. rewrite app_nil_r, <- E1, E4, <- E3 in Hc. apply in_or_app. left.
      rewrite map_app. apply in_or_app. auto.
    - rewrite map_app. apply nodup_app; [exact I9|cbn; constructor; [intros []|constructor]|].
      intros x Hx [<-|[]]. apply in_map_iff in Hx as (s & Es & Hs). rewrite Forall_forall in I10.
      specialize (I10 s Hs). lia.
    - apply Forall_app. split; [|constructor; [lia|constructor]].
      eapply Forall_impl; [|exact I10]. cbn. intros; lia.
    - apply Forall_app. split; [exact I11|]. constructor; [|constructor]. split.
      + exact NDi.
      + rewrite I1 in E6.
        eapply PQ_perm; [|eapply placed_PQ; [exact I4|exact E6]].
        rewrite items_in_c, E3, <- E4, E1. reflexivity.
      + replace (so_bins sol) with (bp_bins p) by (rewrite E7; reflexivity).
        replace (map (fun s => bn_id (ls_bin s)) (so_layouts sol)) with (map (fun l : layout => bn_id (ly_bin l)) (map snd sl)); [exact I5|].
        assert (X : map snap_content (so_layouts sol) = map content (map snd sl)) by congruence.
        apply (f_equal (map (fun c : cont => bn_id (c_bin c)))) in X. rewrite !map_map in X.
        rewrite map_map. symmetry. exact X.
      + rewrite Forall_forall. intros s Hs. rewrite Forall_forall in I8.
        assert (X : In (snap_content s) (map content (map snd sl))).
        { rewrite E3, <- E4, E1. apply in_map, Hs. }
        apply in_map_iff in X as (l & El & Hl). specialize (I8 l Hl).
        unfold content, snap_content in El. congruence.
      + rewrite <- E1. exact E5.
      + rewrite E7. cbn. rewrite I1. reflexivity.
    - rewrite map_app in I6. apply nodup_app_l in I6. exact I6.
    - intros x Hx; exact Hx.
    - exists sol. split; [apply in_or_app; right; left; reflexivity|]. split; [exact Sid|]. auto.
  Qed.

  (** *** restoring a solution *)
  Lemma from_snapshots : forall sn (ls : list layout), rmapM layout_from_snapshot sn = Ok ls ->
    map content ls = map snap_content sn.
  Proof.
    intros sn ls H. apply rmapM_F2 in H. induction H as [|x y l l' Hxy H IH]; [reflexivity|].
    cbn [map]. rewrite IH, (from_snapshot_content _ _ Hxy). reflexivity.
  Qed.

  Lemma absent_content : forall present sn ls removed ls' removed',
    (forall l s, In l removed -> In s sn -> ly_id l = ls_id s -> ly_bin l = ls_bin s) ->
    rfold (restore_absent present) sn (ls, removed) = Ok (ls', removed') ->
    map content ls' = map content ls ++
      map snap_content (filter (fun s : lsnap => negb (existsb (Nat.eqb (ls_id s)) present)) sn).
  Proof.
    induction sn as [|s sn IH]; intros ls removed ls' removed' C H; cbn [rfold] in H.
    - injection H as <- <-. cbn. rewrite app_nil_r. reflexivity.
    - apply rbind_ok in H as ([ls1 removed1] & E1 & H). cbn [filter]. unfold restore_absent in E1.
      destruct (existsb (Nat.eqb (ls_id s)) present); cbn [negb].
      + injection E1 as <- <-. eapply IH; [|exact H]. intros l x Hl Hx. apply C; [exact Hl|right; exact Hx].
      + cbn [map]. change (snap_content s :: ?r) with ([snap_content s] ++ r). rewrite app_assoc.
        destruct (position (fun l : layout => Nat.eqb (ly_id l) (ls_id s)) removed) as [i|] eqn:P.
        * apply rbind_ok in E1 as ([l rem] & Es & E1). apply expect_ok in Es.
          apply rbind_ok in E1 as (l' & Er & E1). injection E1 as <- <-.
          apply position_some in P as (a & x & b & -> & <- & Ex & _). apply Nat.eqb_eq in Ex.
          pose proof Es as Es'. rewrite swap_remove_spec in Es'. injection Es' as <- _.
          apply swap_remove_perm in Es.
          apply restore_content in Er as (_ & Er).
          rewrite (C x s) in Er; [|apply in_or_app; right; left; reflexivity|left; reflexivity|exact Ex].
          rewrite (IH _ _ _ _ (fun l z Hl Hz => C l z (ltac:(
            eapply Permutation_in in Hl; [|exact Es]; apply in_app_or in Hl; apply in_or_app; cbn; tauto))
            (or_intror Hz)) H).
          rewrite map_app. cbn [map]. rewrite Er. reflexivity.
        * apply rbind_ok in E1 as (l' & Er & E1). injection E1 as <- <-.
          apply from_snapshot_content in Er.
          rewrite (IH _ _ _ _ (fun l z Hl Hz => C l z Hl (or_intror Hz)) H).
          rewrite map_app. cbn [map]. rewrite Er. reflexivity.
  Qed.

  Lemma filters_not_in : forall ids (ls : list layout),
    fold_left (fun acc id => filter (fun l : layout => negb (Nat.eqb (ly_id l) id)) acc) ids ls =
    filter (fun l : layout => negb (existsb (Nat.eqb (ly_id l)) ids)) ls.
  Proof.
    induction ids as [|i ids IH]; intros ls; cbn [fold_left].
    - induction ls as [|l ls IHl]; [reflexivity|]. cbn. f_equal. exact IHl.
    - rewrite IH. clear IH. induction ls as [|l ls IHl]; [reflexivity|]. cbn [filter existsb].
      destruct (Nat.eqb (ly_id l) i); cbn [negb orb filter]; rewrite IHl; reflexivity.
  Qed.

  Lemma nodup_map_in : forall {A B} (f : A -> B) l, NoDup (map f l) -> NoDup l.
  Proof. intros A B f l H. apply NoDup_map_inv in H. exact H. Qed.

  (** the layouts after a restore are those of the solution *)
  Lemma restore_layouts : forall inst ovf (p : bp) h s p', BInv inst p h -> In s h -> bp_restore ovf p s = Ok p' ->
    Permutation (map content (bp_layouts p')) (map snap_content (so_layouts s)).
  Proof.
    intros inst ovf p h s p' I Hs H. unfold bp_restore in H.
    apply rbind_ok in H as (ls & Els & H). apply rbind_ok in H as (m & Em & H).
    apply rbind_ok in H as (u & Eb & H). injection H as <-. cbn [bp_layouts].
    assert (So : sol_ok (bi_items inst) (map snd (bi_bins inst)) s).
    { pose proof (b_sols _ _ _ I) as X. rewrite Forall_forall in X. auto. }
    assert (Coh : forall l sn, In l (bp_layouts p ++ bp_removed p) -> In sn (so_layouts s) ->
              ly_id l = ls_id sn -> ly_bin l = ls_bin sn).
    { intros l sn Hl Hsn E. apply (ci_coh _ _ (b_rec _ _ _ I) (content l) (snap_content sn)); [| |exact E].
      - apply in_or_app. left. apply in_map, Hl.
      - apply in_or_app. right. apply in_flat_map. exists s. split; [exact Hs|apply in_map, Hsn]. }
    destruct (opt_nat_eqb (Some (so_id s)) (bp_ref p)) eqn:Ref.
    2:{ rewrite (from_snapshots _ _ Els). reflexivity. }
    apply rbind_ok in Els as (ls1 & E1 & Els). apply rbind_ok in Els as ([ls3 rem] & E3 & Els). injection Els as <-.
    rewrite filters_not_in in E3.
    set (here := fun l : layout => is_some (find_snap (ly_id l) (so_layouts s))) in *.
    (* the reference solution is s *)
    destruct (bp_ref p) as [r|] eqn:Er; [|discriminate]. cbn in Ref. apply Nat.eqb_eq in Ref. subst r.
    assert (Unm : forall l, In l (bp_layouts p) -> In (ly_id l) (bp_unmod p) -> same_as s l).
    { pose proof (b_ref _ _ _ I) as Rf. rewrite Er in Rf. destruct Rf as (s1 & Hs1 & Es1 & Kk).
      assert (s1 = s) by (eapply nodup_inj; [exact (b_sids _ _ _ I)|exact Hs1|exact Hs|exact Es1]). subst s1. exact Kk. }
    assert (F1 : Forall2 (fun l l1 => In l (bp_layouts p) /\ ly_id l1 = ly_id l /\
                   forall sn, find_snap (ly_id l) (so_layouts s) = Some sn -> content l1 = snap_content sn)
                 (bp_layouts p) ls1).
    { apply rmapM_F2 in E1. clear E3.
      assert (G : forall l, In l (bp_layouts p) -> forall l1, restore_present (bp_unmod p) (so_layouts s) l = Ok l1 ->
         ly_id l1 = ly_id l /\
         forall sn, find_snap (ly_id l) (so_layouts s) = Some sn -> content l1 = snap_content sn).
      { intros l Hl l1 Ex. unfold restore_present in Ex.
        destruct (find_snap (ly_id l) (so_layouts s)) as [sn|] eqn:Ef.
        - destruct (existsb (Nat.eqb (ly_id l)) (bp_unmod p)) eqn:Hu.
          + injection Ex as <-. split; [reflexivity|]. intros sn' X. injection X as <-.
            apply existsb_exists in Hu as (z & Hz & Ez). apply Nat.eqb_eq in Ez. subst z.
            destruct (Unm l Hl Hz) as (sn1 & Hf & Hc). congruence.
          + apply restore_content in Ex as (Ei & Ec). pose proof (find_snap_some _ _ _ Ef) as (Hsn & _).
            rewrite (Coh l sn) in Ec; [|apply in_or_app; auto|exact Hsn|exact Ei].
            split; [unfold content in Ec; congruence|]. intros sn' X. injection X as <-. exact Ec.
        - injection Ex as <-. split; [reflexivity|]. discriminate. }
      clear -E1 G. revert E1 G. generalize (bp_layouts p). intros L E1 G.
      induction E1 as [|x y l l' Hxy H IH]; constructor.
      - split; [left; reflexivity|]. apply G; [left; reflexivity|exact Hxy].
      - eapply F2_impl; [|apply IH]; [|intros z Hz; apply G; right; exact Hz].
        intros a b (A & B). split; [right; exact A|exact B]. }
    rewrite (absent_content _ _ _ _ _ _ (fun l sn Hl Hsn => Coh l sn (in_or_app _ _ _ (or_intror Hl)) Hsn) E3).
    assert (Fil : filter (fun l : layout => negb (existsb (Nat.eqb (ly_id l))
                     (map (@ly_id F D) (filter (fun l => negb (here l)) (bp_layouts p))))) ls1
                  = filter here ls1).
    { apply filter_ext_in. intros l1 Hl1.
      assert (X : exists l, In l (bp_layouts p) /\ ly_id l1 = ly_id l).
      { destruct (F2_in_r _ _ _ _ F1 Hl1) as (l & Hl & _ & E & K). eauto. }
      destruct X as (l & Hl & El). rewrite El. unfold here at 2. rewrite El. fold (here l).
      destruct (here l) eqn:Hh.
      - apply negb_true_iff. apply existsb_false. intros i Hi. apply in_map_iff in Hi as (l2 & <- & Hl2).
        apply filter_In in Hl2 as (_ & N2). apply Nat.eqb_neq. intros Eq. unfold here in N2, Hh. rewrite <- Eq in N2.
        rewrite Hh in N2. discriminate.
      - apply negb_false_iff. apply existsb_exists. exists (ly_id l). split; [|apply Nat.eqb_refl].
        apply in_map. apply filter_In. rewrite Hh. auto. }
    match goal with |- context [filter ?g ls1] => replace (filter g ls1) with (filter here ls1) by (symmetry; exact Fil) end.
    set (kept := filter here ls1) in *.
    set (rest := filter (fun s0 : lsnap => negb (existsb (Nat.eqb (ls_id s0)) (map (@ly_id F D) (filter here (bp_layouts p)))))
                   (so_layouts s)).
    assert (Eid1 : map (@ly_id F D) ls1 = map (@ly_id F D) (bp_layouts p)).
    { clear -F1. induction F1 as [|x y l l' (A & B & C) H IH]; [reflexivity|]. cbn. congruence. }
    assert (ND1 : NoDup (map (@ly_id F D) ls1)).
    { rewrite Eid1. pose proof (b_ids _ _ _ I) as X. rewrite map_app in X. apply nodup_app_l in X. exact X. }
    assert (Kc : forall l1, In l1 kept -> exists sn, In sn (so_layouts s) /\ content l1 = snap_content sn /\
                  In (ls_id sn) (map (@ly_id F D) (filter here (bp_layouts p)))).
    { intros l1 Hl1. apply filter_In in Hl1 as (Hl1 & Hh).
      assert (X : exists l, In l (bp_layouts p) /\ ly_id l1 = ly_id l /\
                forall sn, find_snap (ly_id l) (so_layouts s) = Some sn -> content l1 = snap_content sn).
      { destruct (F2_in_r _ _ _ _ F1 Hl1) as (l & Hl & _ & E & K). eauto. }
      destruct X as (l & Hl & El & Cc). unfold here in Hh. rewrite El in Hh.
      destruct (find_snap (ly_id l) (so_layouts s)) as [sn|] eqn:Ef; [|discriminate].
      pose proof (find_snap_some _ _ _ Ef) as (Hsn & Eis). exists sn. split; [exact Hsn|]. split; [auto|].
      rewrite Eis. apply in_map. apply filter_In. split; [exact Hl|]. unfold here. rewrite Ef. reflexivity. }
    apply NoDup_Permutation.
    - (* no duplicates on the left *)
      apply nodup_app.
      + apply nodup_map_in with (f := c_id). rewrite map_map. unfold kept.
        clear -ND1. change (fun x => c_id (content x)) with (@ly_id F D).
        induction ls1 as [|x l IH]; [constructor|]. cbn [map] in ND1. inversion ND1 as [|? ? Nx ND']; subst.
        cbn [filter]. destruct (here x); [|auto]. cbn [map]. constructor; [|auto].
        intros X. apply Nx. apply in_map_iff in X as (y & Ey & Hy). apply filter_In in Hy as (Hy & _).
        rewrite <- Ey. apply in_map, Hy.
      + apply nodup_map_in with (f := c_id). rewrite map_map. unfold rest.
        pose proof (sk_ids _ _ _ So) as X. clear -X. change (fun x => c_id (snap_content x)) with (@ls_id F D).
        revert X. generalize (map (@ly_id F D) (filter here (bp_layouts p))). intros pr X.
        induction (so_layouts s) as [|x l IH]; [constructor|]. cbn [map] in X. inversion X as [|? ? Nx ND']; subst.
        cbn [filter]. destruct (negb _); [|auto]. cbn [map]. constructor; [|auto].
        intros Y. apply Nx. apply in_map_iff in Y as (y & Ey & Hy). apply filter_In in Hy as (Hy & _).
        rewrite <- Ey. apply in_map, Hy.
      + intros c Hc Hc'. apply in_map_iff in Hc as (l1 & <- & Hl1). apply in_map_iff in Hc' as (sn' & Ec & Hsn').
        destruct (Kc l1 Hl1) as (sn & Hsn & Ecn & Hin). unfold rest in Hsn'. apply filter_In in Hsn' as (_ & Nn).
        apply negb_true_iff in Nn. rewrite existsb_false in Nn. specialize (Nn (ls_id sn) Hin).
        apply Nat.eqb_neq in Nn. apply Nn. unfold snap_content, content in *. congruence.
    - apply nodup_map_in with (f := c_id). rewrite map_map. exact (sk_ids _ _ _ So).
    - intros c. split; intros Hc.
      + apply in_app_or in Hc as [Hc|Hc].
        * apply in_map_iff in Hc as (l1 & <- & Hl1). destruct (Kc l1 Hl1) as (sn & Hsn & -> & _). apply in_map, Hsn.
        * apply in_map_iff in Hc as (sn & <- & Hsn). apply filter_In in Hsn as (Hsn & _). apply in_map, Hsn.
      + apply in_map_iff in Hc as (sn & <- & Hsn). apply in_or_app.
        destruct (existsb (Nat.eqb (ls_id sn)) (map (@ly_id F D) (filter here (bp_layouts p)))) eqn:Ex.
        * left. apply existsb_exists in Ex as (i & Hi & Ei). apply Nat.eqb_eq in Ei. subst i.
          apply in_map_iff in Hi as (l & El & Hl). apply filter_In in Hl as (Hl & Hh).
          assert (X : exists l1, In l1 ls1 /\ ly_id l1 = ly_id l /\
             forall sn, find_snap (ly_id l) (so_layouts s) = Some sn -> content l1 = snap_content sn).
          { destruct (F2_in_l _ _ _ _ F1 Hl) as (l1 & Hl1 & _ & E & K). eauto. }
          destruct X as (l1 & Hl1 & El1 & Cc).
          assert (Ef : find_snap (ly_id l) (so_layouts s) = Some sn)
            by (apply find_snap_in; [exact (sk_ids _ _ _ So)|exact Hsn|congruence]).
          rewrite <- (Cc sn Ef). apply in_map. unfold kept. apply filter_In. split; [exact Hl1|].
          unfold here. rewrite El1, Ef. reflexivity.
        * right. apply in_map. unfold rest. apply filter_In. rewrite Ex. auto.
  Qed.

  Lemma restore_inv : forall inst ovf (p : bp) h s p', BInv inst p h -> In s h -> bp_restore ovf p s = Ok p' ->
    BInv inst p' h /\ forall l, In l (bp_layouts p') -> same_as s l.
  Proof.
    intros inst ovf p h s p' I Hs H. pose proof (restore_layouts _ _ _ _ _ _ I Hs H) as P.
    unfold bp_restore in H.
    apply rbind_ok in H as (ls & _ & H). apply rbind_ok in H as (m & Em & H).
    apply rbind_ok in H as (u & Eb & H). injection H as <-. cbn [bp_layouts] in *.
    assert (So : sol_ok (bi_items inst) (map snd (bi_bins inst)) s).
    { pose proof (b_sols _ _ _ I) as X. rewrite Forall_forall in X. auto. }
    assert (Pid : Permutation (map (@ly_id F D) ls) (map (@ls_id F D) (so_layouts s))).
    { apply (Permutation_map c_id) in P. rewrite !map_map in P. exact P. }
    assert (Same : forall l, In l ls -> same_as s l).
    { intros l Hl. assert (X : In (content l) (map snap_content (so_layouts s))).
      { eapply Permutation_in; [exact P|]. apply in_map, Hl. }
      apply in_map_iff in X as (sn & Es & Hsn). exists sn. split; [|exact Es].
      apply find_snap_in; [exact (sk_ids _ _ _ So)|exact Hsn|]. unfold snap_content, content in Es. congruence. }
    split; [|exact Same].
    pose proof I as [I1 I2 I3 I4 I5 I6 I7 I8 I9 I10 I11 I12 I13 I14].
    split; cbn [bp_inst bp_layouts bp_templates bp_missing bp_bins bp_lctr bp_sctr bp_unmod bp_ref bp_removed];
      auto.
    - rewrite I1 in Em. eapply restored_MS; [exact (proj1 I4)| |exact Em].
      eapply PQ_perm; [|exact (sk_placed _ _ _ So)]. rewrite items_in_c.
      apply Permutation_flat_map. symmetry. exact P.
    - eapply BSt_perm; [|exact (sk_bins _ _ _ So)].
      apply (Permutation_map (fun c : cont => bn_id (c_bin c))) in P. rewrite !map_map in P. symmetry. exact P.
    - rewrite app_nil_r. eapply Permutation_NoDup; [symmetry; exact Pid|]. exact (sk_ids _ _ _ So).
    - eapply CInv_incl; [exact I7|]. unfold recorded. cbn [bp_layouts bp_removed]. rewrite app_nil_r.
      intros c Hc. apply in_or_app. right. apply in_app_or in Hc as [Hc|Hc]; [|exact Hc].
      apply in_flat_map. exists s. split; [exact Hs|]. eapply Permutation_in; [exact P|exact Hc].
    - rewrite Forall_forall. intros l Hl. assert (X : In (content l) (map snap_content (so_layouts s))).
      { eapply Permutation_in; [exact P|]. apply in_map, Hl. }
      apply in_map_iff in X as (sn & Es & Hsn). pose proof (sk_ne _ _ _ So) as Y. rewrite Forall_forall in Y.
      specialize (Y sn Hsn). unfold snap_content, content in Es. congruence.
    - eapply Permutation_NoDup; [symmetry; exact Pid|]. exact (sk_ids _ _ _ So).
    - intros x Hx; exact Hx.
    - exists s. auto.
  Qed.

  (** *** all histories *)
  Lemma step_inv : forall inst ovf (p : bp) h o p' h', ids_ok inst -> BInv inst p h ->
    bstep ovf (p, h) o = Ok (p', h') -> BInv inst p' h'.
  Proof.
    intros inst ovf p h o p' h' Ids I H. destruct o as [o ptr|li k b|li|old|k|]; cbn [bstep] in H.
    - apply rbind_ok in H as ([r p1] & E & H). injection H as <- <-. eapply place_inv; eassumption.
    - apply rbind_ok in H as ([r p1] & E & H). injection H as <- <-. eapply remove_inv; eassumption.
    - apply rbind_ok in H as (p1 & E & H). injection H as <- <-. eapply deregister_inv; eassumption.
    - apply rbind_ok in H as (old' & Eo & H). apply rbind_ok in H as ([s p1] & E & H). injection H as <- <-.
      eapply create_inv; [exact I| |exact E]. destruct old as [k|].
      + apply rbind_ok in Eo as (s' & Es & Eo). apply expect_ok in Es. injection Eo as <-. eapply nth_error_In; exact Es.
      + injection Eo as <-. exact Logic.I.
    - apply rbind_ok in H as (s & Es & H). apply expect_ok in Es. apply rbind_ok in H as (p1 & E & H). injection H as <- <-.
      eapply restore_inv; [exact I|eapply nth_error_In; exact Es|exact E].
    - apply rbind_ok in H as (p1 & E & H). injection H as <- <-. eapply flush_inv; eassumption.
  Qed.
  Lemma run_inv_from : forall inst ovf ops (p : bp) h p' h', ids_ok inst -> BInv inst p h ->
    rfold (bstep ovf) ops (p, h) = Ok (p', h') -> BInv inst p' h'.
  Proof.
    induction ops as [|o ops IH]; intros p h p' h' Ids I H; cbn [rfold] in H.
    - injection H as <- <-. exact I.
    - apply rbind_ok in H as ([p1 h1] & E & H). eapply IH; [exact Ids| |exact H]. eapply step_inv; eassumption.
  Qed.
  Lemma run_inv : forall inst ovf ops (p : bp) h, ids_ok inst -> bp_run ovf inst ops = Ok (p, h) -> BInv inst p h.
  Proof. intros. eapply run_inv_from; [eassumption|apply new_inv|eassumption]. Qed.
  (** solutions are only appended *)
  Lemma step_hist : forall ovf (p : bp) h o p' h', bstep ovf (p, h) o = Ok (p', h') -> exists t, h' = h ++ t.
  Proof.
    intros ovf p h o p' h' H. destruct o as [o ptr|li k b|li|old|k|]; cbn [bstep] in H.
    - apply rbind_ok in H as ([r p1] & E & H). injection H as <- <-. exists []. rewrite app_nil_r. reflexivity.
    - apply rbind_ok in H as ([r p1] & E & H). injection H as <- <-. exists []. rewrite app_nil_r. reflexivity.
    - apply rbind_ok in H as (p1 & E & H). injection H as <- <-. exists []. rewrite app_nil_r. reflexivity.
    - apply rbind_ok in H as (old' & Eo & H). apply rbind_ok in H as ([s p1] & E & H). injection H as <- <-. eauto.
    - apply rbind_ok in H as (s & Es & H). apply rbind_ok in H as (p1 & E & H). injection H as <- <-.
      exists []. rewrite app_nil_r. reflexivity.
    - apply rbind_ok in H as (p1 & E & H). injection H as <- <-. exists []. rewrite app_nil_r. reflexivity.
  Qed.
  Lemma run_hist : forall ovf ops (p : bp) h p' h', rfold (bstep ovf) ops (p, h) = Ok (p', h') -> exists t, h' = h ++ t.
  Proof.
    induction ops as [|o ops IH]; intros p h p' h' H; cbn [rfold] in H.
    - injection H as <- <-. exists []. rewrite app_nil_r. reflexivity.
    - apply rbind_ok in H as ([p1 h1] & E & H). apply step_hist in E as (t & ->). apply IH in H as (t' & ->).
      exists (t ++ t'). rewrite app_assoc. reflexivity.
  Qed.
End PO.
