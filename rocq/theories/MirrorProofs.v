(** Every layout of a problem mirrors its placed items. *)
From Coq Require Import List Bool Arith ZArith Lia Permutation.
From Verif Require Import Base Num GeoModel HazardModel QTModel TransfModel HpgModel CdeModel
  PolyModel SlotMapModel LayoutModel ProblemModel ProblemSpec BaseProofs CdeSpec SlotMapProofs ProblemProofs
  ProblemOpsProofs StripProofs LayoutProofs.
Import ListNotations.

(** polygons made by the constructor are usable *)
Section PN.
  Context {F : Type} {N : Num F}.
  Hypothesis sym : @feq_sym F N.
  Local Notation point := (point F).
  Definition apart (a b : point) : Prop := pt_eq a b = false.
  Lemma apart_sym : forall a b, apart a b -> apart b a.
  Proof. intros a b H. unfold apart, pt_eq in *. rewrite (sym (px b)), (sym (py b)). exact H. Qed.
  Lemma uc_le : forall l seen : list point, unique_count seen l <= length l.
  Proof.
    induction l as [|p l IH]; intros seen; cbn [unique_count length]; [lia|].
    destruct (existsb (pt_eq p) seen).
    - specialize (IH seen). lia.
    - specialize (IH (p :: seen)). lia.
  Qed.
  Lemma uc_apart : forall l seen : list point, unique_count seen l = length l ->
    ForallOrdPairs apart l /\ forall p s, In p l -> In s seen -> apart p s.
  Proof.
    induction l as [|p l IH]; intros seen H; cbn [unique_count length] in H.
    - split; [constructor|intros p s []].
    - destruct (existsb (pt_eq p) seen) eqn:E.
      + pose proof (uc_le l seen). lia.
      + injection H as H. destruct (IH _ H) as (A & B). rewrite existsb_false in E. split.
        * constructor; [|exact A]. rewrite Forall_forall. intros q Hq. apply apart_sym, B; [exact Hq|left; reflexivity].
        * intros q s [<-|Hq] Hs; [apply E, Hs|apply B; [exact Hq|right; exact Hs]].
  Qed.
  Lemma fop_app : forall (R : point -> point -> Prop) l l', ForallOrdPairs R l -> ForallOrdPairs R l' ->
    (forall a b, In a l -> In b l' -> R a b) -> ForallOrdPairs R (l ++ l').
  Proof.
    intros R l l' H H' C. induction H as [|a l Ha H IH]; [exact H'|]. cbn. constructor.
    - apply Forall_app. split; [exact Ha|]. rewrite Forall_forall. intros b Hb. apply C; [left; reflexivity|exact Hb].
    - apply IH. intros x b Hx. apply C. right. exact Hx.
  Qed.
  Lemma fop_rev : forall l, ForallOrdPairs apart l -> ForallOrdPairs apart (rev l).
  Proof.
    intros l H. induction H as [|a l Ha H IH]; [constructor|]. cbn. apply fop_app; [exact IH|repeat constructor|].
    intros x b Hx [<-|[]]. apply apart_sym. rewrite Forall_forall in Ha. apply Ha. apply in_rev. exact Hx.
  Qed.
  Lemma fop_nth : forall l, ForallOrdPairs apart l -> forall i j x y, i <> j ->
    nth_error l i = Some x -> nth_error l j = Some y -> apart x y.
  Proof.
    intros l H. induction H as [|a l Ha H IH]; intros i j x y Hij Ei Ej; [destruct i; discriminate|].
    rewrite Forall_forall in Ha. destruct i as [|i], j as [|j]; cbn in Ei, Ej; try lia.
    - injection Ei as <-. apply Ha. eapply nth_error_In, Ej.
    - injection Ej as <-. apply apart_sym, Ha. eapply nth_error_In, Ei.
    - eapply IH; [|exact Ei|exact Ej]. lia.
  Qed.
  Lemma poly_new_good : forall l s, poly_new l = Ok s -> good_poly s.
  Proof.
    intros l s H. unfold poly_new in H. apply rbind_ok in H as (u & E1 & H).
    destruct (Nat.leb 3 (length l)) eqn:L; [|discriminate]. apply Nat.leb_le in L.
    apply rbind_ok in H as (u' & E2 & H). destruct (Nat.eqb_spec (unique_count [] l) (length l)) as [U|]; [|discriminate].
    apply uc_apart in U as (U & _). destruct (feq (calculate_area l) f0); [discriminate|].
    assert (G : forall pts a, ForallOrdPairs apart pts -> 3 <= length pts -> forall s0,
       (diam <- calculate_diameter pts ;; poi <- calculate_poi pts diam ;;
        Ok (Poly pts (bbox_of_points pts) a diam poi None)) = Ok s0 -> good_poly s0).
    { intros pts a Up Lp s0 H0. apply rbind_ok in H0 as (dm & _ & H0). apply rbind_ok in H0 as (poi & _ & H0).
      injection H0 as <-. intros i Hi. unfold n_points in *. cbn [p_pts] in *. unfold get_edge, n_points. cbn [p_pts].
      assert (Hj : Nat.modulo (i + 1) (length pts) < length pts) by (apply Nat.mod_upper_bound; lia).
      assert (Hne : i <> Nat.modulo (i + 1) (length pts)).
      { destruct (Nat.eq_dec (i + 1) (length pts)) as [Eq|Hn].
        - rewrite Eq, Nat.mod_same by lia. lia.
        - rewrite Nat.mod_small by lia. lia. }
      apply nth_error_Some in Hi as Hi'. apply nth_error_Some in Hj as Hj'.
      destruct (nth_error pts i) as [x|] eqn:Ex; [|congruence].
      destruct (nth_error pts (Nat.modulo (i + 1) (length pts))) as [y|] eqn:Ey; [|congruence].
      cbn [expect rbind]. unfold edge_new. rewrite (fop_nth _ Up _ _ _ _ Hne Ex Ey). eauto. }
    destruct (flt (calculate_area l) f0); eapply G; try exact H; auto.
    - apply fop_rev, U.
    - rewrite rev_length. exact L.
  Qed.
End PN.

Section MP.
  Context {F : Type} {N : Num F} {D : Type} {ED : EqD D} {BS : BSearch} {DC : DComp F D}.
  Hypothesis BSok : bsearch_ok BS.
  Local Notation item := (item F).
  Local Notation bin := (bin F D).
  Local Notation layout := (layout F D).
  Local Notation lsnap := (lsnap F D).
  Local Notation solution := (solution F D).
  Local Notation bp := (bp F D).
  Local Notation sp := (sp F D).
  Local Notation popt := (popt D).
  Local Notation pitem := (pitem F D).

  (** *** bin packing *)
  Record MI (inst : bpinst F D) (p : bp) (h : list solution) : Prop := {
    m_inst : bp_inst p = inst;
    m_layouts : Forall (LI (item_shape (bi_items inst))) (bp_layouts p);
    m_removed : Forall (LI (item_shape (bi_items inst))) (bp_removed p);
    m_templates : Forall (LI (item_shape (bi_items inst))) (bp_templates p);
    m_sols : Forall (fun s => Forall (SI (item_shape (bi_items inst))) (so_layouts s)) h
  }.
  Lemma new_MI : forall inst, Forall (fun p => good_bin (fst p)) (bi_bins inst) -> MI inst (bp_new inst) [].
  Proof.
    intros inst G. split; cbn [bp_new bp_inst bp_layouts bp_removed bp_templates]; try constructor.
    rewrite Forall_map, Forall_forall. intros [i [b q]] H. apply in_combine_r in H. cbn.
    rewrite Forall_forall in G. apply (new_LI BSok). apply (G _ H).
  Qed.
  Lemma Forall_vset : forall {A} (P : A -> Prop) i x l, P x -> Forall P l -> Forall P (vset i x l).
  Proof.
    intros A P i x l Px H. revert i. induction H as [|y l Hy H IH]; intros [|i]; cbn; auto.
  Qed.
  Lemma item_shape_of : forall (items : list (item * nat)) i it q, nth_error items i = Some (it, q) ->
    item_shape items i = it_shape it.
  Proof. intros items i it q H. unfold item_shape. rewrite H. reflexivity. Qed.

  Lemma item_cat : forall inst i (it : item), ids_ok inst -> item_of (@bi_items F D inst) i = Ok it ->
    it_id it = i /\ it_shape it = item_shape (bi_items inst) (it_id it).
  Proof.
    intros inst i it Ids E. apply item_of_inv in E as (q & E). pose proof (proj1 Ids i it q E) as Ei.
    split; [exact Ei|]. rewrite Ei. symmetry. eapply item_shape_of. exact E.
  Qed.
  Lemma place_MI : forall inst p h o ptr r p', ids_ok inst -> MI inst p h -> bop_ok p (BPlace o ptr) ->
    bp_place p o ptr = Ok (r, p') -> MI inst p' h.
  Proof.
    intros inst p h [li i d] ptr r p' Ids [I1 I2 I3 I4 I5] V H. unfold bp_place in H.
    cbn [bop_ok po_layout po_item po_dt] in *. destruct V as (Gp & Nd).
    apply rbind_ok in H as ([j p1] & E1 & H).
    apply rbind_ok in H as (l & El & H). apply expect_ok in El.
    apply rbind_ok in H as (it & Eit & H).
    apply rbind_ok in H as ([k l'] & Epl & H). apply rbind_ok in H as (m & Em & H). injection H as <- <-.
    rewrite I1 in Gp.
    assert (K : bp_inst p1 = inst /\ LI (item_shape (bi_items inst)) l /\ ~ In (i, d) (placed l) /\
                Forall (LI (item_shape (bi_items inst))) (bp_layouts p1) /\
                bp_removed p1 = bp_removed p /\ bp_templates p1 = bp_templates p).
    { destruct li as [j0|t].
      - injection E1 as <- <-. unfold place_ok, target in Nd. cbn in Nd. rewrite El in Nd.
        split; [exact I1|]. split; [rewrite Forall_forall in I2; apply I2; eapply nth_error_In, El|].
        split; [exact Nd|]. split; [exact I2|]. auto.
      - apply rbind_ok in E1 as (tl & Et & E1). apply expect_ok in Et. unfold target in Nd. cbn in Nd. rewrite Et in Nd.
        unfold bp_register_layout in E1. apply rbind_ok in E1 as (bins & _ & E1). apply rbind_ok in E1 as (mm & _ & E1).
        injection E1 as <- <-. cbn [bp_inst bp_layouts bp_removed bp_templates] in *.
        rewrite nth_error_app2, Nat.sub_diag in El by lia. cbn in El. injection El as <-.
        assert (T : LI (item_shape (bi_items inst)) tl) by (rewrite Forall_forall in I4; apply I4; eapply nth_error_In, Et).
        split; [exact I1|]. split; [exact T|]. split; [exact Nd|].
        split; [apply Forall_app; split; [exact I2|constructor; [exact T|constructor]]|]. auto. }
    destruct K as (K1 & K2 & K3 & K4 & K5 & K6). rewrite K1 in Eit.
    destruct (item_cat _ _ _ Ids Eit) as (Ei & Es).
    assert (L' : LI (item_shape (bi_items inst)) l').
    { eapply (place_LI BSok); [exact K2|exact Es| | |exact Epl]; rewrite Ei; assumption. }
    split; cbn [bp_inst bp_layouts bp_removed bp_templates]; [exact K1|apply Forall_vset; assumption| | |exact I5].
    - rewrite K5. exact I3.
    - rewrite K6. exact I4.
  Qed.
  Lemma dereg_MI : forall inst (p : bp) h li p', MI inst p h -> bp_deregister_layout p li = Ok p' -> MI inst p' h.
  Proof.
    intros inst p h [i|t] p' [I1 I2 I3 I4 I5] H; [|discriminate]. unfold bp_deregister_layout in H.
    apply rbind_ok in H as ([l ls] & E & H). apply expect_ok in E.
    apply vremove_split in E as (a & b & Es & -> & _).
    apply rbind_ok in H as (bins & Eb & H). apply rbind_ok in H as (m & Em & H). injection H as <-.
    rewrite Es in I2. apply Forall_app in I2 as (A & B). inversion B; subst.
    split; cbn [bp_inst bp_layouts bp_removed bp_templates]; auto; apply Forall_app; auto.
  Qed.
  Lemma remove_MI : forall inst (p : bp) h li k b r p', MI inst p h -> bp_remove p li k b = Ok (r, p') -> MI inst p' h.
  Proof.
    intros inst p h [i|t] k b0 r p' I H; [|discriminate]. unfold bp_remove in H. pose proof I as [I1 I2 I3 I4 I5].
    apply rbind_ok in H as (l & El & H). apply expect_ok in El.
    apply rbind_ok in H as ([pi l'] & Er & H). apply rbind_ok in H as (p2 & E2 & H).
    apply rbind_ok in H as (m & Em & H). injection H as <- <-.
    assert (L' : LI (item_shape (bi_items inst)) l').
    { eapply (remove_LI BSok); [|exact Er]. rewrite Forall_forall in I2. apply I2. eapply nth_error_In, El. }
    match type of E2 with (if _ then bp_deregister_layout ?q _ else _) = _ => set (p1 := q) in * end.
    assert (M1 : MI inst p1 h).
    { split; cbn [p1 bp_inst bp_layouts bp_removed bp_templates]; auto. apply Forall_vset; assumption. }
    assert (M2 : MI inst p2 h).
    { destruct (layout_is_empty l'); [eapply dereg_MI; eassumption|]. injection E2 as <-. exact M1. }
    destruct M2 as [J1 J2 J3 J4 J5]. split; cbn [bp_inst bp_layouts bp_removed bp_templates]; auto.
  Qed.
  Lemma find_snap_SI : forall cat (sn : list lsnap) id s, Forall (SI cat) sn -> find_snap id sn = Some s -> SI cat s.
  Proof. intros cat sn id s H E. apply find_snap_some in E as (E & _). rewrite Forall_forall in H. auto. Qed.
  Lemma create_MI : forall inst (p : bp) h old sol p', MI inst p h ->
    match old with Some s => In s h | None => True end ->
    bp_create p old = Ok (sol, p') -> MI inst p' (h ++ [sol]).
  Proof.
    intros inst p h old sol p' [I1 I2 I3 I4 I5] Ho H. unfold bp_create in H.
    apply rbind_ok in H as (pl & Epl & H). apply rbind_ok in H as (u & Eold & H).
    apply rbind_ok in H as (sl & Esl & H). injection H as <- <-.
    assert (K : Forall (fun x => SI (item_shape (bi_items inst)) (fst x) /\ LI (item_shape (bi_items inst)) (snd x)) sl).
    { rewrite Forall_forall. intros x Hx. apply rmapM_F2 in Esl.
      destruct (F2_in_r _ _ _ _ Esl Hx) as (l & Hl & El).
      assert (Ll : LI (item_shape (bi_items inst)) l) by (rewrite Forall_forall in I2; auto).
      destruct x as [s l']. unfold bp_snapshot_layout in El. cbn [fst snd].
      assert (Snap : layout_snapshot l = Ok (s, l') -> SI (item_shape (bi_items inst)) s /\ LI (item_shape (bi_items inst)) l')
        by (intros E; apply (snap_SI BSok) with (1 := Ll) in E; tauto).
      destruct old as [so|]; cbn [option_map] in El; [|auto].
      destruct (existsb (Nat.eqb (ly_id l)) (bp_unmod p)); [|auto].
      apply rbind_ok in El as (s0 & Es & El). apply expect_ok in Es. injection El as <- <-.
      split; [|exact Ll]. eapply find_snap_SI; [|exact Es]. rewrite Forall_forall in I5. auto. }
    split; cbn [bp_inst bp_layouts bp_removed bp_templates]; auto.
    - rewrite Forall_map. eapply Forall_impl; [|exact K]. intros x Hx. apply Hx.
    - apply Forall_app. split; [exact I5|]. constructor; [|constructor]. cbn [so_layouts].
      rewrite Forall_map. eapply Forall_impl; [|exact K]. intros x Hx. apply Hx.
  Qed.
  Lemma absent_LI : forall cat present sn ls removed ls' removed', Forall (SI cat) sn ->
    Forall (LI cat) ls -> Forall (LI cat) removed ->
    rfold (restore_absent present) sn (ls, removed) = Ok (ls', removed') -> Forall (LI cat) ls'.
  Proof.
    induction sn as [|s sn IH]; intros ls removed ls' removed' Hs Hl Hr H; cbn [rfold] in H.
    - injection H as <- <-. exact Hl.
    - inversion Hs as [|? ? Ss Hs']; subst. apply rbind_ok in H as ([ls1 removed1] & E1 & H).
      unfold restore_absent in E1. destruct (existsb (Nat.eqb (ls_id s)) present).
      + injection E1 as <- <-. eapply IH; [| | |exact H]; assumption.
      + destruct (position (fun l : layout => Nat.eqb (ly_id l) (ls_id s)) removed) as [i|] eqn:P.
        * apply rbind_ok in E1 as ([l rem] & Es & E1). apply expect_ok in Es.
          apply rbind_ok in E1 as (l' & Er & E1). injection E1 as <- <-.
          apply position_some in P as (a & x & b & -> & <- & Ex & _).
          pose proof Es as Es'. rewrite swap_remove_spec in Es'. injection Es' as <- _.
          apply swap_remove_perm in Es.
          apply Forall_app in Hr as (Ha & Hb). inversion Hb; subst.
          assert (Hrem : Forall (LI cat) rem) by (eapply Permutation_Forall; [symmetry; exact Es|]; apply Forall_app; auto).
          eapply IH; [exact Hs'| | |exact H]; [|assumption]. apply Forall_app. split; [exact Hl|].
          constructor; [|constructor]. eapply (restore_LI BSok); [| |exact Er]; assumption.
        * apply rbind_ok in E1 as (l' & Er & E1). injection E1 as <- <-.
          eapply IH; [exact Hs'| |exact Hr|exact H]. apply Forall_app. split; [exact Hl|].
          constructor; [|constructor]. eapply (from_snapshot_LI BSok); [|exact Er]. assumption.
  Qed.
  Lemma restore_MI : forall inst ovf (p : bp) h s p', MI inst p h -> In s h -> bp_restore ovf p s = Ok p' -> MI inst p' h.
  Proof.
    intros inst ovf p h s p' [I1 I2 I3 I4 I5] Hs H. unfold bp_restore in H.
    assert (Ss : Forall (SI (item_shape (bi_items inst))) (so_layouts s)) by (rewrite Forall_forall in I5; auto).
    apply rbind_ok in H as (ls & Els & H). apply rbind_ok in H as (m & Em & H).
    apply rbind_ok in H as (u & Eb & H). injection H as <-.
    split; cbn [bp_inst bp_layouts bp_removed bp_templates]; auto.
    destruct (opt_nat_eqb (Some (so_id s)) (bp_ref p)).
    - apply rbind_ok in Els as (ls1 & E1 & Els). apply rbind_ok in Els as ([ls3 rem] & E3 & Els). injection Els as <-.
      rewrite filters_not_in in E3. eapply absent_LI; [exact Ss| |exact I3|exact E3].
      rewrite Forall_forall. intros l Hl. apply filter_In in Hl as (Hl & _).
      apply rmapM_F2 in E1. destruct (F2_in_r _ _ _ _ E1 Hl) as (l0 & Hl0 & El0). unfold restore_present in El0.
      assert (L0 : LI (item_shape (bi_items inst)) l0) by (rewrite Forall_forall in I2; auto).
      destruct (find_snap (ly_id l0) (so_layouts s)) as [sn|] eqn:Ef; [|injection El0 as <-; exact L0].
      destruct (existsb (Nat.eqb (ly_id l0)) (bp_unmod p)); [injection El0 as <-; exact L0|].
      eapply (restore_LI BSok); [exact L0| |exact El0]. eapply find_snap_SI; eassumption.
    - rewrite Forall_forall. intros l Hl. apply rmapM_F2 in Els. destruct (F2_in_r _ _ _ _ Els Hl) as (sn & Hsn & El).
      eapply (from_snapshot_LI BSok); [|exact El]. rewrite Forall_forall in Ss. auto.
  Qed.
  Lemma flush_MI : forall inst (p : bp) h p', MI inst p h -> bp_flush p = Ok p' -> MI inst p' h.
  Proof.
    intros inst p h p' [I1 I2 I3 I4 I5] H. unfold bp_flush in H. apply rbind_ok in H as (ls & E & H). injection H as <-.
    split; cbn [bp_inst bp_layouts bp_removed bp_templates]; auto.
    rewrite Forall_forall. intros l Hl. apply rmapM_F2 in E. destruct (F2_in_r _ _ _ _ E Hl) as (l0 & Hl0 & El).
    eapply (flush_LI BSok); [|exact El]. rewrite Forall_forall in I2. auto.
  Qed.
  Lemma bstep_MI : forall inst ovf (p : bp) h o p' h', ids_ok inst -> MI inst p h -> bop_ok p o ->
    bstep ovf (p, h) o = Ok (p', h') -> MI inst p' h'.
  Proof.
    intros inst ovf p h o p' h' Ids I V H. destruct o as [o ptr|li k b|li|old|k|]; cbn [bstep] in H.
    - apply rbind_ok in H as ([r p1] & E & H). injection H as <- <-. eapply place_MI; eassumption.
    - apply rbind_ok in H as ([r p1] & E & H). injection H as <- <-. eapply remove_MI; eassumption.
    - apply rbind_ok in H as (p1 & E & H). injection H as <- <-. eapply dereg_MI; eassumption.
    - apply rbind_ok in H as (old' & Eo & H). apply rbind_ok in H as ([s p1] & E & H). injection H as <- <-.
      eapply create_MI; [exact I| |exact E]. destruct old as [k|].
      + apply rbind_ok in Eo as (s' & Es & Eo). apply expect_ok in Es. injection Eo as <-. eapply nth_error_In; exact Es.
      + injection Eo as <-. exact Logic.I.
    - apply rbind_ok in H as (s & Es & H). apply expect_ok in Es. apply rbind_ok in H as (p1 & E & H). injection H as <- <-.
      eapply restore_MI; [exact I|eapply nth_error_In; exact Es|exact E].
    - apply rbind_ok in H as (p1 & E & H). injection H as <- <-. eapply flush_MI; eassumption.
  Qed.
  Lemma brun_MI : forall inst ovf ops (p : bp) h p' h', ids_ok inst -> MI inst p h -> bops_ok ovf (p, h) ops ->
    rfold (bstep ovf) ops (p, h) = Ok (p', h') -> MI inst p' h'.
  Proof.
    induction ops as [|o ops IH]; intros p h p' h' Ids I V H; cbn [rfold] in H.
    - injection H as <- <-. exact I.
    - apply rbind_ok in H as ([p1 h1] & E & H). cbn [bops_ok fst] in V. destruct V as (V1 & V2). rewrite E in V2.
      eapply IH; [exact Ids| |exact V2|exact H]. eapply bstep_MI; eassumption.
  Qed.
  Lemma bp_mirror : forall inst ovf ops (p : bp) h, good_inst inst -> bops_ok ovf (bp_new inst, []) ops ->
    bp_run ovf inst ops = Ok (p, h) -> Forall (mirrored (item_shape (bi_items inst))) (bp_layouts p).
  Proof.
    intros inst ovf ops p h ((items & bins & Ei) & G) V H. apply inst_ids in Ei.
    pose proof (brun_MI _ _ _ _ _ _ _ Ei (new_MI _ G) V H) as M.
    eapply Forall_impl; [|exact (m_layouts _ _ _ M)]. intros l. apply (LI_mirror BSok).
  Qed.

  (** *** strip packing *)
  Hypothesis sym : @feq_sym F N.
  Record SMI (inst : spinst F) (p : sp) (h : list solution) : Prop := {
    sm_inst : sp_inst p = inst;
    sm_layout : LI (item_shape (si_items inst)) (sp_layout p);
    sm_sols : Forall (fun s => Forall (SI (item_shape (si_items inst))) (so_layouts s)) h
  }.
  Lemma strip_good : forall r c ptr (b : bin), bin_from_strip r c ptr = Ok b -> good_bin b.
  Proof.
    intros r c ptr b H. unfold bin_from_strip in H. apply rbind_ok in H as (s & Es & H). split.
    - eauto 10.
    - apply bin_new_spec in H as (_ & Eo & Eh & _ & Ez & _). unfold bin_statics. rewrite Eo, Eh, Ez. cbn.
      constructor; [|constructor]. cbn. eapply poly_new_good; [exact sym|exact Es].
  Qed.
  Lemma sp_new_SMI : forall inst w c ptr (p : sp), sp_new inst w c ptr = Ok p -> SMI inst p [].
  Proof.
    intros inst w c ptr p H. unfold sp_new in H. apply rbind_ok in H as (b & E & H). injection H as <-.
    split; cbn [sp_inst sp_layout]; auto. apply (new_LI BSok). eapply strip_good, E.
  Qed.
  Lemma sp_place_SMI : forall inst (p : sp) h o ptr r p', sids_ok inst -> SMI inst p h ->
    good_poly (shape_at (item_shape (si_items inst)) (po_item o) (po_dt o)) ->
    ~ In (po_item o, po_dt o) (placed (sp_layout p)) ->
    sp_place p o ptr = Ok (r, p') -> SMI inst p' h /\
      Permutation (placed (sp_layout p')) ((po_item o, po_dt o) :: placed (sp_layout p)).
  Proof.
    intros inst p h o ptr r p' Ids [I1 I2 I3] Gp Nd H. unfold sp_place in H. apply rbind_ok in H as (u & _ & H).
    apply rbind_ok in H as (it & Eit & H). rewrite I1 in Eit. apply item_of_inv in Eit as (q & Eit).
    pose proof (Ids _ _ _ Eit) as Ei.
    apply rbind_ok in H as ([k l] & Ep & H). apply rbind_ok in H as (m & Em & H). injection H as <- <-.
    split.
    - split; cbn [sp_inst sp_layout]; auto. eapply (place_LI BSok); [exact I2| | | |exact Ep]; rewrite Ei; auto.
      symmetry. eapply item_shape_of. exact Eit.
    - cbn [sp_layout]. apply place_content in Ep as (_ & _ & Ins).
      pose proof (insert_perm (ly_items (sp_layout p)) (pi_new it (po_dt o) ptr) (proj1 (proj1 (proj2 I2)))) as P.
      rewrite Ins in P. cbn [snd] in P. unfold placed.
      apply (Permutation_map (fun p : pitem => (pi_item p, pi_dt p))) in P. cbn [map pi_new pi_item pi_dt] in P.
      rewrite Ei in P. exact P.
  Qed.
  Lemma sp_remove_SMI : forall inst (p : sp) h li k b r p', SMI inst p h ->
    sp_remove p li k b = Ok (r, p') -> SMI inst p' h.
  Proof.
    intros inst p h li k b r p' [I1 I2 I3] H. unfold sp_remove in H. apply rbind_ok in H as (u & _ & H).
    apply rbind_ok in H as ([pi l] & Er & H). apply rbind_ok in H as (m & Em & H). injection H as <- <-.
    split; cbn [sp_inst sp_layout]; auto. eapply (remove_LI BSok); [exact I2|exact Er].
  Qed.
  Lemma replace_SMI : forall inst h xs (p p' : sp), sids_ok inst -> SMI inst p h ->
    Forall (fun x => good_poly (shape_at (item_shape (si_items inst)) (fst (fst x)) (snd (fst x)))) xs ->
    NoDup (map fst xs) -> (forall x, In x (map fst xs) -> ~ In x (placed (sp_layout p))) ->
    rfold replace_item xs p = Ok p' -> SMI inst p' h.
  Proof.
    induction xs as [|[[id d] ptr] xs IH]; intros p p' Ids I Gx ND Fr H; cbn [rfold] in H.
    - injection H as <-. exact I.
    - apply rbind_ok in H as (p1 & E & H). inversion Gx as [|? ? G1 Gx']; subst. cbn [map fst] in ND.
      inversion ND as [|? ? N1 ND']; subst. cbn [fst snd] in *.
      unfold replace_item in E. apply rbind_ok in E as (it & _ & E). apply rbind_ok in E as (b & _ & E).
      destruct b.
      + injection E as <-. eapply IH; [exact Ids|exact I|exact Gx'|exact ND'| |exact H].
        intros x Hx. apply Fr. right. exact Hx.
      + apply rbind_ok in E as ([r p2] & E & E'). injection E' as <-.
        eapply sp_place_SMI in E as (I1 & P); [|exact Ids|exact I|exact G1|apply (Fr (id, d)); left; reflexivity].
        eapply IH; [exact Ids|exact I1|exact Gx'|exact ND'| |exact H].
        intros x Hx Hp. eapply Permutation_in in Hp; [|exact P]. cbn [po_item po_dt] in Hp. destruct Hp as [<-|Hp].
        * contradiction.
        * apply (Fr x); [right; exact Hx|exact Hp].
  Qed.
  Lemma combine_fst : forall {A B} (l : list A) (l' : list B), length l = length l' -> map fst (combine l l') = l.
  Proof. induction l as [|x l IH]; intros [|y l'] H; cbn in *; try discriminate; [reflexivity|]. f_equal. auto. Qed.
  Lemma modify_SMI : forall inst h (p p' : sp) r ptr, sids_ok inst -> SMI inst p h ->
    modify_strip p r ptr = Ok p' -> SMI inst p' h.
  Proof.
    intros inst h p p' r ptr Ids [I1 I2 I3] H. unfold modify_strip in H. apply rbind_ok in H as (m & Em & H).
    apply rbind_ok in H as (b & Eb & H).
    set (pl := map (fun pi : pitem => (pi_item pi, pi_dt pi)) (sm_values (ly_items (sp_layout p)))) in *.
    assert (Ef : map fst (combine pl (seq (S ptr) (length pl))) = pl) by (apply combine_fst; rewrite seq_length; reflexivity).
    eapply replace_SMI; [exact Ids| | | | |exact H].
    - split; cbn [sp_inst sp_layout]; auto. apply (new_LI BSok). eapply strip_good, Eb.
    - rewrite Forall_forall. intros x Hx. apply (in_map fst) in Hx. rewrite Ef in Hx. unfold pl in Hx.
      apply in_map_iff in Hx as (pi & <- & Hpi). cbn [fst snd].
      destruct I2 as (_ & (_ & Fi & _) & _). rewrite Forall_forall in Fi. destruct (Fi pi Hpi) as (E & G).
      rewrite <- E. exact G.
    - rewrite Ef. exact (proj1 (LI_mirror BSok _ _ I2)).
    - intros x _ [].
  Qed.
  Lemma sstep_SMI : forall inst ovf tol (p : sp) h o p' h', sids_ok inst -> SMI inst p h -> sop_ok p o ->
    sstep ovf tol (p, h) o = Ok (p', h') -> SMI inst p' h'.
  Proof.
    intros inst ovf tol p h o p' h' Ids I V H. pose proof I as [I1 I2 I3].
    destruct o as [o ptr|li k b|r ptr|w ptr|w ptr|w ptr|ptr| |k|]; cbn [sstep sop_ok] in *.
    - apply rbind_ok in H as ([r p1] & E & H). injection H as <- <-. destruct V as (V1 & V2). rewrite I1 in V1.
      eapply sp_place_SMI in E as (K & _); eassumption.
    - apply rbind_ok in H as ([r p1] & E & H). injection H as <- <-. eapply sp_remove_SMI; eassumption.
    - apply rbind_ok in H as (p1 & E & H). injection H as <- <-. eapply modify_SMI; eassumption.
    - apply rbind_ok in H as (p1 & E & H). injection H as <- <-. eapply modify_SMI; eassumption.
    - apply rbind_ok in H as (p1 & E & H). injection H as <- <-. eapply modify_SMI; eassumption.
    - apply rbind_ok in H as (p1 & E & H). injection H as <- <-. unfold modify_strip_centered in E.
      destruct (match occupied_range (sp_layout p) with Some r => r | None => (f0, f0) end) as [x y].
      eapply modify_SMI; eassumption.
    - apply rbind_ok in H as (p1 & E & H). injection H as <- <-. unfold fit_strip in E.
      apply rbind_ok in E as (p2 & E & E'). apply rbind_ok in E' as (u & _ & E'). injection E' as <-.
      unfold modify_strip_centered in E.
      destruct (match occupied_range (sp_layout p) with Some r => r | None => (f0, f0) end) as [x y].
      eapply modify_SMI; eassumption.
    - apply rbind_ok in H as ([s p1] & E & H). injection H as <- <-.
      apply sp_create_spec in E as (sn & l & Es & _ & Esol & ->).
      apply (snap_SI BSok) with (1 := I2) in Es as (A & B).
      split; cbn [sp_inst sp_layout]; auto. apply Forall_app. split; [exact I3|]. constructor; [|constructor].
      rewrite Esol. cbn [so_layouts]. auto.
    - apply rbind_ok in H as (s & Es & H). apply expect_ok, nth_error_In in Es.
      apply rbind_ok in H as (p1 & E & H). injection H as <- <-. unfold sp_restore in E.
      apply rbind_ok in E as (ls & Els & E). apply expect_ok in Els.
      assert (Sl : SI (item_shape (si_items inst)) ls).
      { rewrite Forall_forall in I3. specialize (I3 s Es). rewrite Forall_forall in I3. apply I3. eapply nth_error_In, Els. }
      apply rbind_ok in E as (l & El & E). apply rbind_ok in E as (m & Em & E). injection E as <-.
      split; cbn [sp_inst sp_layout]; auto.
      destruct (Nat.eqb (ly_id (sp_layout p)) (ls_id ls)).
      + eapply (restore_LI BSok); eassumption.
      + eapply (from_snapshot_LI BSok); eassumption.
    - apply rbind_ok in H as (p1 & E & H). injection H as <- <-. unfold sp_flush in E.
      apply rbind_ok in E as (l & El & E). injection E as <-. split; cbn [sp_inst sp_layout]; auto.
      eapply (flush_LI BSok); eassumption.
  Qed.
  Lemma srun_SMI : forall inst ovf tol ops (p : sp) h p' h', sids_ok inst -> SMI inst p h -> sops_ok ovf tol (p, h) ops ->
    rfold (sstep ovf tol) ops (p, h) = Ok (p', h') -> SMI inst p' h'.
  Proof.
    induction ops as [|o ops IH]; intros p h p' h' Ids I V H; cbn [rfold] in H.
    - injection H as <- <-. exact I.
    - apply rbind_ok in H as ([p1 h1] & E & H). cbn [sops_ok fst] in V. destruct V as (V1 & V2). rewrite E in V2.
      eapply IH; [exact Ids| |exact V2|exact H]. eapply sstep_SMI; eassumption.
  Qed.
  Lemma sp_mirror : forall inst ovf tol w c ptr ops (p0 p : sp) h, good_sinst inst ->
    sp_new inst w c ptr = Ok p0 -> sops_ok ovf tol (p0, []) ops ->
    rfold (sstep ovf tol) ops (p0, []) = Ok (p, h) -> mirrored (item_shape (si_items inst)) (sp_layout p).
  Proof.
    intros inst ovf tol w c ptr ops p0 p h (items & hgt & Ei) E0 V H. apply sinst_ids in Ei.
    apply sp_new_SMI in E0. pose proof (srun_SMI _ _ _ _ _ _ _ _ Ei E0 V H) as M.
    apply (LI_mirror BSok), (sm_layout _ _ _ M).
  Qed.
End MP.
