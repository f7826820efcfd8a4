(** Debug builds of problems: on valid histories the debug operations equal the release
    ones.  Every [Num F]. *)
From Coq Require Import List Bool Arith ZArith Lia Permutation.
From Verif Require Import Base Num GeoModel HazardModel QTModel TransfModel HpgModel CdeModel CdeSpec
  PolyModel SlotMapModel LayoutModel ProblemModel ProblemSpec AssertModel AssertSpec AssertLayoutModel AssertLayoutSpec
  AssertProblemModel AssertProblemSpec
  BaseProofs HazVecProofs QTProofs CdeProofs CdeOpsProofs CdeHistProofs SlotMapProofs LayoutProofs ProblemProofs ProblemOpsProofs StripProofs
  MirrorProofs AssertRefProofs AssertProofs AssertLayoutProofs.
Import ListNotations.

Section PB.
  Context {F : Type} {N : Num F} {D : Type} {ED : EqD D} {BS : BSearch} {DC : DComp F D}.
  Hypothesis BSok : bsearch_ok BS.
  Local Notation item := (item F).
  Local Notation bin := (bin F D).
  Local Notation layout := (layout F D).
  Local Notation lsnap := (lsnap F D).
  Local Notation solution := (solution F D).
  Local Notation bp := (bp F D).
  Local Notation sp := (sp F D).
  Local Notation popt := (popt D).
  Local Notation pitem := (pitem F D).

  (** *** the check *)
  Lemma match_iff : forall (l : layout) s, layouts_match l s = true <-> bn_id (ly_bin l) = bn_id (ls_bin s) /\ incl (snap_placed s) (placed l).
  Proof.
    intros l s. unfold layouts_match. rewrite andb_true_iff, Nat.eqb_eq, forallb_forall. unfold incl, snap_placed, placed.
    split; intros (A & B); (split; [exact A|]).
    - intros x Hx. apply in_map_iff in Hx as (p & <- & Hp). specialize (B p Hp). apply existsb_exists in B as (p' & Hp' & E).
      apply andb_true_iff in E as (E1 & E2). apply Nat.eqb_eq in E1. apply deq_ok in E2. apply in_map_iff. exists p'. rewrite E1, E2. auto.
    - intros p Hp. apply existsb_exists. specialize (B (pi_item p, pi_dt p)). assert (X : In (pi_item p, pi_dt p) (map (fun p => (pi_item p, pi_dt p)) (sm_values (ly_items l)))).
      { apply B, in_map_iff. eauto. }
      apply in_map_iff in X as (p' & E & Hp'). injection E as E1 E2. exists p'. split; [exact Hp'|]. rewrite E1, Nat.eqb_refl. cbn [andb]. apply deq_ok. exact E2.
  Qed.
  Lemma matches_iff : forall ls (s : solution), problem_matches ls s = Ok true <-> Forall (recorded_in s) ls.
  Proof.
    induction ls as [|l ls IH]; intros s; cbn [problem_matches]; [split; [constructor|reflexivity]|].
    unfold find_snap. split.
    - intros H. apply rbind_ok in H as (sn & E & H). apply expect_ok in E. destruct (layouts_match l sn) eqn:M; [|discriminate].
      constructor; [|apply IH, H]. exists sn. split; [exact E|]. apply match_iff, M.
    - intros H. inversion H as [|? ? (sn & E & M) H']; subst. rewrite E. cbn [expect rbind].
      rewrite (proj2 (match_iff l sn) M). apply IH, H'.
  Qed.
  Lemma same_recorded : forall (s : solution) l, same_as s l -> recorded_in s l.
  Proof.
    intros s l (sn & E & C). exists sn. split; [exact E|]. unfold snap_content, content in C. injection C as C1 C2 C3.
    unfold snap_placed, placed. rewrite C2, C3. split; [reflexivity|apply incl_refl].
  Qed.
  Lemma assert_same : forall ls (s : solution), (forall l, In l ls -> same_as s l) -> assert_matches ls s = Ok tt.
  Proof.
    intros ls s H. unfold assert_matches. rewrite (proj2 (matches_iff ls s)); [reflexivity|]. apply Forall_forall.
    intros l Hl. apply same_recorded, H, Hl.
  Qed.

  (** *** bin packing *)
  Section Cat.
  Variable cat : nat -> poly F.
  Local Notation DI := (DI cat).
  Definition DS (s : lsnap) : Prop := SI cat s /\ checked_bin (ls_bin s).
  Lemma snap_DS : forall l s l', DI l -> layout_snapshot l = Ok (s, l') -> DI l' /\ DS s.
  Proof.
    intros l s l' I E. destruct (snapshot_d BSok cat l I) as (_ & s1 & l1 & E1 & I1 & S1 & B1 & B2). rewrite E in E1. injection E1 as <- <-.
    split; [exact I1|]. split; [exact S1|]. rewrite B1. apply I.
  Qed.
  Lemma rmapM_ext : forall {A B} (f g : A -> res B) l, (forall a, In a l -> f a = g a) -> rmapM f l = rmapM g l.
  Proof.
    intros A B f g. induction l as [|a l IH]; intros H; [reflexivity|]. cbn [rmapM]. rewrite (H a (or_introl eq_refl)), IH; [reflexivity|].
    intros b Hb. apply H. right. exact Hb.
  Qed.
  End Cat.
  Record DB (inst : bpinst F D) (p : bp) (h : list solution) : Prop := {
    db_inv : BInv inst p h;
    db_layouts : Forall (DI (item_shape (bi_items inst))) (bp_layouts p);
    db_removed : Forall (DI (item_shape (bi_items inst))) (bp_removed p);
    db_templates : Forall (DI (item_shape (bi_items inst))) (bp_templates p);
    db_sols : Forall (fun s => Forall (DS (item_shape (bi_items inst))) (so_layouts s)) h
  }.
  Lemma new_DB : forall inst, checked_inst inst -> DB inst (bp_new inst) [].
  Proof.
    intros inst (G & C). split; cbn [bp_new bp_layouts bp_removed bp_templates]; [apply new_inv|constructor|constructor| |constructor].
    rewrite Forall_map, Forall_forall. intros [i [b q]] H. apply in_combine_r in H. cbn.
    rewrite Forall_forall in C. apply (new_DI BSok). apply (C _ H).
  Qed.
  Lemma place_DB : forall inst p h o ptr, ids_ok inst -> DB inst p h -> bop_ok p (BPlace o ptr) ->
    bp_place_d p o ptr = bp_place p o ptr /\ forall r p', bp_place p o ptr = Ok (r, p') -> DB inst p' h.
  Proof.
    intros inst p h [li i d] ptr Ids [I I2 I3 I4 I5] V. pose proof (b_inst _ _ _ I) as I1.
    assert (K : forall j p1, match li with
      | Real i => Ok (i, p)
      | Template t =>
          let id := S (bp_lctr p) in
          tl <- expect (nth_error (bp_templates p) t) ;;
          bp_register_layout (BP (bp_inst p) (bp_layouts p) (bp_templates p) (bp_missing p) (bp_bins p)
                                 id (bp_sctr p) (bp_unmod p) (bp_ref p) (bp_removed p))
                             (clone_with_id tl id)
      end = Ok (j, p1) -> forall l, nth_error (bp_layouts p1) j = Some l ->
      bp_inst p1 = inst /\ DI (item_shape (bi_items inst)) l /\ ~ In (i, d) (placed l) /\
                Forall (DI (item_shape (bi_items inst))) (bp_layouts p1) /\
                bp_removed p1 = bp_removed p /\ bp_templates p1 = bp_templates p).
    { intros j p1 E1 l El. cbn [bop_ok] in V. unfold place_ok in V. cbn [po_layout po_item po_dt] in V. destruct V as (_ & Nd). destruct li as [j0|t].
      - injection E1 as <- <-. unfold target in Nd. rewrite El in Nd.
        split; [exact I1|]. split; [rewrite Forall_forall in I2; apply I2; eapply nth_error_In, El|]. auto.
      - apply rbind_ok in E1 as (tl & Et & E1). apply expect_ok in Et. unfold target in Nd. rewrite Et in Nd.
        unfold bp_register_layout in E1. apply rbind_ok in E1 as (bins & _ & E1). apply rbind_ok in E1 as (mm & _ & E1).
        injection E1 as <- <-. cbn [bp_inst bp_layouts bp_removed bp_templates] in *.
        rewrite nth_error_app2, Nat.sub_diag in El by lia. cbn in El. injection El as <-.
        assert (T : DI (item_shape (bi_items inst)) tl) by (rewrite Forall_forall in I4; apply I4; eapply nth_error_In, Et).
        split; [exact I1|]. split; [exact T|]. split; [exact Nd|].
        split; [apply Forall_app; split; [exact I2|constructor; [exact T|constructor]]|]. auto. }
    assert (Gp : good_poly (shape_at (item_shape (bi_items inst)) i d)).
    { cbn [bop_ok] in V. rewrite I1 in V. exact (proj1 V). }
    assert (Inv : forall r p', bp_place p (PO li i d) ptr = Ok (r, p') -> BInv inst p' h) by (intros r p' E; eapply place_inv; eassumption).
    unfold bp_place_d, bp_place in *. cbn [po_layout po_item po_dt] in *.
    match goal with |- context [rbind ?x _] => set (a := x) in * end.
    destruct a as [[j p1]|]; [|split; [reflexivity|discriminate]]. cbn [rbind] in *. specialize (K j p1 eq_refl).
    destruct (nth_error (bp_layouts p1) j) as [l|]; [|split; [reflexivity|discriminate]]. cbn [expect rbind] in *.
    destruct (K l eq_refl) as (K1 & K2 & K3 & K4 & K5 & K6). rewrite K1 in *.
    destruct (item_of (bi_items inst) i) as [it|] eqn:Eit; [|split; [reflexivity|discriminate]]. cbn [rbind] in *.
    destruct (item_cat _ _ _ Ids Eit) as (Ei & Es).
    destruct (place_d BSok _ l it d ptr K2 Es) as (Ed & k & l' & E & L'); [rewrite Ei; exact Gp|rewrite Ei; exact K3|].
    rewrite Ed. split; [reflexivity|]. intros r p' H. pose proof (Inv r p' H) as Iv. rewrite E in H. cbn [rbind] in H.
    apply rbind_ok in H as (m & Em & H). injection H as <- <-.
    split; cbn [bp_layouts bp_removed bp_templates]; [exact Iv|apply Forall_vset; assumption| | |exact I5].
    - rewrite K5. exact I3.
    - rewrite K6. exact I4.
  Qed.
  Lemma dereg_DB : forall inst (p : bp) h li p', DB inst p h -> bp_deregister_layout p li = Ok p' -> DB inst p' h.
  Proof.
    intros inst p h [i|t] p' [I I2 I3 I4 I5] H; [|discriminate]. pose proof (deregister_inv _ _ _ _ _ I H) as Iv. unfold bp_deregister_layout in H.
    apply rbind_ok in H as ([l ls] & E & H). apply expect_ok in E.
    apply vremove_split in E as (a & b & Es & -> & _).
    apply rbind_ok in H as (bins & Eb & H). apply rbind_ok in H as (m & Em & H). injection H as <-.
    rewrite Es in I2. apply Forall_app in I2 as (A & B). inversion B; subst.
    split; cbn [bp_layouts bp_removed bp_templates]; auto; apply Forall_app; auto.
  Qed.
  Lemma remove_DB : forall inst (p : bp) h li k b, DB inst p h ->
    bp_remove_d p li k b = bp_remove p li k b /\ forall r p', bp_remove p li k b = Ok (r, p') -> DB inst p' h.
  Proof.
    intros inst p h [i|t] k b I; [|split; [reflexivity|discriminate]]. pose proof I as [Iv I2 I3 I4 I5].
    assert (Inv : forall r p', bp_remove p (Real i) k b = Ok (r, p') -> BInv inst p' h) by (intros r p' E; eapply remove_inv; eassumption).
    unfold bp_remove_d, bp_remove in *. destruct (nth_error (bp_layouts p) i) as [l|] eqn:El; [|split; [reflexivity|discriminate]]. cbn [expect rbind] in *.
    assert (L : DI (item_shape (bi_items inst)) l) by (rewrite Forall_forall in I2; apply I2; eapply nth_error_In, El).
    destruct (remove_d BSok _ l k b L) as (Ed & Hd). rewrite Ed. split; [reflexivity|]. intros r p' H. pose proof (Inv r p' H) as Iv'.
    apply rbind_ok in H as ([pi l'] & Er & H). apply rbind_ok in H as (p2 & E2 & H).
    apply rbind_ok in H as (m & Em & H). injection H as <- <-. specialize (Hd pi l' Er).
    assert (K : Forall (DI (item_shape (bi_items inst))) (bp_layouts p2) /\ Forall (DI (item_shape (bi_items inst))) (bp_removed p2) /\ bp_templates p2 = bp_templates p).
    { destruct (layout_is_empty l').
      - unfold bp_deregister_layout in E2. apply rbind_ok in E2 as ([l2 ls] & E & H). apply expect_ok in E. cbn [bp_layouts] in E.
        apply vremove_split in E as (a & b' & Es & -> & _).
        apply rbind_ok in H as (bins & Eb & H). apply rbind_ok in H as (m' & Em' & H). injection H as <-.
        assert (X : Forall (DI (item_shape (bi_items inst))) (vset i l' (bp_layouts p))) by (apply Forall_vset; assumption).
        rewrite Es in X. apply Forall_app in X as (A & B). inversion B; subst.
        cbn [bp_layouts bp_removed bp_templates]. split; [apply Forall_app; auto|]. split; [apply Forall_app; auto|reflexivity].
      - injection E2 as <-. cbn [bp_layouts bp_removed bp_templates]. split; [apply Forall_vset; assumption|]. auto. }
    destruct K as (K1 & K2 & K3). split; cbn [bp_layouts bp_removed bp_templates]; auto. rewrite K3. exact I4.
  Qed.
  Lemma flush_DB : forall inst (p : bp) h, DB inst p h -> bp_flush_d p = bp_flush p /\ forall p', bp_flush p = Ok p' -> DB inst p' h.
  Proof.
    intros inst p h [I I2 I3 I4 I5]. unfold bp_flush_d.
    assert (E : rmapM layout_flush_d (bp_layouts p) = flush_all (bp_layouts p)).
    { apply rmapM_ext. intros l Hl. rewrite Forall_forall in I2. apply (flush_d BSok _ l (I2 l Hl)). }
    rewrite E. split; [reflexivity|]. intros p' H. pose proof (flush_inv _ _ _ _ I H) as Iv. unfold bp_flush in H.
    apply rbind_ok in H as (ls & El & H). injection H as <-. split; cbn [bp_layouts bp_removed bp_templates]; auto.
    apply Forall_forall. intros l Hl. apply rmapM_F2 in El. destruct (F2_in_r _ _ _ _ El Hl) as (l0 & Hl0 & E0).
    rewrite Forall_forall in I2. apply (flush_d BSok _ l0 (I2 l0 Hl0)). exact E0.
  Qed.
  Lemma find_snap_DS : forall cat (sn : list lsnap) id s, Forall (DS cat) sn -> find_snap id sn = Some s -> DS cat s.
  Proof. intros cat sn id s H E. apply find_snap_some in E as (E & _). rewrite Forall_forall in H. auto. Qed.
  Lemma create_DB : forall inst (p : bp) h old, DB inst p h -> match old with Some s => In s h | None => True end ->
    bp_create_d p old = bp_create p old /\ forall sol p', bp_create p old = Ok (sol, p') -> DB inst p' (h ++ [sol]).
  Proof.
    intros inst p h old [I I2 I3 I4 I5] Ho.
    assert (Es : rmapM (bp_snapshot_layout_d (bp_unmod p) (option_map (@so_layouts F D) old)) (bp_layouts p) =
                 rmapM (bp_snapshot_layout (bp_unmod p) (option_map (@so_layouts F D) old)) (bp_layouts p)).
    { apply rmapM_ext. intros l Hl. rewrite Forall_forall in I2. destruct (snapshot_d BSok _ l (I2 l Hl)) as (E & _).
      unfold bp_snapshot_layout_d, bp_snapshot_layout. rewrite E. reflexivity. }
    assert (Cr : forall sol p', bp_create p old = Ok (sol, p') -> DB inst p' (h ++ [sol])).
    { intros sol p' H. destruct (create_inv _ _ _ _ _ _ I Ho H) as (Iv & _). unfold bp_create in H.
      apply rbind_ok in H as (pl & Epl & H). apply rbind_ok in H as (u & Eold & H).
      apply rbind_ok in H as (sl & Esl & H). injection H as <- <-.
      assert (K : Forall (fun x => DS (item_shape (bi_items inst)) (fst x) /\ DI (item_shape (bi_items inst)) (snd x)) sl).
      { rewrite Forall_forall. intros x Hx. apply rmapM_F2 in Esl. destruct (F2_in_r _ _ _ _ Esl Hx) as (l & Hl & El).
        assert (Ll : DI (item_shape (bi_items inst)) l) by (rewrite Forall_forall in I2; auto).
        destruct x as [s l']. unfold bp_snapshot_layout in El. cbn [fst snd].
        assert (Snap : layout_snapshot l = Ok (s, l') -> DS (item_shape (bi_items inst)) s /\ DI (item_shape (bi_items inst)) l')
          by (intros E; apply snap_DS with (1 := Ll) in E; tauto).
        destruct old as [so|]; cbn [option_map] in El; [|auto].
        destruct (existsb (Nat.eqb (ly_id l)) (bp_unmod p)); [|auto].
        apply rbind_ok in El as (s0 & E0 & El). apply expect_ok in E0. injection El as <- <-.
        split; [|exact Ll]. eapply find_snap_DS; [|exact E0]. rewrite Forall_forall in I5. auto. }
      split; cbn [bp_layouts bp_removed bp_templates]; auto.
      - rewrite Forall_map. eapply Forall_impl; [|exact K]. intros x Hx. apply Hx.
      - apply Forall_app. split; [exact I5|]. constructor; [|constructor]. cbn [so_layouts].
        rewrite Forall_map. eapply Forall_impl; [|exact K]. intros x Hx. apply Hx. }
    split; [|exact Cr].
    assert (A : forall sol p', bp_create p old = Ok (sol, p') -> assert_matches (bp_layouts p') sol = Ok tt).
    { intros sol p' H. apply assert_same, (create_inv _ _ _ _ _ _ I Ho H). }
    unfold bp_create_d. rewrite Es. clear Es Cr. unfold bp_create in *.
    destruct (placed_qtys _ _) as [pl|]; [|reflexivity]. cbn [rbind] in *.
    match goal with |- rbind ?x _ = _ => destruct x as [u|]; [|reflexivity] end. cbn [rbind] in *.
    destruct (rmapM _ _) as [sl|]; [|reflexivity]. cbn [rbind] in *. specialize (A _ _ eq_refl). cbn [bp_layouts] in A.
    rewrite A. reflexivity.
  Qed.
  Lemma restore_DB : forall inst (p : bp) h s, DB inst p h -> In s h ->
    bp_restore_d p s = bp_restore true p s /\ forall p', bp_restore true p s = Ok p' -> DB inst p' h.
  Proof.
    intros inst p h s [I I2 I3 I4 I5] Hs. set (cat := item_shape (bi_items inst)) in *.
    assert (Ss : Forall (DS cat) (so_layouts s)) by (rewrite Forall_forall in I5; auto).
    assert (Coh : forall l sn, In l (bp_layouts p ++ bp_removed p) -> In sn (so_layouts s) -> ly_id l = ls_id sn -> ly_bin l = ls_bin sn).
    { intros l sn Hl Hsn E. apply (ci_coh _ _ (b_rec _ _ _ I) (content l) (snap_content sn)); [| |exact E].
      - apply in_or_app. left. apply in_map, Hl.
      - apply in_or_app. right. apply in_flat_map. exists s. split; [exact Hs|apply in_map, Hsn]. }
    assert (R1 : forall l sn, DI cat l -> In l (bp_layouts p ++ bp_removed p) -> In sn (so_layouts s) -> ly_id l = ls_id sn ->
      layout_restore_d l sn = layout_restore l sn /\ forall l', layout_restore l sn = Ok l' -> DI cat l').
    { intros l sn Il Hl Hsn E. apply (restore_d BSok); [exact Il| |rewrite (Coh l sn Hl Hsn E); reflexivity]. rewrite Forall_forall in Ss. apply Ss, Hsn. }
    assert (F1 : forall sn, In sn (so_layouts s) -> layout_from_snapshot_d sn = layout_from_snapshot sn /\ forall l', layout_from_snapshot sn = Ok l' -> DI cat l').
    { intros sn Hsn. rewrite Forall_forall in Ss. destruct (Ss sn Hsn) as (A & B). apply (from_snapshot_d BSok); assumption. }
    (* present layouts *)
    assert (P1 : forall l, In l (bp_layouts p) -> restore_present_d (bp_unmod p) (so_layouts s) l = restore_present (bp_unmod p) (so_layouts s) l /\
      forall l', restore_present (bp_unmod p) (so_layouts s) l = Ok l' -> DI cat l').
    { intros l Hl. unfold restore_present_d, restore_present. rewrite Forall_forall in I2. pose proof (I2 l Hl) as Il.
      destruct (find_snap (ly_id l) (so_layouts s)) as [sn|] eqn:Ef; [|split; [reflexivity|intros l' X; injection X as <-; exact Il]].
      destruct (existsb _ _); [split; [reflexivity|intros l' X; injection X as <-; exact Il]|].
      apply find_snap_some in Ef as (Hsn & E). apply R1; auto. apply in_or_app. left. exact Hl. }
    (* absent layouts *)
    assert (A1 : forall present sn ls removed, incl sn (so_layouts s) -> incl removed (bp_removed p) -> Forall (DI cat) ls -> Forall (DI cat) removed ->
      rfold (restore_absent_d present) sn (ls, removed) = rfold (restore_absent present) sn (ls, removed) /\
      forall ls' removed', rfold (restore_absent present) sn (ls, removed) = Ok (ls', removed') -> Forall (DI cat) ls').
    { intros present sn. induction sn as [|x sn IH]; intros ls removed Hi Hr Hl Hd; cbn [rfold].
      - split; [reflexivity|]. intros ls' removed' X. injection X as <- <-. exact Hl.
      - assert (Hx : In x (so_layouts s)) by (apply Hi; left; reflexivity).
        assert (Hi' : incl sn (so_layouts s)) by (intros y Hy; apply Hi; right; exact Hy).
        assert (Ud : restore_absent_d present (ls, removed) x = if existsb (Nat.eqb (ls_id x)) present then Ok (ls, removed)
          else match position (fun l => Nat.eqb (ly_id l) (ls_id x)) removed with
               | Some i => '(l, removed') <- expect (swap_remove i removed) ;; l' <- layout_restore_d l x ;; Ok (ls ++ [l'], removed')
               | None => l' <- layout_from_snapshot_d x ;; Ok (ls ++ [l'], removed) end) by reflexivity.
        assert (Ur : restore_absent present (ls, removed) x = if existsb (Nat.eqb (ls_id x)) present then Ok (ls, removed)
          else match position (fun l => Nat.eqb (ly_id l) (ls_id x)) removed with
               | Some i => '(l, removed') <- expect (swap_remove i removed) ;; l' <- layout_restore l x ;; Ok (ls ++ [l'], removed')
               | None => l' <- layout_from_snapshot x ;; Ok (ls ++ [l'], removed) end) by reflexivity.
        rewrite Ud, Ur. clear Ud Ur.
        destruct (existsb (Nat.eqb (ls_id x)) present); [cbn [rbind]; apply IH; assumption|].
        destruct (position (fun l : layout => Nat.eqb (ly_id l) (ls_id x)) removed) as [i|] eqn:P.
        + destruct (swap_remove i removed) as [[l rem]|] eqn:Es; [|cbn [expect rbind]; split; [reflexivity|discriminate]]. cbn [expect rbind].
          apply position_some in P as (a & y & b & -> & <- & Ex & _). apply Nat.eqb_eq in Ex.
          pose proof Es as Es'. rewrite swap_remove_spec in Es'. injection Es' as <- _. apply swap_remove_perm in Es.
          assert (Hy : In y (bp_removed p)) by (apply Hr, in_or_app; right; left; reflexivity).
          apply Forall_app in Hd as (Ha & Hb). inversion Hb as [|? ? Dy Hb']; subst.
          destruct (R1 y x Dy) as (Er & Hn); [apply in_or_app; right; exact Hy|exact Hx|exact Ex|]. rewrite Er.
          destruct (layout_restore y x) as [l'|]; [|cbn [rbind]; split; [reflexivity|discriminate]]. cbn [rbind]. apply IH; [exact Hi'| | |].
          * intros z Hz. apply Hr. apply (Permutation_in (l' := a ++ b)) in Hz; [|exact Es]. apply in_app_or in Hz as [Hz|Hz]; apply in_or_app; [left|right; right]; exact Hz.
          * apply Forall_app. split; [exact Hl|]. constructor; [apply Hn; reflexivity|constructor].
          * eapply Permutation_Forall; [symmetry; exact Es|]. apply Forall_app. auto.
        + destruct (F1 x Hx) as (Er & Hn). rewrite Er. destruct (layout_from_snapshot x) as [l'|]; [|cbn [rbind]; split; [reflexivity|discriminate]]. cbn [rbind].
          apply IH; [exact Hi'|exact Hr| |exact Hd]. apply Forall_app. split; [exact Hl|]. constructor; [apply Hn; reflexivity|constructor]. }
    assert (Iv : forall p', bp_restore true p s = Ok p' -> BInv inst p' h /\ forall l, In l (bp_layouts p') -> same_as s l) by (intros p' H; eapply restore_inv; eassumption).
    assert (Els : let X d pr ab fs := (if opt_nat_eqb (Some (so_id s)) (bp_ref p) then
             let here := fun l : layout => is_some (find_snap (ly_id l) (so_layouts s)) in
             ls1 <- rmapM (pr (bp_unmod p) (so_layouts s)) (bp_layouts p) ;;
             let in_sol := map (@ly_id F D) (filter here (bp_layouts p)) in
             let not_in := map (@ly_id F D) (filter (fun l => negb (here l)) (bp_layouts p)) in
             let ls2 := fold_left (fun acc id => filter (fun l => negb (Nat.eqb (ly_id l) id)) acc)
                                  not_in ls1 in
             '(ls3, _) <- rfold (ab in_sol) (so_layouts s) (ls2, bp_removed p) ;;
             Ok ls3
           else rmapM fs (so_layouts s)) in
       X true restore_present_d restore_absent_d layout_from_snapshot_d = X false restore_present restore_absent layout_from_snapshot /\
       forall ls, X false restore_present restore_absent layout_from_snapshot = Ok ls -> Forall (DI cat) ls).
    { cbv zeta. destruct (opt_nat_eqb (Some (so_id s)) (bp_ref p)).
      - rewrite (rmapM_ext (restore_present_d (bp_unmod p) (so_layouts s)) (restore_present (bp_unmod p) (so_layouts s))) by (intros l Hl; apply P1, Hl).
        destruct (rmapM (restore_present (bp_unmod p) (so_layouts s)) (bp_layouts p)) as [ls1|] eqn:E1; [|split; [reflexivity|discriminate]]. cbn [rbind].
        rewrite filters_not_in.
        match goal with |- context [filter ?f ls1] => set (ls2 := filter f ls1) end.
        assert (L2 : Forall (DI cat) ls2).
        { apply Forall_forall. intros l Hl. apply filter_In in Hl as (Hl & _). apply rmapM_F2 in E1. destruct (F2_in_r _ _ _ _ E1 Hl) as (l0 & Hl0 & El0).
          eapply P1; eassumption. }
        destruct (A1 (map (@ly_id F D) (filter (fun l : layout => is_some (find_snap (ly_id l) (so_layouts s))) (bp_layouts p))) (so_layouts s) ls2 (bp_removed p) (incl_refl _) (incl_refl _) L2 I3) as (Ea & Ha).
        rewrite Ea. split; [reflexivity|]. intros ls X. apply rbind_ok in X as ([ls3 rem] & E3 & X). injection X as <-. eapply Ha, E3.
      - rewrite (rmapM_ext layout_from_snapshot_d layout_from_snapshot) by (intros sn Hsn; apply F1, Hsn). split; [reflexivity|].
        intros ls X. apply Forall_forall. intros l Hl. apply rmapM_F2 in X. destruct (F2_in_r _ _ _ _ X Hl) as (sn & Hsn & El). eapply F1; eassumption. }
    cbv zeta in Els. destruct Els as (Els & HL). unfold bp_restore_d. rewrite Els. unfold bp_restore in *.
    match type of HL with forall ls, ?x = Ok ls -> _ => set (X := x) in * end.
    destruct X as [ls|]; [|split; [reflexivity|discriminate]]. cbn [rbind] in *.
    destruct (restored_missing true _ _ _) as [m|]; [|split; [reflexivity|discriminate]]. cbn [rbind] in *.
    destruct (rassert _) as [u|]; [|split; [reflexivity|discriminate]]. cbn [rbind] in *.
    destruct (Iv _ eq_refl) as (J & Same). cbn [bp_layouts] in Same. rewrite (assert_same _ _ Same). cbn [rbind].
    split; [reflexivity|]. intros p' X1. injection X1 as <-. split; cbn [bp_layouts bp_removed bp_templates]; auto.
  Qed.
  Lemma bstep_DB : forall inst (p : bp) h o, ids_ok inst -> DB inst p h -> bop_ok p o ->
    bstep_d (p, h) o = bstep true (p, h) o /\ forall p' h', bstep true (p, h) o = Ok (p', h') -> DB inst p' h'.
  Proof.
    intros inst p h o Ids I V. destruct o as [o ptr|li k b|li|old|k|]; cbn [bstep_d bstep].
    - destruct (place_DB inst p h o ptr Ids I V) as (E & H). rewrite E. split; [reflexivity|]. intros p' h' X.
      apply rbind_ok in X as ([r p1] & E1 & X). injection X as <- <-. eapply H, E1.
    - destruct (remove_DB inst p h li k b I) as (E & H). rewrite E. split; [reflexivity|]. intros p' h' X.
      apply rbind_ok in X as ([r p1] & E1 & X). injection X as <- <-. eapply H, E1.
    - split; [reflexivity|]. intros p' h' X. apply rbind_ok in X as (p1 & E1 & X). injection X as <- <-. eapply dereg_DB; eassumption.
    - match goal with |- context [rbind ?x _] => destruct x as [old'|] eqn:Eo; [|split; [reflexivity|discriminate]] end. cbn [rbind].
      assert (Ho : match old' with Some s => In s h | None => True end).
      { destruct old as [k|]; [|injection Eo as <-; exact Logic.I].
        apply rbind_ok in Eo as (s' & Es & Eo). apply expect_ok in Es. injection Eo as <-. eapply nth_error_In; exact Es. }
      destruct (create_DB inst p h old' I Ho) as (E & H). rewrite E. split; [reflexivity|]. intros p' h' X.
      apply rbind_ok in X as ([s p1] & E1 & X). injection X as <- <-. eapply H, E1.
    - destruct (nth_error h k) as [s|] eqn:Es; [|split; [reflexivity|discriminate]]. cbn [expect rbind].
      destruct (restore_DB inst p h s I (nth_error_In _ _ Es)) as (E & H). rewrite E. split; [reflexivity|]. intros p' h' X.
      apply rbind_ok in X as (p1 & E1 & X). injection X as <- <-. eapply H, E1.
    - destruct (flush_DB inst p h I) as (E & H). rewrite E. split; [reflexivity|]. intros p' h' X.
      apply rbind_ok in X as (p1 & E1 & X). injection X as <- <-. eapply H, E1.
  Qed.
  Lemma brun_DB : forall inst ops (p : bp) h, ids_ok inst -> DB inst p h -> bops_ok true (p, h) ops ->
    rfold bstep_d ops (p, h) = rfold (bstep true) ops (p, h) /\ forall p' h', rfold (bstep true) ops (p, h) = Ok (p', h') -> DB inst p' h'.
  Proof.
    induction ops as [|o ops IH]; intros p h Ids I V; cbn [rfold].
    - split; [reflexivity|]. intros p' h' X. injection X as <- <-. exact I.
    - cbn [bops_ok fst] in V. destruct V as (V1 & V2). destruct (bstep_DB inst p h o Ids I V1) as (E & H). rewrite E.
      destruct (bstep true (p, h) o) as [[p1 h1]|]; [|split; [reflexivity|discriminate]]. cbn [rbind]. apply IH; [exact Ids|apply H; reflexivity|exact V2].
  Qed.
  Lemma debug_bp : forall (inst : bpinst F D) ops, checked_inst inst -> bops_ok true (bp_new inst, []) ops -> bp_run_d inst ops = bp_run true inst ops.
  Proof.
    intros inst ops C V. pose proof C as (((items & bins & Ei) & _) & _). apply inst_ids in Ei.
    apply (brun_DB inst ops _ _ Ei (new_DB inst C) V).
  Qed.
End PB.
