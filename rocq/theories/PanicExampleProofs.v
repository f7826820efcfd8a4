(** Squares in two bins and in a strip: operations that can be carried out and some that cannot. *)
From Coq Require Import List Bool Arith ZArith Lia Permutation.
From Verif Require Import Base Num GeoModel HazardModel QTModel TransfModel HpgModel CdeModel CdeSpec
  PolyModel SlotMapModel LayoutModel ProblemModel ProblemSpec PanicSpec LbfModel BaseProofs HazVecProofs QTProofs ProblemProofs ProblemOpsProofs LayoutProofs MirrorProofs StripProofs Instances
  GeoPrimProofs ParityProofs RigidProofs RegionProofs PlaceExampleProofs RectPolyProofs HpgSpec LbfSpec LbfProofs LbfRunProofs LbfHistProofs LbfSpProofs LbfThmProofs LbfExampleProofs LbfBpTotalProofs StripBinProofs LbfStripThmProofs
  LbfExample2Proofs SelfCheckExampleProofs LbfSpTotalProofs HistPackSpec HistPackProofs ReachProofs ReachExampleProofs PanicGridProofs.
From Coq Require Import Reals Lra.
From Verif Require Import GeoModel HazardModel QTModel TransfModel HpgModel CdeModel CdeSpec GeoSpec PlaceSpec HpgSpec ShapeSpec LbfModel LbfSpec HistPackSpec PanicSpec.
Import ListNotations.
Local Open Scope R_scope.

Section E.
  Variable M : R.
  Hypothesis HM : 1 < M.
  #[local] Instance NPE : Num R := RNumT Reqb M.
  #[local] Existing Instance RTrig.
  #[local] Existing Instance DtEq.
  #[local] Existing Instance LinSearch.
  Lemma ok_spread : forall ovf ops (s : bp R (dtransf R) * list (solution R (dtransf R))), bops_ok ovf s ops -> all_spread ovf s ops.
  Proof.
    induction ops as [|o ops IH]; intros s H; cbn [bops_ok all_spread] in *; [exact I|]. destruct H as (H1 & H2). split.
    - destruct o as [po ptr| | | | |]; cbn in *; auto. intros l El. rewrite El in H1. exact (proj2 H1).
    - destruct (bstep ovf s o) as [s'|]; [exact (IH s' H2)|exact I].
  Qed.
  Lemma ok_sspread : forall ovf tol ops (s : sp R (dtransf R) * list (solution R (dtransf R))), sops_ok ovf tol s ops -> all_sspread ovf tol s ops.
  Proof.
    induction ops as [|o ops IH]; intros s H; cbn [sops_ok all_sspread] in *; [exact I|]. destruct H as (H1 & H2). split.
    - destruct o; cbn in *; auto. exact (proj2 H1).
    - destruct (sstep ovf tol s o) as [s'|]; [exact (IH s' H2)|exact I].
  Qed.
  Lemma no_ok : forall (A : Type) (r : res A) (P : Prop), ((exists x, r = Ok x) <-> P) -> ~ P -> r = Panic.
  Proof. intros A r P H Np. destruct r as [x|]; [|reflexivity]. exfalso. apply Np, H. eauto. Qed.
  Lemma panic_example : exists (b : bin R (dtransf R)) inst ops p h, bpinst_new squares [(b, 2%nat)] = Ok inst /\
    Forall (fun x => sound_item M (fst x)) squares /\ good_bin b /\ fine_bins [(b, 2%nat)] /\
    bp_run true inst ops = Ok (p, h) /\ all_spread true (bp_new inst, []) ops /\ spread p (BPlace (PO (Real 1) 0 (at_ 4 4)) 9) /\
    (exists s, bstep true (p, h) (BPlace (PO (Real 1) 0 (at_ 4 4)) 9) = Ok s) /\
    bstep true (p, h) (BPlace (PO (Real 1) 1 (at_ 4 4)) 9) = Panic /\
    bstep true (p, h) (BPlace (PO (Real 2) 0 (at_ 4 4)) 9) = Panic /\
    bstep true (p, h) (BPlace (PO (Template 0) 0 (at_ 4 4)) 9) = Panic /\
    (exists s, bstep true (p, h) (BRemoveLayout (Real 1)) = Ok s) /\
    bstep true (p, h) (BRemoveLayout (Template 0)) = Panic /\
    bstep true (p, h) (BRestore 1) = Panic.
  Proof.
    destruct (history_example M HM) as (b & inst & ops & p & h & l & Ei & Gb & Fi & Fb & Ck & Rn & Ll & Lh & Tg & _ & _ & Pk & _).
    assert (Gbs : Forall (fun b : bin R (dtransf R) * nat => good_bin (fst b)) [(b, 2%nat)]) by (constructor; [exact Gb|constructor]).
    assert (Sd : Forall (fun x => sound_item M (fst x)) squares) by (constructor; [apply sq_sound; lra|constructor]).
    pose proof (bp_checked_valid M LinSearch_ok squares [(b, 2%nat)] inst true ops p h Ei Gbs Fi Fb Ck Rn) as Bo. apply ok_spread in Bo.
    pose proof (proj1 (bp_history_packs M LinSearch_ok squares [(b, 2%nat)] inst true ops p h Ei Gbs Fi Fb Ck Rn)) as Bn.
    pose proof (run_inv _ _ _ _ _ (inst_ids _ _ _ Ei) Rn) as Bi. destruct (inst_lists M _ _ _ Ei) as (Li & Lb).
    assert (Kb : bn_id b = 0%nat) by (apply (proj2 (inst_ids _ _ _ Ei) 0%nat b 2%nat); rewrite Lb; reflexivity).
    assert (Sl : spread p (BPlace (PO (Real 1) 0 (at_ 4 4)) 9)).
    { intros l' El. cbn [po_layout] in El. assert (El' : Some l = Some l') by (rewrite <- Tg; exact El). injection El' as <-. destruct Pk as (Nd & _). inversion Nd; assumption. }
    pose proof (fun o So => grid_exact M LinSearch_ok squares [(b, 2%nat)] inst true ops p h o Ei Sd Gbs Fb Rn Bo So) as X.
    exists b, inst, ops, p, h. do 7 (split; [assumption|]). split; [apply X; [exact Sl|]|].
    { split; cbn [po_item po_layout]; [rewrite (b_inst _ _ _ Bi), Li; cbn; lia|rewrite Ll; lia]. }
    split; [eapply no_ok; [apply X|]|].
    { intros l' El In1. cbn [po_layout po_item po_dt] in *. destruct (b_miss _ _ _ Bi) as (_ & Fa & _). rewrite Forall_forall in Fa.
      assert (Hl : (1 < length (bi_items inst))%nat); [|rewrite Li in Hl; cbn in Hl; lia].
      apply Fa. unfold items_in. apply in_flat_map. exists l'. split; [cbn [target] in El; eapply nth_error_In; exact El|].
      unfold placed in In1. apply in_map_iff in In1 as (y & Ey & Hy). injection Ey as Ey _. apply in_map_iff. exists y. auto. }
    { intros (A & _). cbn [po_item] in A. rewrite (b_inst _ _ _ Bi), Li in A. cbn in A. lia. }
    split; [eapply no_ok; [apply X|]|].
    { intros l' El. cbn [po_layout target] in El. assert (C : nth_error (bp_layouts p) 2 <> None) by congruence. apply nth_error_Some in C. lia. }
    { intros (_ & A). cbn [po_layout] in A. lia. }
    split; [eapply no_ok; [apply X|]|].
    { intros l' El In1. cbn [po_layout target po_item po_dt] in *. rewrite (b_tmpl _ _ _ Bi) in El. apply nth_error_In in El. cbn [bp_new bp_templates] in El.
      apply in_map_iff in El as (y & <- & _). exact In1. }
    { intros (_ & b' & n & En & Hl). rewrite (b_inst _ _ _ Bi), Lb in En. injection En as <- <-. revert Hl. unfold open_of, count.
      clear - Bn Ll Kb. destruct (bp_layouts p) as [|l0 [|l1 [|]]]; try discriminate. inversion Bn as [|? ? (A0 & _) B1]; subst. inversion B1 as [|? ? (A1 & _) _]; subst.
      destruct A0 as [A0|[]]. destruct A1 as [A1|[]]. cbn [fst] in *. cbn [map]. rewrite <- A0, <- A1, Kb. cbn. lia. }
    split; [apply X; [exact I|]; exists 1%nat; split; [reflexivity|rewrite Ll; lia]|].
    split; eapply no_ok; try (apply X; exact I).
    - intros (i & A & _). discriminate.
    - intros (s & A & _). assert (C : nth_error h 1 <> None) by congruence. apply nth_error_Some in C. lia.
  Qed.
  Lemma strip_panic_example : exists (inst : spinst R) p0 ops (p : sp R (dtransf R)), spinst_new squares 10 = Ok inst /\ Forall (fun x => sound_item M (fst x)) squares /\
    sp_new inst 10 ex_cfg 0 = Ok p0 /\ rfold (sstep true 1) ops (p0, []) = Ok (p, []) /\ all_sspread true 1 (p0, []) ops /\ ops <> [] /\
    (exists s, sstep true 1 (p, []) (SBack 9 5) = Ok s) /\ (exists s, sstep true 1 (p, []) SCreate = Ok s) /\
    sstep true 1 (p, []) (SBack 0 5) = Panic /\ sstep true 1 (p, []) (SPlace (PO (Real 1) 0 (at_ 9 9)) 9) = Panic /\ sstep true 1 (p, []) (SRestore 0) = Panic.
  Proof.
    destruct (stout_strip M LinSearch_ok (Rc 0 0 10 10) ex_cfg 0) as (b & Eb); [split; cbn; lra|discriminate|cbn; lra|cbn; lra|].
    destruct (stout_strip M LinSearch_ok (Rc 0 0 (0 + 9) 10) ex_cfg 5) as (b1 & Eb1); [split; cbn; lra|discriminate|cbn; lra|cbn; lra|].
    assert (Sd : Forall (fun x => sound_item M (fst x)) squares) by (constructor; [apply sq_sound; lra|constructor]).
    set (inst := SPI squares (items_area squares) 10). assert (Hn : spinst_new squares 10 = Ok inst) by reflexivity.
    assert (Eb' : bin_from_strip (Rc f0 f0 10 (si_height inst)) ex_cfg 0 = Ok b) by exact Eb.
    set (p0 := ProblemModel.SP inst (layout_new 0 b) (map (fun p => Z.of_nat (snd p)) (si_items inst)) 0 0).
    assert (E0 : sp_new inst 10 ex_cfg 0 = Ok p0) by (unfold sp_new; rewrite Eb'; reflexivity).
    assert (Nc : cfg_cells ex_cfg <> 0%nat) by discriminate.
    assert (H : HL M (si_items inst) (sp_layout p0)) by exact (strip_HL M LinSearch_ok inst ex_cfg Nc 0 _ _ b Eb).
    pose proof (sp_new_SPInv M LinSearch_ok _ _ _ _ _ E0) as Q.
    destruct (fill_strip M LinSearch_ok inst true 1 (sinst_ids _ _ _ Hn) Sd [(0%nat, at_ 1 1); (0%nat, at_ 4 4)] p0 (q_inv _ _ _ Q) H) as (ops & p & C & Rn & Eq & Pm & _); [exact (good_packed M b Eb)|].
    assert (Eq' : ly_bin (sp_layout p) = b) by exact Eq.
    assert (Fi : fine_items squares) by (eapply Forall_impl; [|exact Sd]; intros x Hx; exact (so_shape _ _ Hx)).
    pose proof (sp_checked_valid M LinSearch_ok squares 10 inst true 1 10 ex_cfg 0 ops p0 p [] Hn Fi E0 C Rn) as So. apply ok_sspread in So.
    assert (Cf : bn_cfg b = ex_cfg) by (clear - Eb; unfold bin_from_strip in Eb; apply rbind_ok in Eb as (s & _ & Eb); apply bin_new_spec in Eb; tauto).
    assert (Ol : outline p = Rc 0 0 10 10) by (unfold outline; rewrite Eq'; apply (strip_box M _ _ _ _ Eb); split; cbn; lra).
    pose proof (fun o P So' => grid_strip_exact M LinSearch_ok squares 10 inst true 1 10 ex_cfg 0 ops p0 p [] o P Hn Sd E0 Rn So So') as X.
    exists inst, p0, ops, p. do 5 (split; [assumption|]). split; [intros ->; cbn in Rn; injection Rn as <-; apply Permutation_length in Pm; discriminate|].
    split; [eapply X; [exact I|reflexivity|]; exists b1; rewrite Ol, Eq', Cf; exact Eb1|]. split; [eapply X; [exact I|reflexivity|exact I]|].
    split; [eapply no_ok; [eapply X; [exact I|reflexivity]|]|].
    { intros (b2 & E2). rewrite Ol in E2. apply (strip_poly M) in E2 as (E2 & _). apply rect_pts in E2 as (E2 & _). apply E2. cbn. lra. }
    split; (eapply no_ok; [eapply X; [|reflexivity]|]).
    - cbn. intros In1. assert (In2 : In (0%nat, at_ 9 9) [(0%nat, at_ 1 1); (0%nat, at_ 4 4)]) by (apply (Permutation_in _ Pm), In1). destruct In2 as [E|[E|[]]]; injection E; intros; lra.
    - intros (A & _). discriminate.
    - exact I.
    - intros (s & A & _). discriminate.
  Qed.
End E.
