(** Three squares in two square bins: a family of packings, reached by checked placements,
    and one that is not. *)
From Coq Require Import List Bool Arith ZArith Lia Permutation.
From Verif Require Import Base Num GeoModel HazardModel QTModel TransfModel HpgModel CdeModel CdeSpec
  PolyModel SlotMapModel LayoutModel ProblemModel ProblemSpec LbfModel BaseProofs HazVecProofs QTProofs ProblemProofs ProblemOpsProofs LayoutProofs MirrorProofs StripProofs Instances
  GeoPrimProofs ParityProofs RigidProofs RegionProofs PlaceExampleProofs RectPolyProofs HpgSpec LbfSpec LbfProofs LbfRunProofs LbfHistProofs LbfSpProofs LbfThmProofs LbfExampleProofs LbfBpTotalProofs StripBinProofs LbfStripThmProofs
  LbfExample2Proofs SelfCheckExampleProofs LbfSpTotalProofs HistPackSpec HistPackProofs ReachProofs.
From Coq Require Import Reals Lra.
From Verif Require Import GeoModel HazardModel QTModel TransfModel HpgModel CdeModel CdeSpec GeoSpec PlaceSpec HpgSpec ShapeSpec LbfModel LbfSpec HistPackSpec.
Import ListNotations.
Local Open Scope R_scope.

Section E.
  Variable M : R.
  Hypothesis HM : 1 < M.
  #[local] Instance NRX : Num R := RNumT Reqb M.
  #[local] Existing Instance RTrig.
  #[local] Existing Instance DtEq.
  #[local] Existing Instance LinSearch.
  Definition squares : list (item R * nat) := [(sq_item 2, 3%nat)].
  Definition good_family : family := [(0%nat, [(0%nat, at_ 1 1); (0%nat, at_ 4 4)]); (0%nat, [(0%nat, at_ 1 1)])].
  Definition bad_family : family := [(0%nat, [(0%nat, at_ 4 4); (0%nat, at_ 5 5)])].
  Lemma covers_square : forall x y p, covers squares (0%nat, at_ x y) p <-> x <= px p <= x + 2 /\ y <= py p <= y + 2.
  Proof.
    intros x y p. unfold covers. cbn [fst snd].
    assert (Q : moved (compose (at_ x y)) (it_shape (sq_item 2)) = p_pts (rbox x y (x + 2) (y + 2) 1)) by exact (two_moved M x y). split.
    - intros (it & q & E & H). cbn in E. injection E as <- <-. rewrite Q in H. apply rbox_region in H; [|lra|lra]. unfold in_rect in H. cbn in H. lra.
    - intros (H1 & H2). exists (sq_item 2), 3%nat. split; [reflexivity|]. rewrite Q. apply rbox_closed; lra.
  Qed.
  Lemma turned_square : forall x y, turned_ok (sq_item 2) (at_ x y).
  Proof. intros x y. exists 0. split; [cbn; auto|]. unfold turns. cbn. rewrite sin_0, cos_0. repeat split; lra. Qed.
  Lemma squares_packed : forall c (b : bin R (dtransf R)), bin_from_strip (Rc 0 0 10 10) c 0 = Ok b -> forall pl,
    NoDup pl -> (forall z, In z pl -> exists x y, z = (0%nat, at_ x y) /\ 0 < x /\ x + 2 < 10 /\ 0 < y /\ y + 2 < 10) ->
    (forall x y x' y', In (0%nat, at_ x y) pl -> In (0%nat, at_ x' y') pl -> at_ x y = at_ x' y' \/ x + 2 < x' \/ x' + 2 < x \/ y + 2 < y' \/ y' + 2 < y) ->
    packed squares b pl.
  Proof.
    intros c b Eb pl Nd In0 Ap. destruct (strip_poly M _ _ _ _ Eb) as (Ep & Es).
    assert (Pr : proper (Rc 0 0 10 10)) by (split; cbn; lra). destruct (rect_pts _ _ Ep) as (_ & _ & _ & Pp). specialize (Pp Pr).
    split; [exact Nd|]. split; [|split].
    - intros z z' p Hz Hz' Cz Cz'. destruct (In0 z Hz) as (x & y & -> & _). destruct (In0 z' Hz') as (x' & y' & -> & _). apply covers_square in Cz, Cz'.
      destruct (Ap _ _ _ _ Hz Hz') as [E|[E|[E|[E|E]]]]; [rewrite E; reflexivity|lra..].
    - intros z it q h p Hz _ Hh _ Cz. destruct (In0 z Hz) as (x & y & -> & B). apply covers_square in Cz. rewrite Es in Hh. destruct Hh as [<-|[]].
      assert (In1 : interior (p_pts (a_obj (bn_outer b))) p) by (rewrite Pp; apply (rbox_inside 0 0 10 10 0 p); lra).
      intros Bl. unfold blocked in Bl. cbn in Bl. destruct In1 as (N1 & N2). destruct Bl as [Bl|Bl]; [exact (N1 Bl)|congruence].
    - intros z Hz. destruct (In0 z Hz) as (x & y & -> & _). destruct (turned_square x y) as (a & A & B). exists (sq_item 2), 3%nat, a. split; [reflexivity|]. split; assumption.
  Qed.
  Lemma two_bins : exists (b : bin R (dtransf R)) inst, bin_from_strip (Rc 0 0 10 10) ex_cfg 0 = Ok b /\ bpinst_new squares [(b, 2%nat)] = Ok inst /\
    Forall (fun x => sound_item M (fst x)) squares /\ good_bin b /\ fine_bins [(b, 2%nat)] /\ cfg_cells (bn_cfg b) <> 0%nat.
  Proof.
    destruct (stout_strip M LinSearch_ok (Rc 0 0 10 10) ex_cfg 0) as (b & Eb); [split; cbn; lra|discriminate|cbn; lra|cbn; lra|].
    pose proof (strip_fine M _ _ _ _ Eb) as Bf. assert (Gb : good_bin b) by (eapply (strip_good (sym_R M)); exact Eb).
    assert (K : bn_id b = 0%nat /\ bn_cfg b = ex_cfg).
    { unfold bin_from_strip in Eb. apply rbind_ok in Eb as (s & _ & Eb). apply bin_new_spec in Eb. tauto. } destruct K as (Ki & Kc).
    exists b, (BPI squares (items_area squares) [(b, 2%nat)]). split; [exact Eb|].
    split; [unfold bpinst_new, ids_correct; cbn [map fst]; rewrite Ki; reflexivity|]. split; [constructor; [apply sq_sound; lra|constructor]|].
    split; [exact Gb|]. split; [constructor; [exact Bf|constructor]|]. rewrite Kc. discriminate.
  Qed.
  Lemma reach_example : exists (b : bin R (dtransf R)) inst, bpinst_new squares [(b, 2%nat)] = Ok inst /\
    Forall (fun x => sound_item M (fst x)) squares /\ good_bin b /\ fine_bins [(b, 2%nat)] /\ cfg_cells (bn_cfg b) <> 0%nat /\
    family_packed squares [(b, 2%nat)] good_family /\ within_demand squares good_family /\ within_stock [(b, 2%nat)] good_family /\
    within_demand squares bad_family /\ within_stock [(b, 2%nat)] bad_family /\ ~ family_packed squares [(b, 2%nat)] bad_family.
  Proof.
    destruct two_bins as (b & inst & Eb & Ei & Sd & Gb & Fb & Nc). exists b, inst. do 5 (split; [assumption|]).
    assert (D1 : at_ 1 1 <> at_ 4 4) by (intros E; injection E; lra). repeat split.
    - constructor; [|constructor; [|constructor]]; (split; [discriminate|]); exists b, 2%nat; (split; [reflexivity|]); apply (squares_packed _ b Eb); cbn [snd].
      + constructor; [intros [E|[]]; injection E; intros; lra|]. constructor; [intros []|constructor].
      + intros z [<-|[<-|[]]]; [exists 1, 1|exists 4, 4]; (split; [reflexivity|]); lra.
      + intros x y x' y' [E|[E|[]]] [E'|[E'|[]]]; injection E as <- <-; injection E' as <- <-; try (left; reflexivity); right; lra.
      + constructor; [intros []|constructor].
      + intros z [<-|[]]. exists 1, 1. split; [reflexivity|]. lra.
      + intros x y x' y' [E|[]] [E'|[]]; injection E as <- <-; injection E' as <- <-. left. reflexivity.
    - intros [|i] it q E; [|destruct i; discriminate]. cbn in E. injection E as <- <-. cbn. lia.
    - intros [|i] bn q E; [|destruct i; discriminate]. cbn in E. injection E as <- <-. cbn. lia.
    - intros [|i] it q E; [|destruct i; discriminate]. cbn in E. injection E as <- <-. cbn. lia.
    - intros [|i] bn q E; [|destruct i; discriminate]. cbn in E. injection E as <- <-. cbn. lia.
    - intros H. inversion H as [|? ? (_ & bn & q & E & (_ & Ap & _)) _]; subst. cbn in E. injection E as <- <-. cbn [snd] in Ap.
      assert (X : (0%nat, at_ 4 4) = (0%nat, at_ 5 5)).
      { apply (Ap _ _ (Pt 5 5)); [left; reflexivity|right; left; reflexivity|apply covers_square; cbn; lra|apply covers_square; cbn; lra]. }
      injection X. lra.
  Qed.
  Lemma good_packed : forall (b : bin R (dtransf R)), bin_from_strip (Rc 0 0 10 10) ex_cfg 0 = Ok b -> packed squares b [(0%nat, at_ 1 1); (0%nat, at_ 4 4)].
  Proof.
    intros b Eb. apply (squares_packed _ b Eb).
    - constructor; [intros [E|[]]; injection E; intros; lra|]. constructor; [intros []|constructor].
    - intros z [<-|[<-|[]]]; [exists 1, 1|exists 4, 4]; (split; [reflexivity|]); lra.
    - intros x y x' y' [E|[E|[]]] [E'|[E'|[]]]; injection E as <- <-; injection E' as <- <-; try (left; reflexivity); right; lra.
  Qed.
  (** a checked history with a saved solution, and what the engine is asked afterwards *)
  Lemma history_example : exists (b : bin R (dtransf R)) inst ops p h l, bpinst_new squares [(b, 2%nat)] = Ok inst /\ good_bin b /\ fine_items squares /\ fine_bins [(b, 2%nat)] /\
    bchecked true (bp_new inst, []) ops /\ bp_run true inst ops = Ok (p, h) /\ length (bp_layouts p) = 2%nat /\ length h = 1%nat /\
    target p (Real 1) = Some l /\ tolerated l (sq_item 2) [] /\
    turned_ok (sq_item 2) (at_ 4 4) /\ packed squares (ly_bin l) ((0%nat, at_ 4 4) :: placed l) /\
    turned_ok (sq_item 2) (at_ 2 2) /\ ~ packed squares (ly_bin l) ((0%nat, at_ 2 2) :: placed l).
  Proof.
    destruct two_bins as (b & inst & Eb & Ei & Sd & Gb & Fb & Nc). pose proof (inst_ids _ _ _ Ei) as Ids. destruct (inst_lists M _ _ _ Ei) as (Li & Lb).
    assert (Fi : fine_items squares) by (eapply Forall_impl; [|exact Sd]; intros x Hx; exact (so_shape _ _ Hx)).
    assert (T0 : TInv M inst (bp_new inst)).
    { apply (new_T M LinSearch_ok inst); [split; [eauto|rewrite Lb; constructor; [exact Gb|constructor]]|rewrite Lb; exact Fb|rewrite Lb; constructor; [exact Nc|constructor]]. }
    assert (Snd : Forall (fun x => sound_item M (fst x)) (bi_items inst)) by (rewrite Li; exact Sd).
    destruct reach_example as (b' & inst' & Ei' & _ & _ & _ & _ & Pk & Dm & St & _).
    assert (Pk0 : family_packed squares [(b, 2%nat)] good_family).
    { constructor; [|constructor; [|constructor]]; (split; [discriminate|]); exists b, 2%nat; (split; [reflexivity|]); cbn [snd].
      - apply good_packed. exact Eb.
      - refine (packed_incl M _ _ _ _ _ _ (good_packed b Eb)); [constructor; [intros []|constructor]|]. intros x [<-|[]]. left. reflexivity. }
    assert (St0 : within_stock [(b, 2%nat)] good_family) by (intros [|i] bn q E; [|destruct i; discriminate]; cbn in E; injection E as <- <-; cbn; lia).
    destruct (fill_family M LinSearch_ok inst Ids Snd true good_family [] (bp_new inst) T0) as (ops & p & Rn & C & T & F); [constructor|rewrite Li, Lb; exact Pk0|rewrite Li; exact Dm|rewrite Lb; exact St0|].
    destruct (create_total M LinSearch_ok inst p T) as (s & p' & Es).
    assert (Es' : bp_create p None = Ok (s, p')) by exact Es.
    assert (Ly : map content (bp_layouts p') = map content (bp_layouts p)).
    { destruct (create_content inst p [] None s p' (proj1 T) I Es') as (sl & _ & L1 & L2 & _). rewrite L1. exact L2. }
    assert (F' : Forall2 (holds (bi_bins inst)) (bp_layouts p') good_family).
    { cbn [app] in F. clear -F Ly. revert Ly. generalize (bp_layouts p') as ls. induction F as [|l x ms f H F IH]; intros [|l' ls] E; try discriminate; constructor.
      - injection E as _ E1 E2 _. destruct H as (bb & q & A & B & C). exists bb, q. unfold placed in *. rewrite E1, E2. auto.
      - apply IH. injection E as _ _ _ E. exact E. }
    clear F. rename F' into F.
    pose proof (all_bchecked M true ops _ C) as Cb.
    rewrite Lb in F. unfold good_family in F. inversion F as [|l0 ? ls ? H0 F1 Q1]; subst. inversion F1 as [|l1 ? ls1 ? H1 F2 Q2]; subst. inversion F2; subst. clear F1 F2.
    destruct H1 as (b1 & q1 & N1 & B1 & P1). cbn [fst snd] in *. cbn in N1. injection N1 as <- <-.
    exists b, inst, (place_ops ops ++ [BCreate None]), p', [s], l1.
    do 4 (split; [assumption|]).
    assert (St1 : bstep true (p, []) (BCreate None) = Ok (p', [s])) by (cbn [bstep rbind]; rewrite Es'; reflexivity).
    split.
    { clear - Cb Rn St1. unfold bp_run in Rn. revert Cb Rn. generalize (place_ops ops) (bp_new inst, @nil (solution R (dtransf R))). induction l as [|o r IH]; intros s0 Cb Rn.
      - cbn [app bchecked]. split; [exact I|]. destruct (bstep true s0 (BCreate None)); exact I.
      - cbn [app bchecked rfold] in *. destruct Cb as (C1 & C2). split; [exact C1|]. destruct (bstep true s0 o); [|exact I]. exact (IH _ C2 Rn). }
    assert (Rn' : rfold (bstep true) (place_ops ops) (bp_new inst, []) = Ok (p, [])) by exact Rn.
    split; [unfold bp_run; rewrite rfold_app, Rn'; cbn [rbind rfold]; rewrite St1; reflexivity|].
    split; [rewrite <- Q1; reflexivity|]. split; [reflexivity|]. split; [cbn [target]; rewrite <- Q1; reflexivity|]. split.
    { intros e. split; [intros []|]. intros (_ & k & j & _ & X). exact X. }
    split; [apply turned_square|]. rewrite B1. split.
    { eapply (packed_perm M); [|exact (good_packed b Eb)]. rewrite P1. apply perm_swap. }
    split; [apply turned_square|]. intros (_ & Ap & _).
    assert (X : (0%nat, at_ 2 2) = (0%nat, at_ 1 1)).
    { apply (Ap _ _ (Pt 2 2)); [left; reflexivity|right; apply (Permutation_in _ (Permutation_sym P1)); left; reflexivity|apply covers_square; cbn; lra|apply covers_square; cbn; lra]. }
    injection X. lra.
  Qed.
  (** a strip *)
  Lemma strip_reach_example : exists (inst : spinst R) p0, spinst_new squares 10 = Ok inst /\ Forall (fun x => sound_item M (fst x)) squares /\ cfg_cells ex_cfg <> 0%nat /\
    sp_new inst 10 ex_cfg 0 = Ok p0 /\ packed squares (ly_bin (sp_layout p0)) [(0%nat, at_ 1 1); (0%nat, at_ 4 4)] /\
    ~ packed squares (ly_bin (sp_layout p0)) [(0%nat, at_ 4 4); (0%nat, at_ 5 5)] /\
    exists ops p, schecked_run true 1 (p0, []) ops /\ rfold (sstep true 1) ops (p0, []) = Ok (p, []) /\ length (placed (sp_layout p)) = 2%nat.
  Proof.
    destruct (stout_strip M LinSearch_ok (Rc 0 0 10 10) ex_cfg 0) as (b & Eb); [split; cbn; lra|discriminate|cbn; lra|cbn; lra|].
    assert (Sd : Forall (fun x => sound_item M (fst x)) squares) by (constructor; [apply sq_sound; lra|constructor]).
    set (inst := SPI squares (items_area squares) 10). assert (Hn : spinst_new squares 10 = Ok inst) by reflexivity.
    assert (Eb' : bin_from_strip (Rc f0 f0 10 (si_height inst)) ex_cfg 0 = Ok b) by exact Eb.
    set (p0 := ProblemModel.SP inst (layout_new 0 b) (map (fun p => Z.of_nat (snd p)) (si_items inst)) 0 0).
    assert (E0 : sp_new inst 10 ex_cfg 0 = Ok p0) by (unfold sp_new; rewrite Eb'; reflexivity).
    assert (Nc : cfg_cells ex_cfg <> 0%nat) by discriminate.
    exists inst, p0. do 4 (split; [assumption|]). split; [exact (good_packed b Eb)|]. split.
    - intros (_ & Ap & _). assert (X : (0%nat, at_ 4 4) = (0%nat, at_ 5 5)).
      { apply (Ap _ _ (Pt 5 5)); [left; reflexivity|right; left; reflexivity|apply covers_square; cbn; lra|apply covers_square; cbn; lra]. }
      injection X. lra.
    - assert (H : HL M (si_items inst) (sp_layout p0)) by exact (strip_HL M LinSearch_ok inst ex_cfg Nc 0 _ _ b Eb).
      pose proof (sp_new_SPInv M LinSearch_ok _ _ _ _ _ E0) as Q.
      destruct (fill_strip M LinSearch_ok inst true 1 (sinst_ids _ _ _ Hn) Sd [(0%nat, at_ 1 1); (0%nat, at_ 4 4)] p0 (q_inv _ _ _ Q) H) as (ops & p & C & Rn & _ & Pm & _).
      + exact (good_packed b Eb).
      + exists ops, p. split; [exact C|]. split; [exact Rn|]. rewrite (Permutation_length Pm). reflexivity.
  Qed.
End E.
