(** Squares in bins and in a strip: taken out, put back, solved again. *)
From Coq Require Import List Bool Arith ZArith Lia Permutation.
From Verif Require Import Base Num GeoModel HazardModel QTModel TransfModel HpgModel CdeModel CdeSpec
  PolyModel SlotMapModel LayoutModel ProblemModel ProblemSpec LbfModel BaseProofs HazVecProofs SlotMapProofs QTProofs ProblemProofs ProblemOpsProofs LayoutProofs MirrorProofs MirrorThmProofs StripProofs FitProofs Instances
  GeoPrimProofs ParityProofs RigidProofs RegionProofs PlaceExampleProofs RectPolyProofs HpgSpec LbfSpec LbfProofs LbfRunProofs LbfHistProofs LbfSpProofs LbfBpProofs LbfThmProofs LbfExampleProofs LbfBpTotalProofs StripBinProofs LbfStripThmProofs
  LbfExample2Proofs SelfCheckExampleProofs LbfSpTotalProofs HistPackSpec HistPackProofs ReachProofs ReachExampleProofs ProblemThmProofs AgainModel AgainSpec AgainProofs AgainStripProofs AgainExampleProofs PanicSpec AgainTotalProofs.
From Coq Require Import Reals Lra.
From Verif Require Import GeoModel HazardModel QTModel TransfModel HpgModel CdeModel CdeSpec GeoSpec PlaceSpec HpgSpec ShapeSpec LbfModel LbfSpec HistPackSpec AgainModel AgainSpec PanicSpec.
Import ListNotations.
Local Open Scope R_scope.

Section E.
  Variable M : R.
  Hypothesis HM : 1 < M.
  #[local] Instance NAU : Num R := RNumT Reqb M.
  #[local] Existing Instance RTrig.
  #[local] Existing Instance DtEq.
  #[local] Existing Instance LinSearch.
  #[local] Existing Instance REx.
  Context {G : Type} {RG : Rng R G}.

  Lemma squares_area : 0 < items_area squares.
  Proof. unfold squares, items_area, fsum, sq_item. cbn. lra. Qed.
  Lemma squares_hulls : hulls_constructible squares.
  Proof. left. cbn. lia. Qed.
  (** three squares at most: four cannot be taken out *)
  Lemma again_total_bp : forall (g rng : G) ptr, exists (b : bin R (dtransf R)) inst, bpinst_new squares [(b, 2%nat)] = Ok inst /\
    Forall (fun x => sound_item M (fst x)) squares /\ good_bin b /\ fine_bins [(b, 2%nat)] /\ sane_extra REx /\ cfg_cells (bn_cfg b) <> 0%nat /\ hulls_constructible squares /\
    (exists r, twice_bp 0 (LC 5 2) inst g rng ptr = Ok r) /\ twice_bp 4 (LC 5 2) inst g rng ptr = Panic.
  Proof.
    intros g rng ptr. destruct (two_bins M HM) as (b & inst & Eb & Ei & Sd & Gb & Fb & Nc). exists b, inst. do 4 (split; [assumption|]). split; [exact REx_sane|]. split; [exact Nc|]. split; [exact squares_hulls|].
    assert (Gbs : Forall (fun b : bin R (dtransf R) * nat => good_bin (fst b)) [(b, 2%nat)]) by (constructor; [exact Gb|constructor]).
    assert (Ncs : Forall (fun b : bin R (dtransf R) * nat => cfg_cells (bn_cfg (fst b)) <> 0%nat) [(b, 2%nat)]) by (constructor; [exact Nc|constructor]).
    pose proof (fun n => twice_bp_exact M LinSearch_ok squares [(b, 2%nat)] inst n (LC 5 2) g rng ptr Ei Sd Gbs Fb REx_sane Ncs squares_hulls ltac:(cbn; lia) ltac:(cbn; lia)) as T. split.
    - destruct (T 0%nat) as (p1 & s1 & g1 & ptr1 & _ & K). apply K. lia.
    - destruct (T 4%nat) as (p1 & s1 & g1 & ptr1 & E1 & K). destruct (twice_bp 4 (LC 5 2) inst g rng ptr) as [r|] eqn:Et; [|reflexivity]. exfalso.
      pose proof (proj1 K (ex_intro _ r eq_refl)) as L. clear K.
      assert (Fi : fine_items squares) by (eapply Forall_impl; [|exact Sd]; intros x Hx; exact (so_shape _ _ Hx)).
      destruct (solve_any_bp M LinSearch_ok squares [(b, 2%nat)] inst true (LC 5 2) [] (bp_new inst) [] g ptr p1 s1 g1 ptr1 Ei Gbs Fi Fb Logic.I eq_refl E1) as ((o1 & C1 & R1) & _ & K1 & _ & D1).
      destruct (D1 0%nat (sq_item 2) 3%nat eq_refl) as (D & _). cbn in D. destruct (inst_lists M _ _ _ Ei) as (Li & _).
      cbn [app] in R1. pose proof (run_inv _ _ _ _ _ (inst_ids _ _ _ Ei) R1) as Bi. destruct (b_miss _ _ _ Bi) as (_ & Fa & _). rewrite Li in Fa. cbn in Fa.
      assert (Le : length (sol_items s1) = length (items_in (bp_layouts p1))) by (rewrite sol_items_c, items_in_c, K1; reflexivity). rewrite Le in L.
      unfold copies in D. revert Fa D L. generalize (items_in (bp_layouts p1)). intros xs Fa D L.
      assert (K : count 0 xs = length xs); [|lia]. clear - Fa. induction Fa as [|x xs Hx _ IH]; [reflexivity|]. assert (x = 0)%nat by lia. subst x. unfold count in *. cbn [filter Nat.eqb length]. f_equal. exact IH.
  Qed.
  Lemma again_total_sp : forall (g rng : G) ptr, exists (inst : spinst R) ops p0 (p : sp R (dtransf R)) k, spinst_new squares 10 = Ok inst /\ Forall (fun x => sound_item M (fst x)) squares /\
    sp_new inst 10 (Cfg 3 1) 0 = Ok p0 /\ schecked_run true (1/2) (p0, []) ops /\ rfold (sstep true (1/2)) ops (p0, []) = Ok (p, []) /\ length (placed (sp_layout p)) = 3%nat /\
    (exists r, take_out p [k] = Ok r) /\ take_out p [k; k] = Panic /\ (exists r, updates 7 (p, g, ptr) = Ok r) /\ (exists r, drop_sp 5 p g = Ok r) /\
    (exists r, updates 0 (p0, g, ptr) = Ok r) /\ updates 1 (p0, g, ptr) = Panic /\
    sane_extra REx /\ cfg_cells (Cfg 3 1) <> 0%nat /\ strips_constructible (Cfg 3 1) 10 /\ hulls_constructible squares /\ 0 < items_area squares /\
    no_more_than squares [sp_layout p] /\ bn_cfg (ly_bin (sp_layout p)) = Cfg 3 1 /\ y_min (outline p) = 0 /\ y_max (outline p) = 10.
  Proof.
    intros g rng ptr. destruct (strip_start M HM) as (inst & ops & p0 & p & Hn & Sd & Con & E0 & C & Rn & T & Pm & X1 & X2). pose proof T as (Q & _ & Ne & Ec & Y1 & Y2).
    assert (Ei : si_items inst = squares /\ si_height inst = 10) by (unfold spinst_new in Hn; cbn in Hn; injection Hn as <-; auto). destruct Ei as (Ei & Eh).
    assert (Ln : length (placed (sp_layout p)) = 3%nat) by (rewrite (Permutation_length Pm); reflexivity).
    assert (Hk : exists k x r, sm_iter (ly_items (sp_layout p)) = (k, x) :: r).
    { unfold placed, sm_values in Ln. rewrite !map_length in Ln. destruct (sm_iter (ly_items (sp_layout p))) as [|[k x] r]; [discriminate|]. eauto. }
    destruct Hk as (k & x & r & Ek).
    pose proof (fun ks => proj1 (take_out_exact M LinSearch_ok squares 10 inst true (1/2) 10 (Cfg 3 1) 0 ops p0 p [] ks Hn Sd E0 C Rn)) as To.
    exists inst, ops, p0, p, k. do 6 (split; [assumption|]). split; [|split; [|split; [|split; [|split; [|split]]]]].
    - apply To. split; [constructor; [intros []|constructor]|]. rewrite Ek. intros y [<-|[]]. left. reflexivity.
    - destruct (take_out p [k; k]) as [r'|] eqn:Et; [|reflexivity]. exfalso. destruct (proj1 (To [k; k]) (ex_intro _ r' Et)) as (Nd & _).
      apply NoDup_cons_iff in Nd as (Nd & _). apply Nd. left. reflexivity.
    - apply (updates_exact M LinSearch_ok squares 10 inst true (1/2) 10 (Cfg 3 1) 0 ops p0 p [] 7 g ptr Hn Sd E0 C Rn). right. intros Z. rewrite Z in Ln. discriminate.
    - exact (drop_sp_total M LinSearch_ok squares 10 inst true (1/2) 10 (Cfg 3 1) 0 ops p0 p [] 5 g Hn Sd E0 C Rn).
    - eexists. reflexivity.
    - pose proof (updates_exact M LinSearch_ok squares 10 inst true (1/2) 10 (Cfg 3 1) 0 [] p0 p0 [] 1 g ptr Hn Sd E0 Logic.I eq_refl) as U. destruct (updates 1 (p0, g, ptr)) as [r'|] eqn:Eu; [|reflexivity]. exfalso.
      destruct (proj1 U (ex_intro _ r' eq_refl)) as [Z|Z]; [discriminate|]. apply Z. unfold sp_new in E0. apply rbind_ok in E0 as (b & _ & E0). injection E0 as <-. reflexivity.
    - split; [exact REx_sane|]. split; [discriminate|]. split; [exact Con|]. split; [exact squares_hulls|]. split; [exact squares_area|]. split; [|split; [exact Ec|split; [exact Y1|rewrite <- Eh; exact Y2]]].
      intros i it q Hi. rewrite <- Ei in Hi. specialize (Ne i it q Hi). unfold copies, items_in. cbn [flat_map]. rewrite app_nil_r. exact Ne.
  Qed.
End E.
