(** Squares in bins and in a strip: what the crate's own collision check says about them. *)
From Coq Require Import List Bool Arith ZArith Lia Permutation.
From Verif Require Import Base Num GeoModel HazardModel QTModel TransfModel HpgModel CdeModel CdeSpec
  PolyModel SlotMapModel LayoutModel ProblemModel ProblemSpec PanicSpec LbfModel AssertModel AssertLayoutModel BaseProofs HazVecProofs QTProofs ProblemProofs ProblemOpsProofs LayoutProofs MirrorProofs StripProofs Instances
  GeoPrimProofs ParityProofs RigidProofs RegionProofs PlaceExampleProofs RectPolyProofs HpgSpec LbfSpec LbfProofs LbfRunProofs LbfHistProofs LbfSpProofs LbfThmProofs LbfExampleProofs LbfBpTotalProofs StripBinProofs LbfStripThmProofs
  LbfExample2Proofs SelfCheckExampleProofs LbfSpTotalProofs HistPackSpec HistPackProofs ReachProofs ReachExampleProofs PanicGridProofs PanicExampleProofs AgainStripProofs CertProofs.
From Coq Require Import Reals Lra.
From Verif Require Import GeoModel HazardModel QTModel TransfModel HpgModel CdeModel CdeSpec GeoSpec PlaceSpec HpgSpec ShapeSpec LbfModel LbfSpec HistPackSpec PanicSpec AssertLayoutModel CertSpec.
Import ListNotations.
Local Open Scope R_scope.

Section E.
  Variable M : R.
  Hypothesis HM : 1 < M.
  #[local] Instance NCE : Num R := RNumT Reqb M.
  #[local] Existing Instance RTrig.
  #[local] Existing Instance DtEq.
  #[local] Existing Instance LinSearch.
  Lemma sq_surr : exists u, p_surr (it_shape (sq_item 2)) = Some u /\ surrogate_inside (it_shape (sq_item 2)) u.
  Proof. exact two_surr. Qed.

  Lemma all_sspread_app : forall ovf tol o ops (s : sp R (dtransf R)) h (s' : sp R (dtransf R) * list (solution R (dtransf R))),
    all_sspread ovf tol (s, h) ops -> rfold (sstep ovf tol) ops (s, h) = Ok s' -> sspread (fst s') o -> all_sspread ovf tol (s, h) (ops ++ [o]).
  Proof.
    intros ovf tol o. induction ops as [|a r IH]; intros s h s' S R0 N; cbn [app all_sspread rfold] in *.
    - injection R0 as <-. split; [exact N|]. match goal with |- match ?x with _ => _ end => destruct x; exact Logic.I end.
    - destruct S as (S1 & S2). split; [exact S1|]. apply rbind_ok in R0 as ([s1 h1] & E1 & R0). rewrite E1 in S2 |- *. exact (IH s1 h1 s' S2 R0 N).
  Qed.
  Lemma cert_bp_example : exists (b : bin R (dtransf R)) inst ops p h l, bpinst_new squares [(b, 2%nat)] = Ok inst /\
    Forall (fun x => sound_item M (fst x)) squares /\ good_bin b /\ fine_bins [(b, 2%nat)] /\
    bp_run true inst ops = Ok (p, h) /\ all_spread true (bp_new inst, []) ops /\ bchecked true (bp_new inst, []) ops /\ length (bp_layouts p) = 2%nat /\
    target p (Real 1) = Some l /\ ~ In (0%nat, at_ 4 4) (placed l) /\ collision_free l = Ok true /\ item_fits (sq_item 2) (compose (at_ 4 4)) l = Ok true.
  Proof.
    destruct (history_example M HM) as (b & inst & ops & p & h & l & Ei & Gb & Fi & Fb & Ck & Rn & Ll & Lh & Tg & _ & _ & Pk & _).
    assert (Gbs : Forall (fun b : bin R (dtransf R) * nat => good_bin (fst b)) [(b, 2%nat)]) by (constructor; [exact Gb|constructor]).
    assert (Sd : Forall (fun x => sound_item M (fst x)) squares) by (constructor; [apply sq_sound; lra|constructor]).
    pose proof (bp_checked_valid M LinSearch_ok squares [(b, 2%nat)] inst true ops p h Ei Gbs Fi Fb Ck Rn) as Bo. apply (ok_spread M) in Bo.
    assert (Nd : ~ In (0%nat, at_ 4 4) (placed l)) by (destruct Pk as (Nd & _); inversion Nd; assumption).
    exists b, inst, ops, p, h, l. do 10 (split; [assumption|]). destruct sq_surr as (u & Eu & Su). split.
    - pose proof (checked_pass_bp M LinSearch_ok squares [(b, 2%nat)] inst true ops p h Ei Sd Gbs Fb Ck Rn) as A. rewrite Forall_forall in A. apply A. cbn [target] in Tg. exact (nth_error_In _ _ Tg).
    - destruct (certify_fit_bp M LinSearch_ok squares [(b, 2%nat)] inst true ops p h (Real 1) l 0%nat (sq_item 2) 3%nat (at_ 4 4) u Ei Sd Gbs Fb Rn Bo Tg eq_refl Eu Su Nd) as (r & Er & H).
      rewrite (proj1 (proj2 H (packed_apart M _ _ _ Pk))) in Er. exact Er.
  Qed.
  Lemma cert_sp_example : exists (inst : spinst R) p0 ops (p q : sp R (dtransf R)), spinst_new squares 10 = Ok inst /\ Forall (fun x => sound_item M (fst x)) squares /\
    sp_new inst 10 ex_cfg 0 = Ok p0 /\ schecked_run true 1 (p0, []) ops /\ rfold (sstep true 1) ops (p0, []) = Ok (p, []) /\
    (exists more, rfold (sstep true 1) more (p0, []) = Ok (q, []) /\ all_sspread true 1 (p0, []) more) /\
    (exists u, p_surr (it_shape (sq_item 2)) = Some u /\ surrogate_inside (it_shape (sq_item 2)) u) /\ ~ In (0%nat, at_ 5 5) (placed (sp_layout p)) /\
    collision_free (sp_layout p) = Ok true /\ item_fits (sq_item 2) (compose (at_ 5 5)) (sp_layout p) = Ok false /\ collision_free (sp_layout q) = Ok false.
  Proof.
    destruct (stout_strip M LinSearch_ok (Rc 0 0 10 10) ex_cfg 0) as (b & Eb); [split; cbn; lra|discriminate|cbn; lra|cbn; lra|].
    assert (Sd : Forall (fun x => sound_item M (fst x)) squares) by (constructor; [apply sq_sound; lra|constructor]).
    set (inst := SPI squares (items_area squares) 10). assert (Hn : spinst_new squares 10 = Ok inst) by reflexivity.
    assert (Eb' : bin_from_strip (Rc f0 f0 10 (si_height inst)) ex_cfg 0 = Ok b) by exact Eb.
    set (p0 := ProblemModel.SP inst (layout_new 0 b) (map (fun p => Z.of_nat (snd p)) (si_items inst)) 0 0).
    assert (E0 : sp_new inst 10 ex_cfg 0 = Ok p0) by (unfold sp_new; rewrite Eb'; reflexivity).
    assert (Nc : cfg_cells ex_cfg <> 0%nat) by discriminate.
    assert (H : HL M (si_items inst) (sp_layout p0)) by exact (strip_HL M LinSearch_ok inst ex_cfg Nc 0 _ _ b Eb).
    pose proof (sp_new_SPInv M LinSearch_ok _ _ _ _ _ E0) as Q.
    destruct (fill_strip M LinSearch_ok inst true 1 (sinst_ids _ _ _ Hn) Sd [(0%nat, at_ 1 1); (0%nat, at_ 4 4)] p0 (q_inv _ _ _ Q) H) as (ops & p & C & Rn & Eq & Pm & _); [exact (good_packed M b Eb)|].
    assert (Fi : fine_items squares) by (eapply Forall_impl; [|exact Sd]; intros x Hx; exact (so_shape _ _ Hx)).
    pose proof (sp_checked_valid M LinSearch_ok squares 10 inst true 1 10 ex_cfg 0 ops p0 p [] Hn Fi E0 C Rn) as So. apply (ok_sspread M) in So.
    assert (Rn' : rfold (sstep true 1) ops (p0, []) = Ok (p, [])) by exact Rn. assert (So' : all_sspread true 1 (p0, []) ops) by exact So.
    assert (Nd : ~ In (0%nat, at_ 5 5) (placed (sp_layout p))).
    { intros In1. assert (In2 : In (0%nat, at_ 5 5) [(0%nat, at_ 1 1); (0%nat, at_ 4 4)]) by (apply (Permutation_in _ Pm), In1). destruct In2 as [E|[E|[]]]; injection E; intros; lra. }
    set (o := SPlace (PO (Real 0) 0 (at_ 5 5)) 9 : sop R (dtransf R)).
    assert (St : exists s, sstep true 1 (p, []) o = Ok s).
    { eapply (grid_strip_exact M LinSearch_ok squares 10 inst true 1 10 ex_cfg 0 ops p0 p [] o); [exact Hn|exact Sd|exact E0|exact Rn|exact So|exact Nd|reflexivity|].
      split; [reflexivity|]. pose proof (srun_inv_from _ _ _ _ _ _ _ _ (sinst_ids _ _ _ Hn) (q_inv _ _ _ Q) Rn) as I. rewrite (s_inst _ _ _ I). cbn. lia. }
    destruct St as ([q h'] & Es). assert (Ep : exists k, sp_place p (PO (Real 0) 0 (at_ 5 5)) 9 = Ok (k, q) /\ h' = []).
    { unfold o in Es. cbn [sstep] in Es. apply rbind_ok in Es as ([k q'] & E1 & Es). injection Es as <- <-. eauto. }
    destruct Ep as (k & Ep & ->). exists inst, p0, ops, p, q. do 5 (split; [assumption|]). 
    assert (Rq : rfold (sstep true 1) (ops ++ [o]) (p0, []) = Ok (q, [])) by (rewrite rfold_app, Rn'; cbn [rbind rfold]; rewrite Es; reflexivity).
    assert (Sq : all_sspread true 1 (p0, []) (ops ++ [o])).
    { apply (all_sspread_app _ _ _ _ _ _ _ So' Rn'). exact Nd. }
    split; [exists (ops ++ [o]); split; [exact Rq|exact Sq]|]. split; [exact sq_surr|]. split; [exact Nd|]. destruct sq_surr as (u & Eu & Su).
    pose proof (srun_inv_from _ _ _ _ _ _ _ _ (sinst_ids _ _ _ Hn) (q_inv _ _ _ Q) Rn) as Ip.
    destruct (splace_placed M _ _ _ _ _ _ _ (sinst_ids _ _ _ Hn) Ip Ep) as (Pq & _).
    assert (Bad : forall (bb : bin R (dtransf R)) pl, In (0%nat, at_ 4 4) pl -> In (0%nat, at_ 5 5) pl -> ~ apart squares bb pl).
    { intros bb pl I1 I2 (Ap & _). assert (X : (0%nat, at_ 4 4) = (0%nat, at_ 5 5)) by (apply (Ap _ _ (Pt 5 5)); [exact I1|exact I2|apply (covers_square M); cbn; lra|apply (covers_square M); cbn; lra]). injection X. lra. }
    assert (I4 : In (0%nat, at_ 4 4) (placed (sp_layout p))) by (apply (Permutation_in _ (Permutation_sym Pm)); right; left; reflexivity).
    split; [exact (checked_pass_sp M LinSearch_ok squares 10 inst true 1 10 ex_cfg 0 ops p0 p [] Hn Sd E0 C Rn)|]. split.
    - destruct (certify_fit_sp M LinSearch_ok squares 10 inst true 1 10 ex_cfg 0 ops p0 p [] 0%nat (sq_item 2) 3%nat (at_ 5 5) u Hn Sd E0 Rn So eq_refl Eu Su Nd) as (r & Er & K). 
      pose proof (checked_pass_sp M LinSearch_ok squares 10 inst true 1 10 ex_cfg 0 ops p0 p [] Hn Sd E0 C Rn) as Cf.
      destruct (certify_sp M LinSearch_ok squares 10 inst true 1 10 ex_cfg 0 ops p0 p [] Hn Sd E0 Rn So) as (r' & Er' & K'). pose proof (eq_trans (eq_sym Cf) Er') as Z. injection Z as <-.
      destruct r; [exfalso|exact Er]. apply (Bad (ly_bin (sp_layout p)) ((0%nat, at_ 5 5) :: placed (sp_layout p))); [right; exact I4|left; reflexivity|]. apply K. split; [reflexivity|apply K'; reflexivity].
    - destruct (certify_sp M LinSearch_ok squares 10 inst true 1 10 ex_cfg 0 _ p0 q [] Hn Sd E0 Rq Sq) as (r & Er & K). destruct r; [exfalso|exact Er].
      apply (Bad (ly_bin (sp_layout q)) (placed (sp_layout q))); [apply (Permutation_in _ (Permutation_sym Pq)); right; exact I4|apply (Permutation_in _ (Permutation_sym Pq)); left; reflexivity|apply K; reflexivity].
  Qed.
End E.
