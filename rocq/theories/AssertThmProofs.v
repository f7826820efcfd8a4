(** Debug builds of engines with a grid: the case without gaps, the example, and the
    wall of missing cells. *)
From Coq Require Import List Bool Arith Lia Permutation Sorted.
From Verif Require Import Base Num GeoModel HazardModel QTModel TransfModel HpgModel CdeModel BaseProofs CdeSpec CdeOpsProofs CdeHistProofs GeoSpec
  PlaceSpec HpgSpec HpgThmProofs HpgTidyProofs HpgBoxProofs HpgExampleProofs HpgGapProofs HpgMixProofs CdeThmProofs Instances PlaceExampleProofs
  AssertModel AssertSpec AssertGridSpec AssertRefProofs AssertProofs AssertRealProofs AssertGridProofs.
From Coq Require Import Reals Lra.
From Verif Require Import GeoModel HazardModel QTModel TransfModel HpgModel CdeModel CdeSpec GeoSpec PlaceSpec HpgSpec AssertModel AssertSpec AssertGridSpec.
Import ListNotations.
Local Open Scope R_scope.

Section Thm.
  Context {D : Type} {ED : EqD D} {BS : BSearch}.
  Hypothesis BSok : bsearch_ok BS.
  Variable M : R.
  #[local] Instance NMt : Num R := RNumT Reqb M.
  Lemma debug_covered : forall bb (sts : list (hazard R D)) depth n ops c0, 0 <= M -> n <> 0%nat -> proper bb -> sound_statics sts -> valid sts ops ->
    Forall grid_op ops -> Forall stout_op ops -> Forall (centred_op bb) ops -> tidy ops false ->
    cde_new bb sts depth n = Ok c0 -> (forall g, cd_hpg c0 = Some g -> covered bb (hg_grid g)) ->
    exists s, engine_d bb sts depth n ops = Ok s /\ engine bb sts depth n ops = Ok s.
  Proof.
    intros bb sts depth n ops c0 HM Hn Pb Ss V Go So Ce Td E0 Cv.
    destruct (debug_grid_iff BSok M bb sts depth n ops c0 Hn Pb Ss V Go So E0) as ((_ & H) & _).
    pose proof (covered_settles BSok M bb sts depth n ops c0 HM Hn Pb Ss V Go Ce Td E0 Cv) as Se.
    destruct (engine_grid BSok M bb sts depth n ops c0 Hn Pb Ss V Go E0) as (g0 & dim & c & sn & shp & _ & E & _).
    exists (c, sn). assert (E' : engine bb sts depth n ops = Ok (c, sn)) by exact E. split; [|exact E']. refine (eq_trans _ E'). apply H, Se.
  Qed.
  Lemma debug_box : forall bb rr (sts : list (hazard R D)) depth n ops c0, 0 <= M -> n <> 0%nat -> proper bb -> sub_box rr bb -> Forall static_hazard sts -> oblong_bin rr sts -> valid sts ops ->
    Forall grid_op ops -> Forall stout_op ops -> Forall (centred_op rr) ops -> tidy ops false ->
    cde_new bb sts depth n = Ok c0 -> 21 * r_area bb <= INR n * r_area rr ->
    exists s, engine_d bb sts depth n ops = Ok s /\ engine bb sts depth n ops = Ok s.
  Proof.
    intros bb rr sts depth n ops c0 HM Hn Pb Sb St Bb V Go So Ce Td E0 Ar.
    assert (Ss : sound_statics sts) by (eapply Forall_impl; [|exact St]; intros h (Sp & _); exact Sp).
    destruct (debug_grid_iff BSok M bb sts depth n ops c0 Hn Pb Ss V Go So E0) as ((_ & H) & _).
    pose proof (box_settles BSok M bb rr sts depth n ops c0 HM Hn Pb Sb St Bb V Go Ce Td E0 Ar) as Se.
    destruct (engine_grid BSok M bb sts depth n ops c0 Hn Pb Ss V Go E0) as (g0 & dim & c & sn & shp & _ & E & _).
    exists (c, sn). assert (E' : engine bb sts depth n ops = Ok (c, sn)) by exact E. split; [|exact E']. refine (eq_trans _ E'). apply H, Se.
  Qed.
End Thm.
Section Gap.
  #[local] Existing Instance NatEqD.
  #[local] Existing Instance LinSearch.
  Variable M : R.
  #[local] Instance NMu : Num R := RNumT Reqb M.
  Lemma gap_debug : 1 <= M -> exists (bb : rect R) (sts : list (hazard R nat)) (h : hazard R nat),
    proper bb /\ Forall static_hazard sts /\ sound_statics sts /\ valid sts [OReg h] /\ grid_op (OReg h) /\ centred_op bb (OReg h) /\
    feasible (a_obj (h_shape h)) [] (facts sts []) /\
    forall depth, (exists s, engine bb sts depth 74 [OReg h] = Ok s) /\ engine_d bb sts depth 74 [OReg h] = Panic.
  Proof.
    intros HM. destruct (gap_refuted M HM) as (bb & sts & h & Pb & St & Ss & _ & V & Go & Ce & Fe & H).
    exists bb, sts, h. repeat (split; [assumption|]). intros depth. destruct (H depth) as (c0 & c & sn & g & E0 & E & _ & _ & Ns & _).
    split; [exists (c, sn); exact E|].
    destruct (engine_d bb sts depth 74 [OReg h]) as [s|] eqn:Ed; [|reflexivity]. exfalso. apply Ns.
    eapply (debug_grid_only LinSearch_ok M); try eassumption; [discriminate|]. constructor; [exact Go|constructor].
  Qed.
  Lemma mixed_debug : 10 <= M -> exists (bb : rect R) (sts : list (hazard R nat)) (h1 h2 h3 : hazard R nat), let ops := [OReg h1; OReg h2; ODereg (h_ent h1) false; ODereg (h_ent h2) true; OReg h3] in
    proper bb /\ Forall static_hazard sts /\ sound_statics sts /\ framed bb (facts sts ops) /\ valid sts ops /\ Forall grid_op ops /\ Forall (centred_op bb) ops /\
    feasible (a_obj (h_shape h1)) [] (facts sts []) /\ feasible (a_obj (h_shape h2)) [] (facts sts [OReg h1]) /\ feasible (a_obj (h_shape h3)) [] (facts sts (firstn 4 ops)) /\
    forall depth, (exists c0, cde_new bb sts depth 400 = Ok c0 /\ forall g, cd_hpg c0 = Some g -> covered bb (hg_grid g)) /\
      (exists s, engine bb sts depth 400 ops = Ok s) /\ engine_d bb sts depth 400 ops = Panic.
  Proof.
    intros HM. destruct (mixed_refuted M HM) as (bb & sts & h1 & h2 & h3 & Pb & St & Ss & Fr & V & Go & Ce & F1 & F2 & F3 & H).
    exists bb, sts, h1, h2, h3. intros ops. assert (V' : valid (N := RNum) sts ops) by (apply valid_prefix with [OFlush]; exact V). repeat (split; [assumption|]). intros depth.
    destruct (H depth) as (c0 & E0 & _ & Cv & Ns & Es & _). split; [exists c0; auto|]. split; [exact Es|].
    destruct (engine_d bb sts depth 400 ops) as [s|] eqn:Ed; [|reflexivity]. exfalso. apply Ns.
    eapply (debug_grid_only LinSearch_ok M); try eassumption. discriminate.
  Qed.
End Gap.
Section Ex.
  #[local] Existing Instance NatEqD.
  #[local] Existing Instance LinSearch.
  Lemma ex_stout : Forall (@stout_op nat) ex_ops /\ tidy ex_ops false.
  Proof. split; [|cbn; auto]. constructor; [|constructor]. intros k [<-|[]]. cbn. lra. Qed.
End Ex.
