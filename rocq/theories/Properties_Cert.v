(** Properties C95.  Theorem statements only; proofs are in CertProofs and CertExampleProofs. *)
From Coq Require Import List Bool Arith ZArith Permutation.
From Verif Require Import Base Num GeoModel HazardModel QTModel TransfModel HpgModel CdeModel CdeSpec
  PolyModel SlotMapModel LayoutModel ProblemModel ProblemSpec PanicSpec LbfModel AssertModel AssertLayoutModel MirrorProofs Instances LayoutProofs PlaceExampleProofs ReachExampleProofs LbfStripThmProofs LbfExampleProofs LbfExample2Proofs SelfCheckExampleProofs HpgSpec LbfSpec HistPackSpec CertProofs CertExampleProofs.
From Coq Require Import Reals.
From Verif Require Import GeoModel TransfModel CdeModel GeoSpec PlaceSpec HpgSpec ShapeSpec LbfModel LbfSpec HistPackSpec PanicSpec AssertLayoutModel CertSpec.
Import ListNotations.
Local Open Scope R_scope.
#[local] Existing Instance RTrig.

Theorem C95_certify_bp :
  forall (M : R) (ED : EqD (dtransf R)) (BS : BSearch), bsearch_ok BS -> let N := RNumT Reqb M in
  forall items bins (inst : bpinst R (dtransf R)) ovf ops p h l, bpinst_new items bins = Ok inst ->
  Forall (fun x => sound_item M (fst x)) items -> Forall (fun b => good_bin (fst b)) bins -> fine_bins bins ->
  bp_run ovf inst ops = Ok (p, h) -> all_spread ovf (bp_new inst, []) ops -> In l (bp_layouts p) ->
  exists r, collision_free l = Ok r /\ (r = true <-> apart items (ly_bin l) (placed l)).
Proof. intros M ED BS Hb N. exact (certify_bp M Hb). Qed.
Print Assumptions C95_certify_bp.
Theorem C95_certify_sp :
  forall (M : R) (ED : EqD (dtransf R)) (BS : BSearch), bsearch_ok BS -> let N := RNumT Reqb M in
  forall items hgt (inst : spinst R) ovf tol w c ptr ops (p0 p : sp R (dtransf R)) h, spinst_new items hgt = Ok inst ->
  Forall (fun x => sound_item M (fst x)) items -> sp_new inst w c ptr = Ok p0 -> rfold (sstep ovf tol) ops (p0, []) = Ok (p, h) -> all_sspread ovf tol (p0, []) ops ->
  exists r, collision_free (sp_layout p) = Ok r /\ (r = true <-> apart items (ly_bin (sp_layout p)) (placed (sp_layout p))).
Proof. intros M ED BS Hb N. exact (certify_sp M Hb). Qed.
Print Assumptions C95_certify_sp.
Theorem C95_certify_fit_bp :
  forall (M : R) (ED : EqD (dtransf R)) (BS : BSearch), bsearch_ok BS -> let N := RNumT Reqb M in
  forall items bins (inst : bpinst R (dtransf R)) ovf ops p h li l i it q d u, bpinst_new items bins = Ok inst ->
  Forall (fun x => sound_item M (fst x)) items -> Forall (fun b => good_bin (fst b)) bins -> fine_bins bins ->
  bp_run ovf inst ops = Ok (p, h) -> all_spread ovf (bp_new inst, []) ops -> target p li = Some l ->
  nth_error items i = Some (it, q) -> p_surr (it_shape it) = Some u -> surrogate_inside (it_shape it) u -> ~ In (i, d) (placed l) ->
  exists r, item_fits it (compose d) l = Ok r /\ (r = true /\ apart items (ly_bin l) (placed l) <-> apart items (ly_bin l) ((i, d) :: placed l)).
Proof. intros M ED BS Hb N. exact (certify_fit_bp M Hb). Qed.
Print Assumptions C95_certify_fit_bp.
Theorem C95_certify_fit_sp :
  forall (M : R) (ED : EqD (dtransf R)) (BS : BSearch), bsearch_ok BS -> let N := RNumT Reqb M in
  forall items hgt (inst : spinst R) ovf tol w c ptr ops (p0 p : sp R (dtransf R)) h i it q d u, spinst_new items hgt = Ok inst ->
  Forall (fun x => sound_item M (fst x)) items -> sp_new inst w c ptr = Ok p0 -> rfold (sstep ovf tol) ops (p0, []) = Ok (p, h) -> all_sspread ovf tol (p0, []) ops ->
  nth_error items i = Some (it, q) -> p_surr (it_shape it) = Some u -> surrogate_inside (it_shape it) u -> ~ In (i, d) (placed (sp_layout p)) ->
  exists r, item_fits it (compose d) (sp_layout p) = Ok r /\
    (r = true /\ apart items (ly_bin (sp_layout p)) (placed (sp_layout p)) <-> apart items (ly_bin (sp_layout p)) ((i, d) :: placed (sp_layout p))).
Proof. intros M ED BS Hb N. exact (certify_fit_sp M Hb). Qed.
Print Assumptions C95_certify_fit_sp.
Theorem C95_checked_pass_bp :
  forall (M : R) (ED : EqD (dtransf R)) (BS : BSearch), bsearch_ok BS -> let N := RNumT Reqb M in
  forall items bins (inst : bpinst R (dtransf R)) ovf ops p h, bpinst_new items bins = Ok inst ->
  Forall (fun x => sound_item M (fst x)) items -> Forall (fun b => good_bin (fst b)) bins -> fine_bins bins ->
  bchecked ovf (bp_new inst, []) ops -> bp_run ovf inst ops = Ok (p, h) -> Forall (fun l => collision_free l = Ok true) (bp_layouts p).
Proof. intros M ED BS Hb N. exact (checked_pass_bp M Hb). Qed.
Print Assumptions C95_checked_pass_bp.
Theorem C95_checked_pass_sp :
  forall (M : R) (ED : EqD (dtransf R)) (BS : BSearch), bsearch_ok BS -> let N := RNumT Reqb M in
  forall items hgt (inst : spinst R) ovf tol w c ptr ops (p0 p : sp R (dtransf R)) h, spinst_new items hgt = Ok inst ->
  Forall (fun x => sound_item M (fst x)) items -> sp_new inst w c ptr = Ok p0 -> schecked_run ovf tol (p0, []) ops -> rfold (sstep ovf tol) ops (p0, []) = Ok (p, h) ->
  collision_free (sp_layout p) = Ok true.
Proof. intros M ED BS Hb N. exact (checked_pass_sp M Hb). Qed.
Print Assumptions C95_checked_pass_sp.
Example C95_bp_example : forall M : R, 1 < M -> let N := RNumT Reqb M in let E := DtEq in let L := LinSearch in
  exists (b : bin R (dtransf R)) inst ops p h l, bpinst_new squares [(b, 2%nat)] = Ok inst /\
  Forall (fun x => sound_item M (fst x)) squares /\ good_bin b /\ fine_bins [(b, 2%nat)] /\
  bp_run true inst ops = Ok (p, h) /\ all_spread true (bp_new inst, []) ops /\ bchecked true (bp_new inst, []) ops /\ length (bp_layouts p) = 2%nat /\
  target p (Real 1) = Some l /\ ~ In (0%nat, at_ 4 4) (placed l) /\ collision_free l = Ok true /\ item_fits (sq_item 2) (compose (at_ 4 4)) l = Ok true.
Proof. intros M HM N E L. exact (cert_bp_example M HM). Qed.
Example C95_sp_example : forall M : R, 1 < M -> let N := RNumT Reqb M in let E := DtEq in let L := LinSearch in
  exists (inst : spinst R) p0 ops (p q : sp R (dtransf R)), spinst_new squares 10 = Ok inst /\ Forall (fun x => sound_item M (fst x)) squares /\
  sp_new inst 10 ex_cfg 0 = Ok p0 /\ schecked_run true 1 (p0, []) ops /\ rfold (sstep true 1) ops (p0, []) = Ok (p, []) /\
  (exists more, rfold (sstep true 1) more (p0, []) = Ok (q, []) /\ all_sspread true 1 (p0, []) more) /\
  (exists u, p_surr (it_shape (sq_item 2)) = Some u /\ surrogate_inside (it_shape (sq_item 2)) u) /\ ~ In (0%nat, at_ 5 5) (placed (sp_layout p)) /\
  collision_free (sp_layout p) = Ok true /\ item_fits (sq_item 2) (compose (at_ 5 5)) (sp_layout p) = Ok false /\ collision_free (sp_layout q) = Ok false.
Proof. intros M HM N E L. exact (cert_sp_example M HM). Qed.
