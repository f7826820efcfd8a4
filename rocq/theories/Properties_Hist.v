(** Properties C88 to C90: histories of problems in which every placement was checked
    beforehand, but which remove, save and restore at any time. *)
From Coq Require Import List Bool Arith ZArith Permutation.
From Verif Require Import Base Num GeoModel HazardModel QTModel TransfModel HpgModel CdeModel CdeSpec
  PolyModel SlotMapModel LayoutModel ProblemModel ProblemSpec LbfModel Instances LbfStripThmProofs LbfExampleProofs LbfExample2Proofs SelfCheckExampleProofs.
From Coq Require Import Reals.
From Verif Require Import GeoModel HazardModel QTModel TransfModel HpgModel CdeModel CdeSpec GeoSpec PlaceSpec HpgSpec ShapeSpec LbfSpec HistPackSpec
  HistPackProofs ReachProofs ReachExampleProofs.
Import ListNotations.
Local Open Scope R_scope.
#[local] Existing Instance RTrig.

(** *** C88 *)
(** the layouts of the problem and of every solution saved on the way are packings *)
Theorem C88_bp_history_packs :
  forall (M : R) (ED : EqD (dtransf R)) (BS : BSearch), bsearch_ok BS -> let N := RNumT Reqb M in
  forall items bins (inst : bpinst R (dtransf R)) ovf ops p h, bpinst_new items bins = Ok inst ->
  Forall (fun b => good_bin (fst b)) bins -> fine_items items -> fine_bins bins ->
  bchecked ovf (bp_new inst, []) ops -> bp_run ovf inst ops = Ok (p, h) ->
  Forall (fun l => In (ly_bin l) (map fst bins) /\ packed items (ly_bin l) (placed l)) (bp_layouts p) /\
  Forall (sol_packed items bins) h.
Proof. intros M ED BS Hb N. exact (bp_history_packs M Hb). Qed.
Print Assumptions C88_bp_history_packs.
(** such histories never place an item twice at the same spot *)
Theorem C88_bp_checked_valid :
  forall (M : R) (ED : EqD (dtransf R)) (BS : BSearch), bsearch_ok BS -> let N := RNumT Reqb M in
  forall items bins (inst : bpinst R (dtransf R)) ovf ops p h, bpinst_new items bins = Ok inst ->
  Forall (fun b => good_bin (fst b)) bins -> fine_items items -> fine_bins bins ->
  bchecked ovf (bp_new inst, []) ops -> bp_run ovf inst ops = Ok (p, h) -> bops_ok ovf (bp_new inst, []) ops.
Proof. intros M ED BS Hb N. exact (bp_checked_valid M Hb). Qed.
Print Assumptions C88_bp_checked_valid.
Theorem C88_sp_history_packs :
  forall (M : R) (ED : EqD (dtransf R)) (BS : BSearch), bsearch_ok BS -> let N := RNumT Reqb M in
  forall items hgt (inst : spinst R) ovf tol w c ptr ops p0 (p : sp R (dtransf R)) h, spinst_new items hgt = Ok inst -> fine_items items ->
  sp_new inst w c ptr = Ok p0 -> schecked_run ovf tol (p0, []) ops -> rfold (sstep ovf tol) ops (p0, []) = Ok (p, h) ->
  plain_strip (ly_bin (sp_layout p)) /\ packed items (ly_bin (sp_layout p)) (placed (sp_layout p)) /\
  Forall (fun s => exists sn, so_layouts s = [sn] /\ plain_strip (ls_bin sn) /\ packed items (ls_bin sn) (snap_placed sn)) h.
Proof. intros M ED BS Hb N. exact (sp_history_packs M Hb). Qed.
Print Assumptions C88_sp_history_packs.
Theorem C88_sp_checked_valid :
  forall (M : R) (ED : EqD (dtransf R)) (BS : BSearch), bsearch_ok BS -> let N := RNumT Reqb M in
  forall items hgt (inst : spinst R) ovf tol w c ptr ops p0 (p : sp R (dtransf R)) h, spinst_new items hgt = Ok inst -> fine_items items ->
  sp_new inst w c ptr = Ok p0 -> schecked_run ovf tol (p0, []) ops -> rfold (sstep ovf tol) ops (p0, []) = Ok (p, h) ->
  sops_ok ovf tol (p0, []) ops.
Proof. intros M ED BS Hb N. exact (sp_checked_valid M Hb). Qed.
Print Assumptions C88_sp_checked_valid.

(** *** C89: after any such history the engine decides whether one more item may be placed *)
Theorem C89_bp_engine_decides :
  forall (M : R) (ED : EqD (dtransf R)) (BS : BSearch), bsearch_ok BS -> let N := RNumT Reqb M in
  forall items bins (inst : bpinst R (dtransf R)) ovf ops p h li l i it q d irr, bpinst_new items bins = Ok inst ->
  Forall (fun b => good_bin (fst b)) bins -> fine_items items -> fine_bins bins ->
  bchecked ovf (bp_new inst, []) ops -> bp_run ovf inst ops = Ok (p, h) -> target p li = Some l ->
  nth_error items i = Some (it, q) -> tolerated l it irr -> turned_ok it d ->
  let a := ask (ly_cde l) (AskPoly (tr_poly (compose d) (it_shape it)) irr) in
  (a = Ok TFalse <-> packed items (ly_bin l) ((i, d) :: placed l)) /\
  (a = Ok TTrue <-> ~ packed items (ly_bin l) ((i, d) :: placed l)).
Proof. intros M ED BS Hb N. exact (bp_engine_decides M Hb). Qed.
Print Assumptions C89_bp_engine_decides.
Theorem C89_sp_engine_decides :
  forall (M : R) (ED : EqD (dtransf R)) (BS : BSearch), bsearch_ok BS -> let N := RNumT Reqb M in
  forall items hgt (inst : spinst R) ovf tol w c ptr ops p0 (p : sp R (dtransf R)) h i it q d irr, spinst_new items hgt = Ok inst -> fine_items items ->
  sp_new inst w c ptr = Ok p0 -> schecked_run ovf tol (p0, []) ops -> rfold (sstep ovf tol) ops (p0, []) = Ok (p, h) ->
  nth_error items i = Some (it, q) -> tolerated (sp_layout p) it irr -> turned_ok it d ->
  let a := ask (ly_cde (sp_layout p)) (AskPoly (tr_poly (compose d) (it_shape it)) irr) in
  (a = Ok TFalse <-> packed items (ly_bin (sp_layout p)) ((i, d) :: placed (sp_layout p))) /\
  (a = Ok TTrue <-> ~ packed items (ly_bin (sp_layout p)) ((i, d) :: placed (sp_layout p))).
Proof. intros M ED BS Hb N. exact (sp_engine_decides M Hb). Qed.
Print Assumptions C89_sp_engine_decides.
(** three squares in two bins and a solution saved; of two more places one is free *)
Example C88_C89_bp_example : forall M : R, 1 < M -> let N := RNumT Reqb M in let E := DtEq in let L := LinSearch in
  exists (b : bin R (dtransf R)) inst ops p h l, bpinst_new squares [(b, 2%nat)] = Ok inst /\ good_bin b /\ fine_items squares /\ fine_bins [(b, 2%nat)] /\
    bchecked true (bp_new inst, []) ops /\ bp_run true inst ops = Ok (p, h) /\ length (bp_layouts p) = 2%nat /\ length h = 1%nat /\
    target p (Real 1) = Some l /\ tolerated l (sq_item 2) [] /\
    turned_ok (sq_item 2) (at_ 4 4) /\ packed squares (ly_bin l) ((0%nat, at_ 4 4) :: placed l) /\
    turned_ok (sq_item 2) (at_ 2 2) /\ ~ packed squares (ly_bin l) ((0%nat, at_ 2 2) :: placed l).
Proof. intros M HM N E L. exact (history_example M HM). Qed.

(** *** C90: the packings within demand and stock are exactly the states such histories reach *)
Theorem C90_packings_reached :
  forall (M : R) (ED : EqD (dtransf R)) (BS : BSearch), bsearch_ok BS -> let N := RNumT Reqb M in
  forall items bins (inst : bpinst R (dtransf R)) ovf fam, bpinst_new items bins = Ok inst ->
  Forall (fun x => sound_item M (fst x)) items -> Forall (fun b => good_bin (fst b)) bins -> fine_bins bins ->
  Forall (fun b => cfg_cells (bn_cfg (fst b)) <> 0%nat) bins ->
  family_packed items bins fam -> within_demand items fam -> within_stock bins fam ->
  exists ops p, bchecked ovf (bp_new inst, []) ops /\ bp_run ovf inst ops = Ok (p, []) /\ Forall2 (holds bins) (bp_layouts p) fam.
Proof. intros M ED BS Hb N. exact (packings_reached M Hb). Qed.
Print Assumptions C90_packings_reached.
Theorem C90_reached_iff :
  forall (M : R) (ED : EqD (dtransf R)) (BS : BSearch), bsearch_ok BS -> let N := RNumT Reqb M in
  forall items bins (inst : bpinst R (dtransf R)) ovf fam, bpinst_new items bins = Ok inst ->
  Forall (fun x => sound_item M (fst x)) items -> Forall (fun b => good_bin (fst b)) bins -> fine_bins bins ->
  Forall (fun b => cfg_cells (bn_cfg (fst b)) <> 0%nat) bins -> within_demand items fam ->
  ((exists ops p h, bchecked ovf (bp_new inst, []) ops /\ bp_run ovf inst ops = Ok (p, h) /\ Forall2 (holds bins) (bp_layouts p) fam) <->
   family_packed items bins fam /\ within_stock bins fam).
Proof. intros M ED BS Hb N. exact (reached_iff M Hb). Qed.
Print Assumptions C90_reached_iff.
Theorem C90_strip_reached_iff :
  forall (M : R) (ED : EqD (dtransf R)) (BS : BSearch), bsearch_ok BS -> let N := RNumT Reqb M in
  forall items hgt (inst : spinst R) ovf tol w c ptr (p0 : sp R (dtransf R)) pl, spinst_new items hgt = Ok inst ->
  Forall (fun x => sound_item M (fst x)) items -> cfg_cells c <> 0%nat -> sp_new inst w c ptr = Ok p0 ->
  ((exists ops p h, schecked_run ovf tol (p0, []) ops /\ rfold (sstep ovf tol) ops (p0, []) = Ok (p, h) /\
      ly_bin (sp_layout p) = ly_bin (sp_layout p0) /\ Permutation (placed (sp_layout p)) pl) <->
   packed items (ly_bin (sp_layout p0)) pl).
Proof. intros M ED BS Hb N. exact (strip_reached_iff M Hb). Qed.
Print Assumptions C90_strip_reached_iff.
Example C90_example : forall M : R, 1 < M -> let N := RNumT Reqb M in let E := DtEq in let L := LinSearch in
  exists (b : bin R (dtransf R)) inst, bpinst_new squares [(b, 2%nat)] = Ok inst /\
    Forall (fun x => sound_item M (fst x)) squares /\ good_bin b /\ fine_bins [(b, 2%nat)] /\ cfg_cells (bn_cfg b) <> 0%nat /\
    family_packed squares [(b, 2%nat)] good_family /\ within_demand squares good_family /\ within_stock [(b, 2%nat)] good_family /\
    within_demand squares bad_family /\ within_stock [(b, 2%nat)] bad_family /\ ~ family_packed squares [(b, 2%nat)] bad_family.
Proof. intros M HM N E L. exact (reach_example M HM). Qed.
Example C90_strip_example : forall M : R, 1 < M -> let N := RNumT Reqb M in let E := DtEq in let L := LinSearch in
  exists (inst : spinst R) (p0 : sp R (dtransf R)), spinst_new squares 10 = Ok inst /\ Forall (fun x => sound_item M (fst x)) squares /\ cfg_cells ex_cfg <> 0%nat /\
    sp_new inst 10 ex_cfg 0 = Ok p0 /\ packed squares (ly_bin (sp_layout p0)) [(0%nat, at_ 1 1); (0%nat, at_ 4 4)] /\
    ~ packed squares (ly_bin (sp_layout p0)) [(0%nat, at_ 4 4); (0%nat, at_ 5 5)] /\
    exists ops p, schecked_run true 1 (p0, []) ops /\ rfold (sstep true 1) ops (p0, []) = Ok (p, []) /\ length (placed (sp_layout p)) = 2%nat.
Proof. intros M HM N E L. exact (strip_reach_example M HM). Qed.
