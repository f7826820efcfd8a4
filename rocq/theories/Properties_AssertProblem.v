(** Properties C66 and C67: debug builds of the packing problems.  Functions named [.._d]
    are those of the debug build, their counterparts without the suffix those of the
    release build; overflow of the unsigned subtraction of quantities, which also aborts
    debug builds only, is the flag [true] of [bp_run], [sp_run] and [sp_restore]. *)
From Coq Require Import List Bool Arith ZArith QArith.
From Verif Require Import Base Num GeoModel HazardModel QTModel TransfModel HpgModel CdeModel CdeSpec
  PolyModel SlotMapModel LayoutModel ProblemModel ProblemSpec Instances
  AssertModel AssertSpec AssertLayoutModel AssertLayoutSpec AssertProblemModel AssertProblemSpec
  AssertProblemProofs AssertBlindProofs AssertStripRealProofs CdeExamples ProblemExamples AssertProblemExampleProofs.
From Coq Require Import Reals Lra.
From Verif Require Import GeoModel HazardModel QTModel TransfModel HpgModel CdeModel CdeSpec AssertModel AssertSpec.
Import ListNotations.
Local Open Scope nat_scope.

(** *** C66 *)
Theorem C66_bin_packing_checks_never_fire :
  forall (F : Type) (N : Num F) (D : Type) (ED : EqD D) (BS : BSearch) (DC : DComp F D), bsearch_ok BS ->
  forall (inst : bpinst F D) ops, checked_inst inst -> bops_ok true (bp_new inst, []) ops ->
  bp_run_d inst ops = bp_run true inst ops.
Proof. intros F N D ED BS DC Hb. exact (debug_bp Hb). Qed.
Print Assumptions C66_bin_packing_checks_never_fire.
Example C66_bp_example :
  checked_inst xinst /\ bops_ok true (bp_new xinst, []) yops /\
  exists s, bp_run true xinst yops = Ok s /\ map (fun l => placed l) (bp_layouts (fst s)) = [[(0, 0); (1, 80)]].
Proof. exact ex_bp_d. Qed.

Section Real.
  Variable M : R.
  #[local] Instance HB : Num R := RNumT Reqb M.
  Local Open Scope R_scope.
  Theorem C66_strip_packing_checks_never_fire :
    forall (D : Type) (ED : EqD D) (BS : BSearch) (DC : DComp R D), bsearch_ok BS ->
    forall (inst : spinst R) tol w c ptr (ops : list (sop R D)), good_sinst inst -> 0 <= tol -> 0 < w -> 0 < si_height inst -> cfg_cells c = 0%nat ->
    (forall p0, sp_new inst w c ptr = Ok p0 -> sops_ok true tol (p0, []) ops) -> Forall sized_strip ops ->
    sp_run_d tol inst w c ptr ops = sp_run true tol inst w c ptr ops.
  Proof. intros D ED BS DC Hb. exact (debug_sp M Hb). Qed.
  (** Nothing rejects a solution of another problem of the same instance, though its
      strip differs (C41 shows what the restored problem is then). *)
  Theorem C66_foreign_solutions_not_caught :
    forall (D : Type) (ED : EqD D) (BS : BSearch) (DC : DComp R D), bsearch_ok BS ->
    forall (inst : spinst R) tol w c ptr (ops : list (sop R D)) w' c' ptr' ops' p h p' h' s,
    good_sinst inst -> 0 <= tol -> 0 < w -> 0 < w' -> 0 < si_height inst -> cfg_cells c = 0%nat -> cfg_cells c' = 0%nat ->
    (forall p0, sp_new inst w c ptr = Ok p0 -> sops_ok true tol (p0, []) ops) -> Forall sized_strip ops ->
    (forall p0, sp_new inst w' c' ptr' = Ok p0 -> sops_ok true tol (p0, []) ops') -> Forall sized_strip ops' ->
    sp_run true tol inst w c ptr ops = Ok (p, h) -> sp_run true tol inst w' c' ptr' ops' = Ok (p', h') -> In s h' ->
    sp_restore_d p s = sp_restore true p s.
  Proof. intros D ED BS DC Hb. exact (debug_foreign M Hb). Qed.
  (** Strips of negative width are rejected by debug builds only; release builds take
      them for strips to the left of the origin. *)
  Theorem C66_negative_strips :
    forall (D : Type) (ED : EqD D) (BS : BSearch) (DC : DComp R D), bsearch_ok BS ->
    forall (inst : spinst R) w c ptr, w < 0 -> 0 < si_height inst -> cfg_cells c = 0%nat ->
    sp_new_d (D := D) inst w c ptr = Panic /\
    exists p : sp R D, sp_new inst w c ptr = Ok p /\ strip_bbox p = Rc w 0 0 (si_height inst).
  Proof. intros D ED BS DC Hb. exact (negative_strip M Hb). Qed.
  #[local] Existing Instance RTrig.
  Example C66_sp_example : 1 < M -> forall (ED : EqD (dtransf R)) (BS : BSearch), bsearch_ok BS ->
    forall tol, good_sinst (ex_strip M) /\ 0 < si_height (ex_strip M) /\ Forall sized_strip strip_ops /\
    exists p0, sp_new (ex_strip M) 10 (Cfg 3 0) 0 = Ok p0 /\ sops_ok true tol (p0, []) strip_ops /\
      exists p h, rfold (sstep true tol) (firstn 2 strip_ops) (p0, []) = Ok (p, h) /\ placed (sp_layout p) = [(0%nat, DT 0 4 4)].
  Proof. intros HM ED BS Hb. exact (ex_sp_d M HM Hb). Qed.
End Real.
Print Assumptions C66_strip_packing_checks_never_fire.
Print Assumptions C66_foreign_solutions_not_caught.
Print Assumptions C66_negative_strips.

(** *** C67 *)
(** What the comparison of a problem with a solution establishes. *)
Theorem C67_check_meaning :
  forall (F : Type) (N : Num F) (D : Type) (ED : EqD D) (ls : list (layout F D)) (s : solution F D),
  problem_matches ls s = Ok true <-> Forall (recorded_in s) ls.
Proof. intros F N D ED. exact matches_iff. Qed.
Print Assumptions C67_check_meaning.
(** It accepts a problem that has more items than the solution, *)
Theorem C67_more_items_accepted_refuted :
  forall (F : Type) (N : Num F) (D : Type) (ED : EqD D) (BS : BSearch) (DC : DComp F D), bsearch_ok BS ->
  forall (inst : bpinst F D) ops p h old s p1 i it d ptr r p2, checked_inst inst -> bops_ok true (bp_new inst, []) ops ->
  bp_run true inst ops = Ok (p, h) -> match old with Some s => In s h | None => True end -> bp_create p old = Ok (s, p1) ->
  bp_place p1 (PO (Real i) it d) ptr = Ok (r, p2) ->
  problem_matches (bp_layouts p2) s = Ok true /\
  exists l sn, nth_error (bp_layouts p2) i = Some l /\ find (fun x => Nat.eqb (ls_id x) (ly_id l)) (so_layouts s) = Some sn /\
    length (placed l) = S (length (snap_placed sn)).
Proof. intros F N D ED BS DC Hb. exact (blind_items Hb). Qed.
Print Assumptions C67_more_items_accepted_refuted.
(** or fewer layouts. *)
Theorem C67_fewer_layouts_accepted_refuted :
  forall (F : Type) (N : Num F) (D : Type) (ED : EqD D) (BS : BSearch) (DC : DComp F D), bsearch_ok BS ->
  forall (inst : bpinst F D) ops p h old s p1 i p2, checked_inst inst -> bops_ok true (bp_new inst, []) ops ->
  bp_run true inst ops = Ok (p, h) -> match old with Some s => In s h | None => True end -> bp_create p old = Ok (s, p1) ->
  bp_deregister_layout p1 (Real i) = Ok p2 ->
  problem_matches (bp_layouts p2) s = Ok true /\ S (length (bp_layouts p2)) = length (so_layouts s).
Proof. intros F N D ED BS DC Hb. exact (blind_layouts Hb). Qed.
Print Assumptions C67_fewer_layouts_accepted_refuted.
Example C67_example :
  exists p h s p1 r p2 p3, bp_run true xinst xops1 = Ok (p, h) /\ bp_create p None = Ok (s, p1) /\
  bp_place p1 (PO (Real 0) 1 80) 205 = Ok (r, p2) /\ bp_deregister_layout p1 (Real 0) = Ok p3.
Proof. exact ex_blind. Qed.
