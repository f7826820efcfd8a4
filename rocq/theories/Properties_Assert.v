(** Properties C63-C65: the checks compiled into debug builds ([debug_assert]) and the
    functions of util/assertions.rs behind them.  Functions named [.._d] are those of the
    debug build, their counterparts without the suffix those of the release build. *)
From Coq Require Import List Bool Arith ZArith QArith.
From Verif Require Import Base Num GeoModel HazardModel QTModel TransfModel HpgModel CdeModel CdeSpec
  PolyModel SlotMapModel LayoutModel ProblemModel ProblemSpec Instances GeoSpec PlaceSpec HpgSpec
  AssertModel AssertSpec AssertGridSpec AssertLayoutModel AssertLayoutSpec
  AssertRefProofs AssertProofs AssertLayoutProofs AssertGridProofs AssertThmProofs CdeExamples ProblemExamples AssertExamples HpgExampleProofs
  PlaceExampleProofs.
From Coq Require Import Reals Lra.
From Verif Require Import GeoModel HazardModel QTModel TransfModel HpgModel CdeModel CdeSpec GeoSpec PlaceSpec HpgSpec AssertModel AssertSpec AssertGridSpec.
Import ListNotations.
Local Open Scope nat_scope.

(** *** C63 *)
(** The checks have no effect but to abort, whatever the history. *)
Theorem C63_checks_only_abort :
  forall (F : Type) (N : Num F) (D : Type) (ED : EqD D) (BS : BSearch),
  (forall bb (sts : list (hazard F D)) d n ops s, engine_d bb sts d n ops = Ok s -> engine bb sts d n ops = Ok s) /\
  (forall s (o : op F D) s', step_d s o = Ok s' -> step s o = Ok s') /\
  (forall (c : cde F D) q t, ask_d c q = Ok t -> ask c q = Ok t) /\
  (forall (c : cde F D) k irr buf r, collect_d c k irr buf = Ok r -> collect c k irr buf = Ok r).
Proof. intros F N D ED BS. exact all_ref. Qed.
Print Assumptions C63_checks_only_abort.
(** They never abort in an engine without a proximity grid that is used as intended. *)
Theorem C63_engine_checks_never_fire :
  forall (F : Type) (N : Num F) (D : Type) (ED : EqD D) (BS : BSearch), bsearch_ok BS ->
  forall bb (sts : list (hazard F D)) depth ops, divides depth bb -> valid sts ops ->
  engine_d bb sts depth 0 ops = engine bb sts depth 0 ops.
Proof. intros F N D ED BS Hb. exact (debug_engine Hb). Qed.
Print Assumptions C63_engine_checks_never_fire.
Theorem C63_query_checks_never_fire :
  forall (F : Type) (N : Num F) (D : Type) (ED : EqD D) (BS : BSearch), bsearch_ok BS ->
  forall bb (sts : list (hazard F D)) depth n ops c sn, valid sts ops -> engine bb sts depth n ops = Ok (c, sn) ->
  (forall q, sized_question q -> ask_d c q = ask c q) /\ (forall k irr buf, collect_d c k irr buf = collect c k irr buf).
Proof. intros F N D ED BS Hb. exact (debug_queries Hb). Qed.
Print Assumptions C63_query_checks_never_fire.
(** in exact arithmetic every proper box can be subdivided to any depth *)
Theorem C63_boxes_divide :
  forall (M : R) depth (bb : rect R), proper bb -> @divides R (RNumT Reqb M) depth bb.
Proof. intros M. exact AssertRealProofs.proper_divides. Qed.
Print Assumptions C63_boxes_divide.
Example C63_example :
  divides 4 bin_box /\ valid [exterior] ops1 /\ is_ok (engine bin_box [exterior] 4 0 ops1) = true.
Proof. exact ex_engine_d. Qed.

(** *** C64 *)
(** Layouts without a proximity grid: the checks, which compare the quadtree with a
    freshly built one, never abort, provided snapshots are restored in their own bin. *)
Theorem C64_layout_checks_never_fire_partial :
  forall (F : Type) (N : Num F) (D : Type) (ED : EqD D) (BS : BSearch) (DC : DComp F D), bsearch_ok BS ->
  forall (cat : nat -> poly F) id b (ops : list (lop F D)), checked_bin b -> lops_ok cat (layout_new id b, []) ops -> Forall checked_op ops ->
  bins_kept (layout_new id b, []) ops ->
  rfold lstep_d ops (layout_new id b, []) = rfold lstep ops (layout_new id b, []) /\
  forall l sn, rfold lstep ops (layout_new id b, []) = Ok (l, sn) -> qt_matches_fresh l = Ok true.
Proof. intros F N D ED BS DC Hb cat. exact (debug_layout Hb cat). Qed.
Print Assumptions C64_layout_checks_never_fire_partial.
Example C64_example :
  checked_bin b0 /\ lops_ok xcat (layout_new 7 b0, []) ylops /\ Forall checked_op ylops /\ bins_kept (layout_new 7 b0, []) ylops /\
  rfold lstep ylops (layout_new 7 b0, []) = Ok (lrun ylops) /\ placed (fst (lrun ylops)) = [(0, 0)].
Proof. exact ex_layout_d. Qed.
(** Otherwise they do: the release build puts the items of the snapshot into the
    present bin. *)
Theorem C64_restore_in_other_bin :
  forall (F : Type) (N : Num F) (D : Type) (ED : EqD D) (BS : BSearch) (DC : DComp F D), bsearch_ok BS ->
  forall (cat : nat -> poly F) id b (ops : list (lop F D)) l sn k s,
  checked_bin b -> lops_ok cat (layout_new id b, []) ops -> Forall checked_op ops ->
  rfold lstep ops (layout_new id b, []) = Ok (l, sn) -> nth_error sn k = Some s -> bn_id (ly_bin l) <> bn_id (ls_bin s) ->
  lstep_d (l, sn) (LRestore k) = Panic /\
  exists l', lstep (l, sn) (LRestore k) = Ok (l', sn) /\ ly_bin l' = ly_bin l /\ ly_items l' = ls_items s.
Proof. intros F N D ED BS DC Hb cat. exact (debug_other_bin Hb cat). Qed.
Print Assumptions C64_restore_in_other_bin.
Theorem C64_layout_checks_never_fire_refuted :
  exists (cat : nat -> poly Q) id b (ops : list (lop Q nat)),
  checked_bin b /\ lops_ok cat (layout_new id b, []) ops /\ Forall checked_op ops /\
  (exists s, rfold lstep ops (layout_new id b, []) = Ok s) /\ rfold lstep_d ops (layout_new id b, []) = Panic.
Proof. exact (ex_intro _ xcat (ex_intro _ 7 (ex_intro _ b0 (ex_intro _ xlops restore_elsewhere)))). Qed.
Print Assumptions C64_layout_checks_never_fire_refuted.
(** An item placed a second time at the same spot, which the release build accepts (C39
    shows where that leads), is caught. *)
Theorem C64_duplicates_caught :
  forall (F : Type) (N : Num F) (D : Type) (ED : EqD D) (BS : BSearch) (DC : DComp F D), bsearch_ok BS ->
  forall (cat : nat -> poly F) id b (ops : list (lop F D)) l sn it d ptr, good_bin b -> lops_ok cat (layout_new id b, []) ops ->
  rfold lstep ops (layout_new id b, []) = Ok (l, sn) -> In (it_id it, d) (placed l) -> layout_place_d l it d ptr = Panic.
Proof. intros F N D ED BS DC Hb cat. exact (debug_twice Hb cat). Qed.
Print Assumptions C64_duplicates_caught.
Example C64_duplicates_example :
  (exists s, rfold lstep [LPlace i0 0 200; LPlace i0 0 201] (layout_new 7 b0, []) = Ok s) /\
  rfold lstep_d [LPlace i0 0 200; LPlace i0 0 201] (layout_new 7 b0, []) = Panic.
Proof. exact twice_d. Qed.

(** *** C65 *)
Local Open Scope R_scope.
Section Real.
  Variable M : R.
  #[local] Instance HA : Num R := RNumT Reqb M.
  (** With a proximity grid the debug build aborts exactly on the histories in which some
      registration leaves a cell behind. *)
  Theorem C65_fires_exactly_when_unsettled :
    forall (D : Type) (ED : EqD D) (BS : BSearch), bsearch_ok BS ->
    forall bb (sts : list (hazard R D)) depth n ops c0, n <> 0%nat -> proper bb -> sound_statics sts -> valid sts ops ->
    Forall grid_op ops -> Forall stout_op ops -> cde_new bb sts depth n = Ok c0 ->
    (engine_d bb sts depth n ops = engine bb sts depth n ops <-> settles (c0, []) ops) /\
    (engine_d bb sts depth n ops = Panic <-> ~ settles (c0, []) ops).
  Proof. intros D ED BS Hb. exact (debug_grid_iff Hb M). Qed.
  (** never in a grid without gaps *)
  Theorem C65_grid_checks_never_fire_partial :
    forall (D : Type) (ED : EqD D) (BS : BSearch), bsearch_ok BS ->
    forall bb (sts : list (hazard R D)) depth n ops c0, 0 <= M -> n <> 0%nat -> proper bb -> sound_statics sts -> valid sts ops ->
    Forall grid_op ops -> Forall stout_op ops -> Forall (centred_op bb) ops -> tidy ops false ->
    cde_new bb sts depth n = Ok c0 -> (forall g, cd_hpg c0 = Some g -> covered bb (hg_grid g)) ->
    exists s, engine_d bb sts depth n ops = Ok s /\ engine bb sts depth n ops = Ok s.
  Proof. intros D ED BS Hb. exact (debug_covered Hb M). Qed.
  (** nor in the grid of a rectangular bin *)
  Theorem C65_box_grid_checks_never_fire_partial :
    forall (D : Type) (ED : EqD D) (BS : BSearch), bsearch_ok BS ->
    forall bb rr (sts : list (hazard R D)) depth n ops c0, 0 <= M -> n <> 0%nat -> proper bb -> sub_box rr bb -> Forall static_hazard sts -> oblong_bin rr sts -> valid sts ops ->
    Forall grid_op ops -> Forall stout_op ops -> Forall (centred_op rr) ops -> tidy ops false ->
    cde_new bb sts depth n = Ok c0 -> 21 * r_area bb <= INR n * r_area rr ->
    exists s, engine_d bb sts depth n ops = Ok s /\ engine bb sts depth n ops = Ok s.
  Proof. intros D ED BS Hb. exact (debug_box Hb M). Qed.
  Section Refuted.
  #[local] Existing Instance NatEqD.
  #[local] Existing Instance LinSearch.
  (** the wall of missing cells of C32 *)
  Theorem C65_grid_checks_never_fire_refuted : 1 <= M ->
    exists (bb : rect R) (sts : list (hazard R nat)) (h : hazard R nat),
    proper bb /\ Forall static_hazard sts /\ sound_statics sts /\ valid sts [OReg h] /\ grid_op (OReg h) /\ centred_op bb (OReg h) /\
    feasible (a_obj (h_shape h)) [] (facts sts []) /\
    forall depth, (exists s, engine bb sts depth 74 [OReg h] = Ok s) /\ engine_d bb sts depth 74 [OReg h] = Panic.
  Proof. exact (gap_debug M). Qed.
  (** and the mixed removals of C30 and C32: a square bin, no holes, a grid without gaps *)
  Theorem C65_mixed_removals_refuted : 10 <= M ->
    exists (bb : rect R) (sts : list (hazard R nat)) (h1 h2 h3 : hazard R nat), let ops := [OReg h1; OReg h2; ODereg (h_ent h1) false; ODereg (h_ent h2) true; OReg h3] in
    proper bb /\ Forall static_hazard sts /\ sound_statics sts /\ framed bb (facts sts ops) /\ valid sts ops /\ Forall grid_op ops /\ Forall (centred_op bb) ops /\
    feasible (a_obj (h_shape h1)) [] (facts sts []) /\ feasible (a_obj (h_shape h2)) [] (facts sts [OReg h1]) /\ feasible (a_obj (h_shape h3)) [] (facts sts (firstn 4 ops)) /\
    forall depth, (exists c0, cde_new bb sts depth 400 = Ok c0 /\ forall g, cd_hpg c0 = Some g -> covered bb (hg_grid g)) /\
      (exists s, engine bb sts depth 400 ops = Ok s) /\ engine_d bb sts depth 400 ops = Panic.
  Proof. exact (mixed_debug M). Qed.
  End Refuted.
End Real.
Print Assumptions C65_fires_exactly_when_unsettled.
Print Assumptions C65_grid_checks_never_fire_partial.
Print Assumptions C65_box_grid_checks_never_fire_partial.
Print Assumptions C65_grid_checks_never_fire_refuted.
Print Assumptions C65_mixed_removals_refuted.
(** the remaining hypotheses are those of [grid_example_hypotheses] in Properties_Hpg.v; those of
    the theorem on rectangular bins are met by [box_example_hypotheses] there *)
Example C65_example : Forall (@stout_op nat) ex_ops /\ tidy ex_ops false.
Proof. exact ex_stout. Qed.
