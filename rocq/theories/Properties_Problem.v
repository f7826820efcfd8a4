(** Properties C33-C42 and C45 of layouts, bin packing and strip packing problems.  The
    vocabulary is that of [ProblemSpec]; the examples are the concrete problems of
    [ProblemExamples].  Theorems hold for every arithmetic [Num F] unless they are
    stated over the reals. *)
From Coq Require Import List Bool Arith ZArith QArith Reals Permutation.
From Verif Require Import Base Num GeoModel HazardModel QTModel TransfModel HpgModel CdeModel CdeSpec
  PolyModel SlotMapModel LayoutModel ProblemModel ProblemSpec Instances
  ProblemThmProofs KeyProofs MirrorProofs MirrorThmProofs UsageProofs FitProofs
  CdeExamples ProblemExamples StripExamples ProblemFinalProofs.
Import ListNotations.
Local Open Scope nat_scope.
#[local] Existing Instance RNum.

(** *** C33 *)
Theorem C33_bp_demand_exact :
  forall (F : Type) (N : Num F) (D : Type) (ED : EqD D) (BS : BSearch) (DC : DComp F D)
    items bins (inst : bpinst F D) ovf ops (p : bp F D) h i it q,
  bpinst_new items bins = Ok inst -> bp_run ovf inst ops = Ok (p, h) -> nth_error items i = Some (it, q) ->
  nth_error (bp_missing p) i = Some (Z.of_nat q - Z.of_nat (copies i (bp_layouts p)))%Z.
Proof. intros F N D ED BS DC. exact bp_demand. Qed.
Print Assumptions C33_bp_demand_exact.
Theorem C33_sp_demand_exact :
  forall (F : Type) (N : Num F) (D : Type) (ED : EqD D) (BS : BSearch) (DC : DComp F D)
    items hgt (inst : spinst F) ovf tol w c ptr ops (p : sp F D) h i it q,
  spinst_new items hgt = Ok inst -> sp_run ovf tol inst w c ptr ops = Ok (p, h) ->
  nth_error items i = Some (it, q) ->
  nth_error (sp_missing p) i = Some (Z.of_nat q - Z.of_nat (copies i [sp_layout p]))%Z.
Proof. intros F N D ED BS DC. exact sp_demand. Qed.
Print Assumptions C33_sp_demand_exact.
Example C33_example :
  bpinst_new xitems xbins = Ok xinst /\ bp_run false xinst (xops1 ++ xops2) = Ok (xrun (xops1 ++ xops2)) /\
  bfacts (xrun (xops1 ++ xops2)) = ([(4, 1, [(0, 17)]); (5, 0, [(1, 33)])], [1; 0]%Z, [1; 0]).
Proof. exact (conj xinst_new ex_bp2). Qed.
Example C33_sp_example :
  spinst_new zitems (fx 8) = Ok zinst /\
  zstrip (zops1 ++ zops2) = Ok (zrun (zops1 ++ zops2)) /\
  sfacts (zrun (zops1 ++ zops2)) = ([(1, 50)], [2; 0]%Z, Rc 0%Z 0%Z (fx 8) (fx 8), 0).
Proof. exact (conj zinst_new ex_sp2). Qed.

(** *** C34 *)
Theorem C34_stock_exact :
  forall (F : Type) (N : Num F) (D : Type) (ED : EqD D) (BS : BSearch) (DC : DComp F D)
    items bins (inst : bpinst F D) ovf ops (p : bp F D) h b x n,
  bpinst_new items bins = Ok inst -> bp_run ovf inst ops = Ok (p, h) -> nth_error bins b = Some (x, n) ->
  exists a, nth_error (bp_bins p) b = Some a /\ a + open_of b (bp_layouts p) = n.
Proof. intros F N D ED BS DC. exact bp_stock. Qed.
Print Assumptions C34_stock_exact.
Theorem C34_out_of_stock_refused :
  forall (F : Type) (N : Num F) (D : Type) (ED : EqD D) (BS : BSearch) (DC : DComp F D)
    items bins (inst : bpinst F D) ovf ops (p : bp F D) h t i d ptr,
  bpinst_new items bins = Ok inst -> bp_run ovf inst ops = Ok (p, h) -> nth_error (bp_bins p) t = Some 0 ->
  bp_place p (PO (Template t) i d) ptr = Panic.
Proof. intros F N D ED BS DC. exact bp_refused. Qed.
Print Assumptions C34_out_of_stock_refused.
Theorem C34_no_empty_layout :
  forall (F : Type) (N : Num F) (D : Type) (ED : EqD D) (BS : BSearch) (DC : DComp F D)
    items bins (inst : bpinst F D) ovf ops (p : bp F D) h l,
  bpinst_new items bins = Ok inst -> bp_run ovf inst ops = Ok (p, h) -> In l (bp_layouts p) -> placed l <> [].
Proof. intros F N D ED BS DC. exact bp_no_empty. Qed.
Print Assumptions C34_no_empty_layout.
Example C34_example :
  bp_run false xinst xops1 = Ok (xrun xops1) /\
  bfacts (xrun xops1) = ([(3, 0, [(0, 0)]); (4, 1, [(0, 17)])], [0; 1]%Z, [1; 0]).
Proof. exact ex_bp1. Qed.

(** *** C35 *)
Theorem C35_bp_state_restored :
  forall (F : Type) (N : Num F) (D : Type) (ED : EqD D) (BS : BSearch) (DC : DComp F D)
    items bins (inst : bpinst F D) ovf ops1 o ops2 (p1 : bp F D) h1 p2 h2,
  bpinst_new items bins = Ok inst ->
  bp_run ovf inst (ops1 ++ [BCreate o]) = Ok (p1, h1) ->
  bp_run ovf inst (ops1 ++ [BCreate o] ++ ops2 ++ [BRestore (length h1 - 1)]) = Ok (p2, h2) ->
  bp_missing p2 = bp_missing p1 /\ bp_bins p2 = bp_bins p1 /\
  Permutation (map content (bp_layouts p2)) (map content (bp_layouts p1)).
Proof. intros F N D ED BS DC. exact bp_restored. Qed.
Print Assumptions C35_bp_state_restored.
Theorem C35_sp_state_restored :
  forall (F : Type) (N : Num F) (D : Type) (ED : EqD D) (BS : BSearch) (DC : DComp F D)
    items hgt (inst : spinst F) ovf tol w c ptr ops1 ops2 (p1 : sp F D) h1 p2 h2,
  spinst_new items hgt = Ok inst ->
  sp_run ovf tol inst w c ptr (ops1 ++ [SCreate]) = Ok (p1, h1) ->
  sp_run ovf tol inst w c ptr (ops1 ++ [SCreate] ++ ops2 ++ [SRestore (length h1 - 1)]) = Ok (p2, h2) ->
  sp_missing p2 = sp_missing p1 /\ content (sp_layout p2) = content (sp_layout p1).
Proof. intros F N D ED BS DC. exact sp_restored. Qed.
Print Assumptions C35_sp_state_restored.
(** the engines answer every question as they did *)
Theorem C35_bp_answers_restored :
  forall (F : Type) (N : Num F) (D : Type) (ED : EqD D) (BS : BSearch) (DC : DComp F D), bsearch_ok BS ->
  forall (inst : bpinst F D) ovf ops1 o ops2 (p1 : bp F D) h1 p2 h2,
  good_inst inst ->
  bops_ok ovf (bp_new inst, []) (ops1 ++ [BCreate o] ++ ops2 ++ [BRestore (length h1 - 1)]) ->
  bp_run ovf inst (ops1 ++ [BCreate o]) = Ok (p1, h1) ->
  bp_run ovf inst (ops1 ++ [BCreate o] ++ ops2 ++ [BRestore (length h1 - 1)]) = Ok (p2, h2) ->
  forall l1, In l1 (bp_layouts p1) -> exists l2, In l2 (bp_layouts p2) /\ content l2 = content l1 /\
    forall q, good_question q -> exists t, ask (ly_cde l1) q = Ok t /\ ask (ly_cde l2) q = Ok t.
Proof. intros F N D ED BS DC Hb. exact (bp_restored_answers Hb). Qed.
Print Assumptions C35_bp_answers_restored.
Theorem C35_sp_answers_restored :
  forall (F : Type) (N : Num F) (D : Type) (ED : EqD D) (BS : BSearch) (DC : DComp F D), bsearch_ok BS ->
  @feq_sym F N ->
  forall (inst : spinst F) ovf tol w c ptr ops1 ops2 (p0 p1 : sp F D) h1 p2 h2,
  good_sinst inst -> sp_new inst w c ptr = Ok p0 ->
  sops_ok ovf tol (p0, []) (ops1 ++ [SCreate] ++ ops2 ++ [SRestore (length h1 - 1)]) ->
  sp_run ovf tol inst w c ptr (ops1 ++ [SCreate]) = Ok (p1, h1) ->
  sp_run ovf tol inst w c ptr (ops1 ++ [SCreate] ++ ops2 ++ [SRestore (length h1 - 1)]) = Ok (p2, h2) ->
  forall q, good_question q ->
    exists t, ask (ly_cde (sp_layout p1)) q = Ok t /\ ask (ly_cde (sp_layout p2)) q = Ok t.
Proof. intros F N D ED BS DC Hb Hs. exact (sp_restored_answers Hb Hs). Qed.
Print Assumptions C35_sp_answers_restored.
Example C35_example :
  good_inst xinst /\
  bops_ok false (bp_new xinst, []) (xops1 ++ [BCreate None] ++ xops3 ++ [BRestore 1]) /\
  bp_run false xinst (xops1 ++ [BCreate None]) = Ok (xrun (xops1 ++ [BCreate None])) /\
  length (snd (xrun (xops1 ++ [BCreate None]))) = 2 /\
  bp_run false xinst (xops1 ++ [BCreate None] ++ xops3 ++ [BRestore 1]) =
    Ok (xrun (xops1 ++ [BCreate None] ++ xops3 ++ [BRestore 1])) /\
  bfacts (xrun (xops1 ++ [BCreate None] ++ xops3 ++ [BRestore 1])) =
    ([(3, 0, [(0, 0)]); (4, 1, [(0, 17)])], [0; 1]%Z, [1; 0]).
Proof. exact ex_restore_bp. Qed.
Example C35_sp_example :
  good_sinst zinst /\ sp_new zinst (fx 12) (Cfg 2 0) 300 = Ok (zsp0 12) /\
  sops_ok false ztol (zsp0 12, []) (zops1 ++ [SCreate] ++ zops2 ++ [SRestore 0]) /\
  (zstrip (zops1 ++ [SCreate]) = Ok (zrun (zops1 ++ [SCreate])) /\
   sfacts (zrun (zops1 ++ [SCreate])) =
     ([(0, 0); (1, 50); (0, 6)], [0; 0]%Z, Rc 0%Z 0%Z (fx 12) (fx 8), 1)) /\
  zstrip (zops1 ++ [SCreate] ++ zops2 ++ [SRestore 0]) = Ok (zrun (zops1 ++ [SCreate] ++ zops2 ++ [SRestore 0])) /\
  sfacts (zrun (zops1 ++ [SCreate] ++ zops2 ++ [SRestore 0])) =
    ([(0, 0); (1, 50); (0, 6)], [0; 0]%Z, Rc 0%Z 0%Z (fx 12) (fx 8), 1).
Proof. exact ex_restore_sp. Qed.
(** builds with overflow checks panic when more copies are placed than demanded *)
Theorem C35_restore_refuted : exists (inst : bpinst Q nat) ops,
  good_inst inst /\ bops_ok true (bp_new inst, []) (ops ++ [BCreate None; BRestore 0]) /\
  is_ok (bp_run true inst (ops ++ [BCreate None])) = true /\
  bp_run true inst (ops ++ [BCreate None; BRestore 0]) = Panic.
Proof.
  exact (ex_intro _ xinst (ex_intro _ [BPlace (PO (Template 0) 1 0) 200; BPlace (PO (Real 0) 1 80) 201]
           (conj xinst_good over_panics))).
Qed.
Print Assumptions C35_restore_refuted.

(** *** C36 *)
Theorem C36_incremental_equals_full :
  forall (F : Type) (N : Num F) (D : Type) (ED : EqD D) (BS : BSearch) (DC : DComp F D)
    items bins (inst : bpinst F D) ovf ops (p : bp F D) h s s1 p1 s2 p2,
  bpinst_new items bins = Ok inst -> bp_run ovf inst ops = Ok (p, h) -> In s h ->
  bp_create p None = Ok (s1, p1) -> bp_create p (Some s) = Ok (s2, p2) ->
  map snap_content (so_layouts s2) = map snap_content (so_layouts s1) /\
  map (@ls_usage F D) (so_layouts s2) = map (@ls_usage F D) (so_layouts s1) /\
  so_id s2 = so_id s1 /\ so_usage s2 = so_usage s1 /\ so_placed s2 = so_placed s1 /\
  so_target s2 = so_target s1 /\ so_bins s2 = so_bins s1.
Proof. intros F N D ED BS DC. exact bp_incremental. Qed.
Print Assumptions C36_incremental_equals_full.
(** and it succeeds whenever the given solution is the reference *)
Theorem C36_incremental_succeeds :
  forall (F : Type) (N : Num F) (D : Type) (ED : EqD D) (BS : BSearch) (DC : DComp F D)
    items bins (inst : bpinst F D) ovf ops (p : bp F D) h s s1 p1,
  bpinst_new items bins = Ok inst -> bp_run ovf inst ops = Ok (p, h) -> In s h -> bp_ref p = Some (so_id s) ->
  bp_create p None = Ok (s1, p1) -> exists s2 p2, bp_create p (Some s) = Ok (s2, p2).
Proof. intros F N D ED BS DC. exact bp_incremental_total. Qed.
Print Assumptions C36_incremental_succeeds.
Example C36_example :
  In inc_s (snd (xrun (xops1 ++ [BFlush]))) /\ bp_ref inc_p = Some (so_id inc_s) /\
  bp_create inc_p None = Ok (fst inc1, snd inc1) /\ bp_create inc_p (Some inc_s) = Ok (fst inc2, snd inc2) /\
  map (@snap_placed Q nat) (so_layouts (fst inc2)) = [[(0, 0)]; [(0, 17)]].
Proof. exact ex_incremental. Qed.

(** *** C37 *)
Theorem C37_ids_distinct :
  forall (F : Type) (N : Num F) (D : Type) (ED : EqD D) (BS : BSearch) (DC : DComp F D)
    items bins (inst : bpinst F D) ovf ops (p : bp F D) h,
  bpinst_new items bins = Ok inst -> bp_run ovf inst ops = Ok (p, h) ->
  NoDup (map (@ly_id F D) (bp_layouts p)) /\ NoDup (map (@so_id F D) h) /\
  Forall (fun s => NoDup (map (@ls_id F D) (so_layouts s))) h.
Proof. intros F N D ED BS DC. exact bp_ids. Qed.
Print Assumptions C37_ids_distinct.
(** a layout that is opened gets an identifier that no layout had in any earlier state
    nor in any solution created so far *)
Theorem C37_layout_id_fresh :
  forall (F : Type) (N : Num F) (D : Type) (ED : EqD D) (BS : BSearch) (DC : DComp F D)
    items bins (inst : bpinst F D) ovf ops1 ops2 (p1 : bp F D) h1 p h t i d ptr r p',
  bpinst_new items bins = Ok inst ->
  bp_run ovf inst ops1 = Ok (p1, h1) -> bp_run ovf inst (ops1 ++ ops2) = Ok (p, h) ->
  bp_place p (PO (Template t) i d) ptr = Ok (r, p') ->
  exists l, In l (bp_layouts p') /\ placed l = [(i, d)] /\
    ~ In (ly_id l) (map (@ly_id F D) (bp_templates p1 ++ bp_layouts p1)) /\
    ~ In (ly_id l) (flat_map (fun s => map (@ls_id F D) (so_layouts s)) h).
Proof. intros F N D ED BS DC. exact bp_fresh. Qed.
Print Assumptions C37_layout_id_fresh.
Theorem C37_solution_id_fresh :
  forall (F : Type) (N : Num F) (D : Type) (ED : EqD D) (BS : BSearch) (DC : DComp F D)
    items bins (inst : bpinst F D) ovf ops (p : bp F D) h old s p',
  bpinst_new items bins = Ok inst -> bp_run ovf inst ops = Ok (p, h) -> bp_create p old = Ok (s, p') ->
  ~ In (so_id s) (map (@so_id F D) h).
Proof. intros F N D ED BS DC. exact bp_fresh_sol. Qed.
Print Assumptions C37_solution_id_fresh.
Theorem C37_sp_solution_ids_distinct :
  forall (F : Type) (N : Num F) (D : Type) (ED : EqD D) (BS : BSearch) (DC : DComp F D)
    items hgt (inst : spinst F) ovf tol w c ptr ops (p : sp F D) h,
  spinst_new items hgt = Ok inst -> sp_run ovf tol inst w c ptr ops = Ok (p, h) -> NoDup (map (@so_id F D) h).
Proof. intros F N D ED BS DC. exact sp_ids. Qed.
Print Assumptions C37_sp_solution_ids_distinct.
Theorem C37_sp_layout_id_fresh :
  forall (F : Type) (N : Num F) (D : Type) (ED : EqD D) (BS : BSearch) (DC : DComp F D)
    items hgt (inst : spinst F) ovf tol w c ptr0 ops (p : sp F D) h r ptr p',
  spinst_new items hgt = Ok inst -> sp_run ovf tol inst w c ptr0 ops = Ok (p, h) ->
  modify_strip p r ptr = Ok p' ->
  ~ In (ly_id (sp_layout p')) (ly_id (sp_layout p) :: flat_map (fun s => map (@ls_id F D) (so_layouts s)) h).
Proof. intros F N D ED BS DC. exact sp_fresh. Qed.
Print Assumptions C37_sp_layout_id_fresh.
Example C37_example :
  map (@ly_id Q nat) (bp_layouts (fst (xrun (xops1 ++ xops2)))) = [4; 5] /\
  map (@so_id Q nat) (snd (xrun (xops1 ++ xops2))) = [1; 2; 3] /\
  exists r p', bp_place (fst (xrun (xops1 ++ xops2))) (PO (Template 0) 0 0) 210 = Ok (r, p') /\
    map (@ly_id Q nat) (bp_layouts p') = [4; 5; 6].
Proof. exact ex_ids. Qed.

(** *** C38: refuted when the layout is closed with its last item *)
Theorem C38_refuted : exists (inst : bpinst Q nat) ops p h li k o p1,
  good_inst inst /\ bp_run false inst ops = Ok (p, h) /\ bp_remove p li k true = Ok (o, p1) /\
  forall ptr, bp_place p1 o ptr = Panic.
Proof. exact undo_refuted. Qed.
Print Assumptions C38_refuted.
Theorem C38_wrong_layout_refuted : exists (inst : bpinst Q nat) ops p h li k o p1 r p2,
  good_inst inst /\ bp_run false inst ops = Ok (p, h) /\ bp_remove p li k true = Ok (o, p1) /\
  bp_place p1 o 202 = Ok (r, p2) /\
  ~ Permutation (map (fun l => (bn_id (ly_bin l), placed l)) (bp_layouts p2))
                (map (fun l => (bn_id (ly_bin l), placed l)) (bp_layouts p)) /\
  bp_bins p2 <> bp_bins p.
Proof. exact undo_wrong_layout. Qed.
Print Assumptions C38_wrong_layout_refuted.
(** it holds when the layout keeps an item *)
Theorem C38_undo_removal_partial :
  forall (F : Type) (N : Num F) (D : Type) (ED : EqD D) (BS : BSearch) (DC : DComp F D)
    items bins (inst : bpinst F D) ovf ops (p : bp F D) h i k b o p1 ptr r p2,
  bpinst_new items bins = Ok inst -> bp_run ovf inst ops = Ok (p, h) ->
  bp_remove p (Real i) k b = Ok (o, p1) -> length (bp_layouts p1) = length (bp_layouts p) ->
  bp_place p1 o ptr = Ok (r, p2) ->
  bp_missing p2 = bp_missing p /\ bp_bins p2 = bp_bins p /\
  exists a l l2 c, bp_layouts p = a ++ l :: c /\ bp_layouts p2 = a ++ l2 :: c /\ length a = i /\
    ly_id l2 = ly_id l /\ ly_bin l2 = ly_bin l /\ Permutation (placed l2) (placed l).
Proof. intros F N D ED BS DC. exact bp_undo. Qed.
Print Assumptions C38_undo_removal_partial.
Theorem C38_sp_undo_removal :
  forall (F : Type) (N : Num F) (D : Type) (ED : EqD D) (BS : BSearch) (DC : DComp F D)
    items hgt (inst : spinst F) ovf tol w c ptr0 ops (p : sp F D) h k b o p1 ptr r p2,
  spinst_new items hgt = Ok inst -> sp_run ovf tol inst w c ptr0 ops = Ok (p, h) ->
  sp_remove p (Real 0) k b = Ok (o, p1) -> sp_place p1 o ptr = Ok (r, p2) ->
  sp_missing p2 = sp_missing p /\ ly_id (sp_layout p2) = ly_id (sp_layout p) /\
  ly_bin (sp_layout p2) = ly_bin (sp_layout p) /\
  Permutation (placed (sp_layout p2)) (placed (sp_layout p)).
Proof. intros F N D ED BS DC. exact sp_undo. Qed.
Print Assumptions C38_sp_undo_removal.
Example C38_example :
  bp_run false xinst xops4 = Ok (xrun xops4) /\
  bp_remove (fst (xrun xops4)) (Real 0) (1, 1) true = Ok (xrem xops4 (Real 0) (1, 1)) /\
  length (bp_layouts (snd (xrem xops4 (Real 0) (1, 1)))) = length (bp_layouts (fst (xrun xops4))) /\
  is_ok (bp_place (snd (xrem xops4 (Real 0) (1, 1))) (fst (xrem xops4 (Real 0) (1, 1))) 202) = true.
Proof. exact ex_undo. Qed.

(** *** C39 *)
Theorem C39_layout_mirrored :
  forall (F : Type) (N : Num F) (D : Type) (ED : EqD D) (BS : BSearch) (DC : DComp F D), bsearch_ok BS ->
  forall cat id b ops (l : layout F D) sn, good_bin b ->
  lops_ok cat (layout_new id b, []) ops -> rfold lstep ops (layout_new id b, []) = Ok (l, sn) -> mirrored cat l.
Proof. intros F N D ED BS DC. exact lay_mirror. Qed.
Print Assumptions C39_layout_mirrored.
Theorem C39_bp_layouts_mirrored :
  forall (F : Type) (N : Num F) (D : Type) (ED : EqD D) (BS : BSearch) (DC : DComp F D), bsearch_ok BS ->
  forall (inst : bpinst F D) ovf ops (p : bp F D) h, good_inst inst -> bops_ok ovf (bp_new inst, []) ops ->
  bp_run ovf inst ops = Ok (p, h) -> Forall (mirrored (item_shape (bi_items inst))) (bp_layouts p).
Proof. intros F N D ED BS DC Hb. exact (bp_mirror Hb). Qed.
Print Assumptions C39_bp_layouts_mirrored.
Theorem C39_sp_layout_mirrored :
  forall (F : Type) (N : Num F) (D : Type) (ED : EqD D) (BS : BSearch) (DC : DComp F D), bsearch_ok BS ->
  @feq_sym F N ->
  forall (inst : spinst F) ovf tol w c ptr ops (p0 p : sp F D) h, good_sinst inst ->
  sp_new inst w c ptr = Ok p0 -> sops_ok ovf tol (p0, []) ops ->
  rfold (sstep ovf tol) ops (p0, []) = Ok (p, h) -> mirrored (item_shape (si_items inst)) (sp_layout p).
Proof. intros F N D ED BS DC Hb Hs. exact (sp_mirror Hb Hs). Qed.
Print Assumptions C39_sp_layout_mirrored.
Example C39_example :
  good_bin b0 /\ lops_ok xcat (layout_new 7 b0, []) xlops /\
  rfold lstep xlops (layout_new 7 b0, []) = Ok (lrun xlops) /\
  placed (fst (lrun xlops)) = [(0, 0); (1, 80)] /\
  map (@h_ent Q nat) (cd_dyn (ly_cde (fst (lrun xlops)))) = [PlacedItem 0 0; PlacedItem 1 80].
Proof. exact ex_mirror. Qed.
(** without the precondition that an item is not placed twice at one spot, which the
    code only asserts in debug builds *)
Theorem C39_duplicate_refuted : 
  rfold lstep [LPlace i0 0 200; LPlace i0 0 201; LRemove (1, 1) true] (layout_new 7 b0, []) =
    Ok (lrun [LPlace i0 0 200; LPlace i0 0 201; LRemove (1, 1) true]) /\
  placed (fst (lrun [LPlace i0 0 200; LPlace i0 0 201; LRemove (1, 1) true])) = [(0, 0)] /\
  poly_collides (ly_cde (fst (lrun [LPlace i0 0 200; LPlace i0 0 201; LRemove (1, 1) true])))
    (shape_at xcat 1 1) [] = Panic.
Proof. exact duplicate_panics. Qed.
Print Assumptions C39_duplicate_refuted.

(** *** C40 *)
Theorem C40_resize_keeps_what_fits :
  forall (F : Type) (N : Num F) (D : Type) (ED : EqD D) (BS : BSearch) (DC : DComp F D), bsearch_ok BS ->
  @feq_sym F N ->
  forall (inst : spinst F) ovf tol w c ptr0 ops (p0 p : sp F D) h r ptr p',
  good_sinst inst -> sp_new inst w c ptr0 = Ok p0 -> sops_ok ovf tol (p0, []) ops ->
  sp_run ovf tol inst w c ptr0 ops = Ok (p, h) -> modify_strip p r ptr = Ok p' ->
  exists b keep, bin_from_strip r (bn_cfg (ly_bin (sp_layout p))) ptr = Ok b /\ ly_bin (sp_layout p') = b /\
    Permutation (placed (sp_layout p')) (filter keep (placed (sp_layout p))) /\
    (forall x, In x (placed (sp_layout p)) ->
      poly_collides (bn_cde b) (shape_at (item_shape (si_items inst)) (fst x) (snd x)) [] = Ok (negb (keep x))) /\
    forall i it q, nth_error (si_items inst) i = Some (it, q) ->
      nth_error (sp_missing p') i = Some (Z.of_nat q - Z.of_nat (copies i [sp_layout p']))%Z.
Proof. intros F N D ED BS DC Hb Hs. exact (sp_modify Hb Hs). Qed.
Print Assumptions C40_resize_keeps_what_fits.
Theorem C40_fit_drops_none :
  forall (F : Type) (N : Num F) (D : Type) (ED : EqD D) (BS : BSearch) (DC : DComp F D), bsearch_ok BS ->
  @feq_sym F N ->
  forall (inst : spinst F) ovf tol w c ptr0 ops (p0 p : sp F D) h ptr p',
  good_sinst inst -> sp_new inst w c ptr0 = Ok p0 -> sops_ok ovf tol (p0, []) ops ->
  sp_run ovf tol inst w c ptr0 ops = Ok (p, h) -> fit_strip tol p ptr = Ok p' ->
  Permutation (placed (sp_layout p')) (placed (sp_layout p)).
Proof. intros F N D ED BS DC Hb Hs. exact (sp_fit Hb Hs). Qed.
Print Assumptions C40_fit_drops_none.
(** in exact arithmetic: the width of the new strip *)
Theorem C40_fit_width :
  forall (D : Type) (ED : EqD D) (BS : BSearch) (DC : DComp R D), bsearch_ok BS ->
  forall (inst : spinst R) ovf tol w c ptr0 ops (p0 p : sp R D) h ptr p',
  good_sinst inst -> sp_new inst w c ptr0 = Ok p0 -> sops_ok (N := RNum) ovf tol (p0, []) ops ->
  sp_run ovf tol inst w c ptr0 ops = Ok (p, h) -> (0 <= tol)%R -> fit_strip tol p ptr = Ok p' ->
  (x_max (strip_bbox p') - x_min (strip_bbox p') = occupied_width (sp_layout p) * (1 + tol))%R.
Proof. intros D ED BS DC. exact sp_fit_width. Qed.
Print Assumptions C40_fit_width.
Theorem C40_back_width :
  forall (D : Type) (ED : EqD D) (BS : BSearch) (DC : DComp R D) (p p' : sp R D) w ptr, (0 <= w)%R ->
  modify_strip_in_back (N := RNum) p w ptr = Ok p' ->
  (x_min (strip_bbox p') = x_min (strip_bbox p) /\ x_max (strip_bbox p') - x_min (strip_bbox p') = w)%R.
Proof. intros D ED BS DC. exact back_width. Qed.
Print Assumptions C40_back_width.
Theorem C40_front_width :
  forall (D : Type) (ED : EqD D) (BS : BSearch) (DC : DComp R D) (p p' : sp R D) w ptr, (0 <= w)%R ->
  modify_strip_at_front (N := RNum) p w ptr = Ok p' ->
  (x_max (strip_bbox p') = x_max (strip_bbox p) /\ x_max (strip_bbox p') - x_min (strip_bbox p') = w)%R.
Proof. intros D ED BS DC. exact front_width. Qed.
Print Assumptions C40_front_width.
Theorem C40_centered_width :
  forall (D : Type) (ED : EqD D) (BS : BSearch) (DC : DComp R D) (p p' : sp R D) w ptr, (0 <= w)%R ->
  modify_strip_centered (N := RNum) p w ptr = Ok p' ->
  (x_max (strip_bbox p') - x_min (strip_bbox p') = w)%R.
Proof. intros D ED BS DC. exact centered_width. Qed.
Print Assumptions C40_centered_width.
Example C40_example :
  good_sinst zinst /\ sp_new zinst (fx 12) (Cfg 2 0) 300 = Ok (zsp0 12) /\
  sops_ok false ztol (zsp0 12, []) zops1 /\
  (zstrip zops1 = Ok (zrun zops1) /\ occupied_width (sp_layout (fst (zrun zops1))) = fx 8) /\
  (exists p', modify_strip (fst (zrun zops1)) (Rc 0 0 (fx 8) (fx 8))%Z 320 = Ok p' /\
    sfacts (p', []) = ([(0, 0); (1, 50)], [1; 0]%Z, Rc 0%Z 0%Z (fx 8) (fx 8), 0)) /\
  (exists p', fit_strip ztol (fst (zrun zops1)) 320 = Ok p' /\
    sfacts (p', []) = ([(0, 0); (1, 50); (0, 6)], [0; 0]%Z, Rc 12%Z 0%Z 148%Z (fx 8), 0)).
Proof. exact ex_resize. Qed.
(** fitting a strip without items panics *)
Theorem C40_fit_empty_refuted :
  sp_new zinst (fx 12) (Cfg 2 0) 300 = Ok (zsp0 12) /\ fit_strip ztol (zsp0 12) 320 = Panic.
Proof. exact (conj zsp0_ok fit_empty_panics). Qed.
Print Assumptions C40_fit_empty_refuted.

(** *** C41: refuted for solutions of another problem of the same instance *)
Theorem C41_refuted :
  sp_new zinst (fx 12) (Cfg 2 0) 300 = Ok (zsp0 12) /\ sp_new zinst (fx 8) (Cfg 2 0) 300 = Ok (zsp0 8) /\
  (exists q, sp_create (zsp0 8) = Ok (foreign, q)) /\
  exists p', sp_restore true (zsp0 12) foreign = Ok p' /\
    map (fun s => p_bbox (a_obj (bn_outer (ls_bin s)))) (so_layouts foreign) = [Rc 0%Z 0%Z (fx 8) (fx 8)] /\
    strip_bbox p' = Rc 0%Z 0%Z (fx 12) (fx 8).
Proof. exact foreign_strip. Qed.
Print Assumptions C41_refuted.
(** it holds for solutions created by the problem itself *)
Theorem C41_own_solution_partial :
  forall (F : Type) (N : Num F) (D : Type) (ED : EqD D) (BS : BSearch) (DC : DComp F D)
    items hgt (inst : spinst F) ovf ovf' tol w c ptr ops (p : sp F D) h s p',
  spinst_new items hgt = Ok inst -> sp_run ovf tol inst w c ptr ops = Ok (p, h) -> In s h ->
  sp_restore ovf' p s = Ok p' -> map (@ls_bin F D) (so_layouts s) = [ly_bin (sp_layout p')].
Proof. intros F N D ED BS DC. exact sp_own_strip. Qed.
Print Assumptions C41_own_solution_partial.

(** *** C42 *)
Theorem C42_bp_figures :
  forall (F : Type) (N : Num F) (D : Type) (ED : EqD D) (BS : BSearch) (DC : DComp F D)
    items bins (inst : bpinst F D) ovf ops (p : bp F D) h s,
  bpinst_new items bins = Ok inst -> bp_run ovf inst ops = Ok (p, h) -> In s h ->
  (exists b, is_complete s items = Ok b /\
    (b = true <-> forall i it q, nth_error items i = Some (it, q) -> q <= count i (sol_items s))) /\
  (exists m, sol_missing s items = Ok m /\ length m = length items /\
    forall i it q, nth_error items i = Some (it, q) ->
      nth_error m i = Some (Z.of_nat q - Z.of_nat (count i (sol_items s)))%Z) /\
  n_items_placed s = Z.of_nat (length (sol_items s)).
Proof. intros F N D ED BS DC. exact bp_figures. Qed.
Print Assumptions C42_bp_figures.
Theorem C42_sp_figures :
  forall (F : Type) (N : Num F) (D : Type) (ED : EqD D) (BS : BSearch) (DC : DComp F D)
    items hgt (inst : spinst F) ovf tol w c ptr ops (p : sp F D) h s,
  spinst_new items hgt = Ok inst -> sp_run ovf tol inst w c ptr ops = Ok (p, h) -> In s h ->
  (exists b, is_complete s items = Ok b /\
    (b = true <-> forall i it q, nth_error items i = Some (it, q) -> q <= count i (sol_items s))) /\
  (exists m, sol_missing s items = Ok m /\ length m = length items /\
    forall i it q, nth_error items i = Some (it, q) ->
      nth_error m i = Some (Z.of_nat q - Z.of_nat (count i (sol_items s)))%Z) /\
  n_items_placed s = Z.of_nat (length (sol_items s)).
Proof. intros F N D ED BS DC. exact sp_figures. Qed.
Print Assumptions C42_sp_figures.
(** in exact arithmetic *)
Theorem C42_bp_usage :
  forall (D : Type) (ED : EqD D) (BS : BSearch) (DC : DComp R D)
    items bins (inst : bpinst R D) ovf ops (p : bp R D) h old s p',
  bpinst_new (N := RNum) items bins = Ok inst -> bp_run ovf inst ops = Ok (p, h) ->
  match old with Some s => In s h | None => True end -> bp_create p old = Ok (s, p') ->
  Forall (fun l => bn_area (ls_bin l) <> 0%R) (so_layouts s) ->
  so_usage s = (Rsum (map snap_area (so_layouts s)) / Rsum (map (fun l => bn_area (ls_bin l)) (so_layouts s)))%R.
Proof. intros D ED BS DC. exact bp_usage. Qed.
Print Assumptions C42_bp_usage.
Theorem C42_sp_usage :
  forall (D : Type) (ED : EqD D) (BS : BSearch) (DC : DComp R D) (p : sp R D) s p',
  sp_create (N := RNum) p = Ok (s, p') ->
  Forall (fun l => bn_area (ls_bin l) <> 0%R) (so_layouts s) ->
  so_usage s = (Rsum (map snap_area (so_layouts s)) / Rsum (map (fun l => bn_area (ls_bin l)) (so_layouts s)))%R.
Proof. intros D ED BS DC. exact sp_usage. Qed.
Print Assumptions C42_sp_usage.
Theorem C42_bp_completeness :
  forall (D : Type) (ED : EqD D) (BS : BSearch) (DC : DComp R D)
    items bins (inst : bpinst R D) ovf ops (p : bp R D) h s,
  bpinst_new (N := RNum) items bins = Ok inst -> bp_run ovf inst ops = Ok (p, h) -> In s h ->
  completeness s items (bi_area inst) =
    Ok (Rsum (map (fun p => p_area (it_shape (fst (snd p))) * INR (count (fst p) (sol_items s)))%R
                  (combine (seq 0 (length items)) items)) /
        Rsum (map (fun p => p_area (it_shape (fst p)) * INR (snd p))%R items))%R.
Proof. intros D ED BS DC. exact bp_completeness. Qed.
Print Assumptions C42_bp_completeness.
Example C42_example : forall s, nth_error (snd (xrun (xops1 ++ xops2))) 1 = Some s ->
  In s (snd (xrun (xops1 ++ xops2))) /\ sol_items s = [0; 0] /\ is_complete s xitems = Ok false /\
  sol_missing s xitems = Ok [0; 1]%Z /\ n_items_placed s = 2%Z.
Proof. exact ex_figures. Qed.

(** *** C45: refuted when a restore intervenes *)
Theorem C45_refuted :
  (exists l0, layout_place (fst (lrun [LSnap])) i0 0 200 = Ok ((1, 1), l0)) /\
  rfold lstep alias (layout_new 7 b0, []) = Ok (lrun alias) /\
  Forall (fun o => ~ removes (1, 1) o) alias /\
  exists p, sm_get (ly_items (fst (lrun alias))) (1, 1) = Some p /\ pi_item p = 1 /\ pi_dt p = 80.
Proof. exact key_aliased. Qed.
Print Assumptions C45_refuted.
(** it holds as long as the layout is not restored *)
Theorem C45_key_names_item_partial :
  forall (F : Type) (N : Num F) (D : Type) (ED : EqD D) (BS : BSearch) (DC : DComp F D)
    id b ops1 (l : layout F D) sn it d ptr k l1 ops2 l2 sn2,
  rfold lstep ops1 (layout_new id b, []) = Ok (l, sn) ->
  layout_place l it d ptr = Ok (k, l1) -> Forall no_restore ops2 ->
  rfold lstep ops2 (l1, sn) = Ok (l2, sn2) ->
  (Forall (fun o => ~ removes k o) ops2 -> sm_get (ly_items l2) k = Some (pi_new it d ptr)) /\
  (Exists (removes k) ops2 -> sm_get (ly_items l2) k = None) /\ sm_get (ly_items l) k = None.
Proof. intros F N D ED BS DC. exact key_names. Qed.
Print Assumptions C45_key_names_item_partial.
Example C45_example :
  rfold lstep [LPlace i0 0 200; LRemove (1, 1) true] (layout_new 7 b0, []) =
    Ok (lrun [LPlace i0 0 200; LRemove (1, 1) true]) /\
  exists l1, layout_place (fst (lrun [LPlace i0 0 200; LRemove (1, 1) true])) i1 80 201 = Ok ((1, 3), l1).
Proof. exact ex_key. Qed.
