(** Property C94: items are taken out of problems and put back, and problems are solved again:
    what this does to packings, and when it cannot fail. *)
From Coq Require Import List Bool Arith ZArith Permutation.
From Verif Require Import Base Num GeoModel HazardModel QTModel TransfModel HpgModel CdeModel CdeSpec
  PolyModel SlotMapModel LayoutModel ProblemModel ProblemSpec LbfModel Instances LbfStripThmProofs LbfExampleProofs LbfExample2Proofs SelfCheckExampleProofs LbfSpTotalProofs.
From Coq Require Import Reals.
From Verif Require Import GeoModel HazardModel QTModel TransfModel HpgModel CdeModel CdeSpec GeoSpec PlaceSpec HpgSpec ShapeSpec LbfModel LbfSpec HistPackSpec AgainModel AgainSpec PanicSpec
  HistPackProofs ReachProofs ReachExampleProofs AgainProofs AgainStripProofs AgainExampleProofs AgainTotalProofs AgainTotalExampleProofs.
Import ListNotations.
Local Open Scope nat_scope.
#[local] Existing Instance RTrig.

(** *** C94 *)
Theorem C94_drop_bp :
  forall (M : R) (ED : EqD (dtransf R)) (BS : BSearch) (G : Type) (RG : Rng R G), bsearch_ok BS -> let N := RNumT Reqb M in
  forall items bins (inst : bpinst R (dtransf R)) ovf ops n (p : bp R (dtransf R)) h (g : G), bpinst_new items bins = Ok inst -> Forall (fun b => good_bin (fst b)) bins ->
  fine_items items -> fine_bins bins -> bchecked ovf (bp_new inst, []) ops -> bp_run ovf inst ops = Ok (p, h) ->
  (length (items_in (bp_layouts p)) < n -> drop_bp n p g = Panic) /\
  forall p' g', drop_bp n p g = Ok (p', g') ->
  (exists ks, length ks = n /\ bp_run ovf inst (ops ++ map (fun x => BRemove (Real (fst x)) (snd x) false) ks) = Ok (p', h)) /\
  shrunk (bp_layouts p) (bp_layouts p') /\ (exists out, length out = n /\ Permutation (items_in (bp_layouts p)) (out ++ items_in (bp_layouts p'))) /\
  Forall (fun l => In (ly_bin l) (map fst bins) /\ packed items (ly_bin l) (placed l)) (bp_layouts p').
Proof. intros M ED BS G RG Hb N. exact (drop_any_bp M Hb). Qed.
Print Assumptions C94_drop_bp.
Theorem C94_twice_bp :
  forall (M : R) (ED : EqD (dtransf R)) (BS : BSearch) (G : Type) (RG : Rng R G) (X : Extra R), bsearch_ok BS -> let N := RNumT Reqb M in
  forall items bins (inst : bpinst R (dtransf R)) n cfg (g rng : G) ptr s1 s2 p, bpinst_new items bins = Ok inst -> Forall (fun b => good_bin (fst b)) bins ->
  fine_items items -> fine_bins bins -> twice_bp n cfg inst g rng ptr = Ok (s1, s2, p) ->
  sol_packed items bins s1 /\ sol_packed items bins s2 /\ map snap_content (so_layouts s2) = map content (bp_layouts p) /\
  (exists out more rest, length out = n /\ Permutation (sol_items s1) (out ++ rest) /\ Permutation (sol_items s2) (more ++ rest)) /\
  no_more_than items (bp_layouts p) /\
  forall ovf, exists ops, bchecked ovf (bp_new inst, []) ops /\ bp_run ovf inst ops = Ok (p, [s1; s2]).
Proof. intros M ED BS G RG X Hb N. exact (twice_bp_packs M Hb). Qed.
Print Assumptions C94_twice_bp.
Theorem C94_drop_sp :
  forall (M : R) (ED : EqD (dtransf R)) (BS : BSearch) (G : Type) (RG : Rng R G), bsearch_ok BS -> let N := RNumT Reqb M in
  forall items hgt (inst : spinst R) ovf tol w c ptr0 ops p0 (p : sp R (dtransf R)) h n (g : G) p' g', spinst_new items hgt = Ok inst -> fine_items items ->
  sp_new inst w c ptr0 = Ok p0 -> schecked_run ovf tol (p0, []) ops -> rfold (sstep ovf tol) ops (p0, []) = Ok (p, h) -> drop_sp n p g = Ok (p', g') ->
  (exists ks, rfold (sstep ovf tol) (ops ++ map (fun k => SRemove (Real 0) k false) ks) (p0, []) = Ok (p', h)) /\
  (exists gone, length gone = Nat.min n (length (placed (sp_layout p))) /\ Permutation (placed (sp_layout p)) (gone ++ placed (sp_layout p'))) /\
  ly_bin (sp_layout p') = ly_bin (sp_layout p) /\ packed items (ly_bin (sp_layout p')) (placed (sp_layout p')).
Proof. intros M ED BS G RG Hb N. exact (drop_any_sp M Hb). Qed.
Print Assumptions C94_drop_sp.
Theorem C94_taken_back :
  forall (M : R) (ED : EqD (dtransf R)) (BS : BSearch), bsearch_ok BS -> let N := RNumT Reqb M in
  forall items hgt (inst : spinst R) ovf tol w c ptr0 ops p0 (p : sp R (dtransf R)) h ks os p', spinst_new items hgt = Ok inst -> fine_items items ->
  sp_new inst w c ptr0 = Ok p0 -> schecked_run ovf tol (p0, []) ops -> rfold (sstep ovf tol) ops (p0, []) = Ok (p, h) -> take_out p ks = Ok (os, p') ->
  exists out, schecked_run ovf tol (p0, []) (ops ++ out) /\ rfold (sstep ovf tol) (ops ++ out) (p0, []) = Ok (p', h) /\
  Forall (fun o => po_layout o = Real 0) os /\ Permutation (placed (sp_layout p)) (map (fun o => (po_item o, po_dt o)) os ++ placed (sp_layout p')) /\
  ly_bin (sp_layout p') = ly_bin (sp_layout p) /\
  forall xs ptrs, Permutation xs (map (fun o => (po_item o, po_dt o)) os) -> length ptrs = length xs ->
  schecked_run ovf tol (p0, []) (ops ++ out ++ put_ops xs ptrs) /\
  forall q h', rfold (sstep ovf tol) (put_ops xs ptrs) (p', h) = Ok (q, h') ->
  Permutation (placed (sp_layout q)) (placed (sp_layout p)) /\ ly_bin (sp_layout q) = ly_bin (sp_layout p).
Proof. intros M ED BS Hb N. exact (taken_back M Hb). Qed.
Print Assumptions C94_taken_back.
Theorem C94_updates_keep :
  forall (M : R) (ED : EqD (dtransf R)) (BS : BSearch) (G : Type) (RG : Rng R G), bsearch_ok BS -> let N := RNumT Reqb M in
  forall items hgt (inst : spinst R) ovf tol w c ptr0 ops p0 (p : sp R (dtransf R)) h n (g : G) ptr p' g' ptr', spinst_new items hgt = Ok inst -> fine_items items ->
  sp_new inst w c ptr0 = Ok p0 -> schecked_run ovf tol (p0, []) ops -> rfold (sstep ovf tol) ops (p0, []) = Ok (p, h) -> updates n (p, g, ptr) = Ok (p', g', ptr') ->
  (exists ops', schecked_run ovf tol (p0, []) (ops ++ ops') /\ rfold (sstep ovf tol) (ops ++ ops') (p0, []) = Ok (p', h)) /\
  Permutation (placed (sp_layout p')) (placed (sp_layout p)) /\ ly_bin (sp_layout p') = ly_bin (sp_layout p).
Proof. intros M ED BS G RG Hb N. exact (updates_keep M Hb). Qed.
Print Assumptions C94_updates_keep.
Theorem C94_twice_sp :
  forall (M : R) (ED : EqD (dtransf R)) (BS : BSearch) (G : Type) (RG : Rng R G) (X : Extra R), bsearch_ok BS -> let N := RNumT Reqb M in
  forall items hgt (inst : spinst R) n fuel tol c cfg (g rng : G) ptr s1 s2 p, spinst_new items hgt = Ok inst -> fine_items items ->
  twice_sp n fuel tol c cfg inst g rng ptr = Ok (Some (s1, s2, p)) ->
  (forall s, s = s1 \/ s = s2 -> exists sn, so_layouts s = [sn] /\ plain_strip (ls_bin sn) /\ packed items (ls_bin sn) (snap_placed sn) /\
  (forall i it q, nth_error items i = Some (it, q) -> count i (sol_items s) = q) /\
  y_min (p_bbox (a_obj (bn_outer (ls_bin sn)))) = Rmin 0 hgt /\ y_max (p_bbox (a_obj (bn_outer (ls_bin sn)))) = Rmax 0 hgt) /\
  (exists sn1 sn2 out more rest, so_layouts s1 = [sn1] /\ so_layouts s2 = [sn2] /\ length out = Nat.min n (length (snap_placed sn1)) /\
  Permutation (snap_placed sn1) (out ++ rest) /\ Permutation (snap_placed sn2) (more ++ rest)).
Proof. intros M ED BS G RG X Hb N. exact (twice_sp_packs M Hb). Qed.
Print Assumptions C94_twice_sp.
Theorem C94_drop_bp_exact :
  forall (M : R) (ED : EqD (dtransf R)) (BS : BSearch) (G : Type) (RG : Rng R G), bsearch_ok BS -> let N := RNumT Reqb M in
  forall items bins (inst : bpinst R (dtransf R)) ovf ops n (p : bp R (dtransf R)) h (g : G), bpinst_new items bins = Ok inst -> Forall (fun x => sound_item M (fst x)) items ->
  Forall (fun b => good_bin (fst b)) bins -> fine_bins bins -> bchecked ovf (bp_new inst, []) ops -> bp_run ovf inst ops = Ok (p, h) ->
  ((exists r, drop_bp n p g = Ok r) <-> n <= length (items_in (bp_layouts p))).
Proof. intros M ED BS G RG Hb N. exact (drop_bp_exact M Hb). Qed.
Print Assumptions C94_drop_bp_exact.
Theorem C94_resume_bp_total :
  forall (M : R) (ED : EqD (dtransf R)) (BS : BSearch) (G : Type) (RG : Rng R G) (X : Extra R), bsearch_ok BS -> let N := RNumT Reqb M in
  forall items bins (inst : bpinst R (dtransf R)) ovf ops (p : bp R (dtransf R)) h cfg (g : G) ptr, bpinst_new items bins = Ok inst -> Forall (fun x => sound_item M (fst x)) items ->
  Forall (fun b => good_bin (fst b)) bins -> fine_bins bins -> sane_extra X -> Forall (fun b => cfg_cells (bn_cfg (fst b)) <> 0) bins -> hulls_constructible items ->
  bchecked ovf (bp_new inst, []) ops -> bp_run ovf inst ops = Ok (p, h) -> no_more_than items (bp_layouts p) -> lc_local cfg <= lc_samples cfg ->
  exists p1 r, bp_flush p = Ok p1 /\ solve_bp cfg p1 g ptr = Ok r.
Proof. intros M ED BS G RG X Hb N. exact (resume_bp_total M Hb). Qed.
Print Assumptions C94_resume_bp_total.
Theorem C94_twice_bp_exact :
  forall (M : R) (ED : EqD (dtransf R)) (BS : BSearch) (G : Type) (RG : Rng R G) (X : Extra R), bsearch_ok BS -> let N := RNumT Reqb M in
  forall items bins (inst : bpinst R (dtransf R)) n cfg (g rng : G) ptr, bpinst_new items bins = Ok inst -> Forall (fun x => sound_item M (fst x)) items ->
  Forall (fun b => good_bin (fst b)) bins -> fine_bins bins -> sane_extra X -> Forall (fun b => cfg_cells (bn_cfg (fst b)) <> 0) bins -> hulls_constructible items ->
  0 < lc_samples cfg -> lc_local cfg <= lc_samples cfg ->
  exists p1 s1 g1 ptr1, solve_bp cfg (bp_new inst) g ptr = Ok (p1, s1, g1, ptr1) /\ ((exists r, twice_bp n cfg inst g rng ptr = Ok r) <-> n <= length (sol_items s1)).
Proof. intros M ED BS G RG X Hb N. exact (twice_bp_exact M Hb). Qed.
Print Assumptions C94_twice_bp_exact.
Theorem C94_drop_sp_total :
  forall (M : R) (ED : EqD (dtransf R)) (BS : BSearch) (G : Type) (RG : Rng R G), bsearch_ok BS -> let N := RNumT Reqb M in
  forall items hgt (inst : spinst R) ovf tol w c ptr0 ops p0 (p : sp R (dtransf R)) h n (g : G), spinst_new items hgt = Ok inst -> Forall (fun x => sound_item M (fst x)) items ->
  sp_new inst w c ptr0 = Ok p0 -> schecked_run ovf tol (p0, []) ops -> rfold (sstep ovf tol) ops (p0, []) = Ok (p, h) -> exists r, drop_sp n p g = Ok r.
Proof. intros M ED BS G RG Hb N. exact (drop_sp_total M Hb). Qed.
Print Assumptions C94_drop_sp_total.
Theorem C94_take_out_exact :
  forall (M : R) (ED : EqD (dtransf R)) (BS : BSearch), bsearch_ok BS -> let N := RNumT Reqb M in
  forall items hgt (inst : spinst R) ovf tol w c ptr0 ops p0 (p : sp R (dtransf R)) h ks, spinst_new items hgt = Ok inst -> Forall (fun x => sound_item M (fst x)) items ->
  sp_new inst w c ptr0 = Ok p0 -> schecked_run ovf tol (p0, []) ops -> rfold (sstep ovf tol) ops (p0, []) = Ok (p, h) ->
  ((exists r, take_out p ks = Ok r) <-> NoDup ks /\ incl ks (map fst (sm_iter (ly_items (sp_layout p))))) /\
  forall os p', take_out p ks = Ok (os, p') -> forall xs ptrs, Permutation xs (map (fun o => (po_item o, po_dt o)) os) -> length ptrs = length xs ->
  exists q, rfold (sstep ovf tol) (put_ops xs ptrs) (p', h) = Ok (q, h) /\ Permutation (placed (sp_layout q)) (placed (sp_layout p)) /\ ly_bin (sp_layout q) = ly_bin (sp_layout p).
Proof. intros M ED BS Hb N. exact (take_out_exact M Hb). Qed.
Print Assumptions C94_take_out_exact.
Theorem C94_updates_exact :
  forall (M : R) (ED : EqD (dtransf R)) (BS : BSearch) (G : Type) (RG : Rng R G), bsearch_ok BS -> let N := RNumT Reqb M in
  forall items hgt (inst : spinst R) ovf tol w c ptr0 ops p0 (p : sp R (dtransf R)) h n (g : G) ptr, spinst_new items hgt = Ok inst -> Forall (fun x => sound_item M (fst x)) items ->
  sp_new inst w c ptr0 = Ok p0 -> schecked_run ovf tol (p0, []) ops -> rfold (sstep ovf tol) ops (p0, []) = Ok (p, h) ->
  ((exists r, updates n (p, g, ptr) = Ok r) <-> n = 0 \/ placed (sp_layout p) <> []).
Proof. intros M ED BS G RG Hb N. exact (updates_exact M Hb). Qed.
Print Assumptions C94_updates_exact.
Theorem C94_resume_sp_total :
  forall (M : R) (ED : EqD (dtransf R)) (BS : BSearch) (G : Type) (RG : Rng R G) (X : Extra R), bsearch_ok BS -> let N := RNumT Reqb M in
  forall items hgt (inst : spinst R) ovf tol w c ptr0 ops p0 (p : sp R (dtransf R)) h fuel cfg (g : G) ptr, spinst_new items hgt = Ok inst -> Forall (fun x => sound_item M (fst x)) items ->
  sp_new inst w c ptr0 = Ok p0 -> sane_extra X -> cfg_cells c <> 0 -> strips_constructible c hgt -> (0 < hgt)%R -> hulls_constructible items -> (0 < tol)%R -> (0 < items_area items)%R ->
  schecked_run ovf tol (p0, []) ops -> rfold (sstep ovf tol) ops (p0, []) = Ok (p, h) -> no_more_than items [sp_layout p] ->
  bn_cfg (ly_bin (sp_layout p)) = c -> y_min (outline p) = 0%R -> y_max (outline p) = hgt -> lc_local cfg <= lc_samples cfg ->
  exists p1 o, sp_flush p = Ok p1 /\ solve_sp fuel tol cfg p1 g ptr = Ok o.
Proof. intros M ED BS G RG X Hb N. exact (resume_sp_total M Hb). Qed.
Print Assumptions C94_resume_sp_total.
Theorem C94_twice_sp_total :
  forall (M : R) (ED : EqD (dtransf R)) (BS : BSearch) (G : Type) (RG : Rng R G) (X : Extra R), bsearch_ok BS -> let N := RNumT Reqb M in
  forall items hgt (inst : spinst R) n fuel tol c cfg (g rng : G) ptr, spinst_new items hgt = Ok inst -> Forall (fun x => sound_item M (fst x)) items -> sane_extra X ->
  cfg_cells c <> 0 -> strips_constructible c hgt -> (0 < hgt)%R -> hulls_constructible items -> (0 < tol)%R -> (0 < items_area items)%R -> 0 < lc_samples cfg -> lc_local cfg <= lc_samples cfg ->
  exists o, twice_sp n fuel tol c cfg inst g rng ptr = Ok o.
Proof. intros M ED BS G RG X Hb N. exact (twice_sp_total M Hb). Qed.
Print Assumptions C94_twice_sp_total.
Example C94_bp_example : forall (M : R) (G : Type) (RG : Rng R G), (1 < M)%R -> let N := RNumT Reqb M in let E := DtEq in let L := LinSearch in let X := REx in
  (forall (g rng : G) ptr, exists (b : bin R (dtransf R)) inst, bpinst_new squares [(b, 2%nat)] = Ok inst /\
  Forall (fun x => sound_item M (fst x)) squares /\ good_bin b /\ fine_bins [(b, 2%nat)] /\ sane_extra REx /\ cfg_cells (bn_cfg b) <> 0%nat /\ hulls_constructible squares /\
  (exists r, twice_bp 0 (LC 5 2) inst g rng ptr = Ok r) /\ twice_bp 4 (LC 5 2) inst g rng ptr = Panic)%R.
Proof. intros M G RG HM N E L X. exact (again_total_bp M HM). Qed.
Example C94_sp_example : forall (M : R) (G : Type) (RG : Rng R G), (1 < M)%R -> let N := RNumT Reqb M in let E := DtEq in let L := LinSearch in let X := REx in
  (forall (g rng : G) ptr, exists (inst : spinst R) ops p0 (p : sp R (dtransf R)) k, spinst_new squares 10 = Ok inst /\ Forall (fun x => sound_item M (fst x)) squares /\
  sp_new inst 10 (Cfg 3 1) 0 = Ok p0 /\ schecked_run true (1/2) (p0, []) ops /\ rfold (sstep true (1/2)) ops (p0, []) = Ok (p, []) /\ length (placed (sp_layout p)) = 3%nat /\
  (exists r, take_out p [k] = Ok r) /\ take_out p [k; k] = Panic /\ (exists r, updates 7 (p, g, ptr) = Ok r) /\ (exists r, drop_sp 5 p g = Ok r) /\
  (exists r, updates 0 (p0, g, ptr) = Ok r) /\ updates 1 (p0, g, ptr) = Panic /\
  sane_extra REx /\ cfg_cells (Cfg 3 1) <> 0%nat /\ strips_constructible (Cfg 3 1) 10 /\ hulls_constructible squares /\ 0 < items_area squares /\
  no_more_than squares [sp_layout p] /\ bn_cfg (ly_bin (sp_layout p)) = Cfg 3 1 /\ y_min (outline p) = 0 /\ y_max (outline p) = 10)%R.
Proof. intros M G RG HM N E L X. exact (again_total_sp M HM). Qed.
