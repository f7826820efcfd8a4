(** Properties C91 and C92: problems that already hold items are solved further; the items of a
    strip are placed again in a fresh strip of the same width. *)
From Coq Require Import List Bool Arith ZArith Permutation.
From Verif Require Import Base Num GeoModel HazardModel QTModel TransfModel HpgModel CdeModel CdeSpec
  PolyModel SlotMapModel LayoutModel ProblemModel ProblemSpec LbfModel Instances LbfStripThmProofs LbfExampleProofs LbfExample2Proofs SelfCheckExampleProofs LbfSpTotalProofs.
From Coq Require Import Reals.
From Verif Require Import GeoModel HazardModel QTModel TransfModel HpgModel CdeModel CdeSpec GeoSpec PlaceSpec HpgSpec ShapeSpec LbfModel LbfSpec HistPackSpec AgainModel AgainSpec
  HistPackProofs ReachProofs ReachExampleProofs AgainProofs AgainStripProofs AgainReplayProofs AgainExampleProofs.
Import ListNotations.
Local Open Scope R_scope.
#[local] Existing Instance RTrig.

(** *** C91 *)
Theorem C91_solve_any_bp :
  forall (M : R) (ED : EqD (dtransf R)) (BS : BSearch) (G : Type) (RG : Rng R G) (X : Extra R), bsearch_ok BS -> let N := RNumT Reqb M in
  forall items bins (inst : bpinst R (dtransf R)) ovf cfg ops p h (g : G) ptr p' s g' ptr', bpinst_new items bins = Ok inst -> Forall (fun b => good_bin (fst b)) bins ->
  fine_items items -> fine_bins bins -> bchecked ovf (bp_new inst, []) ops -> bp_run ovf inst ops = Ok (p, h) ->
  solve_bp cfg p g ptr = Ok (p', s, g', ptr') ->
  (exists ops', bchecked ovf (bp_new inst, []) (ops ++ ops') /\ bp_run ovf inst (ops ++ ops') = Ok (p', h ++ [s])) /\
  Forall (fun l => In (ly_bin l) (map fst bins) /\ packed items (ly_bin l) (placed l)) (bp_layouts p') /\
  map snap_content (so_layouts s) = map content (bp_layouts p') /\
  grown (bp_layouts p) (bp_layouts p') /\
  forall i it q, nth_error items i = Some (it, q) ->
    (copies i (bp_layouts p') <= Nat.max q (copies i (bp_layouts p)))%nat /\
    ((copies i (bp_layouts p') < q)%nat ->
      exists ops1 p1, bchecked ovf (bp_new inst, []) (ops ++ ops1) /\ bp_run ovf inst (ops ++ ops1) = Ok (p1, h) /\
        grown (bp_layouts p) (bp_layouts p1) /\ grown (bp_layouts p1) (bp_layouts p') /\ no_room p1 it cfg).
Proof. intros M ED BS G RG X Hb N. exact (solve_any_bp M Hb). Qed.
Print Assumptions C91_solve_any_bp.
Theorem C91_solve_any_sp :
  forall (M : R) (ED : EqD (dtransf R)) (BS : BSearch) (G : Type) (RG : Rng R G) (X : Extra R), bsearch_ok BS -> let N := RNumT Reqb M in
  forall items hgt (inst : spinst R) ovf tol w c ptr0 ops p0 (p : sp R (dtransf R)) h fuel cfg (g : G) ptr p' s g' ptr', spinst_new items hgt = Ok inst -> fine_items items ->
  sp_new inst w c ptr0 = Ok p0 -> schecked_run ovf tol (p0, []) ops -> rfold (sstep ovf tol) ops (p0, []) = Ok (p, h) ->
  no_more_than items [sp_layout p] -> solve_sp fuel tol cfg p g ptr = Ok (Some (p', s, g', ptr')) ->
  (exists ops', schecked_run ovf tol (p0, []) (ops ++ ops') /\ rfold (sstep ovf tol) (ops ++ ops') (p0, []) = Ok (p', h ++ [s])) /\
  plain_strip (ly_bin (sp_layout p')) /\ packed items (ly_bin (sp_layout p')) (placed (sp_layout p')) /\
  map snap_content (so_layouts s) = [content (sp_layout p')] /\
  (exists more, Permutation (placed (sp_layout p')) (more ++ placed (sp_layout p))) /\
  (forall i it q, nth_error items i = Some (it, q) -> copies i [sp_layout p'] = q) /\
  y_min (strip_bbox p') = y_min (strip_bbox p) /\ y_max (strip_bbox p') = y_max (strip_bbox p).
Proof. intros M ED BS G RG X Hb N. exact (solve_any_sp M Hb). Qed.
Print Assumptions C91_solve_any_sp.
Example C91_bp_example : forall (M : R) (G : Type) (RG : Rng R G), 1 < M -> let N := RNumT Reqb M in let E := DtEq in let L := LinSearch in let X := REx in
  forall (g : G) ptr, exists (b : bin R (dtransf R)) inst ops p h p' s g' ptr',
    bpinst_new squares [(b, 2%nat)] = Ok inst /\ good_bin b /\ fine_items squares /\ fine_bins [(b, 2%nat)] /\
    bchecked true (bp_new inst, []) ops /\ bp_run true inst ops = Ok (p, h) /\ items_in (bp_layouts p) = [0%nat] /\
    solve_bp (LC 5 2) p g ptr = Ok (p', s, g', ptr').
Proof. intros M G RG HM N E L X. exact (again_bp_example M HM). Qed.
Example C91_sp_example : forall (M : R) (G : Type) (RG : Rng R G), 1 < M -> let N := RNumT Reqb M in let E := DtEq in let L := LinSearch in let X := REx in
  forall (g : G) ptr, exists (inst : spinst R) ops p0 (p : sp R (dtransf R)) p' s g' ptr', spinst_new squares 10 = Ok inst /\ fine_items squares /\
    sp_new inst 10 (Cfg 3 1) 0 = Ok p0 /\ schecked_run true (1/2) (p0, []) ops /\ rfold (sstep true (1/2)) ops (p0, []) = Ok (p, []) /\
    no_more_than squares [sp_layout p] /\ length (placed (sp_layout p)) = 3%nat /\ solve_sp 1 (1/2) (LC 5 2) p g ptr = Ok (Some (p', s, g', ptr')).
Proof. intros M G RG HM N E L X. exact (again_sp_example M HM). Qed.

(** *** C92 *)
(** a packing becomes one that sticks out of the fresh strip *)
Theorem C92_replay_packed_refuted : forall (M : R), 1 < M -> let N := RNumT Reqb M in let E := DtEq in let L := LinSearch in
  exists items (inst : spinst R) ops p0 (p : sp R (dtransf R)) h p', spinst_new items 10 = Ok inst /\ Forall (fun x => sound_item M (fst x)) items /\
    sp_new inst 10 (Cfg 3 1) 0 = Ok p0 /\ schecked_run true (1/2) (p0, []) ops /\ rfold (sstep true (1/2)) ops (p0, []) = Ok (p, h) /\
    packed items (ly_bin (sp_layout p)) (placed (sp_layout p)) /\ replay p (Cfg 3 1) 0 = Ok p' /\
    strip_width p' = strip_width p /\ Permutation (placed (sp_layout p')) (placed (sp_layout p)) /\ ~ packed items (ly_bin (sp_layout p')) (placed (sp_layout p')).
Proof. intros M HM N E L. exists squares. exact (replay_example M HM). Qed.
Print Assumptions C92_replay_packed_refuted.
(** exactly when it stays one *)
Theorem C92_replay_iff :
  forall (M : R) (ED : EqD (dtransf R)) (BS : BSearch), bsearch_ok BS -> let N := RNumT Reqb M in
  forall items hgt (inst : spinst R) ovf tol w c ptr0 ops p0 (p : sp R (dtransf R)) h c' ptr (q0 : sp R (dtransf R)), spinst_new items hgt = Ok inst -> Forall (fun x => sound_item M (fst x)) items ->
  sp_new inst w c ptr0 = Ok p0 -> schecked_run ovf tol (p0, []) ops -> rfold (sstep ovf tol) ops (p0, []) = Ok (p, h) ->
  y_min (strip_bbox p) = 0 -> y_max (strip_bbox p) = hgt -> cfg_cells c' <> 0%nat -> sp_new inst (strip_width p) c' ptr = Ok q0 ->
  exists p', replay p c' ptr = Ok p' /\ Permutation (placed (sp_layout p')) (placed (sp_layout p)) /\
    (forall x y, in_rect (strip_bbox p') (Pt x y) <-> 0 <= x <= x_max (strip_bbox p) - x_min (strip_bbox p) /\ 0 <= y <= hgt) /\
    (packed items (ly_bin (sp_layout p')) (placed (sp_layout p')) <->
     forall x pt, In x (placed (sp_layout p)) -> covers items x pt -> 0 < px pt < x_max (strip_bbox p) - x_min (strip_bbox p)).
Proof. intros M ED BS Hb N. exact (replay_iff M Hb). Qed.
Print Assumptions C92_replay_iff.
Theorem C92_replay_front :
  forall (M : R) (ED : EqD (dtransf R)) (BS : BSearch), bsearch_ok BS -> let N := RNumT Reqb M in
  forall items hgt (inst : spinst R) ovf tol w c ptr0 ops p0 (p : sp R (dtransf R)) h c' ptr (q0 : sp R (dtransf R)), spinst_new items hgt = Ok inst -> Forall (fun x => sound_item M (fst x)) items ->
  sp_new inst w c ptr0 = Ok p0 -> schecked_run ovf tol (p0, []) ops -> rfold (sstep ovf tol) ops (p0, []) = Ok (p, h) ->
  x_min (strip_bbox p) = 0 -> y_min (strip_bbox p) = 0 -> y_max (strip_bbox p) = hgt -> cfg_cells c' <> 0%nat -> sp_new inst (strip_width p) c' ptr = Ok q0 ->
  exists p', replay p c' ptr = Ok p' /\ Permutation (placed (sp_layout p')) (placed (sp_layout p)) /\ packed items (ly_bin (sp_layout p')) (placed (sp_layout p')).
Proof. intros M ED BS Hb N. exact (replay_front M Hb). Qed.
Print Assumptions C92_replay_front.
Example C92_front_example : forall (M : R), 1 < M -> let N := RNumT Reqb M in let E := DtEq in let L := LinSearch in
  exists (inst : spinst R) ops p0 (p : sp R (dtransf R)), spinst_new squares 10 = Ok inst /\ Forall (fun x => sound_item M (fst x)) squares /\
    sp_new inst 10 (Cfg 3 1) 0 = Ok p0 /\ schecked_run true (1/2) (p0, []) ops /\ rfold (sstep true (1/2)) ops (p0, []) = Ok (p, []) /\
    x_min (strip_bbox p) = 0 /\ y_min (strip_bbox p) = 0 /\ y_max (strip_bbox p) = 10 /\ cfg_cells (Cfg 3 1) <> 0%nat /\ sp_new inst (strip_width p) (Cfg 3 1) 0 = Ok p0 /\
    length (placed (sp_layout p)) = 3%nat.
Proof. intros M HM N E L. exact (front_example M HM). Qed.
