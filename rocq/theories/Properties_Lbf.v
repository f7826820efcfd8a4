(** Statements about the reference optimizer, in exact (real) arithmetic, for every
    random generator: C44, C55 and C57. *)
From Verif Require Import Base Num GeoModel HazardModel QTModel TransfModel HpgModel CdeModel CdeSpec
  PolyModel SlotMapModel LayoutModel ProblemModel ProblemSpec LbfModel Instances LbfProofs LbfThmProofs LbfSpProofs LbfExampleProofs.
From Coq Require Import Reals List ZArith.
From Verif Require Import GeoModel HazardModel QTModel TransfModel HpgModel CdeModel CdeSpec GeoSpec PlaceSpec ShapeSpec
  SlotMapModel LayoutModel ProblemModel ProblemSpec LbfModel LbfSpec.
Import ListNotations.
Local Open Scope R_scope.
#[local] Existing Instance RTrig.

(** *** C44: the optimizer only places items where the engine found no collision *)
(** One search in one layout: the placement it returns is one of those it drew, is free of
    collisions, and no other collision-free placement drawn is cheaper; it finds none only
    if all drawn collide. *)
Theorem C44_sample_best :
  forall (M : R) (ED : EqD (dtransf R)) (BS : BSearch) (G : Type) (RG : Rng R G) (X : Extra R), let N := RNumT Reqb M in
  forall li (l : layout R (dtransf R)) it cfg (g : G) o g' drawn, sample_layout li l it cfg g = Ok (o, g', drawn) ->
  exists irr u, tolerated l it irr /\ p_surr (it_shape it) = Some u /\
    Forall (fun t => rigid t /\ exists a, allowed (it_rot it) a /\ turns a t) drawn /\
    match o with
    | Some o => length drawn = lc_samples cfg /\ po_layout o = li /\ po_item o = it_id it /\
        In (compose (po_dt o)) drawn /\ passes_both l it irr u (compose (po_dt o)) /\
        forall t, In t drawn -> passes_both l it irr u t ->
          no_dearer (moved (compose (po_dt o)) (it_shape it)) (moved t (it_shape it))
    | None => (drawn = [] \/ length drawn = (lc_samples cfg - lc_local cfg)%nat) /\
        forall t, In t drawn -> ~ passes_both l it irr u t
    end.
Proof. intros M ED BS G RG X N. exact (sample_layout_ok M). Qed.
Print Assumptions C44_sample_best.
(** a whole run is a sequence of checked placements within demand and stock *)
Theorem C44_bp_run :
  forall (M : R) (ED : EqD (dtransf R)) (BS : BSearch) (G : Type) (RG : Rng R G) (X : Extra R), let N := RNumT Reqb M in
  forall items bins (inst : bpinst R (dtransf R)) ovf cfg (g : G) ptr p s p',
  bpinst_new items bins = Ok inst -> lbf_bp inst cfg g ptr = Ok (p, s, p') ->
  exists ops, bp_run ovf inst (place_ops ops) = Ok (p, []) /\ bp_create p None = Ok (s, p') /\ all_checked (bp_new inst) ops /\
    (forall i it q, nth_error items i = Some (it, q) -> (copies i (bp_layouts p) <= q)%nat) /\
    (forall b x n, nth_error bins b = Some (x, n) -> (open_of b (bp_layouts p) <= n)%nat).
Proof. intros M ED BS G RG X N. exact (lbf_run M). Qed.
Print Assumptions C44_bp_run.
(** a copy is left out only after a search in all layouts and all bins in stock failed *)
Theorem C44_bp_left_out :
  forall (M : R) (ED : EqD (dtransf R)) (BS : BSearch) (G : Type) (RG : Rng R G) (X : Extra R), let N := RNumT Reqb M in
  forall items bins (inst : bpinst R (dtransf R)) ovf cfg (g : G) ptr p s p' i it q,
  bpinst_new items bins = Ok inst -> lbf_bp inst cfg g ptr = Ok (p, s, p') ->
  nth_error items i = Some (it, q) -> (copies i (bp_layouts p) < q)%nat ->
  exists ops1 ops2 p1, bp_run ovf inst (place_ops ops1) = Ok (p1, []) /\
    bp_run ovf inst (place_ops (ops1 ++ ops2)) = Ok (p, []) /\ no_room (G := G) p1 it cfg.
Proof. intros M ED BS G RG X N. exact (lbf_left_out M). Qed.
Print Assumptions C44_bp_left_out.
Theorem C44_sp_run :
  forall (M : R) (ED : EqD (dtransf R)) (BS : BSearch) (G : Type) (RG : Rng R G) (X : Extra R), bsearch_ok BS -> let N := RNumT Reqb M in
  forall items hgt (inst : spinst R) ovf fuel tol c cfg (g : G) ptr p s p2,
  spinst_new items hgt = Ok inst -> lbf_sp fuel tol inst c cfg g ptr = Ok (Some (p, s, p2)) ->
  exists p0 ops ptr' p1, sp_new inst (si_area inst * 2 / hgt) c ptr = Ok p0 /\ sall_checked p0 ops /\
    sp_run ovf tol inst (si_area inst * 2 / hgt) c ptr ops = Ok (p, []) /\ fit_strip tol p ptr' = Ok p1 /\ sp_create p1 = Ok (s, p2) /\
    forall i it q, nth_error items i = Some (it, q) -> (copies i [sp_layout p] <= q)%nat.
Proof. intros M ED BS G RG X Hb N. exact (lbf_sp_run M Hb). Qed.
Print Assumptions C44_sp_run.

(** *** C55: what the optimizer returns is a packing *)
Theorem C55_bp_packing :
  forall (M : R) (ED : EqD (dtransf R)) (BS : BSearch) (G : Type) (RG : Rng R G) (X : Extra R), bsearch_ok BS -> let N := RNumT Reqb M in
  forall items bins (inst : bpinst R (dtransf R)) cfg (g : G) ptr p s p',
  bpinst_new items bins = Ok inst -> Forall (fun b => good_bin (fst b)) bins -> fine_items items -> fine_bins bins ->
  lbf_bp inst cfg g ptr = Ok (p, s, p') ->
  Forall (fun sn => packed items (ls_bin sn) (snap_placed sn) /\ In (ls_bin sn) (map fst bins) /\ snap_placed sn <> []) (so_layouts s) /\
  (forall i it q, nth_error items i = Some (it, q) -> (count i (sol_items s) <= q)%nat) /\
  (forall b x n, nth_error bins b = Some (x, n) -> (count b (map (fun sn => bn_id (ls_bin sn)) (so_layouts s)) <= n)%nat).
Proof. intros M ED BS G RG X Hb N. exact (lbf_packs M Hb). Qed.
Print Assumptions C55_bp_packing.
(** for a strip: every copy demanded, in a strip of the height asked for *)
Theorem C55_sp_packing :
  forall (M : R) (ED : EqD (dtransf R)) (BS : BSearch) (G : Type) (RG : Rng R G) (X : Extra R), bsearch_ok BS -> let N := RNumT Reqb M in
  forall items hgt (inst : spinst R) fuel tol c cfg (g : G) ptr p s p2,
  spinst_new items hgt = Ok inst -> fine_items items -> lbf_sp fuel tol inst c cfg g ptr = Ok (Some (p, s, p2)) ->
  exists sn, so_layouts s = [sn] /\ packed items (ls_bin sn) (snap_placed sn) /\
    (forall i it q, nth_error items i = Some (it, q) -> count i (sol_items s) = q) /\
    y_min (p_bbox (a_obj (bn_outer (ls_bin sn)))) = Rmin 0 hgt /\ y_max (p_bbox (a_obj (bn_outer (ls_bin sn)))) = Rmax 0 hgt /\
    bin_statics (ls_bin sn) = [hazard_new BinExterior (bn_outer (ls_bin sn))] /\
    good_shape (a_obj (bn_outer (ls_bin sn))).
Proof. intros M ED BS G RG X Hb N. exact (lbf_sp_packs M Hb). Qed.
Print Assumptions C55_sp_packing.

(** *** C57: the optimizer ends *)
(** for bins: no item takes more rounds than there are copies missing *)
Theorem C57_bp_rounds :
  forall (M : R) (ED : EqD (dtransf R)) (BS : BSearch) (G : Type) (RG : Rng R G) (X : Extra R), let N := RNumT Reqb M in
  forall items bins (inst : bpinst R (dtransf R)) ovf ops p cfg i it q m f (g : G) ptr,
  bpinst_new items bins = Ok inst -> bp_run ovf inst (place_ops ops) = Ok (p, []) -> nth_error items i = Some (it, q) ->
  nth_error (bp_missing p) i = Some m -> (Z.to_nat m <= f)%nat ->
  bp_fill f cfg i it (p, g, ptr) = bp_fill (Z.to_nat m) cfg i it (p, g, ptr).
Proof. intros M ED BS G RG X N. exact (lbf_rounds M). Qed.
Print Assumptions C57_bp_rounds.
(** for strips it need not: an item that is as high as the strip, however it is turned,
    makes the strip grow for ever *)
Theorem C57_tall_item_never_ends :
  forall (M : R) (ED : EqD (dtransf R)) (BS : BSearch) (G : Type) (RG : Rng R G) (X : Extra R), bsearch_ok BS -> let N := RNumT Reqb M in
  forall items hgt (inst : spinst R) i it q, spinst_new items hgt = Ok inst -> fine_items items -> 0 < hgt ->
  nth_error items i = Some (it, q) -> (0 < q)%nat ->
  (forall a t, allowed (it_rot it) a -> turns a t ->
     exists v w, In v (moved t (it_shape it)) /\ In w (moved t (it_shape it)) /\ hgt <= py w - py v) ->
  forall fuel tol c cfg (g : G) ptr r, lbf_sp fuel tol inst c cfg g ptr <> Ok (Some r).
Proof. intros M ED BS G RG X Hb N. exact (tall_never_ends M Hb). Qed.
Print Assumptions C57_tall_item_never_ends.
Theorem C57_strip_search_ends_refuted :
  forall (ED : EqD (dtransf R)) (BS : BSearch), bsearch_ok BS -> forall M : R,
  exists (items : list (item R * nat)) hgt inst, @spinst_new R (RNumT Reqb M) items hgt = Ok inst /\ fine_items items /\ 0 < hgt /\
    forall (G : Type) (RG : Rng R G) (X : Extra R) fuel tol c cfg (g : G) ptr r,
    lbf_sp (N := RNumT Reqb M) fuel tol inst c cfg g ptr <> Ok (Some r).
Proof. exact strip_search_never_ends. Qed.
Print Assumptions C57_strip_search_ends_refuted.
