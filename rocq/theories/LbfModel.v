(** The reference optimizer: [/repo/lbf/src/lbf_optimizer.rs], [lbf_cost.rs],
    [samplers/*.rs].  Definitions only.

    Random numbers come from an arbitrary generator: [SmallRng] and the distributions of
    [rand] and [rand_distr] are the operations of the class [Rng], without laws.
    Logging and the sample counters are omitted.  [drawn] lists the transformations
    tried so far; it is not part of the code and nothing depends on it. *)
From Coq Require Import List Bool Arith ZArith.
From Verif Require Import Base Num GeoModel HazardModel QTModel TransfModel HpgModel CdeModel
  PolyModel SlotMapModel LayoutModel ProblemModel.
Import ListNotations.

Class Rng (F G : Type) := {
  g_index : G -> nat -> nat * G;        (** [SliceRandom::choose]; taken modulo the length *)
  g_uniform : G -> F -> F -> F * G;     (** [Uniform::new(low, high).sample] *)
  g_normal : G -> F -> F -> F * G       (** [Normal::new(mean, std_dev).sample] *)
}.
(** constants and functions of [fsize] used here only *)
Class Extra (F : Type) := {
  fPI : F;                              (** lib.rs: [PI] *)
  fpowf : F -> F -> F                   (** [fsize::powf] *)
}.

(** lbf_config.rs:9-24: [n_samples], and [(n_samples as f32 * ls_frac) as usize] of
    lbf_optimizer.rs:193; the rounding of that product is not modelled *)
Record lbf_cfg := LC { lc_samples : nat; lc_local : nat }.

Section Sampler.
  Context {F : Type} {N : Num F} {T : Trig F} {G : Type} {RG : Rng F G} {X : Extra F}.
  Local Open Scope num_scope.
  Local Notation rect := (rect F).
  Local Notation poly := (poly F).
  Local Notation transf := (transf F).
  Local Notation dtransf := (dtransf F).
  Local Notation item := (item F).

  (** *** lbf_cost.rs *)
  (** lbf_cost.rs:7, 17-20 *)
  Definition lbf_cost (x y : F) : F := x * fofN 10 + y.
  (** lbf_cost.rs:22-24 *)
  Definition shape_cost (s : poly) : F := lbf_cost (x_max (p_bbox s)) (y_max (p_bbox s)).

  (** *** rotation_distr.rs *)
  (** [slice.choose(rng)] *)
  Definition choose {A} (g : G) (l : list A) : option (A * G) :=
    match l with
    | [] => None
    | x :: r => let '(i, g') := g_index g (length l) in Some (nth (Nat.modulo i (length l)) l x, g')
    end.
  (** rotation_distr.rs:17-46; [unwrap] on an empty list of rotations *)
  Definition sample_rot (r : rotation F) (g : G) : res (F * G) :=
    match r with
    | RotNone => Ok (f0, g)
    | RotContinuous => Ok (g_uniform g f0 (f2 * fPI))
    | RotDiscrete l => expect (choose g l)
    end.

  (** *** uniform_rect_sampler.rs *)
  (** uniform_rect_sampler.rs:20-30: [Uniform::new] panics unless [low < high] *)
  Definition rect_sampler (b : rect) : res rect :=
    if (x_min b <? x_max b) && (y_min b <? y_max b) then Ok b else Panic.
  (** uniform_rect_sampler.rs:32-38 *)
  Definition sample_rect (b : rect) (r : rotation F) (g : G) : res (dtransf * G) :=
    '(a, g1) <- sample_rot r g ;;
    let '(x, g2) := g_uniform g1 (x_min b) (x_max b) in
    let '(y, g3) := g_uniform g2 (y_min b) (y_max b) in
    Ok (DT a x y, g3).

  (** *** hpg_sampler.rs *)
  (** hpg_sampler.rs:19-27, without the counters; one rotation distribution for all cells *)
  Record hsampler := HS { hs_item : item; hs_cells : list rect; hs_bound : F; hs_pre : transf }.
  Fixpoint rfilter {A} (f : A -> res bool) (l : list A) : res (list A) :=
    match l with
    | [] => Ok []
    | x :: r => b <- f x ;; r' <- rfilter f r ;; Ok (if b then x :: r' else r')
    end.
  (** hpg_sampler.rs:30-77 *)
  Definition hsampler_new {D} (it : item) (cells : list (cell F D)) (bin_bbox : rect) : res (option hsampler) :=
    let poi := p_poi (it_shape it) in
    el <- rfilter (fun c => could_accommodate c (crad poi) (it_quality it)) cells ;;
    rs <- rmapM rect_sampler (omap (fun c => from_intersection (c_bbox' c) bin_bbox) el) ;;
    Ok (match rs with
        | [] => None
        | _ => Some (HS it rs (lbf_cost (x_max bin_bbox) (y_max bin_bbox))
                        (transl_m (- px (ccen poi)) (- py (ccen poi))))
        end).
  (** hpg_sampler.rs:80-91 *)
  Definition hsampler_sample (h : hsampler) (g : G) : res (transf * G) :=
    '(b, g1) <- expect (choose g (hs_cells h)) ;;
    '(d, g2) <- sample_rect b (it_rot (hs_item h)) g1 ;;
    Ok (transform_from_decomposed (hs_pre h) d, g2).
  (** hpg_sampler.rs:95-123 *)
  Definition tighten (h : hsampler) (best : F) : hsampler :=
    let r := crad (p_poi (it_shape (hs_item h))) in
    if best <? hs_bound h
    then HS (hs_item h) (filter (fun b => lbf_cost (x_min b + r) (y_min b + r) <? best) (hs_cells h)) best (hs_pre h)
    else h.

  (** *** ls_sampler.rs *)
  (** rotation_distr.rs:25-29 *)
  Inductive nrot := NNone | NRange (mean sd : F) | NDiscrete (r : F).
  (** ls_sampler.rs:21-30 *)
  Record lsampler := LS {
    ls_x : F; ls_y : F; ls_rot : nrot; ls_sdt : F; ls_sdr : F; ls_transl : F * F; ls_rotr : F * F }.
  (** rotation_distr.rs:50-58 *)
  Definition nrot_of (r : rotation F) (mean sd : F) : nrot :=
    match r with RotNone => NNone | RotContinuous => NRange mean sd | RotDiscrete _ => NDiscrete mean end.
  (** rotation_distr.rs:60-67: a discrete rotation keeps its mean *)
  Definition nrot_mean (n : nrot) (m : F) : nrot := match n with NRange _ sd => NRange m sd | _ => n end.
  (** rotation_distr.rs:69-76 *)
  Definition nrot_sd (n : nrot) (sd : F) : nrot := match n with NRange m _ => NRange m sd | _ => n end.
  (** rotation_distr.rs:78-84 *)
  Definition nrot_sample (n : nrot) (g : G) : F * G :=
    match n with NNone => (f0, g) | NRange m sd => g_normal g m sd | NDiscrete r => (r, g) end.
  (** ls_sampler.rs:33-63, 13-16.  [Normal::new] only refuses infinite deviations.  The
      literals 0.01, 0.0005 and 0.5 are quotients of whole numbers. *)
  Definition lsampler_new (it : item) (d : dtransf) (bb : rect) : lsampler :=
    let m := fmax (r_width bb) (r_height bb) in
    let tr := (fofN 1 / fofN 100 * m, fofN 5 / fofN 100 / fofN 100 * m) in
    let rr := (f2 * fPI / fofN 180, f1 / f2 * fPI / fofN 180) in
    LS (dt_tx d) (dt_ty d) (nrot_of (it_rot it) (dt_rot d) (fst rr)) (fst tr) (fst rr) tr rr.
  (** ls_sampler.rs:66-70 *)
  Definition shift_mean (l : lsampler) (d : dtransf) : lsampler :=
    LS (dt_tx d) (dt_ty d) (nrot_mean (ls_rot l) (dt_rot d)) (ls_sdt l) (ls_sdr l) (ls_transl l) (ls_rotr l).
  (** ls_sampler.rs:73-81 *)
  Definition set_stddev (l : lsampler) (t r : F) : res lsampler :=
    _ <- rassert ((f0 <=? t) && (f0 <=? r)) ;;
    Ok (LS (ls_x l) (ls_y l) (nrot_sd (ls_rot l) r) t r (ls_transl l) (ls_rotr l)).
  (** ls_sampler.rs:90-96 *)
  Definition decay_stddev (l : lsampler) (pct : F) : res lsampler :=
    let calc p := fst p * fpowf (snd p / fst p) pct in
    set_stddev l (calc (ls_transl l)) (calc (ls_rotr l)).
  (** ls_sampler.rs:99-106 *)
  Definition lsampler_sample (l : lsampler) (g : G) : dtransf * G :=
    let '(r, g1) := nrot_sample (ls_rot l) g in
    let '(x, g2) := g_normal g1 (ls_x l) (ls_sdt l) in
    let '(y, g3) := g_normal g2 (ls_y l) (ls_sdt l) in
    (DT r x y, g3).
End Sampler.
Arguments hsampler F : clear implicits.
Arguments lsampler F : clear implicits.
Arguments nrot F : clear implicits.

(** layouts whose placed items carry a [DTransformation] *)
#[global] Instance DTComp {F : Type} {N : Num F} {T : Trig F} : DComp F (dtransf F) := {| dcompose := compose |}.

Section Lbf.
  Context {F : Type} {N : Num F} {T : Trig F} {ED : EqD (dtransf F)} {BS : BSearch}
    {G : Type} {RG : Rng F G} {X : Extra F}.
  Local Open Scope num_scope.
  Local Notation poly := (poly F).
  Local Notation transf := (transf F).
  Local Notation dtransf := (dtransf F).
  Local Notation item := (item F).
  Local Notation layout := (layout F dtransf).
  Local Notation bp := (bp F dtransf).
  Local Notation sp := (sp F dtransf).
  Local Notation popt := (popt dtransf).
  Local Notation solution := (solution F dtransf).

  (** lbf_optimizer.rs:177-180, with item.rs:40 *)
  Definition item_irrelevant {D} (q : option nat) (hs : list (hazard F D)) : list (entity D) :=
    match q with None => [] | Some q => generate_irrelevant (qz_filter q) hs end.
  (** lbf_optimizer.rs:182-187 *)
  Definition strip_surrogate (s : poly) : poly :=
    Poly (p_pts s) (p_bbox s) (p_area s) (p_diam s) (p_poi s) None.

  (** the state of the two loops of [sample_layout] *)
  Record search (S : Type) := Se {
    se_rng : G; se_sampler : S; se_buf : poly; se_best : option (popt * F); se_drawn : list transf }.
  Arguments Se {S} _ _ _ _ _.
  Arguments se_rng {S} _.
  Arguments se_sampler {S} _.
  Arguments se_buf {S} _.
  Arguments se_best {S} _.
  Arguments se_drawn {S} _.
  (** lbf_optimizer.rs:207-212, 253 *)
  Definition worth_testing (best : option (popt * F)) (cost : F) : bool :=
    match best with Some (_, b) => cost <? b | None => true end.
  (** lbf_optimizer.rs:201-214 and 248-255: what both loops do with a sample [t]:
      the transformed buffer and, if the sample is to replace the best one, its cost *)
  Definition examine (c : cde F dtransf) (sur : surrogate F) (irr : list (entity dtransf)) (it : item)
      (best : option (popt * F)) (buf : poly) (t : transf) : res (poly * option F) :=
    b <- surrogate_collides c sur t irr ;;
    if b then Ok (buf, None)
    else
      buf' <- tr_poly_from t buf (it_shape it) ;;
      let cost := shape_cost buf' in
      if worth_testing best cost
      then hit <- poly_collides c buf' irr ;; Ok (buf', if hit then None else Some cost)
      else Ok (buf', None).
  (** lbf_optimizer.rs:199-230, one sample *)
  Definition uniform_step (c : cde F dtransf) (sur : surrogate F) (irr : list (entity dtransf)) (li : lidx)
      (it : item) (s : search (hsampler F)) : res (search (hsampler F)) :=
    '(t, g) <- hsampler_sample (se_sampler s) (se_rng s) ;;
    '(buf, r) <- examine c sur irr it (se_best s) (se_buf s) t ;;
    Ok (match r with
        | Some cost => Se g (tighten (se_sampler s) cost) buf
                          (Some (PO li (it_id it) (decompose t), cost)) (se_drawn s ++ [t])
        | None => Se g (se_sampler s) buf (se_best s) (se_drawn s ++ [t])
        end).
  Fixpoint uniform_loop (n : nat) c sur irr li it (s : search (hsampler F)) : res (search (hsampler F)) :=
    match n with 0 => Ok s | S m => s' <- uniform_step c sur irr li it s ;; uniform_loop m c sur irr li it s' end.
  (** lbf_optimizer.rs:245-269, sample [i] of [n] *)
  Definition local_step (c : cde F dtransf) (sur : surrogate F) (irr : list (entity dtransf)) (li : lidx)
      (it : item) (n : nat) (s : search (lsampler F)) (i : nat) : res (search (lsampler F)) :=
    let '(d, g) := lsampler_sample (se_sampler s) (se_rng s) in
    let t := compose d in
    '(buf, r) <- examine c sur irr it (se_best s) (se_buf s) t ;;
    let '(sm, best) := match r with
                       | Some cost => (shift_mean (se_sampler s) d, Some (PO li (it_id it) d, cost))
                       | None => (se_sampler s, se_best s)
                       end in
    sm' <- decay_stddev sm (fofN i / fofN n) ;;
    Ok (Se g sm' buf best (se_drawn s ++ [t])).
  (** lbf_optimizer.rs:167-274.  Returns the option found, the generator and the
      transformations tried. *)
  Definition sample_layout (li : lidx) (l : layout) (it : item) (cfg : lbf_cfg) (g : G)
      : res (option popt * G * list transf) :=
    let c := ly_cde l in
    let irr := item_irrelevant (it_quality it) (all_hazards c) in
    sur <- expect (p_surr (it_shape it)) ;;
    (* the subtraction of the budgets, an overflow panics *)
    _ <- rassert (Nat.leb (lc_local cfg) (lc_samples cfg)) ;;
    o <- cde_hpg c ;;
    grid <- expect o ;;
    h <- hsampler_new it (omap (fun x => x) (g_cells (hg_grid grid))) (p_bbox (a_obj (bn_outer (ly_bin l)))) ;;
    match h with
    | None => Ok (None, g, [])
    | Some h =>
        s <- uniform_loop (lc_samples cfg - lc_local cfg)%nat c sur irr li it
               (Se g h (strip_surrogate (it_shape it)) None []) ;;
        match se_best s with
        | None => Ok (None, se_rng s, se_drawn s)
        | Some (o, cost) =>
            let lsm := lsampler_new it (po_dt o) (p_bbox (a_obj (bn_outer (ly_bin l)))) in
            s' <- rfold (local_step c sur irr li it (lc_local cfg)) (seq 0 (lc_local cfg))
                    (Se (se_rng s) lsm (se_buf s) (Some (o, cost)) (se_drawn s)) ;;
            Ok (option_map fst (se_best s'), se_rng s', se_drawn s')
        end
    end.

  (** lbf_optimizer.rs:145-165: the layouts in the order of the search *)
  Fixpoint find_placement (ls : list (lidx * layout)) (it : item) (cfg : lbf_cfg) (g : G) : res (option popt * G) :=
    match ls with
    | [] => Ok (None, g)
    | (li, l) :: r =>
        '(o, g', _) <- sample_layout li l it cfg g ;;
        match o with Some _ => Ok (o, g') | None => find_placement r it cfg g' end
    end.
  (** problem_generic.rs:68-88 *)
  Definition bp_get_layout (p : bp) (li : lidx) : res layout :=
    match li with
    | Real i => expect (nth_error (bp_layouts p) i)
    | Template t => expect (nth_error (bp_templates p) t)
    end.
  Definition bp_candidates (p : bp) : res (list (lidx * layout)) :=
    ts <- templates_with_stock (bp_templates p) (bp_bins p) ;;
    rmapM (fun li => l <- bp_get_layout p li ;; Ok (li, l)) (map Real (seq 0 (length (bp_layouts p))) ++ ts).

  (** lbf_optimizer.rs:66-73: indices by descending diameter of the hull.  Fewer than two
      items are not sorted, and no key is computed ([slice::sort_by_cached_key]). *)
  Definition item_order (items : list (item * nat)) : res (list nat) :=
    if Nat.ltb (length items) 2 then Ok (seq 0 (length items)) else
    ks <- rmapM (fun p => s <- poly_new (convex_hull (p_pts (it_shape (fst (snd p))))) ;; Ok (fst p, p_diam s))
                (combine (seq 0 (length items)) items) ;;
    Ok (map fst (sort_by (fun k => - snd k) ks)).

  (** lbf_optimizer.rs:77-119 for a bin packing problem: the copies of one item.  [ptr]
      is the next free allocation.  Every round places a copy or ends the loop, so
      [fuel] equal to the missing quantity does not run out ([Panic] otherwise). *)
  Fixpoint bp_fill (fuel : nat) (cfg : lbf_cfg) (i : nat) (it : item) (s : bp * G * nat) : res (bp * G * nat) :=
    let '(p, g, ptr) := s in
    m <- expect (nth_error (bp_missing p) i) ;;
    if (0 <? m)%Z then
      match fuel with
      | 0 => Panic
      | S f =>
          ls <- bp_candidates p ;;
          '(o, g') <- find_placement ls it cfg g ;;
          match o with
          | Some o => '(_, p') <- bp_place p o ptr ;; bp_fill f cfg i it (p', g', S ptr)
          | None => Ok (p, g', ptr)
          end
      end
    else Ok s.
  Definition bp_fill_item (cfg : lbf_cfg) (s : bp * G * nat) (i : nat) : res (bp * G * nat) :=
    it <- item_of (bi_items (bp_inst (fst (fst s)))) i ;;
    m <- expect (nth_error (bp_missing (fst (fst s))) i) ;;
    bp_fill (Z.to_nat m) cfg i it s.
  (** lbf_optimizer.rs:44-142 for a bin packing instance: the problem without and with
      the final solution *)
  Definition lbf_bp (i : bpinst F dtransf) (cfg : lbf_cfg) (g : G) (ptr : nat) : res (bp * solution * bp) :=
    _ <- rassert (Nat.ltb 0 (lc_samples cfg)) ;;
    order <- item_order (bi_items i) ;;
    '(p, _, _) <- rfold (bp_fill_item cfg) order (bp_new i, g, ptr) ;;
    '(s, p') <- bp_create p None ;;
    Ok (p, s, p').

  (** lbf_optimizer.rs:77-119 for a strip packing problem.  The loop need not end:
      [None] after [fuel] rounds. *)
  Definition strip_width (p : sp) : F := r_width (strip_bbox p).
  Fixpoint sp_fill (fuel : nat) (cfg : lbf_cfg) (i : nat) (it : item) (s : sp * G * nat)
      : res (option (sp * G * nat)) :=
    let '(p, g, ptr) := s in
    m <- expect (nth_error (sp_missing p) i) ;;
    if (0 <? m)%Z then
      match fuel with
      | 0 => Ok None
      | S f =>
          '(o, g') <- find_placement [(Real 0, sp_layout p)] it cfg g ;;
          match o with
          | Some o => '(_, p') <- sp_place p o ptr ;; sp_fill f cfg i it (p', g', S ptr)
          | None => p' <- modify_strip_in_back p (strip_width p * (fofN 11 / fofN 10)) ptr ;;
                    sp_fill f cfg i it (p', g', (S ptr + sm_len (ly_items (sp_layout p)))%nat)
          end
      end
    else Ok (Some s).
  Fixpoint sp_fill_all (fuel : nat) (cfg : lbf_cfg) (order : list nat) (s : sp * G * nat)
      : res (option (sp * G * nat)) :=
    match order with
    | [] => Ok (Some s)
    | i :: r =>
        it <- item_of (si_items (sp_inst (fst (fst s)))) i ;;
        o <- sp_fill fuel cfg i it s ;;
        match o with Some s' => sp_fill_all fuel cfg r s' | None => Ok None end
    end.
  (** lbf_optimizer.rs:44-142 for a strip packing instance; [tol] is
      [FPA::tolerance()] *)
  Definition lbf_sp (fuel : nat) (tol : F) (i : spinst F) (c : cfg) (cfg : lbf_cfg) (g : G) (ptr : nat)
      : res (option (sp * solution * sp)) :=
    _ <- rassert (Nat.ltb 0 (lc_samples cfg)) ;;
    p0 <- sp_new i (si_area i * f2 / si_height i) c ptr ;;
    order <- item_order (si_items i) ;;
    o <- sp_fill_all fuel cfg order (p0, g, S ptr) ;;
    match o with
    | None => Ok None
    | Some (p, _, ptr') =>
        p1 <- fit_strip tol p ptr' ;;
        '(s, p2) <- sp_create p1 ;;
        Ok (Some (p, s, p2))
    end.
End Lbf.
Arguments Se {F G S} _ _ _ _ _.
Arguments se_rng {F G S} _.
Arguments se_sampler {F G S} _.
Arguments se_buf {F G S} _.
Arguments se_best {F G S} _.
Arguments se_drawn {F G S} _.
