(** Export and import of solutions: [/repo/jagua-rs/src/io/parser.rs] (lines 263-446) and
    [json_solution.rs].  Definitions only.

    [pre i] is the pretransformation of the item with index [i] of the instance (the
    field [pretransform] of item.rs:19, which the record [item] of this model leaves
    out).  The text of the file is not modelled: numbers are written and read exactly.
    The run time (json_solution.rs:12) is left out. *)
From Coq Require Import List Bool Arith.
From Verif Require Import Base Num GeoModel HazardModel QTModel TransfModel HpgModel CdeModel
  PolyModel SlotMapModel LayoutModel ProblemModel ParserModel LbfModel.
Import ListNotations.

(** json_solution.rs:58-75 *)
Inductive jcontainer (F : Type) := JBin (index : nat) | JStrip (width height : F).
Arguments JBin {F} _.
Arguments JStrip {F} _ _.
(** json_solution.rs:18-55; a [JsonPlacedItem] is the pair of its index and its
    transformation *)
Record jlayout (F : Type) := JL {
  jl_container : jcontainer F; jl_items : list (nat * dtransf F); jl_usage : F }.
Arguments JL {F} _ _ _.
Arguments jl_container {F} _.
Arguments jl_items {F} _.
Arguments jl_usage {F} _.
(** json_solution.rs:8-15 *)
Record jsolution (F : Type) := JS { js_usage : F; js_layouts : list (jlayout F) }.
Arguments JS {F} _ _.
Arguments js_usage {F} _.
Arguments js_layouts {F} _.

Section Io.
  Context {F : Type} {N : Num F} {T : Trig F} {ED : EqD (dtransf F)} {BS : BSearch}.
  Local Open Scope num_scope.
  Local Notation item := (item F).
  Local Notation bin := (bin F (dtransf F)).
  Local Notation lsnap := (lsnap F (dtransf F)).
  Local Notation pitem := (pitem F (dtransf F)).
  Local Notation solution := (solution F (dtransf F)).
  Local Notation bp := (bp F (dtransf F)).
  Local Notation sp := (sp F (dtransf F)).
  Variable pre : nat -> transf F.

  (** *** export *)
  (** parser.rs:411-430 *)
  Definition export_item (items : list (item * nat)) (b : bin) (p : pitem) : res (nat * dtransf F) :=
    _ <- item_of items (pi_item p) ;;
    Ok (pi_item p, decompose (internal_to_absolute (pi_dt p) (pre (pi_item p)) (bn_pre b))).
  (** parser.rs:400-438; [container]: lines 401-407 *)
  Definition export_layout (items : list (item * nat)) (container : bin -> jcontainer F) (s : lsnap)
      : res (jlayout F) :=
    l <- rmapM (export_item items (ls_bin s)) (sm_values (ls_items s)) ;;
    Ok (JL (container (ls_bin s)) l (ls_usage s)).
  (** parser.rs:392-446 *)
  Definition compose_json (items : list (item * nat)) (container : bin -> jcontainer F) (s : solution)
      : res (jsolution F) :=
    l <- rmapM (export_layout items container) (so_layouts s) ;; Ok (JS (so_usage s) l).
  Definition bp_export (i : bpinst F (dtransf F)) (s : solution) : res (jsolution F) :=
    compose_json (bi_items i) (fun b => JBin (bn_id b)) s.
  Definition sp_export (i : spinst F) (s : solution) : res (jsolution F) :=
    compose_json (si_items i) (fun b => JStrip (r_width (p_bbox (a_obj (bn_outer b)))) (si_height i)) s.

  (** *** import *)
  (** parser.rs:294-303, 347-357, 370-378 *)
  Definition import_dt (b : bin) (x : nat * dtransf F) : dtransf F :=
    decompose (absolute_to_internal (snd x) (pre (fst x)) (bn_pre b)).
  (** parser.rs:346-364, 368-384: one item; the state is the problem and the next free
      allocation *)
  Definition bp_put (b : bin) (li : lidx) (st : bp * nat) (x : nat * dtransf F) : res (lidx * (bp * nat)) :=
    let '(p, ptr) := st in
    it <- item_of (bi_items (bp_inst p)) (fst x) ;;
    '(r, p1) <- bp_place p (PO li (it_id it) (import_dt b x)) ptr ;;
    p2 <- bp_flush p1 ;;
    Ok (fst r, (p2, S ptr)).
  (** parser.rs:323-386: one layout *)
  Definition bp_import_layout (i : bpinst F (dtransf F)) (st : bp * nat) (j : jlayout F) : res (bp * nat) :=
    b <- match jl_container j with
         | JBin k => x <- expect (nth_error (bi_bins i) k) ;; Ok (fst x)
         | JStrip _ _ => Panic
         end ;;
    t <- expect (position (fun l => Nat.eqb (bn_id (ly_bin l)) (bn_id b)) (bp_templates (fst st))) ;;
    match jl_items j with
    | [] => Panic
    | x :: xs =>
        '(li, st1) <- bp_put b (Template t) st x ;;
        rfold (fun st y => '(_, st') <- bp_put b li st y ;; Ok st') xs st1
    end.
  (** parser.rs:320-389 *)
  Definition bp_import (i : bpinst F (dtransf F)) (js : list (jlayout F)) (ptr : nat) : res solution :=
    '(p, _) <- rfold (bp_import_layout i) js (bp_new i, ptr) ;;
    '(s, _) <- bp_create p None ;;
    Ok s.
  (** parser.rs:293-315 *)
  Definition sp_put (st : sp * nat) (x : nat * dtransf F) : res (sp * nat) :=
    let '(p, ptr) := st in
    it <- item_of (si_items (sp_inst p)) (fst x) ;;
    '(_, p1) <- sp_place p (PO (Real 0) (it_id it) (import_dt (ly_bin (sp_layout p)) x)) ptr ;;
    p2 <- sp_flush p1 ;;
    Ok (p2, S ptr).
  (** parser.rs:278-318 *)
  Definition sp_import_layout (i : spinst F) (j : jlayout F) (c : cfg) (ptr : nat) : res solution :=
    p <- match jl_container j with JBin _ => Panic | JStrip w _ => sp_new i w c ptr end ;;
    '(p', _) <- rfold sp_put (jl_items j) (p, S ptr) ;;
    '(s, _) <- sp_create p' ;;
    Ok s.
  (** parser.rs:270-274 *)
  Definition sp_import (i : spinst F) (js : list (jlayout F)) (c : cfg) (ptr : nat) : res solution :=
    match js with [j] => sp_import_layout i j c ptr | _ => Panic end.
End Io.
