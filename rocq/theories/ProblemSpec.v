(** Vocabulary of the statements about layouts and problems: histories of API calls,
    counting placed items and open layouts, well-formed bins and items.
    Definitions only. *)
From Coq Require Import List Bool Arith ZArith Permutation.
From Verif Require Import Base Num GeoModel HazardModel QTModel TransfModel HpgModel CdeModel CdeSpec
  PolyModel SlotMapModel LayoutModel ProblemModel.
Import ListNotations.

Section Spec.
  Context {F : Type} {N : Num F} {D : Type} {ED : EqD D} {BS : BSearch} {DC : DComp F D}.
  Local Notation hazard := (hazard F D).
  Local Notation entity := (entity D).
  Local Notation item := (item F).
  Local Notation bin := (bin F D).
  Local Notation layout := (layout F D).
  Local Notation lsnap := (lsnap F D).
  Local Notation solution := (solution F D).
  Local Notation bp := (bp F D).
  Local Notation sp := (sp F D).
  Local Notation popt := (popt D).
  Local Notation pitem := (pitem F D).

  (** *** bins *)
  Definition bin_statics (b : bin) : list hazard := bin_hazards (bn_outer b) (bn_holes b) (bn_zones b).
  Definition bin_box (b : bin) : rect F := inflate_to_square (p_bbox (a_obj (bn_outer b))).
  (** a bin made by its constructor from usable polygons *)
  Definition good_bin (b : bin) : Prop :=
    (exists id outer value pre holes zs c, bin_new id outer value pre holes zs c = Ok b) /\
    Forall (fun h => good_poly (a_obj (h_shape h))) (bin_statics b).

  (** *** placed items *)
  (** the shape of item [cat i] under the transformation [d] *)
  Definition shape_at (cat : nat -> poly F) (i : nat) (d : D) : poly F := tr_poly (dcompose d) (cat i).
  Definition content (l : layout) : nat * bin * smap pitem := (ly_id l, ly_bin l, ly_items l).
  Definition snap_content (s : lsnap) : nat * bin * smap pitem := (ls_id s, ls_bin s, ls_items s).
  Definition placed (l : layout) : list (nat * D) :=
    map (fun p => (pi_item p, pi_dt p)) (sm_values (ly_items l)).
  Definition snap_placed (s : lsnap) : list (nat * D) :=
    map (fun p => (pi_item p, pi_dt p)) (sm_values (ls_items s)).

  (** the collision engine of a layout knows exactly its placed items, with the shapes
      given by [cat], and answers like a fresh engine of its bin in which they are
      registered *)
  Definition mirrored (cat : nat -> poly F) (l : layout) : Prop :=
    NoDup (placed l) /\ cd_static (ly_cde l) = bin_statics (ly_bin l) /\
    Permutation (map fact_of (cd_dyn (ly_cde l)))
      (map (fun x => (PlacedItem (fst x) (snd x), shape_at cat (fst x) (snd x), true)) (placed l)) /\
    exists c sn,
      engine (bin_box (ly_bin l)) (bin_statics (ly_bin l)) (cfg_depth (bn_cfg (ly_bin l))) 0
             (map (fun p => OReg (pi_hazard p)) (sm_values (ly_items l))) = Ok (c, sn) /\
      forall q, good_question q -> exists t, ask (ly_cde l) q = Ok t /\ ask c q = Ok t.

  (** *** one layout and its snapshots *)
  Inductive lop :=
  | LPlace (it : item) (d : D) (ptr : nat)
  | LRemove (k : skey) (instant : bool)
  | LChangeBin (b : bin)
  | LSnap
  | LRestore (k : nat)
  | LFlush.
  Definition lstep (s : layout * list lsnap) (o : lop) : res (layout * list lsnap) :=
    let '(l, sn) := s in
    match o with
    | LPlace it d ptr => '(_, l') <- layout_place l it d ptr ;; Ok (l', sn)
    | LRemove k b => '(_, l') <- layout_remove l k b ;; Ok (l', sn)
    | LChangeBin b => l' <- layout_change_bin l b ;; Ok (l', sn)
    | LSnap => '(s', l') <- layout_snapshot l ;; Ok (l', sn ++ [s'])
    | LRestore k => s' <- expect (nth_error sn k) ;; l' <- layout_restore l s' ;; Ok (l', sn)
    | LFlush => l' <- layout_flush l ;; Ok (l', sn)
    end.
  (** An item id always denotes the same item, whose shape stays usable under the
      transformation; an item is not placed twice at the same spot of one layout. *)
  Definition lop_ok (cat : nat -> poly F) (l : layout) (o : lop) : Prop :=
    match o with
    | LPlace it d _ => it_shape it = cat (it_id it) /\ good_poly (shape_at cat (it_id it) d) /\
                       ~ In (it_id it, d) (placed l)
    | LChangeBin b => good_bin b
    | _ => True
    end.
  (** all operations satisfy their precondition in the state they are performed *)
  Fixpoint lops_ok (cat : nat -> poly F) (s : layout * list lsnap) (ops : list lop) : Prop :=
    match ops with
    | [] => True
    | o :: r => lop_ok cat (fst s) o /\
                match lstep s o with Ok s' => lops_ok cat s' r | Panic => True end
    end.

  Definition no_restore (o : lop) : Prop := match o with LRestore _ => False | _ => True end.
  Definition removes (k : skey) (o : lop) : Prop := match o with LRemove k' _ => k' = k | _ => False end.

  (** *** bin packing *)
  Inductive bop :=
  | BPlace (o : popt) (ptr : nat)
  | BRemove (li : lidx) (k : skey) (instant : bool)
  | BRemoveLayout (li : lidx)
  | BCreate (old : option nat)
  | BRestore (k : nat)
  | BFlush.
  (** [BCreate (Some k)] passes the [k]-th solution created so far, [BRestore k]
      restores it *)
  Definition bstep (ovf : bool) (s : bp * list solution) (o : bop) : res (bp * list solution) :=
    let '(p, h) := s in
    match o with
    | BPlace o ptr => '(_, p') <- bp_place p o ptr ;; Ok (p', h)
    | BRemove li k b => '(_, p') <- bp_remove p li k b ;; Ok (p', h)
    | BRemoveLayout li => p' <- bp_deregister_layout p li ;; Ok (p', h)
    | BCreate old =>
        old' <- match old with
                | None => Ok None
                | Some k => s' <- expect (nth_error h k) ;; Ok (Some s')
                end ;;
        '(s', p') <- bp_create p old' ;; Ok (p', h ++ [s'])
    | BRestore k => s' <- expect (nth_error h k) ;; p' <- bp_restore ovf p s' ;; Ok (p', h)
    | BFlush => p' <- bp_flush p ;; Ok (p', h)
    end.
  Definition bp_run (ovf : bool) (i : bpinst F D) (ops : list bop) : res (bp * list solution) :=
    rfold (bstep ovf) ops (bp_new i, []).
  (** the layout a placing option denotes *)
  Definition target (p : bp) (li : lidx) : option layout :=
    match li with Real i => nth_error (bp_layouts p) i | Template t => nth_error (bp_templates p) t end.
  Definition item_shape (items : list (item * nat)) (i : nat) : poly F :=
    match nth_error items i with
    | Some (it, _) => it_shape it
    | None => Poly [] (Rc f0 f0 f0 f0) f0 f0 (Ci (Pt f0 f0) f0) None
    end.
  Definition place_ok (items : list (item * nat)) (l : option layout) (o : popt) : Prop :=
    good_poly (shape_at (item_shape items) (po_item o) (po_dt o)) /\
    match l with Some l => ~ In (po_item o, po_dt o) (placed l) | None => True end.
  Definition bop_ok (p : bp) (o : bop) : Prop :=
    match o with
    | BPlace o _ => place_ok (bi_items (bp_inst p)) (target p (po_layout o)) o
    | _ => True
    end.
  Fixpoint bops_ok (ovf : bool) (s : bp * list solution) (ops : list bop) : Prop :=
    match ops with
    | [] => True
    | o :: r => bop_ok (fst s) o /\
                match bstep ovf s o with Ok s' => bops_ok ovf s' r | Panic => True end
    end.
  Definition good_inst (i : bpinst F D) : Prop :=
    (exists items bins, bpinst_new items bins = Ok i) /\ Forall (fun p => good_bin (fst p)) (bi_bins i).

  (** ids of the items in the layouts of a solution, one per placed item *)
  Definition sol_items (s : solution) : list nat :=
    flat_map (fun sn => map fst (snap_placed sn)) (so_layouts s).
  (** copies of item [i] in the layouts *)
  Definition count (i : nat) (l : list nat) : nat := length (filter (Nat.eqb i) l).
  Definition items_in (ls : list layout) : list nat :=
    flat_map (fun l => map (@pi_item F D) (sm_values (ly_items l))) ls.
  Definition copies (i : nat) (ls : list layout) : nat := count i (items_in ls).
  (** open layouts of bin type [b] *)
  Definition open_of (b : nat) (ls : list layout) : nat := count b (map (fun l => bn_id (ly_bin l)) ls).

  (** *** strip packing *)
  Inductive sop :=
  | SPlace (o : popt) (ptr : nat)
  | SRemove (li : lidx) (k : skey) (instant : bool)
  | SModify (r : rect F) (ptr : nat)
  | SBack (w : F) (ptr : nat)
  | SFront (w : F) (ptr : nat)
  | SCentered (w : F) (ptr : nat)
  | SFit (ptr : nat)
  | SCreate
  | SRestore (k : nat)
  | SFlush.
  Definition sstep (ovf : bool) (tol : F) (s : sp * list solution) (o : sop) : res (sp * list solution) :=
    let '(p, h) := s in
    match o with
    | SPlace o ptr => '(_, p') <- sp_place p o ptr ;; Ok (p', h)
    | SRemove li k b => '(_, p') <- sp_remove p li k b ;; Ok (p', h)
    | SModify r ptr => p' <- modify_strip p r ptr ;; Ok (p', h)
    | SBack w ptr => p' <- modify_strip_in_back p w ptr ;; Ok (p', h)
    | SFront w ptr => p' <- modify_strip_at_front p w ptr ;; Ok (p', h)
    | SCentered w ptr => p' <- modify_strip_centered p w ptr ;; Ok (p', h)
    | SFit ptr => p' <- fit_strip tol p ptr ;; Ok (p', h)
    | SCreate => '(s', p') <- sp_create p ;; Ok (p', h ++ [s'])
    | SRestore k => s' <- expect (nth_error h k) ;; p' <- sp_restore ovf p s' ;; Ok (p', h)
    | SFlush => p' <- sp_flush p ;; Ok (p', h)
    end.
  Definition sop_ok (p : sp) (o : sop) : Prop :=
    match o with
    | SPlace o _ => place_ok (si_items (sp_inst p)) (Some (sp_layout p)) o
    | _ => True
    end.
  Fixpoint sops_ok (ovf : bool) (tol : F) (s : sp * list solution) (ops : list sop) : Prop :=
    match ops with
    | [] => True
    | o :: r => sop_ok (fst s) o /\
                match sstep ovf tol s o with Ok s' => sops_ok ovf tol s' r | Panic => True end
    end.
  Definition good_sinst (i : spinst F) : Prop := exists items h, spinst_new items h = Ok i.
  (** comparing coordinates is symmetric *)
  Definition feq_sym : Prop := forall a b : F, feq a b = feq b a.
  Definition sp_run (ovf : bool) (tol : F) (i : spinst F) (w : F) (c : cfg) (ptr : nat) (ops : list sop)
      : res (sp * list solution) :=
    p <- sp_new i w c ptr ;; rfold (sstep ovf tol) ops (p, []).
End Spec.
Arguments lop F D : clear implicits.
Arguments bop D : clear implicits.
Arguments sop F D : clear implicits.
