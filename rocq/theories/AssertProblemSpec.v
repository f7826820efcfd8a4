(** Vocabulary of the statements about debug builds of problems.  Definitions only. *)
From Coq Require Import List Bool Arith ZArith.
From Verif Require Import Base Num GeoModel HazardModel QTModel TransfModel HpgModel CdeModel CdeSpec
  PolyModel SlotMapModel LayoutModel ProblemModel ProblemSpec AssertModel AssertSpec AssertLayoutModel
  AssertLayoutSpec AssertProblemModel.
Import ListNotations.

Section Spec.
  Context {F : Type} {N : Num F} {D : Type} {ED : EqD D} {BS : BSearch} {DC : DComp F D}.
  Local Notation layout := (layout F D).
  Local Notation solution := (solution F D).
  Local Notation bp := (bp F D).
  Local Notation sp := (sp F D).

  (** one call compiled with the checks ([bstep true] without them) *)
  Definition bstep_d (s : bp * list solution) (o : bop D) : res (bp * list solution) :=
    let '(p, h) := s in
    match o with
    | BPlace o ptr => '(_, p') <- bp_place_d p o ptr ;; Ok (p', h)
    | BRemove li k b => '(_, p') <- bp_remove_d p li k b ;; Ok (p', h)
    | BRemoveLayout li => p' <- bp_deregister_layout p li ;; Ok (p', h)
    | BCreate old =>
        old' <- match old with
                | None => Ok None
                | Some k => s' <- expect (nth_error h k) ;; Ok (Some s')
                end ;;
        '(s', p') <- bp_create_d p old' ;; Ok (p', h ++ [s'])
    | BRestore k => s' <- expect (nth_error h k) ;; p' <- bp_restore_d p s' ;; Ok (p', h)
    | BFlush => p' <- bp_flush_d p ;; Ok (p', h)
    end.
  Definition bp_run_d (i : bpinst F D) (ops : list (bop D)) : res (bp * list solution) :=
    rfold bstep_d ops (bp_new i, []).
  (** no bin has a proximity grid, every bin's box can be subdivided *)
  Definition checked_inst (i : bpinst F D) : Prop :=
    good_inst i /\ Forall (fun p => checked_bin (fst p)) (bi_bins i).

  (** likewise for strips ([sstep true]) *)
  Definition sstep_d (tol : F) (s : sp * list solution) (o : sop F D) : res (sp * list solution) :=
    let '(p, h) := s in
    match o with
    | SPlace o ptr => '(_, p') <- sp_place_d p o ptr ;; Ok (p', h)
    | SRemove li k b => '(_, p') <- sp_remove_d p li k b ;; Ok (p', h)
    | SModify r ptr => p' <- modify_strip_d p r ptr ;; Ok (p', h)
    | SBack w ptr => p' <- modify_strip_in_back_d p w ptr ;; Ok (p', h)
    | SFront w ptr => p' <- modify_strip_at_front_d p w ptr ;; Ok (p', h)
    | SCentered w ptr => p' <- modify_strip_centered_d p w ptr ;; Ok (p', h)
    | SFit ptr => p' <- fit_strip_d tol p ptr ;; Ok (p', h)
    | SCreate => '(s', p') <- sp_create_d p ;; Ok (p', h ++ [s'])
    | SRestore k => s' <- expect (nth_error h k) ;; p' <- sp_restore_d p s' ;; Ok (p', h)
    | SFlush => p' <- sp_flush_d p ;; Ok (p', h)
    end.
  Definition sp_run_d (tol : F) (i : spinst F) (w : F) (c : cfg) (ptr : nat) (ops : list (sop F D))
      : res (sp * list solution) :=
    p <- sp_new_d i w c ptr ;; rfold (sstep_d tol) ops (p, []).
  (** strips are asked to be of positive size *)
  Definition sized_strip (o : sop F D) : Prop :=
    match o with
    | SModify r _ => rect_ok r = true
    | SBack w _ | SFront w _ | SCentered w _ => flt f0 w = true
    | _ => True
    end.

  (** the layouts of a problem are as recorded in a solution: each has a snapshot of the
      same id, of a bin of the same id, and has all items of that snapshot *)
  Definition recorded_in (s : solution) (l : layout) : Prop :=
    exists sn, find (fun x => Nat.eqb (ls_id x) (ly_id l)) (so_layouts s) = Some sn /\
      bn_id (ly_bin l) = bn_id (ls_bin sn) /\ incl (snap_placed sn) (placed l).
End Spec.
