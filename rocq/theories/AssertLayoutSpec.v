(** Vocabulary of the statements about debug builds of layouts.  Definitions only. *)
From Coq Require Import List Bool Arith ZArith.
From Verif Require Import Base Num GeoModel HazardModel QTModel TransfModel HpgModel CdeModel CdeSpec
  PolyModel SlotMapModel LayoutModel ProblemModel ProblemSpec AssertModel AssertSpec AssertLayoutModel.
Import ListNotations.

Section Spec.
  Context {F : Type} {N : Num F} {D : Type} {ED : EqD D} {BS : BSearch} {DC : DComp F D}.
  Local Notation bin := (bin F D).
  Local Notation layout := (layout F D).
  Local Notation lsnap := (lsnap F D).
  Local Notation lop := (lop F D).

  (** one operation on a layout compiled with the checks ([lstep] without them) *)
  Definition lstep_d (s : layout * list lsnap) (o : lop) : res (layout * list lsnap) :=
    let '(l, sn) := s in
    match o with
    | LPlace it d ptr => '(_, l') <- layout_place_d l it d ptr ;; Ok (l', sn)
    | LRemove k b => '(_, l') <- layout_remove_d l k b ;; Ok (l', sn)
    | LChangeBin b => l' <- layout_change_bin_d l b ;; Ok (l', sn)
    | LSnap => '(s', l') <- layout_snapshot_d l ;; Ok (l', sn ++ [s'])
    | LRestore k => s' <- expect (nth_error sn k) ;; l' <- layout_restore_d l s' ;; Ok (l', sn)
    | LFlush => l' <- layout_flush_d l ;; Ok (l', sn)
    end.
  (** a bin without a proximity grid whose box can be subdivided *)
  Definition checked_bin (b : bin) : Prop :=
    good_bin b /\ cfg_cells (bn_cfg b) = 0 /\ divides (cfg_depth (bn_cfg b)) (bin_box b).
  Definition checked_op (o : lop) : Prop := match o with LChangeBin b => checked_bin b | _ => True end.
  (** a snapshot is restored only while the layout has a bin with the id of the
      snapshot's bin *)
  Fixpoint bins_kept (s : layout * list lsnap) (ops : list lop) : Prop :=
    match ops with
    | [] => True
    | o :: r =>
        match o with
        | LRestore k => forall sn, nth_error (snd s) k = Some sn -> bn_id (ly_bin (fst s)) = bn_id (ls_bin sn)
        | _ => True
        end /\
        match lstep s o with Ok s' => bins_kept s' r | Panic => True end
    end.
End Spec.
