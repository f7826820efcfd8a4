(** Histories of problems in which every placement was checked beforehand.  Definitions
    only. *)
From Coq Require Import List Bool Arith ZArith Permutation.
From Verif Require Import Base Num GeoModel HazardModel QTModel TransfModel HpgModel CdeModel CdeSpec
  PolyModel SlotMapModel LayoutModel ProblemModel ProblemSpec LbfModel.
From Coq Require Import Reals.
From Verif Require Import GeoModel HazardModel QTModel TransfModel HpgModel CdeModel CdeSpec GeoSpec PlaceSpec HpgSpec ShapeSpec LbfSpec.
Import ListNotations.
Local Open Scope R_scope.

Section Spec.
  Context {N : Num R} {T : Trig R} {ED : EqD (dtransf R)} {BS : BSearch}.
  Local Notation dtransf := (dtransf R).
  Local Notation bp := (bp R dtransf).
  Local Notation sp := (sp R dtransf).
  Local Notation solution := (solution R dtransf).
  Local Notation item := (item R).

  (** Just before every placement the engine of the layout found it free of collisions, and
      it turns the item as allowed.  Everything else - removing items and layouts, creating
      and restoring solutions, flushing - may happen at any time. *)
  Fixpoint bchecked (ovf : bool) (s : bp * list solution) (ops : list (bop dtransf)) : Prop :=
    match ops with
    | [] => True
    | o :: r => match o with BPlace o _ => checked (fst s) o | _ => True end /\
        match bstep ovf s o with Ok s' => bchecked ovf s' r | Panic => True end
    end.
  (** the same for strips, which may in addition be changed in any way at any time *)
  Fixpoint schecked_run (ovf : bool) (tol : R) (s : sp * list solution) (ops : list (sop R dtransf)) : Prop :=
    match ops with
    | [] => True
    | o :: r => match o with SPlace o _ => schecked (fst s) o | _ => True end /\
        match sstep ovf tol s o with Ok s' => schecked_run ovf tol s' r | Panic => True end
    end.
  (** a solution all of whose layouts are packings of bins of the instance *)
  Definition sol_packed (items : list (item * nat)) (bins : list (bin R dtransf * nat)) (s : solution) : Prop :=
    Forall (fun sn => In (ls_bin sn) (map fst bins) /\ packed items (ls_bin sn) (snap_placed sn)) (so_layouts s).
  (** a bin whose contour was made from a rectangle, without holes or zones *)
  Definition plain_strip (b : bin R dtransf) : Prop :=
    good_shape (a_obj (bn_outer b)) /\ bin_statics b = [hazard_new BinExterior (bn_outer b)] /\
    exists r, poly_of_rect (N := RNum) r = Ok (a_obj (bn_outer b)).
  (** the angle of a placement is one the item allows *)
  Definition turned_ok (it : item) (d : dtransf) : Prop := exists a, allowed (it_rot it) a /\ turns a (compose d).

  (** A family of packings: for every layout the number of its bin and where which items lie. *)
  Definition family := list (nat * list (nat * dtransf)).
  (** layout [l] holds what the family says *)
  Definition holds (bins : list (bin R dtransf * nat)) (l : layout R dtransf) (x : nat * list (nat * dtransf)) : Prop :=
    exists b q, nth_error bins (fst x) = Some (b, q) /\ ly_bin l = b /\ Permutation (placed l) (snd x).
  Definition family_packed (items : list (item * nat)) (bins : list (bin R dtransf * nat)) (fam : family) : Prop :=
    Forall (fun x => snd x <> [] /\ exists b q, nth_error bins (fst x) = Some (b, q) /\ packed items b (snd x)) fam.
  (** no more copies than demanded, no more bins than in stock *)
  Definition within_demand (items : list (item * nat)) (fam : family) : Prop :=
    forall i it q, nth_error items i = Some (it, q) -> (count i (flat_map (fun x => map fst (snd x)) fam) <= q)%nat.
  Definition within_stock (bins : list (bin R dtransf * nat)) (fam : family) : Prop :=
    forall b bn q, nth_error bins b = Some (bn, q) -> (count b (map fst fam) <= q)%nat.
End Spec.
