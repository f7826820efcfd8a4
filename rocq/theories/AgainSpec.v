(** Growing and shrinking layouts.  Definitions only. *)
From Coq Require Import List Bool Arith ZArith Permutation.
From Verif Require Import Base Num GeoModel HazardModel TransfModel CdeModel SlotMapModel LayoutModel ProblemModel ProblemSpec.
Import ListNotations.

Section Spec.
  Context {F D : Type}.
  Local Notation layout := (layout F D).
  (** every layout is still there, at its index and with its bin, and no item was moved or
      taken out *)
  Definition grown (ls ls' : list layout) : Prop :=
    forall j l, nth_error ls j = Some l ->
    exists l', nth_error ls' j = Some l' /\ ly_bin l' = ly_bin l /\ exists more, Permutation (placed l') (more ++ placed l).
  (** all layouts are what is left of earlier ones *)
  Definition shrunk (ls ls' : list layout) : Prop :=
    forall l', In l' ls' -> exists l, In l ls /\ ly_bin l' = ly_bin l /\ exists gone, Permutation (placed l) (gone ++ placed l').
  (** no item more often than demanded *)
  Definition no_more_than (items : list (item F * nat)) (ls : list layout) : Prop :=
    forall i it q, nth_error items i = Some (it, q) -> copies i ls <= q.
  (** items placed in a strip one after the other, with allocations [ptrs] *)
  Definition put_ops (xs : list (nat * D)) (ptrs : list nat) : list (sop F D) :=
    map (fun x => SPlace (PO (Real 0) (fst (fst x)) (snd (fst x))) (snd x)) (combine xs ptrs).
End Spec.
