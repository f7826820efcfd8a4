(** Vocabulary of the statements about debug builds of engines with a proximity grid.
    Definitions only. *)
From Coq Require Import List Reals.
From Verif Require Import Base Num GeoModel HazardModel CdeModel CdeSpec HpgSpec.
Import ListNotations.
Local Open Scope R_scope.

(** all poles have an interior *)
Definition stout (s : poly R) : Prop := forall k, In k (poles_of s) -> 0 < crad k.
Definition stout_op {D : Type} (o : op R D) : Prop := match o with OReg h => stout (a_obj (h_shape h)) | _ => True end.
