(** The check that the shapes of an instance are centred:
    [/repo/jagua-rs/src/util/assertions.rs].  Definitions only. *)
From Coq Require Import List Bool Arith.
From Verif Require Import Base Num GeoModel HazardModel TransfModel PolyModel HpgModel CdeModel LayoutModel.
Import ListNotations.

Section Mass.
  Context {F : Type} {N : Num F} {D : Type}.
  (** assertions.rs:90-96; [zero] is [almost::zero].  The bins of a strip packing instance are
      no part of the instance: the list is empty then. *)
  Definition all_centered (zero : F -> bool) (items : list (item F * nat)) (bins : list (bin F D * nat)) : bool :=
    forallb (fun c : point F => zero (px c) && zero (py c))
      (map (fun x => p_centroid (it_shape (fst x))) items ++ map (fun x => p_centroid (a_obj (bn_outer (fst x)))) bins).
End Mass.
