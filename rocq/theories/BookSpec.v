(** Entities that stand for placed items; sums of integers.  Definitions only. *)
From Coq Require Import List ZArith.
From Verif Require Import Base HazardModel.
Import ListNotations.

Definition is_item {D : Type} (e : entity D) : Prop := match e with PlacedItem _ _ => True | _ => False end.
Fixpoint Zsum (l : list Z) : Z := match l with [] => 0%Z | x :: r => (x + Zsum r)%Z end.
