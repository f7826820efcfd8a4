(** Conversion between the coordinates of the solution file and the internal ones:
    [/repo/jagua-rs/src/io/parser.rs].  Definitions only. *)
From Coq Require Import List Bool Arith.
From Verif Require Import Base Num GeoModel TransfModel PolyModel.
Import ListNotations.

Section Parser.
  Context {F : Type} {N : Num F} {T : Trig F}.
  Local Open Scope num_scope.

  (** parser.rs:475-488 *)
  Definition internal_to_absolute (d : dtransf F) (item_pre bin_pre : transf F) : transf F :=
    t_transform (transform_from_decomposed (t_transform t_empty item_pre) d) (t_inverse bin_pre).
  (** parser.rs:490-503 *)
  Definition absolute_to_internal (d : dtransf F) (item_pre bin_pre : transf F) : transf F :=
    t_transform (transform_from_decomposed (t_transform t_empty (t_inverse item_pre)) d) bin_pre.

  (** parser.rs:465-473.  An empty vertex list panics ([jsp.0[0]]). *)
  Definition json_points (l : list (F * F)) : res (list (point F)) :=
    a <- expect (nth_error l 0) ;;
    b <- expect (nth_error l (Nat.pred (length l))) ;;
    let n := if (fst a =? fst b) && (snd a =? snd b) then Nat.pred (length l) else length l in
    Ok (map (fun p => Pt (fst p) (snd p)) (firstn n l)).

  (** parser.rs:565-568 *)
  Definition centering_transformation (s : poly F) : dtransf F :=
    let c := p_centroid s in DT f0 (- px c) (- py c).
End Parser.
