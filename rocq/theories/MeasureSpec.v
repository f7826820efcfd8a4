(** What distances between sets, images of sets and buffers mean, independently of the code
    that computes them.  Definitions only. *)
From Coq Require Import Reals List.
From Verif Require Import Base Num GeoModel TransfModel GeoSpec.
Import ListNotations.
Local Open Scope R_scope.

(** the least distance of a point of one set from a point of the other, attained *)
Definition set_distance (A B : rpoint -> Prop) (d : R) : Prop :=
  (exists p q, A p /\ B q /\ edist p q = d) /\ forall p q, A p -> B q -> d <= edist p q.
(** the smallest rectangle that contains a set *)
Definition tight_box (A : rpoint -> Prop) (r : rrect) : Prop :=
  (forall p, A p -> in_rect r p) /\ forall r', (forall p, A p -> in_rect r' p) -> forall p, in_rect r p -> in_rect r' p.
(** [B] is the image of [A] *)
Definition image (g : rpoint -> rpoint) (A B : rpoint -> Prop) : Prop := forall q, B q <-> exists p, A p /\ q = g p.
(** stretching by a factor, keeping the point [c] *)
Definition stretch (c : rpoint) (k : R) (p : rpoint) : rpoint := Pt (px c + k * (px p - px c)) (py c + k * (py p - py c)).
(** the point in the middle of a rectangle *)
Definition middle (r : rrect) : rpoint := Pt ((x_min r + x_max r) / 2) ((y_min r + y_max r) / 2).

(** what a buffer can be: a copy of the shape, overwritten any number of times by transformed
    versions of it, or itself transformed *)
Inductive buffer_of {F : Type} {N : Num F} (s : poly F) : poly F -> Prop :=
| buf_clone : buffer_of s s
| buf_over : forall b t b', buffer_of s b -> tr_poly_from t b s = Ok b' -> buffer_of s b'
| buf_moved : forall b t, buffer_of s b -> buffer_of s (tr_poly t b).

(** an affine map *)
Definition last_row (t : transf R) : Prop := m20 t = 0 /\ m21 t = 0 /\ m22 t = 1.
