(** Vocabulary of the statements about floating point: the same object with other numbers,
    and numbers on a grid.  Definitions only. *)
From Coq Require Import ZArith Reals List Bool.
From Flocq Require Import Core IEEE754.BinarySingleNaN.
From Verif Require Import Base Num FloatModel GeoModel HazardModel QTModel TransfModel HpgModel CdeModel CdeSpec.
Import ListNotations.

(** *** the same object with every number [x] replaced by [h x] *)
Section Image.
  Context {F G D : Type} (h : F -> G).
  Definition im_point (p : point F) : point G := Pt (h (px p)) (h (py p)).
  Definition im_edge (e : edge F) : edge G := Ed (im_point (es e)) (im_point (ee e)).
  Definition im_rect (r : rect F) : rect G := Rc (h (x_min r)) (h (y_min r)) (h (x_max r)) (h (y_max r)).
  Definition im_circle (c : circle F) : circle G := Ci (im_point (ccen c)) (h (crad c)).
  Definition im_surr (s : surrogate F) : surrogate G :=
    Sur (s_hull s) (map im_circle (s_poles s)) (im_circle (s_bcircle s)) (map im_edge (s_piers s)) (s_nff s).
  Definition im_poly (s : poly F) : poly G :=
    Poly (map im_point (p_pts s)) (im_rect (p_bbox s)) (h (p_area s)) (h (p_diam s)) (im_circle (p_poi s)) (option_map im_surr (p_surr s)).
  Definition im_arc (a : arc F) : arc G := Arc (a_ptr a) (im_poly (a_obj a)).
  Definition im_hazard (z : hazard F D) : hazard G D := Hz (h_ent z) (im_arc (h_shape z)) (h_active z).
  Definition im_op (o : op F D) : op G D :=
    match o with
    | OReg z => OReg (im_hazard z) | ODereg e b => ODereg e b | OCommit => OCommit | OFlush => OFlush
    | OSnap => OSnap | ORestore k => ORestore k
    end.
  Definition im_fact (f : fact F D) : fact G D := (fst (fst f), im_poly (snd (fst f)), snd f).
End Image.

(** *** searching a slice only sees the outcomes of the comparisons *)
Definition bsearch_uniform (B : BSearch) : Prop :=
  forall A (f : A -> comparison) (l : list A), bsearch f l = bsearch (fun c => c) (map f l).

(** *** numbers on a grid: finite, multiples of [2^e], at most [B] units *)
Section Grid.
  Context {prec emax : Z}.
  Local Notation float := (binary_float prec emax).
  Definition on_grid (e B : Z) (x : float) : Prop :=
    is_finite x = true /\ exists n, B2R x = (IZR n * bpow radix2 e)%R /\ (Z.abs n <= B)%Z.
  (** no over- or underflow when two differences of such numbers are multiplied, and the
      results need less than [prec] bits *)
  Definition fits (e B : Z) : Prop :=
    (3 - emax - prec <= 2 * e)%Z /\ (2 * e + prec < emax)%Z /\ (0 <= B)%Z /\ (72 * (B * B) <= 2 ^ (prec - 1))%Z.
  Definition point_on (e B : Z) (p : point float) : Prop := on_grid e B (px p) /\ on_grid e B (py p).
  Definition edge_on (e B : Z) (g : edge float) : Prop := point_on e B (es g) /\ point_on e B (ee g).
  Definition rect_on (e B : Z) (r : rect float) : Prop :=
    on_grid e B (x_min r) /\ on_grid e B (y_min r) /\ on_grid e B (x_max r) /\ on_grid e B (y_max r).
  (** the vertices, the bounding box and the centre of the pole of inaccessibility *)
  Definition poly_on (e B : Z) (s : poly float) : Prop :=
    Forall (point_on e B) (p_pts s) /\ rect_on e B (p_bbox s) /\ point_on e B (ccen (p_poi s)).
  Definition hazard_on {D} (e B : Z) (z : hazard float D) : Prop := poly_on e B (a_obj (h_shape z)).
  Definition op_on {D} (e B : Z) (o : op float D) : Prop :=
    match o with OReg z => hazard_on e B z | _ => True end.
  (** a box that can be halved [k] times without leaving the grid *)
  Definition box_on (k : nat) (e B : Z) (r : rect float) : Prop :=
    rect_on (e + Z.of_nat k) (B / 2 ^ Z.of_nat k) r.
  (** the tolerant comparison does not identify different numbers of the grid *)
  Definition tells_apart (e B : Z) (alm : float -> float -> bool) : Prop :=
    forall x y, on_grid e B x -> on_grid e B y -> (alm x y = true <-> B2R x = B2R y).
  (** finite coordinates *)
  Definition pfin (p : point float) : Prop := is_finite (px p) = true /\ is_finite (py p) = true.
  Definition rfin (r : rect float) : Prop :=
    is_finite (x_min r) = true /\ is_finite (y_min r) = true /\ is_finite (x_max r) = true /\ is_finite (y_max r) = true.
End Grid.
