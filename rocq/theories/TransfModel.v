(** Rigid transformations: [/repo/jagua-rs/src/geometry/transformation.rs],
    [d_transformation.rs], and the [Transformable]/[TransformableFrom]
    implementations of the primitives.  Definitions only. *)
From Coq Require Import List Bool Arith Reals.
From Verif Require Import Base Num GeoModel.
Import ListNotations.

(** [fsize::sin_cos] and [fsize::atan2]; operations only. *)
Class Trig (F : Type) := { fsin : F -> F; fcos : F -> F; fatan2 : F -> F -> F }.

(** exact trigonometry; [atan2 y x] is the angle of [(x, y)] in [(-pi, pi]] *)
Definition Ratan2 (y x : R) : R :=
  if Rlt_dec 0 x then atan (y / x)
  else if Rlt_dec x 0 then (if Rle_dec 0 y then atan (y / x) + PI else atan (y / x) - PI)%R
  else if Rlt_dec 0 y then (PI / 2)%R
  else if Rlt_dec y 0 then (- (PI / 2))%R else 0%R.
Definition RTrig : Trig R := {| fsin := sin; fcos := cos; fatan2 := Ratan2 |}.

(** transformation.rs:11-15; [[NotNan<fsize>; 3]; 3] by rows.  [NotNan::new]
    panics on NaN only; NaN is outside the model. *)
Record transf (F : Type) := Mk {
  m00 : F; m01 : F; m02 : F;
  m10 : F; m11 : F; m12 : F;
  m20 : F; m21 : F; m22 : F }.
Arguments Mk {F} _ _ _ _ _ _ _ _ _.
Arguments m00 {F} _. Arguments m01 {F} _. Arguments m02 {F} _.
Arguments m10 {F} _. Arguments m11 {F} _. Arguments m12 {F} _.
Arguments m20 {F} _. Arguments m21 {F} _. Arguments m22 {F} _.

(** d_transformation.rs:9-16 *)
Record dtransf (F : Type) := DT { dt_rot : F; dt_tx : F; dt_ty : F }.
Arguments DT {F} _ _ _.
Arguments dt_rot {F} _.
Arguments dt_tx {F} _.
Arguments dt_ty {F} _.

Section Transf.
  Context {F : Type} {N : Num F}.
  Local Open Scope num_scope.
  Local Notation transf := (transf F).
  Local Notation point := (point F).

  (** transformation.rs:18-22, 104 *)
  Definition t_empty : transf := Mk f1 f0 f0  f0 f1 f0  f0 f0 f1.
  (** transformation.rs:114-119, 24-28 *)
  Definition transl_m (tx ty : F) : transf := Mk f1 f0 tx  f0 f1 ty  f0 f0 f1.
  (** transformation.rs:148-168 *)
  Definition dot_prod (l r : transf) : transf :=
    Mk (m00 l * m00 r + m01 l * m10 r + m02 l * m20 r)
       (m00 l * m01 r + m01 l * m11 r + m02 l * m21 r)
       (m00 l * m02 r + m01 l * m12 r + m02 l * m22 r)
       (m10 l * m00 r + m11 l * m10 r + m12 l * m20 r)
       (m10 l * m01 r + m11 l * m11 r + m12 l * m21 r)
       (m10 l * m02 r + m11 l * m12 r + m12 l * m22 r)
       (m20 l * m00 r + m21 l * m10 r + m22 l * m20 r)
       (m20 l * m01 r + m21 l * m11 r + m22 l * m21 r)
       (m20 l * m02 r + m21 l * m12 r + m22 l * m22 r).
  (** transformation.rs:176-181 *)
  Definition t_det (m : transf) : F :=
    m00 m * m11 m * m22 m + m01 m * m12 m * m20 m + m02 m * m10 m * m21 m
    - m02 m * m11 m * m20 m
    - m01 m * m10 m * m22 m
    - m00 m * m12 m * m21 m.
  (** transformation.rs:171-201 *)
  Definition t_inverse (m : transf) : transf :=
    let det := t_det m in
    Mk ((m11 m * m22 m - m12 m * m21 m) / det)
       ((m02 m * m21 m - m01 m * m22 m) / det)
       ((m01 m * m12 m - m02 m * m11 m) / det)
       ((m12 m * m20 m - m10 m * m22 m) / det)
       ((m00 m * m22 m - m02 m * m20 m) / det)
       ((m02 m * m10 m - m00 m * m12 m) / det)
       ((m10 m * m21 m - m11 m * m20 m) / det)
       ((m01 m * m20 m - m00 m * m21 m) / det)
       ((m00 m * m11 m - m01 m * m10 m) / det).
  (** transformation.rs:62-65: [self] followed by [other] *)
  Definition t_transform (self other : transf) : transf := dot_prod other self.
  (** transformation.rs:47-50 *)
  Definition t_translate (self : transf) (tx ty : F) : transf := dot_prod (transl_m tx ty) self.
  (** transformation.rs:76-78 ([PartialEq] on [NotNan]) *)
  Definition t_eqb (a b : transf) : bool :=
    (m00 a =? m00 b) && (m01 a =? m01 b) && (m02 a =? m02 b)
    && (m10 a =? m10 b) && (m11 a =? m11 b) && (m12 a =? m12 b)
    && (m20 a =? m20 b) && (m21 a =? m21 b) && (m22 a =? m22 b).
  Definition t_is_empty (a : transf) : bool := t_eqb a t_empty.

  (** point.rs:27-33 and 11-25 *)
  Definition tr_point (t : transf) (p : point) : point :=
    Pt (m00 t * px p + m01 t * py p + m02 t * f1)
       (m10 t * px p + m11 t * py p + m12 t * f1).
  (** circle.rs:59-65 *)
  Definition tr_circle (t : transf) (c : circle F) : circle F := Ci (tr_point t (ccen c)) (crad c).
  (** circle.rs:67-73: the radius stays that of the buffer *)
  Definition tr_circle_from (t : transf) (buf ref : circle F) : circle F :=
    Ci (tr_point t (ccen ref)) (crad buf).
  (** edge.rs:111-118 *)
  Definition tr_edge (t : transf) (e : edge F) : edge F :=
    Ed (tr_point t (es e)) (tr_point t (ee e)).
  (** sp_surrogate.rs:69-95 *)
  Definition tr_surr (t : transf) (s : surrogate F) : surrogate F :=
    Sur (s_hull s) (map (tr_circle t) (s_poles s)) (tr_circle t (s_bcircle s))
        (map (tr_edge t) (s_piers s)) (s_nff s).
  (** [buf.iter_mut().zip(reference)]: entries beyond the shorter of the two keep
      the buffer's value *)
  Fixpoint zip_from {A : Type} (f : A -> A -> A) (buf ref : list A) : list A :=
    match buf, ref with
    | b :: bs, r :: rs => f b r :: zip_from f bs rs
    | _, _ => buf
    end.
  (** sp_surrogate.rs:97-125 *)
  Definition tr_surr_from (t : transf) (buf ref : surrogate F) : surrogate F :=
    Sur (s_hull buf) (zip_from (tr_circle_from t) (s_poles buf) (s_poles ref))
        (tr_circle_from t (s_bcircle buf) (s_bcircle ref))
        (zip_from (fun _ r => tr_edge t r) (s_piers buf) (s_piers ref)) (s_nff buf).
  (** simple_polygon.rs:218-245 *)
  Definition tr_poly (t : transf) (s : poly F) : poly F :=
    let pts := map (tr_point t) (p_pts s) in
    Poly pts (bbox_of_points pts) (p_area s) (p_diam s) (tr_circle t (p_poi s))
         (option_map (tr_surr t) (p_surr s)).
  (** simple_polygon.rs:248-274; [reference.surrogate()] panics when absent *)
  Definition tr_poly_from (t : transf) (buf ref : poly F) : res (poly F) :=
    let pts := zip_from (fun _ r => tr_point t r) (p_pts buf) (p_pts ref) in
    s <- match p_surr buf with
         | None => Ok None
         | Some b => r <- expect (p_surr ref) ;; Ok (Some (tr_surr_from t b r))
         end ;;
    Ok (Poly pts (bbox_of_points pts) (p_area buf) (p_diam buf)
             (tr_circle_from t (p_poi buf) (p_poi ref)) s).

  Context {T : Trig F}.
  (** transformation.rs:106-112 *)
  Definition rot_m (a : F) : transf :=
    Mk (fcos a) (- fsin a) f0  (fsin a) (fcos a) f0  f0 f0 f1.
  (** transformation.rs:122-130 *)
  Definition rot_transl_m (a tx ty : F) : transf :=
    Mk (fcos a) (- fsin a) tx  (fsin a) (fcos a) ty  f0 f0 f1.
  (** transformation.rs:133-145 *)
  Definition transl_rot_m (tx ty a : F) : transf :=
    Mk (fcos a) (- fsin a) (tx * fcos a - ty * fsin a)
       (fsin a) (fcos a) (tx * fsin a + ty * fcos a)  f0 f0 f1.
  (** transformation.rs:36-40; d_transformation.rs:45-47 *)
  Definition compose (d : dtransf F) : transf := rot_transl_m (dt_rot d) (dt_tx d) (dt_ty d).
  (** transformation.rs:42-45, 52-60, 67-69 *)
  Definition t_rotate (self : transf) (a : F) : transf := dot_prod (rot_m a) self.
  Definition t_rotate_translate (self : transf) (a tx ty : F) : transf :=
    dot_prod (rot_transl_m a tx ty) self.
  Definition t_translate_rotate (self : transf) (tx ty a : F) : transf :=
    dot_prod (transl_rot_m tx ty a) self.
  Definition transform_from_decomposed (self : transf) (d : dtransf F) : transf :=
    t_rotate_translate self (dt_rot d) (dt_tx d) (dt_ty d).
  (** transformation.rs:84-89 *)
  Definition decompose (m : transf) : dtransf F :=
    DT (fatan2 (m10 m) (m00 m)) (m02 m) (m12 m).
End Transf.
