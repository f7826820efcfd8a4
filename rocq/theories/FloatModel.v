(** IEEE 754 floating point numbers as an instance of the arithmetic of the model.
    [fsize] is [f32], or [f64] with the feature [double-precision]: [/repo/jagua-rs/src/lib.rs]
    lines 28-36.  Operations round to nearest, ties to even.  One NaN: the code never looks
    at the payload.  [alm] stands for the comparison of the [almost] crate, whose source is
    not part of the repository.  Definitions only. *)
From Coq Require Import ZArith Reals.
From Flocq Require Import Core IEEE754.BinarySingleNaN.
From Verif Require Import Num.

Section Float.
  Variables prec emax : Z.
  Context (Hp : Prec_gt_0 prec) (Hm : Prec_lt_emax prec emax).
  Local Notation float := (binary_float prec emax).
  (** [f32::min], [f32::max]: NaN is ignored if the other operand is a number *)
  Definition fl_min (x y : float) : float :=
    if is_nan x then y else if is_nan y then x else if Bltb y x then y else x.
  Definition fl_max (x y : float) : float :=
    if is_nan x then y else if is_nan y then x else if Bltb x y then y else x.
  (** [x.ceil() as usize]: saturating, NaN gives zero *)
  Definition fl_ceil (umax : nat) (x : float) : nat :=
    match x with
    | B754_finite s m e _ =>
        let z := cond_Zopp s (Zpos m) in
        Nat.min umax (Z.to_nat (if Z.leb 0 e then z * 2 ^ e else - ((- z) / 2 ^ (- e)))%Z)
    | B754_infinity false => umax
    | _ => 0
    end.
  Definition FloatNum (umax : nat) (alm : float -> float -> bool) : Num float := {|
    f0 := B754_zero false; f1 := Bone;
    fadd := Bplus mode_NE; fsub := Bminus mode_NE; fmul := Bmult mode_NE; fdiv := Bdiv mode_NE;
    fneg := Bopp; fabs := Babs; fmin := fl_min; fmax := fl_max;
    fle := Bleb; flt := Bltb; feq := Beqb; fsqrt := Bsqrt mode_NE; falmost := alm;
    fofN n := binary_normalize prec emax Hp Hm mode_NE (Z.of_nat n) 0 false; fceilN := fl_ceil umax; fMAX := Bmax_float
  |}.
End Float.
(** the two formats *)
#[export] Instance prec32 : Prec_gt_0 24 := eq_refl.
#[export] Instance emax32 : Prec_lt_emax 24 128 := eq_refl.
#[export] Instance prec64 : Prec_gt_0 53 := eq_refl.
#[export] Instance emax64 : Prec_lt_emax 53 1024 := eq_refl.
Definition f32 := binary_float 24 128.
Definition f64 := binary_float 53 1024.
