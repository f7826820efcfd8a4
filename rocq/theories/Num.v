(** Numbers.  [fsize] is [f32] (or [f64] with feature [double-precision],
    [/repo/jagua-rs/src/lib.rs]).  The geometric model is polymorphic in the
    operations below; the class contains operations only, no laws, so a theorem
    stated for every [Num F] holds for IEEE floats as well. *)
From Coq Require Import ZArith QArith Qabs Qround Reals List Bool Lra.

Class Num (F : Type) : Type := {
  f0 : F;                     (** literal [0.0] *)
  f1 : F;                     (** literal [1.0] *)
  fadd : F -> F -> F;
  fsub : F -> F -> F;
  fmul : F -> F -> F;
  fdiv : F -> F -> F;
  fneg : F -> F;
  fabs : F -> F;              (** [fsize::abs] *)
  fmin : F -> F -> F;         (** [fsize::min] *)
  fmax : F -> F -> F;         (** [fsize::max] *)
  fle : F -> F -> bool;       (** [<=] *)
  flt : F -> F -> bool;       (** [<] *)
  feq : F -> F -> bool;       (** [==] *)
  fsqrt : F -> F;             (** [fsize::sqrt] *)
  falmost : F -> F -> bool;   (** [AlmostEqual::almost_equals] of the [almost] crate *)
  fofN : nat -> F;            (** [usize as fsize] *)
  fceilN : F -> nat;          (** [fsize::ceil(x) as usize] *)
  fMAX : F                    (** [fsize::MAX] *)
}.

Declare Scope num_scope.
Delimit Scope num_scope with num.
Infix "+" := fadd : num_scope.
Infix "-" := fsub : num_scope.
Infix "*" := fmul : num_scope.
Infix "/" := fdiv : num_scope.
Notation "- x" := (fneg x) : num_scope.
Infix "<=?" := fle : num_scope.
Infix "<?" := flt : num_scope.
Infix "=?" := feq : num_scope.
Notation "x >=? y" := (fle y x) (at level 70, only parsing) : num_scope.
Notation "x >? y" := (flt y x) (at level 70, only parsing) : num_scope.

Section Derived.
  Context {F : Type} {N : Num F}.
  Local Open Scope num_scope.
  (** literal [2.0], [6.0], [0.5]: exactly representable *)
  Definition f2 : F := f1 + f1.
  Definition f6 : F := f2 + f2 + f2.
  Definition fhalf : F := f1 / f2.
  (** [x.powi(2)] *)
  Definition fsq (x : F) : F := x * x.

  (** [partial_cmp(..).unwrap()].  NaN operands make the Rust code panic; here
      they give [Gt]: the model assumes comparable numbers. *)
  Definition fcmp (x y : F) : comparison :=
    if x <? y then Lt else if x =? y then Eq else Gt.
End Derived.

(** *** Exact real arithmetic *)
Definition Rleb (x y : R) : bool := if Rle_dec x y then true else false.
Definition Rltb (x y : R) : bool := if Rlt_dec x y then true else false.
Definition Reqb (x y : R) : bool := if Req_EM_T x y then true else false.

(** [up] is [floor + 1]; [ceil x = - floor (- x)]. *)
Definition Rceil_nat (x : R) : nat := Z.to_nat (1 - up (- x))%Z.

(** Real arithmetic with an arbitrary tolerant equality [alm] and an arbitrary
    stand-in [mx] for [fsize::MAX]. *)
Definition RNumT (alm : R -> R -> bool) (mx : R) : Num R := {|
  f0 := 0%R; f1 := 1%R;
  fadd := Rplus; fsub := Rminus; fmul := Rmult; fdiv := Rdiv; fneg := Ropp;
  fabs := Rabs; fmin := Rmin; fmax := Rmax;
  fle := Rleb; flt := Rltb; feq := Reqb;
  fsqrt := sqrt; falmost := alm; fofN := INR; fceilN := Rceil_nat; fMAX := mx
|}.

(** Exact arithmetic, zero tolerance. *)
Definition RNum : Num R := RNumT Reqb 0%R.

(** *** Executable rational arithmetic (used to run the model) *)
Definition Qsqrt_app (q : Q) : Q :=
  Qred (Z.sqrt (Qnum q * Zpos (Qden q)) # Qden q).
Definition Qltb (x y : Q) : bool := negb (Qle_bool y x).
Definition Qminb (x y : Q) : Q := if Qle_bool x y then x else y.
Definition Qmaxb (x y : Q) : Q := if Qle_bool x y then y else x.

Definition QNumT (alm : Q -> Q -> bool) (mx : Q) : Num Q := {|
  f0 := 0%Q; f1 := 1%Q;
  fadd x y := Qred (x + y); fsub x y := Qred (x - y);
  fmul x y := Qred (x * y); fdiv x y := Qred (x / y);
  fneg := Qopp; fabs := Qabs; fmin := Qminb; fmax := Qmaxb;
  fle := Qle_bool; flt := Qltb; feq := Qeq_bool;
  fsqrt := Qsqrt_app;  (* exact on squares of rationals *)
  falmost := alm; fofN n := inject_Z (Z.of_nat n);
  fceilN q := Z.to_nat (Qceiling q); fMAX := mx
|}.
Definition QNum : Num Q := QNumT Qeq_bool (inject_Z (2^100)).
