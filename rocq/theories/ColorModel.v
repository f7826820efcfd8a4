(** The text of a colour: [/repo/lbf/src/io/svg_util.rs] lines 110-151.  Texts are lists of
    bytes.  The checks that a slice ends between characters are left out: where one fails,
    one of the bytes of the slice is no digit, which panics too.  Definitions only. *)
From Coq Require Import List Arith Bool.
From Verif Require Import Base SvgModel.
Import ListNotations.

(** the upper-case digit of [{:02X}] *)
Definition hex_char (n : nat) : nat := if Nat.ltb n 10 then 48 + n else 55 + n.
Definition hex2 (n : nat) : list nat := [hex_char (n / 16); hex_char (n mod 16)].
(** svg_util.rs:110-114 *)
Definition color_text (c : color) : list nat := 35 :: hex2 (c_red c) ++ hex2 (c_green c) ++ hex2 (c_blue c).
(** [char::to_digit(16)] *)
Definition to_digit (b : nat) : option nat :=
  if Nat.leb 48 b && Nat.leb b 57 then Some (b - 48)
  else if Nat.leb 65 b && Nat.leb b 70 then Some (b - 55)
  else if Nat.leb 97 b && Nat.leb b 102 then Some (b - 87)
  else None.
(** [u8::from_str_radix] on two bytes: a leading plus sign is skipped *)
Definition from_radix (a b : nat) : res nat :=
  if Nat.eqb a 43 then expect (to_digit b)
  else x <- expect (to_digit a) ;; y <- expect (to_digit b) ;; Ok (16 * x + y).
(** svg_util.rs:116-126 *)
Definition color_of (s : list nat) : res color :=
  let s' := match s with c :: r => if Nat.eqb c 35 then r else s | [] => s end in
  match s' with
  | a :: b :: c :: d :: e :: f :: _ =>
      r <- from_radix a b ;; g <- from_radix c d ;; u <- from_radix e f ;; Ok (Rgb r g u)
  | _ => Panic
  end.
