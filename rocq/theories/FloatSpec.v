(** What the 64 bits of an IEEE double stand for, independent of the model. *)
From Coq Require Import NArith ZArith.
Open Scope Z_scope.

(** Fields of a 64-bit pattern. *)
Definition exp_field (x : N) : Z := Z.of_N x / 2 ^ 52 mod 2048.
Definition man_field (x : N) : Z := Z.of_N x mod 2 ^ 52.
Definition sign_field (x : N) : Z := Z.of_N x / 2 ^ 63 mod 2.

(** Not a number: exponent all ones and a non-zero mantissa. *)
Definition is_nan_bits (x : N) : Prop := exp_field x = 2047 /\ man_field x <> 0.

(** Absolute value in units of 2^-1074, an integer; the infinity pattern gets the first value above
    every finite one. *)
Definition magn (x : N) : Z :=
  if exp_field x =? 0 then man_field x else (man_field x + 2 ^ 52) * 2 ^ (exp_field x - 1).

(** Signed value in units of 2^-1074. *)
Definition dval (x : N) : Z := if sign_field x =? 1 then - magn x else magn x.
