(** Sums of numbers, and values that show numbers. *)
From Coq Require Import List ZArith Reals.
From Flocq Require Import Core.
From Verif Require Import Base FloatModel DecSpec.
Open Scope R_scope.

(** The sum of the numbers and the sum of their sizes. *)
Definition total (xs : list R) : R := fold_right Rplus 0 xs.
Definition sizes (xs : list R) : R := fold_right (fun x t => Rabs x + t) 0 xs.

(** A value that begins with the decimal [d], of at most [D] digits on either side of the point and neither tiny nor
    huge; [exp10] matters only if an exponent outside -2..3 is written. *)
Definition dec_value (exp10 : Z -> f64) (D : nat) (v : bytes) (d : decimal) : Prop :=
  exists rest, v = dec_text d ++ rest /\ dec_ok d /\ dec_end d rest /\ (length (d_int d) <= D)%nat /\ (length (frac_digits d) <= D)%nat /\
    (Z.abs (exp_value d) < 2 ^ 31)%Z /\ ((exp_value d < -2 \/ 3 < exp_value d)%Z -> good_exp10 exp10 (exp_value d)) /\
    (dec_real d = 0 \/ bpow radix2 (-900) <= Rabs (dec_real d) <= bpow radix2 1000).
