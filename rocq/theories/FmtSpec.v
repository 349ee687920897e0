(** Specification vocabulary for printed numbers. *)
From Coq Require Import String List NArith ZArith Bool Arith Reals SpecFloat.
From Flocq Require Import Core BinarySingleNaN.
Open Scope list_scope.
Import ListNotations.
From Verif Require Import Base StrSpec.
Open Scope nat_scope.

(** The value of a double. *)
Definition val (x : spec_float) : R := SF2R radix2 x.
(** The number of [k] tenths, or of [k] ones, as a text, and its value. *)
Definition decimal (tenths : bool) (k : N) : bytes := if tenths then print_N (k / 10) ++ 46%N :: print_N (k mod 10) else print_N k.
Definition decimal_val (tenths : bool) (k : N) : R := (if tenths then IZR (Z.of_N k) / 10 else IZR (Z.of_N k))%R.
(** [t] is a number nearest to [r] with that many digits. *)
Definition nearest (tenths : bool) (t : bytes) (r : R) : Prop :=
  exists k, t = decimal tenths k /\ (Rabs (decimal_val tenths k - r) <= (if tenths then 1 / 20 else 1 / 2))%R.
(** The letters of the units 1024 and 1000 and their powers. *)
Definition unit_letters (two : bool) : bytes := if two then bs "KMGTPEZY" else bs "kmgtpezy".
Definition unit_size (two : bool) (k : nat) : Z := ((if two then 1024 else 1000) ^ Z.of_nat (S k))%Z.
(** [t] reads: sign, number, unit; and its value. *)
Definition reads (two : bool) (t : bytes) (r : R) : Prop :=
  exists (neg tenths : bool) n k, k < 8 /\
    t = (if neg then bs "-" else []) ++ decimal tenths n ++ [nth k (unit_letters two) 0%N] /\
    r = ((if neg then -1 else 1) * decimal_val tenths n * IZR (unit_size two k))%R.
(** A whole number in the notation with an exponent: d.ddde, zeros at the end left out. *)
Fixpoint drop_zeros (rev_digits : bytes) : bytes := match rev_digits with 48%N :: r => drop_zeros r | _ => rev_digits end.
Definition sci (n : N) : bytes :=
  match print_N n with
  | d :: _ =>
      let rest := tl (rev (drop_zeros (rev (print_N n)))) in
      d :: (match rest with [] => [] | _ => 46%N :: rest end) ++ 101%N :: print_N (N.of_nat (List.length (print_N n) - 1))
  | [] => []
  end.
