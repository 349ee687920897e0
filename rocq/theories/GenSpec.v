(** Specification vocabulary for generated files. *)
From Coq Require Import List NArith.
Import ListNotations.
From Verif Require Import Base TextSpec.

(** Lines 1 to [n], each with the cells of [k] columns numbered from 1. *)
Definition grid_rows (n k : nat) (cell : nat -> nat -> bytes) : list (list bytes) :=
  map (fun i => map (cell i) (seq 1 k)) (seq 1 n).
(** A text read back: its lines, each cut at the tabs. *)
Definition read_back (t : bytes) : list (list bytes) := map (split_on TAB) (removelast (split_on NL t)).
