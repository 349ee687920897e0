(** Specification vocabulary for choosing lines by number. *)
From Coq Require Import List NArith Bool.
Import ListNotations.
From Verif Require Import Base.

(** The lines whose number passes the test, in order; the first line has number [first]. *)
Fixpoint picked (first : N) (test : N -> bool) (ls : list bytes) : list bytes :=
  match ls with
  | [] => []
  | l :: r => (if test first then [l] else []) ++ picked (first + 1) test r
  end.
(** from, from + by, from + 2 by, ... up to to. *)
Definition in_steps (by_ from to n : N) : bool := ((from <=? n) && (n <=? to) && ((n - from) mod by_ =? 0))%N.
(** In one of the ranges, ends included. *)
Definition in_ranges (v : list (N * N)) (n : N) : bool := existsb (fun p => ((fst p <=? n) && (n <=? snd p))%N) v.
