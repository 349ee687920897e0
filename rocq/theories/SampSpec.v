(** What a sample of a stream is. *)
From Coq Require Import List Arith.
Import ListNotations.

(** Some of the lines, in their order. *)
Inductive chosen_from {A} : list A -> list A -> Prop :=
| cf_none : chosen_from [] []
| cf_skip : forall x out l, chosen_from out l -> chosen_from out (x :: l)
| cf_take : forall x out l, chosen_from out l -> chosen_from (x :: out) (x :: l).

(** [out] is a sample of [n] of the lines [l]: that many (or all of them, if there are fewer), in order, with the first and the last. *)
Definition sample_of {A} (n : nat) (l out : list A) : Prop :=
  length out = Nat.min n (length l) /\ chosen_from out l /\
  hd_error out = hd_error l /\ hd_error (rev out) = hd_error (rev l).

(** The lines [out], of the lines [l], lie so that two neighbours are next to each other in [l] or closer than twice the average distance
    of [n] lines from the first to the last; [f] tells where they come from. *)
Definition evenly {A} (n : nat) (l out : list A) : Prop :=
  exists f, (forall k, k < length out -> nth_error out k = nth_error l (f k) /\ f k < length l) /\
    (l <> [] -> f 0 = 0 /\ f (length out - 1) = length l - 1) /\
    forall k, S k < length out -> f k < f (S k) /\ (f (S k) = S (f k) \/ (n - 1) * (f (S k) - f k) < 2 * length l).
