(** Specification vocabulary for verifying a file. *)
From Coq Require Import List Bool Arith.
Import ListNotations.

Section Verify.
Variable T : Type.
(** What is demanded of every line, of neighbours, of the first and of the last line. *)
Variable good : T -> bool.
Variable ordered : T -> T -> bool.
Variables first_ok last_ok : T -> bool.

Fixpoint in_order (ls : list T) : bool :=
  match ls with
  | a :: r => match r with b :: _ => ordered a b | [] => true end && in_order r
  | [] => true
  end.
Definition ends_ok (ls : list T) : bool :=
  match ls with [] => true | a :: _ => first_ok a && last_ok (last ls a) end.
(** A file that meets all demands. *)
Definition valid (ls : list T) : bool := forallb good ls && in_order ls && ends_ok ls.

(** The lines, but for the last, that are bad themselves or out of order with the next one. *)
Fixpoint violations (ls : list T) : nat :=
  match ls with
  | a :: r => match r with b :: _ => (if good a && ordered a b then 0 else 1) + violations r | [] => 0 end
  | [] => 0
  end.
End Verify.
