(** Specification vocabulary for concatenating files. *)
From Coq Require Import List NArith Bool.
Import ListNotations.
From Verif Require Import Base.

(** The first line of a text, with its newline if it has one. *)
Fixpoint first_line (t : bytes) : bytes :=
  match t with
  | [] => []
  | c :: r => if (c =? NL)%N then [c] else c :: first_line r
  end.
Definition no_newline (t : bytes) : bool := negb (existsb (fun c => (c =? NL)%N) t).
(** What is kept of a text: all of it, or all but its first line. *)
Definition kept (b : bool) (t : bytes) : bytes := if b then t else skipn (length (first_line t)) t.
(** What is owed to a text that does not end in a newline. *)
Definition newline_owed (t : bytes) : bytes := match t with [] => [] | _ => if (last t 0 =? NL)%N then [] else [NL] end.
Definition not_empty (t : bytes) : bool := match t with [] => false | _ => true end.
