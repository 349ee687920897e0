(** Specification vocabulary for numbering lines. *)
From Coq Require Import List NArith ZArith Bool.
Import ListNotations.
From Verif Require Import Base StrSpec.

(** A line with its number, or without any when numbering is off ([None]); [Some true]: the number comes last. *)
Definition cell (side : option bool) (delim : N) (number line : bytes) : bytes :=
  match side with
  | None => line
  | Some false => number ++ delim :: line
  | Some true => line ++ delim :: number
  end.
(** The lines in order, without the removed ones; skipped ones have no number and are not counted. *)
Fixpoint numbered (side : option bool) (delim : N) (removed skipped : bytes -> bool) (n : Z) (ls : list bytes) : list bytes :=
  match ls with
  | [] => []
  | l :: r =>
      if removed l then numbered side delim removed skipped n r
      else if skipped l then cell side delim [] l :: numbered side delim removed skipped n r
      else cell side delim (print_Z n) l :: numbered side delim removed skipped (n + 1) r
  end.
(** The names with that of the new column. *)
Definition names_with (side : option bool) (name : bytes) (names : list bytes) : list bytes :=
  match side with None => names | Some false => name :: names | Some true => names ++ [name] end.
