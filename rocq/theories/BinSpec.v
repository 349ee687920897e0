(** What binary search should find. *)
From Coq Require Import List NArith Bool Arith Sorting.Sorted.
Import ListNotations.
From Verif Require Import Base.

(** The lines of a text, each with its newline; the last may lack one. *)
Fixpoint cut_lines (l : bytes) : list bytes :=
  match l with
  | [] => []
  | c :: r => if (c =? NL)%N then [c] :: cut_lines r
              else match cut_lines r with [] => [[c]] | x :: xs => (c :: x) :: xs end
  end.

(** The value searched for is above, equal to, or below a line. *)
Definition above (c : bytes -> comparison) (l : bytes) : bool := match c l with Gt => true | _ => false end.
Definition matches (c : bytes -> comparison) (l : bytes) : bool := match c l with Eq => true | _ => false end.
Definition rank (x : comparison) : nat := match x with Gt => 0 | Eq => 1 | Lt => 2 end.
(** The lines are sorted as far as the value can tell: first those below it, then those equal to it, then those
    above. *)
Definition in_order (c : bytes -> comparison) (ls : list bytes) : Prop :=
  StronglySorted (fun x y => rank (c x) <= rank (c y)) ls.
(** Blank lines, if any, are not above the value, and an empty slice compares like one. *)
Definition blanks_ok (c : bytes -> comparison) (ls : list bytes) : Prop :=
  In [NL] ls -> c [] = c [NL] /\ c [NL] <> Lt.

(** A text with its last line ended by a newline. *)
Definition ended (b : bytes) : bytes :=
  match b with [] => [] | _ => if (last b 0 =? NL)%N then b else b ++ [NL] end.
(** The output for a list of lines: the lines as they are, or each with the file name and a tab in front. *)
Definition shown (name : option bytes) (ls : list bytes) : bytes :=
  match name with None => ended (concat ls) | Some n => concat (map (fun l => n ++ [TAB] ++ ended l) ls) end.
