(** Specification vocabulary for the places of lines. *)
From Coq Require Import List NArith Arith.
Import ListNotations.
From Verif Require Import Base TextSpec StrSpec PasteSpec.

(** What may be asked about a line: its offset in bytes, its number among the data lines, the name of its file or its last parts. *)
Inductive place := Offset | Number | File (parts : N).
(** The answer for a line of the file [name] with the bytes [before] in front of it, the [k]th line. *)
Definition told (name before : bytes) (k : nat) (p : place) : bytes :=
  match p with
  | Offset => print_N (N.of_nat (length before))
  | Number => print_N (N.of_nat k)
  | File n => if (n =? 0)%N then name else join 47 (lastn (N.to_nat n) (split_on 47 name))
  end.
(** The lines that pass the test, each behind the answers; [before] is in front of the first line, which is number [k]. *)
Fixpoint found (ps : list place) (name : bytes) (test : bytes -> bool) (before : bytes) (k : nat) (ls : list bytes) : bytes :=
  match ls with
  | [] => []
  | l :: r => (if test l then concat (map (fun p => told name before k p ++ [TAB]) ps) ++ l else []) ++ found ps name test (before ++ l) (S k) r
  end.
(** The same for files: their names, and what they show unless they are empty. The test depends on the names of the columns. *)
Fixpoint found_all (ps : list place) (test : list bytes -> bytes -> bool) (fs : list (bytes * option shown)) : bytes :=
  match fs with
  | [] => []
  | (_, None) :: r => found_all ps test r
  | (name, Some f) :: r => found ps name (test (sh_names f)) (sh_head f) 1 (sh_lines f) ++ found_all ps test r
  end.
(** Those that are not empty. *)
Fixpoint full (fs : list (bytes * option shown)) : list shown :=
  match fs with [] => [] | (_, None) :: r => full r | (_, Some f) :: r => f :: full r end.
