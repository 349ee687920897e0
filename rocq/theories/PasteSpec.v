(** Specification vocabulary for pasting files side by side. *)
From Coq Require Import List NArith Arith.
Import ListNotations.
From Verif Require Import Base TextSpec TurnSpec.

(** The lengths of the longest and of the shortest file. *)
Definition longest (lens : list nat) : nat := list_max lens.
Definition shortest (lens : list nat) : nat := fold_right Nat.min (list_max lens) lens.

(** A file to be pasted: its lines and what stands for the lines it lacks. *)
Notation piece := (list bytes * bytes)%type (only parsing).
(** Its part of output line [j]: the line without its line break. *)
Definition part_of (j : nat) (f : piece) : bytes := nth j (map (@removelast N) (fst f)) (snd f).
(** The first [n] output lines. *)
Definition side_by_side (n : nat) (fs : list piece) : bytes := table (map (fun j => map (part_of j) fs) (seq 0 n)).

(** What a file shows: its header line (empty without one), its column names and its data lines. *)
Record shown := mkshown { sh_head : bytes; sh_names : list bytes; sh_lines : list bytes }.
(** The names of the files before the first one without header, and those of the others. *)
Fixpoint headed (fs : list shown) : list bytes * list bytes :=
  match fs with
  | [] => ([], [])
  | f :: r => match sh_head f with
              | [] => ([], sh_names f ++ concat (map sh_names r))
              | _ => (sh_names f ++ fst (headed r), snd (headed r))
              end
  end.
Definition all_headed (fs : list shown) : bool := forallb (fun f => match sh_head f with [] => false | _ => true end) fs.
(** The files with what stands for missing lines: the last line, or the values of the columns, which are numbered through. *)
Fixpoint filled (use_last : bool) (value : nat -> bytes) (from : nat) (fs : list shown) : list piece :=
  match fs with
  | [] => []
  | f :: r =>
      let n := length (sh_names f) in
      (sh_lines f, if use_last then removelast (last (sh_lines f) []) else join TAB (map value (seq from n))) :: filled use_last value (from + n) r
  end.
