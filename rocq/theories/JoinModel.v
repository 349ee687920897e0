(** Model of the quick join, /repo/src/join.rs. *)
From Coq Require Import List NArith ZArith Bool Arith.
From Verif Require Import Base FloatModel ReadModel CompModel.
Import ListNotations.
Close Scope Z_scope.

Section Quick.
Variables A B : Type.
(** comp_cols_n on the current lines of the first two readers, /repo/src/join.rs:256-258. *)
Variable cmp : A -> B -> comparison.

(** What join_quick does with the lines: the pairs of current lines for which an output row is written, the
    lines written to no_match[0], and the lines written to no_match[1]. *)
Record joined := mkj { j_rows : list (A * B); j_left : list A; j_right : list B }.
Definition j_add_row (p : A * B) (j : joined) : joined := mkj (p :: j_rows j) (j_left j) (j_right j).
Definition j_add_left (a : A) (j : joined) : joined := mkj (j_rows j) (a :: j_left j) (j_right j).
Definition j_add_right (b : B) (j : joined) : joined := mkj (j_rows j) (j_left j) (b :: j_right j).

(** Joiner::join_quick, /repo/src/join.rs:254-323.  A reader is the list of the lines still to come, its head the
    current line, the empty list is_done.  The variable cmp of the code is always the comparison of the two
    current lines, so it is recomputed here.  Equal (261-285): write the row and advance the first reader; when it
    is done, or its new line differs from the current line of the second reader, advance the second reader too.
    Less (286-296) and Greater (297-307) write the unmatched line and advance that reader.  The two final loops
    (311-322) write what is left of either reader.  I/O errors are not modelled. *)
Fixpoint join_quick (l : list A) : list B -> joined :=
  match l with
  | [] => fun r => mkj [] [] r
  | a :: l' =>
      fix go (r : list B) : joined :=
        match r with
        | [] => mkj [] l []
        | b :: r' =>
            match cmp a b with
            | Eq =>
                j_add_row (a, b)
                  match l' with
                  | [] => join_quick l' r'
                  | a' :: _ => match cmp a' b with Eq => join_quick l' r | _ => join_quick l' r' end
                  end
            | Lt => j_add_left a (join_quick l' r)
            | Gt => j_add_right b (go r')
            end
        end
  end.
End Quick.
Arguments mkj {A B}. Arguments j_rows {A B}. Arguments j_left {A B}. Arguments j_right {A B}.
Arguments join_quick {A B}.

(** OneOutCol, /repo/src/join.rs:103-106: a file number and a column number. *)
Record out_col := mkoc { oc_file : nat; oc_col : nat }.

(** OneOutCol::write, /repo/src/join.rs:121-124, on the current lines of all the readers. *)
Definition oc_value (cur : list textline) (c : out_col) : bytes := tl_get (nth (oc_file c) cur tl_new) (oc_col c).

(** Bytes written for a list of values: the first, then a delimiter before each other, then a newline,
    /repo/src/join.rs:262-267.  join fails earlier when there is no column (236-238). *)
Definition write_row (delim : N) (vs : list bytes) : bytes :=
  match vs with
  | [] => []
  | v :: rest => v ++ concat (map (fun x => delim :: x) rest) ++ [NL]
  end.

(** The output columns when none is asked for, /repo/src/join.rs:211-219.  [widths] is the number of column names
    of each file and [used f] the key columns in file f. *)
Definition default_cols (used : nat -> list nat) (widths : list nat) : list out_col :=
  concat (map (fun f =>
    map (mkoc f) (filter (fun x => (f =? 0) || negb (existsb (Nat.eqb x) (used f))) (seq 0 (nth f widths 0))))
    (seq 0 (length widths))).

(** The header line, /repo/src/join.rs:240-247; [names] are the column names of each file.  StringLine::get gives an
    empty name for a column that is not there, /repo/src/util.rs:919-926. *)
Definition write_head (delim : N) (names : list (list bytes)) (cols : list out_col) : bytes :=
  [32; 67; 68; 88]%N ++ concat (map (fun c => delim :: nth (oc_col c) (nth (oc_file c) names []) []) cols) ++ [NL].

(** The main output and the two unmatched outputs, /repo/src/join.rs:240-249.  [other] are the first lines of the
    third and later files: their readers are opened and never advanced, and the key comparison only looks at
    files 0 and 1.  The headers of the unmatched outputs are not included. *)
Definition join_files (exp10 : Z -> f64) (keys : list linecomp) (delim : N) (cols : list out_col)
    (l r other : list textline) : list bytes * list bytes * list bytes :=
  let j := join_quick (fun a b => ll_comp_cols_n exp10 keys a b 0 1) l r in
  (map (fun p => write_row delim (map (oc_value (fst p :: snd p :: other)) cols)) (j_rows j),
   map tl_line (j_left j), map tl_line (j_right j)).
