(** Model of the uniq command, /repo/src/bin/cdx/uniq_main.rs. *)
From Coq Require Import List NArith ZArith Bool Arith.
From Verif Require Import Base StrSpec FloatModel ReadModel CompModel CompSpec.
Import ListNotations.
Close Scope Z_scope.

(** Which, /repo/src/bin/cdx/uniq_main.rs:32-42. *)
Inductive which := First | Last | Min | Max.
(** CountPos, /repo/src/bin/cdx/uniq_main.rs:20-29. *)
Inductive count_pos := CNone | CBegin | CEnd.

(** chomp, /repo/src/bin/cdx/uniq_main.rs:51-59. *)
Definition chomp (x : bytes) : bytes :=
  match rev x with
  | c :: r => if (c =? NL)%N then rev r else x
  | [] => x
  end.
(** Writing a byte as a char, [delim as char] at /repo/src/bin/cdx/uniq_main.rs:71 and 76: UTF-8. *)
Definition as_char (b : N) : bytes := if (b <? 128)%N then [b] else [192 + b / 64; 128 + b mod 64]%N.
(** Count::write, /repo/src/bin/cdx/uniq_main.rs:65-80. [print_N] is the decimal text of a number. *)
Definition count_write (pos : count_pos) (num : nat) (line : bytes) (delim : N) : bytes :=
  match pos with
  | CNone => line
  | CBegin => print_N (N.of_nat num) ++ as_char delim ++ line
  | CEnd => chomp line ++ as_char delim ++ print_N (N.of_nat num) ++ [NL]
  end.

Section Uniq.
(** comp.equal_cols, /repo/src/bin/cdx/uniq_main.rs:258 and others: are two adjacent lines equal? *)
Variable eq : textline -> textline -> bool.
(** self.comp.comp_cols of Count, /repo/src/bin/cdx/uniq_main.rs:139 and 144. *)
Variable cmp : textline -> textline -> comparison.
Variable w : which.

(** Count::assign, /repo/src/bin/cdx/uniq_main.rs:134-149. *)
Definition count_assign (tmp new : textline) : textline :=
  match w with
  | First => tmp
  | Last => tl_assign tmp new
  | Min => match cmp tmp new with Gt => tl_assign tmp new | _ => tmp end
  | Max => match cmp tmp new with Lt => tl_assign tmp new | _ => tmp end
  end.

(** The loop for Which::Last without aggregators, /repo/src/bin/cdx/uniq_main.rs:253-264: what is passed to
    Count::write.  [prev] is the line before the current one, [rest] the lines not yet read. *)
Fixpoint uniq_last (prev : textline) (matches : nat) (rest : list textline) : list (nat * textline) :=
  match rest with
  | [] => [(matches, prev)]
  | x :: rest' => if eq prev x then uniq_last x (matches + 1) rest' else (matches, prev) :: uniq_last x 1 rest'
  end.
(** The loop for Which::First without counts, /repo/src/bin/cdx/uniq_main.rs:267-274, after the first line is written. *)
Fixpoint uniq_plain (prev : textline) (rest : list textline) : list textline :=
  match rest with
  | [] => []
  | x :: rest' => if eq prev x then uniq_plain x rest' else x :: uniq_plain x rest'
  end.
(** The general loop, /repo/src/bin/cdx/uniq_main.rs:276-290. *)
Fixpoint uniq_general (tmp prev : textline) (matches : nat) (rest : list textline) : list (nat * textline) :=
  match rest with
  | [] => [(matches, tmp)]
  | x :: rest' =>
      if eq prev x then uniq_general (count_assign tmp x) x (matches + 1) rest'
      else (matches, tmp) :: uniq_general (tl_assign tmp x) x 1 rest'
  end.
(** The loop with aggregators, /repo/src/bin/cdx/uniq_main.rs:235-251: for each written line, the line given to
    Writer::write and the lines added to the aggregators since they were last reset. *)
Fixpoint uniq_agg (tmp prev : textline) (added : list textline) (rest : list textline) : list (textline * list textline) :=
  match rest with
  | [] => [(tmp, added)]
  | x :: rest' =>
      if eq prev x then uniq_agg (count_assign tmp x) x (added ++ [x]) rest'
      else (tmp, added) :: uniq_agg (tl_assign tmp x) x [x] rest'
  end.

(** The part of main after the header without aggregators, /repo/src/bin/cdx/uniq_main.rs:228-291: the lines written.
    The reader is the list of its (split) lines; the lines of the file as they are looked back on are C06. *)
Definition uniq_lines (pos : count_pos) (delim : N) (ls : list textline) : list bytes :=
  match ls with
  | [] => []
  | x :: rest =>
      match w, pos with
      | Last, _ => map (fun p => count_write pos (fst p) (tl_text (snd p)) delim) (uniq_last x 1 rest)
      | First, CNone => map tl_line (x :: uniq_plain x rest)
      | _, _ => map (fun p => count_write pos (fst p) (tl_text (snd p)) delim) (uniq_general x x 1 rest)
      end
  end.
(** The same with aggregators. *)
Definition uniq_aggs (ls : list textline) : list (textline * list textline) :=
  match ls with [] => [] | x :: rest => uniq_agg x x [x] rest end.
End Uniq.
