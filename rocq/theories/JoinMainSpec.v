(** What the join tool should do, independent of how it does it. *)
From Coq Require Import String List NArith ZArith Bool Arith.
Open Scope list_scope.
Import ListNotations.
From Verif Require Import Base TextSpec StrSpec FloatModel KeySpec ColSpec OrderSpec JoinSpec.
Close Scope Z_scope. Open Scope nat_scope.

(** A line of file [f], and the order of such lines: by the first key for which they differ. *)
Definition keyed (exp10 : Z -> f64) (ws : list KeySpec.wanted) (x y : nat * bytes) : comparison :=
  first_answer (map (answers exp10 (fst x) (fst y) (fields (snd x)) (fields (snd y))) ws).
Definition of_file (f : nat) (l : bytes) : nat * bytes := (f, l).

(** Part of what --output says: columns of file [n], counting from 1. *)
Definition ask := (N * list cspec)%type.
Definition ask_text (a : ask) : bytes := print_N (fst a) ++ 46%N :: join 44 (map spec_text (snd a)).
Definition output_text (asks : list ask) : bytes := join 44 (map ask_text asks).
Definition asked_parts (a : ask) : list part_ := flat_map (parts_of false) (snd a).
(** A column specification that can stand there: without comma or dot, without new names and transforms. *)
Definition simple (letter alnum : N -> bool) (s : cspec) : Prop :=
  spec_ok letter alnum s /\ s_trans s = None /\ ~ In 44%N (spec_text s) /\ ~ In 46%N (spec_text s) /\ Forall (fun t => t_label t = []) (s_terms s).
Definition ask_ok (letter alnum : N -> bool) (a : ask) : Prop :=
  (1 <= fst a < 2 ^ 64)%N /\ snd a <> [] /\ Forall (simple letter alnum) (snd a).
(** The columns it stands for: number of the file and of the column, from 0. *)
Definition asked (m : bytes -> option (bytes -> bool)) (files : list (list bytes)) (a : ask) (cols : list (nat * nat)) : Prop :=
  exists names kss, nth_error files (N.to_nat (fst a) - 1) = Some names /\ Forall2 (part_cols m names) (asked_parts a) kss /\
    cols = map (fun x => (N.to_nat (fst a) - 1, fst x)) (wanted (List.length names) (asked_parts a) kss).
(** Without --output: all columns of the first file, then those of every other file which are no key. *)
Definition default_columns (ws : list KeySpec.wanted) (files : list (list bytes)) : list (nat * nat) :=
  flat_map (fun f => map (pair f) (filter (fun c => (f =? 0) || negb (existsb (fun w => N.of_nat c =? wk_pos w f)%N ws)) (seq 0 (List.length (nth f files [])))))
    (seq 0 (List.length files)).
Definition out_columns (m : bytes -> option (bytes -> bool)) (ws : list KeySpec.wanted) (files : list (list bytes)) (asks : list ask) (cols : list (nat * nat)) : Prop :=
  match asks with [] => cols = default_columns ws files | _ => exists each, Forall2 (asked m files) asks each /\ cols = concat each end.

(** The text for a row: the chosen fields of the two lines. *)
Definition row_text (cols : list (nat * nat)) (lines : list bytes) : bytes :=
  join TAB (map (fun '(f, c) => nth c (fields (nth f lines [])) []) cols) ++ [NL].
Definition names_of (cols : list (nat * nat)) (files : list (list bytes)) : list bytes := map (fun '(f, c) => nth c (nth f files []) []) cols.

(** Options. *)
Definition join_options : list bytes := [bs "key"; bs "output"; bs "file"; bs "also"].
Definition join_known (args : list (bytes * bytes)) : Prop := Forall (fun a => In (fst a) join_options) args.
Definition also_text (a : N * bytes) : bytes := print_N (fst a) ++ 44%N :: snd a.
