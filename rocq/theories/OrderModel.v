(** Model of the sort tool, /repo/src/bin/cdx/sort_main.rs, on top of the sorter, the merge and the keys. *)
From Coq Require Import String List NArith ZArith Bool Arith.
Open Scope list_scope.
Import ListNotations.
From Verif Require Import Base TextModel StrModel FloatModel ReadModel HeadModel HdrModel CompModel SortModel ToolModel KeyModel.
Close Scope Z_scope. Open Scope nat_scope.

Section Order.
(** Oracles as in ToolModel, KeyModel and SortModel. *)
Variable utf8_ok : bytes -> bool.
Variable name_ok : bytes -> bool.
Variable uni_alpha uni_alnum : N -> bool.
Variable expr : Type.
Variable expr_new : bytes -> res expr.
Variable expr_lookup : expr -> list bytes -> res expr.
Variable expr_eval : expr -> textline -> f64.
Variable expr_eval_line : expr -> bytes -> byte -> f64.
Variable expr_none : f64.
Variable exp10 : Z -> f64.
Variable push : (nat -> nat -> comparison) -> nat -> list nat -> list nat.
Variable pop : (nat -> nat -> comparison) -> list nat -> option (nat * list nat).
(** The data buffer of the sorter and the size of its reads, /repo/src/sort.rs:344-348 and 408-412. *)
Variable cap size : nat.

(** The variables set by the options, /repo/src/bin/cdx/sort_main.rs:19-24. *)
Record sopts := mksopts { so_keys : list (key expr); so_unique : bool; so_merge : bool; so_check : bool; so_num : N; so_alt_sort : bool; so_alt_merge : bool }.
Definition sopts_new : sopts := mksopts [] false false false 1 false false. (* /repo/src/bin/cdx/sort_main.rs:19-24 *)
(** One option, a name and a value, /repo/src/bin/cdx/sort_main.rs:25-46. *)
Definition sort_arg (o : sopts) (a : bytes * bytes) : res sopts :=
  let '(name, value) := a in
  if beq name (bs "key") then
    rbind (make_line_comp uni_alpha uni_alnum expr expr_new value) (fun k =>
    Ok (mksopts (so_keys o ++ [k]) (so_unique o) (so_merge o) (so_check o) (so_num o) (so_alt_sort o) (so_alt_merge o)))
  else if beq name (bs "alt-merge") then Ok (mksopts (so_keys o) (so_unique o) (so_merge o) (so_check o) (so_num o) (so_alt_sort o) true)
  else if beq name (bs "alt-sort") then Ok (mksopts (so_keys o) (so_unique o) (so_merge o) (so_check o) (so_num o) true (so_alt_merge o))
  else if beq name (bs "merge") then Ok (mksopts (so_keys o) (so_unique o) true (so_check o) (so_num o) (so_alt_sort o) (so_alt_merge o))
  else if beq name (bs "check") then Ok (mksopts (so_keys o) (so_unique o) (so_merge o) true 1 (so_alt_sort o) (so_alt_merge o))
  else if beq name (bs "Check") then
    rbind (to_usize_whole value) (fun n => Ok (mksopts (so_keys o) (so_unique o) (so_merge o) true n (so_alt_sort o) (so_alt_merge o)))
  else if beq name (bs "unique") then Ok (mksopts (so_keys o) true (so_merge o) (so_check o) (so_num o) (so_alt_sort o) (so_alt_merge o))
  else Panic.
Fixpoint sort_args (o : sopts) (l : list (bytes * bytes)) : res sopts := (* /repo/src/bin/cdx/sort_main.rs:25-46 *)
  match l with [] => Ok o | a :: r => rbind (sort_arg o a) (fun o => sort_args o r) end.

(** The loop over the lines of a file, /repo/src/bin/cdx/sort_main.rs:60-70: the reports so far, also those of earlier files. *)
Fixpoint check_loop (fuel : nat) (md : tmode) (cs : list linecomp) (unique : bool) (num : N) (rep : nat) (r : reader) : res nat :=
  match fuel with
  | O => Panic
  | S k =>
      rbind (next_line md r) (fun r =>
      if r_done r then Ok rep
      else rbind (prev_line r 0) (fun cur => rbind (prev_line r 1) (fun prev =>
           if comp_check exp10 cs unique prev cur
           then if (num <=? N.of_nat (S rep))%N then Ok (S rep) else check_loop k md cs unique num (S rep) r
           else check_loop k md cs unique num rep r)))
  end.
(** The loop over the files, /repo/src/bin/cdx/sort_main.rs:55-72: the number of reports. *)
Fixpoint check_files (md : tmode) (cs : list linecomp) (unique : bool) (num : N) (rep : nat) (ss : list src) : res nat :=
  match ss with
  | [] => Ok rep
  | s :: more =>
      rbind (open_file utf8_ok md s) (fun f =>
      rbind (if r_done (tf_rd f) then Ok rep else check_loop (turns (tf_rd f)) md cs unique num rep (tf_rd f)) (fun rep =>
      check_files md cs unique num rep more))
  end.

(** The lookups at /repo/src/sort.rs:512-514: the first file that is not empty, and every later one that does not start with a header.
    The keys of the last lookup serve for all lines; a name stands for the same column in all of these files. *)
Fixpoint sort_lookup (ks : list (key expr)) (first : bool) (fs : list bytes) : res (list (key expr)) :=
  match fs with
  | [] => Ok ks
  | f :: more =>
      match fst (first_line f) with
      | [] => sort_lookup ks first more
      | l => if first || negb (is_cdx l)
             then rbind (make_header l) (fun names => rbind (keys_lookup expr expr_new expr_lookup ks names 0) (fun ks => sort_lookup ks false more))
             else sort_lookup ks false more
      end
  end.
(** Two lines in the sorter's buffer with their cached keys, /repo/src/sort.rs:432-446. Simplified: they lie side by side instead of where
    they are, and some of the unused bytes after the data (the buffer grows by [SIZE], 377-391) are kept, all zero. *)
Definition side_by_side (a b : bytes) : bytes := a ++ b ++ repeat 0%N 9.
Definition line_item (cs : list linecomp) (off : nat) (l base : bytes) : item := (* /repo/src/sort.rs:438-441 *)
  ll_fill_cache_line exp10 cs (mkitem (N.of_nat off) (N.of_nat (List.length l)) 0) base.
(** LineCompList::comp_items, /repo/src/sort.rs:474. *)
Definition item_cmp (cs : list linecomp) (a b : bytes) : comparison :=
  let base := side_by_side a b in ll_comp_items exp10 cs base (line_item cs 0 a base) (line_item cs (List.length a) b base).
(** LineCompList::equal_items, /repo/src/sort.rs:478. *)
Definition item_eq (cs : list linecomp) (a b : bytes) : bool :=
  let base := side_by_side a b in ll_equal_items exp10 cs base (line_item cs 0 a base) (line_item cs (List.length a) b base).
(** What merging compares, /repo/src/sort.rs:25-32, 146 and 605: lines read with the default text mode, split at tabs. Simplified: a list of
    keys that need no columns turns splitting off (88-92, 156-160), which they do not notice. *)
Definition read_as (l : bytes) : textline := tl_split QPlain TAB (mktl l [] []).
Definition merge_cmp (cs : list linecomp) (a b : bytes) : comparison := ll_comp_cols_n exp10 cs (read_as a) (read_as b) 0 0. (* /repo/src/sort.rs:25-29 *)
Definition merge_eq (cs : list linecomp) (a b : bytes) : bool := ll_equal_cols_n exp10 cs (read_as a) (read_as b) 0 0. (* /repo/src/sort.rs:30-32 *)
Notation as_lines := (key_lines expr expr_eval expr_eval_line expr_none).

(** main, /repo/src/bin/cdx/sort_main.rs:6-85. Every file comes with the sizes of the reads the sorter makes; the other two modes read
    it through a Reader. Simplified: what was written before an error is not kept, opening the output (77) does not fail, and the random
    comparison is left out (Panic). A bad header is found before a bad key, which makes
    no difference here: both are errors. alt_sort is not passed on to the sorter, alt_merge only to the merge. *)
Definition sort_main (md : tmode) (args : list (bytes * bytes)) (fs : list (src * list nat)) : bytes * res unit :=
  need (sort_args sopts_new args) (fun o =>
  if so_check o && so_merge o then ([], Err)
  else need (match so_keys o with [] => rbind (make_line_comp uni_alpha uni_alnum expr expr_new []) (fun k => Ok [k]) | ks => Ok ks end) (fun ks =>
  if so_check o then
    match as_lines ks with
    | None => ([], Panic)
    | Some cs => need (check_files md cs (so_unique o) (so_num o) 0 (map fst fs)) (fun n => ([], if 0 <? n then Err else Ok tt))
    end
  else if so_merge o then
    match as_lines ks with
    | None => ([], Panic)
    | Some cs =>
        match merge_files (merge_cmp cs) (merge_eq cs) push pop (so_unique o)
                (so_alt_merge o) (map (fun f => content (fst f)) fs) with
        | Some out => (out, Ok tt)
        | None => ([], Panic)
        end
    end
  else need (sort_lookup ks true (map (fun f => content (fst f)) fs)) (fun ks =>
    match as_lines ks with
    | None => ([], Panic)
    | Some cs =>
        match sort_files (merge_cmp cs) (merge_eq cs) (item_cmp cs) (item_eq cs)
                push pop cap (so_unique o) utf8_ok name_ok size ck_new (mkso [] []) (map (fun f => (content (fst f), snd f)) fs) with
        | Ok out => (out, Ok tt)
        | Err => ([], Err)
        | Panic => ([], Panic)
        end
    end))).
End Order.
Arguments mksopts {expr}. Arguments so_keys {expr}. Arguments so_unique {expr}. Arguments so_merge {expr}. Arguments so_check {expr}.
Arguments so_num {expr}. Arguments so_alt_sort {expr}. Arguments so_alt_merge {expr}.
