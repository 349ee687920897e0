(** Model of the uniq tool from its options to its output, /repo/src/bin/cdx/uniq_main.rs:81-132 and 156-293, on top of UniqModel and AggModel. *)
From Coq Require Import String List NArith ZArith Bool Arith.
Open Scope list_scope.
Import ListNotations.
From Verif Require Import Base TextModel StrSpec StrModel FloatModel ReadModel HdrModel MatchModel CompModel ColModel AggModel ToolModel KeyModel UniqModel.
Close Scope Z_scope. Open Scope nat_scope.

(** The alternatives compared by eq_ignore_ascii_case, /repo/src/bin/cdx/uniq_main.rs:103-106 and 110-112. *)
Definition one_of (a : bytes) (l : list bytes) : bool := existsb (same_word a) l.
(** Which, as read by get_which2, /repo/src/bin/cdx/uniq_main.rs:82-92. *)
Definition read_which (w : bytes) : res which :=
  if same_word w (bs "first") then Ok First else if same_word w (bs "last") then Ok Last
  else if same_word w (bs "min") then Ok Min else if same_word w (bs "max") then Ok Max else Err.
Definition or_count (name : bytes) : bytes := match name with [] => bs "count" | _ => name end. (* /repo/src/bin/cdx/uniq_main.rs:117-121 and 124-128 *)
(** Count::get_count, /repo/src/bin/cdx/uniq_main.rs:101-132: the name and the position. *)
Definition read_count (spec : bytes) : res (bytes * count_pos) :=
  match split_once 44 spec with
  | Some (a, b) =>
      if match b with [] => true | _ => one_of b [bs "begin"; bs "start"; bs "first"] end then Ok (or_count a, CBegin)
      else if one_of b [bs "stop"; bs "end"; bs "last"] then Ok (or_count a, CEnd) else Err
  | None => Ok (or_count spec, CBegin)
  end.

Section UniqTool.
(** Oracles as in ToolModel, KeyModel, AggModel. *)
Variable utf8_ok : bytes -> bool.
Variable uni_alpha uni_alnum : N -> bool.
Variable expr : Type.
Variable expr_new : bytes -> res expr.
Variable expr_lookup : expr -> list bytes -> res expr.
Variable expr_eval : expr -> textline -> f64.
Variable expr_eval_line : expr -> bytes -> byte -> f64.
Variable expr_none : f64.
Variable exp10 : Z -> f64.
Variable decode : bytes -> list N.
Variable is_space is_alnum : N -> bool.
Variable comp_make : bytes -> res comp_t.
Variable agg_expr : bytes -> res lineagg.
Variable print_num : f64 -> bytes.

(** The keys, the Count of /repo/src/bin/cdx/uniq_main.rs:43-49 and the aggregators, as in main at 169-171. LineComp::default compares whole
    lines as plain text, /repo/src/comp.rs:216-229 with 130-140. *)
Record uconf := mkuc { uc_keys : list (key expr); uc_name : bytes; uc_pos : count_pos; uc_which : which; uc_comp : key expr; uc_aggs : list lineagger }.
Definition uconf_new : uconf := mkuc [] [] CNone First (mkkey false (KWhole (MCmp CPlain))) []. (* /repo/src/bin/cdx/uniq_main.rs:169-171 *)
(** Count::get_which and get_which2, /repo/src/bin/cdx/uniq_main.rs:81-100. *)
Definition get_which (c : uconf) (spec : bytes) : res uconf :=
  let '(a, b) := match split_once 44 spec with Some p => p | None => (spec, []) end in
  rbind (read_which a) (fun w =>
  rbind (make_line_comp uni_alpha uni_alnum expr expr_new b) (fun k => Ok (mkuc (uc_keys c) (uc_name c) (uc_pos c) w k (uc_aggs c)))).
(** LineAggList::push and the three wrappers, /repo/src/agg.rs:628-651. *)
Definition push_agg (c : uconf) (x : res lineagger) : res uconf :=
  rbind x (fun x => Ok (mkuc (uc_keys c) (uc_name c) (uc_pos c) (uc_which c) (uc_comp c) (uc_aggs c ++ [x]))).
(** One option, /repo/src/bin/cdx/uniq_main.rs:173-189. The parser knows one more, agg-help, which ends in unreachable. *)
Definition uniq_arg (c : uconf) (a : bytes * bytes) : res uconf :=
  let '(name, value) := a in
  if beq name (bs "key") then
    rbind (make_line_comp uni_alpha uni_alnum expr expr_new value) (fun k => Ok (mkuc (uc_keys c ++ [k]) (uc_name c) (uc_pos c) (uc_which c) (uc_comp c) (uc_aggs c)))
  else if beq name (bs "count") then
    rbind (read_count value) (fun '(n, p) => Ok (mkuc (uc_keys c) n p (uc_which c) (uc_comp c) (uc_aggs c)))
  else if beq name (bs "which") then get_which c value
  else if beq name (bs "agg") then push_agg c (new_replace comp_make uni_alpha uni_alnum agg_expr value)
  else if beq name (bs "agg-post") then push_agg c (new_append comp_make uni_alpha uni_alnum agg_expr value)
  else if beq name (bs "agg-pre") then push_agg c (new_prefix comp_make uni_alpha uni_alnum agg_expr value)
  else Panic.
Fixpoint uniq_args (c : uconf) (l : list (bytes * bytes)) : res uconf := (* /repo/src/bin/cdx/uniq_main.rs:173-189 *)
  match l with [] => Ok c | a :: r => rbind (uniq_arg c a) (fun c => uniq_args c r) end.

(** The aggregators with the one for the count, /repo/src/bin/cdx/uniq_main.rs:201-206, and what the writer is made of, 207-209. *)
Definition with_count (c : uconf) : res (list lineagger) :=
  let spec := uc_name c ++ bs ",1,count" in
  match uc_pos c with
  | CNone => Ok (uc_aggs c)
  | CBegin => rbind (new_prefix comp_make uni_alpha uni_alnum agg_expr spec) (fun x => Ok (x :: uc_aggs c))
  | CEnd => rbind (new_append comp_make uni_alpha uni_alnum agg_expr spec) (fun x => Ok (uc_aggs c ++ [x]))
  end.
Definition agg_columns (c : uconf) (names : list bytes) : res (list lineagger * list ocol) := (* /repo/src/bin/cdx/uniq_main.rs:200-210 *)
  match uc_aggs c with [] => Ok ([], []) | _ => rbind (with_count c) (fun v => setup uni_alpha uni_alnum v names) end.
(** The names for the header, /repo/src/bin/cdx/uniq_main.rs:215-225. *)
Definition out_names (c : uconf) (v : list lineagger) (os : list ocol) (names : list bytes) : res (list bytes) :=
  match uc_aggs c with
  | [] => Ok (match uc_pos c with CNone => names | CBegin => uc_name c :: names | CEnd => names ++ [uc_name c] end)
  | _ => all_ok (ocol_name v names) os
  end.
Definition uniq_head (cdx : bool) (ot : ColModel.tmode) (names : list bytes) : res bytes := (* /repo/src/bin/cdx/uniq_main.rs:214-226 *)
  let '(h, ok) := push_all uni_alpha uni_alnum hdr_new names in
  if ok then get_head cdx (ColModel.tm_delim ot) (h_cols h) else Err.
(** LineCompList::need_split, /repo/src/comp.rs:1389-1396 with 90-92, 344-346 and 438-440. *)
Definition need_split (ks : list (key expr)) : bool := existsb (fun k => match k_cmp k with KWhole _ => false | _ => true end) ks.
(** The lines as the loops see them, /repo/src/bin/cdx/uniq_main.rs:234-290. *)
Fixpoint read_rest (md : tmode) (fuel : nat) (r : reader) : res (list textline) :=
  match fuel with
  | O => Panic
  | S k => if r_done r then Ok [] else rbind (prev_line r 0) (fun t => rbind (next_line md r) (fun r => rbind (read_rest md k r) (fun l => Ok (t :: l))))
  end.
Definition row_line (ot : ColModel.tmode) (vs : list bytes) : bytes := (* Writer::write, /repo/src/column.rs:1411-1425 *)
  match vs with [] => [NL] | x :: r => x ++ flat_map (fun y => ColModel.tm_delim ot :: y) r ++ [NL] end.
(** The rest of main, /repo/src/bin/cdx/uniq_main.rs:228-291. *)
Definition uniq_body (md : tmode) (ot : ColModel.tmode) (c : uconf) (v : list lineagger) (os : list ocol) (cs : list linecomp) (k : linecomp) (ls : list textline) : tool :=
  let same a b := ll_equal_cols_n exp10 cs a b 0 0 in
  let order a b := lc_comp_cols_n exp10 k a b 0 0 in
  match uc_aggs c with
  | [] => (concat (uniq_lines same order (uc_which c) (uc_pos c) (tm_delim md) ls), Ok tt)
  | _ => need (all_ok (fun p => group_row exp10 decode is_space is_alnum print_num v os ot (tl_cols (fst p)) (map tl_cols (snd p)))
                      (uniq_aggs same order (uc_which c) ls)) (fun rows => (concat (map (row_line ot) rows), Ok tt))
  end.
(** main, /repo/src/bin/cdx/uniq_main.rs:156-293. [md] is text_in; [ot] and [cdx] stand for text_out. Simplified: the lines are read before the
    first is written, rows before a panic are not kept, and the random comparison is left out (Panic). *)
Definition uniq_main (md : tmode) (cdx : bool) (ot : ColModel.tmode) (args : list (bytes * bytes)) (s : src) : tool :=
  need (uniq_args uconf_new args) (fun c =>
  need (open_file utf8_ok md s) (fun f =>
  if tf_empty f then ([], Ok tt)
  else need (keys_lookup expr expr_new expr_lookup (uc_keys c) (tf_names f) 0) (fun ks =>
       need (key_lookup expr expr_new expr_lookup (uc_comp c) (tf_names f) 0) (fun k =>
       need (agg_columns c (tf_names f)) (fun '(v, os) =>
       need (match tf_head f with Some _ => rbind (out_names c v os (tf_names f)) (uniq_head cdx ot) | None => Ok [] end) (fun hd =>
       say hd (if r_done (tf_rd f) then ([], Ok tt)
               else match key_lines expr expr_eval expr_eval_line expr_none ks, key_lines expr expr_eval expr_eval_line expr_none [k] with
                    | Some cs, Some (k1 :: _) =>
                        let rd := do_split (tf_rd f) (need_split ks) in
                        need (read_rest md (S (turns rd)) rd) (fun ls => uniq_body md ot c v os cs k1 ls)
                    | _, _ => ([], Panic)
                    end))))))).
End UniqTool.
