(** Model of how the text of a sort key is read: CompMaker::make_comp and make_line_comp of /repo/src/comp.rs with its built-in
    methods, the column list of a key and its lookup in the names of each file. *)
From Coq Require Import String List NArith ZArith Bool Arith.
Open Scope list_scope.
Import ListNotations.
From Verif Require Import Base TextModel StrModel FloatModel ReadModel MatchModel CompModel RegModel.
From Verif Require ColModel.
Notation named_col := ColModel.named_col.
Notation mknc := ColModel.mknc.
Notation nc_new := ColModel.nc_new.
Notation nc_parse := ColModel.nc_parse.
Notation nc_lookup := ColModel.nc_lookup.
Notation nc_num := ColModel.nc_num.

(** What a registered method builds, /repo/src/comp.rs:878-906: one of the comparators, random answers, or a comparison by the value of
    an expression. *)
Inductive method := MCmp (c : cmpr) | MRandom | MExpr.
(** CompMaker::init, /repo/src/comp.rs:871-908. [do_push_line] and [do_push] fill two vectors. *)
Definition comp_calls : list (op method) :=
  [Alias (bs "numeric") (bs "num"); Alias (bs "length") (bs "len"); Alias (bs "plain") [];
   Push (bs "length") (MCmp CLen); Push (bs "random") MRandom; Push (bs "ip") (MCmp CIP); Push (bs "plain") (MCmp CPlain);
   Push (bs "lower") (MCmp CLower); Push (bs "float") (MCmp CF64); Push (bs "numeric") (MCmp CNumeric); Push (bs "equal") (MCmp CEqual)].
Definition comp_reg : registry method := history comp_style comp_calls (mkreg [] []). (* COMP_MAKER, /repo/src/comp.rs:858 *)
Definition line_reg : registry method := history comp_style [Push (bs "expr") MExpr] (mkreg [] []). (* LINE_MAKER, /repo/src/comp.rs:859 *)

(** Comp and LineComp while the words of the method are read, /repo/src/comp.rs:1042-1062 and 1076-1097. Junk is JunkType (None is
    [true] in [w_strict], Trailing in [w_trail]) and JunkVal; nothing reads it afterwards. *)
Record words := mkw { w_rev : bool; w_strict : bool; w_trail : bool; w_low : bool; w_type : bytes }.
Definition words_new : words := mkw false false false false []. (* Comp::default and LineComp::default, /repo/src/comp.rs:131-141, 216-229 *)
Definition add_word (w : words) (x : bytes) : words := (* /repo/src/comp.rs:1047-1057, 1082-1092 *)
  if same_word x (bs "rev") then mkw true (w_strict w) (w_trail w) (w_low w) (w_type w)
  else if same_word x (bs "strict") then mkw (w_rev w) true false (w_low w) (w_type w)
  else if same_word x (bs "trail") then mkw (w_rev w) false true (w_low w) (w_type w)
  else if same_word x (bs "low") then mkw (w_rev w) (w_strict w) (w_trail w) true (w_type w)
  else mkw (w_rev w) (w_strict w) (w_trail w) (w_low w) x.
Definition read_words (method : bytes) : words := (* /repo/src/comp.rs:1045-1059, 1080-1094 *)
  match method with [] => words_new | _ => fold_left add_word (split_str 46 method) words_new end.

(** remake_comp, /repo/src/comp.rs:1099-1109: the alias, then the first tag that is the same but for case. *)
Definition comp_method (ctype : bytes) : option method := lookup comp_style comp_reg (resolve comp_reg ctype).
Definition line_method (ctype : bytes) : option method := (* /repo/src/comp.rs:1114-1120; the aliases are shared *)
  lookup comp_style line_reg (resolve comp_reg ctype).

(** make_comp and make_comp_parts, /repo/src/comp.rs:1034-1062: the direction and the method of a comparison of plain values. The
    pattern is kept but not used by any built-in method. *)
Definition make_comp (spec : bytes) : res (bool * method) :=
  let m := match split_once 44 spec with Some (a, _) => a | None => spec end in
  let w := read_words m in
  match comp_method (w_type w) with Some k => Ok (w_rev w, k) | None => Err end.

Section Key.
(** Unicode letters and digits, as in ColModel; parsed expressions and Expr::new. *)
Variable uni_alpha uni_alnum : N -> bool.
Variable expr : Type.
Variable expr_new : bytes -> res expr.
(** Expr::lookup, /repo/src/expr.rs:465-502. *)
Variable expr_lookup : expr -> list bytes -> res expr.

(** The LineCompare made for a key, /repo/src/comp.rs:380-382, 472-475, 1834-1837. For an expression its text is kept for the files to come. *)
Inductive key_cmp :=
| KWhole (m : method)
| KCol (cols : list named_col) (m : method)
| KExpr (text : bytes) (es : list expr).
(** LineComp, /repo/src/comp.rs:192-208: direction and comparison; delim is always a TAB (225). *)
Record key := mkkey { k_rev : bool; k_cmp : key_cmp }.

(** NamedCol::new_from, /repo/src/column.rs:1459-1467. *)
Definition key_col (spec : bytes) : res named_col :=
  rbind (nc_parse uni_alpha uni_alnum nc_new spec) (fun '(c, rest) => match rest with [] => Ok c | _ => Err end).
(** LineCompCol::new, /repo/src/comp.rs:479-485. *)
Fixpoint key_cols (l : list bytes) : res (list named_col) :=
  match l with [] => Ok [] | x :: r => rbind (key_col x) (fun c => rbind (key_cols r) (fun cs => Ok (c :: cs))) end.
(** make_line_comp_parts and remake_line_comp, /repo/src/comp.rs:1076-1097, 1111-1133. *)
Definition make_line_parts (cols method pattern : bytes) : res key :=
  let w := read_words method in
  match line_method (w_type w) with
  | Some _ => rbind (expr_new pattern) (fun e => Ok (mkkey (w_rev w) (KExpr pattern [e])))
  | None =>
      match comp_method (w_type w) with
      | Some m => match cols with
                  | [] => Ok (mkkey (w_rev w) (KWhole m))
                  | _ => rbind (key_cols (split_str 46 cols)) (fun cs => Ok (mkkey (w_rev w) (KCol cs m)))
                  end
      | None => Err
      end
  end.
(** make_line_comp, /repo/src/comp.rs:1064-1074. *)
Definition make_line_comp (spec : bytes) : res key :=
  match split_once 44 spec with
  | Some (a, b) => match split_once 44 b with Some (c, d) => make_line_parts a c d | None => make_line_parts a b [] end
  | None => make_line_parts spec [] []
  end.

(** One more entry like the last, /repo/src/comp.rs:548-550 and 1899-1901; a key has at least one column. *)
Definition grow {B} (l : list B) (x : B) (n : nat) : list B := l ++ repeat x (S n - List.length l).
(** LineCompare::lookup, /repo/src/comp.rs:435-437 (whole lines: nothing), 547-552, 1898-1903. *)
Definition key_lookup (k : key) (names : list bytes) (n : nat) : res key :=
  match k_cmp k with
  | KWhole _ => Ok k
  | KCol cs m =>
      let cs := grow cs (last cs nc_new) n in
      rbind (nc_lookup (nth n cs nc_new) names) (fun c => Ok (mkkey (k_rev k) (KCol (list_set cs n c) m)))
  | KExpr t es =>
      rbind (if List.length es <=? n then rbind (expr_new t) (fun e => Ok (grow es e n)) else Ok es) (fun es =>
      match nth_error es n with
      | Some e => rbind (expr_lookup e names) (fun e => Ok (mkkey (k_rev k) (KExpr t (list_set es n e))))
      | None => Panic
      end)
  end.
(** LineCompList::add, /repo/src/comp.rs:1258-1261, for the texts in turn. *)
Fixpoint add_keys (specs : list bytes) : res (list key) :=
  match specs with [] => Ok [] | s :: r => rbind (make_line_comp s) (fun k => rbind (add_keys r) (fun ks => Ok (k :: ks))) end.
(** LineCompList::lookup_n, /repo/src/comp.rs:1381-1386. *)
Fixpoint keys_lookup (ks : list key) (names : list bytes) (n : nat) : res (list key) :=
  match ks with [] => Ok [] | k :: r => rbind (key_lookup k names n) (fun k => rbind (keys_lookup r names n) (fun ks => Ok (k :: ks))) end.
(** Looking up the files in order, e.g. /repo/src/join.rs:207-209. *)
Fixpoint key_lookups (k : key) (files : list (list bytes)) (n : nat) : res key :=
  match files with [] => Ok k | f :: r => rbind (key_lookup k f n) (fun k => key_lookups k r (S n)) end.

(** The same for all keys, e.g. /repo/src/join.rs:207-209. *)
Fixpoint list_lookups (ks : list key) (files : list (list bytes)) (n : nat) : res (list key) :=
  match files with [] => Ok ks | f :: r => rbind (keys_lookup ks f n) (fun ks => list_lookups ks r (S n)) end.

(** What an expression gives for a line, /repo/src/comp.rs:1856-1857, 1882-1883. *)
Variable expr_eval : expr -> textline -> f64.
Variable expr_eval_line : expr -> bytes -> byte -> f64.
Variable expr_none : f64.
(** The key as CompModel has it: [num] of each column entry (/repo/src/comp.rs:501-502), delimiter TAB. Random methods have no such
    reading. A file that was not looked up is out of range, which would panic. *)
Definition key_line (k : key) : option linecomp :=
  match k_cmp k with
  | KWhole (MCmp c) => Some (mklc (k_rev k) TAB (LWhole (mkcomp (k_rev k) c)))
  | KCol cs (MCmp c) => Some (mklc (k_rev k) TAB (LCol (fun f => N.to_nat (nc_num (nth f cs nc_new))) (mkcomp (k_rev k) c)))
  | KExpr _ es => Some (mklc (k_rev k) TAB
      (LExpr (fun f t => match nth_error es f with Some e => expr_eval e t | None => expr_none end)
             (fun f l d => match nth_error es f with Some e => expr_eval_line e l d | None => expr_none end)))
  | _ => None
  end.
Fixpoint key_lines (ks : list key) : option (list linecomp) := (* the Vec of LineCompList, /repo/src/comp.rs:1143-1146 *)
  match ks with
  | [] => Some []
  | k :: r => match key_line k, key_lines r with Some c, Some cs => Some (c :: cs) | _, _ => None end
  end.
End Key.
Arguments mkkey {expr}. Arguments k_rev {expr}. Arguments k_cmp {expr}. Arguments KWhole {expr}. Arguments KCol {expr}. Arguments KExpr {expr}.
