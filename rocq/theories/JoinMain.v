(** Model of the join tool, /repo/src/bin/cdx/join_main.rs and the set-up in /repo/src/join.rs, on top of the quick join. *)
From Coq Require Import String List NArith ZArith Bool Arith.
Open Scope list_scope.
Import ListNotations.
From Verif Require Import Base TextModel StrModel FloatModel ReadModel HdrModel MatchModel CompModel ColModel ToolModel KeyModel.
From Verif Require JoinModel.
Close Scope Z_scope. Open Scope nat_scope.

Section JoinTool.
(** Oracles as in ToolModel, ColModel and KeyModel. *)
Variable utf8_ok : bytes -> bool.
Variable uni_alpha uni_alnum : N -> bool.
Variable T : Type.
Variable trans_make : bytes -> res T.
Variable match_make : bytes -> res (bytes -> bool).
Variable expr : Type.
Variable expr_new : bytes -> res expr.
Variable expr_lookup : expr -> list bytes -> res expr.
Variable expr_eval : expr -> textline -> f64.
Variable expr_eval_line : expr -> bytes -> byte -> f64.
Variable expr_none : f64.
Variable exp10 : Z -> f64.
(** Expr::used_cols, /repo/src/expr.rs:442-448. *)
Variable expr_used : expr -> list nat.

(** JoinConfig, /repo/src/join.rs:73-100: the keys, the output columns (OutColSpec, 55-60), the main output, the unmatched outputs (NoMatch,
    35-40, file numbers from 1). The fields the tool never sets are left out: jtype is Quick, out_delim TAB. *)
Record jconf := mkjc { jc_keys : list bytes; jc_cols : list (N * colset T); jc_out : bytes; jc_also : list (N * bytes) }.
Definition jconf_new : jconf := mkjc [] [] (bs "-") []. (* JoinConfig::new, /repo/src/join.rs:134-141 *)
Definition no_parts (c : colset T) : bool := (* ColumnSet::is_empty, /repo/src/column.rs:736-738 *)
  match cs_pos c, cs_neg c with [], [] => true | _, _ => false end.
(** The loop over the parts of an output specification, /repo/src/bin/cdx/join_main.rs:22-48; file.unwrap() panics on None. *)
Definition flush (file : option N) (set : colset T) (acc : list (N * colset T)) : res (list (N * colset T)) :=
  if no_parts set then Ok acc else match file with Some f => Ok (acc ++ [(f, set)]) | None => Panic end. (* /repo/src/bin/cdx/join_main.rs:27-28, 46-48 *)
Fixpoint output_parts (ys : list bytes) (file : option N) (set : colset T) (acc : list (N * colset T)) : res (list (N * colset T)) :=
  match ys with
  | [] => flush file set acc
  | y :: r =>
      match split_once 46 y with
      | Some (num, spec) =>
          rbind (flush file set acc) (fun acc =>
          rbind (to_usize_whole num) (fun n =>
          if (n =? 0)%N then Err
          else rbind (add uni_alpha trans_make (if no_parts set then set else set_new) spec false) (fun set => output_parts r (Some (n - 1)%N) set acc)))
      | None =>
          match file with
          | None => Err
          | Some _ => rbind (add uni_alpha trans_make set y false) (fun set => output_parts r file set acc)
          end
      end
  end.
(** One option, a name and a value, /repo/src/bin/cdx/join_main.rs:18-63. *)
Definition join_arg (c : jconf) (a : bytes * bytes) : res jconf :=
  let '(name, value) := a in
  if beq name (bs "key") then Ok (mkjc (jc_keys c ++ [value]) (jc_cols c) (jc_out c) (jc_also c))
  else if beq name (bs "output") then
    rbind (output_parts (split_str 44 value) None set_new (jc_cols c)) (fun cols => Ok (mkjc (jc_keys c) cols (jc_out c) (jc_also c)))
  else if beq name (bs "file") then Ok (mkjc (jc_keys c) (jc_cols c) value (jc_also c))
  else if beq name (bs "also") then
    match split_once 44 value with
    | Some (a, b) => rbind (to_usize_whole a) (fun n => Ok (mkjc (jc_keys c) (jc_cols c) (jc_out c) (jc_also c ++ [(n, b)])))
    | None => Err
    end
  else Panic.
Fixpoint join_args (c : jconf) (l : list (bytes * bytes)) : res jconf := (* /repo/src/bin/cdx/join_main.rs:18-63 *)
  match l with [] => Ok c | a :: r => rbind (join_arg c a) (fun c => join_args c r) end.

(** TextFileMode::default, /repo/src/util.rs:248-272 and 1531-1534: join opens its files with it whatever was asked for. *)
Definition join_mode : tmode := mkmode HMaybe QPlain TAB NL.
(** The checks on --also, /repo/src/join.rs:182-198; [seen] are the file numbers before. *)
Fixpoint also_ok (n : nat) (l : list (N * bytes)) (seen : list N) : bool :=
  match l with
  | [] => true
  | (f, _) :: r => (1 <=? f)%N && (f <=? N.of_nat n)%N && negb (existsb (N.eqb f) seen) && also_ok n r (f :: seen)
  end.
(** Reader::write_header, /repo/src/util.rs:1670-1673: the header line read, or the one made up for a file without (1321-1332). The number
    of names is that of columns of the first line. *)
Definition header_text (f : tfile) : bytes :=
  match tf_head f with Some h => h | None => match tf_names f with [] => [] | l => fake_head (List.length l) end end.
(** LineCompare::used_cols, /repo/src/comp.rs:391, 489-491, 1860-1862 with 238-240 and 1250-1256. Every key was looked up in every file. *)
Definition used_cols (ks : list (key expr)) (f : nat) : list nat :=
  flat_map (fun k => match k_cmp k with
                     | KWhole _ => []
                     | KCol cs _ => [N.to_nat (nc_num (nth f cs nc_new))]
                     | KExpr _ es => match nth_error es f with Some e => expr_used e | None => [] end
                     end) ks.
(** The columns asked for, /repo/src/join.rs:221-234. The name and the transform of a column are kept there but nothing reads them. *)
Fixpoint asked_cols (specs : list (N * colset T)) (names : list (list bytes)) : res (list JoinModel.out_col) :=
  match specs with
  | [] => Ok []
  | (f, set) :: r =>
      if (N.of_nat (List.length names) <=? f)%N then Err
      else rbind (lookup match_make set (nth (N.to_nat f) names [])) (fun c =>
           rbind (asked_cols r names) (fun l => Ok (map (fun o => JoinModel.mkoc (N.to_nat f) (N.to_nat (oc_num o))) (cs_cols c) ++ l)))
  end.
Definition join_cols (specs : list (N * colset T)) (ks : list (key expr)) (names : list (list bytes)) : res (list JoinModel.out_col) :=
  match specs with [] => Ok (JoinModel.default_cols (used_cols ks) (map (@List.length bytes) names)) | _ => asked_cols specs names end. (* /repo/src/join.rs:211-235 *)
(** The lines of an open file, read one by one as in /repo/src/join.rs:255-321. *)
Fixpoint rest_lines (fuel : nat) (r : reader) : res (list textline) :=
  match fuel with
  | O => Panic
  | S k => if r_done r then Ok [] else rbind (prev_line r 0) (fun t => rbind (next_line join_mode r) (fun r => rbind (rest_lines k r) (fun l => Ok (t :: l))))
  end.
Definition lines_of (f : tfile) : res (list textline) := rest_lines (S (turns (tf_rd f))) (tf_rd f). (* /repo/src/join.rs:255-321 *)
Fixpoint firsts (fs : list tfile) : res (list textline) := (* curr() of the readers that never move, /repo/src/join.rs:122 *)
  match fs with [] => Ok [] | f :: r => rbind (prev_line (tf_rd f) 0) (fun t => rbind (firsts r) (fun l => Ok (t :: l))) end.

(** main and Joiner::join, /repo/src/bin/cdx/join_main.rs:5-66 and /repo/src/join.rs:157-253: the outputs, each with the name it goes to, the
    main one first. Simplified: what was written before an error is not kept, opening an output does not fail, outputs of the same name are
    listed side by side, and the random comparison is left out (Panic). *)
Definition join_main (args : list (bytes * bytes)) (ss : list src) : res (list (bytes * bytes)) :=
  rbind (join_args jconf_new args) (fun c =>
  if List.length ss <? 2 then Err
  else rbind (open_files utf8_ok join_mode ss) (fun fs =>
  if negb (also_ok (List.length fs) (jc_also c) []) then Err
  else rbind (add_keys uni_alpha uni_alnum expr expr_new (match jc_keys c with [] => [bs "1"] | ks => ks end)) (fun ks =>
  let names := map tf_names fs in
  rbind (list_lookups expr expr_new expr_lookup ks names 0) (fun ks =>
  rbind (join_cols (jc_cols c) ks names) (fun cols =>
  match cols, fs with
  | [], _ => Err
  | _, f0 :: f1 :: more =>
      match key_lines expr expr_eval expr_eval_line expr_none ks with
      | None => Panic
      | Some cs =>
          rbind (lines_of f0) (fun l => rbind (lines_of f1) (fun r => rbind (firsts more) (fun other =>
          let '(rows, one, two) := JoinModel.join_files exp10 cs TAB cols l r other in
          let head := match tf_head f0 with Some _ => JoinModel.write_head TAB names cols | None => [] end in
          let lone n := if (n =? 1)%N then concat one else if (n =? 2)%N then concat two else [] in
          Ok ((jc_out c, head ++ concat rows) ::
              map (fun '(n, name) => (name, match nth_error fs (N.to_nat n - 1) with Some f => header_text f | None => [] end ++ lone n)) (jc_also c)))))
      end
  | _, _ => Panic
  end))))).
End JoinTool.
Arguments mkjc {T}. Arguments jc_keys {T}. Arguments jc_cols {T}. Arguments jc_out {T}. Arguments jc_also {T}.

(** get_writer, /repo/src/util.rs:1203-1214: a file that exists is opened without emptying it and written from its start. *)
Definition stored (old new : bytes) : bytes := new ++ skipn (List.length new) old.
