(** Model of the cut tool from its options to its output, /repo/src/bin/cdx/cut_main.rs:5-68, on top of ColModel, HdrModel and ExprModel. *)
From Coq Require Import String List NArith ZArith Bool Arith.
Open Scope list_scope.
Import ListNotations.
From Verif Require Import Base TextModel StrModel FloatModel ReadModel HeadModel HdrModel ColModel ToolModel ExprModel.
Close Scope Z_scope. Open Scope nat_scope.

Section CutTool.
(** Oracles as in ToolModel and ExprModel; [print_num] is Display for f64, /repo/src/column.rs:579. *)
Variables utf8_ok name_ok : bytes -> bool.
Variables uni_alpha uni_alnum : N -> bool.
Variable T : Type.
Variable trans_make : bytes -> res T.
Variable trans_run : T -> bytes -> res bytes.
Variable match_make : bytes -> res (bytes -> bool).
Variable frem fpow : f64 -> f64 -> f64.
Variable libm : fop -> list f64 -> f64.
Variable exp10 : Z -> f64.
Variable print_num : f64 -> bytes.

(** The writers cut can hold, /repo/src/bin/cdx/cut_main.rs:20-29: those of ColModel, and ColumnExpr (/repo/src/column.rs:551-586) with the
    expression itself. *)
Inductive cutfun := CutCol (x : colfun T) | CutExpr (name : bytes) (e : expr).
(** ColumnExpr::new, /repo/src/column.rs:558-570. *)
Definition column_expr (spec : bytes) : cutfun :=
  match split_once 58 spec with Some (a, b) => CutExpr a (expr_new b) | None => CutExpr [] (expr_new spec) end.
(** One option, /repo/src/bin/cdx/cut_main.rs:18-32: the header with its handling of repeated names, and the writers. *)
Definition cut_arg (h : header) (v : list cutfun) (a : bytes * bytes) : res (header * list cutfun) :=
  let '(name, value) := a in
  if beq name (bs "dups") then rbind (dup_new value) (fun d => Ok (set_handling h d, v))
  else if beq name (bs "fields") then rbind (add uni_alpha trans_make set_new value false) (fun c => Ok (h, v ++ [CutCol (FSet c)]))
  else if beq name (bs "group") then rbind (clump_spec uni_alpha trans_make value) (fun x => Ok (h, v ++ [CutCol x]))
  else if beq name (bs "expr") then Ok (h, v ++ [column_expr value])
  else if beq name (bs "composite") then rbind (comp_set uni_alpha uni_alnum value) (fun c => Ok (h, v ++ [CutCol (FComp c)]))
  else Panic.
Fixpoint cut_args (h : header) (v : list cutfun) (l : list (bytes * bytes)) : res (header * list cutfun) := (* cut_main.rs:17-33 *)
  match l with [] => Ok (h, v) | a :: r => rbind (cut_arg h v a) (fun '(h, v) => cut_args h v r) end.

(** ColumnFun::lookup and add_names for these writers, /repo/src/column.rs:574-576 and 583-585; see ColModel for the others. *)
Definition cut_lookup1 (x : cutfun) (names : list bytes) : res cutfun :=
  match x with
  | CutCol x => rbind (fun_lookup match_make x names) (fun x => Ok (CutCol x))
  | CutExpr n e => rbind (expr_lookup frem fpow libm exp10 uni_alpha uni_alnum T trans_make match_make e names) (fun e => Ok (CutExpr n e))
  end.
Fixpoint cut_lookup (v : list cutfun) (names : list bytes) : res (list cutfun) := (* Writer::lookup, /repo/src/column.rs:1393-1398 *)
  match v with [] => Ok [] | x :: r => rbind (cut_lookup1 x names) (fun x => rbind (cut_lookup r names) (fun r => Ok (x :: r))) end.
Definition cut_names1 (x : cutfun) (head : list bytes) : res (list bytes) := (* /repo/src/column.rs:574-576 *)
  match x with CutCol x => fun_names x head | CutExpr n _ => Ok [n] end.
Fixpoint cut_names (v : list cutfun) (head : list bytes) : res (list bytes) := (* Writer::add_names, /repo/src/column.rs:1404-1409 *)
  match v with [] => Ok [] | x :: r => rbind (cut_names1 x head) (fun l => rbind (cut_names r head) (fun l' => Ok (l ++ l'))) end.
(** ColumnFun::write, /repo/src/column.rs:578-581 for expressions; what is written and the writer afterwards. *)
Definition cut_write (x : cutfun) (whole : bytes) (fields : list bytes) (t : ColModel.tmode) : wout * cutfun :=
  match x with
  | CutCol x => let '(w, x') := fun_write trans_run x whole fields t in (w, CutCol x')
  | CutExpr n e => match eval frem fpow libm exp10 e fields with
                   | Ok (e', y) => (wput (print_num y), CutExpr n e')
                   | Err => (([], Err), x)
                   | Panic => (([], Panic), x)
                   end
  end.
(** Writer::write, /repo/src/column.rs:1411-1425. The line always ends in a newline byte. *)
Definition cut_row (v : list cutfun) (whole : bytes) (fields : list bytes) (t : ColModel.tmode) : wout * list cutfun :=
  (wseq (match map (fun x => fst (cut_write x whole fields t)) v with
         | [] => wput []
         | o :: r => wseq o (wall (map (fun o => wseq (wput [ColModel.tm_delim t]) o) r))
         end) (wput [NL]),
   map (fun x => snd (cut_write x whole fields t)) v).
(** The loop over the lines, /repo/src/bin/cdx/cut_main.rs:60-65: what is written, and the writers afterwards. *)
Fixpoint cut_loop (fuel : nat) (md : tmode) (ot : ColModel.tmode) (v : list cutfun) (r : reader) : bytes * res (list cutfun) :=
  match fuel with
  | O => ([], Panic)
  | S k =>
      need (prev_line r 0) (fun t =>
      let '((w, e), v') := cut_row v (tl_text t) (tl_cols t) ot in
      say w (need e (fun _ => need (next_line md r) (fun r' => if r_done r' then ([], Ok v') else cut_loop k md ot v' r'))))
  end.
(** The header of one file, /repo/src/bin/cdx/cut_main.rs:47-52; empty when the file has none. *)
Definition cut_head (cdx : bool) (ot : ColModel.tmode) (h : header) (names : list bytes) (has : bool) : res bytes :=
  let '(h', ok) := push_all uni_alpha uni_alnum (hdr_clear h) names in
  if ok then (if has then get_head cdx (ColModel.tm_delim ot) (h_cols h') else Ok []) else Err.
(** The loop over the files, /repo/src/bin/cdx/cut_main.rs:39-66; [ck] is the HeaderChecker of the settings. The header is cleared before each
    file, and no renames are given, so only its handling of repeated names is carried on. *)
Fixpoint cut_files (md : tmode) (cdx : bool) (ot : ColModel.tmode) (m : hmode) (h : header) (v : list cutfun) (ck : checker) (ss : list src) : tool :=
  match ss with
  | [] => ([], Ok tt)
  | s :: rest =>
      need (open_file utf8_ok md s) (fun f =>
      if tf_empty f then cut_files md cdx ot m h v ck rest
      else need (cut_lookup v (tf_names f)) (fun v1 =>
           need (cut_names v1 (tf_names f)) (fun names =>
           need (cut_head cdx ot h names (match tf_head f with Some _ => true | None => false end)) (fun hd =>
           let '(b, ck') := check utf8_ok name_ok m ck hd in
           need b (fun b =>
           say (if b then hd else [])
           (if r_done (tf_rd f) then cut_files md cdx ot m h v1 ck' rest
            else let '(t, e) := cut_loop (turns (tf_rd f)) md ot v1 (tf_rd f) in
                 say t (need e (fun v2 => cut_files md cdx ot m h v2 ck' rest))))))))
  end.
(** main, /repo/src/bin/cdx/cut_main.rs:5-68: [md] is text_in, [ot] and [cdx] stand for text_out, [m] is the mode of the checker. *)
Definition cut_main (md : tmode) (cdx : bool) (ot : ColModel.tmode) (m : hmode) (args : list (bytes * bytes)) (ss : list src) : tool :=
  need (cut_args hdr_new [] args) (fun '(h, v) =>
  match v with [] => ([], Err) | _ => cut_files md cdx ot m h v ck_new ss end).
End CutTool.
Arguments CutCol {T}. Arguments CutExpr {T}.
