(** Model of the calc tool, /repo/src/bin/cdx/calc_main.rs:8-44, on top of ExprModel and FmtModel. *)
From Coq Require Import String List NArith ZArith Bool Arith.
Open Scope list_scope.
Import ListNotations.
From Verif Require Import Base TextModel StrModel FloatModel ReadModel HdrModel ToolModel ExprModel FmtModel.
Close Scope Z_scope. Open Scope nat_scope.

Section CalcTool.
(** Oracles as in ToolModel, ExprModel and FmtModel; [lossy] is String::from_utf8_lossy, /repo/src/bin/cdx/calc_main.rs:28. *)
Variable utf8_ok : bytes -> bool.
Variable lossy : bytes -> bytes.
Variables uni_alpha uni_alnum : N -> bool.
Variable frem fpow : f64 -> f64 -> f64.
Variable libm : fop -> list f64 -> f64.
Variable exp10 : Z -> f64.
Variable disp : f64 -> bytes.
Variable disp_p : N -> f64 -> bytes.
Variable expo : f64 -> bytes.
Variable expo_p : N -> f64 -> bytes.

(** parse_fmt_expr, /repo/src/expr.rs:24-35. *)
Definition parse_fmt_expr (dflt : numfmt) (spec : bytes) : numfmt * bytes :=
  match split_once 44 spec with
  | Some (a, b) => match fmt_new a with Ok f => (f, b) | _ => (dflt, spec) end
  | None => (dflt, spec)
  end.
(** The options, /repo/src/bin/cdx/calc_main.rs:12-19. *)
Fixpoint calc_args (fmt : numfmt) (args : list (bytes * bytes)) : res numfmt :=
  match args with
  | [] => Ok fmt
  | (name, value) :: r => if beq name (bs "fmt") then rbind (fmt_new value) (fun f => calc_args f r) else Panic
  end.
(** The loop over the lines of a file, /repo/src/bin/cdx/calc_main.rs:27-41: what is written and the format afterwards. The message on
    standard error is left out. *)
Fixpoint calc_loop (fuel : nat) (md : tmode) (fmt : numfmt) (r : reader) : bytes * res numfmt :=
  match fuel with
  | O => ([], Panic)
  | S k =>
      need (rbind (prev_line r 0) tl_line_nl) (fun l =>
      let '(fmt, e) := parse_fmt_expr fmt (lossy l) in
      match calc frem fpow libm exp10 uni_alpha uni_alnum e with
      | Panic => ([], Panic)
      | x => say (match x with Ok v => fmt_print disp disp_p expo expo_p fmt v ++ [NL] | _ => [] end)
               (need (next_line md r) (fun r => if r_done r then ([], Ok fmt) else calc_loop k md fmt r))
      end)
  end.
(** The loop over the files, /repo/src/bin/cdx/calc_main.rs:21-42. *)
Fixpoint calc_files (md : tmode) (fmt : numfmt) (ss : list src) : tool :=
  match ss with
  | [] => ([], Ok tt)
  | s :: rest =>
      need (open_file utf8_ok md s) (fun f =>
      if tf_empty f || r_done (tf_rd f) then calc_files md fmt rest
      else let '(out, x) := calc_loop (turns (tf_rd f)) md fmt (tf_rd f) in say out (need x (fun fmt => calc_files md fmt rest)))
  end.
(** main, /repo/src/bin/cdx/calc_main.rs:8-44, with the options and the files; [md] is the mode of the input. *)
Definition calc_main (md : tmode) (args : list (bytes * bytes)) (ss : list src) : tool :=
  need (calc_args fmt_default args) (fun fmt => calc_files md fmt ss).
End CalcTool.
