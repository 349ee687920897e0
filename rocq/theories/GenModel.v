(** Model of the text generators, /repo/src/textgen.rs, and of the tool around them, /repo/src/bin/cdx/filegen_main.rs. *)
From Coq Require Import String List NArith ZArith Bool Arith.
Import ListNotations.
From Verif Require Import Base TextSpec TextModel StrSpec StrModel ToolModel.
Open Scope nat_scope.
Open Scope list_scope.

(** fastrand, used at /repo/src/textgen.rs:72, 79 and 84-85: what it gives at a line and column; [dc_draw] is told whether the digits
    before or after the point are wanted and the bound. Simplified: the outcomes are fixed beforehand. *)
Record dice := mkdice { dc_coin : nat -> nat -> bool; dc_draw : nat -> nat -> bool -> N -> N }.

(** The generators, /repo/src/textgen.rs:24-191. Expressions and the normal distribution, 92-155, and generators registered by a program
    are functions of the line and column numbers. *)
Inductive gen :=
  | TNull
  | TGrid
  | TCount (start : Z)
  | TDecimal (sign : bool) (pre : N) (post_size : nat)
  | TFun (f : nat -> nat -> res bytes).

(** isize arithmetic with overflow checks, /repo/src/textgen.rs:188. *)
Definition isize_ok (z : Z) : res Z := if ((- 2 ^ 63 <=? z) && (z <? 2 ^ 63))%Z then Ok z else Panic.

(** usize::pow, /repo/src/textgen.rs:45, 47 and 49: an overflow is a panic in builds with overflow checks. *)
Definition pow10 (n : nat) : res N := if (10 ^ N.of_nat n <? 2 ^ 64)%N then Ok (10 ^ N.of_nat n)%N else Panic.

(** DecimalGen::new, /repo/src/textgen.rs:32-68. The pattern is taken as bytes: its characters are counted by their bytes there too. *)
Definition decimal_new (spec : bytes) : res gen :=
  let '(sign, rest) := match spec with 45%N :: r => (true, r) | _ => (false, spec) end in
  match rest with
  | [] => Ok (TDecimal sign 10000 0)
  | _ => match split_once 46 rest with
         | Some (a, b) => rbind (pow10 (List.length a)) (fun pre => rbind (pow10 (List.length b)) (fun _ => Ok (TDecimal sign pre (List.length b))))
         | None => rbind (pow10 (List.length rest)) (fun pre => Ok (TDecimal sign pre 0))
         end
  end.
(** Zero padding of a number to a width, the format of /repo/src/textgen.rs:83. *)
Definition zero_padded (w : nat) (n : N) : bytes := repeat 48%N (w - List.length (print_N n)) ++ print_N n.
(** CountGen::new, /repo/src/textgen.rs:176-184. *)
Definition count_new (spec : bytes) : res gen :=
  match spec with [] => Ok (TCount 0) | _ => rbind (to_isize_whole spec) (fun v => Ok (TCount v)) end.

(** Gen::write of each, /repo/src/textgen.rs:70-90, 157-170 and 186-191. *)
Definition gen_write (dc : dice) (g : gen) (line col : nat) : res bytes :=
  match g with
  | TNull => Ok []
  | TGrid => Ok (print_N (N.of_nat line) ++ 95%N :: print_N (N.of_nat col))
  | TCount start => rbind (isize_ok (Z.of_nat line + start)) (fun a => rbind (isize_ok (a - 1)) (fun b => Ok (print_Z b)))
  | TDecimal sign pre post =>
      let s := if sign && dc_coin dc line col then [45%N] else [] in
      let a := print_N (dc_draw dc line col true pre) in
      Ok (match post with
          | O => s ++ a
          | _ => s ++ a ++ 46%N :: zero_padded post (dc_draw dc line col false (10 ^ N.of_nat post))
          end)
  | TFun f => f line col
  end.

(** GenList::write, /repo/src/textgen.rs:248-267: the text written for one line; [line] is the new line number. What stands before an
    error is written. *)
Fixpoint cols_write (dc : dice) (v : list gen) (delim : N) (line col : nat) (need_delim : bool) : tool :=
  match v with
  | [] => ([NL], Ok tt)
  | g :: r => say (if need_delim then [delim] else [])
              (need (gen_write dc g line col) (fun t => say t (cols_write dc r delim line (S col) true)))
  end.
Definition list_write (dc : dice) (v : list gen) (delim : N) (line : nat) : tool := cols_write dc v delim line 1 false. (* textgen.rs:246-267 *)

Section Maker.
(** ExprGen::new and NormalDistGen::new, /repo/src/textgen.rs:99-119 and 125-155, with their write methods. *)
Variables make_expr make_normal : bytes -> res (nat -> nat -> res bytes).
(** Names added with GenMaker::push after the start, /repo/src/textgen.rs:321-327: name and maker, the latest last. *)
Variable extra : list (bytes * (bytes -> res gen)).
(** Names added with GenMaker::add_alias, /repo/src/textgen.rs:329-332: new name and old name. *)
Variable aliases : list (bytes * bytes).

(** GenMaker::init, /repo/src/textgen.rs:295-319. *)
Definition builtin : list (bytes * (bytes -> res gen)) :=
  [(bs "null", fun _ => Ok TNull);
   (bs "expr", fun p => rbind (make_expr p) (fun f => Ok (TFun f)));
   (bs "normal", fun p => rbind (make_normal p) (fun f => Ok (TFun f)));
   (bs "decimal", decimal_new);
   (bs "grid", fun _ => Ok TGrid);
   (bs "count", count_new)].
(** do_push and do_add_alias, /repo/src/textgen.rs:342-382: replace or append. MODIFIERS is empty. *)
Fixpoint put {A} (l : list (bytes * A)) (k : bytes) (a : A) : list (bytes * A) :=
  match l with
  | [] => [(k, a)]
  | (k', a') :: r => if beq k' k then (k, a) :: r else (k', a') :: put r k a
  end.
Fixpoint find_name {A} (l : list (bytes * A)) (k : bytes) : option A := (* the loops of /repo/src/textgen.rs:335-339 and 407-414 *)
  match l with
  | [] => None
  | (k', a) :: r => if beq k' k then Some a else find_name r k
  end.
Definition registry : list (bytes * (bytes -> res gen)) := fold_left (fun l p => put l (fst p) (snd p)) extra builtin. (* textgen.rs:299-333 *)
Definition alias_table : list (bytes * bytes) := (* /repo/src/textgen.rs:299 and 329-332 *)
  fold_left (fun l p => put l (fst p) (snd p)) aliases [(bs "minimum", bs "min")].
Definition resolve_alias (name : bytes) : bytes := match find_name alias_table name with Some o => o | None => name end. (* textgen.rs:340-347 *)
(** GenMaker::make2, /repo/src/textgen.rs:396-416. *)
Definition make2 (spec pattern : bytes) : res gen :=
  let name := match spec with [] => [] | _ => resolve_alias (last (split_on 46 spec) []) end in
  match find_name registry name with Some mk => mk pattern | None => Err end.
(** GenMaker::make, /repo/src/textgen.rs:418-424. *)
Definition gen_make (spec : bytes) : res gen :=
  match split_once 44 spec with Some (a, b) => make2 a b | None => make2 spec [] end.

(** The options of the tool, /repo/src/bin/cdx/filegen_main.rs:6-11. *)
Inductive gopt := OLines (v : bytes) | OColumn (v : bytes) | OMulti (v : bytes) | OHeader.
Record plan := mkplan { pl_lines : N; pl_gens : list gen; pl_header : bool }. (* /repo/src/bin/cdx/filegen_main.rs:14-16 *)
Fixpoint push_n (n : nat) (spec : bytes) (v : list gen) : res (list gen) := (* /repo/src/bin/cdx/filegen_main.rs:30-32 *)
  match n with
  | O => Ok v
  | S k => rbind (gen_make spec) (fun g => push_n k spec (v ++ [g]))
  end.
Definition opt_step (p : plan) (o : gopt) : res plan := (* /repo/src/bin/cdx/filegen_main.rs:18-40 *)
  match o with
  | OLines v => rbind (to_usize_whole v) (fun n => Ok (mkplan n (pl_gens p) (pl_header p)))
  | OHeader => Ok (mkplan (pl_lines p) (pl_gens p) true)
  | OColumn v => rbind (gen_make v) (fun g => Ok (mkplan (pl_lines p) (pl_gens p ++ [g]) (pl_header p)))
  | OMulti v => match split_once 44 v with
                | Some (a, b) => rbind (to_usize_whole a) (fun n => rbind (push_n (N.to_nat n) b (pl_gens p)) (fun gs => Ok (mkplan (pl_lines p) gs (pl_header p))))
                | None => Err
                end
  end.
Fixpoint opt_steps (p : plan) (os : list gopt) : res plan := (* /repo/src/bin/cdx/filegen_main.rs:18-40 *)
  match os with
  | [] => Ok p
  | o :: r => rbind (opt_step p o) (fun p' => opt_steps p' r)
  end.
(** /repo/src/bin/cdx/filegen_main.rs:40-42. *)
Definition plan_of (os : list gopt) : res plan :=
  rbind (opt_steps (mkplan 10 [] false) os) (fun p =>
  match pl_gens p with
  | [] => rbind (gen_make (bs "grid")) (fun g => Ok (mkplan (pl_lines p) [g] (pl_header p)))
  | _ => Ok p
  end).
(** /repo/src/bin/cdx/filegen_main.rs:45-51. *)
Definition gen_header (k : nat) : bytes :=
  bs " CDX" ++ flat_map (fun i => TAB :: 99%N :: print_N (N.of_nat i)) (seq 1 k) ++ [NL].
Fixpoint lines_write (dc : dice) (v : list gen) (line n : nat) : tool := (* /repo/src/bin/cdx/filegen_main.rs:53-55 *)
  match n with
  | O => ([], Ok tt)
  | S k => let '(t, e) := list_write dc v TAB (S line) in say t (need e (fun _ => lines_write dc v (S line) k))
  end.
Definition filegen (dc : dice) (os : list gopt) : tool := (* /repo/src/bin/cdx/filegen_main.rs:14-57 *)
  need (plan_of os) (fun p =>
  say (if pl_header p then gen_header (List.length (pl_gens p)) else [])
      (lines_write dc (pl_gens p) 0 (N.to_nat (pl_lines p)))).
End Maker.
