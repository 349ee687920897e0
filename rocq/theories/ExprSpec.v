(** What expressions mean, apart from how /repo/src/expr.rs computes them. *)
From Coq Require Import String List NArith ZArith Bool Arith SpecFloat.
Open Scope list_scope.
From Verif Require Import Base TextSpec StrSpec ColSpec FloatModel ExprModel.
Import ListNotations.
Close Scope Z_scope.

(** An expression as a tree. *)
Inductive tree :=
| Leaf (x : f64) | Ref (name : bytes) | Pre (u : unop) (t : tree) | Post (t : tree)
| Op (o : binop) (a b : tree) | Call (name : bytes) (args : list tree).

(** How tightly an operator binds, 1 the loosest: comparisons, sums, products, (signs), powers. *)
Definition level (o : binop) : nat :=
  match o with
  | BLT | BGT | BEQ | BNE | BLE | BGE => 1
  | BPlus | BMinus => 2
  | BTimes | BDiv | BRem => 3
  | BPow => 5
  end.

(** The grammar: the token lists that write a tree. Level 1 comparisons, 2 sums, 3 products, 4 signs, 5 powers, 6 factorials, 7 atoms.
    Comparisons, sums and products group to the left; a power takes a signed power on its right. *)
Inductive sentence : nat -> list token -> tree -> Prop :=
| s_up : forall n ts t, 1 <= n -> sentence (S n) ts t -> sentence n ts t
| s_left : forall o ts a us b, level o <= 3 ->
    sentence (level o) ts a -> sentence (S (level o)) us b -> sentence (level o) (ts ++ TBin o :: us) (Op o a b)
| s_sign : forall u ts a, u <> UFact -> sentence 4 ts a -> sentence 4 (TUn u :: ts) (Pre u a)
| s_pow : forall ts a us b, sentence 6 ts a -> sentence 4 us b -> sentence 5 (ts ++ TBin BPow :: us) (Op BPow a b)
| s_fact : forall ts a, sentence 6 ts a -> sentence 6 (ts ++ [TUn UFact]) (Post a)
| s_num : forall x, sentence 7 [TNum x] (Leaf x)
| s_var : forall s, sentence 7 [TVar s] (Ref s)
| s_paren : forall ts a, sentence 1 ts a -> sentence 7 (TLParen :: ts ++ [TRParen]) a
| s_call : forall s ts args, arglist ts args -> sentence 7 (TFunc s None :: ts ++ [TRParen]) (Call s args)
with arglist : list token -> list tree -> Prop :=
| a_one : forall ts a, sentence 1 ts a -> arglist ts [a]
| a_more : forall ts a us l, sentence 1 ts a -> arglist us l -> arglist (ts ++ TComma :: us) (a :: l).
Scheme sentence_mind := Induction for sentence Sort Prop
with arglist_mind := Induction for arglist Sort Prop.
Combined Scheme sentence_both from sentence_mind, arglist_mind.

(** Writing a tree with only the parentheses it needs at level [n]. *)
Definition wrap (need : bool) (ts : list token) : list token := if need then TLParen :: ts ++ [TRParen] else ts.
Fixpoint show (n : nat) (t : tree) : list token :=
  match t with
  | Leaf x => [TNum x]
  | Ref s => [TVar s]
  | Pre u a => wrap (4 <? n) (TUn u :: show 4 a)
  | Post a => wrap (6 <? n) (show 6 a ++ [TUn UFact])
  | Op BPow a b => wrap (5 <? n) (show 6 a ++ TBin BPow :: show 4 b)
  | Op o a b => wrap (level o <? n) (show (level o) a ++ TBin o :: show (S (level o)) b)
  | Call s args =>
      TFunc s None :: (fix go (l : list tree) : list token :=
                         match l with
                         | [] => []
                         | [a] => show 1 a
                         | a :: l => show 1 a ++ TComma :: go l
                         end) args ++ [TRParen]
  end.
(** Trees the language can write: signs are not the factorial, and calls have arguments. *)
Fixpoint writable (t : tree) : bool :=
  match t with
  | Leaf _ | Ref _ => true
  | Pre u a => match u with UFact => false | _ => writable a end
  | Post a => writable a
  | Op _ a b => writable a && writable b
  | Call _ args => match args with [] => false | _ => true end && forallb writable args
  end.

(** The order of evaluation of a tree: operands first, left to right, then the operation. *)
Fixpoint postfix (t : tree) : list token :=
  match t with
  | Leaf x => [TNum x]
  | Ref s => [TVar s]
  | Pre u a => postfix a ++ [TUn u]
  | Post a => postfix a ++ [TUn UFact]
  | Op o a b => postfix a ++ postfix b ++ [TBin o]
  | Call s args => flat_map postfix args ++ [TFunc s (Some (List.length args))]
  end.

Section Meaning.
(** Remainder, power and factorial, and the functions by name: [None] where there is no such function for that many arguments. *)
Variable frem fpow : f64 -> f64 -> f64.
Variable fact : f64 -> f64.
Variable call : bytes -> list f64 -> option f64.
(** The value of a name. *)
Variable env : bytes -> f64.

Definition truth (b : bool) : f64 := if b then f_of_Z 1 else f_of_Z 0.
Definition op_value (o : binop) (a b : f64) : f64 :=
  match o with
  | BPlus => SFadd 53 1024 a b
  | BMinus => SFsub 53 1024 a b
  | BTimes => SFmul 53 1024 a b
  | BDiv => SFdiv 53 1024 a b
  | BRem => frem a b
  | BPow => fpow a b
  | BLT => truth (match SFcompare a b with Some Lt => true | _ => false end)
  | BGT => truth (match SFcompare a b with Some Gt => true | _ => false end)
  | BEQ => truth (match SFcompare a b with Some Eq => true | _ => false end)
  | BNE => truth (match SFcompare a b with Some Eq => false | _ => true end)
  | BLE => truth (match SFcompare a b with Some Lt | Some Eq => true | _ => false end)
  | BGE => truth (match SFcompare a b with Some Gt | Some Eq => true | _ => false end)
  end.
Definition un_value (u : unop) (a : f64) : f64 := match u with UPlus => a | UMinus => SFopp a | UFact => fact a end.
Fixpoint all_some {A} (l : list (option A)) : option (list A) :=
  match l with
  | [] => Some []
  | x :: r => match x, all_some r with Some a, Some l => Some (a :: l) | _, _ => None end
  end.
(** The value of a tree; None only when a call is of an unknown function or has a wrong number of arguments. *)
Fixpoint value (t : tree) : option f64 :=
  match t with
  | Leaf x => Some x
  | Ref s => Some (env s)
  | Pre u a => option_map (un_value u) (value a)
  | Post a => option_map fact (value a)
  | Op o a b => match value a, value b with Some x, Some y => Some (op_value o x y) | _, _ => None end
  | Call s args => match all_some (map value args) with Some l => call s l | None => None end
  end.

(** Carrying out operations one after the other on a stack, top first, with nothing computed in advance. *)
Definition run_step (stack : list f64) (t : token) : option (list f64) :=
  match t, stack with
  | TNum x, _ => Some (x :: stack)
  | TVar s, _ => Some (env s :: stack)
  | TUn u, a :: r => Some (un_value u a :: r)
  | TBin o, b :: a :: r => Some (op_value o a b :: r)
  | TFunc s (Some n), _ => if List.length stack <? n then None
                           else option_map (fun v => v :: skipn n stack) (call s (rev (firstn n stack)))
  | _, _ => None
  end.
Fixpoint run (stack : list f64) (ts : list token) : option (list f64) :=
  match ts with
  | [] => Some stack
  | t :: r => match run_step stack t with Some s => run s r | None => None end
  end.
End Meaning.
Arguments all_some {A}.

(** The built-in functions as /repo/src/expr.rs provides them: a name, and a number of arguments in its range. *)
Definition arity_ok (f : fop) (n : nat) : bool := (min_args f <=? n) && ((max_args f =? 0) || (n <=? max_args f)).
Definition builtin (fpow : f64 -> f64 -> f64) (libm : fop -> list f64 -> f64) (s : bytes) (args : list f64) : option f64 :=
  match find_func s with
  | Ok f => if arity_ok f (List.length args) then match apply_func fpow libm f args with Ok v => Some v | _ => None end else None
  | _ => None
  end.
(** Every function called exists and takes that many arguments. *)
Definition fun_ok (t : token) : bool :=
  match t with
  | TFunc s (Some n) => match find_func s with Ok f => arity_ok f n | _ => false end
  | _ => true
  end.
(** The values of the variables of a compiled expression are those of [env]. *)
Definition agrees (env : bytes -> f64) (x : expr) : Prop := Forall (fun v => v_val v = env (v_name v)) (e_vars x).
(** [env] gives the named constants their values. *)
Definition knows_consts (env : bytes -> f64) : Prop := forall s v, find_const s = Some v -> env s = v.
(** The same program with other values, or other columns, for its variables. *)
Definition same_code (x y : expr) : Prop := e_nodes x = e_nodes y /\ map v_name (e_vars x) = map v_name (e_vars y).

(** ** Texts *)
(** A relation between neighbours. *)
Fixpoint pairs (R : token -> token -> bool) (ts : list token) : bool :=
  match ts with
  | a :: (b :: _) as r => R a b && pairs R r
  | _ => true
  end.
Definition op_text (o : binop) : bytes :=
  match o with
  | BPlus => bs "+" | BMinus => bs "-" | BTimes => bs "*" | BDiv => bs "/" | BRem => bs "%" | BPow => bs "^"
  | BLT => bs "<" | BGT => bs ">" | BEQ => bs "==" | BNE => bs "!=" | BLE => bs "<=" | BGE => bs ">="
  end.
Definition un_text (u : unop) : bytes := match u with UPlus => bs "+" | UMinus => bs "-" | UFact => bs "!" end.
(** A number literal: digits, perhaps a point and more digits. *)
Definition literal (s : bytes) : Prop :=
  exists ds fs, ds <> [] /\ forallb is_digit ds = true /\ forallb is_digit fs = true /\ (s = ds \/ s = ds ++ 46%N :: fs).
(** How tokens are written; [alpha] and [alnum] are the characters names start with and consist of. *)
Inductive spells (exp10 : Z -> f64) (alpha alnum : N -> bool) : token -> bytes -> Prop :=
| sp_num : forall s, literal s -> spells exp10 alpha alnum (TNum (to_f64_lossy exp10 s)) s
| sp_var : forall c r, alpha c = true -> forallb alnum r = true -> spells exp10 alpha alnum (TVar (c :: r)) (c :: r)
| sp_func : forall c r, alpha c = true -> forallb alnum r = true -> spells exp10 alpha alnum (TFunc (c :: r) None) (c :: r ++ bs "(")
| sp_bin : forall o, spells exp10 alpha alnum (TBin o) (op_text o)
| sp_un : forall u, spells exp10 alpha alnum (TUn u) (un_text u)
| sp_left : spells exp10 alpha alnum TLParen (bs "(")
| sp_right : spells exp10 alpha alnum TRParen (bs ")")
| sp_comma : spells exp10 alpha alnum TComma (bs ",").
(** The operators whose spelling has an equals sign. *)
Definition has_equals (t : token) : bool := match t with TBin (BEQ | BNE | BLE | BGE) => true | _ => false end.
(** Neighbours the tokenizer gets wrong: a plus or minus right after a factorial, and a sign right after the bracket of a call. *)
Definition misread (a b : token) : bool :=
  match a, b with
  | TUn UFact, TBin (BPlus | BMinus) => true
  | TFunc _ _, TUn (UPlus | UMinus) => true
  | _, _ => false
  end.

(** [written s t]: the text [s] writes the tree [t], with none of the spellings that are refused or misread. *)
Definition written (exp10 : Z -> f64) (alpha alnum : N -> bool) (s : bytes) (t : tree) : Prop :=
  exists ts ss, s = concat ss /\ sentence 1 ts t /\ Forall2 (spells exp10 alpha alnum) ts ss /\
    forallb (fun t => negb (has_equals t)) ts = true /\ pairs (fun a b => negb (misread a b)) ts = true.
(** The named constants, and 0 for every other name. *)
Definition env0 (s : bytes) : f64 := match find_const s with Some v => v | None => f_zero end.

(** ** Columns *)
(** The name standing for the column at position [k]. *)
Definition numbered (k : N) : bytes := bs "c" ++ print_N (k + 1).
(** [column_of names s k]: the reference [s] means the column at position [k]: the first of that name, or the one of that number. *)
Definition column_of (names : list bytes) (s : bytes) (k : N) : Prop :=
  (nth_error names (N.to_nat k) = Some s /\ forall j, j < N.to_nat k -> nth_error names j <> Some s) \/
  (~ In s names /\ s = numbered k /\ (k + 1 < 2 ^ 64)%N).
(** The names a tree refers to. *)
Fixpoint refs (t : tree) : list bytes :=
  match t with
  | Leaf _ => []
  | Ref s => [s]
  | Pre _ a | Post a => refs a
  | Op _ a b => refs a ++ refs b
  | Call _ l => flat_map refs l
  end.
(** Pieces of an expression text: plain text, or a column specification in brackets. *)
Inductive bit := BText (s : bytes) | BCols (s : cspec).
Definition bit_text (b : bit) : bytes := match b with BText s => s | BCols s => 91%N :: spec_text s ++ [93%N] end.
(** The text a piece stands for: the chosen columns by their numbers, with commas between. *)
Definition bit_means (letter alnum : N -> bool) (m : bytes -> option (bytes -> bool)) (good : bytes -> Prop) (names : list bytes) (b : bit) (out : bytes) : Prop :=
  match b with
  | BText s => ~ In 91%N s /\ out = s
  | BCols s => spec_ok letter alnum s /\ (forall t, s_trans s = Some t -> good t) /\ balanced 91 93 (spec_text s) /\
      exists kss, Forall2 (part_cols m names) (parts_of false s) kss /\
        out = TextSpec.join 44 (map (fun w => numbered (N.of_nat (fst w))) (wanted (List.length names) (parts_of false s) kss))
  end.
