(** Model of expressions: the tokenizer /repo/src/tok2.rs, the conversion to reverse Polish order /repo/src/shunting_yard.rs
    and the evaluation /repo/src/expr.rs. A Rust str is modelled as the list of its characters; see HdrModel. *)
From Coq Require Import String List NArith ZArith Bool Arith SpecFloat.
Open Scope list_scope.
From Verif Require Import Base TextSpec TextModel StrSpec StrModel FloatModel MatchModel HdrModel ColModel.
Import ListNotations.
Close Scope Z_scope.

(** BinaryOp, /repo/src/tok2.rs:7-20. *)
Inductive binop := BPlus | BMinus | BTimes | BDiv | BRem | BPow | BLT | BGT | BEQ | BNE | BLE | BGE.
(** UnaryOp, /repo/src/tok2.rs:23-27. *)
Inductive unop := UPlus | UMinus | UFact.
(** Token, /repo/src/tok2.rs:31-50. *)
Inductive token :=
| TBin (op : binop) | TUn (op : unop) | TLParen | TRParen | TComma
| TNum (x : f64) | TVar (name : bytes) | TFunc (name : bytes) (nargs : option nat).

(** can_binary, /repo/src/tok2.rs:62-74. *)
Definition can_binary (t : token) : bool :=
  match t with
  | TBin _ => false | TUn _ => false | TLParen => false | TRParen => true | TComma => false
  | TNum _ => true | TVar _ => true | TFunc _ _ => true
  end.

(** prec_assoc, /repo/src/shunting_yard.rs:24-38. *)
Inductive assoc := ALeft | ARight | ANone. (* Associativity, /repo/src/shunting_yard.rs:17-21 *)
Definition prec_assoc (t : token) : nat * assoc := (* /repo/src/shunting_yard.rs:24-38 *)
  match t with
  | TBin op => match op with
               | BLE | BGE | BLT | BGT | BEQ | BNE => (1, ALeft)
               | BPlus | BMinus => (2, ALeft)
               | BTimes | BDiv | BRem => (3, ALeft)
               | BPow => (5, ARight)
               end
  | TUn op => match op with UPlus | UMinus => (4, ANone) | UFact => (6, ANone) end
  | _ => (0, ANone)
  end.

(** The loop over the stack for a binary operator, /repo/src/shunting_yard.rs:56-69. The stack is a list with its top first;
    the positions kept beside the tokens are never read and are left out. *)
Fixpoint pop_ops (pa : nat * assoc) (out stack : list token) : list token * list token :=
  match stack with
  | [] => (out, [])
  | t :: r =>
      match pa with
      | (i, ALeft) => if i <=? fst (prec_assoc t) then pop_ops pa (out ++ [t]) r else (out, stack)
      | (i, ARight) => if i <? fst (prec_assoc t) then pop_ops pa (out ++ [t]) r else (out, stack)
      | (_, ANone) => (out, stack)
      end
  end.
(** One more argument, /repo/src/shunting_yard.rs:83 and 102. *)
Definition more_args (n : option nat) : option nat := Some (match n with Some k => k | None => 0 end + 1).
(** The loop for a right parenthesis, /repo/src/shunting_yard.rs:74-91. *)
Fixpoint pop_rparen (out stack : list token) : res (list token * list token) :=
  match stack with
  | [] => Err
  | TLParen :: r => Ok (out, r)
  | TFunc name n :: r => Ok (out ++ [TFunc name (more_args n)], r)
  | t :: r => pop_rparen (out ++ [t]) r
  end.
(** The loop for a comma, /repo/src/shunting_yard.rs:94-110. *)
Fixpoint pop_comma (out stack : list token) : res (list token * list token) :=
  match stack with
  | [] => Err
  | TLParen :: r => Err
  | TFunc name n :: r => Ok (out, TFunc name (more_args n) :: r)
  | t :: r => pop_comma (out ++ [t]) r
  end.
(** One turn of the main loop of to_rpn, /repo/src/shunting_yard.rs:49-114; the state is the output and the stack. *)
Definition rpn_step (s : list token * list token) (t : token) : res (list token * list token) :=
  let '(out, stack) := s in
  match t with
  | TNum _ | TVar _ => Ok (out ++ [t], stack)
  | TUn _ => Ok (out, t :: stack)
  | TBin _ => let '(out, stack) := pop_ops (prec_assoc t) out stack in Ok (out, t :: stack)
  | TLParen => Ok (out, t :: stack)
  | TRParen => pop_rparen out stack
  | TComma => pop_comma out stack
  | TFunc _ _ => Ok (out, t :: stack)
  end.
Fixpoint rpn_loop (s : list token * list token) (ts : list token) : res (list token * list token) := (* /repo/src/shunting_yard.rs:49-114 *)
  match ts with
  | [] => Ok s
  | t :: r => rbind (rpn_step s t) (fun s => rpn_loop s r)
  end.
(** Emptying the stack, /repo/src/shunting_yard.rs:116-124. *)
Fixpoint pop_rest (out stack : list token) : res (list token) :=
  match stack with
  | [] => Ok out
  | t :: r => match t with
              | TUn _ | TBin _ => pop_rest (out ++ [t]) r
              | TLParen | TFunc _ _ => Err
              | _ => Panic
              end
  end.
(** The verification pass, /repo/src/shunting_yard.rs:127-143. *)
Fixpoint verify_loop (n : Z) (ts : list token) : res Z :=
  match ts with
  | [] => Ok n
  | t :: r =>
      rbind (match t with
             | TVar _ | TNum _ => Ok (n + 1)%Z
             | TUn _ => Ok n
             | TBin _ => Ok (n - 1)%Z
             | TFunc _ (Some k) => Ok (n - (Z.of_nat k - 1))%Z
             | _ => Panic
             end) (fun n => if (n <=? 0)%Z then Err else verify_loop n r)
  end.
(** to_rpn, /repo/src/shunting_yard.rs:45-147. *)
Definition to_rpn (input : list token) : res (list token) :=
  rbind (rpn_loop ([], []) input) (fun '(out, stack) =>
  rbind (pop_rest out stack) (fun out =>
  rbind (verify_loop 0 out) (fun n => if (1 <? n)%Z then Err else Ok out))).

(** FACTORIAL, /repo/src/expr.rs:651-823: each literal is the pair of its digits and the power of ten they are multiplied by. *)
Definition FACTORIAL : list (Z * Z) :=
  [(0, 0); (1, 0); (2, 0); (6, 0); (24, 0); (120, 0);
   (720, 0); (504, 1); (4032, 1); (36288, 1); (36288, 2); (399168, 2);
   (4790016, 2); (62270208, 2); (871782912, 2); (1307674368, 3); (20922789888, 3); (355687428096, 3);
   (6402373705728, 3); (121645100408832, 3); (243290200817664, 4); (5109094217170944, 4); (11240007277776077, 5); (2585201673888498, 7);
   (6204484017332394, 8); (15511210043330986, 9); (40329146112660565, 10); (10888869450418352, 12); (30488834461171384, 13); (8841761993739701, 15);
   (26525285981219103, 16); (8222838654177922, 18); (2631308369336935, 20); (8683317618811886, 21); (29523279903960412, 22); (10333147966386144, 24);
   (3719933267899012, 26); (13763753091226343, 27); (523022617466601, 30); (20397882081197442, 30); (8159152832478977, 32); (33452526613163803, 33);
   (14050061177528798, 35); (6041526306337383, 37); (26582715747884485, 38); (11962222086548019, 40); (55026221598120885, 41); (25862324151116818, 43);
   (12413915592536073, 45); (6082818640342675, 47); (30414093201713376, 48); (15511187532873822, 50); (8065817517094388, 52); (42748832840600255, 53);
   (2308436973392414, 56); (12696403353658276, 57); (7109985878048635, 59); (4052691950487722, 61); (2350561331282879, 63); (13868311854568986, 64);
   (8320987112741392, 66); (5075802138772248, 68); (3146997326038794, 70); (198260831540444, 73); (12688693218588417, 73); (8247650592082472, 75);
   (5443449390774431, 77); (3647111091818868, 79); (24800355424368305, 80); (1711224524281413, 83); (1197857166996989, 85); (8504785885678622, 86);
   (6123445837688608, 88); (44701154615126834, 89); (33078854415193856, 91); (2480914081139539, 94); (18854947016660498, 95); (14518309202828584, 97);
   (11324281178206295, 99); (8946182130782973, 101); (7156945704626378, 103); (5797126020747366, 105); (475364333701284, 108); (3945523969720657, 109);
   (3314240134565352, 111); (28171041143805494, 112); (24227095383672724, 114); (2107757298379527, 117); (18548264225739836, 118); (16507955160908452, 120);
   (14857159644817607, 122); (13520015276784023, 124); (124384140546413, 128); (11567725070816409, 128); (10873661566567424, 130); (10329978488239052, 132);
   (9916779348709491, 134); (9619275968248206, 136); (9426890448883242, 138); (933262154439441, 141); (933262154439441, 143); (9425947759838354, 144);
   (9614466715035121, 146); (9902900716486175, 148); (10299016745145622, 150); (10813967582402903, 152); (11462805637347078, 154); (12265202031961373, 156);
   (13246418194518284, 158); (14438595832024928, 160); (15882455415227421, 162); (17629525510902437, 164); (19745068572210728, 166); (22311927486598123, 168);
   (2543559733472186, 171); (2925093693493014, 173); (33931086844518965, 174); (3969937160808719, 177); (46845258497542883, 178); (5574585761207603, 181);
   (6689502913449124, 183); (809429852527344, 186); (9875044200833598, 187); (12146304367025325, 189); (15061417415111404, 191); (18826771768889254, 193);
   (2372173242880046, 196); (3012660018457658, 198); (38562048236258025, 199); (49745042224772855, 201); (6466855489220472, 204); (8471580690878817, 206);
   (1118248651196004, 209); (14872707060906852, 210); (1992942746161518, 213); (26904727073180495, 214); (3659042881952547, 217); (501288874827499, 220);
   (6917786472619486, 221); (9615723196941086, 223); (1346201247571752, 226); (189814375907617, 229); (26953641378881614, 229); (38543707171800706, 231);
   (5550293832739301, 234); (8047926057471987, 236); (117499720439091, 240); (17272458904546376, 240); (25563239178728637, 242); (3808922637630567, 245);
   (57133839564458505, 246); (8627209774233235, 249); (13113358856834518, 251); (2006343905095681, 254); (3089769613847349, 256); (4789142901463391, 258);
   (747106292628289, 261); (11729568794264138, 262); (18532718694937338, 264); (2946702272495037, 267); (4714723635992059, 269); (7590705053947215, 271);
   (12296942187394488, 273); (20044015765453015, 275); (32872185855342945, 277); (5423910666131586, 280); (9003691705778433, 282); (15036165148649983, 284);
   (2526075744973197, 287); (42690680090047027, 288); (7257415615307994, 291)]%Z.
(** CONSTS, /repo/src/expr.rs:125-146. The values of std::f64::consts are written as their 64 bits. *)
Definition CONSTS : list (bytes * f64) :=
  [(bs "pi", f_of_bits 4614256656552045848);
   (bs "e", f_of_bits 4613303445314885481);
   (bs "M_E", f_of_bits 4613303445314885481);
   (bs "M_LOG2E", f_of_bits 4609176140021203710);
   (bs "M_LOG10E", f_of_bits 4601495173785380110);
   (bs "M_LN2", f_of_bits 4604418534313441775);
   (bs "M_LN10", f_of_bits 4612367379483415830);
   (bs "M_PI", f_of_bits 4614256656552045848);
   (bs "M_PI_2", f_of_bits 4609753056924675352);
   (bs "M_PI_4", f_of_bits 4605249457297304856);
   (bs "M_1_PI", f_of_bits 4599405781057128579);
   (bs "M_2_PI", f_of_bits 4603909380684499075);
   (bs "M_2_SQRTPI", f_of_bits 4607760587169110893);
   (bs "M_SQRT2", f_of_bits 4609047870845172685);
   (bs "M_SQRT1_2", f_of_bits 4604544271217802189);
   (bs "M_INF", f_of_bits 9218868437227405312);
   (bs "M_NEG_INF", f_of_bits 18442240474082181120);
   (bs "M_MAX", f_of_bits 9218868437227405311);
   (bs "M_MIN", f_of_bits 18442240474082181119);
   (bs "M_MIN_POS", f_of_bits 4503599627370496)].
(** FuncOp, /repo/src/expr.rs:55-111. *)
Inductive fop :=
    | FAcos | FAcosh | FAsin | FAsinh | FAtan | FAtan2 | FAtanh | FCbrt | FCeil | FCopysign | FCos | FCosh | 
    FErf | FExp | FExp2 | FExp10 | FExpm1 | FFabs | FFdim | FFloor | FFma | FFmax | FFmin | FFmod | 
    FHypot | FJ0 | FJ1 | FJn | FLdexp | FLgamma | FLog | FLog1p | FLog2 | FLog10 | FNextafter | FPow | 
    FRemainder | FRound | FScalbn | FSin | FSinh | FSqrt | FTan | FTanh | FTgamma | FTrunc | FY0 | FY1 | 
    FYn | FAbs | FIf | FMax | FMin | FAvg.
(** FUNCS, /repo/src/expr.rs:180-235. *)
Definition FUNCS : list (bytes * fop) :=
   [(bs "acos", FAcos); (bs "acosh", FAcosh); (bs "asin", FAsin); (bs "asinh", FAsinh); (bs "atan", FAtan); (bs "atan2", FAtan2); 
    (bs "atanh", FAtanh); (bs "cbrt", FCbrt); (bs "ceil", FCeil); (bs "copysign", FCopysign); (bs "cos", FCos); (bs "cosh", FCosh); 
    (bs "erf", FErf); (bs "exp", FExp); (bs "exp2", FExp2); (bs "exp10", FExp10); (bs "expm1", FExpm1); (bs "fabs", FFabs); 
    (bs "fdim", FFdim); (bs "floor", FFloor); (bs "fma", FFma); (bs "fmax", FFmax); (bs "fmin", FFmin); (bs "fmod", FFmod); 
    (bs "hypot", FHypot); (bs "j0", FJ0); (bs "j1", FJ1); (bs "jn", FJn); (bs "ldexp", FLdexp); (bs "lgamma", FLgamma); 
    (bs "log", FLog); (bs "log1p", FLog1p); (bs "log2", FLog2); (bs "log10", FLog10); (bs "nextafter", FNextafter); (bs "pow", FPow); 
    (bs "remainder", FRemainder); (bs "round", FRound); (bs "scalbn", FScalbn); (bs "sin", FSin); (bs "sinh", FSinh); (bs "sqrt", FSqrt); 
    (bs "tan", FTan); (bs "tanh", FTanh); (bs "tgamma", FTgamma); (bs "trunc", FTrunc); (bs "y0", FY0); (bs "y1", FY1); 
    (bs "yn", FYn); (bs "abs", FAbs); (bs "if", FIf); (bs "max", FMax); (bs "min", FMin); (bs "avg", FAvg)].
(** find_const, /repo/src/expr.rs:37-44. *)
Fixpoint find_const_loop (x : bytes) (l : list (bytes * f64)) : option f64 :=
  match l with
  | [] => None
  | (n, v) :: r => if beq x n then Some v else find_const_loop x r
  end.
Definition find_const (x : bytes) : option f64 := find_const_loop x CONSTS. (* /repo/src/expr.rs:37-44 *)
(** find_func, /repo/src/expr.rs:46-53. *)
Fixpoint find_func_loop (x : bytes) (l : list (bytes * fop)) : res fop :=
  match l with
  | [] => Err
  | (n, v) :: r => if beq n x then Ok v else find_func_loop x r
  end.
Definition find_func (x : bytes) : res fop := find_func_loop x FUNCS. (* /repo/src/expr.rs:46-53 *)
(** min_args, /repo/src/expr.rs:237-248. *)
Definition min_args (f : fop) : nat :=
  match f with
  | FAtan2 | FCopysign | FFmin | FFdim | FFmax | FFmod | FHypot | FJn | FLdexp | FNextafter
  | FRemainder | FScalbn | FPow | FYn => 2
  | FFma | FIf => 3
  | _ => 1
  end.
(** max_args, /repo/src/expr.rs:250-262. *)
Definition max_args (f : fop) : nat :=
  match f with
  | FAtan2 | FCopysign | FFmin | FFdim | FFmax | FFmod | FHypot | FJn | FLdexp | FNextafter
  | FRemainder | FScalbn | FPow | FYn => 2
  | FFma | FIf => 3
  | FMin | FMax | FAvg => 0
  | _ => 1
  end.
(** How many arguments the arm of apply_func for [f] reads by index, /repo/src/expr.rs:321-413. *)
Definition reads_args (f : fop) : nat :=
  match f with
  | FAtan2 | FCopysign | FFdim | FFmax | FFmin | FFmod | FHypot | FJn | FLdexp | FNextafter | FPow | FRemainder | FScalbn | FYn => 2
  | FFma | FIf => 3
  | FAvg => 0
  | _ => 1
  end.
(** Node, /repo/src/expr.rs:265-271. *)
Inductive node := NVal (x : f64) | NVar (i : nat) | NUn (op : unop) | NBin (op : binop) | NFunc (f : fop) (n : nat).
(** VarMap, /repo/src/expr.rs:274-287. *)
Record varmap := mkvar { v_name : bytes; v_val : f64; v_col : option N }.
(** Expr, /repo/src/expr.rs:291-296, without its scratch stack, which do_eval clears first. *)
Record expr := mkexpr { e_str : bytes; e_nodes : list node; e_vars : list varmap }.
Definition expr_new (s : bytes) : expr := mkexpr s [] []. (* /repo/src/expr.rs:435-440 *)

(** to_f, /repo/src/expr.rs:298-304. *)
Definition to_f (b : bool) : f64 := if b then f_one else f_zero.
(** f64 subtraction, as used in /repo/src/expr.rs:419, and abs, 322. *)
Definition fsub (x y : f64) : f64 := SFsub 53 1024 x y.
Definition fabs (x : f64) : f64 := SFabs x. (* f64::abs, /repo/src/expr.rs:322 *)
(** f64::round then as usize, /repo/src/expr.rs:643: halves away from zero, NaN gives 0, too large gives the largest usize. *)
Definition round_usize (x : f64) : N :=
  match x with
  | S754_nan | S754_zero _ => 0
  | S754_infinity s => if s then 0 else 2 ^ 64 - 1
  | S754_finite s m e =>
      if s then 0
      else N.min (2 ^ 64 - 1)
             (match e with
              | Z0 => N.pos m
              | Zpos k => N.shiftl (N.pos m) (N.pos k)
              | Zneg k => N.shiftr (N.pos m + N.shiftl 1 (N.pos k - 1)) (N.pos k)
              end)
  end%N.
(** factorial, /repo/src/expr.rs:639-649. *)
Definition factorial (x : f64) : f64 :=
  if f_ltb x f_zero then f_zero
  else let pos := round_usize x in
       if (170 <? pos)%N then S754_infinity false
       else let '(m, e) := nth (N.to_nat pos) FACTORIAL (0, 0)%Z in f_of_Z (m * 10 ^ e).
(** apply_unary, /repo/src/expr.rs:306-312. *)
Definition apply_unary (op : unop) (x : f64) : f64 :=
  match op with UPlus => x | UMinus => fneg x | UFact => factorial x end.

Section Eval.
(** f64 % and powf, /repo/src/expr.rs:422-423. *)
Variable frem fpow : f64 -> f64 -> f64.
(** The functions of std and libm that are not followed, /repo/src/expr.rs:322-380. *)
Variable libm : fop -> list f64 -> f64.

(** apply_binary, /repo/src/expr.rs:416-431. *)
Definition apply_binary (op : binop) (l r : f64) : f64 :=
  match op with
  | BPlus => fadd l r | BMinus => fsub l r | BTimes => fmul l r | BDiv => fdiv l r
  | BRem => frem l r | BPow => fpow l r
  | BLT => to_f (SFltb l r) | BGT => to_f (SFltb r l) | BEQ => to_f (SFeqb l r)
  | BNE => to_f (negb (SFeqb l r)) | BLE => to_f (SFleb l r) | BGE => to_f (SFleb r l)
  end.
(** apply_func, /repo/src/expr.rs:314-414. Indexing past the arguments panics. *)
Definition apply_func (f : fop) (args : list f64) : res f64 :=
  if List.length args <? reads_args f then Panic
  else Ok (let a0 := hd f_zero args in
    match f with
    | FAcos | FFabs | FAbs => fabs a0
    | FFma => f_fma a0 (nth 1 args f_zero) (nth 2 args f_zero)
    | FPow => fpow a0 (nth 1 args f_zero)
    | FMax => fold_left (fun v x => if SFltb v x then x else v) (tl args) a0
    | FMin => fold_left (fun v x => if SFltb x v then x else v) (tl args) a0
    | FAvg => fdiv (fold_left fadd args f_zero) (f_of_Z (Z.of_nat (List.length args)))
    | FIf => if negb (SFeqb a0 f_zero) then nth 1 args f_zero else nth 2 args f_zero
    | _ => libm f args
    end).

(** find_var, /repo/src/expr.rs:522-530. *)
Fixpoint var_index (vars : list varmap) (name : bytes) (i : nat) : option nat :=
  match vars with
  | [] => None
  | v :: r => if beq (v_name v) name then Some i else var_index r name (i + 1)
  end.
Definition find_var (vars : list varmap) (name : bytes) : nat * list varmap := (* /repo/src/expr.rs:522-530 *)
  match var_index vars name 0 with
  | Some i => (i, vars)
  | None => (List.length vars, vars ++ [mkvar name f_zero None])
  end.
(** One token of rpn_to_expr, /repo/src/expr.rs:533-590; the nodes are kept last first. *)
Definition fold_step (e : list node) (vars : list varmap) (t : token) : res (list node * list varmap) :=
  match t with
  | TBin op =>
      match e with
      | [] => Panic
      | NVal r :: e' => match e' with
                        | [] => Panic
                        | NVal l :: e'' => Ok (NVal (apply_binary op l r) :: e'', vars)
                        | _ => Ok (NBin op :: e, vars)
                        end
      | _ => Ok (NBin op :: e, vars)
      end
  | TUn op =>
      match op with
      | UPlus => Ok (e, vars)
      | _ => match e with
             | [] => Panic
             | NVal v :: e' => Ok (NVal (apply_unary op v) :: e', vars)
             | _ => Ok (NUn op :: e, vars)
             end
      end
  | TLParen | TRParen | TComma => Ok (e, vars)
  | TNum x => Ok (NVal x :: e, vars)
  | TVar name => match find_const name with
                 | Some v => Ok (NVal v :: e, vars)
                 | None => let '(i, vars) := find_var vars name in Ok (NVar i :: e, vars)
                 end
  | TFunc name None => Ok (e, vars)
  | TFunc name (Some n) =>
      rbind (find_func name) (fun f =>
        if n <? min_args f then Err
        else if (0 <? max_args f) && (max_args f <? n) then Err
        else if n =? 1 then
          match e with
          | [] => Panic
          | NVal v :: e' => rbind (apply_func f [v]) (fun x => Ok (NVal x :: e', vars))
          | _ => Ok (NFunc f n :: e, vars)
          end
        else Ok (NFunc f n :: e, vars))
  end.
Fixpoint fold_loop (e : list node) (vars : list varmap) (ts : list token) : res (list node * list varmap) := (* /repo/src/expr.rs:533-590 *)
  match ts with
  | [] => Ok (e, vars)
  | t :: r => rbind (fold_step e vars t) (fun '(e, vars) => fold_loop e vars r)
  end.
(** rpn_to_expr, /repo/src/expr.rs:531-593. On an error the variables met so far stay; only the Ok case is kept. *)
Definition rpn_to_expr (x : expr) (rpn : list token) : res expr :=
  rbind (fold_loop [] (e_vars x) rpn) (fun '(e, vars) => Ok (mkexpr (e_str x) (rev e) vars)).

(** One node of do_eval, /repo/src/expr.rs:612-634; the stack is a list with its top first. *)
Definition eval_step (vals : list f64) (stack : list f64) (x : node) : res (list f64) :=
  match x with
  | NVal v => Ok (v :: stack)
  | NVar i => match nth_error vals i with Some v => Ok (v :: stack) | None => Panic end
  | NUn op => match stack with [] => Panic | v :: r => Ok (apply_unary op v :: r) end
  | NBin op => match stack with r :: l :: s => Ok (apply_binary op l r :: s) | _ => Panic end
  | NFunc f n =>
      if List.length stack <? n then Panic
      else rbind (apply_func f (rev (firstn n stack))) (fun v => Ok (v :: skipn n stack))
  end.
Fixpoint eval_loop (vals : list f64) (stack : list f64) (l : list node) : res (list f64) := (* /repo/src/expr.rs:612-634 *)
  match l with
  | [] => Ok stack
  | x :: r => rbind (eval_step vals stack x) (fun s => eval_loop vals s r)
  end.
(** do_eval, /repo/src/expr.rs:610-636: the result is the bottom of the stack; indexing an empty stack panics. *)
Definition do_eval (x : expr) : res f64 :=
  rbind (eval_loop (map v_val (e_vars x)) [] (e_nodes x)) (fun s =>
    match rev s with [] => Panic | v :: _ => Ok v end).

(** set_var, /repo/src/expr.rs:518-520. *)
Definition set_var (x : expr) (which : nat) (val : f64) : res expr :=
  match nth_error (e_vars x) which with
  | None => Panic
  | Some v => Ok (mkexpr (e_str x) (e_nodes x)
                    (firstn which (e_vars x) ++ mkvar (v_name v) val (v_col v) :: skipn (S which) (e_vars x)))
  end.

(** libm::exp10 on integers, /repo/src/text.rs:742. *)
Variable exp10 : Z -> f64.
(** char::is_alphabetic and is_alphanumeric outside ASCII, /repo/src/tok2.rs:152,155. *)
Variable uni_alpha uni_alnum : N -> bool.

(** The loop reading a name, /repo/src/tok2.rs:155-157. *)
Fixpoint take_name (l : bytes) : bytes * bytes :=
  match l with
  | c :: r => if alphanumeric uni_alnum c then let '(a, b) := take_name r in (c :: a, b) else ([], l)
  | [] => ([], [])
  end.
(** tokenize, /repo/src/tok2.rs:75-170. The tokens so far are kept last first; every turn shortens the text, so the fuel never
    runs out. The results of skip_first at 122, 130, 138 and 146 are thrown away, so nothing is skipped. The number parser of
    line 160 works on the bytes of the text, but never gets past a byte outside ASCII. *)
Fixpoint tok_loop (fuel : nat) (acc : list token) (input : bytes) : res (list token) :=
  match fuel with
  | O => Panic
  | S f =>
      match input with
      | [] => Ok (rev acc)
      | ch :: rest =>
          let next := hd 0%N rest in
          let go t := tok_loop f (t :: acc) rest in
          let sign u b := match acc with [] => go (TUn u) | t :: _ => if can_binary t then go (TBin b) else go (TUn u) end in
          if (ch =? 40)%N then
            match acc with TVar s :: acc' => tok_loop f (TFunc s None :: acc') rest | _ => go TLParen end
          else if (ch =? 41)%N then go TRParen
          else if (ch =? 44)%N then go TComma
          else if (ch =? 94)%N then go (TBin BPow)
          else if (ch =? 37)%N then go (TBin BRem)
          else if (ch =? 47)%N then go (TBin BDiv)
          else if (ch =? 42)%N then go (TBin BTimes)
          else if (ch =? 43)%N then sign UPlus BPlus
          else if (ch =? 45)%N then sign UMinus BMinus
          else if (ch =? 33)%N then if (next =? 61)%N then go (TBin BNE) else go (TUn UFact)
          else if (ch =? 60)%N then if (next =? 61)%N then go (TBin BLE) else go (TBin BLT)
          else if (ch =? 62)%N then if (next =? 61)%N then go (TBin BGE) else go (TBin BGT)
          else if (ch =? 61)%N then if (next =? 61)%N then go (TBin BEQ) else Err
          else if alphabetic uni_alpha ch then let '(a, b) := take_name rest in tok_loop f (TVar (ch :: a) :: acc) b
          else if is_digit ch then let '(x, y) := to_f64 exp10 input in tok_loop f (TNum x :: acc) y
          else Err
      end
  end.
Definition tokenize (s : bytes) : res (list token) := tok_loop (S (List.length s)) [] s. (* /repo/src/tok2.rs:75-170 *)

(** parse and parse_self, /repo/src/expr.rs:454-463. *)
Definition parse (x : expr) (s : bytes) : res expr :=
  rbind (tokenize s) (fun ts => rbind (to_rpn ts) (fun rpn => rpn_to_expr x rpn)).
(** eval_plain, /repo/src/expr.rs:595-599: the expression afterwards and the value. *)
Definition eval_plain (x : expr) : res (expr * f64) :=
  rbind (parse x (e_str x)) (fun x => rbind (do_eval x) (fun v => Ok (x, v))).
(** calc, /repo/src/expr.rs:16-19. *)
Definition calc (s : bytes) : res f64 := rbind (eval_plain (expr_new s)) (fun '(_, v) => Ok v).

(** TransList::new and MatchMaker::make, as used by ColumnSet; see ColModel. /repo/src/expr.rs:469-471. *)
Variable T : Type.
Variable trans_make : bytes -> res T.
Variable match_make : bytes -> res (bytes -> bool).

(** The text put in place of a bracket, /repo/src/expr.rs:473-479. *)
Definition col_texts (v : list N) : bytes := TextSpec.join 44%N (map (fun n => bs "c" ++ print_N (n + 1)) v).
(** The bracket loop of lookup, /repo/src/expr.rs:467-481. Every turn removes a bracket, so the fuel never runs out. *)
Fixpoint brackets (fuel : nat) (names : list bytes) (n : bytes) : res bytes :=
  match fuel with
  | O => Panic
  | S f =>
      match split_once 91 n with
      | None => Ok n
      | Some (a, b) =>
          let rest := 91%N :: b in
          rbind (find_close rest) (fun len =>
          rbind (add uni_alpha trans_make set_new (firstn (len - 2) b) false) (fun s =>
          rbind (lookup match_make s names) (fun s =>
          brackets f names (a ++ col_texts (map oc_num (cs_cols s)) ++ skipn len rest))))
      end
  end.
(** The regular expression c, digits, /repo/src/expr.rs:491-495: the column number a name of that form stands for. *)
Definition col_number (name : bytes) : option N :=
  match name with
  | c :: d :: r => if (c =? 99)%N && forallb is_digit (d :: r)
                   then match to_usize_whole (d :: r) with Ok n => Some n | _ => None end
                   else None
  | _ => None
  end.
(** The loop giving variables their columns, /repo/src/expr.rs:484-500. A column number 0 panics (in a build without overflow
    checks it wraps and the column is empty). *)
Fixpoint name_index (names : list bytes) (x : bytes) (i : N) : option N :=
  match names with
  | [] => None
  | y :: r => if beq y x then Some i else name_index r x (i + 1)
  end.
Fixpoint bind_vars (names : list bytes) (vars : list varmap) : res (list varmap) := (* /repo/src/expr.rs:484-500 *)
  match vars with
  | [] => Ok []
  | y :: r =>
      rbind (match name_index names (v_name y) 0 with
             | Some i => Ok i
             | None => match col_number (v_name y) with
                       | Some n => if (n =? 0)%N then Panic else Ok (n - 1)%N
                       | None => Err
                       end
             end) (fun i => rbind (bind_vars names r) (fun r => Ok (mkvar (v_name y) (v_val y) (Some i) :: r)))
  end.
(** lookup, /repo/src/expr.rs:465-502. *)
Definition expr_lookup (x : expr) (names : list bytes) : res expr :=
  rbind (brackets (S (List.length (e_str x))) names (e_str x)) (fun n =>
  let start := List.length (e_vars x) in
  rbind (parse x n) (fun x =>
  rbind (bind_vars names (skipn start (e_vars x))) (fun vs =>
  Ok (mkexpr (e_str x) (e_nodes x) (firstn start (e_vars x) ++ vs))))).
(** prepare, /repo/src/expr.rs:503-509, and prepare_line, 510-516; [get] gives the bytes of a column. *)
Definition prepare (x : expr) (get : N -> bytes) : expr :=
  mkexpr (e_str x) (e_nodes x)
    (map (fun v => match v_col v with
                   | Some c => mkvar (v_name v) (to_f64_lossy exp10 (get c)) (v_col v)
                   | None => v
                   end) (e_vars x)).
(** eval, /repo/src/expr.rs:601-604: the expression afterwards and the value. *)
Definition eval (x : expr) (fields : list bytes) : res (expr * f64) :=
  let x := prepare x (get_or_empty fields) in rbind (do_eval x) (fun v => Ok (x, v)).
(** eval_line, /repo/src/expr.rs:606-609. *)
Definition eval_line (x : expr) (line : bytes) (delim : N) : res (expr * f64) :=
  let x := prepare x (fun c => get_col line (N.to_nat c) delim) in rbind (do_eval x) (fun v => Ok (x, v)).
(** used_cols, /repo/src/expr.rs:442-448. *)
Definition used_cols (x : expr) : list N := flat_map (fun v => match v_col v with Some c => [c] | None => [] end) (e_vars x).
End Eval.
