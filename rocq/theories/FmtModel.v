(** NumFormat of /repo/src/num.rs. *)
From Coq Require Import String List NArith ZArith Bool Arith SpecFloat.
Open Scope list_scope.
Import ListNotations.
From Verif Require Import Base TextModel StrModel FloatModel.
Close Scope Z_scope.
Open Scope nat_scope.

(** NumFormat, /repo/src/num.rs:129-140. *)
Inductive numfmt := NShort (p : option N) | NPlain (p : option N) | NFloat (p : option N) | NPower2 | NPower10.
Definition fmt_default : numfmt := NShort None. (* /repo/src/num.rs:141-145 *)
(** NumFormat::new, /repo/src/num.rs:148-173. *)
Definition fmt_new (spec : bytes) : res numfmt :=
  let same (x : bytes) (w : string) := beq (map lower x) (bs w) in
  if same spec "plain"%string then Ok (NPlain None)
  else if same spec "short"%string then Ok (NShort None)
  else if same spec "float"%string then Ok (NFloat None)
  else if same spec "power2"%string || same spec "p2"%string then Ok NPower2
  else if same spec "power10"%string || same spec "p10"%string then Ok NPower10
  else match split_once 46 spec with
       | Some (a, b) =>
           rbind (to_usize_whole b) (fun p =>
           if same a "plain"%string then Ok (NPlain (Some p))
           else if same a "short"%string then Ok (NShort (Some p))
           else if same a "float"%string then Ok (NFloat (Some p))
           else Err)
       | None => Err
       end.

(** f64::abs, /repo/src/num.rs:178 and 209. *)
Definition f_abs (x : f64) : f64 := SFabs x.
(** The comparisons of f64, /repo/src/num.rs:179, 230 and 238: less or equal. *)
Definition f_leb (x y : f64) : bool := SFleb x y.
(** f64::round, /repo/src/num.rs:208: halves away from zero, the sign stays. *)
Definition f_round (x : f64) : f64 :=
  match x with
  | S754_finite s m e =>
      if (0 <=? e)%Z then x
      else let n := ((2 * Zpos m + 2 ^ (- e)) / 2 ^ (1 - e))%Z in
           if (n =? 0)%Z then S754_zero s else f_of_Z (if s then - n else n)
  | _ => x
  end.
(** new_format, /repo/src/num.rs:175-187. *)
Definition new_format (f : numfmt) (num : f64) : numfmt :=
  match f with
  | NShort x => let num := f_abs num in if f_leb (f_ratio 1 10000) num && f_ltb num (f_of_Z 1000) then NPlain x else NFloat x
  | _ => f
  end.

Section Print.
(** The standard library's Display and LowerExp for f64, without and with a number of digits, /repo/src/num.rs:194-204. *)
Variable disp : f64 -> bytes.
Variable disp_p : N -> f64 -> bytes.
Variable expo : f64 -> bytes.
Variable expo_p : N -> f64 -> bytes.

(** The loop over the units, /repo/src/num.rs:225-257; [fuel] is 7 when [k] is 0, so the turn with no fuel left is that with k = 7. *)
Fixpoint power_loop (fuel k : nat) (num curr base : f64) (letters : bytes) : bytes :=
  if f_ltb num (fmul (f_of_Z 999) curr) then
    (if f_leb (fmul (f_of_Z 10) curr) num then disp_p 0 (fdiv num curr)
     else if f_leb (fmul (f_ratio 11 10) curr) num then disp_p 1 (fdiv num curr)
     else bs "1") ++ [nth k letters 0%N]
  else let next := fmul curr base in
       match fuel with
       | O => disp_p 1 (fdiv num next) ++ [nth 8 letters 0%N]
       | S f => power_loop f (S k) num next base letters
       end.
(** The power formats, /repo/src/num.rs:208-257. *)
Definition print_power (two : bool) (x : f64) : bytes :=
  let num := f_round x in
  if f_ltb (f_abs num) (f_of_Z 1000) || match num with S754_nan | S754_infinity _ => true | _ => false end then disp num
  else let neg := f_ltb num f_zero in
       let num := if neg then fneg num else num in
       (if neg then bs "-" else []) ++
       power_loop 7 0 num f_one (f_of_Z (if two then 1024 else 1000)) (if two then P2_LETTERS else P10_LETTERS).
(** NumFormat::print, /repo/src/num.rs:190-258. *)
Definition fmt_print (f : numfmt) (x : f64) : bytes :=
  match new_format f x with
  | NPlain (Some p) => disp_p p x
  | NPlain None => disp x
  | NFloat (Some p) => expo_p p x
  | NFloat None => expo x
  | NPower2 => print_power true x
  | NPower10 | NShort _ => print_power false x
  end.
End Print.
