(** Model of the floating point helpers of /repo/src/num.rs and of Text::to_f64 in /repo/src/text.rs.
    Rust f64 is the standard library's SpecFloat format with 53 bits of precision and emax 1024. *)
From Coq Require Import List NArith ZArith Bool SpecFloat.
Import ListNotations.
From Verif Require Import Base StrModel.

(** Rust f64, as used in /repo/src/num.rs:7-31. Simplified: one NaN, without sign or payload. *)
Notation f64 := spec_float (only parsing).

(** f64 addition, as used in /repo/src/text.rs:690. *)
Definition fadd (x y : f64) : f64 := SFadd 53 1024 x y.
(** f64 multiplication, as used in /repo/src/text.rs:689. *)
Definition fmul (x y : f64) : f64 := SFmul 53 1024 x y.
(** f64 division, as used in /repo/src/num.rs:10. *)
Definition fdiv (x y : f64) : f64 := SFdiv 53 1024 x y.
(** f64 negation, as used in /repo/src/num.rs:214. *)
Definition fneg (x : f64) : f64 := SFopp x.
(** Conversion of an integer to f64 (as f64, f64::from), round to nearest even; /repo/src/num.rs:8, /repo/src/text.rs:690. *)
Definition f_of_Z (z : Z) : f64 := binary_normalize 53 1024 z 0 false.
(** The literals 0.0 and 1.0, /repo/src/text.rs:676,687. *)
Definition f_zero : f64 := S754_zero false.
Definition f_one : f64 := f_of_Z 1. (* /repo/src/text.rs:676 *)
(** A decimal literal p/q, correctly rounded; 0.1 and 0.01 in /repo/src/text.rs:695,723. *)
Definition f_ratio (p q : Z) : f64 := fdiv (f_of_Z p) (f_of_Z q).

(** ordering operators == > < on f64, /repo/src/num.rs:107-110. *)
Definition f_eqb (x y : f64) : bool := SFeqb x y.
Definition f_ltb (x y : f64) : bool := SFltb x y. (* /repo/src/num.rs:20 *)

(** fcmp, /repo/src/num.rs:106-114. *)
Definition fcmp (x y : f64) : comparison :=
  if f_eqb x y then Eq else if f_ltb y x then Gt else Lt.

(** f64 to its 64 bits, to_ne_bytes and from_ne_bytes in /repo/src/num.rs:119. Simplified: NaN is the
    positive quiet NaN. *)
Definition f_bits (x : f64) : N :=
  (let sg (s : bool) := if s then 2 ^ 63 else 0 in
  match x with
  | S754_zero s => sg s
  | S754_infinity s => sg s + 2047 * 2 ^ 52
  | S754_nan => 4095 * 2 ^ 51
  | S754_finite s m e =>
      if Pos.leb (2 ^ 52) m
      then sg s + Z.to_N (e + 1075) * 2 ^ 52 + (N.pos m - 2 ^ 52)
      else sg s + N.pos m
  end)%N.

(** The f64 with the given 64 bits, from_bits; the inverse direction of /repo/src/num.rs:119. *)
Definition f_of_bits (n : N) : f64 :=
  (let s := N.testbit n 63 in
  let e := (n / 2 ^ 52) mod 2048 in
  let m := n mod 2 ^ 52 in
  if e =? 2047 then if m =? 0 then S754_infinity s else S754_nan
  else match (if e =? 0 then m else m + 2 ^ 52) with
       | N0 => S754_zero s
       | Npos p => S754_finite s p (if e =? 0 then (-1074)%Z else Z.of_N e - 1075)
       end)%N.

(** The bit fiddling of ulp_to_ulong, /repo/src/num.rs:119-124. *)
Definition ulp_key_bits (x : N) : N :=
  if N.testbit x 63 then N.lxor x (2 ^ 64 - 1) else N.lor x (2 ^ 63).

(** ulp_to_ulong, /repo/src/num.rs:118-125. *)
Definition ulp_to_ulong (d : f64) : N := ulp_key_bits (f_bits d).

(** Integer part loop of to_f64, /repo/src/text.rs:688-692. *)
Fixpoint f64_int_loop (curr : bytes) (ret : f64) : f64 * bytes :=
  match curr with
  | c :: r => if is_digit c
              then f64_int_loop r (fadd (fmul ret (f_of_Z 10)) (f_of_Z (Z.of_N c - 48)))
              else (ret, curr)
  | [] => (ret, [])
  end.

(** Fraction loop of to_f64, /repo/src/text.rs:696-700. *)
Fixpoint f64_frac_loop (curr : bytes) (ret place : f64) : f64 * bytes :=
  match curr with
  | c :: r => if is_digit c
              then f64_frac_loop r (fadd ret (fmul place (f_of_Z (Z.of_N c - 48)))) (fmul place (f_ratio 1 10))
              else (ret, curr)
  | [] => (ret, [])
  end.

(** Wrapping of i32 arithmetic in a release build, /repo/src/text.rs:716-720. *)
Definition wrapI32 (z : Z) : Z := ((z + 2 ^ 31) mod 2 ^ 32 - 2 ^ 31)%Z.

(** Exponent loop of to_f64, /repo/src/text.rs:715-719. *)
Fixpoint f64_exp_loop (curr : bytes) (e : Z) : Z * bytes :=
  match curr with
  | c :: r => if is_digit c then f64_exp_loop r (wrapI32 (wrapI32 (e * 10) + (Z.of_N c - 48))) else (e, curr)
  | [] => (e, [])
  end.

(** is_exp, /repo/src/text.rs:475-492. *)
Definition is_exp (buf : bytes) : bool :=
  match buf with
  | e :: d :: r =>
      if ((e =? 101) || (e =? 69))%N
      then if is_digit d then true
           else if ((d =? 43) || (d =? 45))%N
                then match r with d2 :: _ => is_digit d2 | [] => false end
                else false
      else false
  | _ => false
  end.

(** P2_VALUES_F, /repo/src/num.rs:274-284: powers of 1024, all exact. *)
Definition P2_VALUES_F : list Z := map (fun k => 1024 ^ k)%Z [0; 1; 2; 3; 4; 5; 6; 7; 8]%Z.
(** P10_VALUES_F, /repo/src/num.rs:296-306. Simplified: each product is the exact power rounded once
    (products up to 1000^7 are exact, so the constant expressions agree). *)
Definition P10_VALUES_F : list Z := map (fun k => 1000 ^ k)%Z [0; 1; 2; 3; 4; 5; 6; 7; 8]%Z.

(** Loop of suffix_valf, /repo/src/num.rs:311-320. *)
Fixpoint find_letter_f (ch : byte) (letters : bytes) (vals : list Z) : option f64 :=
  match letters, vals with
  | l :: ls, v :: vs => if (l =? ch)%N then Some (f_of_Z v) else find_letter_f ch ls vs
  | _, _ => None
  end.
(** suffix_valf, /repo/src/num.rs:310-322. *)
Definition suffix_valf (ch : byte) : option f64 :=
  match find_letter_f ch P2_LETTERS P2_VALUES_F with
  | Some v => Some v
  | None => find_letter_f ch P10_LETTERS P10_VALUES_F
  end.

(** Text::to_f64 for bytes, /repo/src/text.rs:675-753; [exp10] is libm::exp10 on integers. *)
Definition to_f64 (exp10 : Z -> f64) (l : bytes) : f64 * bytes :=
  match l with
  | [] => (f_zero, [])
  | c0 :: r0 =>
      let '(neg, curr) := if (c0 =? 43)%N then (f_one, r0)
                          else if (c0 =? 45)%N then (fneg f_one, r0) else (f_one, l) in
      let '(ret, curr) := f64_int_loop curr f_zero in
      let '(ret, curr) := match curr with
                          | d :: r => if (d =? 46)%N then f64_frac_loop r ret (f_ratio 1 10) else (ret, curr)
                          | [] => (ret, curr)
                          end in
      let '(ret, curr) :=
        if is_exp curr then
          match curr with
          | _ :: r =>
              let '(neg_exp, r) := match r with
                                   | s :: r' => if (s =? 43)%N then (1, r')%Z
                                                else if (s =? 45)%N then (-1, r')%Z else (1, r)%Z
                                   | [] => (1, r)%Z
                                   end in
              let '(e, r) := f64_exp_loop r 0%Z in
              let e := wrapI32 (e * neg_exp) in
              ((if (e =? -2)%Z then fmul ret (f_ratio 1 100)
                else if (e =? -1)%Z then fmul ret (f_ratio 1 10)
                else if (e =? 0)%Z then ret
                else if (e =? 1)%Z then fmul ret (f_of_Z 10)
                else if (e =? 2)%Z then fmul ret (f_of_Z 100)
                else if (e =? 3)%Z then fmul ret (f_of_Z 1000)
                else fmul ret (exp10 e)), r)
          | [] => (ret, curr)
          end
        else (ret, curr) in
      let '(ret, curr) := match curr with
                          | c :: r => match suffix_valf c with
                                      | Some mul => (fmul ret mul, r)
                                      | None => (ret, curr)
                                      end
                          | [] => (ret, curr)
                          end in
      (fmul neg ret, curr)
  end.

(** Text::to_f64_lossy, /repo/src/text.rs:179-181. *)
Definition to_f64_lossy (exp10 : Z -> f64) (l : bytes) : f64 := fst (to_f64 exp10 l).
