(** Model of reading numbers with a rule for junk: Junk, JunkType and JunkVal of /repo/src/num.rs and the to_*_whole and
    to_*_junk methods of /repo/src/text.rs. *)
From Coq Require Import List NArith ZArith Bool SpecFloat.
Import ListNotations.
From Verif Require Import Base StrModel FloatModel.

(** JunkType and JunkVal, /repo/src/num.rs:33-61; Junk, /repo/src/num.rs:88-95. *)
Inductive junk_type := JAny | JTrailing | JNone.
Inductive junk_val := JMin | JMax.
Record junk := mkjunk { j_type : junk_type; j_val : junk_val }.
Definition junk_default : junk := mkjunk JAny JMax. (* /repo/src/num.rs:43-47, 57-61, 88 *)

(** JunkValue::val through Junk::val, /repo/src/num.rs:69-101, for usize, isize and f64. *)
Definition usize_junk (j : junk) : N := match j_val j with JMin => 0%N | JMax => (2 ^ 64 - 1)%N end.
Definition isize_junk (j : junk) : Z := match j_val j with JMin => (- 2 ^ 63)%Z | JMax => (2 ^ 63 - 1)%Z end. (* /repo/src/num.rs:83 *)
Definition f64_junk (j : junk) : f64 := S754_finite (match j_val j with JMin => true | JMax => false end) (2 ^ 53 - 1) 971. (* /repo/src/num.rs:80 *)

(** The choice made in to_usize_junk, to_isize_junk and to_f64_junk, /repo/src/text.rs:118-134, 158-174, 198-214. *)
Definition junk_pick {A} (j : junk) (bad : A) (l : bytes) (read : A * bytes) : A :=
  let '(val, rest) := read in
  match j_type j with
  | JAny => val
  | JTrailing => if negb (length l =? length rest)%nat then val else bad
  | JNone => match rest, l with [], _ :: _ => val | _, _ => bad end
  end.
Definition to_usize_junk (l : bytes) (j : junk) : N := junk_pick j (usize_junk j) l (to_usize l). (* /repo/src/text.rs:116-135 *)
Definition to_isize_junk (l : bytes) (j : junk) : Z := junk_pick j (isize_junk j) l (to_isize l). (* /repo/src/text.rs:156-175 *)
Definition to_f64_junk (exp10 : Z -> f64) (l : bytes) (j : junk) : f64 := junk_pick j (f64_junk j) l (to_f64 exp10 l). (* /repo/src/text.rs:196-215 *)

(** to_f64_whole, /repo/src/text.rs:183-194. *)
Definition to_f64_whole (exp10 : Z -> f64) (l : bytes) : res f64 :=
  let '(v, rest) := to_f64 exp10 l in match rest with [] => Ok v | _ => Err end.
