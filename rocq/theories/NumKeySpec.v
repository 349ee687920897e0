(** Keys that compare numbers, in uniq and join: which values they may hold, independent of the tools. *)
From Coq Require Import String List NArith ZArith QArith Bool Arith SpecFloat.
Open Scope list_scope.
Import ListNotations.
From Verif Require Import Base FloatModel CompModel CompSpec KeySpec NumText DecSpec ValSpec.
Close Scope Z_scope. Close Scope Q_scope. Open Scope nat_scope.

(** A value a key may compare: for float a text that is read as a number, minus zero included; for numeric an ordinary whole number;
    otherwise any text. *)
Definition value_counts (exp10 : Z -> f64) (c : cmpr) (v : bytes) : Prop :=
  match c with
  | CF64 => to_f64_lossy exp10 v <> S754_nan
  | CNumeric => exists n, whole_number n /\ v = numeral_text n
  | _ => True
  end.
(** The values of all keys of a line of file [f], given its columns. *)
Definition cols_count (exp10 : Z -> f64) (f : nat) (ws : list wanted) (cols : list bytes) : Prop :=
  Forall (fun w => value_counts exp10 (wk_cmp w) (nth (N.to_nat (wk_pos w f)) cols [])) ws.

(** A text that starts with a decimal number of few digits, of value [q]. *)
Definition number_is (K : nat) (v : bytes) (q : Q) : Prop := exists d rest, few K d /\ ends_number rest /\ v = dec_text d ++ rest /\ (q == dec_frac d)%Q.
(** The values of the lines by their numbers: [num l] is the number in column [c] of [l]. *)
Definition numbered_by (K : nat) (cols : bytes -> list bytes) (c : nat) (num : bytes -> Q) (ls : list bytes) : Prop :=
  Forall (fun l => number_is K (nth c (cols l) []) (num l)) ls.
