(** Sorting by numbers: which values the keys may hold, independent of how the tool sorts. *)
From Coq Require Import String List NArith ZArith QArith Bool Arith SpecFloat Sorting.Permutation Sorting.Sorted.
Open Scope list_scope.
Import ListNotations.
From Verif Require Import Base TextSpec FloatModel CompModel CompSpec SortSpec KeySpec OrderSpec NumText DecSpec.
Close Scope Z_scope. Close Scope Q_scope. Open Scope nat_scope.

(** A value a key may compare: for float a text that is read as a number, and not as minus zero; for numeric an ordinary whole
    number; otherwise any text. *)
Definition value_fits (exp10 : Z -> f64) (c : cmpr) (v : bytes) : Prop :=
  match c with
  | CF64 => to_f64_lossy exp10 v <> S754_nan /\ to_f64_lossy exp10 v <> S754_zero true
  | CNumeric => exists n, whole_number n /\ v = numeral_text n
  | _ => True
  end.
(** The values of all keys of a line. *)
Definition value_of (w : wanted) (l : bytes) : bytes := nth (N.to_nat (wk_pos w 0)) (fields l) [].
Definition line_fits (exp10 : Z -> f64) (ws : list wanted) (l : bytes) : Prop := Forall (fun w => value_fits exp10 (wk_cmp w) (value_of w l)) ws.
(** There is a first key; if it is reversed it compares numbers or lengths. *)
Definition first_sound (ws : list wanted) : Prop := match ws with w :: _ => wk_rev w = false \/ In (wk_cmp w) [CF64; CLen; CEqual] | [] => False end.

(** The stable sort of the lines, or with unique the first line of each group. *)
Definition exact_among (cmp : bytes -> bytes -> comparison) (unique : Prop) (inp out : list bytes) : Prop :=
  (unique -> strictly_sorted cmp out /\ forall x, In x inp -> filter (same cmp x) out = firstn 1 (filter (same cmp x) inp)) /\
  (~ unique -> Permutation inp out /\ sorted cmp out /\ forall x, In x inp -> filter (same cmp x) out = filter (same cmp x) inp).

(** A text that starts with a decimal number of few digits, [q], and is not a minus zero. *)
Definition reads_as (K : nat) (v : bytes) (q : Q) : Prop :=
  exists d rest, few K d /\ ends_number rest /\ (d_sign d = SMinus -> ~ (dec_frac d == 0)%Q) /\ v = dec_text d ++ rest /\ (q == dec_frac d)%Q.
(** Two lines stand in the order of their numbers, or in the opposite one. *)
Definition numbers_ok (K : nat) (w : wanted) (a b : bytes) : Prop :=
  forall p q, reads_as K (value_of w a) p -> reads_as K (value_of w b) q -> if wk_rev w then (q <= p)%Q else (p <= q)%Q.
