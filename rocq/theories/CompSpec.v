(** What comparisons should mean, independent of the model. *)
From Coq Require Import List NArith ZArith QArith Bool.
Import ListNotations.
From Verif Require Import Base TextSpec StrSpec.

(** A comparison usable for sorting: equal to itself, opposite answers both ways, transitive. *)
Definition total_preorder {A} (cmp : A -> A -> comparison) : Prop :=
  (forall x, cmp x x = Eq) /\
  (forall x y, cmp y x = CompOpp (cmp x y)) /\
  (forall x y z, cmp x y <> Gt -> cmp y z <> Gt -> cmp x z <> Gt).

(** Same, restricted to the values satisfying [P]. *)
Definition total_preorder_on {A} (P : A -> Prop) (cmp : A -> A -> comparison) : Prop :=
  (forall x, P x -> cmp x x = Eq) /\
  (forall x y, P x -> P y -> cmp y x = CompOpp (cmp x y)) /\
  (forall x y z, P x -> P y -> P z -> cmp x y <> Gt -> cmp y z <> Gt -> cmp x z <> Gt).

(** Dictionary order: either a proper prefix, or smaller at the first difference. *)
Definition dict_lt (a b : bytes) : Prop :=
  (exists y r, b = a ++ y :: r) \/
  (exists p x y a' b', a = p ++ x :: a' /\ b = p ++ y :: b' /\ (x < y)%N).

(** Texts equal up to ASCII case. *)
Definition caseless (a : bytes) : bytes := map (fun c => if ((65 <=? c) && (c <=? 90))%N then (c + 32)%N else c) a.

(** Dictionary order on lists of numbers. *)
Fixpoint numbers_cmp (a b : list N) : comparison :=
  match a, b with
  | [], [] => Eq
  | [], _ => Lt
  | _, [] => Gt
  | x :: a', y :: b' => match (x ?= y)%N with Eq => numbers_cmp a' b' | c => c end
  end.

(** 1.2.3 for the list 1, 2, 3. *)
Definition dotted (ns : list N) : bytes := join 46%N (map print_N ns).

(** A decimal numeral: sign, integer digits with optional grouping commas, optional fraction digits. *)
Record numeral := mknum { n_blanks : bytes; n_neg : bool; n_int : bytes; n_frac : option bytes }.
Definition digit_byte (c : byte) : Prop := (48 <= c <= 57)%N.
Definition numeral_ok (n : numeral) : Prop :=
  Forall (fun c => (c <= 32)%N) (n_blanks n) /\
  Forall (fun c => digit_byte c \/ c = 44%N) (n_int n) /\
  match n_frac n with None => True | Some f => Forall digit_byte f end.
Definition numeral_text (n : numeral) : bytes :=
  n_blanks n ++ (if n_neg n then [45%N] else []) ++ n_int n ++
  match n_frac n with None => [] | Some f => 46%N :: f end.

(** The number a digit string stands for, commas ignored. *)
Definition digits_val (l : bytes) : Z :=
  fold_left (fun acc c => if (c =? 44)%N then acc else (acc * 10 + (Z.of_N c - 48))%Z) l 0%Z.
Definition frac_of (n : numeral) : bytes := match n_frac n with None => [] | Some f => f end.
(** Its value as a fraction. *)
Definition numeral_abs (n : numeral) : Q :=
  Qmake (digits_val (n_int n ++ frac_of n)) (Z.to_pos (10 ^ Z.of_nat (length (frac_of n)))).
Definition numeral_value (n : numeral) : Q := if n_neg n then Qopp (numeral_abs n) else numeral_abs n.

(** [g] is [f] with one or more zeros appended. *)
Definition zeros_after (f g : bytes) : Prop := exists k, (0 < k)%nat /\ g = f ++ repeat 48%N k.

(** The pairs of numerals the comparator gets wrong: one with a decimal point and one without, same
    integer part, fraction not zero; both with a point, and fractions differing by trailing zeros; two
    zeros of different sign. *)
Definition misjudged (a b : numeral) : Prop :=
  (n_neg a = n_neg b /\ digits_val (n_int a) = digits_val (n_int b) /\
   match n_frac a, n_frac b with
   | None, None => False
   | Some f, None | None, Some f => digits_val f <> 0%Z
   | Some f, Some g => zeros_after f g \/ zeros_after g f
   end) \/
  (n_neg a <> n_neg b /\ numeral_value a == 0 /\ numeral_value b == 0)%Q.

(** An ordinary whole number: optional minus, digits only, below 2^53 in size, and not minus zero. *)
Definition whole_number (n : numeral) : Prop :=
  n_blanks n = [] /\ Forall digit_byte (n_int n) /\ n_frac n = None /\
  (digits_val (n_int n) < 2 ^ 53)%Z /\ (n_neg n = true -> digits_val (n_int n) <> 0%Z).

(** [b] is [a] followed by one or more NUL bytes, at most eight bytes in all. *)
Definition nul_ext (a b : bytes) : Prop := exists k, (0 < k)%nat /\ b = a ++ repeat 0%N k /\ (length b <= 8)%nat.
(** A value that fits in eight bits. *)
Definition is_byte (c : byte) : Prop := (c < 256)%N.
