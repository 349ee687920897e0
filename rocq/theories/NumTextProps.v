(** C58: reading decimal text as a double. *)
From Coq Require Import String List NArith ZArith Bool Arith Lia SpecFloat.
Open Scope list_scope.
Import ListNotations.
From Verif Require Import Base StrModel FloatModel FloatInt CompModel CompSpec NumText CompProps.

(** C58. A whole number below 2^53, with or without sign, is read exactly, and reading stops where the number
    ends. *)
Theorem c58_whole_partial : forall exp10 s ds rest, Forall digit_byte ds -> ds <> [] -> (digits_val ds < 2 ^ 53)%Z ->
  ends_number rest ->
  holds_int (fst (to_f64 exp10 (sign_text s ++ ds ++ rest))) (signed s (digits_val ds)) /\
  snd (to_f64 exp10 (sign_text s ++ ds ++ rest)) = rest.
Proof. exact whole_read. Qed.

Example c58_whole_partial_ex : ends_number (bs " x") /\ to_f64 ex10 (bs "-12 x") = (f_of_Z (-12), bs " x").
Proof. split; [cbn; lia|vm_compute; reflexivity]. Qed.

(** C58. An exponent of 0 to 3 multiplies exactly; any other exponent multiplies once by the correctly rounded
    0.1 or 0.01, or by whatever exp10 gives for exactly that exponent, sign included. *)
Theorem c58_small_exponent_partial : forall exp10 s ds c se es rest, Forall digit_byte ds -> ds <> [] ->
  c = 101%N \/ c = 69%N -> Forall digit_byte es -> es <> [] -> ends_number rest ->
  let e := signed se (digits_val es) in
  (0 <= e <= 3)%Z -> (digits_val ds * 10 ^ e < 2 ^ 53)%Z ->
  holds_int (fst (to_f64 exp10 (sign_text s ++ ds ++ exp_text c se es ++ rest))) (signed s (digits_val ds * 10 ^ e)).
Proof. exact small_exponent_read. Qed.

Example c58_small_exponent_partial_ex : to_f64 ex10 (bs "-7E+02;") = (f_of_Z (-700), bs ";").
Proof. vm_compute; reflexivity. Qed.

Theorem c58_exponent_partial : forall exp10 s ds c se es rest, Forall digit_byte ds -> ds <> [] -> (digits_val ds < 2 ^ 53)%Z ->
  c = 101%N \/ c = 69%N -> Forall digit_byte es -> es <> [] -> (digits_val es < 2 ^ 31)%Z -> ends_number rest ->
  exists m, holds_int m (digits_val ds) /\
    to_f64 exp10 (sign_text s ++ ds ++ exp_text c se es ++ rest) =
    (fmul (sign_f s) (exp_factor exp10 m (signed se (digits_val es))), rest).
Proof. exact exponent_read. Qed.

Example c58_exponent_partial_ex : forall exp10, exp10 (-5)%Z = f_ratio 1 100000 ->
  to_f64 exp10 (bs "3e-5") = (fmul (f_of_Z 3) (f_ratio 1 100000), []).
Proof. intros exp10 E. vm_compute in E |- *. rewrite E. reflexivity. Qed.

(** C58. A magnitude letter multiplies exactly while the product stays below 2^53. *)
Theorem c58_magnitude_partial : forall exp10 s ds c m rest, Forall digit_byte ds -> ds <> [] -> magnitude c m ->
  (digits_val ds * m < 2 ^ 53)%Z ->
  holds_int (fst (to_f64 exp10 (sign_text s ++ ds ++ c :: rest))) (signed s (digits_val ds * m)) /\
  snd (to_f64 exp10 (sign_text s ++ ds ++ c :: rest)) = rest.
Proof. exact magnitude_read. Qed.

Example c58_magnitude_partial_ex : to_f64 ex10 (bs "5Kb") = (f_of_Z 5120, bs "b") /\ to_f64 ex10 (bs "2.25") = (f_ratio 9 4, []).
Proof. vm_compute; auto. Qed.

(** C58. Fractions are not read as the nearest double: 0.3 becomes its upper neighbour, so it is greater than
    the quotient 3/10; and 0e400 is not a number. *)
Theorem c58_nearest_refuted : exists l n d, forall exp10,
  fst (to_f64 exp10 l) <> f_ratio n d /\ l = bs "0.3" /\ n = 3%Z /\ d = 10%Z /\
  fcmp (fst (to_f64 exp10 l)) (f_ratio n d) = Gt.
Proof. exists (bs "0.3"), 3%Z, 10%Z. intros. vm_compute. repeat split; discriminate. Qed.
