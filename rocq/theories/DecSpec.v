(** Numbers as they are written: what decimal text means. *)
From Coq Require Import List NArith ZArith QArith Bool Reals.
From Flocq Require Import IEEE754.BinarySingleNaN.
Import ListNotations.
From Verif Require Import Base FloatModel CompSpec NumText.
Close Scope Q_scope.

(** A number as written: sign, digits, perhaps a point and further digits, perhaps an exponent (its letter, sign and
    digits), perhaps a unit letter. *)
Record decimal := mkdec {
  d_sign : sign;
  d_int : bytes;
  d_frac : option bytes;
  d_exp : option (byte * sign * bytes);
  d_unit : option byte
}.

(** What the unit letters stand for: powers of 1024 in upper case, of 1000 in lower case. *)
Definition units : list (byte * Z) :=
  [(75%N, 1024); (77%N, 1024 ^ 2); (71%N, 1024 ^ 3); (84%N, 1024 ^ 4); (80%N, 1024 ^ 5); (69%N, 1024 ^ 6); (90%N, 1024 ^ 7); (89%N, 1024 ^ 8);
   (107%N, 1000); (109%N, 1000 ^ 2); (103%N, 1000 ^ 3); (116%N, 1000 ^ 4); (112%N, 1000 ^ 5); (101%N, 1000 ^ 6); (122%N, 1000 ^ 7); (121%N, 1000 ^ 8)]%Z.
Definition unit_of (c : byte) : option Z := option_map snd (find (fun p => (fst p =? c)%N) units).

Definition frac_digits (d : decimal) : bytes := match d_frac d with Some fs => fs | None => [] end.
Definition frac_text (d : decimal) : bytes := match d_frac d with Some fs => 46%N :: fs | None => [] end.
Definition exp_part (d : decimal) : bytes := match d_exp d with Some (c, s, es) => c :: sign_text s ++ es | None => [] end.
Definition unit_text (d : decimal) : bytes := match d_unit d with Some c => [c] | None => [] end.
Definition dec_text (d : decimal) : bytes := sign_text (d_sign d) ++ d_int d ++ frac_text d ++ exp_part d ++ unit_text d.

(** Digits where digits belong, at least one of them before or after the point. *)
Definition dec_ok (d : decimal) : Prop :=
  Forall digit_byte (d_int d) /\ Forall digit_byte (frac_digits d) /\ (d_int d ++ frac_digits d <> []) /\
  match d_exp d with Some (c, s, es) => (c = 101%N \/ c = 69%N) /\ Forall digit_byte es /\ es <> [] | None => True end /\
  match d_unit d with Some c => unit_of c <> None | None => True end.

(** Text after the number that cannot be taken for a part of it. *)
Definition dec_end (d : decimal) (rest : bytes) : Prop :=
  match d_unit d with
  | None => ends_number rest
  | Some c => match d_exp d, rest with
              | None, b :: _ => c = 101%N \/ c = 69%N -> ~ (48 <= b <= 57)%N /\ b <> 43%N /\ b <> 45%N
              | _, _ => True
              end
  end.

Definition exp_value (d : decimal) : Z := match d_exp d with Some (_, s, es) => signed s (digits_val es) | None => 0%Z end.
Definition unit_value (d : decimal) : Z := match d_unit d with Some c => match unit_of c with Some m => m | None => 1%Z end | None => 1%Z end.

(** The number as a real. *)
Definition dec_real (d : decimal) : R :=
  (IZR (signed (d_sign d) (digits_val (d_int d ++ frac_digits d))) / 10 ^ length (frac_digits d) * powerRZ 10 (exp_value d) * IZR (unit_value d))%R.

(** A double that is a number, and the real it stands for. *)
Definition is_real (x : f64) (r : R) : Prop :=
  exists b : binary_float 53 1024, x = B2SF b /\ B2R b = r /\ is_finite b = true.

(** The decimal exponent function is right up to two units in the last place. *)
Definition good_exp10 (exp10 : Z -> f64) (e : Z) : Prop :=
  exists r, is_real (exp10 e) r /\ (Rabs (r - powerRZ 10 e) <= 2 * / 9007199254740992 * powerRZ 10 e)%R.

(** The same as a fraction, for numbers without exponent and unit. *)
Definition dec_frac (d : decimal) : Q :=
  Qmake (signed (d_sign d) (digits_val (d_int d ++ frac_digits d))) (Z.to_pos (10 ^ Z.of_nat (length (frac_digits d)))).

(** A number without exponent and unit, of at most [K] digits behind the point and at most fourteen in all. *)
Definition few (K : nat) (d : decimal) : Prop :=
  dec_ok d /\ d_exp d = None /\ d_unit d = None /\ (length (frac_digits d) <= K)%nat /\
  (digits_val (d_int d) * 10 ^ Z.of_nat K < 10 ^ 14)%Z.
