(** Which text has the form of a number. *)
From Coq Require Import List NArith ZArith.
Import ListNotations.
From Verif Require Import Base CompSpec NumText DecSpec.

(** The letters that may follow a number. *)
Definition unit_letter (c : byte) : Prop := unit_of c <> None.

(** A whole number as written: a sign, digits, perhaps a letter. *)
Record whole := mkwhole { w_sign : sign; w_digits : bytes; w_unit : option byte }.
Definition whole_ok (w : whole) : Prop :=
  Forall digit_byte (w_digits w) /\ w_digits w <> [] /\ match w_unit w with Some c => unit_letter c | None => True end.
Definition whole_text (w : whole) : bytes :=
  sign_text (w_sign w) ++ w_digits w ++ match w_unit w with Some c => [c] | None => [] end.
Definition unsigned (w : whole) : Prop := w_sign w <> SMinus.

(** A float as it may be written: any part may be missing, even all digits. *)
Definition float_ok (d : decimal) : Prop :=
  Forall digit_byte (d_int d) /\ Forall digit_byte (frac_digits d) /\
  match d_exp d with Some (c, s, es) => (c = 101%N \/ c = 69%N) /\ Forall digit_byte es /\ es <> [] | None => True end /\
  match d_unit d with Some c => unit_letter c | None => True end.

(** [a] is the longest beginning of [l] that is the text of something good, and [rest] is what follows. *)
Definition longest {A} (good : A -> Prop) (text : A -> bytes) (l : bytes) (a : A) (rest : bytes) : Prop :=
  l = text a ++ rest /\ good a /\ forall b r, l = text b ++ r -> good b -> length (text b) <= length (text a).
(** Nothing good stands at the beginning of [l]. *)
Definition no_start {A} (good : A -> Prop) (text : A -> bytes) (l : bytes) : Prop := forall a r, l = text a ++ r -> ~ good a.

(** What the letters K and k stand for in whole numbers; the other letters are not what they seem (C13). *)
Definition plain_unit (u : option byte) (m : Z) : Prop := (u = None /\ m = 1%Z) \/ (u = Some 75%N /\ m = 1024%Z) \/ (u = Some 107%N /\ m = 1000%Z).
