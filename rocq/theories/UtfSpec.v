(** What UTF-8 is: the table of the Unicode standard, and what it means for bytes to be the text of characters. *)
From Coq Require Import List NArith Bool.
Import ListNotations.
From Verif Require Import Base.
Open Scope list_scope.

(** [coded c e]: the character with number [c] is written as the bytes [e]. *)
Inductive coded : N -> bytes -> Prop :=
  | coded1 a : (a < 128)%N -> coded a [a]
  | coded2 a b : (2 <= a < 32)%N -> (b < 64)%N -> coded (64 * a + b)%N [(192 + a)%N; (128 + b)%N]
  | coded3 a b c : (a < 16)%N -> (b < 64)%N -> (c < 64)%N -> (2048 <= 4096 * a + 64 * b + c)%N ->
      ~ (55296 <= 4096 * a + 64 * b + c < 57344)%N -> coded (4096 * a + 64 * b + c)%N [(224 + a)%N; (128 + b)%N; (128 + c)%N]
  | coded4 a b c d : (a < 8)%N -> (b < 64)%N -> (c < 64)%N -> (d < 64)%N -> (65536 <= 262144 * a + 4096 * b + 64 * c + d < 1114112)%N ->
      coded (262144 * a + 4096 * b + 64 * c + d)%N [(240 + a)%N; (128 + b)%N; (128 + c)%N; (128 + d)%N].
(** [text_of s b]: the bytes [b] are the characters [s], one after the other. *)
Inductive text_of : list N -> bytes -> Prop :=
  | text_nil : text_of [] []
  | text_cons c e s b : coded c e -> text_of s b -> text_of (c :: s) (e ++ b).
(** The characters there are: no surrogates, nothing above 1114111. *)
Definition scalar (c : N) : Prop := (c < 55296 \/ 57344 <= c < 1114112)%N.

(** The small letters of a text, if [small] gives those of a character. *)
Definition smalls (small : N -> list N) (s : list N) : list N := concat (map small s).
(** A character of a pattern stands for a character of the text. *)
Definition stands_for (small : N -> list N) (insens : bool) (p c : N) : Prop := p = c \/ p = 63%N \/ (insens = true /\ small p = small c).
(** The meaning of patterns with star and question mark, on characters. *)
Inductive globs (small : N -> list N) (insens : bool) : list N -> list N -> Prop :=
  | gl_nil : globs small insens [] []
  | gl_star p any t : globs small insens p t -> globs small insens (42%N :: p) (any ++ t)
  | gl_char c p x t : c <> 42%N -> stands_for small insens c x -> globs small insens p t -> globs small insens (c :: p) (x :: t).
(** [s] without white space at both ends is [t]. *)
Definition stripped (white : N -> bool) (s t : list N) : Prop :=
  exists u v, s = u ++ t ++ v /\ Forall (fun c => white c = true) u /\ Forall (fun c => white c = true) v /\
  match t with [] => True | x :: _ => white x = false /\ white (last t 0%N) = false end.
