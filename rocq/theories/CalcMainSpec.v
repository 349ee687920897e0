(** Specification vocabulary for the calc tool. *)
From Coq Require Import String List NArith ZArith Bool Arith.
Open Scope list_scope.
Import ListNotations.
From Verif Require Import Base StrSpec FloatModel HdrModel ExprModel ExprSpec ExprProofs FmtModel.
Close Scope Z_scope. Open Scope nat_scope.

(** The text [s] names a format: a word in any case, or a word, a point and the number of digits. *)
Inductive names_format : bytes -> numfmt -> Prop :=
| nf_plain s : map lower s = bs "plain" -> names_format s (NPlain None)
| nf_short s : map lower s = bs "short" -> names_format s (NShort None)
| nf_float s : map lower s = bs "float" -> names_format s (NFloat None)
| nf_two s : map lower s = bs "power2" \/ map lower s = bs "p2" -> names_format s NPower2
| nf_ten s : map lower s = bs "power10" \/ map lower s = bs "p10" -> names_format s NPower10
| nf_plain_n s p : (p < 2 ^ 64)%N -> map lower s = bs "plain" -> names_format (s ++ 46%N :: print_N p) (NPlain (Some p))
| nf_short_n s p : (p < 2 ^ 64)%N -> map lower s = bs "short" -> names_format (s ++ 46%N :: print_N p) (NShort (Some p))
| nf_float_n s p : (p < 2 ^ 64)%N -> map lower s = bs "float" -> names_format (s ++ 46%N :: print_N p) (NFloat (Some p)).

(** An ASCII character that no expression has. *)
Definition foreign (c : N) : Prop := (c < 128)%N /\ ascii_letter c = false /\ is_digit c = false /\ ~ In c (bs "().,^%/*+-!<>").
(** A comma only after an opening bracket. *)
Definition comma_inside (s : bytes) : Prop := forall a b, s = a ++ 44%N :: b -> In 40%N a.

(** Neither the text nor what follows a comma in it is made of brackets only. *)
Definition busy (s : bytes) : Prop := forall e, e = s \/ (exists a, s = a ++ 44%N :: e) -> exists c, In c e /\ c <> 40%N /\ c <> 41%N.

Section Answers.
Variables uni_alpha uni_alnum : N -> bool.
Variable frem fpow : f64 -> f64 -> f64.
Variable libm : fop -> list f64 -> f64.
Variable exp10 : Z -> f64.
Notation written := (written exp10 (alphabetic uni_alpha) (alphanumeric uni_alnum)).

(** What an expression gives: its value, or nothing when it has a foreign character, or calls a function that does not exist or with a
    wrong number of arguments. *)
Inductive gives : bytes -> option f64 -> Prop :=
| gi_value s t v : written s t -> value frem fpow factorial (builtin fpow libm) env0 t = Some v -> gives s (Some v)
| gi_call s t : written s t -> forallb fun_ok (postfix t) = false -> gives s None
| gi_foreign s : Exists foreign s -> gives s None.
(** The answers to lines, from one format to another: a line is an expression, or a format, a comma and an expression; the format stays.
    A line with foreign characters must not look as if it had a format. *)
Inductive answers : numfmt -> list bytes -> list (option (numfmt * f64)) -> numfmt -> Prop :=
| an_none f : answers f [] [] f
| an_plain f s v ls vs f' : gives s v -> (Exists foreign s -> comma_inside s) -> answers f ls vs f' -> answers f (s :: ls) (option_map (pair f) v :: vs) f'
| an_format f word g s v ls vs f' : names_format word g -> gives s v -> answers g ls vs f' ->
    answers f ((word ++ 44%N :: s) :: ls) (option_map (pair g) v :: vs) f'.
End Answers.
