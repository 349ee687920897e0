(** Specifications for text primitives. *)
From Coq Require Import List NArith ZArith Bool Arith Decimal.
Import ListNotations.
From Verif Require Import Base TextSpec.

(** A character of a pattern stands for a character of the text. *)
Definition same_char (insens : bool) (p c : byte) : Prop :=
  p = c \/ p = 63%N \/ (insens = true /\ lower p = lower c).

(** The meaning of glob patterns. *)
Inductive gmatch (insens : bool) : bytes -> bytes -> Prop :=
| gm_nil : gmatch insens [] []
| gm_star p run t : gmatch insens p t -> gmatch insens (42%N :: p) (run ++ t)
| gm_char c p x t : c <> 42%N -> same_char insens c x -> gmatch insens p t -> gmatch insens (c :: p) (x :: t).

(** Decimal digits of a printed number. *)
Fixpoint digits (u : uint) : bytes :=
  match u with
  | Nil => []
  | D0 u => 48%N :: digits u | D1 u => 49%N :: digits u | D2 u => 50%N :: digits u
  | D3 u => 51%N :: digits u | D4 u => 52%N :: digits u | D5 u => 53%N :: digits u
  | D6 u => 54%N :: digits u | D7 u => 55%N :: digits u | D8 u => 56%N :: digits u
  | D9 u => 57%N :: digits u
  end.

(** Decimal notation of a natural number, and of an integer. *)
Definition print_N (n : N) : bytes := digits (N.to_uint n).
Definition print_Z (z : Z) : bytes := if (z <? 0)%Z then 45%N :: print_N (Z.to_N (- z)) else print_N (Z.to_N z).

(** Opening minus closing brackets. *)
Fixpoint balance (open close : byte) (l : bytes) : Z :=
  match l with
  | [] => 0
  | c :: r => ((if (c =? open)%N then 1 else if (c =? close)%N then -1 else 0) + balance open close r)%Z
  end.

(** Balanced text: as many closing as opening brackets, never more closing in a prefix. *)
Definition balanced (open close : byte) (l : bytes) : Prop :=
  balance open close l = 0%Z /\ forall p q, l = p ++ q -> (0 <= balance open close p)%Z.

(** The last [n] elements. *)
Definition lastn {A} (n : nat) (l : list A) : list A := skipn (length l - n) l.

(** The letters that may follow a number as a magnitude: KMGTPEZY and kmgtpezy. *)
Definition magnitude_letters : bytes := [75; 77; 71; 84; 80; 69; 90; 89; 107; 109; 103; 116; 112; 101; 122; 121]%N.

(** Text that cannot continue a number. *)
Definition not_numeric (rest : bytes) : Prop :=
  match rest with [] => True | c :: _ => ~ (48 <= c <= 57)%N /\ ~ In c magnitude_letters end.

(** What the magnitude letters should mean: powers of 1024 in upper case, of 1000 in lower case. *)
Definition magnitude (c : byte) : option N :=
  match c with
  | 75 => Some (1024 ^ 1) | 77 => Some (1024 ^ 2) | 71 => Some (1024 ^ 3) | 84 => Some (1024 ^ 4)
  | 80 => Some (1024 ^ 5) | 69 => Some (1024 ^ 6) | 90 => Some (1024 ^ 7) | 89 => Some (1024 ^ 8)
  | 107 => Some (1000 ^ 1) | 109 => Some (1000 ^ 2) | 103 => Some (1000 ^ 3) | 116 => Some (1000 ^ 4)
  | 112 => Some (1000 ^ 5) | 101 => Some (1000 ^ 6) | 122 => Some (1000 ^ 7) | 121 => Some (1000 ^ 8)
  | _ => None
  end%N.

(** The four kinds of brackets. *)
Definition bracket_pair (o c : byte) : Prop := In (o, c) [(40, 41); (123, 125); (91, 93); (60, 62)]%N.

(** Escaped text: plain bytes, and a backslash followed by a byte. *)
Inductive eitem := Raw (c : byte) | Esc (c : byte).

Definition eitem_ok (i : eitem) : Prop := match i with Raw c => c <> 92%N | Esc _ => True end.
Definition eitem_text (i : eitem) : bytes := match i with Raw c => [c] | Esc c => [92; c]%N end.
Definition eitem_value (i : eitem) : byte :=
  match i with
  | Raw c => c
  | Esc c => if (c =? 110)%N then 10%N else if (c =? 116)%N then 9%N else if (c =? 115)%N then 32%N else c
  end.
