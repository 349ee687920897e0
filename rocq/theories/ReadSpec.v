(** Specification vocabulary for reading lines and records. *)
From Coq Require Import List NArith Arith.
Import ListNotations.
From Verif Require Import Base.

(** Number of double quotes. *)
Fixpoint quotes (l : bytes) : nat :=
  match l with
  | [] => 0
  | c :: r => (if (c =? DQ)%N then 1 else 0) + quotes r
  end.

(** A line: no line break except the last byte. *)
Definition is_line (lb : byte) (l : bytes) : Prop :=
  exists b, l = b ++ [lb] /\ ~ In lb b.

(** A record body: every line break inside lies within an open quote. *)
Definition protected (lb : byte) (b : bytes) : Prop :=
  forall p q, b = p ++ lb :: q -> Nat.odd (quotes p) = true.

(** A complete quoted record. *)
Definition closed_record (lb : byte) (l : bytes) : Prop :=
  exists b, l = b ++ [lb] /\ protected lb b /\ Nat.even (quotes b) = true.

(** The text of a file whose last quote is never closed. *)
Definition open_record (lb : byte) (l : bytes) : Prop :=
  exists b, l = b ++ [lb] /\ protected lb b /\ Nat.odd (quotes b) = true.

(** [out] is [text] with a final line break if it was missing. *)
Definition terminated (lb : byte) (text out : bytes) : Prop :=
  (text = [] /\ out = []) \/
  (exists b, text = b ++ [lb] /\ out = text) \/
  (text <> [] /\ ~ (exists b, text = b ++ [lb]) /\ out = text ++ [lb]).
