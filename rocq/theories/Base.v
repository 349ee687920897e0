(** Shared vocabulary of the model: bytes, outcomes, small list helpers.
    Nothing here models a particular function of /repo except where cited. *)
From Coq Require Import List NArith Ascii String Bool Arith Lia.
Import ListNotations.

(** A byte. Models Rust [u8] as in /repo/src/text.rs:494-496 (Text for [u8]).
    Simplified: every natural number is allowed, a superset of u8. *)
Notation byte := N (only parsing).

(** A byte string, Rust [&[u8]] / [Vec<u8>]; /repo/src/text.rs:494-496. *)
Notation bytes := (list N) (only parsing).

(** Outcome of a Rust function: [Result] of /repo/src/util.rs:20-80 (message
    text dropped) plus an explicit value for a panic. *)
Inductive res (A : Type) : Type :=
| Ok (a : A)
| Err
| Panic.
Arguments Ok {A} a.
Arguments Err {A}.
Arguments Panic {A}.

(** Sequencing of outcomes, the [?] operator used all over /repo/src. *)
Definition rbind {A B} (x : res A) (f : A -> res B) : res B :=
  match x with Ok a => f a | Err => Err | Panic => Panic end.

(** Bytes of a string literal, to write examples ([b"..."] literals, e.g.
    /repo/src/text.rs:761). *)
Fixpoint bs (s : string) : bytes :=
  match s with
  | EmptyString => []
  | String c s' => N_of_ascii c :: bs s'
  end.

(** Byte literals for newline, tab, return, space, double quote, backslash used in /repo/src/util.rs:180-687. *)
Definition NL : byte := 10%N.
Definition TAB : byte := 9%N.
Definition CR : byte := 13%N.
Definition SPC : byte := 32%N.
Definition DQ : byte := 34%N.
Definition BSL : byte := 92%N.

(** ASCII digits, [u8::is_ascii_digit] as used in /repo/src/text.rs:630-661. *)
Definition is_digit (c : byte) : bool := (48 <=? c)%N && (c <=? 57)%N.

(** [u8::to_ascii_lowercase] as used in /repo/src/text.rs:553,571. *)
Definition lower (c : byte) : byte :=
  if ((65 <=? c) && (c <=? 90))%N then (c + 32)%N else c.

(** [u8::to_ascii_uppercase] as used in /repo/src/text.rs:605. *)
Definition upper (c : byte) : byte :=
  if ((97 <=? c) && (c <=? 122))%N then (c - 32)%N else c.

(** Slice equality [a == b] on bytes, e.g. /repo/src/util.rs:1974. *)
Fixpoint beq (a b : bytes) : bool :=
  match a, b with
  | [], [] => true
  | x :: a', y :: b' => (x =? y)%N && beq a' b'
  | _, _ => false
  end.

(** [starts_with] on byte slices, e.g. /repo/src/util.rs:1889. *)
Fixpoint starts_with (l p : bytes) {struct p} : bool :=
  match p, l with
  | [], _ => true
  | x :: p', y :: l' => (x =? y)%N && starts_with l' p'
  | _ :: _, [] => false
  end.

Lemma beq_eq a b : beq a b = true <-> a = b.
Proof.
  revert b; induction a as [|x a IH]; intros [|y b]; simpl; split; intro H; try congruence; auto.
  - apply andb_true_iff in H as [H1 H2]. apply N.eqb_eq in H1. apply IH in H2. congruence.
  - inversion H; subst. rewrite N.eqb_refl. simpl. apply IH; auto.
Qed.

Lemma beq_refl a : beq a a = true.
Proof. apply beq_eq; reflexivity. Qed.

Lemma starts_with_app l p : starts_with l p = true <-> exists r, l = p ++ r.
Proof.
  revert l; induction p as [|x p IH]; intros l; simpl.
  - split; intros; auto. exists l; auto.
  - destruct l as [|y l]; split; intro H; try congruence.
    + destruct H as [r Hr]; congruence.
    + apply andb_true_iff in H as [H1 H2]. apply N.eqb_eq in H1. apply IH in H2 as [r ->].
      exists r; subst; reflexivity.
    + destruct H as [r Hr]; inversion Hr; subst. rewrite N.eqb_refl; simpl. apply IH; eauto.
Qed.
