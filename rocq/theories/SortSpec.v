(** What sorting and merging mean, independent of the model. *)
From Coq Require Import List NArith Bool Arith Sorting.Permutation Sorting.Sorted.
Import ListNotations.
From Verif Require Import Base CompSpec.

Section S.
Context {A : Type}.
Variable cmp : A -> A -> comparison.
Definition same (x y : A) : bool := match cmp x y with Eq => true | _ => false end.
(** Non-decreasing: no element is greater than a later one. *)
Definition sorted (l : list A) : Prop := StronglySorted (fun x y => cmp x y <> Gt) l.
(** Strictly increasing. *)
Definition strictly_sorted (l : list A) : Prop := StronglySorted (fun x y => cmp x y = Lt) l.
(** The elements equal to any given one come out in the order they went in. *)
Definition keeps_ties (inp out : list A) : Prop := forall x, filter (same x) out = filter (same x) inp.
(** [out] is the stable sort of [inp]. *)
Definition stable_sort_of (inp out : list A) : Prop := Permutation inp out /\ sorted out /\ keeps_ties inp out.
(** [out] is some sort of [inp]. *)
Definition sort_of (inp out : list A) : Prop := Permutation inp out /\ sorted out.
(** [out] has exactly the first element of every group of equal elements, increasing. *)
Definition first_of_groups (inp out : list A) : Prop :=
  strictly_sorted out /\ forall x, filter (same x) out = firstn 1 (filter (same x) inp).
(** [out] has exactly one element of every group of equal elements, increasing. *)
Definition one_of_groups (inp out : list A) : Prop :=
  strictly_sorted out /\ (forall y, In y out -> In y inp) /\ forall x, In x inp -> exists y, In y out /\ cmp x y = Eq.
(** [l] is [big] with some elements left out. *)
Inductive subseq : list A -> list A -> Prop :=
| sub_nil : subseq [] []
| sub_skip x l big : subseq l big -> subseq l (x :: big)
| sub_take x l big : subseq l big -> subseq (x :: l) (x :: big).
End S.

(** [eqv] says exactly when the comparison is Equal. *)
Definition decides_eq {A} (cmp : A -> A -> comparison) (eqv : A -> A -> bool) : Prop :=
  forall x y, eqv x y = true <-> cmp x y = Eq.

(** A priority queue of numbers: popping gives an element no other exceeds. *)
Definition good_queue (push : (nat -> nat -> comparison) -> nat -> list nat -> list nat)
    (pop : (nat -> nat -> comparison) -> list nat -> option (nat * list nat))
    (inv : (nat -> nat -> comparison) -> list nat -> Prop) : Prop :=
  (forall c, inv c []) /\
  (forall c x h, total_preorder_on (fun i => In i (x :: h)) c -> inv c h -> inv c (push c x h) /\ Permutation (push c x h) (x :: h)) /\
  (forall c, pop c [] = None) /\
  (forall c h, h <> [] -> total_preorder_on (fun i => In i h) c -> inv c h ->
     exists x h', pop c h = Some (x, h') /\ Permutation h (x :: h') /\ inv c h' /\ forall y, In y h -> c x y <> Lt) /\
  (forall c c' h, (forall x y, In x h -> In y h -> c x y = c' x y) -> inv c h -> inv c' h).

(** Lines of a text: pieces ending in a newline. *)
Definition whole_line (l : bytes) : Prop := exists b, l = b ++ [NL] /\ ~ In NL b.

(** [text] consists of the lines [ls], the last of which may lack its newline. *)
Definition text_of (ls : list bytes) (text : bytes) : Prop :=
  Forall whole_line ls /\ (concat ls = text \/ (concat ls = text ++ [NL] /\ exists b c, text = b ++ [c] /\ c <> NL)).
