(** Multi-key order, sortedness and bounds, independent of the model. *)
From Coq Require Import String List NArith Bool.
Open Scope list_scope.
Import ListNotations.
From Verif Require Import Base CompSpec.

(** [c] is the answer of the first key that tells the two apart; Equal if none does. *)
Definition first_key {A} (keys : list (A -> A -> comparison)) (x y : A) (c : comparison) : Prop :=
  (c = Eq /\ Forall (fun k => k x y = Eq) keys) \/
  (exists before k after, keys = before ++ k :: after /\ Forall (fun k => k x y = Eq) before /\ k x y = c /\ c <> Eq).

(** No line is greater than (or, if strict, equal to) its successor. *)
Definition in_order {A} (strict : bool) (cmp : A -> A -> comparison) (x y : A) : Prop :=
  cmp x y = Lt \/ (strict = false /\ cmp x y = Eq).
Definition adjacent_ok {A} (strict : bool) (cmp : A -> A -> comparison) (l : list A) : Prop :=
  forall p x y s, l = p ++ x :: y :: s -> in_order strict cmp x y.
Definition globally_sorted {A} (strict : bool) (cmp : A -> A -> comparison) (l : list A) : Prop :=
  forall p x m y s, l = p ++ x :: m ++ y :: s -> in_order strict cmp x y.

(** The six relations a user can ask for. *)
Definition lt_sym : bytes := [60%N].
Definition gt_sym : bytes := [62%N].
Definition le_sym : bytes := [60; 61]%N.
Definition ge_sym : bytes := [62; 61]%N.
Definition eq_sym_ : bytes := [61; 61]%N.
Definition ne_sym : bytes := [33; 61]%N.
Definition relation_holds (name : bytes) (c : comparison) : Prop :=
  (name = lt_sym /\ c = Lt) \/ (name = gt_sym /\ c = Gt) \/ (name = le_sym /\ c <> Gt) \/
  (name = ge_sym /\ c <> Lt) \/ (name = eq_sym_ /\ c = Eq) \/ (name = ne_sym /\ c <> Eq).
(** Relation of one bound or of two. *)
Definition symbol (name : bytes) : Prop :=
  name = lt_sym \/ name = gt_sym \/ name = le_sym \/ name = ge_sym \/ name = eq_sym_ \/ name = ne_sym.
(** Word and symbol spellings. *)
Definition spelling (word sym : bytes) : Prop :=
  (word = bs "LT"%string /\ sym = lt_sym) \/ (word = bs "GT"%string /\ sym = gt_sym) \/ (word = bs "LE"%string /\ sym = le_sym) \/
  (word = bs "GE"%string /\ sym = ge_sym) \/ (word = bs "EQ"%string /\ sym = eq_sym_) \/ (word = bs "NE"%string /\ sym = ne_sym).
