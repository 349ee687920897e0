(** Specification vocabulary for aggregators. *)
From Coq Require Import String List NArith ZArith Bool Arith.
Open Scope list_scope.
Import ListNotations.
From Verif Require Import Base TextSpec.

(** [p] begins (ends) [l]. *)
Definition begins (p l : bytes) : Prop := exists r, l = p ++ r.
Definition ends (p l : bytes) : Prop := exists r, l = r ++ p.
(** [p] is the longest text that begins (ends) every one of the values. *)
Definition longest_common (rel : bytes -> bytes -> Prop) (p : bytes) (vs : list bytes) : Prop :=
  (forall v, In v vs -> rel p v) /\ forall q, (forall v, In v vs -> rel q v) -> List.length q <= List.length p /\ rel q p.

(** [r] is the first of the smallest (largest) values. *)
Definition first_min {A} (cmp : A -> A -> comparison) (r : A) (vs : list A) : Prop :=
  exists pre post, vs = pre ++ r :: post /\ (forall v, In v pre -> cmp v r = Gt) /\ (forall v, In v post -> cmp v r <> Lt).
Definition first_max {A} (cmp : A -> A -> comparison) (r : A) (vs : list A) : Prop :=
  exists pre post, vs = pre ++ r :: post /\ (forall v, In v pre -> cmp v r = Lt) /\ (forall v, In v post -> cmp v r <> Gt).

(** The words of a text: maximal runs of word characters, with gaps of other characters around them. *)
Inductive laid_out (word : N -> Prop) : list N -> list (list N) -> Prop :=
  | lo_end : forall gap, (forall c, In c gap -> ~ word c) -> laid_out word gap []
  | lo_word : forall gap w rest ws, (forall c, In c gap -> ~ word c) -> w <> [] -> (forall c, In c w -> word c) ->
      (match rest with [] => True | c :: _ => ~ word c end) -> laid_out word rest ws ->
      laid_out word (gap ++ w ++ rest) (w :: ws).

(** Sums of numbers. *)
Definition total (ns : list N) : N := fold_right N.add 0%N ns.
Definition totalZ (ns : list Z) : Z := fold_right Z.add 0%Z ns.
(** [n] is the smallest (largest) of the numbers. *)
Definition is_min (n : N) (ns : list N) : Prop := In n ns /\ forall m, In m ns -> (n <= m)%N.
Definition is_max (n : N) (ns : list N) : Prop := In n ns /\ forall m, In m ns -> (m <= n)%N.

(** [out] is [inp] without the elements that equal the one kept before them. *)
Inductive squeezed {A} (same : A -> A -> Prop) : list A -> list A -> Prop :=
  | sq_nil : squeezed same [] []
  | sq_run : forall x run rest out, (forall y, In y run -> same y x) -> (match rest with [] => True | y :: _ => ~ same y x end) ->
      squeezed same rest out -> squeezed same (x :: run ++ rest) (x :: out).
