(** Tools run one after the other: what the first is told. *)
From Coq Require Import String List NArith ZArith Bool Arith.
Open Scope list_scope.
Import ListNotations.
From Verif Require Import Base TextSpec FloatModel ReadModel ReadSpec KeySpec OrderSpec.
Close Scope Z_scope. Open Scope nat_scope.

(** A run of sort over files with the same header, by keys given by name or by number; a file is a source and the sizes of the reads. *)
Definition sort_run (utf8_ok name_ok : bytes -> bool) (letter alnum : N -> bool) (cap size : nat) (args : list (bytes * bytes)) (ws : list wanted) (names : list bytes)
    (fs : list (src * list nat)) (bodies : list (list bytes)) : Prop :=
  known args /\ ~ given (bs "merge") args /\ ~ given (bs "check") args /\ ~ given (bs "Check") args /\
  values (bs "key") args (map text_of_key ws) /\ Forall (wanted_ok letter alnum [names]) ws /\
  Forall (fun w => plain_kind (wk_cmp w)) ws /\ first_forward ws /\
  (N.of_nat cap < 2 ^ 31)%N /\ 0 < cap /\ 0 < size /\ names_fit utf8_ok name_ok names /\ fs <> [] /\
  Forall2 (fun f b => content (fst f) = headline names ++ concat b) fs bodies /\ lines_fit cap (concat bodies).
(** The same key, in the one file and in file [f] of several. *)
Definition key_of (f : nat) (one many : wanted) : Prop := wk_cmp one = wk_cmp many /\ wk_rev one = wk_rev many /\ wk_pos one 0 = wk_pos many f.
(** No two elements at different places are equal. *)
Fixpoint all_differ {A} (cmp : A -> A -> comparison) (l : list A) : Prop := match l with x :: r => Forall (fun y => cmp x y <> Eq) r /\ all_differ cmp r | [] => True end.
