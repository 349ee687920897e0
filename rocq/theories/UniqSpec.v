(** Runs of adjacent equal lines. *)
From Coq Require Import List NArith Bool.
Import ListNotations.
From Verif Require Import Base StrSpec CompSpec UniqModel.

Section Runs.
Context {A : Type}.
Variable eq : A -> A -> bool.
(** Each element is equal to the next. *)
Fixpoint chain (l : list A) : Prop :=
  match l with
  | x :: ((y :: _) as r) => eq x y = true /\ chain r
  | _ => True
  end.
(** Two neighbouring runs cannot be joined. *)
Definition broken (r s : list A) : Prop := exists p x y q, r = p ++ [x] /\ s = y :: q /\ eq x y = false.
Fixpoint apart (rs : list (list A)) : Prop :=
  match rs with
  | r :: ((s :: _) as rest) => broken r s /\ apart rest
  | _ => True
  end.
(** [rs] cuts [l] into its maximal runs of adjacent equal elements. *)
Definition runs_of (l : list A) (rs : list (list A)) : Prop :=
  concat rs = l /\ Forall (fun r => r <> [] /\ chain r) rs /\ apart rs.

Variable cmp : A -> A -> comparison.
(** The element of a run that should be shown; the first of several smallest or largest ones. *)
Definition chosen (w : which) (r : list A) (x : A) : Prop :=
  exists p q, r = p ++ x :: q /\
  match w with
  | First => p = []
  | Last => q = []
  | Min => Forall (fun y => cmp y x = Gt) p /\ Forall (fun y => cmp y x <> Lt) q
  | Max => Forall (fun y => cmp y x = Lt) p /\ Forall (fun y => cmp y x <> Gt) q
  end.
End Runs.

(** What is written for a run of [n] lines shown by a line with text [body]. *)
Definition run_text (pos : count_pos) (n : nat) (body : bytes) (delim : N) : bytes :=
  match pos with
  | CNone => body
  | CBegin => print_N (N.of_nat n) ++ [delim] ++ body
  | CEnd => body ++ [delim] ++ print_N (N.of_nat n)
  end.
