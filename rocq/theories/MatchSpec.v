(** What conditions on columns, texts and lines mean. *)
From Coq Require Import List NArith Bool QArith.
Import ListNotations.
From Verif Require Import Base FloatModel MatchModel.
Open Scope list_scope.
Close Scope Q_scope.

(** How many columns did and did not match. *)
Definition hits (l : list bool) : N := N.of_nat (count_occ bool_dec l true).
Definition misses (l : list bool) : N := N.of_nat (count_occ bool_dec l false).

(** What a determiner says about the verdicts of all columns, when it counts. *)
Inductive holds_on : determiner -> list bool -> Prop :=
  | h_all l : Forall (eq true) l -> holds_on DAll l
  | h_some l : In true l -> holds_on DSome l
  | h_none l : ~ In true l -> holds_on DNone l
  | h_notall l : In false l -> holds_on DNotAll l
  | h_mixed l : In true l -> In false l -> holds_on DMixed l
  | h_uniform l b : Forall (eq b) l -> holds_on DUniform l
  | h_most l c : (hits l <= c)%N -> holds_on (DAtMost (TCount c)) l
  | h_least l c : (c <= hits l)%N -> holds_on (DAtLeast (TCount c)) l
  | h_exact l c : hits l = c -> holds_on (DExactly (TCount c)) l
  | h_mostno l c : (misses l <= c)%N -> holds_on (DAtMostNo (TCount c)) l
  | h_leastno l c : (c <= misses l)%N -> holds_on (DAtLeastNo (TCount c)) l
  | h_exactno l c : misses l = c -> holds_on (DExactlyNo (TCount c)) l.
(** The determiners that count rather than take a share. *)
Definition counting (d : determiner) : Prop :=
  match d with
  | DAtMost t | DAtLeast t | DExactly t | DAtMostNo t | DAtLeastNo t | DExactlyNo t => match t with TCount _ => True | TFrac _ => False end
  | _ => True
  end.

(** Texts that differ in the case of ASCII letters only. *)
Definition same_but_case (a b : bytes) : Prop := Forall2 (fun x y => lower x = lower y) a b.
(** A blank byte: a space or anything below it. *)
Definition blank (c : N) : Prop := (c <= 32)%N.
(** [p] stands at the start, at the end, or somewhere in [b]. *)
Definition begins (p b : bytes) : Prop := exists r, b = p ++ r.
Definition finishes (p b : bytes) : Prop := exists r, b = r ++ p.
Definition within (p b : bytes) : Prop := exists q r, b = q ++ p ++ r.
(** The same with the case of ASCII letters ignored. *)
Definition begins_case (p b : bytes) : Prop := exists u r, b = u ++ r /\ same_but_case u p.
Definition finishes_case (p b : bytes) : Prop := exists u r, b = r ++ u /\ same_but_case u p.
Definition within_case (p b : bytes) : Prop := exists q u r, b = q ++ u ++ r /\ same_but_case u p.
(** White space and then [p]. *)
Definition after_blanks (p b : bytes) : Prop := exists w r, b = w ++ p ++ r /\ Forall blank w.
