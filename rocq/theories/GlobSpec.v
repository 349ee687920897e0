(** What a pattern with any number of stars does, independent of the code that searches. *)
From Coq Require Import List NArith Bool Arith.
Import ListNotations.
From Verif Require Import Base TextSpec.

(** A piece of a pattern, without star, stands for a piece of the text; [same p c]: the pattern's character [p] stands for [c]. *)
Definition like (same : N -> N -> Prop) (s t : list N) : Prop := Forall2 same s t.
(** The piece [s] is put into [t] after [run] and leaves [rest]; a star that stands for exactly one character is not tried. *)
Definition put (same : N -> N -> Prop) (s t run rest : list N) : Prop := exists mid, t = run ++ mid ++ rest /\ length run <> 1 /\ like same s mid.
(** The outcome for the pieces behind a star and the text that is left: every piece but the last goes to its first place, the last to the end of the text. *)
Inductive after (same : N -> N -> Prop) : list (list N) -> list N -> res bool -> Prop :=
| af_end segs : after same segs [] (Ok (forallb (fun s => match s with [] => true | _ => false end) segs))
| af_any c t : after same [[]] (c :: t) (Ok true)
| af_last s t b : s <> [] -> 2 <= length t -> (b = true <-> exists run, put same s t run []) -> after same [s] t (Ok b)
| af_next s r segs t run rest o : t <> [] -> put same s t run rest -> (forall run' rest', put same s t run' rest' -> length run <= length run') ->
    after same (r :: segs) rest o -> after same (s :: r :: segs) t o
| af_none s r segs t : 2 <= length t -> (forall run rest, ~ put same s t run rest) -> after same (s :: r :: segs) t (Ok false)
| af_fit x c : same x c -> after same [[x]] [c] (Ok true)
| af_short x y s segs c : same x c -> after same ((x :: y :: s) :: segs) [c] (Ok false)
| af_panic x s segs c : ~ same x c -> after same ((x :: s) :: segs) [c] Panic.
(** The outcome for a whole pattern. *)
Inductive outcome (same : N -> N -> Prop) (wild text : list N) : res bool -> Prop :=
| oc_plain p b : split_on 42%N wild = [p] -> (b = true <-> like same p text) -> outcome same wild text (Ok b)
| oc_stars p s segs pre t o : split_on 42%N wild = p :: s :: segs -> text = pre ++ t -> like same p pre -> after same (s :: segs) t o -> outcome same wild text o
| oc_no p s segs : split_on 42%N wild = p :: s :: segs -> (forall pre t, text = pre ++ t -> ~ like same p pre) -> outcome same wild text (Ok false).
