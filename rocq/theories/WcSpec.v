(** Specification vocabulary for counting. *)
From Coq Require Import String List NArith Bool Arith.
Open Scope list_scope.
Import ListNotations.
From Verif Require Import Base TextSpec AggSpec PasteSpec.

(** What can be counted. *)
Inductive measure := MLines | MBytes | MChars | MWords.
Definition label_of (m : measure) : bytes :=
  match m with MLines => bs "lines" | MBytes => bs "bytes" | MChars => bs "chars" | MWords => bs "words" end.
(** The pieces of a text between its white space (bytes up to 32). *)
Fixpoint chop (l : bytes) : list bytes :=
  match l with
  | [] => [[]]
  | c :: r => if (c <=? 32)%N then [] :: chop r else match chop r with w :: ws => (c :: w) :: ws | [] => [[c]] end
  end.
Definition word_count (l : bytes) : nat := List.length (filter (fun w => match w with [] => false | _ => true end) (chop l)).
(** How much of it there is in [xs]; [chars] gives the characters of a text. *)
Definition amount (chars : bytes -> list N) (m : measure) (xs : list bytes) : N :=
  match m with
  | MLines => N.of_nat (List.length xs)
  | MBytes => N.of_nat (List.length (concat xs))
  | MChars => total (map (fun x => N.of_nat (List.length (chars x))) xs)
  | MWords => total (map (fun x => N.of_nat (word_count x)) xs)
  end.
(** A line of the report: an optional label and a tab, the values with [d] between them. *)
Definition report_line (d : N) (label : option bytes) (vals : list bytes) : bytes :=
  (match label with Some n => n ++ [TAB] | None => [] end) ++ join d vals ++ [NL].

(** The names in the order of their first appearance. *)
Fixpoint appear (seen : list bytes) (l : list bytes) : list bytes :=
  match l with
  | [] => seen
  | x :: r => appear (if existsb (beq x) seen then seen else seen ++ [x]) r
  end.
(** The fields of a row that stand under this name. *)
Definition under (name : bytes) (names row : list bytes) : list bytes :=
  map snd (filter (fun p => beq (fst p) name) (combine names row)).
(** All fields of the files under this name; [cut] gives the fields of a line. *)
Definition column_of (cut : bytes -> list bytes) (fs : list shown) (name : bytes) : list bytes :=
  flat_map (fun f => flat_map (fun l => under name (sh_names f) (cut l)) (sh_lines f)) fs.
