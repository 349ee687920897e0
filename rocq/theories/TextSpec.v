(** Specification vocabulary for delimited text: splitting and joining. *)
From Coq Require Import List NArith.
Import ListNotations.
From Verif Require Import Base.

(** The pieces of a byte string between occurrences of [d]; always at least one piece. *)
Fixpoint split_on (d : byte) (l : bytes) : list bytes :=
  match l with
  | [] => [[]]
  | c :: l' =>
      if (c =? d)%N then [] :: split_on d l'
      else match split_on d l' with
           | [] => [[c]]
           | f :: fs => (c :: f) :: fs
           end
  end.

(** Pieces separated by [d]. *)
Fixpoint join (d : byte) (fs : list bytes) : bytes :=
  match fs with
  | [] => []
  | f :: [] => f
  | f :: fs' => f ++ d :: join d fs'
  end.

(** [replace a b r] puts [r] for every [a] or [b]. *)
Definition replace2 (a b r : byte) (l : bytes) : bytes :=
  map (fun c => if (c =? a)%N then r else if (c =? b)%N then r else c) l.
