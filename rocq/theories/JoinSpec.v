(** What a join should produce. *)
From Coq Require Import List Bool Sorting.Sorted.
From Verif Require Import Base CompSpec.
Import ListNotations.

Section Join.
Variables A B K : Type.
Variable ord : K -> K -> comparison.
Variables (ka : A -> K) (kb : B -> K).
(** The two lines have the same key. *)
Definition partners (a : A) (b : B) : bool := match ord (ka a) (kb b) with Eq => true | _ => false end.
(** One row for each line of the first file which has a partner, with its first partner. *)
Definition rows_spec (l : list A) (r : list B) : list (A * B) :=
  flat_map (fun a => match find (partners a) r with Some b => [(a, b)] | None => [] end) l.
(** The lines with no partner in the other file. *)
Definition lone_left (l : list A) (r : list B) : list A := filter (fun a => negb (existsb (partners a) r)) l.
Definition lone_right (l : list A) (r : list B) : list B := filter (fun b => negb (existsb (fun a => partners a b) l)) r.
(** In order of the keys; with no key twice. *)
Definition ordered_by {T} (k : T -> K) : list T -> Prop := StronglySorted (fun x y => ord (k x) (k y) <> Gt).
Definition strictly_by {T} (k : T -> K) : list T -> Prop := StronglySorted (fun x y => ord (k x) (k y) = Lt).
End Join.
Arguments partners {A B K}. Arguments rows_spec {A B K}. Arguments lone_left {A B K}. Arguments lone_right {A B K}.
Arguments ordered_by {K} ord {T}. Arguments strictly_by {K} ord {T}.
