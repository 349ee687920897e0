(** Specification vocabulary for transposing and for tables. *)
From Coq Require Import List NArith.
Import ListNotations.
From Verif Require Import Base TextSpec.

(** The first [w] columns of [rows], each as a row; a row that is too short counts as having empty fields. *)
Definition swapped (w : nat) (rows : list (list bytes)) : list (list bytes) :=
  map (fun j => map (fun row => nth j row []) rows) (seq 0 w).
(** Rows of the same length. *)
Definition rectangular (w : nat) (rows : list (list bytes)) : Prop := Forall (fun row => length row = w) rows.
(** The text of a table with tabs between the fields. *)
Definition table (rows : list (list bytes)) : bytes := concat (map (fun row => join TAB row ++ [NL]) rows).
(** Fields that can stand in such a table as they are. *)
Definition plain_fields (rows : list (list bytes)) : Prop := Forall (Forall (fun f => ~ In TAB f /\ ~ In NL f)) rows.
