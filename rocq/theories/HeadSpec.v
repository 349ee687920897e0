(** What the documentation of the header modes promises, /repo/src/util.rs:1829-1843. *)
From Coq Require Import List NArith Bool.
Import ListNotations.
From Verif Require Import Base.

(** [h] tells headers from other lines. Every policy sees the first lines of the non-empty files
    and answers, per file, pass on ([true]) or suppress ([false]), or rejects the whole list. *)
Section Policy.
Variable h : bytes -> bool.

(** Match: the first can be anything, the others must match: same header, or no header either. *)
Definition spec_match (ls : list bytes) : option (list bool) :=
  match ls with
  | [] => Some []
  | f :: r =>
      if h f then if forallb (fun l => beq l f) r then Some (true :: map (fun _ => false) r) else None
      else if existsb h r then None else Some (true :: map (fun _ => true) r)
  end.

(** Require: the first must be a header, the others must match. *)
Definition spec_require (ls : list bytes) : option (list bool) :=
  match ls with
  | [] => Some []
  | f :: r => if h f && forallb (fun l => beq l f) r then Some (true :: map (fun _ => false) r) else None
  end.

(** Strip: headers are removed. *)
Definition spec_strip (ls : list bytes) : option (list bool) := Some (map (fun l => negb (h l)) ls).

(** None: no headers. *)
Definition spec_none (ls : list bytes) : option (list bool) :=
  if existsb h ls then None else Some (map (fun _ => true) ls).

(** Trust: the first can be anything, later headers are dropped. *)
Definition spec_trust (ls : list bytes) : option (list bool) :=
  match ls with [] => Some [] | f :: r => Some (true :: map (fun l => negb (h l)) r) end.

(** Ignore: every line is data. *)
Definition spec_ignore (ls : list bytes) : option (list bool) := Some (map (fun _ => true) ls).
End Policy.
