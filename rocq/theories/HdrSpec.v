(** Specifications for column names and headers. *)
From Coq Require Import List NArith.
Import ListNotations.
From Verif Require Import Base StrSpec HdrModel.

(** A column name: empty, or a letter followed by letters, digits and underscores. *)
Definition well_named (letter alnum : N -> bool) (n : bytes) : Prop :=
  match n with [] => True | c :: r => letter c = true /\ Forall (fun c => alnum c = true \/ c = 95%N) r end.

(** The rename that applies to [n] is the first one in the table for that name. *)
Definition first_rename (l : list (bytes * bytes)) (n : bytes) (before : list (bytes * bytes)) (to : bytes) (after : list (bytes * bytes)) : Prop :=
  l = before ++ (n, to) :: after /\ ~ In n (map fst before).

(** [entry cols mode renames n x renames']: the name [x] under which a column called [n] should appear after [cols], and the renames
    left over. *)
Inductive entry (cols : list bytes) : dup_mode -> list (bytes * bytes) -> bytes -> bytes -> list (bytes * bytes) -> Prop :=
  | e_new m rn n : ~ In n cols -> entry cols m rn n n rn
  | e_rename m rn n a t b : In n cols -> first_rename rn n a t b -> ~ In t cols -> entry cols m rn n t (a ++ b)
  | e_allow rn n : In n cols -> ~ In n (map fst rn) -> entry cols DAllow rn n n rn
  | e_numeric rn n k : In n cols -> ~ In n (map fst rn) -> (1 <= k < 10000)%N -> ~ In (n ++ print_N k) cols ->
      (forall j, (1 <= j < k)%N -> In (n ++ print_N j) cols) -> entry cols DNumeric rn n (n ++ print_N k) rn.

(** When a name has to be rejected. *)
Definition rejected (letter alnum : N -> bool) (cols : list bytes) (m : dup_mode) (rn : list (bytes * bytes)) (n : bytes) : Prop :=
  ~ well_named letter alnum n \/
  In n cols /\ ((exists a t b, first_rename rn n a t b /\ In t cols) \/ (~ In n (map fst rn) /\ m = DFail)).

(** The header after accepting the names one after the other, for any notion of accepting one name. *)
Inductive pushed {H : Type} (accept : H -> bytes -> H -> Prop) : H -> list bytes -> H -> Prop :=
  | pushed_none : forall h, pushed accept h [] h
  | pushed_one : forall h n h1 ns h', accept h n h1 -> pushed accept h1 ns h' -> pushed accept h (n :: ns) h'.
