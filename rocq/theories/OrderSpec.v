(** What the sort tool should do, independent of how it does it. *)
From Coq Require Import String List NArith ZArith Bool Arith.
Open Scope list_scope.
Import ListNotations.
From Verif Require Import Base TextSpec FloatModel CompModel SortSpec KeySpec.
Close Scope Z_scope. Open Scope nat_scope.

(** The options: names and values in the order given. *)
Definition option_names : list bytes := [bs "key"; bs "alt-merge"; bs "alt-sort"; bs "merge"; bs "check"; bs "Check"; bs "unique"].
Definition known (args : list (bytes * bytes)) : Prop := Forall (fun a => In (fst a) option_names) args.
Definition given (n : bytes) (args : list (bytes * bytes)) : Prop := exists v, In (n, v) args.
(** The values of an option, in order. *)
Inductive values (n : bytes) : list (bytes * bytes) -> list bytes -> Prop :=
| val_nil : values n [] []
| val_this v args vs : values n args vs -> values n ((n, v) :: args) (v :: vs)
| val_other m v args vs : m <> n -> values n args vs -> values n ((m, v) :: args) vs.
Definition text_of_key (w : wanted) : bytes := key_text (wk_cols w) (wk_tail w).

(** The columns of a line, whose last byte is the line end. *)
Definition fields (l : bytes) : list bytes := split_on TAB (removelast l).
Fixpoint first_answer (l : list comparison) : comparison := match l with [] => Eq | Eq :: r => first_answer r | c :: _ => c end.
(** Lines compared by the first key for which they differ. *)
Definition by_fields (exp10 : Z -> f64) (ws : list wanted) (a b : bytes) : comparison := first_answer (map (answers exp10 0 0 (fields a) (fields b)) ws).
(** The comparisons known to be proper orders. *)
Definition plain_kind (c : cmpr) : Prop := In c [CPlain; CLower; CIP; CEqual; CLen].
Definition first_forward (ws : list wanted) : Prop := match ws with w :: _ => wk_rev w = false | [] => False end.

(** Some sort of the lines, or with unique one line of each group. *)
Definition result_of (cmp : bytes -> bytes -> comparison) (unique : Prop) (inp out : list bytes) : Prop :=
  (unique -> one_of_groups cmp inp out) /\ (~ unique -> sort_of cmp inp out).
(** The stable sort of the lines, or with unique the first line of each group. *)
Definition exact_of (cmp : bytes -> bytes -> comparison) (unique : Prop) (inp out : list bytes) : Prop :=
  (unique -> first_of_groups cmp inp out) /\ (~ unique -> stable_sort_of cmp inp out).

(** A header line, and names fit for one. *)
Definition headline (names : list bytes) : bytes := bs " CDX" ++ TAB :: join TAB names ++ [NL].
Definition text_byte (c : byte) : Prop := (0 < c < 256)%N.
Definition names_fit (utf8_ok name_ok : bytes -> bool) (names : list bytes) : Prop :=
  names <> [] /\ utf8_ok (join TAB names) = true /\
  Forall (fun x => x <> [] /\ ~ In TAB x /\ ~ In NL x /\ name_ok x = true /\ Forall text_byte x) names.
(** Lines a file may hold: of ordinary bytes, shorter than the buffer, none looking like a header. *)
Definition lines_fit (cap : nat) (ls : list bytes) : Prop :=
  Forall (fun l => whole_line l /\ Forall text_byte l /\ List.length l < cap /\ firstn 4 l <> bs " CDX") ls.

(** The number of neighbours out of order. *)
Fixpoint breaks {A} (bad : A -> A -> bool) (l : list A) : nat :=
  match l with x :: ((y :: _) as r) => (if bad x y then 1 else 0) + breaks bad r | _ => 0 end.
(** Without a key the lines are compared as they are. *)
Definition line_order (exp10 : Z -> f64) (ws : list wanted) (a b : bytes) : comparison :=
  match ws with [] => c_comp exp10 CPlain a b | _ => by_fields exp10 ws a b end.
(** The same for lines taken apart as the mode says. *)
Definition shown_order (exp10 : Z -> f64) (cols : bytes -> list bytes) (ws : list wanted) (a b : bytes) : comparison :=
  match ws with [] => c_comp exp10 CPlain a b | _ => first_answer (map (answers exp10 0 0 (cols a) (cols b)) ws) end.
Definition starts_forward (ws : list wanted) : Prop := match ws with w :: _ => wk_rev w = false | [] => True end.
