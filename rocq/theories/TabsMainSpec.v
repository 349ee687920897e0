(** What the tabs tool should show, independent of how it does it. *)
From Coq Require Import List Arith NArith.
Import ListNotations.
From Verif Require Import Base TextSpec PasteSpec TabsSpec.
Open Scope nat_scope.

(** The size of the screen: one line less than the terminal has, or 100 by 24 without a terminal. *)
Definition screen_of (ws : option (nat * nat)) (W H : nat) : Prop :=
  match ws with Some (rows, cols) => rows = S H /\ cols = W | None => W = 100 /\ H = 24 end.
Definition lines_text (ls : list bytes) : bytes := concat (map (fun l => l ++ [NL]) ls).

Section Spec.
Variable width : bytes -> nat.
Variable cut : bytes -> nat -> bytes * nat.
Variable lossy : bytes -> bytes.
Variable delim : N.
Variable W : nat.

(** A file as rows of fields: the names, if it has a header line, and the lines. *)
Definition cells (l : bytes) : list bytes := split_on delim (lossy (removelast l)).
Definition has_head (f : shown) : bool := match sh_head f with [] => false | _ => true end.
Definition all_rows (f : shown) : list (list bytes) := (if has_head f then [sh_names f] else []) ++ map cells (sh_lines f).
(** The rows that have room in [h] lines; the header always has. *)
Definition top_rows (h : nat) (f : shown) : list (list bytes) := firstn (Nat.max h (if has_head f then 1 else 0)) (all_rows f).
(** The table of a file on [h] lines, and its width with one blank for every column. *)
Definition shown_as (h : nat) (f : shown) (out : list bytes) (used : nat) : Prop :=
  exists wide sizes, let n := length (sh_names f) in
    length wide = n /\ (forall c, widest width (top_rows h f) c (nth c wide 0)) /\ chosen_widths wide sizes (W - n) /\ used = sum sizes + n /\
    table_of width cut sizes (has_head f) (top_rows h f) out.
(** The name of a file above its table, in the middle; no line at all if there is no room for it. *)
Definition title (name : bytes) (used : nat) (t : list bytes) : Prop :=
  if used <? length name then t = []
  else exists l r, t = [repeat 32%N l ++ name ++ repeat 32%N r] /\ l + length name + r = used /\ (l = r \/ S l = r).
(** Several files on so many lines: every file gets its equal share of those left, and what it does not need is left to the next ones. *)
Inductive shares : nat -> list (bytes * shown) -> list (list bytes * list bytes * nat) -> Prop :=
| shares_nil left : shares left [] []
| shares_cons left name f rest t out used more :
    shown_as (left / S (length rest)) f out used -> title name used t -> length out <= left -> shares (left - length out) rest more ->
    shares left ((name, f) :: rest) ((t, out, used) :: more).
(** One below the other, with a rule as wide as the table above it. *)
Fixpoint stack (bs : list (list bytes * list bytes * nat)) : list bytes :=
  match bs with
  | [] => []
  | [(t, out, _)] => t ++ out
  | (t, out, used) :: r => t ++ out ++ repeat 45%N used :: stack r
  end.
(** Files that can be shown at all: no line has more fields than the header, and there is a character for every column. *)
Definition fits (f : shown) : Prop := length (sh_names f) <= W /\ Forall (fun l => length (cells l) <= length (sh_names f)) (sh_lines f).
End Spec.
