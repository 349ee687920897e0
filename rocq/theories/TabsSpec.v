(** What a table on the screen looks like. *)
From Coq Require Import List Arith NArith.
Import ListNotations.
From Verif Require Import Base.
Open Scope nat_scope.

Definition sum (l : list nat) : nat := fold_right Nat.add 0 l.

Section Spec.
Variable width : bytes -> nat.

(** [w] is the width of the widest text in column [c]. *)
Definition widest (rows : list (list bytes)) (c w : nat) : Prop :=
  (forall r t, In r rows -> nth_error r c = Some t -> width t <= w) /\
  (w = 0 \/ exists r t, In r rows /\ nth_error r c = Some t /\ width t = w).

(** Widths [final] chosen for columns as wide as [wide] in a room for [room] characters: no column wider than its content, nothing cut
    that need not be, and no column cut while another one, more than one character wider, could be. *)
Record chosen_widths (wide final : list nat) (room : nat) : Prop := {
  cw_len : length final = length wide;
  cw_le : forall c, nth c final 0 <= nth c wide 0;
  cw_sum : sum final = Nat.min (sum wide) room;
  cw_fair : forall c d, nth c final 0 < nth c wide 0 -> nth d final 0 <= S (nth c final 0) }.

(** The text [t] in a cell of [n] characters: the part [s] of it that fits, with blanks around it. *)
Definition in_cell (center : bool) (s : bytes) (n : nat) (out : bytes) : Prop :=
  exists l r, out = repeat 32%N l ++ s ++ repeat 32%N r /\ l + width s + r = n /\
    if center then l = r \/ S l = r else l = 0.
End Spec.

(** Cells with one blank between them. *)
Fixpoint with_blanks (cells : list bytes) : bytes :=
  match cells with
  | [] => []
  | [c] => c
  | c :: r => c ++ 32%N :: with_blanks r
  end.

(** [cut] cuts a text to a width as the library documents it: a beginning of the text no wider than asked for, all of it if it fits. *)
Definition cuts (width : bytes -> nat) (cut : bytes -> nat -> bytes * nat) : Prop :=
  forall t n, let '(s, w) := cut t n in
    w = width s /\ w <= n /\ (exists rest, t = s ++ rest) /\ (width t <= n -> s = t).

(** The cells of a line: each field, cut to the width of its column. *)
Definition cells_of (width : bytes -> nat) (cut : bytes -> nat -> bytes * nat) (center : bool) (sizes : list nat) (fields cells : list bytes) : Prop :=
  Forall2 (fun tn c => in_cell width center (fst (cut (fst tn) (snd tn))) (snd tn) c) (combine fields sizes) cells.
Definition line_of (width : bytes -> nat) (cut : bytes -> nat -> bytes * nat) (sizes : list nat) (center : bool) (fields : list bytes) (text : bytes) : Prop :=
  exists cells, cells_of width cut center sizes fields cells /\ text = with_blanks cells.
(** The lines of a table: the first one centred if it is a header. *)
Definition table_of (width : bytes -> nat) (cut : bytes -> nat -> bytes * nat) (sizes : list nat) (headed : bool) (rows : list (list bytes)) (out : list bytes) : Prop :=
  match rows, out with
  | [], [] => True
  | r :: rs, t :: ts => line_of width cut sizes headed r t /\ Forall2 (line_of width cut sizes false) rs ts
  | _, _ => False
  end.

(** The lines of the file that go on a screen of that height: the header, if there is one, always; then lines in their order, as many as fit. *)
Definition on_screen (header : option (list bytes)) (data : list (list bytes)) (height : nat) (rows : list (list bytes)) : Prop :=
  let all := match header with Some h => h :: data | None => data end in
  (exists rest, all = rows ++ rest) /\ length rows = Nat.min (length all) (Nat.max height (match header with Some _ => 1 | None => 0 end)).
