(** What the text of a sort key should mean, independent of how it is read. *)
From Coq Require Import String List NArith ZArith Bool Arith.
Open Scope list_scope.
Import ListNotations.
From Verif Require Import Base TextSpec StrSpec MatchSpec HdrSpec CompModel.

(** A column of a key: by name, or by its number counting from 1. *)
Inductive keycol := ByName (s : bytes) | ByNum (n : N).
Definition keycol_text (c : keycol) : bytes := match c with ByName s => s | ByNum n => print_N n end.
Definition keycol_ok (letter alnum : N -> bool) (c : keycol) : Prop :=
  match c with ByName s => s <> [] /\ well_named letter alnum s | ByNum n => (1 <= n < 2 ^ 64)%N end.
(** A text that is no column: empty, starting with neither a letter nor a digit from 1 to 9, or going on after a name. *)
Definition no_col (letter alnum : N -> bool) (x : bytes) : Prop :=
  match x with
  | [] => True
  | ch :: r => (letter ch = false /\ ~ (49 <= ch <= 57)%N) \/
               (letter ch = true /\ exists s j y, x = s ++ j :: y /\ s <> [] /\ well_named letter alnum s /\ alnum j = false /\ j <> 95%N)
  end.
(** The position, counting from 0, it stands for in a file with these column names: of the first column of that name. *)
Definition stands (c : keycol) (names : list bytes) (i : N) : Prop :=
  match c with
  | ByNum n => i = (n - 1)%N
  | ByName s => nth_error names (N.to_nat i) = Some s /\ forall j, j < N.to_nat i -> nth_error names j <> Some s
  end.

(** What may follow the columns: nothing, a method made of words, or a method and a pattern. *)
Inductive keytail := JustCols | Method (ws : list bytes) | Pattern (ws : list bytes) (pat : bytes).
Definition tail_text (t : keytail) : bytes :=
  match t with
  | JustCols => []
  | Method ws => 44%N :: join 46 ws
  | Pattern ws pat => 44%N :: join 46 ws ++ 44%N :: pat
  end.
Definition tail_words (t : keytail) : list bytes := match t with JustCols => [] | Method ws | Pattern ws _ => ws end.
Definition tail_pattern (t : keytail) : bytes := match t with Pattern _ p => p | _ => [] end.
(** A word holds no separator. *)
Definition word_ok (w : bytes) : Prop := ~ In 46%N w /\ ~ In 44%N w.
Definition tail_ok (t : keytail) : Prop := match t with JustCols => True | Method ws | Pattern ws _ => ws <> [] /\ Forall word_ok ws end.
Definition key_text (cols : list keycol) (t : keytail) : bytes := join 46 (map keycol_text cols) ++ tail_text t.

(** The text of a comparison of plain values: words, and perhaps a pattern. *)
Definition comp_text (ws : list bytes) (p : option bytes) : bytes := join 46 ws ++ match p with Some x => 44%N :: x | None => [] end.

(** The words that say how, not what. *)
Definition modifiers : list bytes := [bs "rev"; bs "strict"; bs "trail"; bs "low"].
Definition modifier (w : bytes) : Prop := exists m, In m modifiers /\ same_but_case w m.
(** The kind of comparison named: the last word that is no modifier; the empty word if there is none. *)
Definition picks (ws : list bytes) (k : bytes) : Prop :=
  (exists a b, ws = a ++ k :: b /\ ~ modifier k /\ Forall modifier b) \/ (Forall modifier ws /\ k = []).
(** The order is turned round. *)
Definition turned (ws : list bytes) : Prop := exists w, In w ws /\ same_but_case w (bs "rev").

(** The kinds by name, in any case, and by their short names. *)
Definition kind_names : list (bytes * cmpr) :=
  [(bs "length", CLen); (bs "ip", CIP); (bs "plain", CPlain); (bs "lower", CLower); (bs "float", CF64); (bs "numeric", CNumeric); (bs "equal", CEqual)].
Definition short_names : list (bytes * cmpr) := [(bs "len", CLen); (bs "num", CNumeric); ([], CPlain)].
Definition kind_of (k : bytes) (c : cmpr) : Prop := (exists n, In (n, c) kind_names /\ same_but_case k n) \/ In (k, c) short_names.
(** No kind of this name. *)
Definition no_kind (k : bytes) : Prop :=
  ~ In k (map fst short_names) /\ forall n, In n (bs "expr" :: bs "random" :: map fst kind_names) -> ~ same_but_case k n.

Definition directed (turn : bool) (c : comparison) : comparison := if turn then CompOpp c else c.
(** The columns of a key serve the files in turn, the last one all further files. *)
Definition for_file (cols : list keycol) (f : nat) : keycol := nth (Nat.min f (List.length cols - 1)) cols (ByNum 1).

(** One key of several: what it says, and what it should mean. *)
Record wanted := mkw_key { wk_cols : list keycol; wk_tail : keytail; wk_kind : bytes; wk_cmp : cmpr; wk_rev : bool; wk_pos : nat -> N }.
Definition wanted_ok (letter alnum : N -> bool) (files : list (list bytes)) (w : wanted) : Prop :=
  wk_cols w <> [] /\ Forall (keycol_ok letter alnum) (wk_cols w) /\ tail_ok (wk_tail w) /\ picks (tail_words (wk_tail w)) (wk_kind w) /\
  kind_of (wk_kind w) (wk_cmp w) /\ (wk_rev w = true <-> turned (tail_words (wk_tail w))) /\
  forall f names, nth_error files f = Some names -> stands (for_file (wk_cols w) f) names (wk_pos w f).
(** The answer of one key for two lists of columns. *)
Definition answers (exp10 : Z -> FloatModel.f64) (f g : nat) (l r : list bytes) (w : wanted) : comparison :=
  directed (wk_rev w) (c_comp exp10 (wk_cmp w) (nth (N.to_nat (wk_pos w f)) l []) (nth (N.to_nat (wk_pos w g)) r [])).
(** The first answer that is not equal decides. *)
Definition decides (l : list comparison) (c : comparison) : Prop :=
  (c = Eq /\ Forall (eq Eq) l) \/ (c <> Eq /\ exists a b, l = a ++ c :: b /\ Forall (eq Eq) a).
