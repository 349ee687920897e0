(** What the uniq tool should do, independent of how it does it. *)
From Coq Require Import String List NArith ZArith Bool Arith.
Open Scope list_scope.
Import ListNotations.
From Verif Require Import Base TextSpec StrSpec MatchSpec FloatModel KeySpec OrderSpec UniqModel UniqSpec AggModel.
Close Scope Z_scope. Open Scope nat_scope.

(** The columns of a line, whose last byte is the line end. *)
Definition parted (d : N) (l : bytes) : list bytes := split_on d (removelast l).
(** Lines are alike if all keys agree; with the empty key if they are the same. *)
Definition alike (exp10 : Z -> f64) (d : N) (ws : list wanted) (a b : bytes) : bool :=
  match shown_order exp10 (parted d) ws a b with Eq => true | _ => false end.
Definition key_texts (ws : list wanted) : list bytes := match ws with [] => [[]] | _ => map text_of_key ws end.

(** What --which says: one of four words, and perhaps a key. *)
Definition pick := (bytes * option wanted)%type.
Definition pick_text (p : pick) : bytes := match snd p with None => fst p | Some w => fst p ++ 44%N :: text_of_key w end.
Definition pick_words : list (bytes * which) := [(bs "first", First); (bs "last", Last); (bs "min", Min); (bs "max", Max)].
Definition pick_means (p : pick) (w : which) : Prop := ~ In 44%N (fst p) /\ exists n, In (n, w) pick_words /\ same_but_case (fst p) n.
Definition pick_keys (p : pick) : list wanted := match snd p with None => [] | Some w => [w] end.

(** What --count says: the name of the column, and perhaps its place. *)
Definition place_words : list (bytes * count_pos) :=
  [(bs "begin", CBegin); (bs "start", CBegin); (bs "first", CBegin); (bs "stop", CEnd); (bs "end", CEnd); (bs "last", CEnd)].
Definition place_means (w : bytes) (p : count_pos) : Prop := (w = [] /\ p = CBegin) \/ exists n, In (n, p) place_words /\ same_but_case w n.
Definition or_named (n : bytes) : bytes := match n with [] => bs "count" | _ => n end.
Inductive count_says : bytes -> bytes * count_pos -> Prop :=
| says_name n : ~ In 44%N n -> count_says n (or_named n, CBegin)
| says_place n w p : ~ In 44%N n -> place_means w p -> count_says (n ++ 44%N :: w) (or_named n, p).
(** The names with that of the count. *)
Definition counted_names (c : bytes * count_pos) (names : list bytes) : list bytes :=
  match snd c with CNone => names | CBegin => fst c :: names | CEnd => names ++ [fst c] end.

(** Aggregates asked for: where they go, the column, the aggregator, and the number of the column from 0. *)
Record aggreq (C : Type) := mkreq { rq_place : place; rq_col : C; rq_agg : bytes; rq_at : nat }.
Arguments mkreq {C}. Arguments rq_place {C}. Arguments rq_col {C}. Arguments rq_agg {C}. Arguments rq_at {C}.
Definition agg_names : list bytes := [bs "agg"; bs "agg-pre"; bs "agg-post"].
Definition req_option {C} (text : C -> bytes) (q : aggreq C) : bytes * bytes :=
  let t := text (rq_col q) ++ 44%N :: rq_agg q in
  match rq_place q with Replace => (bs "agg", t) | Prefix n => (bs "agg-pre", n ++ 44%N :: t) | Append n => (bs "agg-post", n ++ 44%N :: t) end.
Inductive agg_options {C} (text : C -> bytes) : list (bytes * bytes) -> list (aggreq C) -> Prop :=
| ao_nil : agg_options text [] []
| ao_this q args qs : agg_options text args qs -> agg_options text (req_option text q :: args) (q :: qs)
| ao_other m v args qs : ~ In m agg_names -> agg_options text args qs -> agg_options text ((m, v) :: args) qs.
Definition before {C} (q : aggreq C) : bool := match rq_place q with Prefix _ => true | _ => false end.
Definition behind {C} (q : aggreq C) : bool := match rq_place q with Append _ => true | _ => false end.
Definition instead {C} (i : nat) (q : aggreq C) : bool := match rq_place q with Replace => rq_at q =? i | _ => false end.
Definition req_title {C} (q : aggreq C) : bytes := match rq_place q with Prefix n | Append n => n | Replace => [] end.
(** With the count as one more of them. *)
Definition counted_reqs {C} (first : C) (c : bytes * count_pos) (qs : list (aggreq C)) : list (aggreq C) :=
  match snd c with
  | CNone => qs
  | CBegin => mkreq (Prefix (fst c)) first (bs "count") 0 :: qs
  | CEnd => qs ++ [mkreq (Append (fst c)) first (bs "count") 0]
  end.
(** The row for the lines [r] kept as line [x], [val q r] relating an aggregate to its text. *)
Definition agg_row {C} (val : aggreq C -> list bytes -> bytes -> Prop) (d od : N) (n : nat) (qs : list (aggreq C)) (r : list bytes) (x row : bytes) : Prop :=
  exists pre mid post, row = join od (pre ++ mid ++ post) ++ [NL] /\
    Forall2 (fun q v => val q r v) (filter before qs) pre /\ Forall2 (fun q v => val q r v) (filter behind qs) post /\
    Forall2 (fun i v => match find (instead i) qs with Some q => val q r v | None => v = nth i (parted d x) [] end) (seq 0 n) mid.
Definition row_names {C} (qs : list (aggreq C)) (names : list bytes) : list bytes :=
  map req_title (filter before qs) ++ names ++ map req_title (filter behind qs).
(** The header line. *)
Definition head_line (cdx : bool) (d : N) (names : list bytes) : bytes := (if cdx then bs " CDX" ++ [d] else []) ++ join d names ++ [NL].

Definition uniq_known (args : list (bytes * bytes)) : Prop := Forall (fun a => In (fst a) (bs "key" :: bs "count" :: bs "which" :: agg_names)) args.
