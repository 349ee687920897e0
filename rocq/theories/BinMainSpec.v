(** What the binsearch tool should do, independent of how it does it. *)
From Coq Require Import String List NArith ZArith Bool Arith.
Open Scope list_scope.
Import ListNotations.
From Verif Require Import Base TextSpec StrSpec FloatModel CompModel SortSpec KeySpec OrderSpec BinModel BinSpec.
Close Scope Z_scope. Open Scope nat_scope.

(** Lines of context: so many before and after a match, and so many before and after the place where a match would have been. *)
Inductive ctx_piece := Alike (n : N) | Differ (yes no : N).
Inductive ctx_spec := BothSides (p : ctx_piece) | Sides (p q : ctx_piece).
Definition piece_text (p : ctx_piece) : bytes := match p with Alike n => print_N n | Differ y n => print_N y ++ 46%N :: print_N n end.
Definition ctx_text (c : ctx_spec) : bytes := match c with BothSides p => piece_text p | Sides p q => piece_text p ++ 44%N :: piece_text q end.
Definition piece_small (p : ctx_piece) : Prop := match p with Alike n => (n < 2 ^ 64)%N | Differ y n => (y < 2 ^ 64)%N /\ (n < 2 ^ 64)%N end.
Definition ctx_small (c : ctx_spec) : Prop := match c with BothSides p => piece_small p | Sides p q => piece_small p /\ piece_small q end.
Definition piece_yes (p : ctx_piece) : N := match p with Alike n => n | Differ y _ => y end.
Definition piece_no (p : ctx_piece) : N := match p with Alike n => n | Differ _ n => n end.
Definition ctx_before (c : ctx_spec) : ctx_piece := match c with BothSides p => p | Sides p _ => p end.
Definition ctx_after (c : ctx_spec) : ctx_piece := match c with BothSides p => p | Sides _ q => q end.
Definition no_context : ctx_spec := BothSides (Alike 0).
(** How many lines before and after, when something was found or not. *)
Definition lines_before (c : ctx_spec) (hit : bool) : nat := N.to_nat ((if hit then piece_yes else piece_no) (ctx_before c)).
Definition lines_after (c : ctx_spec) (hit : bool) : nat := N.to_nat ((if hit then piece_yes else piece_no) (ctx_after c)).

(** The file name as a column: its name, and how many parts of the path are shown. *)
Inductive fname_spec := NamedParts (s : bytes) (n : N) | OnlyParts (n : N) | OnlyName (s : bytes).
Definition fname_text (f : fname_spec) : bytes := match f with NamedParts s n => s ++ 58%N :: print_N n | OnlyParts n => print_N n | OnlyName s => s end.
Definition fname_fit (f : fname_spec) : Prop :=
  match f with
  | NamedParts s n => ~ In 58%N s /\ (n < 2 ^ 64)%N
  | OnlyParts n => (n < 2 ^ 64)%N
  | OnlyName s => ~ In 58%N s /\ match s with [] => True | ch :: _ => ~ (48 <= ch <= 57)%N end
  end.
Definition fname_col (f : fname_spec) : bytes := match f with NamedParts s _ | OnlyName s => s | OnlyParts _ => [] end.
Definition fname_parts (f : fname_spec) : nat := match f with NamedParts _ n | OnlyParts n => N.to_nat n | OnlyName _ => 0 end.
(** What stands in front of the lines of a file. *)
Definition in_front (f : option fname_spec) (path : bytes) : option bytes :=
  match f with Some f => Some (join 47 (lastn (fname_parts f) (split_on 47 path))) | None => None end.

(** The options used here. *)
Definition bin_options : list bytes := [bs "key"; bs "filename"; bs "context"; bs "pattern"].
(** Without a key: the first column, as it is. *)
Definition first_column : wanted := mkw_key [ByNum 1] JustCols [] CPlain false (fun _ => 0%N).
Definition keys_used (ws : list wanted) : list wanted := match ws with [] => [first_column] | _ => ws end.
(** The value for each key: the pattern itself for one key, else the parts of the pattern between commas. *)
Definition values_of (ws : list wanted) (pat : bytes) (vs : list bytes) : Prop :=
  List.length vs = List.length ws /\
  match ws with [_] => vs = [pat] | _ => vs <> [] /\ pat = join 44 vs /\ Forall (fun v => ~ In 44%N v) vs end.

(** A line without its newline, which the last line may lack. *)
Definition bare (l : bytes) : bytes := if (last l 0 =? NL)%N then removelast l else l.
Definition line_cols (l : bytes) : list bytes := split_on TAB (bare l).
(** The values against a line of file [f]: the first that differs decides. *)
Definition value_order (exp10 : Z -> f64) (f : nat) (ws : list wanted) (vs : list bytes) (l : bytes) : comparison :=
  first_answer (map (fun wv => directed (wk_rev (fst wv)) (c_comp exp10 (wk_cmp (fst wv)) (snd wv) (nth (N.to_nat (wk_pos (fst wv) f)) (line_cols l) []))) (combine ws vs)).
(** Two lines of file [f] by the same keys. *)
Definition file_order (exp10 : Z -> f64) (f : nat) (ws : list wanted) (a b : bytes) : comparison :=
  first_answer (map (answers exp10 f f (line_cols a) (line_cols b)) ws).

(** What is found among the lines: those equal to the values, with lines of context. The lines below the values come first, those above last. *)
Definition found (c : bytes -> comparison) (ctx : ctx_spec) (ls out : list bytes) : Prop :=
  exists lo m hi, ls = lo ++ m ++ hi /\ Forall (fun l => c l = Gt) lo /\ Forall (fun l => c l = Eq) m /\ Forall (fun l => c l = Lt) hi /\
    let hit := match m with [] => false | _ => true end in
    out = lastn (lines_before ctx hit) lo ++ m ++ firstn (lines_after ctx hit) hi.

(** A file: its path, the names of its columns, whether they stand in a header, and its content. *)
Record bfile := mkbf { bf_path : bytes; bf_head : bool; bf_names : list bytes; bf_data : bytes }.
Definition made_up (n : nat) : list bytes := map (fun i => bs "c" ++ print_N (N.of_nat i)) (seq 1 n).
Definition bfile_ok (utf8_ok : bytes -> bool) (b : bfile) : Prop :=
  last (bf_path b) 0%N <> 47%N /\
  if bf_head b
  then (exists body, bf_data b = headline (bf_names b) ++ body) /\ utf8_ok (headline (bf_names b)) = true /\ bf_names b <> [] /\
       Forall (fun x => ~ In TAB x /\ ~ In NL x) (bf_names b)
  else firstn 4 (bf_data b) <> bs " CDX" /\ bf_names b = made_up (List.length (line_cols (hd [] (cut_lines (bf_data b))))).
(** Where the first column of each key is in this file. *)
Definition placed_in (ws : list wanted) (f : nat) (b : bfile) : Prop := Forall (fun w => stands (for_file (wk_cols w) 0) (bf_names b) (wk_pos w f)) ws.
(** Lengths compare as they should, blank lines are not above the values, and with context before a missing value beyond the last line that
    line is complete. *)
Definition searchable (exp10 : Z -> f64) (ctx : ctx_spec) (ws : list wanted) (vs : list bytes) (f : nat) (b : bfile) : Prop :=
  (Exists (fun w => wk_cmp w = CLen) ws -> (N.of_nat (List.length (bf_data b)) < 2 ^ 32)%N /\ Forall (fun v => N.of_nat (List.length v) < 2 ^ 32)%N vs) /\
  (In [NL] (cut_lines (bf_data b)) -> value_order exp10 f ws vs [NL] <> Lt) /\
  (Exists (fun l => value_order exp10 f ws vs l <> Gt) (cut_lines (bf_data b)) \/ last (bf_data b) 0%N = NL \/ piece_no (ctx_before ctx) = 0%N).
(** The header that goes with a file: with the name of the column in front. *)
Definition new_headline (f : option fname_spec) (b : bfile) : bytes :=
  if bf_head b then headline (match f with Some f => fname_col f :: bf_names b | None => bf_names b end) else [].
(** File by file, counted from [n]. *)
Inductive each (P : nat -> bfile -> list bytes -> Prop) : nat -> list bfile -> list (list bytes) -> Prop :=
| each_nil n : each P n [] []
| each_cons n b bfs o outs : P n b o -> each P (S n) bfs outs -> each P n (b :: bfs) (o :: outs).
Definition search_of (exp10 : Z -> f64) (utf8_ok : bytes -> bool) (ctx : ctx_spec) (ws : list wanted) (vs : list bytes) (f : nat) (b : bfile) (out : list bytes) : Prop :=
  bfile_ok utf8_ok b /\ placed_in ws f b /\ searchable exp10 ctx ws vs f b /\ found (value_order exp10 f ws vs) ctx (cut_lines (bf_data b)) out.
(** The lines found in the files, one file after the other. *)
Definition all_shown (fs : option fname_spec) (bfs : list bfile) (outs : list (list bytes)) : bytes :=
  concat (map (fun bo => shown (in_front fs (bf_path (fst bo))) (snd bo)) (combine bfs outs)).
(** The options: keys, at most one file name column, contexts and patterns of which the last count. *)
Definition bin_says (letter alnum : N -> bool) (args : list (bytes * bytes)) (ws : list wanted) (fs : option fname_spec) (ctx : ctx_spec) (pat : bytes) : Prop :=
  Forall (fun a => In (fst a) bin_options) args /\
  values (bs "key") args (map text_of_key ws) /\ Forall (wanted_ok letter alnum []) ws /\
  values (bs "filename") args (match fs with Some f => [fname_text f] | None => [] end) /\ match fs with Some f => fname_fit f | None => True end /\
  (exists cs, values (bs "context") args (map ctx_text cs) /\ Forall ctx_small cs /\ ctx = last cs no_context) /\
  (exists ps, values (bs "pattern") args ps /\ ps <> [] /\ pat = last ps []).
(** A file with a header that is below the values, and then lines in the order of the keys: the lines equal to the values. *)
Definition sorted_search (exp10 : Z -> f64) (utf8_ok : bytes -> bool) (ws : list wanted) (vs : list bytes) (f : nat) (b : bfile) (out : list bytes) : Prop :=
  bfile_ok utf8_ok b /\ placed_in ws f b /\
  (Exists (fun w => wk_cmp w = CLen) ws -> (N.of_nat (List.length (bf_data b)) < 2 ^ 32)%N /\ Forall (fun v => N.of_nat (List.length v) < 2 ^ 32)%N vs) /\
  exists body, bf_data b = headline (bf_names b) ++ body /\ value_order exp10 f ws vs (headline (bf_names b)) = Gt /\
    SortSpec.sorted (file_order exp10 f ws) (cut_lines body) /\ (In [NL] (cut_lines body) -> value_order exp10 f ws vs [NL] <> Lt) /\
    out = filter (fun l => match value_order exp10 f ws vs l with Eq => true | _ => false end) (cut_lines body).
