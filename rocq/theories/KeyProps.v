(** C74: what the text of a sort key means. *)
From Coq Require Import String List NArith ZArith Bool Arith Lia.
Open Scope list_scope.
Import ListNotations.
From Verif Require Import Base TextSpec TextModel TextProofs StrSpec StrModel FloatModel ReadModel MatchModel MatchSpec MatchText
  HdrModel HdrSpec CompModel RegModel KeyModel KeySpec KeyProofs.
From Verif Require CompProps ColProps.
Close Scope Z_scope. Open Scope nat_scope.

Notation exp_ex := CompProps.ex10.
(** Nothing outside ASCII is a letter; expressions are not used; for the examples only. *)
Definition none (c : N) : bool := false.
Definition no_expr (t : bytes) : res unit := Err.
Definition no_find (e : unit) (n : list bytes) : res unit := Err.
Definition no_eval (e : unit) (t : textline) : f64 := f_zero.
Definition no_eval_line (e : unit) (t : bytes) (d : byte) : f64 := f_zero.
Notation ex_read := (make_line_comp none none unit no_expr).
Notation ex_lookups := (key_lookups unit no_expr no_find).
Notation ex_line := (key_line unit no_eval no_eval_line f_zero).

(** A key of columns: the last word that is no modifier names the comparison, [rev] turns it round, the columns serve the files in turn,
    and each stands for its column in every file. *)
Theorem c74_compares : forall uni_alpha uni_alnum expr expr_new expr_lookup expr_eval expr_eval_line expr_none exp10 cols t k c files pos,
  cols <> [] -> Forall (keycol_ok (alphabetic uni_alpha) (alphanumeric uni_alnum)) cols -> tail_ok t -> picks (tail_words t) k -> kind_of k c ->
  (forall f names, nth_error files f = Some names -> stands (for_file cols f) names (pos f)) ->
  exists key key' lc rev, make_line_comp uni_alpha uni_alnum expr expr_new (key_text cols t) = Ok key /\
    key_lookups expr expr_new expr_lookup key files 0 = Ok key' /\ key_line expr expr_eval expr_eval_line expr_none key' = Some lc /\
    (rev = true <-> turned (tail_words t)) /\
    (forall f g l r, f < List.length files -> g < List.length files -> ~ In NL l -> ~ In NL r ->
       lc_comp_lines_n exp10 lc (l ++ [NL]) (r ++ [NL]) f g =
       directed rev (c_comp exp10 c (nth (N.to_nat (pos f)) (split_on TAB l) []) (nth (N.to_nat (pos g)) (split_on TAB r) []))) /\
    (forall f g l r, f < List.length files -> g < List.length files ->
       lc_comp_cols_n exp10 lc l r f g = directed rev (c_comp exp10 c (nth (N.to_nat (pos f)) (tl_cols l) []) (nth (N.to_nat (pos g)) (tl_cols r) []))).
Proof. exact compares. Qed.
(** [size.2,Rev.NUMERIC.strict]: column [size] of the first file, the second column of the others, numbers, downwards. *)
Definition ex_cols : list keycol := [ByName (bs "size"); ByNum 2].
Definition ex_tail : keytail := Method [bs "Rev"; bs "NUMERIC"; bs "strict"].
Definition ex_files : list (list bytes) := [[bs "id"; bs "name"; bs "size"]; [bs "id"; bs "size"]; [bs "x"; bs "y"; bs "size"]].
Example c74_text_ex : key_text ex_cols ex_tail = bs "size.2,Rev.NUMERIC.strict".
Proof. reflexivity. Qed.
Lemma ex_cols_ok : Forall (keycol_ok (alphabetic none) (alphanumeric none)) ex_cols.
Proof. repeat constructor; try discriminate. Qed.
Lemma same_refl : forall w, same_but_case w w.
Proof. intros. apply same_case_map. reflexivity. Qed.
Lemma ex_tail_ok : tail_ok ex_tail.
Proof. split; [discriminate|]. repeat constructor; vm_compute; intuition discriminate. Qed.
Lemma not_mod : forall w, existsb (same_word w) modifiers = false -> ~ modifier w.
Proof. intros w E (m & I & S). apply same_word_iff in S. assert (existsb (same_word w) modifiers = true) by (apply existsb_exists; eauto). congruence. Qed.
Lemma is_mod : forall w, existsb (same_word w) modifiers = true -> modifier w.
Proof. intros w E. apply existsb_exists in E as (m & I & S). exists m. split; auto. apply same_word_iff; auto. Qed.
Lemma ex_picks : picks (tail_words ex_tail) (bs "NUMERIC").
Proof. left. exists [bs "Rev"], [bs "strict"]. split; [reflexivity|]. split; [apply not_mod; reflexivity|]. repeat constructor. apply is_mod. reflexivity. Qed.
Lemma ex_kind : kind_of (bs "NUMERIC") CNumeric.
Proof. left. exists (bs "numeric"). split; [cbn; auto 10|]. apply same_case_map. reflexivity. Qed.
Example c74_compares_ex : exists key key' lc, ex_read (bs "size.2,Rev.NUMERIC.strict") = Ok key /\ ex_lookups key ex_files 0 = Ok key' /\ ex_line key' = Some lc /\
  lc_comp_lines_n exp_ex lc (bs "1" ++ TAB :: bs "a" ++ TAB :: bs "9" ++ [NL]) (bs "7" ++ TAB :: bs "10" ++ [NL]) 0 1 = Gt.
Proof.
  destruct (c74_compares none none unit no_expr no_find no_eval no_eval_line f_zero exp_ex ex_cols ex_tail _ _ ex_files (fun f => match f with 0 => 2%N | _ => 1%N end)
    ltac:(discriminate) ex_cols_ok ex_tail_ok ex_picks ex_kind) as (key & key' & lc & rev & A & B & C & R & D & _).
  - intros [|[|[|f]]] names E; [| | |destruct f; discriminate]; injection E as <-; cbn; auto. split; auto. intros [|[|j]] L; try discriminate; lia.
  - exists key, key', lc. split; [exact A|]. split; [exact B|]. split; [exact C|].
    change (bs "1" ++ TAB :: bs "a" ++ TAB :: bs "9" ++ [NL]) with ((bs "1" ++ TAB :: bs "a" ++ TAB :: bs "9") ++ [NL]).
    change (bs "7" ++ TAB :: bs "10" ++ [NL]) with ((bs "7" ++ TAB :: bs "10") ++ [NL]).
    rewrite D; [|cbn; lia|cbn; lia|vm_compute; intuition discriminate|vm_compute; intuition discriminate].
    replace rev with true; [vm_compute; reflexivity|]. symmetry. apply R. exists (bs "Rev"). split; [left; auto|apply same_case_map; reflexivity].
Qed.

(** Several keys: the first that tells the lines apart decides. *)
Theorem c74_keys : forall uni_alpha uni_alnum expr expr_new expr_lookup expr_eval expr_eval_line expr_none exp10 ws files,
  Forall (wanted_ok (alphabetic uni_alpha) (alphanumeric uni_alnum) files) ws ->
  exists ks ks' cs, add_keys uni_alpha uni_alnum expr expr_new (map (fun w => key_text (wk_cols w) (wk_tail w)) ws) = Ok ks /\
    list_lookups expr expr_new expr_lookup ks files 0 = Ok ks' /\ key_lines expr expr_eval expr_eval_line expr_none ks' = Some cs /\
    (forall f g l r, f < List.length files -> g < List.length files -> ~ In NL l -> ~ In NL r ->
       decides (map (answers exp10 f g (split_on TAB l) (split_on TAB r)) ws) (ll_comp_lines_n exp10 cs (l ++ [NL]) (r ++ [NL]) f g)) /\
    (forall f g l r, f < List.length files -> g < List.length files ->
       decides (map (answers exp10 f g (tl_cols l) (tl_cols r)) ws) (ll_comp_cols_n exp10 cs l r f g)).
Proof. exact keys_compare. Qed.
(** [name] and then [size.2,Rev.NUMERIC.strict]. *)
Definition ex_wanted : list wanted :=
  [mkw_key [ByNum 1] JustCols [] CPlain false (fun _ => 0%N);
   mkw_key ex_cols ex_tail (bs "NUMERIC") CNumeric true (fun f => match f with 0 => 2%N | _ => 1%N end)].
Lemma ex_wanted_ok : Forall (wanted_ok (alphabetic none) (alphanumeric none) ex_files) ex_wanted.
Proof.
  constructor; [|constructor; [|constructor]]; repeat split; cbn [wk_cols wk_tail wk_kind wk_cmp wk_rev wk_pos]; try discriminate; try (apply ex_cols_ok); try apply ex_tail_ok; try apply ex_picks; try apply ex_kind.
  - repeat constructor; cbn; lia.
  - right. split; auto. constructor.
  - right. cbn. auto.
  - intros (w & [] & _).
  - intros [|[|[|f]]] names E; try (injection E as <-; reflexivity). destruct f; discriminate.
  - intros _. exists (bs "Rev"). split; [left; auto|apply same_case_map; reflexivity].
  - intros [|[|[|f]]] names E; [| | |destruct f; discriminate]; injection E as <-; cbn; auto. split; auto. intros [|[|j]] L; try discriminate; lia.
Qed.
Example c74_keys_ex : exists ks ks' cs, add_keys none none unit no_expr (map (fun w => key_text (wk_cols w) (wk_tail w)) ex_wanted) = Ok ks /\
  list_lookups unit no_expr no_find ks ex_files 0 = Ok ks' /\ key_lines unit no_eval no_eval_line f_zero ks' = Some cs /\
  ll_comp_lines_n exp_ex cs (bs "1" ++ TAB :: bs "a" ++ TAB :: bs "9" ++ [NL]) (bs "1" ++ TAB :: bs "10" ++ [NL]) 0 1 = Gt.
Proof. do 3 eexists. split; [reflexivity|]. split; [reflexivity|]. split; [reflexivity|]. vm_compute. reflexivity. Qed.

(** Without columns the whole line is compared; no lookup changes that. *)
Theorem c74_whole : forall uni_alpha uni_alnum expr expr_new expr_lookup expr_eval expr_eval_line expr_none exp10 t k c files,
  tail_ok t -> picks (tail_words t) k -> kind_of k c ->
  exists key lc rev, make_line_comp uni_alpha uni_alnum expr expr_new (tail_text t) = Ok key /\ key_lookups expr expr_new expr_lookup key files 0 = Ok key /\
    key_line expr expr_eval expr_eval_line expr_none key = Some lc /\ (rev = true <-> turned (tail_words t)) /\
    (forall f g l r, lc_comp_lines_n exp10 lc l r f g = directed rev (c_comp exp10 c l r)) /\
    (forall f g l r, lc_comp_cols_n exp10 lc l r f g = directed rev (c_comp exp10 c (tl_text l) (tl_text r))).
Proof. exact compares_whole. Qed.
Example c74_whole_ex : exists key lc, ex_read (bs ",rev.len") = Ok key /\ ex_line key = Some lc /\ lc_comp_lines_n exp_ex lc (bs "zz") (bs "aaa") 0 0 = Gt.
Proof. do 2 eexists. split; [reflexivity|]. split; [reflexivity|]. vm_compute. reflexivity. Qed.

(** The same words make a comparison of plain values; a pattern changes nothing. *)
Theorem c74_values : forall ws p k c, ws <> [] -> Forall word_ok ws -> picks ws k -> kind_of k c ->
  exists rev, (rev = true <-> turned ws) /\ make_comp (comp_text ws p) = Ok (rev, MCmp c).
Proof. exact comp_reads. Qed.
Example c74_values_ex : make_comp (bs "IP.REV,what ever") = Ok (true, MCmp CIP).
Proof. reflexivity. Qed.

(** Every list of words names exactly one kind. *)
Theorem c74_one_kind : forall ws, exists k, picks ws k /\ forall k2, picks ws k2 -> k2 = k.
Proof. intros ws. destruct (picks_one ws) as (k & K). exists k. split; auto. intros k2 K2. exact (picks_unique ws k2 k K2 K). Qed.
Example c74_one_kind_ex : picks [bs "len"; bs "rev"; bs "num"; bs "low"] (bs "num").
Proof. left. exists [bs "len"; bs "rev"], [bs "low"]. split; [reflexivity|]. split; [apply not_mod; reflexivity|]. repeat constructor. apply is_mod. reflexivity. Qed.

(** A kind that is not known is refused, whatever the columns say, and so is a comparison of values of that kind. *)
Theorem c74_unknown : forall uni_alpha uni_alnum expr expr_new cols t k, ~ In 44%N cols -> tail_ok t -> picks (tail_words t) k -> no_kind k ->
  make_line_comp uni_alpha uni_alnum expr expr_new (cols ++ tail_text t) = Err.
Proof. exact unknown_key. Qed.
Theorem c74_unknown_values : forall ws p k, ws <> [] -> Forall word_ok ws -> picks ws k -> no_kind k -> make_comp (comp_text ws p) = Err.
Proof. exact comp_unknown. Qed.
Lemma no_kind_ex : no_kind (bs "numerical").
Proof.
  split; [vm_compute; intuition discriminate|]. intros n I S. apply same_case_map in S. cbn [In map fst kind_names] in I.
  repeat (destruct I as [<-|I]; [discriminate S|]). destruct I.
Qed.
Example c74_unknown_ex : ex_read (bs "1,numerical") = Err /\ make_comp (bs "numerical.rev") = Err.
Proof. split; reflexivity. Qed.

(** A text that is no column is refused. *)
Theorem c74_bad_column : forall uni_alpha uni_alnum expr expr_new a x b t k c,
  Forall (keycol_ok (alphabetic uni_alpha) (alphanumeric uni_alnum)) a -> no_col (alphabetic uni_alpha) (alphanumeric uni_alnum) x -> Forall word_ok (x :: b) ->
  (a <> [] \/ x <> [] \/ b <> []) -> tail_ok t -> picks (tail_words t) k -> kind_of k c ->
  make_line_comp uni_alpha uni_alnum expr expr_new (join 46 (map keycol_text a ++ x :: b) ++ tail_text t) = Err.
Proof. exact bad_column. Qed.
Example c74_bad_column_ex : ex_read (bs "a..b,num") = Err /\ ex_read (bs "0") = Err /\ ex_read (bs "a-b") = Err /\ ex_read (bs "2.") = Err /\
  no_col (alphabetic none) (alphanumeric none) (bs "a-b").
Proof.
  repeat split. right. split; [reflexivity|]. exists (bs "a"), 45%N, (bs "b"). split; [reflexivity|]. split; [discriminate|]. split; [|split; [reflexivity|discriminate]].
  split; [reflexivity|constructor].
Qed.

(** A name that a file lacks is refused when the file is looked up. *)
Theorem c74_missing : forall uni_alpha uni_alnum expr expr_new expr_lookup cols t k c files f names s,
  cols <> [] -> Forall (keycol_ok (alphabetic uni_alpha) (alphanumeric uni_alnum)) cols -> tail_ok t -> picks (tail_words t) k -> kind_of k c ->
  nth_error files f = Some names -> for_file cols f = ByName s -> ~ In s names ->
  (forall g ns, g < f -> nth_error files g = Some ns -> exists i, stands (for_file cols g) ns i) ->
  exists key, make_line_comp uni_alpha uni_alnum expr expr_new (key_text cols t) = Ok key /\ key_lookups expr expr_new expr_lookup key files 0 = Err.
Proof. exact missing. Qed.
Example c74_missing_ex : exists key, ex_read (bs "1.size") = Ok key /\ ex_lookups key [[bs "id"]; [bs "id"; bs "size"]; [bs "id"; bs "Size"]] 0 = Err.
Proof. eexists. split; reflexivity. Qed.

(** An expression: the columns are not read, the pattern is the expression. *)
Theorem c74_expression : forall uni_alpha uni_alnum expr expr_new cols t k, ~ In 44%N cols -> tail_ok t -> picks (tail_words t) k -> same_but_case k (bs "expr") ->
  exists rev, (rev = true <-> turned (tail_words t)) /\
  make_line_comp uni_alpha uni_alnum expr expr_new (cols ++ tail_text t) =
  rbind (expr_new (tail_pattern t)) (fun e => Ok (mkkey rev (KExpr (tail_pattern t) [e]))).
Proof. exact expr_key. Qed.
Example c74_expression_ex : make_line_comp none none bytes (fun t => Ok t) (bs "..,EXPR.rev,a+b,c") = Ok (mkkey true (KExpr (bs "a+b,c") [bs "a+b,c"])).
Proof. reflexivity. Qed.

(** Short names are not read in any case, though long names are. *)
Theorem c74_short_case_refuted : exists a b, same_but_case a b /\ (exists k, make_comp a = Ok k) /\ make_comp b = Err /\ kind_of a CNumeric.
Proof.
  exists (bs "num"), (bs "NUM"). split; [apply same_case_map; reflexivity|]. split; [eexists; reflexivity|]. split; [reflexivity|]. right. cbn. auto.
Qed.
(** [strict], [trail] and [low] change nothing: the method made is the same with and without. *)
Theorem c74_junk_refuted : exists l r, l <> r /\ forall w, In w [bs "strict"; bs "trail"; bs "low"] ->
  make_comp (bs "float." ++ w) = make_comp (bs "float") /\ make_comp (bs "float") = Ok (false, MCmp CF64) /\ c_comp exp_ex CF64 l r = Eq.
Proof.
  exists (bs "12x"), (bs "12!"). split; [discriminate|]. intros w I. cbn [In] in I. destruct I as [<-|[<-|[<-|[]]]]; (split; [|split]); vm_compute; reflexivity.
Qed.
(** A column counted from the end, [+1], is refused. *)
Theorem c74_from_end_refuted : exists s, s = bs "+1,num" /\ ex_read s = Err.
Proof. exists (bs "+1,num"). split; reflexivity. Qed.
(** A letter after the number multiplies it: [2k] is column 2000, not an error. *)
Theorem c74_suffix_refuted : exists key, ex_read (bs "2k") = Ok key /\ k_cmp key = KCol [mknc [] 1999 0] (MCmp CPlain).
Proof. eexists. split; reflexivity. Qed.
(** A number that wraps to 0 panics where overflow is checked. *)
Theorem c74_wrap_refuted : exists s, ex_read s = Panic /\ s = print_N (2 ^ 64).
Proof. exists (print_N (2 ^ 64)). split; vm_compute; reflexivity. Qed.
(** A key of names that was never looked up compares the first column. *)
Theorem c74_unlooked_refuted : exists key lc, ex_read (bs "size,num") = Ok key /\ ex_line key = Some lc /\
  lc_comp_lines_n exp_ex lc (bs "1" ++ TAB :: bs "9" ++ [NL]) (bs "2" ++ TAB :: bs "3" ++ [NL]) 0 0 = Lt /\
  c_comp exp_ex CNumeric (bs "9") (bs "3") = Gt.
Proof. do 2 eexists. split; [reflexivity|]. split; [reflexivity|]. split; vm_compute; reflexivity. Qed.
(** Whole lines are compared with their line ends, so a line comes after one that goes on with a TAB. *)
Theorem c74_line_end_refuted : exists key lc a b, ex_read [] = Ok key /\ ex_line key = Some lc /\ c_comp exp_ex CPlain a b = Lt /\
  lc_comp_lines_n exp_ex lc (a ++ [NL]) (b ++ [NL]) 0 0 = Gt.
Proof. do 2 eexists. exists (bs "a"), (bs "a" ++ TAB :: bs "b"). split; [reflexivity|]. split; [reflexivity|]. split; vm_compute; reflexivity. Qed.
