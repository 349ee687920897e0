(** C75: the sort tool. *)
From Coq Require Import String List NArith ZArith Bool Arith Lia Sorting.Permutation Sorting.Sorted.
Open Scope list_scope.
Import ListNotations.
From Verif Require Import Base TextModel TextSpec StrModel FloatModel MatchModel MatchSpec MatchText ReadModel ReadSpec HeadModel HdrModel HdrProofs CompSpec LineSpec CompModel CompProofs LineProofs
  SortSpec SortModel SortProofs HeapProofs CompProps ReadProofs ToolModel ToolOpen PasteSpec PasteProofs TurnProofs KeyModel KeySpec KeyProofs KeyProps
  OrderModel OrderSpec OrderSame OrderProofs OrderTool.
From Verif Require SortProps.
Close Scope Z_scope. Open Scope nat_scope.

(** Several files with the same header, keys by name or by number: the header once, then the lines in the order of the keys, of every group one with
    unique. If all lines fit into the buffer, ties keep their order and unique keeps the first. *)
Theorem c75_named : forall utf8_ok name_ok uni_alpha uni_alnum expr expr_new expr_lookup expr_eval expr_eval_line expr_none exp10 cap size md args ws names fs bodies,
  known args -> ~ given (bs "merge") args -> ~ given (bs "check") args -> ~ given (bs "Check") args ->
  values (bs "key") args (map text_of_key ws) -> Forall (wanted_ok (alphabetic uni_alpha) (alphanumeric uni_alnum) [names]) ws ->
  Forall (fun w => plain_kind (wk_cmp w)) ws -> first_forward ws ->
  (N.of_nat cap < 2 ^ 31)%N -> 0 < cap -> 0 < size -> names_fit utf8_ok name_ok names -> fs <> [] ->
  Forall2 (fun f b => content (fst f) = headline names ++ concat b) fs bodies -> lines_fit cap (concat bodies) ->
  exists out, sort_main utf8_ok name_ok uni_alpha uni_alnum expr expr_new expr_lookup expr_eval expr_eval_line expr_none exp10 bh_push bh_pop cap size md args fs =
      (headline names ++ concat out, Ok tt) /\
    result_of (by_fields exp10 ws) (given (bs "unique") args) (concat bodies) out /\
    (List.length (concat (concat bodies)) < cap -> exact_of (by_fields exp10 ws) (given (bs "unique") args) (concat bodies) out).
Proof. exact sorts_headed. Qed.

(** For the examples: all text is valid, no expressions, a small buffer. *)
Definition yes (t : bytes) : bool := true.
Definition ex_main (cap : nat) := sort_main yes yes none none unit no_expr no_find no_eval no_eval_line f_zero exp_ex bh_push bh_pop cap 7.
Definition ex_mode : tmode := mkmode HYes QPlain TAB NL.
Definition ex_names : list bytes := [bs "id"; bs "name"].
Definition ln (a b : string) : bytes := bs a ++ TAB :: bs b ++ [NL].
Definition ex_file (ls : list bytes) : src * list nat := (mksrc [] [headline ex_names ++ concat ls], [3; 1; 5]).
Definition ex_bodies : list (list bytes) := [[ln "1" "pear"; ln "2" "apple"]; [ln "3" "fig"; ln "4" "Apple"; ln "5" "fig"]].
Definition by_name : wanted := mkw_key [ByName (bs "name")] (Method [bs "lower"]) (bs "lower") CLower false (fun _ => 1%N).
Definition by_second : wanted := mkw_key [ByNum 2] (Method [bs "lower"]) (bs "lower") CLower false (fun _ => 1%N).
Definition by_first : wanted := mkw_key [ByNum 1] JustCols [] CPlain false (fun _ => 0%N).
Lemma by_name_ok : wanted_ok (alphabetic none) (alphanumeric none) [ex_names] by_name.
Proof.
  repeat split; cbn [wk_cols wk_tail wk_kind wk_cmp wk_rev wk_pos]; try discriminate.
  - repeat constructor; try discriminate.
  - repeat constructor; vm_compute; intuition discriminate.
  - left. exists [], []. split; [reflexivity|]. split; [apply not_mod; reflexivity|constructor].
  - left. exists (bs "lower"). split; [cbn; auto 10|apply same_refl].
  - intros (w & [<-|[]] & H). apply same_word_iff in H. discriminate H.
  - intros f ns E. destruct f as [|f]; [|destruct f; discriminate E]. injection E as <-. split; [reflexivity|]. intros [|j] L; [discriminate|cbn in L; lia].
Qed.
Lemma by_second_ok : wanted_ok (alphabetic none) (alphanumeric none) [[]] by_second.
Proof.
  repeat split; cbn [wk_cols wk_tail wk_kind wk_cmp wk_rev wk_pos]; try discriminate.
  - repeat constructor; cbn; lia.
  - repeat constructor; vm_compute; intuition discriminate.
  - left. exists [], []. split; [reflexivity|]. split; [apply not_mod; reflexivity|constructor].
  - left. exists (bs "lower"). split; [cbn; auto 10|apply same_refl].
  - intros (w & [<-|[]] & H). apply same_word_iff in H. discriminate H.
  - intros f ns E. destruct f as [|f]; [|destruct f; discriminate E]. injection E as <-. reflexivity.
Qed.
Lemma ex_names_fit : names_fit yes yes ex_names.
Proof. split; [discriminate|]. split; [reflexivity|]. repeat constructor; try discriminate; vm_compute; intuition discriminate. Qed.
Lemma fit_dec : forall cap ls, forallb (fun l => (last l 0%N =? NL)%N && negb (existsb (N.eqb NL) (removelast l)) && forallb (fun c => (0 <? c) && (c <? 256))%N l && (List.length l <? cap) && negb (beq (firstn 4 l) (bs " CDX"))) ls = true ->
  lines_fit cap ls.
Proof.
  intros cap ls H. apply Forall_forall. intros l I. rewrite forallb_forall in H. specialize (H l I). rewrite !andb_true_iff in H. destruct H as ((((H1 & H2) & H3) & H4) & H5).
  assert (N : l <> []) by (intros ->; discriminate H1). apply N.eqb_eq in H1. split; [|split; [|split]].
  - exists (removelast l). split; [rewrite <- H1; apply app_removelast_last; auto|]. intros J. apply negb_true_iff in H2. assert (existsb (N.eqb NL) (removelast l) = true) by (apply existsb_exists; exists NL; split; auto). congruence.
  - apply Forall_forall. intros c J. rewrite forallb_forall in H3. specialize (H3 c J). apply andb_prop in H3 as [X Y]. apply N.ltb_lt in X, Y. split; auto.
  - apply Nat.ltb_lt; auto.
  - intros X. rewrite X in H5. discriminate H5.
Qed.
Definition ex_args : list (bytes * bytes) := [(bs "key", bs "name,lower"); (bs "unique", [])].
(** Two files; with a buffer of 20 bytes the lines go through temporary files. *)
Example c75_named_ex : known ex_args /\ values (bs "key") ex_args (map text_of_key [by_name]) /\ given (bs "unique") ex_args /\ ~ given (bs "merge") ex_args /\
  Forall2 (fun f b => content (fst f) = headline ex_names ++ concat b) (map ex_file ex_bodies) ex_bodies /\ lines_fit 20 (concat ex_bodies) /\
  ex_main 20 ex_mode ex_args (map ex_file ex_bodies) = (headline ex_names ++ ln "2" "apple" ++ ln "3" "fig" ++ ln "1" "pear", Ok tt) /\
  ex_main 20 ex_mode [(bs "key", bs "name,lower"); (bs "key", bs "1")] (map ex_file ex_bodies) =
    (headline ex_names ++ ln "2" "apple" ++ ln "4" "Apple" ++ ln "3" "fig" ++ ln "5" "fig" ++ ln "1" "pear", Ok tt).
Proof.
  split; [repeat (constructor; [cbn; auto 10|]); constructor|]. split; [apply (val_this (bs "key") (bs "name,lower")); constructor; [discriminate|constructor]|]. split; [exists []; cbn; auto|].
  split; [intros (v & [H|[H|[]]]); discriminate H|]. split; [repeat constructor|]. split; [apply fit_dec; reflexivity|]. split; vm_compute; reflexivity.
Qed.

(** Keys by number, or no key: the same. *)
Theorem c75_sorts : forall utf8_ok name_ok uni_alpha uni_alnum expr expr_new expr_lookup expr_eval expr_eval_line expr_none exp10 cap size md args ws names fs bodies,
  known args -> ~ given (bs "merge") args -> ~ given (bs "check") args -> ~ given (bs "Check") args ->
  values (bs "key") args (map text_of_key ws) -> Forall (wanted_ok (alphabetic uni_alpha) (alphanumeric uni_alnum) [[]]) ws ->
  Forall (fun w => plain_kind (wk_cmp w)) ws -> starts_forward ws ->
  (N.of_nat cap < 2 ^ 31)%N -> 0 < cap -> 0 < size -> names_fit utf8_ok name_ok names -> fs <> [] ->
  Forall2 (fun f b => content (fst f) = headline names ++ concat b) fs bodies -> lines_fit cap (concat bodies) ->
  exists out, sort_main utf8_ok name_ok uni_alpha uni_alnum expr expr_new expr_lookup expr_eval expr_eval_line expr_none exp10 bh_push bh_pop cap size md args fs =
      (headline names ++ concat out, Ok tt) /\
    result_of (line_order exp10 ws) (given (bs "unique") args) (concat bodies) out /\
    (List.length (concat (concat bodies)) < cap -> exact_of (line_order exp10 ws) (given (bs "unique") args) (concat bodies) out).
Proof. exact sorts_numbered. Qed.
Example c75_sorts_ex : wanted_ok (alphabetic none) (alphanumeric none) [[]] by_second /\ text_of_key by_second = bs "2,lower" /\
  ex_main 200 ex_mode [(bs "key", bs "2,lower")] (map ex_file ex_bodies) =
    (headline ex_names ++ ln "2" "apple" ++ ln "4" "Apple" ++ ln "3" "fig" ++ ln "5" "fig" ++ ln "1" "pear", Ok tt).
Proof. split; [exact by_second_ok|]. split; [reflexivity|vm_compute; reflexivity]. Qed.

(** One file without header, whose last line may be unfinished. *)
Theorem c75_plain : forall utf8_ok name_ok uni_alpha uni_alnum expr expr_new expr_lookup expr_eval expr_eval_line expr_none exp10 cap size md args ws s sched ls,
  known args -> ~ given (bs "merge") args -> ~ given (bs "check") args -> ~ given (bs "Check") args ->
  values (bs "key") args (map text_of_key ws) -> Forall (wanted_ok (alphabetic uni_alpha) (alphanumeric uni_alnum) [[]]) ws ->
  Forall (fun w => plain_kind (wk_cmp w)) ws -> starts_forward ws ->
  (N.of_nat cap < 2 ^ 31)%N -> 0 < size -> text_of ls (content s) -> lines_fit cap ls ->
  exists out, sort_main utf8_ok name_ok uni_alpha uni_alnum expr expr_new expr_lookup expr_eval expr_eval_line expr_none exp10 bh_push bh_pop cap size md args [(s, sched)] =
      (concat out, Ok tt) /\
    result_of (line_order exp10 ws) (given (bs "unique") args) ls out /\
    (List.length (concat ls) < cap -> exact_of (line_order exp10 ws) (given (bs "unique") args) ls out).
Proof. exact sorts_plain. Qed.
Example c75_plain_ex : text_of (concat ex_bodies) (removelast (concat (concat ex_bodies))) /\
  ex_main 15 ex_mode [(bs "key", bs "2")] [(mksrc [] [removelast (concat (concat ex_bodies))], [2; 9])] =
    (ln "4" "Apple" ++ ln "2" "apple" ++ ln "5" "fig" ++ ln "3" "fig" ++ ln "1" "pear", Ok tt).
Proof.
  split; [|vm_compute; reflexivity]. split.
  - assert (F : lines_fit 20 (concat ex_bodies)) by (apply fit_dec; reflexivity). eapply Forall_impl; [|exact F]. cbn. tauto.
  - right. split; [reflexivity|]. exists (removelast (removelast (concat (concat ex_bodies)))), 103%N. split; [reflexivity|discriminate].
Qed.

(** No key: the lines in dictionary order, with unique every different line once. *)
Theorem c75_whole : forall utf8_ok name_ok uni_alpha uni_alnum expr expr_new expr_lookup expr_eval expr_eval_line expr_none exp10 cap size md args s sched ls,
  known args -> ~ given (bs "key") args -> ~ given (bs "merge") args -> ~ given (bs "check") args -> ~ given (bs "Check") args ->
  (N.of_nat cap < 2 ^ 31)%N -> 0 < size -> text_of ls (content s) -> lines_fit cap ls ->
  exists out, sort_main utf8_ok name_ok uni_alpha uni_alnum expr expr_new expr_lookup expr_eval expr_eval_line expr_none exp10 bh_push bh_pop cap size md args [(s, sched)] =
      (concat out, Ok tt) /\
    (~ given (bs "unique") args -> Permutation ls out /\ StronglySorted (fun a b => ~ dict_lt b a) out) /\
    (given (bs "unique") args -> StronglySorted dict_lt out /\ forall x, In x out <-> In x ls).
Proof.
  intros utf8_ok name_ok uni_alpha uni_alnum expr expr_new expr_lookup expr_eval expr_eval_line expr_none exp10 cap size md args s sched ls K NK NM NC NC2 Hc Hs T L.
  assert (V : values (bs "key") args (map text_of_key [])).
  { clear - NK. induction args as [|[n v] args IH]; [constructor|]. constructor; [|apply IH]; intros H; apply NK; [exists v; left; congruence|destruct H as [w H]; exists w; right; auto]. }
  destruct (c75_plain utf8_ok name_ok uni_alpha uni_alnum expr expr_new expr_lookup expr_eval expr_eval_line expr_none exp10 cap size md args [] s sched ls) as (out & E & (A & B) & _); auto; try (constructor; fail).
  exists out. split; auto. assert (G : forall a b, c_comp exp10 CPlain a b = Gt <-> dict_lt b a).
  { intros a b. rewrite <- (proj1 (c14_plain exp10 b a)). destruct (line_order_pre exp10 [] (Forall_nil _)) as (_ & SY & _). unfold line_order in SY. pose proof (SY a b) as Q. destruct (c_comp exp10 CPlain a b), (c_comp exp10 CPlain b a); cbn in Q; split; congruence. }
  split.
  - intros N. destruct (B N) as [P S]. split; auto. unfold sorted in S. cbn [line_order] in S. clear - G S. induction S as [|x l S IH F]; constructor; auto. eapply Forall_impl; [|exact F]. cbn. intros y H D. apply H, G; auto.
  - intros U. destruct (A U) as (S & I1 & I2). split.
    + unfold strictly_sorted in S. clear - S. induction S as [|x l S IH F]; constructor; auto. eapply Forall_impl; [|exact F]. cbn. intros y H. apply (c14_plain exp10 x y); auto.
    + intros x. split; auto. intros J. destruct (I2 x J) as (y & Iy & Q). cbn [line_order] in Q. apply (c14_plain exp10 x y) in Q. subst y. auto.
Qed.
Example c75_whole_ex : ex_main 30 ex_mode [(bs "unique", [])] [(mksrc [] [bs "b" ++ NL :: bs "a" ++ NL :: bs "B" ++ NL :: bs "a"], [])] = (bs "B" ++ NL :: bs "a" ++ NL :: bs "b" ++ [NL], Ok tt).
Proof. vm_compute. reflexivity. Qed.

(** Checking writes nothing and succeeds exactly if in every file each line is in order with the next, whatever the number of reports wanted. *)
Theorem c75_check : forall utf8_ok name_ok uni_alpha uni_alnum expr expr_new expr_lookup expr_eval expr_eval_line expr_none exp10 cap size md args ws fs shown u,
  known args -> ~ given (bs "merge") args -> given (bs "check") args \/ given (bs "Check") args ->
  (forall v, In (bs "Check", v) args -> exists n, to_usize_whole v = Ok n) -> (u = true <-> given (bs "unique") args) ->
  values (bs "key") args (map text_of_key ws) -> Forall (wanted_ok (alphabetic uni_alpha) (alphanumeric uni_alnum) [[]]) ws -> md_ok md ->
  Forall2 (fun f s => shows utf8_ok md (fst f) s) fs shown ->
  exists r, sort_main utf8_ok name_ok uni_alpha uni_alnum expr expr_new expr_lookup expr_eval expr_eval_line expr_none exp10 bh_push bh_pop cap size md args fs = ([], r) /\
    (r = Ok tt \/ r = Err) /\
    (r = Ok tt <-> Forall (fun s => adjacent_ok u (shown_order exp10 (fun l => mode_columns (tm_quote md) l (tm_delim md)) ws) (sh_lines s)) shown).
Proof. exact checks. Qed.
(** For comparisons that are proper orders: exactly if the lines of every file are sorted. *)
Theorem c75_check_sorted : forall utf8_ok name_ok uni_alpha uni_alnum expr expr_new expr_lookup expr_eval expr_eval_line expr_none exp10 cap size md args ws fs shown u,
  known args -> ~ given (bs "merge") args -> given (bs "check") args \/ given (bs "Check") args ->
  (forall v, In (bs "Check", v) args -> exists n, to_usize_whole v = Ok n) -> (u = true <-> given (bs "unique") args) ->
  values (bs "key") args (map text_of_key ws) -> Forall (wanted_ok (alphabetic uni_alpha) (alphanumeric uni_alnum) [[]]) ws -> Forall (fun w => plain_kind (wk_cmp w)) ws -> md_ok md ->
  Forall2 (fun f s => shows utf8_ok md (fst f) s) fs shown ->
  (snd (sort_main utf8_ok name_ok uni_alpha uni_alnum expr expr_new expr_lookup expr_eval expr_eval_line expr_none exp10 bh_push bh_pop cap size md args fs) = Ok tt <->
   Forall (fun s => globally_sorted u (shown_order exp10 (fun l => mode_columns (tm_quote md) l (tm_delim md)) ws) (sh_lines s)) shown).
Proof.
  intros utf8_ok name_ok uni_alpha uni_alnum expr expr_new expr_lookup expr_eval expr_eval_line expr_none exp10 cap size md args ws fs shown u K NM C NC U V WO WK M F.
  destruct (c75_check utf8_ok name_ok uni_alpha uni_alnum expr expr_new expr_lookup expr_eval expr_eval_line expr_none exp10 cap size md args ws fs shown u K NM C NC U V WO M F) as (r & -> & _ & H).
  cbn [snd]. rewrite H. pose proof (shown_order_pre exp10 (fun l => mode_columns (tm_quote md) l (tm_delim md)) ws WK) as P.
  split; intros G; (eapply Forall_impl; [|exact G]); intros s; cbn beta; apply adjacent_global; auto.
Qed.
Definition check_args : list (bytes * bytes) := [(bs "Check", bs "5"); (bs "key", bs "2,lower")].
Example c75_check_ex : known check_args /\ given (bs "Check") check_args /\ to_usize_whole (bs "5") = Ok 5%N /\ values (bs "key") check_args (map text_of_key [by_second]) /\
  ex_main 9 ex_mode check_args (map ex_file [[ln "9" "a"; ln "8" "A"; ln "7" "b"]; [ln "6" "a"]]) = ([], Ok tt) /\
  ex_main 9 ex_mode ((bs "unique", []) :: check_args) (map ex_file [[ln "9" "a"; ln "8" "A"; ln "7" "b"]; [ln "6" "a"]]) = ([], Err).
Proof.
  split; [repeat (constructor; [cbn; auto 10|]); constructor|]. split; [exists (bs "5"); cbn; auto|]. split; [reflexivity|]. split; [constructor; [discriminate|apply (val_this (bs "key") (bs "2,lower")); constructor]|].
  split; vm_compute; reflexivity.
Qed.
(** One file gets as many reports as it has neighbours out of order, at most the number wanted, at least one if there are any. *)
Theorem c75_reports : forall utf8_ok exp10 md cs u num s f, md_ok md -> shows utf8_ok md s f ->
  check_files utf8_ok exp10 md cs u num 0 [s] =
  Ok (Nat.min (breaks (fun a b => match ll_comp_cols_n exp10 cs (proc md a) (proc md b) 0 0 with Lt => false | Eq => u | Gt => true end) (sh_lines f)) (Nat.max 1 (N.to_nat num))).
Proof. exact reports. Qed.
Definition ex_keys : list linecomp := [mklc false TAB (LWhole (mkcomp false CPlain))].
Example c75_reports_ex : check_files yes exp_ex ex_mode ex_keys false 2 0 [fst (ex_file [ln "3" "a"; ln "2" "a"; ln "1" "a"; ln "0" "a"])] = Ok 2 /\
  check_files yes exp_ex ex_mode ex_keys false 9 0 [fst (ex_file [ln "3" "a"; ln "2" "a"; ln "1" "a"; ln "0" "a"])] = Ok 3.
Proof. split; vm_compute; reflexivity. Qed.

(** Merging sorted files with the same header; with alt-merge ties keep their order. *)
Theorem c75_merge : forall utf8_ok name_ok uni_alpha uni_alnum expr expr_new expr_lookup expr_eval expr_eval_line expr_none exp10 cap size md args ws names fs bodies,
  known args -> given (bs "merge") args -> ~ given (bs "check") args -> ~ given (bs "Check") args ->
  values (bs "key") args (map text_of_key ws) -> Forall (wanted_ok (alphabetic uni_alpha) (alphanumeric uni_alnum) [[]]) ws ->
  Forall (fun w => plain_kind (wk_cmp w)) ws ->
  names_fit utf8_ok name_ok names -> fs <> [] -> Forall2 (fun f b => content (fst f) = headline names ++ concat b) fs bodies ->
  Forall (Forall whole_line) bodies -> Forall (sorted (line_order exp10 ws)) bodies ->
  exists out, sort_main utf8_ok name_ok uni_alpha uni_alnum expr expr_new expr_lookup expr_eval expr_eval_line expr_none exp10 bh_push bh_pop cap size md args fs =
      (headline names ++ concat out, Ok tt) /\
    result_of (line_order exp10 ws) (given (bs "unique") args) (concat bodies) out /\
    (given (bs "alt-merge") args -> exact_of (line_order exp10 ws) (given (bs "unique") args) (concat bodies) out).
Proof. exact merges_numbered. Qed.
Definition merge_args : list (bytes * bytes) := [(bs "alt-merge", []); (bs "key", bs "2,lower"); (bs "merge", [])].
Definition ex_sorted : list (list bytes) := [[ln "2" "apple"; ln "1" "pear"]; [ln "4" "Apple"; ln "3" "fig"; ln "5" "fig"]].
Example c75_merge_ex : known merge_args /\ given (bs "merge") merge_args /\ given (bs "alt-merge") merge_args /\ values (bs "key") merge_args (map text_of_key [by_second]) /\
  Forall (sorted (line_order exp_ex [by_second])) ex_sorted /\
  ex_main 9 ex_mode merge_args (map ex_file ex_sorted) = (headline ex_names ++ ln "2" "apple" ++ ln "4" "Apple" ++ ln "3" "fig" ++ ln "5" "fig" ++ ln "1" "pear", Ok tt).
Proof.
  split; [repeat (constructor; [cbn; auto 10|]); constructor|]. split; [exists []; cbn; auto|]. split; [exists []; cbn; auto|].
  split; [constructor; [discriminate|apply (val_this (bs "key") (bs "2,lower")); constructor; [discriminate|constructor]]|].
  split; [|vm_compute; reflexivity]. repeat constructor; vm_compute; discriminate.
Qed.

(** What sort wrote passes sort with check and the same options. *)
Theorem c75_passes : forall utf8_ok name_ok uni_alpha uni_alnum expr expr_new expr_lookup expr_eval expr_eval_line expr_none exp10 cap size md args ws names fs bodies,
  known args -> ~ given (bs "merge") args -> ~ given (bs "check") args -> ~ given (bs "Check") args ->
  values (bs "key") args (map text_of_key ws) -> Forall (wanted_ok (alphabetic uni_alpha) (alphanumeric uni_alnum) [[]]) ws ->
  Forall (fun w => plain_kind (wk_cmp w)) ws -> starts_forward ws ->
  (N.of_nat cap < 2 ^ 31)%N -> 0 < cap -> 0 < size -> names_fit utf8_ok name_ok names -> utf8_ok (headline names) = true -> fs <> [] ->
  Forall2 (fun f b => content (fst f) = headline names ++ concat b) fs bodies -> lines_fit cap (concat bodies) ->
  exists text, sort_main utf8_ok name_ok uni_alpha uni_alnum expr expr_new expr_lookup expr_eval expr_eval_line expr_none exp10 bh_push bh_pop cap size md args fs = (text, Ok tt) /\
    forall s sched, wf_src s -> content s = text ->
    sort_main utf8_ok name_ok uni_alpha uni_alnum expr expr_new expr_lookup expr_eval expr_eval_line expr_none exp10 bh_push bh_pop cap size (tabbed HYes)
      ((bs "check", []) :: args) [(s, sched)] = ([], Ok tt).
Proof.
  intros utf8_ok name_ok uni_alpha uni_alnum expr expr_new expr_lookup expr_eval expr_eval_line expr_none exp10 cap size md args ws names fs bodies K NM NC NC2 V WO WK WF Hc Hc0 Hs NF HU NE F L.
  destruct (c75_sorts utf8_ok name_ok uni_alpha uni_alnum expr expr_new expr_lookup expr_eval expr_eval_line expr_none exp10 cap size md args ws names fs bodies K NM NC NC2 V WO WK WF Hc Hc0 Hs NF NE F L)
    as (out & E & R & _). exists (headline names ++ concat out). split; auto. intros s sched W H. eapply passes with (ls := concat bodies); eauto. eapply Forall_impl; [|exact L]. cbn. tauto.
Qed.
Example c75_passes_ex : ex_main 20 ex_mode ((bs "check", []) :: [(bs "key", bs "2,lower")]) [(mksrc [] [fst (ex_main 20 ex_mode [(bs "key", bs "2,lower")] (map ex_file ex_bodies))], [])] = ([], Ok tt) /\
  ex_main 20 ex_mode ((bs "check", []) :: [(bs "key", bs "2,lower")]) [ex_file (concat ex_bodies)] = ([], Err).
Proof. split; vm_compute; reflexivity. Qed.

(** Check and merge together, a number that cannot be read, a bad key: nothing is written and the tool fails. *)
Theorem c75_refuses : forall utf8_ok name_ok uni_alpha uni_alnum expr expr_new expr_lookup expr_eval expr_eval_line expr_none exp10 cap size md args fs,
  (given (bs "merge") args /\ (given (bs "check") args \/ given (bs "Check") args)) \/ (exists v, In (bs "Check", v) args /\ forall n, to_usize_whole v <> Ok n) \/
    (exists v, In (bs "key", v) args /\ forall k, make_line_comp uni_alpha uni_alnum expr expr_new v <> Ok k) \/ ~ known args ->
  fst (sort_main utf8_ok name_ok uni_alpha uni_alnum expr expr_new expr_lookup expr_eval expr_eval_line expr_none exp10 bh_push bh_pop cap size md args fs) = [] /\
  snd (sort_main utf8_ok name_ok uni_alpha uni_alnum expr expr_new expr_lookup expr_eval expr_eval_line expr_none exp10 bh_push bh_pop cap size md args fs) <> Ok tt.
Proof.
  intros utf8_ok name_ok uni_alpha uni_alnum expr expr_new expr_lookup expr_eval expr_eval_line expr_none exp10 cap size md args fs H. apply main_refuses. intros o E. apply args_kept in E as (A & B & C & D & K).
  destruct H as [[H1 H2]|[(v & I & H)|[(v & I & H)|H]]].
  - split; [apply B|apply A]; auto.
  - destruct (C v I) as [n Q]. destruct (H n Q).
  - destruct (D v I) as [n Q]. destruct (H n Q).
  - contradiction.
Qed.
Example c75_refuses_ex : ex_main 20 ex_mode [(bs "merge", []); (bs "Check", bs "3")] (map ex_file ex_bodies) = ([], Err) /\
  ex_main 20 ex_mode [(bs "Check", bs "x")] (map ex_file ex_bodies) = ([], Err) /\ ex_main 20 ex_mode [(bs "key", bs "1,zzz")] (map ex_file ex_bodies) = ([], Err).
Proof. repeat split; vm_compute; reflexivity. Qed.

(** Checking does not look up names: what sort wrote by a named key fails the check by that key. *)
Theorem c75_named_check_refuted : exists args w ls text, text_of_key w = bs "name" /\ args = [(bs "key", bs "name")] /\ wanted_ok (alphabetic none) (alphanumeric none) [ex_names] w /\
  ex_main 99 ex_mode args [ex_file ls] = (text, Ok tt) /\ ex_main 99 ex_mode ((bs "check", []) :: args) [(mksrc [] [text], [])] = ([], Err).
Proof.
  exists [(bs "key", bs "name")], (mkw_key [ByName (bs "name")] JustCols [] CPlain false (fun _ => 1%N)), [ln "2" "a"; ln "1" "b"], (headline ex_names ++ ln "2" "a" ++ ln "1" "b").
  split; [reflexivity|]. split; [reflexivity|]. split; [|split; vm_compute; reflexivity].
  repeat split; cbn [wk_cols wk_tail wk_kind wk_cmp wk_rev wk_pos]; try discriminate.
  - repeat constructor; try discriminate.
  - right. split; auto. constructor.
  - right. cbn. auto.
  - intros (w & [] & _).
  - intros f ns E. destruct f as [|f]; [|destruct f; discriminate E]. injection E as <-. split; [reflexivity|]. intros [|j] L; [discriminate|cbn in L; lia].
Qed.
(** Nor does merging: files sorted by a named column are not merged by it. *)
Theorem c75_named_merge_refuted : exists a b out, sorted (by_fields exp_ex [by_name]) a /\ sorted (by_fields exp_ex [by_name]) b /\
  ex_main 99 ex_mode [(bs "key", bs "name,lower"); (bs "merge", [])] [ex_file a; ex_file b] = (headline ex_names ++ concat out, Ok tt) /\
  Forall whole_line out /\ ~ sorted (by_fields exp_ex [by_name]) out.
Proof.
  exists [ln "2" "a"], [ln "1" "b"], [ln "1" "b"; ln "2" "a"]. split; [repeat constructor|]. split; [repeat constructor|]. split; [vm_compute; reflexivity|].
  split. { assert (F : lines_fit 20 [ln "1" "b"; ln "2" "a"]) by (apply fit_dec; reflexivity). eapply Forall_impl; [|exact F]. cbn. tauto. }
  intros H. apply StronglySorted_inv in H as [_ H]. inversion H as [|? ? X _]. apply X. vm_compute. reflexivity.
Qed.
(** A reversed first key sorts upwards where the first eight bytes agree. *)
Theorem c75_reverse_refuted : exists w ls, wanted_ok (alphabetic none) (alphanumeric none) [[]] w /\ text_of_key w = bs "1,rev" /\ lines_fit 99 ls /\
  ex_main 99 ex_mode [(bs "key", bs "1,rev")] [(mksrc [] [concat ls], [])] = (concat ls, Ok tt) /\ ~ sorted (line_order exp_ex [w]) ls.
Proof.
  exists (mkw_key [ByNum 1] (Method [bs "rev"]) [] CPlain true (fun _ => 0%N)), [bs "abcdefgh1" ++ [NL]; bs "abcdefgh2" ++ [NL]].
  split; [|split; [reflexivity|split; [apply fit_dec; reflexivity|split; [vm_compute; reflexivity|]]]].
  - repeat split; cbn [wk_cols wk_tail wk_kind wk_cmp wk_rev wk_pos]; try discriminate.
    + repeat constructor; cbn; lia.
    + repeat constructor; vm_compute; intuition discriminate.
    + right. split; auto. constructor; [|constructor]. apply is_mod. reflexivity.
    + right. cbn. auto.
    + exists (bs "rev"). split; [cbn; auto|apply same_refl].
    + intros f ns E. destruct f as [|f]; [|destruct f; discriminate E]. injection E as <-. reflexivity.
  - intros H. apply StronglySorted_inv in H as [_ H]. inversion H as [|? ? X _]. apply X. vm_compute. reflexivity.
Qed.
(** The number of reports wanted is not kept to when there are several files: once it is reached every further file in disorder still gets one. *)
Theorem c75_count_refuted : exists num ss, num = 1%N /\ check_files yes exp_ex ex_mode ex_keys false num 0 ss = Ok 3.
Proof. exists 1%N, (map (fun l => fst (ex_file l)) [[ln "2" "a"; ln "1" "a"]; [ln "4" "a"; ln "3" "a"]; [ln "6" "a"; ln "5" "a"]]). split; [reflexivity|vm_compute; reflexivity]. Qed.
(** Sorting takes lines apart at tabs whatever the text mode says, checking as it says: a file of comma separated columns, sorted and then checked with
    the same mode and key, fails. *)
Theorem c75_mode_refuted : exists md args ls text, md = mkmode HNo QPlain 44 NL /\ args = [(bs "key", bs "2")] /\
  ex_main 99 md args [(mksrc [] [concat ls], [])] = (text, Ok tt) /\ ex_main 99 md ((bs "check", []) :: args) [(mksrc [] [text], [])] = ([], Err).
Proof. exists (mkmode HNo QPlain 44 NL), [(bs "key", bs "2")], [bs "a,2" ++ [NL]; bs "b,1" ++ [NL]], (bs "a,2" ++ NL :: bs "b,1" ++ [NL]). repeat split; vm_compute; reflexivity. Qed.
