(** C89: uniq and join by numbers. *)
From Coq Require Import String List NArith ZArith QArith Bool Arith Lia SpecFloat Sorting.Permutation Sorting.Sorted.
Open Scope list_scope.
Import ListNotations.
From Verif Require Import Base TextModel TextSpec FloatModel FloatValid CompModel CompSpec NumText DecSpec ReadModel ReadSpec ReadProofs HeadModel HdrModel MatchModel MatchSpec OrdProofs LineSpec LineProofs SortSpec HeapProofs SortModel KeySpec KeyModel KeyProofs KeyProps ToolModel PasteSpec PasteProofs NumbProofs
  OrderModel OrderSpec OrderProofs OrderTool ValSpec ValDec UniqModel UniqSpec UniqMainSpec UniqMain JoinSpec JoinMain JoinMainSpec JoinMainProofs JoinMainTool PipeSpec PipeProofs NumKeySpec NumKeyProofs.
From Verif Require MatchText OrderProps ValProps UniqMainProps JoinMainProps PipeProps ColProps NumbProps ColModel DecProps CompProps.
Close Scope Z_scope. Close Scope Q_scope. Open Scope nat_scope.

(** Two files in the order of the keys, the second with no key twice, all float keys numbers and all numeric keys whole numbers:
    every line of the first file is paired with the line of the second that has the same keys. *)
Theorem c89_join : forall exp10 (exp10_ok : forall z, valid64 (exp10 z)) utf8_ok uni_alpha uni_alnum expr expr_new expr_lookup expr_eval expr_eval_line expr_none T trans_make match_make expr_used
    args ws askss alsos outs s0 s1 f0 f1 cols,
  join_known args -> values (bs "key") args (map text_of_key ws) -> values (bs "output") args (map output_text askss) ->
  values (bs "file") args outs -> values (bs "also") args (map also_text alsos) ->
  Forall (wanted_ok (alphabetic uni_alpha) (alphanumeric uni_alnum) [sh_names f0; sh_names f1]) ws ->
  Forall (fun l => cols_count exp10 0 ws (fields l)) (sh_lines f0) -> Forall (fun l => cols_count exp10 1 ws (fields l)) (sh_lines f1) ->
  Forall (fun a => a <> [] /\ Forall (ask_ok (alphabetic uni_alpha) (alphanumeric uni_alnum)) a) askss ->
  (N.of_nat (List.length (sh_names f0)) < 2 ^ 64)%N -> (N.of_nat (List.length (sh_names f1)) < 2 ^ 64)%N ->
  out_columns (ColProps.maker match_make) (keys_or ws) [sh_names f0; sh_names f1] (concat askss) cols -> cols <> [] ->
  Forall (fun a => fst a = 1%N \/ fst a = 2%N) alsos -> NoDup (map fst alsos) ->
  PasteProofs.shows utf8_ok join_mode s0 f0 -> PasteProofs.shows utf8_ok join_mode s1 f1 ->
  (forall a, In a alsos -> let f := if (fst a =? 1)%N then f0 else f1 in sh_head f <> [] \/ sh_lines f = []) ->
  let ord := keyed exp10 (keys_or ws) in
  ordered_by ord (of_file 0) (sh_lines f0) -> strictly_by ord (of_file 1) (sh_lines f1) ->
  join_main utf8_ok uni_alpha uni_alnum T trans_make match_make expr expr_new expr_lookup expr_eval expr_eval_line expr_none exp10 expr_used args [s0; s1] =
  Ok ((last outs (bs "-"),
       match sh_head f0 with [] => [] | _ => headline (names_of cols [sh_names f0; sh_names f1]) end ++
       concat (map (fun p => row_text cols [fst p; snd p]) (rows_spec ord (of_file 0) (of_file 1) (sh_lines f0) (sh_lines f1)))) ::
      map (fun a => (snd a, if (fst a =? 1)%N then sh_head f0 ++ concat (lone_left ord (of_file 0) (of_file 1) (sh_lines f0) (sh_lines f1))
                            else sh_head f1 ++ concat (lone_right ord (of_file 0) (of_file 1) (sh_lines f0) (sh_lines f1)))) alsos).
Proof. exact joins_number. Qed.

(** * Decimals *)
Definition by_number (rev : bool) (num : bytes -> Q) (a b : bytes) : comparison := directed rev (Qcompare (num a) (num b)).
Lemma Q_preorder : total_preorder Qcompare.
Proof.
  split; [intros x; apply Qeq_alt; apply Qeq_refl|]. split; [intros x y; symmetry; apply Qcompare_antisym|]. intros x y z A B C. apply Qle_alt in A, B. revert C. apply Qle_alt. eapply Qle_trans; eauto.
Qed.
Lemma by_number_pre rev num : total_preorder (by_number rev num).
Proof.
  assert (P : total_preorder (fun a b : bytes => Qcompare (num a) (num b))) by (apply (preorder_key num Qcompare); [apply Q_preorder|reflexivity]).
  unfold by_number. destruct rev; cbn [directed]; [apply rev_preorder; exact P|exact P].
Qed.

(** One float key, decimals of at most K digits after the point, K at most 14, and below 10^(14-K): the join is that of the exact numbers, however they are written. *)
Theorem c89_join_numbers : forall exp10 (exp10_ok : forall z, valid64 (exp10 z)) utf8_ok uni_alpha uni_alnum expr expr_new expr_lookup expr_eval expr_eval_line expr_none T trans_make match_make expr_used
    K args w askss alsos outs s0 s1 f0 f1 cols num0 num1,
  K <= 14 -> join_known args -> values (bs "key") args [text_of_key w] -> values (bs "output") args (map output_text askss) ->
  values (bs "file") args outs -> values (bs "also") args (map also_text alsos) ->
  wanted_ok (alphabetic uni_alpha) (alphanumeric uni_alnum) [sh_names f0; sh_names f1] w -> wk_cmp w = CF64 -> wk_rev w = false ->
  numbered_by K fields (N.to_nat (wk_pos w 0)) num0 (sh_lines f0) -> numbered_by K fields (N.to_nat (wk_pos w 1)) num1 (sh_lines f1) ->
  Forall (fun a => a <> [] /\ Forall (ask_ok (alphabetic uni_alpha) (alphanumeric uni_alnum)) a) askss ->
  (N.of_nat (List.length (sh_names f0)) < 2 ^ 64)%N -> (N.of_nat (List.length (sh_names f1)) < 2 ^ 64)%N ->
  out_columns (ColProps.maker match_make) [w] [sh_names f0; sh_names f1] (concat askss) cols -> cols <> [] ->
  Forall (fun a => fst a = 1%N \/ fst a = 2%N) alsos -> NoDup (map fst alsos) ->
  PasteProofs.shows utf8_ok join_mode s0 f0 -> PasteProofs.shows utf8_ok join_mode s1 f1 ->
  (forall a, In a alsos -> let f := if (fst a =? 1)%N then f0 else f1 in sh_head f <> [] \/ sh_lines f = []) ->
  StronglySorted (fun a b => num0 a <= num0 b)%Q (sh_lines f0) -> StronglySorted (fun a b => num1 a < num1 b)%Q (sh_lines f1) ->
  let meets a b := Qeq_bool (num0 a) (num1 b) in
  join_main utf8_ok uni_alpha uni_alnum T trans_make match_make expr expr_new expr_lookup expr_eval expr_eval_line expr_none exp10 expr_used args [s0; s1] =
  Ok ((last outs (bs "-"),
       match sh_head f0 with [] => [] | _ => headline (names_of cols [sh_names f0; sh_names f1]) end ++
       concat (map (fun p => row_text cols [fst p; snd p]) (filter (fun p => meets (fst p) (snd p)) (list_prod (sh_lines f0) (sh_lines f1))))) ::
      map (fun a => (snd a, if (fst a =? 1)%N then sh_head f0 ++ concat (filter (fun x => negb (existsb (meets x) (sh_lines f1))) (sh_lines f0))
                            else sh_head f1 ++ concat (filter (fun y => negb (existsb (fun x => meets x y) (sh_lines f0))) (sh_lines f1)))) alsos).
Proof.
  intros e10 X10 u ua un ex en el ee eel eno T tm mm eu K args w askss alsos outs s0 s1 f0 f1 cols num0 num1 HK JK VK VO VF VA W CF RV N0 N1 AO B0 B1 OC CN AS AD S0 S1 AH O0 O1 meets.
  unfold numbered_by in N0, N1. rewrite Forall_forall in N0, N1.
  assert (KE : forall f g a b p q, number_is K (nth (N.to_nat (wk_pos w f)) (fields a) []) p -> number_is K (nth (N.to_nat (wk_pos w g)) (fields b) []) q -> keyed e10 [w] (f, a) (g, b) = Qcompare p q).
  { intros f g a b p q A B. unfold keyed. cbn [map first_answer fst snd]. unfold answers. rewrite CF, RV. cbn [directed]. rewrite (number_compare K HK e10 _ _ p q A B). destruct (p ?= q)%Q; reflexivity. }
  assert (P1 : strictly_by (keyed e10 [w]) (of_file 1) (sh_lines f1)).
  { unfold strictly_by. clear - KE N1 O1. induction O1 as [|x l S IH F]; constructor; [apply IH; intros y I; apply N1; right; auto|]. rewrite Forall_forall in *. intros y I.
    unfold of_file. rewrite (KE 1 1 x y (num1 x) (num1 y)) by (apply N1; cbn; auto). exact (proj1 (Qlt_alt _ _) (F y I)). }
  pose proof (c89_join e10 X10 u ua un ex en el ee eel eno T tm mm eu args [w] askss alsos outs s0 s1 f0 f1 cols JK VK VO VF VA ltac:(constructor; auto)) as J. cbn [keys_or] in J. cbv zeta in J. rewrite J; auto; clear J.
  - assert (PE : forall a b, In a (sh_lines f0) -> In b (sh_lines f1) -> partners (keyed e10 [w]) (of_file 0) (of_file 1) a b = meets a b).
    { intros a b I J. unfold partners, of_file, meets. rewrite (KE 0 1 a b (num0 a) (num1 b)) by auto. destruct (num0 a ?= num1 b)%Q eqn:E.
      - symmetry. apply Qeq_bool_iff. apply Qeq_alt. auto.
      - symmetry. apply not_true_is_false. intros H. apply Qeq_bool_iff, Qeq_alt in H. congruence.
      - symmetry. apply not_true_is_false. intros H. apply Qeq_bool_iff, Qeq_alt in H. congruence. }
    assert (EX : forall a, In a (sh_lines f0) -> existsb (partners (keyed e10 [w]) (of_file 0) (of_file 1) a) (sh_lines f1) = existsb (meets a) (sh_lines f1)).
    { intros a I. assert (G : forall l, (forall b, In b l -> In b (sh_lines f1)) -> existsb (partners (keyed e10 [w]) (of_file 0) (of_file 1) a) l = existsb (meets a) l).
      { induction l as [|b l IH]; intros H; [reflexivity|]. cbn [existsb]. rewrite PE, IH; auto; intros; apply H; cbn; auto. }
      apply G; auto. }
    assert (EY : forall b, In b (sh_lines f1) -> existsb (fun a => partners (keyed e10 [w]) (of_file 0) (of_file 1) a b) (sh_lines f0) = existsb (fun a => meets a b) (sh_lines f0)).
    { intros b I. assert (G : forall l, (forall a, In a l -> In a (sh_lines f0)) -> existsb (fun a => partners (keyed e10 [w]) (of_file 0) (of_file 1) a b) l = existsb (fun a => meets a b) l).
      { induction l as [|a l IH]; intros H; [reflexivity|]. cbn [existsb]. rewrite PE, IH; auto; intros; apply H; cbn; auto. }
      apply G; auto. }
    assert (R : rows_spec (keyed e10 [w]) (of_file 0) (of_file 1) (sh_lines f0) (sh_lines f1) = filter (fun p => meets (fst p) (snd p)) (list_prod (sh_lines f0) (sh_lines f1))).
    { assert (SR : forall a, In a (sh_lines f0) -> match find (partners (keyed e10 [w]) (of_file 0) (of_file 1) a) (sh_lines f1) with Some b => [(a, b)] | None => [] end = map (pair a) (filter (meets a) (sh_lines f1))).
      { intros a I. clear - PE O1 I. revert PE. induction O1 as [|b r S IH F]; intros PE; [reflexivity|]. cbn [find filter]. rewrite PE by (cbn; auto). destruct (meets a b) eqn:E; [|apply IH; intros; apply PE; cbn; auto].
        cbn [map]. f_equal. rewrite filter_none; [reflexivity|]. intros y J. rewrite Forall_forall in F. specialize (F y J). unfold meets in *. apply Qeq_bool_iff in E. apply not_true_is_false. intros H.
        apply Qeq_bool_iff in H. rewrite <- E, <- H in F. apply Qlt_irrefl in F. auto. }
      unfold rows_spec. clear - SR. induction (sh_lines f0) as [|a l IH]; [reflexivity|]. cbn [flat_map list_prod]. rewrite filter_app, SR, IH by (cbn; auto; intros; apply SR; right; auto). f_equal.
      generalize (sh_lines f1). intros r. induction r as [|b r IHr]; [reflexivity|]. cbn [map filter fst snd]. rewrite <- IHr. destruct (meets a b); reflexivity. }
    rewrite R. f_equal. f_equal. apply map_ext_in. intros a I. unfold lone_left, lone_right.
    rewrite (filter_ext_in _ (fun x => negb (existsb (meets x) (sh_lines f1)))) by (intros x Ix; rewrite EX; auto).
    rewrite (filter_ext_in (fun b => negb (existsb (fun a => partners (keyed e10 [w]) (of_file 0) (of_file 1) a b) (sh_lines f0))) (fun y => negb (existsb (fun x => meets x y) (sh_lines f0)))) by (intros x Ix; rewrite EY; auto).
    reflexivity.
  - apply Forall_forall. intros l I. constructor; [|constructor]. rewrite CF. eapply number_counts; eauto.
  - apply Forall_forall. intros l I. constructor; [|constructor]. rewrite CF. eapply number_counts; eauto.
  - unfold ordered_by. clear - KE N0 O0. induction O0 as [|x l S IH F]; constructor; [apply IH; intros y I; apply N0; right; auto|]. rewrite Forall_forall in *. intros y I.
    unfold of_file. rewrite (KE 0 0 x y (num0 x) (num0 y)) by (apply N0; cbn; auto). exact (proj1 (Qle_alt _ _) (F y I)).
Qed.

(** * uniq *)
(** The line shown for each run, with --which min or max by a key that compares numbers: the first smallest or largest, as long as all values of that key are numbers. *)
Theorem c89_pick : forall exp10 (exp10_ok : forall z, valid64 (exp10 z)) utf8_ok uni_alpha uni_alnum expr expr_new expr_lookup expr_eval expr_eval_line expr_none decode is_space is_alnum comp_make agg_expr print_num
    md cdx ot args s f ws cts counts ps kinds, Forall (fun a => In (fst a) [bs "key"; bs "count"; bs "which"]) args ->
  values (bs "key") args (key_texts ws) -> Forall (wanted_ok (alphabetic uni_alpha) (alphanumeric uni_alnum) [sh_names f]) ws ->
  values (bs "count") args cts -> Forall2 count_says cts counts ->
  values (bs "which") args (map pick_text ps) -> Forall2 pick_means ps kinds -> Forall (fun p => Forall (wanted_ok (alphabetic uni_alpha) (alphanumeric uni_alnum) [sh_names f]) (pick_keys p)) ps ->
  tm_quote md = QPlain -> tm_break md = NL -> tm_delim md <> NL -> (tm_delim md < 128)%N ->
  PasteProofs.shows utf8_ok md s f -> sh_head f <> [] \/ sh_lines f <> [] ->
  let c := last counts ([], CNone) in
  let pk := pick_keys (last ps ([], None)) in
  Forall (fun l => cols_count exp10 0 pk (parted (tm_delim md) l)) (sh_lines f) -> (pk <> [] -> ws <> []) ->
  (sh_head f <> [] -> counted_names c (sh_names f) <> [] /\ proper uni_alpha uni_alnum (counted_names c (sh_names f))) ->
  exists rs outs, uniq_main utf8_ok uni_alpha uni_alnum expr expr_new expr_lookup expr_eval expr_eval_line expr_none exp10 decode is_space is_alnum comp_make agg_expr print_num md cdx ot args s =
      (match sh_head f with [] => [] | _ => head_line cdx (ColModel.tm_delim ot) (counted_names c (sh_names f)) end ++ concat outs, Ok tt) /\
    runs_of (alike exp10 (tm_delim md) ws) (sh_lines f) rs /\
    Forall2 (fun r out => exists body, chosen (shown_order exp10 (parted (tm_delim md)) pk) (last kinds First) r (body ++ [NL]) /\ out = run_text (snd c) (List.length r) body (tm_delim md) ++ [NL]) rs outs.
Proof. exact uniqs_number. Qed.

Lemma same_number rev num a b : same (by_number rev num) a b = Qeq_bool (num a) (num b).
Proof.
  unfold same, by_number. destruct (Qeq_bool (num a) (num b)) eqn:E.
  - apply Qeq_bool_iff, Qeq_alt in E. destruct rev; cbn [directed]; rewrite E; reflexivity.
  - assert (N : (num a ?= num b)%Q <> Eq). { intros H. apply Qeq_alt in H. apply Qeq_bool_iff in H. congruence. }
    destruct rev, (num a ?= num b)%Q; cbn [directed CompOpp]; congruence.
Qed.
Lemma none_given n m args : Forall (fun a => In (fst a) n) args -> ~ In m n -> values m args [].
Proof.
  intros F D. induction F as [|[x v] args H F IH]; [constructor|]. apply val_other; auto. cbn [fst] in H. intros ->. auto.
Qed.

(** What sort writes by a column of decimals of few digits is read by uniq with the same key: one line for every number of all files, in the order of the numbers or with rev in
    the opposite one, and the count is that of all lines with an equal number. *)
Theorem c89_count : forall exp10 (exp10_ok : forall z, valid64 (exp10 z)) utf8_ok name_ok uni_alpha uni_alnum expr expr_new expr_lookup expr_eval expr_eval_line expr_none decode is_space is_alnum comp_make agg_expr print_num
    cap size md args w K names fs bodies num cdx ot uargs s cts counts,
  known args -> ~ given (bs "merge") args -> ~ given (bs "check") args -> ~ given (bs "Check") args -> ~ given (bs "unique") args ->
  values (bs "key") args [text_of_key w] -> wanted_ok (alphabetic uni_alpha) (alphanumeric uni_alnum) [names] w -> wk_cmp w = CF64 ->
  (N.of_nat cap < 2 ^ 31)%N -> 0 < cap -> 0 < size -> names_fit utf8_ok name_ok names -> fs <> [] ->
  Forall2 (fun f b => content (fst f) = headline names ++ concat b) fs bodies -> lines_fit cap (concat bodies) ->
  K <= 14 -> (forall l, In l (concat bodies) -> reads_as K (value_of w l) (num l)) ->
  content s = fst (sort_main utf8_ok name_ok uni_alpha uni_alnum expr expr_new expr_lookup expr_eval expr_eval_line expr_none exp10 bh_push bh_pop cap size md args fs) ->
  wf_src s -> 4 <= List.length (fst (fill_buf s)) -> utf8_ok (headline names) = true ->
  Forall (fun a => In (fst a) [bs "key"; bs "count"]) uargs -> values (bs "key") uargs [text_of_key w] ->
  values (bs "count") uargs cts -> Forall2 count_says cts counts ->
  let c := last counts ([], CNone) in
  counted_names c names <> [] -> proper uni_alpha uni_alnum (counted_names c names) ->
  let tally x := List.length (filter (fun y => Qeq_bool (num x) (num y)) (concat bodies)) in
  exists xs,
    uniq_main utf8_ok uni_alpha uni_alnum expr expr_new expr_lookup expr_eval expr_eval_line expr_none exp10 decode is_space is_alnum comp_make agg_expr print_num join_mode cdx ot uargs s =
      (head_line cdx (ColModel.tm_delim ot) (counted_names c names) ++ concat (map (fun x => run_text (snd c) (tally x) (removelast x) TAB ++ [NL]) xs), Ok tt) /\
    StronglySorted (fun a b => if wk_rev w then num b < num a else num a < num b)%Q xs /\
    (forall x, In x xs -> In x (concat bodies)) /\ forall l, In l (concat bodies) -> exists x, In x xs /\ (num x == num l)%Q.
Proof.
  intros e10 X10 u no ua un ex en el ee eel eno de isp ial cm ae pn cap size md args w K names fs bodies num cdx ot uargs s cts counts
    KN NM NC NC2 NU V WO CF Hc Hc0 Hs NF NE F L HK RD C W H4 HU UK VK VC FC c CN PR tally.
  destruct (ValProps.c87_named e10 X10 u no ua un ex en el ee eel eno cap size md args [w] names fs bodies) as (out & E & [_ R] & _); auto.
  { right. rewrite CF. cbn. auto. }
  { apply Forall_forall. intros l I. constructor; [|constructor]. rewrite CF. eapply reads_value; eauto. }
  specialize (R NU). destruct R as [PO SO]. rewrite E in C. cbn [fst] in C.
  assert (WL : Forall whole_line out). { pose proof (PipeProps.fit_whole _ _ L) as WL. eapply Permutation_Forall; [exact PO|exact WL]. }
  pose proof (JoinMainProps.c76_headed u no names s out NF HU W C WL H4) as SH.
  assert (IN : forall l, In l out -> In l (concat bodies)) by (intros l I; eapply Permutation_in; [symmetry; exact PO|exact I]).
  assert (UK' : Forall (fun a => In (fst a) [bs "key"; bs "count"; bs "which"]) uargs) by (eapply Forall_impl; [|exact UK]; cbn; tauto).
  assert (VW : values (bs "which") uargs []) by (eapply none_given; [exact UK|cbn; intuition discriminate]).
  destruct (UniqMainProps.c77_uniq u ua un ex en el ee eel eno e10 de isp ial cm ae pn join_mode cdx ot uargs s (mkshown (headline names) names out) [w] cts counts [] []
      UK' VK ltac:(constructor; auto) VC FC VW (Forall2_nil _) (Forall_nil _) eq_refl eq_refl ltac:(discriminate) ltac:(reflexivity) SH ltac:(left; discriminate) (Forall_nil _) ltac:(discriminate) (fun _ => conj CN PR)) as (rs & outs & U1 & U2 & U3).
  cbn [sh_head sh_names sh_lines last] in *. fold c in U1, U3. pose proof (by_number_pre (wk_rev w) num) as PRE. set (cmp := by_number (wk_rev w) num) in *.
  assert (KY : forall a b, In a out -> In b out -> by_fields e10 [w] a b = cmp a b).
  { intros a b I J. unfold cmp, by_number. apply (ValDec.one_key K HK e10 w a b (num a) (num b)); auto. }
  assert (AL : forall a b, In a out -> In b out -> alike e10 (tm_delim join_mode) [w] a b = same cmp a b). { intros a b I J. unfold same. rewrite <- KY by auto. reflexivity. }
  destruct U2 as (CC & U2 & U4). subst out.
  assert (R2 : runs_of (same cmp) (concat rs) rs).
  { split; [reflexivity|]. split.
    - apply Forall_forall. intros r Ir. rewrite Forall_forall in U2. destruct (U2 r Ir) as [RN RC]. split; auto. assert (RI : forall x, In x r -> In x (concat rs)) by (intros x Ix; apply in_concat; eauto).
      clear - RC AL RI. induction r as [|a [|b r] IH]; [exact I|exact I|]. destruct RC as [R1 RC]. split; [rewrite <- AL; [exact R1| |]; apply RI; cbn; auto|apply IH; auto; intros x Ix; apply RI; right; auto].
    - assert (RI : forall r x, In r rs -> In x r -> In x (concat rs)) by (intros r x Ir Ix; apply in_concat; eauto). revert AL RI. generalize (concat rs) as all. intros all AL RI.
      clear - U4 AL RI. induction rs as [|r [|q rs] IH]; [exact I|exact I|]. destruct U4 as [(p & x & y & t & A1 & A2 & A3) U4]. split; [|apply IH; auto; intros z y' I1 I2; eapply RI; [right; exact I1|auto]].
      exists p, x, y, t. rewrite <- AL; auto; [eapply RI; [left; reflexivity|]; rewrite A1; apply in_or_app; cbn; auto|eapply RI; [right; left; reflexivity|]; rewrite A2; cbn; auto]. }
  assert (SO2 : sorted cmp (concat rs)) by (eapply PipeProps.sorted_same; [|exact SO]; auto).
  pose proof (runs_groups _ PRE rs R2 SO2) as G.
  assert (XS : exists xs, Forall2 (fun r x => In x r) rs xs /\ outs = map (fun x => run_text (snd c) (tally x) (removelast x) TAB ++ [NL]) xs).
  { assert (GL : forall r, In r rs -> forall x, In x r -> List.length r = tally x).
    { intros r Ir x Ix. rewrite Forall_forall in G. rewrite (G r Ir x Ix) at 1. unfold tally. rewrite (filter_ext (fun y => Qeq_bool (num x) (num y)) (same cmp x)) by (intros y; symmetry; apply same_number).
      apply Permutation_length. apply (perm_filter _ _ _ (Permutation_sym PO)). }
    clear - U3 GL. induction U3 as [|r o rs outs (b & X & ->) U3 IH]; [exists []; split; constructor|]. destruct IH as (xs & A & ->); [intros q Q; apply GL; right; auto|].
    exists ((b ++ [NL]) :: xs). destruct X as (p & q & -> & _). split; [constructor; auto; apply in_or_app; cbn; auto|]. cbn [map]. rewrite removelast_last, <- (GL _ (or_introl eq_refl)); [reflexivity|]. apply in_or_app. right. left. auto. }
  destruct XS as (xs & FI & ->). exists xs. split; [|].
  - rewrite U1. destruct (headline names) eqn:EH; [discriminate EH|]. reflexivity.
  - destruct (runs_reps _ PRE rs xs R2 SO2 FI) as (O1 & O2 & O3). split; [|split].
    + clear - O1. unfold strictly_sorted in O1. induction O1 as [|x l S IH F]; constructor; auto. eapply Forall_impl; [|exact F]. intros y H. unfold cmp, by_number in H.
      destruct (wk_rev w); cbn [directed] in H; [|apply Qlt_alt; exact H]. apply Qlt_alt. rewrite <- Qcompare_antisym. exact H.
    + intros x I. apply IN. apply O2. auto.
    + intros l I. destruct (O3 l) as (y & Iy & Ey); [eapply Permutation_in; [exact PO|exact I]|]. exists y. split; auto. apply Qeq_bool_iff. rewrite <- (same_number (wk_rev w)). fold cmp. unfold same.
      first [rewrite Ey; reflexivity | pose proof (cmp_flip cmp PRE l y) as FL; rewrite FL, Ey; reflexivity].
Qed.

(** What sort writes for two sets of files by a column of decimals is joined by those columns: the rows are exactly the pairs of lines with equal numbers, in the order of the numbers,
    and the other outputs the lines without partner; the second set must not have a number twice. *)
Theorem c89_pairs : forall exp10 (exp10_ok : forall z, valid64 (exp10 z)) utf8_ok name_ok uni_alpha uni_alnum T trans_make match_make expr expr_new expr_lookup expr_eval expr_eval_line expr_none expr_used
    K cap size md args0 w0 names0 fs0 bodies0 args1 w1 names1 fs1 bodies1 num0 num1 s0 s1 args w askss alsos outs cols,
  K <= 14 -> (N.of_nat cap < 2 ^ 31)%N -> 0 < cap -> 0 < size ->
  known args0 -> ~ given (bs "merge") args0 -> ~ given (bs "check") args0 -> ~ given (bs "Check") args0 -> ~ given (bs "unique") args0 ->
  values (bs "key") args0 [text_of_key w0] -> wanted_ok (alphabetic uni_alpha) (alphanumeric uni_alnum) [names0] w0 -> names_fit utf8_ok name_ok names0 -> fs0 <> [] ->
  Forall2 (fun f b => content (fst f) = headline names0 ++ concat b) fs0 bodies0 -> lines_fit cap (concat bodies0) ->
  (forall l, In l (concat bodies0) -> reads_as K (value_of w0 l) (num0 l)) ->
  known args1 -> ~ given (bs "merge") args1 -> ~ given (bs "check") args1 -> ~ given (bs "Check") args1 -> ~ given (bs "unique") args1 ->
  values (bs "key") args1 [text_of_key w1] -> wanted_ok (alphabetic uni_alpha) (alphanumeric uni_alnum) [names1] w1 -> names_fit utf8_ok name_ok names1 -> fs1 <> [] ->
  Forall2 (fun f b => content (fst f) = headline names1 ++ concat b) fs1 bodies1 -> lines_fit cap (concat bodies1) ->
  (forall l, In l (concat bodies1) -> reads_as K (value_of w1 l) (num1 l)) -> ForallOrdPairs (fun a b => ~ (num1 a == num1 b)%Q) (concat bodies1) ->
  let sorting := sort_main utf8_ok name_ok uni_alpha uni_alnum expr expr_new expr_lookup expr_eval expr_eval_line expr_none exp10 bh_push bh_pop cap size md in
  content s0 = fst (sorting args0 fs0) -> wf_src s0 -> 4 <= List.length (fst (fill_buf s0)) -> utf8_ok (headline names0) = true ->
  content s1 = fst (sorting args1 fs1) -> wf_src s1 -> 4 <= List.length (fst (fill_buf s1)) -> utf8_ok (headline names1) = true ->
  join_known args -> values (bs "key") args [text_of_key w] -> values (bs "output") args (map output_text askss) ->
  values (bs "file") args outs -> values (bs "also") args (map also_text alsos) ->
  wanted_ok (alphabetic uni_alpha) (alphanumeric uni_alnum) [names0; names1] w -> wk_cmp w = CF64 -> wk_rev w = false -> key_of 0 w0 w -> key_of 1 w1 w ->
  Forall (fun a => a <> [] /\ Forall (ask_ok (alphabetic uni_alpha) (alphanumeric uni_alnum)) a) askss ->
  (N.of_nat (List.length names0) < 2 ^ 64)%N -> (N.of_nat (List.length names1) < 2 ^ 64)%N ->
  out_columns (ColProps.maker match_make) [w] [names0; names1] (concat askss) cols -> cols <> [] ->
  Forall (fun a => fst a = 1%N \/ fst a = 2%N) alsos -> NoDup (map fst alsos) ->
  let meets a b := Qeq_bool (num0 a) (num1 b) in
  exists pairs left right,
    join_main utf8_ok uni_alpha uni_alnum T trans_make match_make expr expr_new expr_lookup expr_eval expr_eval_line expr_none exp10 expr_used args [s0; s1] =
    Ok ((last outs (bs "-"), headline (names_of cols [names0; names1]) ++ concat (map (fun p => row_text cols [fst p; snd p]) pairs)) ::
        map (fun a => (snd a, if (fst a =? 1)%N then headline names0 ++ concat left else headline names1 ++ concat right)) alsos) /\
    Permutation pairs (filter (fun p => meets (fst p) (snd p)) (list_prod (concat bodies0) (concat bodies1))) /\
    StronglySorted (fun p q => num0 (fst p) <= num0 (fst q))%Q pairs /\
    Permutation left (filter (fun a => negb (existsb (fun b => meets a b) (concat bodies1))) (concat bodies0)) /\
    Permutation right (filter (fun b => negb (existsb (fun a => meets a b) (concat bodies0))) (concat bodies1)).
Proof.
  intros e10 X10 u no ua un T tm mm ex en el ee eel eno eu K cap size md args0 w0 names0 fs0 bodies0 args1 w1 names1 fs1 bodies1 num0 num1 s0 s1 args w askss alsos outs cols
    HK Hc Hc0 Hs KN NM NC NC2 NU V WO NF NE F L RD KN' NM' NC' NC2' NU' V' WO' NF' NE' F' L' RD' AD sorting C0 W0 H0 U0 C1 W1 H1 U1 JK JV JO JF JA JW CF RV (KC0 & KR0 & KP0) (KC1 & KR1 & KP1) AO N0 N1 OC CN AS ND meets.
  assert (NI : forall v q, reads_as K v q -> number_is K v q) by (intros v q (d & r & A1 & A2 & _ & A3 & A4); exists d, r; auto).
  assert (SORT : forall args0 w0 names0 fs0 bodies0 num0 s0, known args0 -> ~ given (bs "merge") args0 -> ~ given (bs "check") args0 -> ~ given (bs "Check") args0 -> ~ given (bs "unique") args0 ->
    values (bs "key") args0 [text_of_key w0] -> wanted_ok (alphabetic ua) (alphanumeric un) [names0] w0 -> names_fit u no names0 -> fs0 <> [] ->
    Forall2 (fun f b => content (fst f) = headline names0 ++ concat b) fs0 bodies0 -> lines_fit cap (concat bodies0) ->
    (forall l, In l (concat bodies0) -> reads_as K (value_of w0 l) (num0 l)) -> wk_cmp w0 = CF64 -> wk_rev w0 = false ->
    content s0 = fst (sorting args0 fs0) -> wf_src s0 -> 4 <= List.length (fst (fill_buf s0)) -> u (headline names0) = true ->
    exists out, Permutation (concat bodies0) out /\ StronglySorted (fun a b => num0 a <= num0 b)%Q out /\ PasteProofs.shows u join_mode s0 (mkshown (headline names0) names0 out)).
  { clear - X10 HK Hc Hc0 Hs. intros args0 w0 names0 fs0 bodies0 num0 s0 KN NM NC NC2 NU V WO NF NE F L RD CF RV C0 W0 H0 U0.
    destruct (ValProps.c87_named e10 X10 u no ua un ex en el ee eel eno cap size md args0 [w0] names0 fs0 bodies0) as (out & E & [_ R] & _); auto.
    { left. auto. }
    { apply Forall_forall. intros l I. constructor; [|constructor]. rewrite CF. eapply reads_value; eauto. }
    specialize (R NU). destruct R as [PO SO]. unfold sorting in C0. rewrite E in C0. cbn [fst] in C0. exists out. split; [exact PO|]. split.
    - assert (RO : forall l, In l out -> reads_as K (value_of w0 l) (num0 l)) by (intros l I; apply RD; eapply Permutation_in; [symmetry; exact PO|exact I]).
      clear - SO RO CF RV HK. unfold sorted in SO. induction SO as [|x l S IH G]; constructor; [apply IH; intros; apply RO; right; auto|]. rewrite Forall_forall in *. intros y I. apply Qle_alt. specialize (G y I).
      rewrite (ValDec.one_key K HK e10 w0 x y (num0 x) (num0 y)) in G by (auto; apply RO; cbn; auto). rewrite RV in G. exact G.
    - apply (JoinMainProps.c76_headed u no names0 s0 out); auto. pose proof (PipeProps.fit_whole _ _ L) as WL. eapply Permutation_Forall; [exact PO|exact WL]. }
  destruct (SORT args0 w0 names0 fs0 bodies0 num0 s0) as (out0 & P0 & S0 & SH0); auto; try congruence.
  destruct (SORT args1 w1 names1 fs1 bodies1 num1 s1) as (out1 & P1 & S1 & SH1); auto; try congruence. clear SORT.
  assert (S1' : StronglySorted (fun a b => num1 a < num1 b)%Q out1).
  { assert (D : ForallOrdPairs (fun a b => ~ (num1 a == num1 b)%Q) out1).
    { clear - AD P1. induction P1 as [|x l r P IH|x y l|l m r P IH Q IQ]; auto.
      - inversion AD as [|? ? G D]; subst. constructor; auto. eapply Permutation_Forall; eauto.
      - inversion AD as [|? ? G D]; subst. inversion D as [|? ? G2 D2]; subst. inversion G; subst. constructor; [constructor; auto; intros X; apply Qeq_sym in X; auto|constructor; auto]. }
    clear - S1 D. induction S1 as [|x l S IH G]; constructor; inversion D as [|? ? G2 D2]; subst; auto. rewrite Forall_forall in *. intros y I. specialize (G y I). specialize (G2 y I).
    destruct (Qlt_le_dec (num1 x) (num1 y)) as [H|H]; auto. destruct G2. apply Qle_antisym; auto. }
  exists (filter (fun p => meets (fst p) (snd p)) (list_prod out0 out1)), (filter (fun a => negb (existsb (fun b => meets a b) out1)) out0), (filter (fun b => negb (existsb (fun a => meets a b) out0)) out1).
  split; [|split; [|split; [|split]]].
  - pose proof (c89_join_numbers e10 X10 u ua un ex en el ee eel eno T tm mm eu K args w askss alsos outs s0 s1 (mkshown (headline names0) names0 out0) (mkshown (headline names1) names1 out1) cols num0 num1 HK JK JV JO JF JA) as Q.
    cbn [sh_head sh_names sh_lines] in Q. cbv zeta in Q. fold meets in Q. rewrite Q; auto.
    + apply Forall_forall. intros l I. apply NI. unfold value_of in RD. rewrite <- KP0. apply RD. eapply Permutation_in; [symmetry; exact P0|exact I].
    + apply Forall_forall. intros l I. apply NI. unfold value_of in RD'. rewrite <- KP1. apply RD'. eapply Permutation_in; [symmetry; exact P1|exact I].
    + intros a _. left. destruct (fst a =? 1)%N; discriminate.
  - apply perm_filter. transitivity (list_prod out0 (concat bodies1)).
    + clear - P1. induction out0 as [|a l IH]; [reflexivity|]. cbn [list_prod]. apply Permutation_app; auto. apply Permutation_map. symmetry. auto.
    + clear - P0. induction P0 as [|x l r P IH|x y l|l m r P IH Q IQ]; [reflexivity| | |].
      * cbn [list_prod]. apply Permutation_app_head. auto.
      * cbn [list_prod]. rewrite !app_assoc. apply Permutation_app_tail. apply Permutation_app_comm.
      * etransitivity; eauto.
  - clear - S0. induction S0 as [|x l S IH G]; [constructor|]. cbn [list_prod]. rewrite filter_app.
    assert (AP : forall l r : list (bytes * bytes), StronglySorted (fun p q => num0 (fst p) <= num0 (fst q))%Q l -> StronglySorted (fun p q => num0 (fst p) <= num0 (fst q))%Q r -> (forall a b, In a l -> In b r -> num0 (fst a) <= num0 (fst b))%Q -> StronglySorted (fun p q => num0 (fst p) <= num0 (fst q))%Q (l ++ r)).
    { intros l0 r0 A B C. induction A as [|z l0 A IHA H]; [exact B|]. cbn [app]. constructor; [apply IHA; intros; apply C; cbn; auto|]. apply Forall_app. split; auto. apply Forall_forall. intros y I. apply C; cbn; auto. }
    apply AP; [|exact IH|].
    + clear. induction out1 as [|b r IHr]; [constructor|]. cbn [map filter fst snd]. destruct (meets x b); [|exact IHr]. constructor; [exact IHr|]. apply Forall_forall. intros q I. apply filter_In in I as [I _]. apply in_map_iff in I as (z & <- & _). cbn [fst]. apply Qle_refl.
    + intros a b I J. apply filter_In in I as [I _]. apply in_map_iff in I as (z & <- & _). apply filter_In in J as [J _]. destruct b as [b1 b2]. apply in_prod_iff in J as [J _]. cbn [fst]. rewrite Forall_forall in G. auto.
  - rewrite (filter_ext (fun a => negb (existsb (fun b => meets a b) out1)) (fun a => negb (existsb (fun b => meets a b) (concat bodies1)))) by (intros a; f_equal; apply exists_perm; symmetry; auto). apply perm_filter. symmetry. auto.
  - rewrite (filter_ext (fun b => negb (existsb (fun a => meets a b) out0)) (fun b => negb (existsb (fun a => meets a b) (concat bodies0)))) by (intros b; f_equal; apply exists_perm; symmetry; auto). apply perm_filter. symmetry. auto.
Qed.

(** * Examples *)
Import OrderProps DecProps ValProps.
Notation nm := JoinMainProps.nm0.
Notation nmk := JoinMainProps.nm1.
Notation ln3 := JoinMainProps.ln3.
(** The number in the first column of the lines below. *)
Definition told : list (string * Q) := [("10.50", 21#2); ("9", 9); ("9.00", 9); ("9.0", 9); ("-2.5", -5#2); ("0.3", 3#10); (".30", 3#10); ("0.30", 3#10); ("100", 100); ("-0", 0); ("0", 0)]%string%Q.
Definition num_ex (l : bytes) : Q := match find (fun p => beq (nth 0 (fields l) []) (bs (fst p))) told with Some p => snd p | None => 0%Q end.
Definition by_both : wanted := mkw_key [ByName (bs "id"); ByName (bs "kind")] (Method [bs "float"]) (bs "float") CF64 false (fun _ => 0%N).
Definition by_kinds : wanted := mkw_key [ByName (bs "kind")] (Method [bs "float"]) (bs "float") CF64 false (fun _ => 0%N).
Lemma by_both_ok : wanted_ok (alphabetic none) (alphanumeric none) [nm; nmk] by_both.
Proof.
  unfold wanted_ok. cbn [wk_cols wk_tail wk_kind wk_cmp wk_rev wk_pos by_both]. split; [discriminate|]. split; [repeat constructor; try discriminate; vm_compute; auto|].
  assert (WR : word_ok (bs "float")) by (vm_compute; intuition discriminate).
  split; [split; [discriminate|repeat constructor; auto; apply WR]|].
  split; [left; exists [], []; split; [reflexivity|split; [apply not_mod; reflexivity|constructor]]|].
  split; [left; exists (bs "float"); split; [cbn; auto 10|apply same_refl]|]. split; [split; [discriminate|intros (w & [<-|[]] & H); apply MatchText.same_word_iff in H; discriminate H]|].
  intros f ns E. destruct f as [|[|f]]; [| |destruct f; discriminate E]; injection E as <-; (split; [reflexivity|]); intros j L; cbn in L; lia.
Qed.
Lemma by_kinds_ok : wanted_ok (alphabetic none) (alphanumeric none) [nmk] by_kinds.
Proof. apply (key_ready _ _ (bs "float") CF64 false); [split; [repeat constructor; try discriminate; vm_compute; auto|split; [reflexivity|intros [|j] L; lia]]|cbn; auto 10|vm_compute; intuition discriminate|reflexivity|reflexivity]. Qed.
Lemma is_number : forall d l, beq (nth 0 (fields l) []) (dec_text d) = true -> few 2 d -> Qeq_bool (num_ex l) (dec_frac d) = true -> number_is 2 (nth 0 (fields l) []) (num_ex l).
Proof. intros d l V F H. exists d, []. rewrite app_nil_r. split; auto. split; [exact I|]. split; [apply beq_eq; auto|apply Qeq_bool_iff; auto]. Qed.
Lemma is_read : forall w d l, beq (nth 0 (fields l) []) (dec_text d) = true -> wk_pos w 0 = 0%N -> few 2 d -> Qeq_bool (num_ex l) (dec_frac d) = true -> (d_sign d = SMinus -> ~ (dec_frac d == 0)%Q) -> reads_as 2 (value_of w l) (num_ex l).
Proof. intros w d l V P F H Z. exists d, []. split; auto. split; [exact I|]. split; auto. unfold value_of. rewrite P. change (N.to_nat 0) with 0. rewrite app_nil_r. split; [apply beq_eq; auto|apply Qeq_bool_iff; auto]. Qed.
Definition few_says (K : nat) (d : decimal) : bool :=
  forallb (fun c => (48 <=? c) && (c <=? 57))%N (d_int d ++ frac_digits d) && negb (match d_int d ++ frac_digits d with [] => true | _ => false end) &&
  match d_exp d, d_unit d with None, None => true | _, _ => false end && (List.length (frac_digits d) <=? K) && (digits_val (d_int d) * 10 ^ Z.of_nat K <? 10 ^ 14)%Z.
Lemma few_dec : forall K d, few_says K d = true -> few K d.
Proof.
  intros K d H. unfold few_says in H. rewrite !andb_true_iff in H. destruct H as ((((H1 & H2) & H3) & H4) & H5).
  assert (D : Forall digit_byte (d_int d ++ frac_digits d)). { apply Forall_forall. intros c I. rewrite forallb_forall in H1. specialize (H1 c I). apply andb_prop in H1 as [A B]. apply N.leb_le in A, B. split; auto. }
  apply Forall_app in D as [D1 D2]. destruct (d_exp d) eqn:E; [discriminate|]. destruct (d_unit d) eqn:U; [discriminate|]. unfold few, dec_ok. rewrite E, U.
  split; [split; [exact D1|split; [exact D2|split; [|auto]]]|]. { intros X. rewrite X in H2. discriminate. }
  split; auto. split; auto. split; [apply Nat.leb_le; auto|apply Z.ltb_lt; auto].
Qed.
Definition whole (s : string) : decimal := mkdec SNone (bs s) None None None.
Definition left_ex : list bytes := [ln "-2.5" "c"; ln "0.3" "e"; ln ".30" "g"; ln "9" "b"; ln "9.00" "d"; ln "10.50" "a"].
Definition right_ex : list bytes := [ln3 "0.30" "6" "4"; ln3 "9.0" "2" "1"; ln3 "100" "0" "0"].
Definition sleft_ex : src := mksrc [] [headline nm ++ concat left_ex].
Definition sright_ex : src := mksrc [] [headline nmk; concat right_ex].
Lemma ex_shows : PasteProofs.shows yes join_mode sleft_ex (mkshown (headline nm) nm left_ex) /\ PasteProofs.shows yes join_mode sright_ex (mkshown (headline nmk) nmk right_ex).
Proof.
  assert (W : forall cap ls, forallb _ ls = true -> Forall whole_line ls) by (intros cap ls H; pose proof (fit_dec cap ls H) as F; eapply Forall_impl; [|exact F]; cbn; tauto).
  split; (eapply (JoinMainProps.c76_headed yes yes); [apply PipeProps.nm_fit|reflexivity|repeat constructor; discriminate|reflexivity|apply (W 50); reflexivity|cbn; lia]).
Qed.
Ltac is_tac := first
  [ apply (is_number (price SNone "10" "50")); [vm_compute; reflexivity|apply few_dec; vm_compute; reflexivity|vm_compute; reflexivity]
  | apply (is_number (whole "9")); [vm_compute; reflexivity|apply few_dec; vm_compute; reflexivity|vm_compute; reflexivity]
  | apply (is_number (whole "100")); [vm_compute; reflexivity|apply few_dec; vm_compute; reflexivity|vm_compute; reflexivity]
  | apply (is_number (price SNone "9" "0")); [vm_compute; reflexivity|apply few_dec; vm_compute; reflexivity|vm_compute; reflexivity]
  | apply (is_number (price SNone "9" "00")); [vm_compute; reflexivity|apply few_dec; vm_compute; reflexivity|vm_compute; reflexivity]
  | apply (is_number (price SMinus "2" "5")); [vm_compute; reflexivity|apply few_dec; vm_compute; reflexivity|vm_compute; reflexivity]
  | apply (is_number (price SNone "0" "3")); [vm_compute; reflexivity|apply few_dec; vm_compute; reflexivity|vm_compute; reflexivity]
  | apply (is_number (price SNone "0" "30")); [vm_compute; reflexivity|apply few_dec; vm_compute; reflexivity|vm_compute; reflexivity]
  | apply (is_number (price SNone "" "30")); [vm_compute; reflexivity|apply few_dec; vm_compute; reflexivity|vm_compute; reflexivity] ].
Lemma left_numbers : numbered_by 2 fields 0 num_ex left_ex.
Proof. repeat (constructor; [is_tac|]). constructor. Qed.
Lemma right_numbers : numbered_by 2 fields 0 num_ex right_ex.
Proof. repeat (constructor; [is_tac|]). constructor. Qed.
Definition join_num_args : list (bytes * bytes) := [(bs "key", bs "id.kind,float"); (bs "also", bs "1,left"); (bs "also", bs "2,right")].
Definition joined_ex : res (list (bytes * bytes)) :=
  Ok [(bs "-", headline [bs "id"; bs "animal"; bs "legs"; bs "wings"] ++ concat (map (fun p => bs (fst p) ++ TAB :: snd p)
        [("0.3"%string, ln3 "e" "6" "4"); (".30"%string, ln3 "g" "6" "4"); ("9"%string, ln3 "b" "2" "1"); ("9.00"%string, ln3 "d" "2" "1")]));
      (bs "left", headline nm ++ ln "-2.5" "c" ++ ln "10.50" "a"); (bs "right", headline nmk ++ ln3 "100" "0" "0")].
(** 0.3, .30 and 0.30 are the same number, and 9, 9.00 and 9.0. *)
Example c89_join_numbers_ex : join_known join_num_args /\ values (bs "key") join_num_args [text_of_key by_both] /\ wanted_ok (alphabetic none) (alphanumeric none) [nm; nmk] by_both /\
  numbered_by 2 fields 0 num_ex left_ex /\ numbered_by 2 fields 0 num_ex right_ex /\ out_columns (ColProps.maker ColProps.ex_match) [by_both] [nm; nmk] [] [(0, 0); (0, 1); (1, 1); (1, 2)] /\
  PasteProofs.shows yes join_mode sleft_ex (mkshown (headline nm) nm left_ex) /\ PasteProofs.shows yes join_mode sright_ex (mkshown (headline nmk) nmk right_ex) /\
  StronglySorted (fun a b => num_ex a <= num_ex b)%Q left_ex /\ StronglySorted (fun a b => num_ex a < num_ex b)%Q right_ex /\
  JoinMainProps.ex_join join_num_args [sleft_ex; sright_ex] = joined_ex.
Proof.
  split; [repeat (constructor; [cbn; auto 10|]); constructor|]. split; [apply (val_this (bs "key") (bs "id.kind,float")); repeat (constructor; [discriminate|]); constructor|]. split; [exact by_both_ok|].
  split; [exact left_numbers|]. split; [exact right_numbers|]. split; [reflexivity|]. split; [apply ex_shows|]. split; [apply ex_shows|].
  split; [repeat constructor; vm_compute; discriminate|]. split; [repeat constructor|vm_compute; reflexivity].
Qed.
(** Two keys, an exponent: not covered by the decimals, but by the general statement. *)
Definition left2_ex : list bytes := [ln "-0" "c"; ln "0" "e"; ln "1e1" "g"].
Definition right2_ex : list bytes := [ln3 "0.0" "6" "4"; ln3 "10" "2" "1"].
Example c89_join_ex : Forall (fun l => cols_count exp_ex 0 [by_both] (fields l)) left2_ex /\ Forall (fun l => cols_count exp_ex 1 [by_both] (fields l)) right2_ex /\
  ordered_by (keyed exp_ex [by_both]) (of_file 0) left2_ex /\ strictly_by (keyed exp_ex [by_both]) (of_file 1) right2_ex /\
  JoinMainProps.ex_join [(bs "key", bs "id.kind,float")] [mksrc [] [headline nm ++ concat left2_ex]; mksrc [] [headline nmk ++ concat right2_ex]] =
    Ok [(bs "-", headline [bs "id"; bs "animal"; bs "legs"; bs "wings"] ++ concat (map (fun p => bs (fst p) ++ TAB :: snd p) [("-0"%string, ln3 "c" "6" "4"); ("0"%string, ln3 "e" "6" "4"); ("1e1"%string, ln3 "g" "2" "1")]))].
Proof.
  split; [repeat constructor; vm_compute; discriminate|]. split; [repeat constructor; vm_compute; discriminate|]. split; [repeat constructor; vm_compute; discriminate|]. split; [repeat constructor|vm_compute; reflexivity].
Qed.

Definition pick_lines : list bytes := [ln "10" "bee"; ln "9.5" "bee"; ln "9" "bee"; ln "9.0" "bee"; ln "3" "cow"].
Definition pick_src : src := mksrc [] [headline nm ++ concat pick_lines].
Definition pick_args (m : string) : list (bytes * bytes) := [(bs "key", bs "animal"); (bs "which", bs m ++ bs ",id,float")].
(** As texts 10 would be the smallest. *)
Example c89_pick_ex : values (bs "which") (pick_args "min") (map pick_text [(bs "min", Some (by_amount false))]) /\ pick_means (bs "min", Some (by_amount false)) Min /\
  pick_keys (bs "min", Some (by_amount false)) = [by_amount false] /\
  Forall (fun l => cols_count exp_ex 0 [by_amount false] (parted TAB l)) pick_lines /\
  UniqMainProps.ex_uniq join_mode (pick_args "min") pick_src = (headline nm ++ ln "9" "bee" ++ ln "3" "cow", Ok tt) /\
  UniqMainProps.ex_uniq join_mode (pick_args "max") pick_src = (headline nm ++ ln "10" "bee" ++ ln "3" "cow", Ok tt).
Proof.
  split; [apply val_other; [discriminate|]; apply (val_this (bs "which") (bs "min,id,float")); constructor|].
  split; [split; [vm_compute; intuition discriminate|exists (bs "min"); split; [cbn; auto|apply MatchText.same_word_iff; reflexivity]]|]. split; [reflexivity|].
  split; [repeat constructor; vm_compute; discriminate|]. split; vm_compute; reflexivity.
Qed.

Definition mixed : list (list bytes) := [[ln "10.50" "a"; ln "9" "b"; ln ".30" "g"]; [ln "-2.5" "c"; ln "9.00" "d"; ln "0.3" "e"]].
Ltac reads_tac := first
  [ apply (is_read _ (price SNone "10" "50")); [vm_compute; reflexivity|reflexivity|apply few_dec; vm_compute; reflexivity|vm_compute; reflexivity|discriminate]
  | apply (is_read _ (whole "9")); [vm_compute; reflexivity|reflexivity|apply few_dec; vm_compute; reflexivity|vm_compute; reflexivity|discriminate]
  | apply (is_read _ (whole "100")); [vm_compute; reflexivity|reflexivity|apply few_dec; vm_compute; reflexivity|vm_compute; reflexivity|discriminate]
  | apply (is_read _ (price SNone "9" "0")); [vm_compute; reflexivity|reflexivity|apply few_dec; vm_compute; reflexivity|vm_compute; reflexivity|discriminate]
  | apply (is_read _ (price SNone "9" "00")); [vm_compute; reflexivity|reflexivity|apply few_dec; vm_compute; reflexivity|vm_compute; reflexivity|discriminate]
  | apply (is_read _ (price SMinus "2" "5")); [vm_compute; reflexivity|reflexivity|apply few_dec; vm_compute; reflexivity|vm_compute; reflexivity|intros _; discriminate]
  | apply (is_read _ (price SNone "0" "3")); [vm_compute; reflexivity|reflexivity|apply few_dec; vm_compute; reflexivity|vm_compute; reflexivity|discriminate]
  | apply (is_read _ (price SNone "0" "30")); [vm_compute; reflexivity|reflexivity|apply few_dec; vm_compute; reflexivity|vm_compute; reflexivity|discriminate]
  | apply (is_read _ (price SNone "" "30")); [vm_compute; reflexivity|reflexivity|apply few_dec; vm_compute; reflexivity|vm_compute; reflexivity|discriminate] ].
Lemma mixed_reads : forall rev l, In l (concat mixed) -> reads_as 2 (value_of (by_amount rev) l) (num_ex l).
Proof. intros rev l I. cbn [mixed concat app In] in I. destruct I as [<-|[<-|[<-|[<-|[<-|[<-|[]]]]]]]; reads_tac. Qed.
Definition mixed_sorted : bytes := headline ex_names ++ ln "10.50" "a" ++ ln "9" "b" ++ ln "9.00" "d" ++ ln ".30" "g" ++ ln "0.3" "e" ++ ln "-2.5" "c".
Example c89_count_ex : (forall l, In l (concat mixed) -> reads_as 2 (value_of (by_amount true) l) (num_ex l)) /\ lines_fit 99 (concat mixed) /\
  fst (ex_main 99 ex_mode [(bs "key", bs "id,float.rev")] (map ex_file mixed)) = mixed_sorted /\ wf_src (mksrc [] [mixed_sorted]) /\ 4 <= List.length (fst (fill_buf (mksrc [] [mixed_sorted]))) /\
  UniqMainProps.ex_uniq join_mode [(bs "key", bs "id,float.rev"); (bs "count", bs "n")] (mksrc [] [mixed_sorted]) =
    (headline (bs "n" :: ex_names) ++ ln3 "1" "10.50" "a" ++ ln3 "2" "9" "b" ++ ln3 "2" ".30" "g" ++ ln3 "1" "-2.5" "c", Ok tt).
Proof.
  split; [apply mixed_reads|]. split; [apply fit_dec; reflexivity|]. split; [vm_compute; reflexivity|]. split; [repeat constructor; discriminate|]. split; [vm_compute; lia|vm_compute; reflexivity].
Qed.
Definition left_loose : list bytes := [ln "9" "b"; ln "-2.5" "c"; ln "10.50" "a"; ln "0.3" "e"; ln ".30" "g"; ln "9.00" "d"].
Definition right_loose : list bytes := [ln3 "9.0" "2" "1"; ln3 "100" "0" "0"; ln3 "0.30" "6" "4"].
Example c89_pairs_ex : (forall l, In l left_loose -> reads_as 2 (value_of (by_amount false) l) (num_ex l)) /\ (forall l, In l right_loose -> reads_as 2 (value_of by_kinds l) (num_ex l)) /\
  wanted_ok (alphabetic none) (alphanumeric none) [nmk] by_kinds /\ key_of 0 (by_amount false) by_both /\ key_of 1 by_kinds by_both /\ ForallOrdPairs (fun a b => ~ (num_ex a == num_ex b)%Q) right_loose /\
  fst (ex_main 99 ex_mode [(bs "key", bs "id,float")] [(mksrc [] [headline nm ++ concat left_loose], [])]) = content sleft_ex /\
  fst (ex_main 99 ex_mode [(bs "key", bs "kind,float")] [(mksrc [] [headline nmk ++ concat right_loose], [])]) = content sright_ex /\
  JoinMainProps.ex_join join_num_args [sleft_ex; sright_ex] = joined_ex.
Proof.
  split; [intros l I; cbn [left_loose In] in I; destruct I as [<-|[<-|[<-|[<-|[<-|[<-|[]]]]]]]; reads_tac|]. split; [intros l I; cbn [right_loose In] in I; destruct I as [<-|[<-|[<-|[]]]]; reads_tac|].
  split; [exact by_kinds_ok|]. split; [repeat split|]. split; [repeat split|]. split; [repeat constructor; vm_compute; discriminate|]. split; [vm_compute; reflexivity|]. split; vm_compute; reflexivity.
Qed.

(** * Where it fails *)
(** The same number with a unit is another key: 1001 and 1.001k are not joined and counted apart. *)
Theorem c89_unit_refuted : exists a b, dec_ok a /\ dec_ok b /\ (dec_frac a * inject_Z (unit_value a) == dec_frac b * inject_Z (unit_value b))%Q /\
  JoinMainProps.ex_join [(bs "key", bs "1.1,float")] [mksrc [] [dec_text a ++ [NL]]; mksrc [] [dec_text b ++ [NL]]] = Ok [(bs "-", [])] /\
  UniqMainProps.ex_uniq join_mode [(bs "key", bs "1,float"); (bs "count", bs "n")] (mksrc [] [dec_text a ++ NL :: dec_text b ++ [NL]]) =
    ((bs "1" ++ TAB :: dec_text a ++ [NL]) ++ (bs "1" ++ TAB :: dec_text b ++ [NL]), Ok tt).
Proof.
  exists (whole "1001"), (mkdec SNone (bs "1") (Some (bs "001")) None (Some 107%N)).
  split; [unfold dec_ok; cbn; repeat split; try discriminate; auto; repeat constructor; lia|]. split; [unfold dec_ok; cbn; repeat split; try discriminate; auto; repeat constructor; lia|].
  split; [vm_compute; reflexivity|]. split; vm_compute; reflexivity.
Qed.
(** A value that is not a number is unlike itself: two lines that are the same, byte for byte, are counted apart and do not meet. *)
Theorem c89_same_refuted : exists l, whole_line l /\
  UniqMainProps.ex_uniq join_mode [(bs "key", bs "1,float"); (bs "count", bs "n")] (mksrc [] [l ++ l]) = ((bs "1" ++ TAB :: l) ++ (bs "1" ++ TAB :: l), Ok tt) /\
  JoinMainProps.ex_join [(bs "key", bs "1.1,float")] [mksrc [] [l]; mksrc [] [l]] = Ok [(bs "-", [])].
Proof.
  exists (bs "0e400" ++ [NL]). split; [exists (bs "0e400"); split; [reflexivity|vm_compute; intuition discriminate]|]. split; vm_compute; reflexivity.
Qed.
