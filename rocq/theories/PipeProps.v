(** C83: tools run one after the other. *)
From Coq Require Import String List NArith ZArith Bool Arith Lia Sorting.Permutation Sorting.Sorted.
Open Scope list_scope.
Import ListNotations.
From Verif Require Import Base TextSpec FloatModel CompModel CompSpec ReadModel ReadSpec ReadProofs HeadModel HdrModel MatchModel MatchSpec OrdProofs LineSpec LineProofs SortSpec HeapProofs SortModel KeySpec KeyModel KeyProofs KeyProps ToolModel PasteSpec PasteProofs NumbProofs
  OrderModel OrderSpec OrderProofs OrderTool UniqModel UniqSpec UniqMainSpec UniqMain JoinSpec JoinMain JoinMainSpec JoinMainTool BinSpec BinMain BinMainSpec BinMainProofs PipeSpec PipeProofs.
From Verif Require OrderProps UniqMainProps JoinMainProps BinMainProps ColProps NumbProps BinProofs ColModel.
Close Scope Z_scope. Open Scope nat_scope.

Lemma by_fields_pre e10 ws : Forall (fun w => plain_kind (wk_cmp w)) ws -> first_forward ws -> total_preorder (by_fields e10 ws).
Proof. intros P F. destruct ws as [|w ws]; [destruct F|]. exact (shown_order_pre e10 fields (w :: ws) P). Qed.
Lemma given_or n args : given n args \/ ~ given n args.
Proof.
  induction args as [|[m v] args IH]; [right; intros (v & [])|]. destruct (list_eq_dec N.eq_dec m n) as [->|D]; [left; exists v; left; auto|].
  destruct IH as [(v' & I)|N]; [left; exists v'; right; auto|]. right. intros (v' & [E|I]); [congruence|]. apply N. exists v'. auto.
Qed.
Lemma fit_whole cap ls : lines_fit cap ls -> Forall whole_line ls.
Proof. intros F. eapply Forall_impl; [|exact F]. cbn. tauto. Qed.

(** What sort writes is read by sort again: nothing changes, with or without unique, if it fits into the buffer. *)
Theorem c83_again : forall utf8_ok name_ok uni_alpha uni_alnum expr expr_new expr_lookup expr_eval expr_eval_line expr_none exp10 cap size md args ws names fs bodies s sched,
  sort_run utf8_ok name_ok (alphabetic uni_alpha) (alphanumeric uni_alnum) cap size args ws names fs bodies ->
  let sorting := sort_main utf8_ok name_ok uni_alpha uni_alnum expr expr_new expr_lookup expr_eval expr_eval_line expr_none exp10 bh_push bh_pop cap size md args in
  content s = fst (sorting fs) -> List.length (content s) < cap -> sorting [(s, sched)] = sorting fs.
Proof.
  intros u no ua un ex en el ee eel eno e10 cap size md args ws names fs bodies s sched (K & NM & NC & NC2 & V & WO & WK & WF & Hc & Hc0 & Hs & NF & NE & F & L) sorting C SZ.
  destruct (OrderProps.c75_named u no ua un ex en el ee eel eno e10 cap size md args ws names fs bodies K NM NC NC2 V WO WK WF Hc Hc0 Hs NF NE F L) as (out & E & R & _).
  fold sorting in E. rewrite E in *. cbn [fst] in C. pose proof (by_fields_pre e10 ws WK WF) as PRE.
  assert (LO : lines_fit cap out).
  { unfold lines_fit in *. rewrite Forall_forall in *. intros x I. apply L. destruct R as [R1 R2]. destruct (given_or (bs "unique") args) as [G|G]; [apply (R1 G); auto|]. destruct (R2 G) as [P _]. eapply Permutation_in; [symmetry|]; eauto. }
  destruct (OrderProps.c75_named u no ua un ex en el ee eel eno e10 cap size md args ws names [(s, sched)] [out] K NM NC NC2 V WO WK WF Hc Hc0 Hs NF ltac:(discriminate)) as (out2 & E2 & _ & X).
  - constructor; [exact C|constructor].
  - cbn [concat]. rewrite app_nil_r. auto.
  - fold sorting in E2. rewrite E2. cbn [concat] in X. rewrite app_nil_r in X. destruct X as [X1 X2]. { rewrite C, app_length in SZ. lia. }
    replace out2 with out; [reflexivity|]. symmetry. destruct R as [R1 R2]. destruct (given_or (bs "unique") args) as [G|G].
    + destruct (R1 G) as [R _]. apply (first_again _ PRE); auto.
    + destruct (R2 G) as [_ R]. apply (sort_again _ PRE); auto.
Qed.

(** What sort writes is read by uniq with the same keys: one line for every key of all files, and the count, if wanted, is that of all lines with it.
    Of each group the line that --which asks for. *)
Theorem c83_uniq : forall utf8_ok name_ok uni_alpha uni_alnum expr expr_new expr_lookup expr_eval expr_eval_line expr_none exp10 decode is_space is_alnum comp_make agg_expr print_num
    cap size md args ws names fs bodies cdx ot uargs s cts counts ps kinds,
  sort_run utf8_ok name_ok (alphabetic uni_alpha) (alphanumeric uni_alnum) cap size args ws names fs bodies -> ~ given (bs "unique") args ->
  content s = fst (sort_main utf8_ok name_ok uni_alpha uni_alnum expr expr_new expr_lookup expr_eval expr_eval_line expr_none exp10 bh_push bh_pop cap size md args fs) ->
  wf_src s -> 4 <= List.length (fst (fill_buf s)) -> utf8_ok (headline names) = true ->
  Forall (fun a => In (fst a) [bs "key"; bs "count"; bs "which"]) uargs -> values (bs "key") uargs (map text_of_key ws) ->
  values (bs "count") uargs cts -> Forall2 count_says cts counts -> values (bs "which") uargs (map pick_text ps) -> Forall2 pick_means ps kinds ->
  Forall (fun p => Forall (wanted_ok (alphabetic uni_alpha) (alphanumeric uni_alnum) [names]) (pick_keys p)) ps ->
  let c := last counts ([], CNone) in
  let pk := pick_keys (last ps ([], None)) in
  Forall (fun w => plain_kind (wk_cmp w)) pk -> counted_names c names <> [] -> proper uni_alpha uni_alnum (counted_names c names) ->
  let group x := filter (fun y => match by_fields exp10 ws x y with Eq => true | _ => false end) (concat bodies) in
  exists xs,
    uniq_main utf8_ok uni_alpha uni_alnum expr expr_new expr_lookup expr_eval expr_eval_line expr_none exp10 decode is_space is_alnum comp_make agg_expr print_num join_mode cdx ot uargs s =
      (head_line cdx (ColModel.tm_delim ot) (counted_names c names) ++ concat (map (fun x => run_text (snd c) (List.length (group x)) (removelast x) TAB ++ [NL]) xs), Ok tt) /\
    one_of_groups (by_fields exp10 ws) (concat bodies) xs /\
    forall x y, In x xs -> In y (group x) ->
      match last kinds First with Min => shown_order exp10 fields pk x y <> Gt | Max => shown_order exp10 fields pk x y <> Lt | _ => True end.
Proof.
  intros u no ua un ex en el ee eel eno e10 de isp ial cm ae pn cap size md args ws names fs bodies cdx ot uargs s cts counts ps kinds (K & NM & NC & NC2 & V & WO & WK & WF & Hc & Hc0 & Hs & NF & NE & F & L)
    NU C W H4 HU UK VK VC FC VW FW WP c pk PKK CN PR group.
  destruct (OrderProps.c75_named u no ua un ex en el ee eel eno e10 cap size md args ws names fs bodies K NM NC NC2 V WO WK WF Hc Hc0 Hs NF NE F L) as (out & E & [_ R] & _).
  specialize (R NU). destruct R as [PO SO]. rewrite E in C. cbn [fst] in C. pose proof (by_fields_pre e10 ws WK WF) as PRE.
  assert (WL : Forall whole_line out). { pose proof (fit_whole _ _ L) as WL. eapply Permutation_Forall; [exact PO|exact WL]. }
  pose proof (JoinMainProps.c76_headed u no names s out NF HU W C WL H4) as SH.
  assert (WN : ws <> []) by (destruct ws; [destruct WF|discriminate]).
  assert (KT : key_texts ws = map text_of_key ws) by (destruct ws; [congruence|reflexivity]).
  destruct (UniqMainProps.c77_uniq u ua un ex en el ee eel eno e10 de isp ial cm ae pn join_mode cdx ot uargs s (mkshown (headline names) names out) ws cts counts ps kinds
      UK ltac:(rewrite KT; exact VK) WO VC FC VW FW WP eq_refl eq_refl ltac:(discriminate) ltac:(reflexivity) SH ltac:(left; discriminate) PKK (fun _ => WN) (fun _ => conj CN PR)) as (rs & outs & U1 & U2 & U3).
  cbn [sh_head sh_names sh_lines] in *. fold c in U1, U3. fold pk in U3.
  assert (AL : forall a b, alike e10 (tm_delim join_mode) ws a b = same (by_fields e10 ws) a b). { intros a b. unfold alike, same. destruct ws; [congruence|reflexivity]. }
  assert (R2 : runs_of (same (by_fields e10 ws)) (concat rs) rs).
  { destruct U2 as (_ & U2 & U4). split; [reflexivity|]. split.
    - eapply Forall_impl; [|exact U2]. cbn. intros r [RN RC]. split; auto. clear - RC AL. induction r as [|a [|b r] IH]; [exact I|exact I|]. destruct RC as [R1 RC]. split; [rewrite <- AL; exact R1|exact (IH RC)].
    - clear - U4 AL. induction rs as [|r [|q rs] IH]; [exact I|exact I|]. destruct U4 as [(p & x & y & t & A1 & A2 & A3) U4]. split; [|exact (IH U4)]. exists p, x, y, t. rewrite <- AL. auto. }
  destruct U2 as (CC & _). rewrite <- CC in SO, PO, WL. pose proof (runs_groups _ PRE rs R2 SO) as G.
  assert (XS : exists xs, Forall2 (fun r x => chosen (shown_order e10 (parted (tm_delim join_mode)) pk) (last kinds First) r x) rs xs /\ outs = map (fun x => run_text (snd c) (List.length (group x)) (removelast x) TAB ++ [NL]) xs).
  { assert (GL : forall r, In r rs -> forall x, In x r -> List.length r = List.length (group x)).
    { intros r Ir x Ix. rewrite Forall_forall in G. rewrite (G r Ir x Ix) at 1. apply Permutation_length. apply (perm_filter _ _ _ (Permutation_sym PO)). }
    clear - U3 GL. induction U3 as [|r o rs outs (b & X & ->) U3 IH]; [exists []; split; constructor|]. destruct IH as (xs & A & ->); [intros q Q; apply GL; right; auto|].
    exists ((b ++ [NL]) :: xs). split; [constructor; auto|]. cbn [map]. rewrite removelast_last, <- (GL r (or_introl eq_refl)); [reflexivity|]. destruct X as (p & q & -> & _). apply in_or_app. right. left. auto. }
  destruct XS as (xs & X1 & ->). exists xs. split; [|split].
  - rewrite U1. destruct (headline names) eqn:EH; [discriminate EH|]. reflexivity.
  - assert (FI : Forall2 (fun r x => In x r) rs xs). { clear - X1. induction X1 as [|r x rs xs (p & q & -> & _) X1 IH]; constructor; auto. apply in_or_app. right. left. auto. }
    destruct (runs_reps _ PRE rs xs R2 SO FI) as (O1 & O2 & O3). split; [auto|]. split.
    + intros y I. eapply Permutation_in; [symmetry; exact PO|]. auto.
    + intros x I. apply O3. eapply Permutation_in; [exact PO|]. auto.
  - intros x y Ix Iy. assert (EX : exists r, In r rs /\ chosen (shown_order e10 (parted (tm_delim join_mode)) pk) (last kinds First) r x).
    { clear - X1 Ix. induction X1 as [|r z rs xs Z X1 IH]; [destruct Ix|]. destruct Ix as [<-|Ix]; [exists r; split; [left; auto|auto]|]. destruct (IH Ix) as (q & Q1 & Q2). exists q. split; [right; auto|auto]. }
    destruct EX as (r & Ir & (p & q & -> & CH)). pose proof (shown_order_pre e10 fields pk PKK) as P2.
    assert (Jr : In y (p ++ x :: q)).
    { rewrite Forall_forall in G. rewrite (G _ Ir x ltac:(apply in_or_app; right; left; auto)). apply (Permutation_in y (perm_filter (same (by_fields e10 ws) x) _ _ PO)). exact Iy. }
    change (parted (tm_delim join_mode)) with fields in CH. apply in_app_iff in Jr. destruct P2 as (RF & FL & _). destruct (last kinds First); auto.
    + destruct CH as [C1 C2]. rewrite Forall_forall in C1, C2. destruct Jr as [J|[<-|J]]; [rewrite FL, (C1 y J); discriminate|rewrite RF; discriminate|]. specialize (C2 y J). rewrite FL. destruct (shown_order e10 fields pk y x); cbn; congruence.
    + destruct CH as [C1 C2]. rewrite Forall_forall in C1, C2. destruct Jr as [J|[<-|J]]; [rewrite FL, (C1 y J); discriminate|rewrite RF; discriminate|]. specialize (C2 y J). rewrite FL. destruct (shown_order e10 fields pk y x); cbn; congruence.
Qed.

(** * Searching *)
Lemma cut_whole ls : Forall whole_line ls -> cut_lines (concat ls) = ls.
Proof. intros F. induction F as [|l ls H F IH]; [reflexivity|]. cbn [concat]. rewrite cut_head by exact H. rewrite IH. reflexivity. Qed.
Lemma whole_cols l : whole_line l -> line_cols l = fields l.
Proof. intros (b & -> & _). unfold line_cols, bare, fields. rewrite last_last. reflexivity. Qed.
Lemma whole_order e10 ws a b : whole_line a -> whole_line b -> file_order e10 0 ws a b = by_fields e10 ws a b.
Proof. intros A B. unfold file_order, by_fields. rewrite !whole_cols by auto. reflexivity. Qed.
Lemma sorted_same {A} (c d : A -> A -> comparison) l : (forall x y, In x l -> In y l -> c x y = d x y) -> sorted c l -> sorted d l.
Proof.
  intros H S. unfold sorted in *. induction S as [|x l S IH F]; constructor.
  - apply IH. intros a b I J. apply H; right; auto.
  - rewrite Forall_forall in *. intros y I. rewrite <- H; [auto|left; auto|right; auto].
Qed.
(** Lines equal to the values are equal to each other, and lines equal to one of them are. *)
Lemma hits_same e10 ws vs x y : List.length vs = List.length ws -> Forall (fun w => plain_kind (wk_cmp w)) ws -> value_order e10 0 ws vs x = Eq ->
  (value_order e10 0 ws vs y = Eq <-> file_order e10 0 ws x y = Eq).
Proof.
  intros L P. rewrite !value_points by auto. rewrite line_points.
  assert (T : total_preorder (fun p q => first_diff (fun kw => at_points e10 kw p q) (numbered ws))).
  { apply points_preorder. apply Forall_forall. intros [i w] I. cbn [snd]. rewrite Forall_forall in P. apply P. apply in_combine_r in I. auto. }
  set (v := value_point vs). set (px := line_point 0 ws x). set (py := line_point 0 ws y). intros VX. pose proof (same_trans _ T) as TR. pose proof (same_sym _ T) as SY. unfold same in TR, SY. cbn beta in TR, SY.
  assert (XV := SY v px). rewrite VX in XV. split; intros H.
  - specialize (TR px v py). rewrite <- XV, H in TR. specialize (TR eq_refl eq_refl). revert TR. match goal with |- _ -> ?a = Eq => destruct a end; [reflexivity|discriminate|discriminate].
  - specialize (TR v px py). rewrite VX, H in TR. specialize (TR eq_refl eq_refl). revert TR. match goal with |- _ -> ?a = Eq => destruct a end; [reflexivity|discriminate|discriminate].
Qed.
Lemma placed letter alnum names path text ws : Forall (wanted_ok letter alnum [names]) ws -> placed_in ws 0 (mkbf path true names text).
Proof. intros F. unfold placed_in. eapply Forall_impl; [|exact F]. intros w (_ & _ & _ & _ & _ & _ & H). cbn [bf_names]. apply (H 0 names). reflexivity. Qed.

(** What sort writes is searched by binsearch with the same keys: exactly the lines of all files equal to the values are found, in their order if
    all lines fit into the buffer. The header has to be below the values. *)
Theorem c83_search : forall utf8_ok name_ok uni_alpha uni_alnum expr expr_new expr_lookup expr_eval expr_eval_line expr_none exp10 cap size md args ws names fs bodies bargs fn pat vs path,
  sort_run utf8_ok name_ok (alphabetic uni_alpha) (alphanumeric uni_alnum) cap size args ws names fs bodies -> ~ given (bs "unique") args ->
  let text := fst (sort_main utf8_ok name_ok uni_alpha uni_alnum expr expr_new expr_lookup expr_eval expr_eval_line expr_none exp10 bh_push bh_pop cap size md args fs) in
  bin_says (alphabetic uni_alpha) (alphanumeric uni_alnum) bargs ws fn no_context pat -> values_of ws pat vs -> last path 0%N <> 47%N -> utf8_ok (headline names) = true ->
  (Exists (fun w => wk_cmp w = CLen) ws -> (N.of_nat (List.length text) < 2 ^ 32)%N /\ Forall (fun v => N.of_nat (List.length v) < 2 ^ 32)%N vs) ->
  value_order exp10 0 ws vs (headline names) = Gt -> (In [NL] (concat bodies) -> value_order exp10 0 ws vs [NL] <> Lt) ->
  let new := match fn with Some f => fname_col f :: names | None => names end in
  Forall (fun x => ~ In TAB x /\ name_ok x = true /\ x <> []) new -> utf8_ok (join TAB new) = true ->
  let meant := filter (fun l => match value_order exp10 0 ws vs l with Eq => true | _ => false end) (concat bodies) in
  exists hits,
    bin_main utf8_ok name_ok uni_alpha uni_alnum expr expr_new expr_lookup expr_eval expr_eval_line expr_none exp10 MMatch bargs [(path, text)] =
      (headline new ++ shown (in_front fn path) hits, Ok tt) /\
    Permutation hits meant /\ (List.length (concat (concat bodies)) < cap -> hits = meant).
Proof.
  intros u no ua un ex en el ee eel eno e10 cap size md args ws names fs bodies bargs fn pat vs path (K & NM & NC & NC2 & V & WO & WK & WF & Hc & Hc0 & Hs & NF & NE & F & L) NU text BS VS PA HU CL HG BL new NW UW meant.
  destruct (OrderProps.c75_named u no ua un ex en el ee eel eno e10 cap size md args ws names fs bodies K NM NC NC2 V WO WK WF Hc Hc0 Hs NF NE F L) as (out & E & [_ R] & X).
  specialize (R NU). destruct R as [PO SO]. assert (TX : text = headline names ++ concat out) by (unfold text; rewrite E; reflexivity).
  assert (WL : Forall whole_line out). { pose proof (fit_whole _ _ L) as WL. eapply Permutation_Forall; [exact PO|exact WL]. }
  assert (KU : keys_used ws = ws) by (destruct ws; [destruct WF|reflexivity]).
  set (hit := fun l => match value_order e10 0 ws vs l with Eq => true | _ => false end) in *.
  exists (filter hit out). split; [|split].
  - pose proof (BinMainProps.c79_finds u no ua un ex en el ee eel eno e10 bargs ws fn pat vs [mkbf path true names text] [filter hit out] names BS ltac:(rewrite KU; exact VS) WK) as Q.
    cbn [map bf_path bf_data] in Q. fold new in Q. rewrite Q; auto.
    + unfold all_shown. cbn [combine map concat fst snd bf_path]. rewrite app_nil_r. reflexivity.
    + rewrite KU. apply each_cons; [|apply each_nil]. destruct NF as (NF1 & NF2 & NF3). split; [|split; [|split]].
      * split; [exact PA|]. cbn [bf_head bf_data bf_names]. split; [exists (concat out); exact TX|]. split; [exact HU|]. split; [exact NF1|]. eapply Forall_impl; [|exact NF3]. cbn. tauto.
      * apply (placed (alphabetic ua) (alphanumeric un)); auto.
      * cbn [bf_data]. exact CL.
      * exists (concat out). cbn [bf_data bf_names]. rewrite cut_whole by auto. split; [exact TX|]. split; [exact HG|]. split; [|split].
        -- rewrite Forall_forall in WL. eapply sorted_same; [|exact SO]. intros a b A B. symmetry. apply whole_order; auto.
        -- intros I. apply BL. eapply Permutation_in; [symmetry; exact PO|exact I].
        -- reflexivity.
    + discriminate.
  - apply perm_filter. symmetry. exact PO.
  - intros SZ. destruct (X SZ) as [_ X2]. destruct (X2 NU) as (_ & _ & KT). unfold meant. clear X X2.
    destruct (filter hit out) as [|x hs] eqn:EF.
    + pose proof (perm_filter hit _ _ PO) as P. rewrite EF in P. symmetry in P. apply Permutation_nil in P. auto.
    + assert (IX : In x out /\ hit x = true) by (apply filter_In; rewrite EF; left; auto). destruct IX as [IX HX].
      assert (HX' : value_order e10 0 ws vs x = Eq) by (unfold hit in HX; destruct (value_order e10 0 ws vs x); congruence).
      assert (LV : List.length vs = List.length ws) by apply VS.
      assert (AG : forall l, In l out -> hit l = same (by_fields e10 ws) x l).
      { intros l Il. rewrite Forall_forall in WL. pose proof (hits_same e10 ws vs x l LV WK HX') as HS. rewrite whole_order in HS by auto. unfold hit, same. destruct (value_order e10 0 ws vs l), (by_fields e10 ws x l); intuition congruence. }
      assert (FE : forall ls, (forall l, In l ls -> In l out) -> filter hit ls = filter (same (by_fields e10 ws) x) ls).
      { induction ls as [|l ls IH]; intros H; [reflexivity|]. cbn [filter]. rewrite (AG l) by (apply H; left; auto). rewrite IH; [reflexivity|]. intros z Iz. apply H. right; auto. }
      rewrite <- EF, FE by auto. rewrite (FE (concat bodies)); [apply KT|]. intros l I. eapply Permutation_in; [exact PO|exact I].
Qed.

(** * Joining *)
Lemma keyed_pre e10 ws : Forall (fun w => plain_kind (wk_cmp w)) ws -> total_preorder (keyed e10 ws).
Proof.
  intros F. assert (P : total_preorder (fun x y : nat * bytes => first_diff (fun w => answers e10 (fst x) (fst y) (fields (snd x)) (fields (snd y)) w) ws)).
  { apply first_diff_preorder. eapply Forall_impl; [|exact F]. intros w P. unfold answers.
    assert (Q : total_preorder (fun p q : nat * bytes => c_comp e10 (wk_cmp w) (nth (N.to_nat (wk_pos w (fst p))) (fields (snd p)) []) (nth (N.to_nat (wk_pos w (fst q))) (fields (snd q)) []))).
    { apply (preorder_key (fun p : nat * bytes => nth (N.to_nat (wk_pos w (fst p))) (fields (snd p)) []) (c_comp e10 (wk_cmp w))); [|reflexivity]. apply orderly_preorder, plain_orderly, P. }
    destruct (wk_rev w); cbn [directed]; auto. apply rev_preorder in Q. exact Q. }
  assert (E : forall x y, first_diff (fun w => answers e10 (fst x) (fst y) (fields (snd x)) (fields (snd y)) w) ws = keyed e10 ws x y). { intros x y. rewrite first_diff_answer. reflexivity. }
  destruct P as (P1 & P2 & P3). split; [intros x; rewrite <- E; apply P1|]. split; [intros x y; rewrite <- !E; apply P2|]. intros x y z. rewrite <- !E. apply P3.
Qed.
Lemma keyed_one e10 f ones ws : Forall2 (key_of f) ones ws -> forall a b, by_fields e10 ones a b = keyed e10 ws (of_file f a) (of_file f b).
Proof.
  intros F a b. unfold by_fields, keyed, of_file. cbn [fst snd]. f_equal. induction F as [|o w ones ws (E1 & E2 & E3) F IH]; [reflexivity|]. cbn [map]. rewrite IH. f_equal. unfold answers. rewrite E1, E2, E3. reflexivity.
Qed.

(** What sort writes for two sets of files is joined: the rows are exactly the pairs of lines with the same keys, ordered by key, and the other outputs
    the lines without partner; the second set must not have a key twice. *)
Theorem c83_join : forall utf8_ok name_ok uni_alpha uni_alnum T trans_make match_make expr expr_new expr_lookup expr_eval expr_eval_line expr_none exp10 expr_used
    cap size md args0 ws0 names0 fs0 bodies0 args1 ws1 names1 fs1 bodies1 s0 s1 args ws askss alsos outs cols,
  sort_run utf8_ok name_ok (alphabetic uni_alpha) (alphanumeric uni_alnum) cap size args0 ws0 names0 fs0 bodies0 -> ~ given (bs "unique") args0 ->
  sort_run utf8_ok name_ok (alphabetic uni_alpha) (alphanumeric uni_alnum) cap size args1 ws1 names1 fs1 bodies1 -> ~ given (bs "unique") args1 ->
  let sorting := sort_main utf8_ok name_ok uni_alpha uni_alnum expr expr_new expr_lookup expr_eval expr_eval_line expr_none exp10 bh_push bh_pop cap size md in
  content s0 = fst (sorting args0 fs0) -> wf_src s0 -> 4 <= List.length (fst (fill_buf s0)) -> utf8_ok (headline names0) = true ->
  content s1 = fst (sorting args1 fs1) -> wf_src s1 -> 4 <= List.length (fst (fill_buf s1)) -> utf8_ok (headline names1) = true ->
  all_differ (by_fields exp10 ws1) (concat bodies1) ->
  join_known args -> values (bs "key") args (map text_of_key ws) -> values (bs "output") args (map output_text askss) ->
  values (bs "file") args outs -> values (bs "also") args (map also_text alsos) ->
  Forall (wanted_ok (alphabetic uni_alpha) (alphanumeric uni_alnum) [names0; names1]) ws -> Forall2 (key_of 0) ws0 ws -> Forall2 (key_of 1) ws1 ws ->
  Forall (fun a => a <> [] /\ Forall (ask_ok (alphabetic uni_alpha) (alphanumeric uni_alnum)) a) askss ->
  (N.of_nat (List.length names0) < 2 ^ 64)%N -> (N.of_nat (List.length names1) < 2 ^ 64)%N ->
  out_columns (ColProps.maker match_make) ws [names0; names1] (concat askss) cols -> cols <> [] ->
  Forall (fun a => fst a = 1%N \/ fst a = 2%N) alsos -> NoDup (map fst alsos) ->
  let meets a b := match keyed exp10 ws (of_file 0 a) (of_file 1 b) with Eq => true | _ => false end in
  exists pairs left right,
    join_main utf8_ok uni_alpha uni_alnum T trans_make match_make expr expr_new expr_lookup expr_eval expr_eval_line expr_none exp10 expr_used args [s0; s1] =
    Ok ((last outs (bs "-"), headline (names_of cols [names0; names1]) ++ concat (map (fun p => row_text cols [fst p; snd p]) pairs)) ::
        map (fun a => (snd a, if (fst a =? 1)%N then headline names0 ++ concat left else headline names1 ++ concat right)) alsos) /\
    Permutation pairs (filter (fun p => meets (fst p) (snd p)) (list_prod (concat bodies0) (concat bodies1))) /\
    StronglySorted (fun p q => by_fields exp10 ws0 (fst p) (fst q) <> Gt) pairs /\
    Permutation left (filter (fun a => negb (existsb (fun b => meets a b) (concat bodies1))) (concat bodies0)) /\
    Permutation right (filter (fun b => negb (existsb (fun a => meets a b) (concat bodies0))) (concat bodies1)).
Proof.
  intros u no ua un T tm mm ex en el ee eel eno e10 eu cap size md args0 ws0 names0 fs0 bodies0 args1 ws1 names1 fs1 bodies1 s0 s1 args ws askss alsos outs cols
    (K & NM & NC & NC2 & V & WO & WK & WF & Hc & Hc0 & Hs & NF & NE & F & L) NU (K' & NM' & NC' & NC2' & V' & WO' & WK' & WF' & Hc' & Hc0' & Hs' & NF' & NE' & F' & L') NU' sorting
    C0 W0 H0 U0 C1 W1 H1 U1 AD JK JV JO JF JA JW KO0 KO1 AO N0 N1 OC CN AL ND meets.
  destruct (OrderProps.c75_named u no ua un ex en el ee eel eno e10 cap size md args0 ws0 names0 fs0 bodies0 K NM NC NC2 V WO WK WF Hc Hc0 Hs NF NE F L) as (out0 & E0 & [_ R0] & _).
  destruct (OrderProps.c75_named u no ua un ex en el ee eel eno e10 cap size md args1 ws1 names1 fs1 bodies1 K' NM' NC' NC2' V' WO' WK' WF' Hc' Hc0' Hs' NF' NE' F' L') as (out1 & E1 & [_ R1] & _).
  destruct (R0 NU) as [P0 S0]. destruct (R1 NU') as [P1 S1]. unfold sorting in C0, C1. rewrite E0 in C0. rewrite E1 in C1. cbn [fst] in C0, C1.
  assert (WL0 : Forall whole_line out0) by (eapply Permutation_Forall; [exact P0|exact (fit_whole _ _ L)]). assert (WL1 : Forall whole_line out1) by (eapply Permutation_Forall; [exact P1|exact (fit_whole _ _ L')]).
  pose proof (JoinMainProps.c76_headed u no names0 s0 out0 NF U0 W0 C0 WL0 H0) as SH0. pose proof (JoinMainProps.c76_headed u no names1 s1 out1 NF' U1 W1 C1 WL1 H1) as SH1.
  assert (KU : keys_or ws = ws). { destruct ws; [|reflexivity]. inversion KO0; subst. destruct WF. }
  assert (PK : Forall (fun w => plain_kind (wk_cmp w)) ws). { clear - KO0 WK. induction KO0 as [|o w os ws (E & _) F IH]; constructor; inversion WK; subst; auto. rewrite <- E. auto. }
  pose proof (keyed_pre e10 ws PK) as PRE. pose proof (by_fields_pre e10 ws1 WK' WF') as PRE1.
  assert (O0 : ordered_by (keyed e10 (keys_or ws)) (of_file 0) out0).
  { rewrite KU. unfold ordered_by. clear - S0 KO0. induction S0 as [|x l S IH G]; constructor; auto. eapply Forall_impl; [|exact G]. cbn. intros y. rewrite (keyed_one e10 0 ws0 ws KO0). auto. }
  assert (O1 : strictly_by (keyed e10 (keys_or ws)) (of_file 1) out1).
  { rewrite KU. pose proof (differ_strict _ _ S1 (differ_perm _ PRE1 _ _ P1 AD)) as S. unfold strictly_by. clear - S KO1. induction S as [|x l S IH G]; constructor; auto. eapply Forall_impl; [|exact G]. cbn. intros y. rewrite (keyed_one e10 1 ws1 ws KO1). auto. }
  exists (rows_spec (keyed e10 ws) (of_file 0) (of_file 1) out0 out1), (lone_left (keyed e10 ws) (of_file 0) (of_file 1) out0 out1), (lone_right (keyed e10 ws) (of_file 0) (of_file 1) out0 out1).
  split; [|split; [|split; [|split]]].
  - pose proof (JoinMainProps.c76_join u ua un T tm mm ex en el ee eel eno e10 eu args ws askss alsos outs s0 s1 (mkshown (headline names0) names0 out0) (mkshown (headline names1) names1 out1) cols
      JK JV JO JF JA JW PK AO N0 N1 ltac:(rewrite KU; exact OC) CN AL ND SH0 SH1) as Q. cbn [sh_head sh_names sh_lines] in Q. cbv zeta in Q. rewrite Q; auto.
    + rewrite KU. destruct (headline names0) eqn:EH; [discriminate EH|]. reflexivity.
    + intros a _. left. destruct (fst a =? 1)%N; discriminate.
  - rewrite KU in O1. apply (rows_perm _ _ _ (keyed e10 ws) (of_file 0) (of_file 1) PRE); auto; symmetry; auto.
  - exact (rows_order _ _ _ (keyed e10 ws) (of_file 0) (of_file 1) (fun a b => by_fields e10 ws0 a b <> Gt) out0 out1 S0).
  - apply (left_perm _ _ _ (keyed e10 ws) (of_file 0) (of_file 1)); symmetry; auto.
  - apply (right_perm _ _ _ (keyed e10 ws) (of_file 0) (of_file 1)); symmetry; auto.
Qed.

(** Examples: two files of animals, and one of their kinds. *)
Import OrderProps.
Notation nm := JoinMainProps.nm0.
Notation nmk := JoinMainProps.nm1.
Notation ln3 := JoinMainProps.ln3.
Notation by_animal := UniqMainProps.by_animal.
Notation by_id := UniqMainProps.by_id.
Definition zoo : list (list bytes) := [[ln "7" "cow"; ln "2" "bee"; ln "5" "ant"]; [ln "1" "bee"; ln "9" "cow"; ln "4" "eel"]].
Definition zoo_file (ls : list bytes) : src * list nat := (mksrc [] [headline nm ++ concat ls], [4; 1]).
Definition zoo_args : list (bytes * bytes) := [(bs "key", bs "animal")].
Definition kinds_of : list bytes := [ln3 "dog" "4" "0"; ln3 "bee" "6" "4"; ln3 "cow" "4" "0"].
Definition kind_file (ls : list bytes) : src * list nat := (mksrc [] [headline nmk ++ concat ls], []).
Definition by_kind1 : wanted := mkw_key [ByName (bs "kind")] JustCols [] CPlain false (fun _ => 0%N).
Lemma nm_fit : names_fit yes yes nm /\ names_fit yes yes nmk.
Proof. split; (split; [discriminate|]; split; [reflexivity|]; repeat constructor; try discriminate; vm_compute; intuition discriminate). Qed.
Lemma by_kind1_ok : wanted_ok (alphabetic none) (alphanumeric none) [nmk] by_kind1.
Proof.
  repeat split; cbn [wk_cols wk_tail wk_kind wk_cmp wk_rev wk_pos]; try discriminate;
  [repeat constructor; try discriminate|right; split; auto; constructor|right; cbn; auto|intros (w & [] & _)|].
  intros f ns E; destruct f as [|f]; [|destruct f; discriminate E]; injection E as <-; split; [reflexivity|]; intros j L; cbn in L; lia.
Qed.
Lemma one_key k w : text_of_key w = k -> values (bs "key") [(bs "key", k)] (map text_of_key [w]).
Proof. intros <-. apply val_this. constructor. Qed.
Lemma only_key k n : n <> bs "key" -> ~ given n [(bs "key", k)].
Proof. intros D (v & [E|[]]). congruence. Qed.
Lemma zoo_run cap : 20 < cap -> (N.of_nat cap < 2 ^ 31)%N -> sort_run yes yes (alphabetic none) (alphanumeric none) cap 7 zoo_args [by_animal] nm (map zoo_file zoo) zoo.
Proof.
  intros C1 C2. split; [repeat constructor|]. split; [apply only_key; discriminate|]. split; [apply only_key; discriminate|]. split; [apply only_key; discriminate|]. split; [apply one_key; reflexivity|].
  split; [constructor; [apply UniqMainProps.by_ok|constructor]|]. split; [repeat constructor|]. split; [reflexivity|]. split; [auto|]. split; [lia|]. split; [lia|]. split; [apply nm_fit|]. split; [discriminate|].
  split; [repeat constructor|]. assert (F : lines_fit 20 (concat zoo)) by (apply fit_dec; reflexivity). eapply Forall_impl; [|exact F]. cbn. intuition lia.
Qed.
Lemma kind_run cap : 20 < cap -> (N.of_nat cap < 2 ^ 31)%N -> sort_run yes yes (alphabetic none) (alphanumeric none) cap 7 [(bs "key", bs "kind")] [by_kind1] nmk [kind_file kinds_of] [kinds_of].
Proof.
  intros C1 C2. split; [repeat constructor|]. split; [apply only_key; discriminate|]. split; [apply only_key; discriminate|]. split; [apply only_key; discriminate|]. split; [apply one_key; reflexivity|].
  split; [constructor; [apply by_kind1_ok|constructor]|]. split; [repeat constructor|]. split; [reflexivity|]. split; [auto|]. split; [lia|]. split; [lia|]. split; [apply nm_fit|]. split; [discriminate|].
  split; [repeat constructor|]. assert (F : lines_fit 20 (concat [kinds_of])) by (apply fit_dec; reflexivity). eapply Forall_impl; [|exact F]. cbn. intuition lia.
Qed.
Definition zoo_sorted : bytes := headline nm ++ ln "5" "ant" ++ ln "2" "bee" ++ ln "1" "bee" ++ ln "7" "cow" ++ ln "9" "cow" ++ ln "4" "eel".
Definition kinds_sorted : bytes := headline nmk ++ ln3 "bee" "6" "4" ++ ln3 "cow" "4" "0" ++ ln3 "dog" "4" "0".
Example c83_again_ex : sort_run yes yes (alphabetic none) (alphanumeric none) 99 7 zoo_args [by_animal] nm (map zoo_file zoo) zoo /\ ex_main 99 ex_mode zoo_args (map zoo_file zoo) = (zoo_sorted, Ok tt) /\
  List.length zoo_sorted < 99 /\ ex_main 99 ex_mode zoo_args [(mksrc [] [zoo_sorted], [3])] = (zoo_sorted, Ok tt).
Proof. split; [apply zoo_run; [lia|reflexivity]|]. split; [vm_compute; reflexivity|]. split; [vm_compute; lia|vm_compute; reflexivity]. Qed.
Example c83_uniq_ex : let s := mksrc [] [zoo_sorted] in
  content s = fst (ex_main 99 ex_mode zoo_args (map zoo_file zoo)) /\ wf_src s /\ 4 <= List.length (fst (fill_buf s)) /\ proper none none (bs "n" :: nm) /\
  UniqMainProps.ex_uniq join_mode [(bs "key", bs "animal"); (bs "count", bs "n"); (bs "which", bs "min,id")] s =
    (headline (bs "n" :: nm) ++ ln3 "1" "5" "ant" ++ ln3 "2" "1" "bee" ++ ln3 "2" "7" "cow" ++ ln3 "1" "4" "eel", Ok tt).
Proof.
  cbv zeta. split; [vm_compute; reflexivity|]. split; [repeat constructor; discriminate|]. split; [vm_compute; lia|]. split; [|vm_compute; reflexivity].
  split; [repeat constructor|]. repeat constructor; cbn; intuition discriminate.
Qed.
Example c83_search_ex : value_order exp_ex 0 [by_id] [bs "7"] (headline nm) = Gt /\ values_of [by_id] (bs "7") [bs "7"] /\
  let text := fst (ex_main 99 ex_mode [(bs "key", bs "id")] (map zoo_file zoo)) in
  BinMainProps.ex_bin MMatch [(bs "key", bs "id"); (bs "pattern", bs "7")] [(bs "zoo", text)] = (headline nm ++ ln "7" "cow", Ok tt).
Proof. split; [reflexivity|]. split; [split; reflexivity|vm_compute; reflexivity]. Qed.
Example c83_join_ex : let s0 := mksrc [] [zoo_sorted] in let s1 := mksrc [] [kinds_sorted] in
  sort_run yes yes (alphabetic none) (alphanumeric none) 99 7 [(bs "key", bs "kind")] [by_kind1] nmk [kind_file kinds_of] [kinds_of] /\
  content s1 = fst (ex_main 99 ex_mode [(bs "key", bs "kind")] [kind_file kinds_of]) /\ all_differ (by_fields exp_ex [by_kind1]) (concat [kinds_of]) /\
  Forall2 (key_of 0) [by_animal] [JoinMainProps.by_kind] /\ Forall2 (key_of 1) [by_kind1] [JoinMainProps.by_kind] /\
  JoinMainProps.ex_join [(bs "key", bs "animal.kind"); (bs "also", bs "1,left"); (bs "also", bs "2,right")] [s0; s1] =
    Ok [(bs "-", headline [bs "id"; bs "animal"; bs "legs"; bs "wings"] ++ concat (map (fun p => bs (fst p) ++ TAB :: snd p) [("2"%string, ln3 "bee" "6" "4"); ("1"%string, ln3 "bee" "6" "4"); ("7"%string, ln3 "cow" "4" "0"); ("9"%string, ln3 "cow" "4" "0")]));
        (bs "left", headline nm ++ ln "5" "ant" ++ ln "4" "eel"); (bs "right", headline nmk ++ ln3 "dog" "4" "0")].
Proof.
  cbv zeta. split; [apply kind_run; [lia|reflexivity]|]. split; [vm_compute; reflexivity|]. split; [cbn [concat app kinds_of all_differ]; repeat (split || constructor); vm_compute; discriminate|].
  split; [repeat constructor|]. split; [repeat constructor|]. vm_compute. reflexivity.
Qed.

(** The header counts as a line of the file: what sort wrote is searched in vain for a value below the header. *)
Theorem c83_search_refuted : exists args fs bodies ws pat text line, sort_run yes yes (alphabetic none) (alphanumeric none) 99 7 args ws nm fs bodies /\ values_of ws pat [pat] /\
  ex_main 99 ex_mode args fs = (text, Ok tt) /\ In line (concat bodies) /\ value_order exp_ex 0 ws [pat] line = Eq /\ value_order exp_ex 0 ws [pat] (headline nm) = Lt /\
  BinMainProps.ex_bin MMatch (args ++ [(bs "pattern", pat)]) [(bs "zoo", text)] = (headline nm, Ok tt).
Proof.
  exists zoo_args, (map zoo_file zoo), zoo, [by_animal], (bs "ant"), zoo_sorted, (ln "5" "ant"). split; [apply zoo_run; [lia|reflexivity]|]. split; [split; reflexivity|].
  split; [vm_compute; reflexivity|]. split; [cbn; auto|]. split; [reflexivity|]. split; [reflexivity|]. vm_compute. reflexivity.
Qed.
