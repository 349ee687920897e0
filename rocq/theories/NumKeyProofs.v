(** The uniq and join tools with keys that compare numbers. *)
From Coq Require Import String List NArith ZArith QArith Bool Arith Lia SpecFloat Sorting.Permutation Sorting.Sorted.
Open Scope list_scope.
Import ListNotations.
From Verif Require Import Base TextModel TextSpec TextProofs StrSpec StrModel FloatModel FloatValid FloatInt ReadModel ReadSpec ReadProofs HdrSpec HdrModel HdrProofs MatchModel MatchSpec MatchText CompSpec LineSpec CompModel OrdProofs CompProofs NumProofs NumCache
  LineProofs NumText ShareProofs DecSpec DecProofs DecOrder AggModel AggRow SortSpec KeyModel KeySpec KeyProofs ToolModel ToolOpen TurnProofs PasteSpec PasteProofs NumbProofs OrderModel OrderSpec OrderSame OrderProofs OrderTool
  ValSpec ValSame ValProofs ValDec UniqModel UniqSpec UniqProofs UniqMain UniqMainSpec UniqMainProofs UniqMainTool JoinSpec JoinProofs JoinMain JoinMainSpec JoinMainProofs JoinMainTool NumKeySpec.
From Verif Require AggProps UniqProps ColModel ColProofs ColProps ColSpec.
Close Scope Z_scope. Close Scope Q_scope. Open Scope nat_scope.

Section Order.
Variable exp10 : Z -> f64.
Hypothesis exp10_ok : forall z, valid64 (exp10 z).
Lemma c_clean_counts : forall c a b, value_counts exp10 c a -> value_counts exp10 c b -> c_clean exp10 c a b = c_comp exp10 c a b.
Proof.
  intros c a b. destruct c; cbn [value_counts c_clean]; auto.
  - intros (n & Wn & ->) (m & Wm & ->). rewrite whole_fcmp by auto. destruct (whole_holds exp10 n Wn) as [Hn _], (whole_holds exp10 m Wm) as [Hm _].
    rewrite !cleaned_same; auto; eapply holds_valid; eauto.
  - intros A B. rewrite !cleaned_same; auto.
Qed.
(** The order of several keys, [val w x] the value of a key. *)
Section By.
Context {X : Type}.
Variable val : wanted -> X -> bytes.
Definition clean_by (ws : list wanted) (x y : X) : comparison := first_diff (fun w => directed (wk_rev w) (c_clean exp10 (wk_cmp w) (val w x) (val w y))) ws.
Lemma clean_by_pre : forall ws, total_preorder (clean_by ws).
Proof.
  intros ws. apply (first_diff_preorder ws (fun w x y => directed (wk_rev w) (c_clean exp10 (wk_cmp w) (val w x) (val w y)))). apply Forall_forall. intros w _.
  assert (Q : total_preorder (fun a b => c_clean exp10 (wk_cmp w) (val w a) (val w b))) by (apply (preorder_key (val w) (c_clean exp10 (wk_cmp w))); auto; apply c_clean_pre; auto).
  destruct (wk_rev w); cbn [directed]; [apply rev_preorder; exact Q|exact Q].
Qed.
Lemma clean_by_is : forall ws x y, Forall (fun w => value_counts exp10 (wk_cmp w) (val w x)) ws -> Forall (fun w => value_counts exp10 (wk_cmp w) (val w y)) ws ->
  clean_by ws x y = first_answer (map (fun w => directed (wk_rev w) (c_comp exp10 (wk_cmp w) (val w x) (val w y))) ws).
Proof.
  intros ws x y Fa Fb. unfold clean_by. induction ws as [|w ws IH]; [reflexivity|]. inversion Fa; inversion Fb; subst. cbn [first_diff map first_answer].
  rewrite c_clean_counts by auto. destruct (directed _ _); auto.
Qed.
End By.
Definition of_keyed (w : wanted) (x : nat * bytes) : bytes := nth (N.to_nat (wk_pos w (fst x))) (fields (snd x)) [].
Lemma keyed_clean : forall ws x y, cols_count exp10 (fst x) ws (fields (snd x)) -> cols_count exp10 (fst y) ws (fields (snd y)) -> keyed exp10 ws x y = clean_by of_keyed ws x y.
Proof. intros ws x y A B. rewrite clean_by_is by auto. reflexivity. Qed.
Definition of_shown (cols : bytes -> list bytes) (w : wanted) (x : bytes) : bytes := nth (N.to_nat (wk_pos w 0)) (cols x) [].
Definition clean_shown (cols : bytes -> list bytes) (ws : list wanted) : bytes -> bytes -> comparison := match ws with [] => c_comp exp10 CPlain | _ => clean_by (of_shown cols) ws end.
Lemma clean_shown_pre : forall cols ws, total_preorder (clean_shown cols ws).
Proof. intros cols [|w ws]; cbn [clean_shown]; [apply orderly_preorder; unfold orderly; auto|apply clean_by_pre]. Qed.
Lemma shown_clean : forall cols ws x y, cols_count exp10 0 ws (cols x) -> cols_count exp10 0 ws (cols y) -> shown_order exp10 cols ws x y = clean_shown cols ws x y.
Proof. intros cols [|w ws] x y A B; [reflexivity|]. cbn [clean_shown]. rewrite clean_by_is by auto. reflexivity. Qed.
End Order.

(** * Decimals *)
Section Dec.
Variable K : nat.
Hypothesis HK : K <= 14.
Lemma number_counts : forall exp10 v q, number_is K v q -> value_counts exp10 CF64 v.
Proof.
  intros exp10 v q (d & rest & F & E & -> & _). cbn [value_counts]. rewrite (value_stages K) by auto. destruct (base_run K HK d F) as (r & B & _).
  destruct (sign_real (d_sign d) _ _ B) as (b & -> & _ & FB). destruct b; discriminate.
Qed.
Lemma number_compare : forall exp10 v u p q, number_is K v p -> number_is K u q -> c_comp exp10 CF64 v u = Qcompare p q.
Proof.
  intros exp10 v u p q (d & rest & F & E & -> & P) (d2 & rest2 & F2 & E2 & -> & P2). rewrite P, P2. cbn [c_comp]. exact (few_order K HK exp10 d d2 rest rest2 F F2 E E2).
Qed.
End Dec.

(** * Uniq *)
Section Pick.
Variable eq : textline -> textline -> bool.
Variables c d : textline -> textline -> comparison.
Variable ts : list textline.
Hypothesis AG : forall x y, In x ts -> In y ts -> c x y = d x y.
Hypothesis PL : Forall plain_line ts.
Lemma assign_same : forall w t x, In t ts -> In x ts -> count_assign c w t x = count_assign d w t x /\ In (count_assign d w t x) ts.
Proof.
  intros w t x I J. unfold count_assign. rewrite (AG t x I J). rewrite Forall_forall in PL. rewrite !assign_plain by auto. split; [reflexivity|]. destruct w; auto; destruct (d t x); auto.
Qed.
Lemma general_same : forall w rest t p n, In t ts -> (forall x, In x rest -> In x ts) -> uniq_general eq c w t p n rest = uniq_general eq d w t p n rest.
Proof.
  intros w. induction rest as [|x rest IH]; intros t p n I J; [reflexivity|]. cbn [uniq_general]. assert (X : In x ts) by (apply J; left; auto).
  destruct (assign_same w t x I X) as [-> Y]. rewrite Forall_forall in PL. rewrite assign_plain by auto.
  rewrite !IH by (auto; intros y Iy; apply J; right; auto). reflexivity.
Qed.
End Pick.
Lemma lines_pick : forall eq c d w pos delim ts, (forall x y, In x ts -> In y ts -> c x y = d x y) -> Forall plain_line ts ->
  uniq_lines eq c w pos delim ts = uniq_lines eq d w pos delim ts.
Proof.
  intros eq c d w pos delim [|x rest] AG PL; [reflexivity|]. unfold uniq_lines.
  rewrite (general_same eq c d (x :: rest) AG PL w rest x x 1) by (cbn; auto). reflexivity.
Qed.
Lemma chosen_same : forall {A} (c d : A -> A -> comparison) w r x, (forall a b, In a r -> In b r -> c a b = d a b) -> chosen c w r x -> chosen d w r x.
Proof.
  intros A c d w r x H (p & q & -> & C). exists p, q. split; auto. assert (X : In x (p ++ x :: q)) by (apply in_or_app; right; left; auto).
  assert (P : forall y, In y p -> c y x = d y x) by (intros y I; apply H; auto; apply in_or_app; auto).
  assert (Q : forall y, In y q -> c y x = d y x) by (intros y I; apply H; auto; apply in_or_app; right; right; auto).
  destruct w; auto; destruct C as [C1 C2]; rewrite !Forall_forall in *; split; intros y I; [rewrite <- P; auto|rewrite <- Q; auto|rewrite <- P; auto|rewrite <- Q; auto].
Qed.

Section Tool.
Variable exp10 : Z -> f64.
Hypothesis exp10_ok : forall z, valid64 (exp10 z).
Section Body.
Variables (md : tmode) (b : bool) (ts : list textline) (ls : list bytes) (ws pk : list wanted) (cs : list linecomp) (k : linecomp) (w : which) (pos : count_pos).
Hypothesis Q : tm_quote md = QPlain.
Hypothesis D : tm_delim md <> NL.
Hypothesis F : Forall2 (seen b md) ts ls.
Hypothesis W : Forall whole_line ls.
Hypothesis CW : compares_as exp10 (tm_delim md) ws (fun l r => ll_comp_cols_n exp10 cs l r 0 0).
Hypothesis CP : compares_as exp10 (tm_delim md) pk (fun l r => lc_comp_cols_n exp10 k l r 0 0).
Hypothesis BW : ws <> [] -> b = true.
Hypothesis BP : pk <> [] -> b = true.
Hypothesis OK : Forall (fun l => cols_count exp10 0 pk (parted (tm_delim md) l)) ls.
Definition by_line (x y : textline) : comparison := clean_shown exp10 (parted (tm_delim md)) pk (tl_line x) (tl_line y).
Lemma by_line_pre : total_preorder by_line.
Proof. apply (preorder_key tl_line (clean_shown exp10 (parted (tm_delim md)) pk)); [|reflexivity]. apply clean_shown_pre; auto. Qed.
Lemma ts_in : forall x, In x ts -> In (tl_line x) ls.
Proof. intros x I. rewrite <- (seen_lines _ _ _ _ F). apply in_map. auto. Qed.
Lemma line_order_is : forall x y, In x ls -> In y ls -> clean_shown exp10 (parted (tm_delim md)) pk x y = shown_order exp10 (parted (tm_delim md)) pk x y.
Proof. intros x y I J. rewrite Forall_forall in OK. symmetry. apply shown_clean; auto. Qed.
Lemma pick_same : forall x y, In x ts -> In y ts -> UniqProps.pick_order exp10 k x y = by_line x y.
Proof.
  intros x y I J. unfold by_line. rewrite line_order_is by (apply ts_in; auto). symmetry.
  destruct (seen_in _ _ _ _ _ F W I) as (lx & Sx & Wx). destruct (seen_in _ _ _ _ _ F W J) as (ly & Sy & Wy).
  apply (seen_order exp10 md b pk (fun l r => lc_comp_cols_n exp10 k l r 0 0) x y lx ly Q D CP BP Sx Sy Wx Wy).
Qed.
Lemma ts_plain : Forall plain_line ts.
Proof. apply Forall_forall. intros t I. destruct (seen_in _ _ _ _ _ F W I) as (l & (_ & P & _) & _). exact P. Qed.
Lemma body_number : (tm_delim md < 128)%N ->
  exists rs outs, uniq_lines (UniqProps.same_keys exp10 cs) (UniqProps.pick_order exp10 k) w pos (tm_delim md) ts = outs /\ runs_of (alike exp10 (tm_delim md) ws) ls rs /\
    Forall2 (fun r out => exists body, chosen (shown_order exp10 (parted (tm_delim md)) pk) w r (body ++ [NL]) /\ out = run_text pos (List.length r) body (tm_delim md) ++ [NL]) rs outs.
Proof.
  intros D128. rewrite (lines_pick _ _ by_line w pos (tm_delim md) ts pick_same ts_plain).
  pose proof (uniq_lines_ok (UniqProps.same_keys exp10 cs) by_line by_line_pre w pos (tm_delim md) ts ts_plain) as U.
  pose proof (runs_ok (UniqProps.same_keys exp10 cs) ts) as R. set (rs := runs (UniqProps.same_keys exp10 cs) ts) in *.
  exists (map (map tl_line) rs). eexists. split; [reflexivity|]. split.
  - rewrite <- (seen_lines _ _ _ _ F). apply (runs_map _ _ tl_line (UniqProps.same_keys exp10 cs)); auto. intros x y Ix Iy. apply (same_alike exp10 md b ts ls ws cs Q D F W CW BW); auto.
  - destruct R as (CC & _). assert (I : Forall (fun r => forall x, In x r -> In x ts) rs) by (apply Forall_forall; intros r Hr x Hx; rewrite <- CC; apply in_concat; eauto).
    clear CC. revert U. generalize (uniq_lines (UniqProps.same_keys exp10 cs) by_line w pos (tm_delim md) ts). intros outs U.
    induction U as [|r out rs outs (x & C & ->) U IH]; [constructor|]. inversion I as [|? ? I1 I2]; subst. cbn [map]. constructor; auto.
    assert (X : In x r) by (eapply chosen_in; eauto).
    destruct (seen_in _ _ _ _ _ F W (I1 x X)) as (lx & (EL & PX & _) & (body & EB & NB)). exists body. rewrite map_length. subst lx. rewrite <- EB. split.
    + apply (chosen_same (clean_shown exp10 (parted (tm_delim md)) pk)).
      * intros a c Ia Ic. apply in_map_iff in Ia as (a0 & <- & Ia). apply in_map_iff in Ic as (c0 & <- & Ic). apply line_order_is; apply ts_in; auto.
      * apply (chosen_map _ _ tl_line by_line); auto. 
    + unfold tl_text. unfold plain_line in PX. rewrite PX, EB. unfold count_write, run_text, as_char, chomp. rewrite (proj2 (N.ltb_lt _ _) D128). destruct pos.
      * auto.
      * rewrite <- !app_assoc. auto.
      * rewrite rev_app_distr. cbn [rev app]. rewrite N.eqb_refl, rev_involutive, <- !app_assoc. auto.
Qed.
End Body.

Variable utf8_ok : bytes -> bool.
Variable uni_alpha uni_alnum : N -> bool.
Variable expr : Type.
Variable expr_new : bytes -> res expr.
Variable expr_lookup : expr -> list bytes -> res expr.
Variable expr_eval : expr -> textline -> f64.
Variable expr_eval_line : expr -> bytes -> byte -> f64.
Variable expr_none : f64.
Notation letter := (alphabetic uni_alpha).
Notation alnum := (alphanumeric uni_alnum).
Section Uniq.
Variable decode : bytes -> list N.
Variable is_space is_alnum : N -> bool.
Variable comp_make : bytes -> res comp_t.
Variable agg_expr : bytes -> res lineagg.
Variable print_num : f64 -> bytes.
Notation uniq_main := (uniq_main utf8_ok uni_alpha uni_alnum expr expr_new expr_lookup expr_eval expr_eval_line expr_none exp10 decode is_space is_alnum comp_make agg_expr print_num).
Notation proper := (proper uni_alpha uni_alnum).
Lemma uniqs_number : forall md cdx ot args s f ws cts counts ps kinds, Forall (fun a => In (fst a) [bs "key"; bs "count"; bs "which"]) args ->
  values (bs "key") args (key_texts ws) -> Forall (wanted_ok letter alnum [sh_names f]) ws ->
  values (bs "count") args cts -> Forall2 count_says cts counts ->
  values (bs "which") args (map pick_text ps) -> Forall2 pick_means ps kinds -> Forall (fun p => Forall (wanted_ok letter alnum [sh_names f]) (pick_keys p)) ps ->
  tm_quote md = QPlain -> tm_break md = NL -> tm_delim md <> NL -> (tm_delim md < 128)%N ->
  PasteProofs.shows utf8_ok md s f -> sh_head f <> [] \/ sh_lines f <> [] ->
  let c := last counts ([], CNone) in
  let pk := pick_keys (last ps ([], None)) in
  Forall (fun l => cols_count exp10 0 pk (parted (tm_delim md) l)) (sh_lines f) -> (pk <> [] -> ws <> []) ->
  (sh_head f <> [] -> counted_names c (sh_names f) <> [] /\ proper (counted_names c (sh_names f))) ->
  exists rs outs, uniq_main md cdx ot args s =
      (match sh_head f with [] => [] | _ => head_line cdx (ColModel.tm_delim ot) (counted_names c (sh_names f)) end ++ concat outs, Ok tt) /\
    runs_of (alike exp10 (tm_delim md) ws) (sh_lines f) rs /\
    Forall2 (fun r out => exists body, chosen (shown_order exp10 (parted (tm_delim md)) pk) (last kinds First) r (body ++ [NL]) /\ out = run_text (snd c) (List.length r) body (tm_delim md) ++ [NL]) rs outs.
Proof.
  intros md cdx ot args s f ws cts counts ps kinds K VK WK VC FC VW FW WP Q BR DN D128 SH NE c pk PKK PW HN. destruct (no_aggs utf8_ok expr expr_new expr_none decode comp_make agg_expr print_num args K) as [AO UK].
  destruct (main_start utf8_ok uni_alpha uni_alnum expr expr_new expr_lookup expr_eval expr_eval_line expr_none exp10 decode is_space is_alnum comp_make agg_expr print_num
    md cdx ot args s f ws cts counts ps kinds [] [] UK VK WK VC FC VW FW WP AO (Forall2_nil _) Q SH NE) as (cf & cs & k & ts & E1 & E2 & E3 & E4 & CW & CP & OK & SN & EM).
  fold c in E1, E2. fold pk in CP, OK. cbn [combine map] in E4. rewrite EM. unfold agg_columns, out_names, uniq_body. rewrite E4, E1, E2, E3. unfold need at 1. cbn iota.
  assert (WL : Forall whole_line (sh_lines f)). { pose proof (shows_lines utf8_ok md s f Q SH) as L. rewrite BR in L. exact L. }
  assert (BW : ws <> [] -> match ws with [] => false | _ => true end = true) by (destruct ws; [congruence|auto]).
  destruct (body_number md _ ts (sh_lines f) ws pk cs k (last kinds First) (snd c) Q DN SN WL CW CP BW (fun H => BW (PW H)) PKK D128) as (rs & outs & U1 & U2 & U3).
  exists rs, outs. split; [|auto].
  assert (HD : match sh_head f with [] => Ok [] | _ => rbind (Ok (match snd c with CNone => sh_names f | CBegin => fst c :: sh_names f | CEnd => sh_names f ++ [fst c] end)) (uniq_head uni_alpha uni_alnum cdx ot) end =
    Ok (match sh_head f with [] => [] | _ => head_line cdx (ColModel.tm_delim ot) (counted_names c (sh_names f)) end)).
  { destruct (sh_head f) as [|h0 h]; [reflexivity|]. destruct (HN ltac:(discriminate)) as [H1 H2]. cbn [rbind]. apply (head_made uni_alpha uni_alnum cdx ot (counted_names c (sh_names f))); auto. }
  rewrite HD. unfold need at 1. unfold say. destruct (sh_lines f) as [|l rest] eqn:EL.
  - cbn [fst snd]. inversion SN; subst. reflexivity.
  - cbn [fst snd]. unfold UniqProps.same_keys, UniqProps.pick_order in U1. rewrite U1. reflexivity.
Qed.
End Uniq.
Section Join.
Variable T : Type.
Variable trans_make : bytes -> res T.
Variable match_make : bytes -> res (bytes -> bool).
Variable expr_used : expr -> list nat.
Lemma joins_number : forall args ws askss alsos outs s0 s1 f0 f1 cols,
  join_known args -> values (bs "key") args (map text_of_key ws) -> values (bs "output") args (map output_text askss) ->
  values (bs "file") args outs -> values (bs "also") args (map also_text alsos) ->
  Forall (wanted_ok letter alnum [sh_names f0; sh_names f1]) ws ->
  Forall (fun l => cols_count exp10 0 ws (fields l)) (sh_lines f0) -> Forall (fun l => cols_count exp10 1 ws (fields l)) (sh_lines f1) ->
  Forall (fun a => a <> [] /\ Forall (ask_ok letter alnum) a) askss ->
  (N.of_nat (List.length (sh_names f0)) < 2 ^ 64)%N -> (N.of_nat (List.length (sh_names f1)) < 2 ^ 64)%N ->
  out_columns (ColProps.maker match_make) (keys_or ws) [sh_names f0; sh_names f1] (concat askss) cols -> cols <> [] ->
  Forall (fun a => fst a = 1%N \/ fst a = 2%N) alsos -> NoDup (map fst alsos) ->
  PasteProofs.shows utf8_ok join_mode s0 f0 -> PasteProofs.shows utf8_ok join_mode s1 f1 ->
  (forall a, In a alsos -> let f := if (fst a =? 1)%N then f0 else f1 in sh_head f <> [] \/ sh_lines f = []) ->
  let ord := keyed exp10 (keys_or ws) in
  ordered_by ord (of_file 0) (sh_lines f0) -> strictly_by ord (of_file 1) (sh_lines f1) ->
  JoinMain.join_main utf8_ok uni_alpha uni_alnum T trans_make match_make expr expr_new expr_lookup expr_eval expr_eval_line expr_none exp10 expr_used args [s0; s1] =
  Ok ((last outs (bs "-"),
       match sh_head f0 with [] => [] | _ => headline (names_of cols [sh_names f0; sh_names f1]) end ++
       concat (map (fun p => row_text cols [fst p; snd p]) (rows_spec ord (of_file 0) (of_file 1) (sh_lines f0) (sh_lines f1)))) ::
      map (fun a => (snd a, if (fst a =? 1)%N then sh_head f0 ++ concat (lone_left ord (of_file 0) (of_file 1) (sh_lines f0) (sh_lines f1))
                            else sh_head f1 ++ concat (lone_right ord (of_file 0) (of_file 1) (sh_lines f0) (sh_lines f1)))) alsos).
Proof.
  intros args ws askss alsos outs s0 s1 f0 f1 cols K VK VO VF VA W C0 C1 AO B0 B1 OC CN AS AD S0 S1 AH ord SL UR.
  apply (joins_by utf8_ok uni_alpha uni_alnum T trans_make match_make expr expr_new expr_lookup expr_eval expr_eval_line expr_none exp10 expr_used args ws askss alsos outs s0 s1 f0 f1 cols); auto.
  exists (clean_by exp10 of_keyed (keys_or ws)). split; [apply clean_by_pre; auto|].
  assert (E : forall x, line_in f0 f1 x -> cols_count exp10 (fst x) (keys_or ws) (fields (snd x))).
  { intros [f l] H. rewrite Forall_forall in C0, C1. unfold keys_or. destruct ws as [|w ws]; [constructor; [exact I|constructor]|]. destruct H as [[H1 H2]|[H1 H2]]; cbn [fst snd] in *; subst f; auto. }
  intros x y X Y. apply keyed_clean; auto.
Qed.
End Join.
End Tool.
