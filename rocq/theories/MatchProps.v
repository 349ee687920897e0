(** C24-C26, C59-C61: matchers. *)
From Coq Require Import String List NArith ZArith Bool Arith Lia.
Open Scope list_scope.
Import ListNotations.
From Verif Require Import Base TextModel StrModel FloatModel FloatInt ReadModel ReadSpec ReadProofs CompModel MatchModel MatchSpec MatchProofs MatchText ShareProofs StrSpec StrProofs StrProps.
Close Scope Z_scope.

(** C24. A decision taken after some columns is the one the totals of all columns give, whatever the other columns
    are. *)
Theorem c24_early : forall d yes no more_yes more_no,
  (match_mid d yes no = TYes -> match_final d (yes + more_yes) (no + more_no) = true) /\
  (match_mid d yes no = TNo -> match_final d (yes + more_yes) (no + more_no) = false).
Proof. exact mid_final. Qed.
Example c24_early_ex : match_mid (DExactly (TCount 2)) 3 1 = TNo /\ match_final (DExactly (TCount 2)) (3 + 0) (1 + 5) = false /\
  match_mid DMixed 1 1 = TYes /\ match_mid (DAtLeast (TCount 2)) 1 4 = TMaybe.
Proof. repeat split. Qed.

(** C24. The loop over the columns gives the verdict of the determiner on the verdicts of all columns. *)
Theorem c24_loop : forall (A : Type) (f : A -> res bool) d cols vs, Forall2 (fun x b => f x = Ok b) cols vs ->
  count_loop f d cols 0 0 = Ok (match_final d (hits vs) (misses vs)) /\
  (counting d -> (count_loop f d cols 0 0 = Ok true <-> holds_on d vs)).
Proof.
  intros A f d cols vs H. pose proof (count_loop_final f d cols vs 0 0 H) as E. rewrite !N.add_0_l in E. split; auto.
  intros C. rewrite E, <- final_holds by auto. split; [intros X; injection X; auto|intros ->; auto].
Qed.
Example c24_loop_ex :
  count_loop (fun x => Ok (N.even x)) (DAtMostNo (TCount 1)) [2; 4; 5; 8]%N 0 0 = Ok true /\
  holds_on (DAtMostNo (TCount 1)) (map N.even [2; 4; 5; 8]%N).
Proof. split; [reflexivity|]. constructor. vm_compute. discriminate. Qed.

(** C25. The comparisons are the wrong way round: with the share m/tot as the fraction, at most accepts exactly when n
    is at least m, and at least when n is at most m. Totals below 2^50. *)
Theorem c25_swapped : forall m n tot, (0 < tot)%N -> (tot < 2 ^ 50)%N -> (m <= tot)%N -> (n <= tot)%N ->
  let t := TFrac (f_ratio (Z.of_N m) (Z.of_N tot)) in
  at_most_final t n tot = (m <=? n)%N /\ at_least_final t n tot = (n <=? m)%N.
Proof. intros m n tot H1 H2 H3 H4. split; [apply share_less|apply share_greater]; auto. Qed.
Example c25_swapped_ex : at_most_final (TFrac (f_ratio 1 3)) 3 3 = true /\ at_most_final (TFrac (f_ratio 2 3)) 1 3 = false.
Proof. vm_compute. auto. Qed.
(** C25. Exactly accepts the share m/tot for the count m and for no other count. *)
Theorem c25_exactly_partial : forall m n tot, (0 < tot)%N -> (tot < 2 ^ 50)%N -> (m <= tot)%N -> (n <= tot)%N ->
  exactly_t (TFrac (f_ratio (Z.of_N m) (Z.of_N tot))) n tot = (n =? m)%N.
Proof. intros m n tot H1 H2 H3 H4. apply share_equal; auto. Qed.
Example c25_exactly_partial_ex : exactly_t (TFrac (f_ratio 2 7)) 2 7 = true /\ exactly_t (TFrac (f_ratio 2 7)) 3 7 = false.
Proof. vm_compute. auto. Qed.
(** C25. At most one half accepts four columns out of four and rejects none out of four; at least one half the other
    way round. *)
Theorem c25_at_most_refuted : exists f, thresh_new_frac f = Ok (TFrac f) /\ f = f_ratio 1 2 /\
  match_final (DAtMost (TFrac f)) 4 0 = true /\ match_final (DAtMost (TFrac f)) 0 4 = false /\
  match_final (DAtLeast (TFrac f)) 4 0 = false /\ match_final (DAtLeast (TFrac f)) 0 4 = true.
Proof. exists (f_ratio 1 2). vm_compute. repeat split. Qed.
(** C25. With no columns at all the share counts as 0 according to the comment; yet at least one half accepts. *)
Theorem c25_no_columns_refuted : exists f, f = f_ratio 1 2 /\ match_final (DAtLeast (TFrac f)) 0 0 = true /\
  match_final (DAtMost (TFrac f)) 0 0 = true.
Proof. exists (f_ratio 1 2). vm_compute. repeat split. Qed.

(** C26. In and-mode a list accepts exactly when every member does. *)
Theorem c26_and : forall exp10 l t, lines_ok exp10 CAnd l t = Ok true <-> Forall (fun m => lm_ok exp10 m t = Ok true) l.
Proof. intros. apply all_match_true. Qed.
(** C26. In or-mode when some member does. *)
Theorem c26_or : forall exp10 l t, Forall (fun m => exists b, lm_ok exp10 m t = Ok b) l ->
  lines_ok exp10 COr l t = Ok true <-> Exists (fun m => lm_ok exp10 m t = Ok true) l.
Proof. intros. apply some_match_true. auto. Qed.
(** C26. There is always a verdict if each member gives one, and the verbose variant gives the same. *)
Theorem c26_verdict : forall exp10 c l t, Forall (fun m => exists b, lm_ok exp10 m t = Ok b) l ->
  (exists b, lines_ok exp10 c l t = Ok b) /\ lines_ok_verbose exp10 c l t = lines_ok exp10 c l t.
Proof.
  intros e c l t H. split; [|apply lines_verbose; auto]. destruct c; [apply some_match_total|apply all_match_total]; auto.
Qed.
Definition ex_row (a b : string) : textline := process QPlain TAB (bs a ++ [TAB] ++ bs b ++ [NL]).
Definition plain_m (k : kind) : matcher := mkm false false false false (inl k).
Definition ex_list : list line_matcher := [LMCol 0 (plain_m (KPrefix (bs "an"))); LMCount 2; LMColSet DSome [0; 1] (plain_m (KExact (bs "7")))].
Example c26_ex : forall e, lines_ok e CAnd ex_list (ex_row "ant" "7") = Ok true /\ lines_ok e CAnd ex_list (ex_row "ant" "8") = Ok false /\
  lines_ok e COr ex_list (ex_row "bee" "8") = Ok true /\ lines_ok_verbose e CAnd ex_list (ex_row "ant" "8") = Ok false /\
  Forall (fun m => exists b, lm_ok e m (ex_row "ant" "8") = Ok b) ex_list.
Proof. intros e. repeat split. repeat constructor; eexists; reflexivity. Qed.

(** C26. A list of text matchers. *)
Theorem c26_texts : forall exp10 l b,
  (mlist_umatch exp10 CAnd l b = Ok true <-> Forall (fun m => m_umatch exp10 m b = Ok true) l) /\
  (mlist_umatch exp10 COr l b = Ok false <-> Forall (fun m => m_umatch exp10 m b = Ok false) l).
Proof. intros. split; [apply all_match_true|apply some_match_false]. Qed.
Example c26_texts_ex : forall e, mlist_umatch e CAnd [plain_m (KPrefix (bs "a")); plain_m (KSuffix (bs "t"))] (bs "ant") = Ok true /\
  mlist_umatch e COr [plain_m (KPrefix (bs "b")); plain_m (KSuffix (bs "s"))] (bs "ant") = Ok false.
Proof. intros e. split; reflexivity. Qed.

(** C26. Writing not in front of a method flips the verdict on a column and on a line. *)
Theorem c26_not : forall regex mk_comp file_lines method p m, method <> [] -> make2 regex mk_comp file_lines method p = Ok m -> m_negate m = false ->
  exists m', make2 regex mk_comp file_lines (bs "not." ++ method) p = Ok m' /\
  forall exp10 c t b,
    (lm_ok exp10 (LMCol c m) t = Ok b -> lm_ok exp10 (LMCol c m') t = Ok (negb b)) /\
    (lm_ok exp10 (LMWhole m) t = Ok b -> lm_ok exp10 (LMWhole m') t = Ok (negb b)).
Proof.
  intros regex mk fl method p m H E N. destruct (make2_not regex mk fl method p m H E) as (m' & E' & N' & M). exists m'. split; auto.
  intros e c t b. cbn [lm_ok]. split.
  - rewrite M, N, N'. destruct (m_match e m (tl_get t c)) as [x| | ]; cbn [rbind]; try discriminate. intros X. injection X as <-. destruct x; reflexivity.
  - destruct (tl_line_nl t) as [l| | ]; cbn [rbind]; try discriminate. rewrite M, N, N'. destruct (m_match e m l) as [x| | ]; cbn [rbind]; try discriminate.
    intros X. injection X as <-. destruct x; reflexivity.
Qed.
Definition no_regex (p : bytes) (ic : case) : res (bytes -> bool) := Err.
Definition no_comp (p : bytes) : res cmpr := Err.
Definition no_file (p : bytes) : res (list bytes) := Err.
Notation mk := (make2 no_regex no_comp no_file).
(** The verdict of a matcher given by method and pattern on a text. *)
Definition says (exp10 : Z -> f64) (method p b : bytes) : res bool := rbind (mk method p) (fun m => m_match exp10 m b).
Example c26_not_ex : forall e, rbind (mk (bs "trim.prefix") (bs "an")) (fun m => lm_ok e (LMCol 1 m) (ex_row "bee" " ant")) = Ok true /\
  rbind (mk (bs "not.trim.prefix") (bs "an")) (fun m => lm_ok e (LMCol 1 m) (ex_row "bee" " ant")) = Ok false.
Proof. intros e. split; reflexivity. Qed.
(** C26. In a list of text matchers, as given to cat for the lines to leave out, the negation of a member is ignored. *)
Theorem c26_text_negation_refuted : exists m, mk (bs "not.prefix") (bs "a") = Ok m /\ m_negate m = true /\
  forall exp10, mlist_umatch exp10 COr [m] (bs "ant") = Ok true /\ mlist_umatch exp10 COr [m] (bs "bee") = Ok false.
Proof. eexists. split; [reflexivity|]. split; [reflexivity|]. intros e. split; reflexivity. Qed.
(** C26. Null is documented to let the empty text match too; it negates instead. *)
Theorem c26_null_refuted : exists m, mk (bs "null.exact") (bs "a") = Ok m /\ m_negate m = true /\ m_empty m = false /\
  forall exp10, lm_ok exp10 (LMCol 1 m) (ex_row "x" "a") = Ok false /\ m_match exp10 m [] = Ok false.
Proof. eexists. split; [reflexivity|]. split; [reflexivity|]. split; [reflexivity|]. intros e. split; reflexivity. Qed.

(** C59. What each simple method accepts. *)
Section Texts.
Variable exp10 : Z -> f64.
Notation accepts := (fun method p b => says exp10 (bs method) p b = Ok true).
Ltac unmake v := match goal with |- context [says exp10 ?m ?p ?b] => change (says exp10 m p b) with v end.
Theorem c59_prefix : forall p b, (accepts "prefix"%string p b <-> begins p b) /\ (accepts "case.prefix"%string p b <-> begins_case p b).
Proof.
  intros p b. split; [unmake (Ok (starts_with b p))|unmake (Ok (starts_with (map lower b) (map lower p)))]; (split; [intros H; injection H as H|intros H; f_equal]).
  - apply starts_with_app. auto.
  - apply starts_with_app. auto.
  - apply begins_lower. apply starts_with_app. auto.
  - apply starts_with_app. apply begins_lower. auto.
Qed.
Theorem c59_suffix : forall p b, (accepts "suffix"%string p b <-> finishes p b) /\ (p <> [] -> (accepts "case.suffix"%string p b <-> finishes_case p b)).
Proof.
  intros p b. split; [unmake (Ok (ends_with b p))|intros N; unmake (bcase_suffix b (map lower p))].
  - split; [intros H; injection H as H|intros H; f_equal]; apply ends_with_iff; auto.
  - destruct (bcase_suffix_iff b p N) as (v & E & V). rewrite E, <- V. split; [intros H; injection H; auto|intros ->; auto].
Qed.
Theorem c59_infix : forall p b, (accepts "infix"%string p b <-> within p b) /\ (accepts "case.infix"%string p b <-> within_case p b).
Proof.
  intros p b. split; [unmake (Ok (infix b p))|unmake (Ok (infix (map lower b) (map lower p)))]; (split; [intros H; injection H as H|intros H; f_equal]).
  - apply infix_iff. auto.
  - apply infix_iff. auto.
  - apply within_lower. apply infix_iff. auto.
  - apply infix_iff. apply within_lower. auto.
Qed.
Theorem c59_exact : forall p b, (accepts "exact"%string p b <-> b = p) /\ (accepts "case.exact"%string p b <-> same_but_case b p).
Proof.
  intros p b. split; [unmake (Ok (beq p b))|unmake (Ok (same_word b (map lower p)))]; (split; [intros H; injection H as H|intros H; f_equal]).
  - apply beq_eq in H. auto.
  - apply beq_eq. auto.
  - apply same_word_iff in H. apply same_case_map in H. rewrite CompProofs.map_lower_lower in H. apply same_case_map. auto.
  - apply same_word_iff. apply same_case_map. rewrite CompProofs.map_lower_lower. apply same_case_map. auto.
Qed.
(** C59. Length between two bounds, or at least one; nothing; only white space. *)
Theorem c59_length : forall px py x y b, px <> [] -> ~ In 44%N px -> ~ In 44%N py -> to_usize_whole px = Ok x -> to_usize_whole py = Ok y ->
  (accepts "length"%string (px ++ 44%N :: py) b <-> (x <= N.of_nat (List.length b) <= y)%N) /\
  (accepts "length"%string px b <-> (x <= N.of_nat (List.length b))%N).
Proof.
  intros px py x y b H Hx Hy Ex Ey.
  assert (L : forall q, says exp10 (bs "length") q b = rbind (length_new q) (fun k => kind_umatch exp10 k b)).
  { intros q. change (says exp10 (bs "length") q b) with
      (rbind (rbind (rbind (length_new q) (fun k => Ok (false, k))) (fun x => Ok (mkm false false (false || fst x) (false || fst x) (inl (snd x)))))
         (fun m => m_match exp10 m b)). destruct (length_new q); reflexivity. }
  cbv beta. rewrite !L, (length_new_two px py x y), (length_new_one px x) by auto. cbn [rbind kind_umatch].
  pose proof (len_ok_iff x (Some y) b) as L1. pose proof (len_ok_iff x None b) as L2.
  split; (split; [intros X; injection X as X; tauto|intros X; f_equal; tauto]).
Qed.
Theorem c59_empty_blank : forall p b, (accepts "empty"%string p b <-> b = []) /\ (accepts "blank"%string p b <-> Forall blank b) /\ accepts "yes"%string p b.
Proof.
  intros p b. split; [unmake (Ok (len_ok 0 (Some 0%N) b))|split; [|reflexivity]].
  - pose proof (len_ok_iff 0 (Some 0%N) b) as L. split.
    + intros H. injection H as H. apply L in H as [_ H]. destruct b; auto. cbn [List.length] in H. lia.
    + intros ->. reflexivity.
  - unmake (if match trimw b with [] => true | _ :: _ => false end then Ok true else Ok false). rewrite <- trim_nil. destruct (trimw b); split; auto; discriminate.
Qed.
(** C59. White space followed by a comment mark; but white space alone is accepted too. *)
Theorem c59_comment_partial : forall p b a c, p = a :: c -> (32 < a)%N -> (32 < last p 0)%N ->
  (accepts "comment"%string p b <-> after_blanks p b \/ Forall blank b) /\
  (accepts "hash"%string p b <-> after_blanks (bs "#") b \/ Forall blank b) /\
  (accepts "slash"%string p b <-> after_blanks (bs "//") b \/ Forall blank b).
Proof.
  assert (G : forall p b a c, p = a :: c -> (32 < a)%N -> (32 < last p 0)%N ->
    ((if match trimw b with [] => true | _ :: _ => false end then Ok true else Ok (starts_with (trimw b) p)) = Ok true <-> after_blanks p b \/ Forall blank b)).
  { intros p b a c P A Z. rewrite <- trim_nil. rewrite <- (trim_prefix p b a c (last p 0%N)) by auto.
    destruct (trimw b) as [|x r] eqn:T; [tauto|]. split; [intros H; injection H; auto|intros [-> | H]; [auto|discriminate]]. }
  intros p b a c P A Z. split; [|split].
  - unmake (if match trimw b with [] => true | _ :: _ => false end then Ok true else Ok (starts_with (trimw b) p)). apply (G p b a c); auto.
  - unmake (if match trimw b with [] => true | _ :: _ => false end then Ok true else Ok (starts_with (trimw b) (bs "#"))). apply (G (bs "#") b 35%N []); auto; reflexivity.
  - unmake (if match trimw b with [] => true | _ :: _ => false end then Ok true else Ok (starts_with (trimw b) (bs "//"))). apply (G (bs "//") b 47%N [47%N]); auto; reflexivity.
Qed.
End Texts.
Example c59_ex : forall e, says e (bs "case.infix") (bs "BC") (bs "abCd") = Ok true /\ says e (bs "length") (bs "2,3") (bs "abcd") = Ok false /\
  says e (bs "length") (bs "2") (bs "abcd") = Ok true /\ says e (bs "case.suffix") (bs "CD") (bs "abcd") = Ok true /\
  says e (bs "hash") [] (bs "  # note") = Ok true /\ says e (bs "hash") [] (bs "x # note") = Ok false /\ says e (bs "blank") [] (bs "  ") = Ok true /\
  says e (bs "case.prefix") (bs "AB") (bs "abcd") = Ok true /\ says e (bs "case.exact") (bs "ABCD") (bs "abcd") = Ok true.
Proof. intros e. repeat split. Qed.
(** C59. One of the lines of a file. *)
Theorem c59_file : forall exp10 regex mk_comp file_lines p bodies b, file_lines p = Ok (map (fun x => x ++ [NL]) bodies) -> b <> [] ->
  (rbind (make2 regex mk_comp file_lines (bs "file-exact") p) (fun m => m_match exp10 m b) = Ok true <-> In b bodies) /\
  (rbind (make2 regex mk_comp file_lines (bs "case.file-exact") p) (fun m => m_match exp10 m b) = Ok true <-> exists x, In x bodies /\ same_but_case b x).
Proof.
  intros e rg mc fl p bodies b F H. unfold make2.
  change (method_flags (bs "file-exact")) with (mkf (bs "file-exact") false Sens false false false None).
  change (method_flags (bs "case.file-exact")) with (mkf (bs "file-exact") false Insens false false false None).
  cbn [f_multi f_ctype f_case f_string f_negate f_trim f_empty]. unfold make_kind.
  cbn -[load_set existsb map]. rewrite F. cbn -[load_set existsb map].
  unfold m_match, m_umatch. cbn -[load_set existsb map]. rewrite <- load_set_sens, <- load_set_insens by auto.
  split; (split; [intros X; injection X; auto|intros X; rewrite X; auto]).
Qed.
Definition ex_files (p : bytes) : res (list bytes) := Ok (map (fun x => x ++ [NL]) [bs "ant"; bs "Bee"; bs ""]).
Example c59_file_ex : forall e, rbind (make2 no_regex no_comp ex_files (bs "fileexact") (bs "f")) (fun m => m_match e m (bs "ant")) = Ok true /\
  rbind (make2 no_regex no_comp ex_files (bs "case.file-exact") (bs "f")) (fun m => m_match e m (bs "bEE")) = Ok true /\
  rbind (make2 no_regex no_comp ex_files (bs "file-exact") (bs "f")) (fun m => m_match e m (bs "bee")) = Ok false.
Proof. intros e. repeat split. Qed.
(** C59. A comment matcher accepts an empty text, which has no comment mark. *)
Theorem c59_comment_refuted : exists b, ~ after_blanks (bs "#") b /\ forall exp10, says exp10 (bs "hash") [] b = Ok true.
Proof.
  exists []. split; [|intros; reflexivity]. intros (w & r & E & _). symmetry in E. apply app_eq_nil in E as [_ E]. discriminate.
Qed.
(** C59. Ignoring case, in utf8 mode, exact does not accept the pattern in upper case, nor even a text equal to the pattern. *)
Theorem c59_utf8_case_refuted : exists p b, same_but_case b p /\ forall exp10, says exp10 (bs "utf8.case.exact") p b = Ok false /\
  says exp10 (bs "utf8.case.exact") b b = Ok false.
Proof. exists (bs "ant"), (bs "ANT"). split; [apply same_case_map; reflexivity|]. intros e. split; reflexivity. Qed.
(** C59. An empty pattern is a suffix of everything; with case ignored asking for it panics. *)
Theorem c59_empty_suffix_refuted : exists p b, finishes_case p b /\ forall exp10, says exp10 (bs "case.suffix") p b = Panic.
Proof. exists [], (bs "ant"). split; [exists [], (bs "ant"); split; [reflexivity|constructor]|]. intros e. reflexivity. Qed.
(** C59. An empty line of the file is left out. *)
Theorem c59_file_empty_refuted : exists p b, In (b ++ [NL]) (match ex_files p with Ok l => l | _ => [] end) /\
  forall exp10, rbind (make2 no_regex no_comp ex_files (bs "file-exact") p) (fun m => m_match exp10 m b) = Ok false.
Proof. exists (bs "f"), []. split; [vm_compute; tauto|]. intros e. reflexivity. Qed.
(** C59. A multi pattern with nothing in it panics instead of being reported. *)
Theorem c59_multi_refuted : exists method, mk method [] = Panic.
Proof. exists (bs "or.prefix"). reflexivity. Qed.

(** C59. A multi pattern: each part between the separators is a pattern, joined by and or or. *)
Theorem c59_multi : forall exp10 d ps b, ps <> [] -> Forall (fun p => ~ In d p) ps ->
  let pat := concat (map (fun p => d :: p) ps) in
  (says exp10 (bs "or.infix") pat b = Ok true <-> Exists (fun p => within p b) ps) /\
  (says exp10 (bs "and.infix") pat b = Ok true <-> Forall (fun p => within p b) ps).
Proof.
  intros e d ps b H F.
  assert (S1 : exists r, concat (map (fun p => d :: p) ps) = d :: r /\ split_str d r = ps).
  { destruct ps as [|p ps]; [congruence|]. exists (p ++ concat (map (fun p => d :: p) ps)). split; [reflexivity|]. clear H.
    revert p F. induction ps as [|q ps IH]; intros p F; inversion F as [|? ? F1 F2]; subst; cbn [map concat].
    - rewrite app_nil_r. clear F F2. induction p as [|c p IH]; [reflexivity|]. cbn [split_str].
      destruct (N.eqb_spec c d) as [->|N]; [exfalso; apply F1; left; auto|]. rewrite IH; auto. intros I. apply F1. right. auto.
    - rewrite <- app_comm_cons. rewrite split_str_app by auto. rewrite IH; auto. }
  destruct S1 as (r & E & S1). cbv zeta. rewrite E. unfold says, make2.
  change (method_flags (bs "or.infix")) with (mkf (bs "infix") false Sens false false false (Some COr)).
  change (method_flags (bs "and.infix")) with (mkf (bs "infix") false Sens false false false (Some CAnd)).
  cbn [f_multi f_ctype f_case f_string f_negate f_trim f_empty]. rewrite S1.
  assert (MM : forall mu ps, make_members no_regex no_comp no_file (mkf (bs "infix") false Sens false false false mu) ps =
    Ok (map (fun p => mks false false false false (KInfix p)) ps)).
  { intros mu. induction ps0 as [|p ps0 IH]; [reflexivity|].
    change (make_members no_regex no_comp no_file (mkf (bs "infix") false Sens false false false mu) (p :: ps0)) with
      (rbind (make_members no_regex no_comp no_file (mkf (bs "infix") false Sens false false false mu) ps0)
         (fun l => Ok (mks false false false false (KInfix p) :: l))). rewrite IH. reflexivity. }
  rewrite !MM. cbn [rbind]. unfold m_match, m_umatch. cbn -[map tagged infix]. unfold list_umatch. cbn [tagged].
  rewrite some_match_true, all_match_true.
  - rewrite Forall_map, Exists_exists, Exists_exists. unfold single_umatch. cbn [s_trim s_empty s_kind andb kind_umatch]. split.
    + split.
      * intros (x & I & X). apply in_map_iff in I as (p & <- & I). cbn [s_trim s_empty s_kind andb kind_umatch] in X. exists p. split; auto. apply infix_iff. injection X. auto.
      * intros (p & I & X). exists (mks false false false false (KInfix p)). split; [apply in_map_iff; eauto|]. cbn [s_trim s_empty s_kind andb kind_umatch]. f_equal. apply infix_iff. auto.
    + rewrite !Forall_forall. split; intros X p I; specialize (X p I); [apply infix_iff; injection X; auto|f_equal; apply infix_iff; auto].
  - apply Forall_forall. intros x I. apply in_map_iff in I as (p & <- & _). eexists. reflexivity.
Qed.
Example c59_multi_ex : forall e, says e (bs "or.infix") (bs "/an/bee") (bs "xbee") = Ok true /\ says e (bs "and.infix") (bs "/an/bee") (bs "xbee") = Ok false /\
  bs "/an/bee" = concat (map (fun p => 47%N :: p) [bs "an"; bs "bee"]).
Proof. intros e. repeat split. Qed.

(** C60. cgrep writes exactly the lines its list accepts, in order; inverted, exactly the others. *)
Theorem c60_grep : forall exp10 c l lines vs, Forall2 (fun t b => lines_ok exp10 c l t = Ok b) lines vs ->
  let pick := fun w => map fst (filter (fun x => Bool.eqb (snd x) w) (combine lines vs)) in
  grep_loop exp10 c l false lines = Ok (concat (map tl_line (pick true))) /\
  grep_loop exp10 c l true lines = Ok (concat (map tl_line (pick false))).
Proof.
  intros e c l lines vs H pick. rewrite !(grep_loop_ok e c l _ lines vs H). unfold pick.
  split; repeat f_equal; apply filter_ext; intros [t []]; reflexivity.
Qed.
Example c60_grep_ex : forall e, let ls := [ex_row "ant" "7"; ex_row "bee" "7"; ex_row "ann" "8"] in
  let m := [LMCol 0 (plain_m (KPrefix (bs "an")))] in
  grep_loop e CAnd m false ls = Ok (tl_line (ex_row "ant" "7") ++ tl_line (ex_row "ann" "8")) /\
  grep_loop e CAnd m true ls = Ok (tl_line (ex_row "bee" "7")) /\
  Forall2 (fun t b => lines_ok e CAnd m t = Ok b) ls [true; false; true].
Proof. intros e. split; [reflexivity|]. split; [reflexivity|]. repeat constructor. Qed.

(** C61. Plain line conditions: columns, method and pattern between commas; the pattern may have further commas. *)
Theorem c61_plain : forall cols method p, ~ In 44%N cols -> ~ In 44%N method -> hd 0%N cols <> 91%N ->
  method <> bs "expr" -> method <> bs "comp" -> method <> bs "count" ->
  make_line (cols ++ 44%N :: method ++ 44%N :: p) = Ok (match cols with [] => SpWhole method p | _ => SpCol cols method p end).
Proof.
  intros cols method p Hc Hm H0 N1 N2 N3. unfold make_line.
  assert (B : forall x y, x <> y -> beq x y = false).
  { intros x y N. apply not_true_is_false. rewrite beq_eq. auto. }
  assert (L : make_line3 cols method p = Ok (match cols with [] => SpWhole method p | _ => SpCol cols method p end)).
  { unfold make_line3. rewrite !B by auto. destruct cols as [|c r]; auto. cbn [hd] in H0. destruct (N.eqb_spec c 91); [congruence|auto]. }
  destruct cols as [|c r].
  - cbn [app]. cbn [N.eqb Pos.eqb split_once]. rewrite split_once_app by auto. apply L.
  - cbn [app]. cbn [hd] in H0. destruct (N.eqb_spec c 91); [congruence|].
    rewrite (app_comm_cons r (44%N :: method ++ 44%N :: p) c). rewrite split_once_app by auto. rewrite split_once_app by auto. apply L.
Qed.
Example c61_plain_ex : make_line (bs "a,prefix,x,y") = Ok (SpCol (bs "a") (bs "prefix") (bs "x,y")) /\
  make_line (bs ",exact,x") = Ok (SpWhole (bs "exact") (bs "x")).
Proof. split; reflexivity. Qed.
(** C61. A condition on a group of columns, [all,a-c] in front of method and pattern, is taken for one column named
    all,a-c] with the bracket. *)
Theorem c61_group_refuted : exists spec, spec = bs "[all,a-c],exact,x" /\ make_line spec = Ok (SpCol (bs "all,a-c]") (bs "exact") (bs "x")).
Proof. eexists. split; reflexivity. Qed.
Lemma bracket_cols : forall r len, find_close (91%N :: r) = Ok len ->
  exists inner rest, r = inner ++ 93%N :: rest /\ firstn (len - 1) r = inner ++ [93%N] /\ balance 91 93 inner = 0%Z.
Proof.
  intros r len H. apply c46_find_close_sound in H as (o & c & inner & rest & E & P & B & ->). cbn [Datatypes.app] in E. injection E as <- ->.
  assert (c = 93%N) by (unfold bracket_pair in P; cbn in P; intuition congruence). subst c. exists inner, rest. split; auto. split; [|apply B].
  cbn [Datatypes.app List.length]. replace (S (List.length (inner ++ [93%N])) - 1) with (List.length (inner ++ [93%N])) by lia.
  change (inner ++ 93%N :: rest) with (inner ++ [93%N] ++ rest). rewrite app_assoc, firstn_app, Nat.sub_diag, firstn_all. cbn [firstn]. apply app_nil_r.
Qed.
Lemma balance_app : forall a b, balance 91 93 (a ++ b) = (balance 91 93 a + balance 91 93 b)%Z.
Proof. induction a as [|x a IH]; intros b; cbn [Datatypes.app balance]; [auto|]. rewrite IH. lia. Qed.
(** C61. No text at all gives a group condition with the intended columns: whenever the group matcher is chosen, its
    columns have one closing bracket too many. The same holds in comparisons between columns. *)
Theorem c61_group_never_refuted : exists extra, extra = (-1)%Z /\
  (forall spec cols method p, make_line spec = Ok (SpColSet cols method p) -> balance 91 93 cols = extra) /\
  (forall r d cols rest, colgroup_parts (91%N :: r) = Ok (d, cols, rest) -> d = DSome /\ balance 91 93 cols = extra).
Proof.
  exists (-1)%Z. split; [reflexivity|]. split.
  - assert (M3 : forall c m q cols method p, make_line3 c m q = Ok (SpColSet cols method p) -> exists r, c = 91%N :: r /\ r <> [] /\ cols = removelast r).
    { intros c m q cols method p. unfold make_line3. destruct (beq m (bs "expr")); [destruct c; discriminate|]. destruct (beq m (bs "comp")); [discriminate|].
      destruct (beq m (bs "count")); [destruct c; discriminate|]. destruct c as [|x r]; [discriminate|]. destruct (N.eqb_spec x 91) as [->|N]; [|discriminate].
      destruct r as [|y r]; [discriminate|]. intros H. injection H as <- <- <-. exists (y :: r). split; auto. split; [discriminate|auto]. }
    intros spec cols method p. unfold make_line. destruct spec as [|c0 r]; [intros H; apply M3 in H as (r & E & _); discriminate|].
    destruct (N.eqb_spec c0 91) as [->|N].
    + destruct (find_close (91%N :: r)) as [len| | ] eqn:F; cbn [rbind]; try discriminate. cbn [skipn].
      destruct (bracket_cols r len F) as (inner & rest & -> & E & B). rewrite E. destruct (_ <? _); [discriminate|].
      assert (G : forall m q, make_line3 (inner ++ [93%N]) m q = Ok (SpColSet cols method p) -> balance 91 93 cols = (-1)%Z).
      { intros m q H. apply M3 in H as (r & E2 & N & ->). destruct inner as [|x inner]; [discriminate|]. cbn [Datatypes.app] in E2. injection E2 as -> <-.
        rewrite removelast_last. cbn [balance N.eqb Pos.eqb] in B. lia. }
      destruct (split_once 44 _) as [[c d]|]; apply G.
    + intros H. exfalso. assert (C0 : exists a m q, make_line3 a m q = Ok (SpColSet cols method p) /\ hd 0%N a <> 91%N).
      { cbn [split_once] in H. destruct (N.eqb_spec c0 44) as [->|N2].
        - destruct (split_once 44 r) as [[c d]|]; do 3 eexists; (split; [exact H|cbn; congruence]).
        - destruct (split_once 44 r) as [[a b]|]; [destruct (split_once 44 b) as [[c d]|]|]; do 3 eexists; (split; [exact H|cbn; congruence]). }
      destruct C0 as (a & m & q & H1 & H2). apply M3 in H1 as (r' & -> & _). apply H2. reflexivity.
  - intros r d cols rest. unfold colgroup_parts. cbn [N.eqb Pos.eqb]. destruct (find_close (91%N :: r)) as [len| | ] eqn:F; cbn [rbind]; try discriminate.
    destruct (bracket_cols r len F) as (inner & rest' & -> & E & B). rewrite E. destruct (_ <? _); [discriminate|]. intros H. injection H as <- <- <-.
    split; auto. rewrite balance_app. cbn [balance N.eqb Pos.eqb]. lia.
Qed.
Example c61_group_never_refuted_ex : make_line (bs "[[all,a-c]],exact,x") = Ok (SpColSet (bs "all,a-c]") (bs "exact") (bs "x")) /\
  colgroup_parts (bs "[all,a-c],num") = Ok (DSome, bs "all,a-c]", bs "num").
Proof. split; reflexivity. Qed.
(** C61. A bracketed group with nothing after it panics. *)
Theorem c61_end_refuted : exists spec, spec = bs "[all,a-c]" /\ make_line spec = Panic.
Proof. eexists. split; reflexivity. Qed.
(** C61. Thresholds such as atmost,2 cannot be used for a group: only the text up to the first comma is read. *)
Theorem c61_threshold_refuted : exists spec, (forall exp10, determiner_new exp10 spec = Ok (DAtMost (TCount 2))) /\
  forall exp10 cols, colset_parts exp10 (spec ++ 44%N :: cols) = Err.
Proof. exists (bs "atmost,2"). split; [reflexivity|]. intros e cols. reflexivity. Qed.
