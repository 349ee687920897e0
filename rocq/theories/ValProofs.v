(** The sort tool with keys that compare numbers. *)
From Coq Require Import String List NArith ZArith QArith Bool Arith Lia SpecFloat Sorting.Permutation Sorting.Sorted.
Open Scope list_scope.
Import ListNotations.
From Verif Require Import Base TextModel TextSpec StrModel FloatModel FloatValid FloatInt ReadModel ReadSpec HeadModel HdrModel HdrProofs CompSpec LineSpec CompModel OrdProofs CompProofs NumProofs NumCache IpProofs CacheProofs LineProofs
  RawSplitProofs SortSpec SortModel SortProofs HeapProofs MergeProofs SorterProofs SortProps CompProps ReadProofs ToolModel ToolOpen PasteSpec PasteProofs TurnProofs NumbProofs KeyModel KeySpec KeyProofs OrderModel OrderSpec OrderSame OrderProofs OrderTool
  ValSpec ValSame.
Close Scope Z_scope. Close Scope Q_scope. Open Scope nat_scope.

Section Order.
Variable exp10 : Z -> f64.
Hypothesis exp10_ok : forall z, valid64 (exp10 z).

(** A comparison of all texts that is the wanted one where the values fit. *)
Definition cleaned (x : f64) : f64 := match x with S754_nan => S754_zero false | _ => x end.
Definition c_clean (c : cmpr) (a b : bytes) : comparison :=
  match c with CF64 | CNumeric => fcmp (cleaned (to_f64_lossy exp10 a)) (cleaned (to_f64_lossy exp10 b)) | _ => c_comp exp10 c a b end.
Lemma cleaned_valid : forall x, valid64 x -> valid64 (cleaned x) /\ cleaned x <> S754_nan.
Proof. intros [s|s| |s m e] V; cbn; split; auto; try discriminate; reflexivity. Qed.
Lemma cleaned_same : forall x, x <> S754_nan -> cleaned x = x.
Proof. intros [s|s| |s m e] H; cbn; congruence. Qed.
Lemma c_clean_pre : forall c, total_preorder (c_clean c).
Proof.
  assert (F : total_preorder (fun a b => fcmp (cleaned (to_f64_lossy exp10 a)) (cleaned (to_f64_lossy exp10 b)))).
  { apply (preorder_key (fun v => FloatSpec.dval (f_bits (cleaned (to_f64_lossy exp10 v)))) Z.compare); [apply Z_preorder|].
    intros a b. destruct (cleaned_valid _ (to_f64_valid exp10 exp10_ok a)), (cleaned_valid _ (to_f64_valid exp10 exp10_ok b)). apply fcmp_dval; auto. }
  intros c. destruct c; try exact F; apply orderly_preorder; unfold orderly; auto.
Qed.
Lemma whole_fcmp : forall a b, whole_number a -> whole_number b ->
  c_comp exp10 CNumeric (numeral_text a) (numeral_text b) = fcmp (to_f64_lossy exp10 (numeral_text a)) (to_f64_lossy exp10 (numeral_text b)).
Proof.
  intros a b Ha Hb. destruct (whole_holds exp10 a Ha) as [HA ZA]. destruct (whole_holds exp10 b Hb) as [HB ZB]. rewrite (holds_fcmp _ _ _ _ HA HB). cbn [c_comp].
  destruct Ha as (Ba & Ia & Fa & La & Ma). destruct Hb as (Bb & Ib & Fb & Lb & Mb).
  assert (Oa : numeral_ok a). { unfold numeral_ok. rewrite Ba, Fa. repeat split; auto. eapply Forall_impl; [|apply Ia]. auto. }
  assert (Ob : numeral_ok b). { unfold numeral_ok. rewrite Bb, Fb. repeat split; auto. eapply Forall_impl; [|apply Ib]. auto. }
  assert (V : forall n, n_frac n = None -> numeral_abs n = Qmake (digits_val (n_int n)) 1). { intros n Hn. unfold numeral_abs, frac_of. rewrite Hn, app_nil_r. auto. }
  assert (PA : (0 <= digits_val (n_int a))%Z) by (rewrite digits_val_dg, dg_digit_id by auto; apply (dval_bound _ Ia)).
  assert (PB : (0 <= digits_val (n_int b))%Z) by (rewrite digits_val_dg, dg_digit_id by auto; apply (dval_bound _ Ib)).
  rewrite (proj2 (signed_value a b Oa Ob)).
  - unfold Qcompare, numeral_value, signed_val. rewrite (V a), (V b) by auto. destruct (n_neg a), (n_neg b); cbn [Qnum Qden Qopp]; rewrite !Z.mul_1_r; auto.
  - unfold misjudged. rewrite Fa, Fb. unfold numeral_value. rewrite (V a), (V b) by auto. unfold Qeq. destruct (n_neg a), (n_neg b); cbn [Qnum Qden Qopp]; intuition lia.
Qed.
Lemma c_clean_fits : forall c a b, value_fits exp10 c a -> value_fits exp10 c b -> c_clean c a b = c_comp exp10 c a b.
Proof.
  intros c a b. destruct c; cbn [value_fits c_clean]; auto.
  - intros (n & Wn & ->) (m & Wm & ->). rewrite whole_fcmp by auto. destruct (whole_holds exp10 n Wn) as [Hn _], (whole_holds exp10 m Wm) as [Hm _].
    rewrite !cleaned_same; auto; eapply holds_valid; eauto.
  - intros [A _] [B _]. rewrite !cleaned_same; auto.
Qed.
Lemma fits_safe : forall c a b, Forall text_byte a -> Forall text_byte b -> value_fits exp10 c a -> value_fits exp10 c b -> cache_safe exp10 c a b.
Proof.
  intros c a b Ta Tb. destruct c; cbn [value_fits cache_safe]; auto.
  - intros _ _. repeat split; try apply text_is_byte; auto; apply nul_free; auto.
  - intros _ _. repeat split; try apply text_is_byte; auto; apply nul_free; apply text_caseless; auto.
  - intros (n & Wn & ->) (m & Wm & ->). apply numeric_key_safe; auto.
  - intros [A1 A2] [B1 B2]. unfold good_float. repeat split; auto using to_f64_valid. intros ([|] & [|] & X & Y & Z); congruence.
Qed.

(** The order of several keys. *)
Definition answers' (w : wanted) (a b : bytes) : comparison := directed (wk_rev w) (c_clean (wk_cmp w) (value_of w a) (value_of w b)).
Definition clean_order (ws : list wanted) (a b : bytes) : comparison := first_diff (fun w => answers' w a b) ws.
Definition clean_eq (ws : list wanted) (a b : bytes) : bool := match clean_order ws a b with Eq => true | _ => false end.
Lemma clean_order_pre : forall ws, total_preorder (clean_order ws).
Proof.
  intros ws. apply (first_diff_preorder ws answers'). apply Forall_forall. intros w _.
  assert (Q : total_preorder (fun a b => c_clean (wk_cmp w) (value_of w a) (value_of w b))) by (apply (preorder_key (value_of w) (c_clean (wk_cmp w))); auto; apply c_clean_pre).
  unfold answers'. destruct (wk_rev w); cbn [directed]; [apply rev_preorder; exact Q|exact Q].
Qed.
Lemma clean_eq_ok : forall ws, decides_eq (clean_order ws) (clean_eq ws).
Proof. intros ws a b. unfold clean_eq. destruct (clean_order ws a b); split; auto; discriminate. Qed.
Lemma clean_order_is : forall ws a b, line_fits exp10 ws a -> line_fits exp10 ws b -> clean_order ws a b = by_fields exp10 ws a b.
Proof.
  intros ws a b Fa Fb. unfold clean_order, by_fields. revert Fa Fb. unfold line_fits. induction ws as [|w ws IH]; intros Fa Fb; [reflexivity|]. inversion Fa; inversion Fb; subst. cbn [first_diff map first_answer].
  unfold answers', answers. fold (value_of w a). fold (value_of w b). rewrite c_clean_fits by auto. destruct (directed _ _); auto.
Qed.

(** * Keys and their columns *)
Definition placed (w : wanted) (c : linecomp) : Prop := exists cols, c = mklc (wk_rev w) TAB (LCol cols (mkcomp (wk_rev w) (wk_cmp w))) /\ cols 0 = N.to_nat (wk_pos w 0).
Lemma placed_shapes : forall ws cs, Forall2 placed ws cs -> Forall2 shape ws cs.
Proof. induction 1 as [|w c ws cs (cols & -> & _) F IH]; constructor; auto. exists cols. auto. Qed.

Variable cap : nat.
Definition fit_line (ws : list wanted) (l : bytes) : Prop := whole_line l /\ Forall text_byte l /\ List.length l <= cap /\ line_fits exp10 ws l.
Lemma items_placed : forall w ws cs a b, (N.of_nat cap < 2 ^ 31)%N -> Forall2 placed (w :: ws) cs -> first_sound (w :: ws) -> fit_line (w :: ws) a -> fit_line (w :: ws) b ->
  item_cmp exp10 cs a b = merge_cmp exp10 cs a b /\ item_eq exp10 cs a b = merge_eq exp10 cs a b.
Proof.
  intros w ws cs a b Hc F FS ((x & -> & Nx) & Fa & La & Va) ((y & -> & Ny) & Fb & Lb & Vb). pose proof (shape_columns _ _ (placed_shapes _ _ F)) as C. inversion F as [|? k ? ks (cols & EK & EC) F2]; subst.
  set (k := mklc (wk_rev w) TAB (LCol cols (mkcomp (wk_rev w) (wk_cmp w)))) in *.
  apply Forall_app in Fa as [Fa _]. apply Forall_app in Fb as [Fb _].
  unfold item_cmp, item_eq, line_item. set (a := x ++ [NL]) in *. set (b := y ++ [NL]) in *.
  assert (Ba : (N.of_nat (List.length a) < 2 ^ 31)%N) by lia. assert (Bb : (N.of_nat (List.length b) < 2 ^ 31)%N) by lia.
  assert (GA : get_col a (cols 0) TAB = value_of w a). { unfold value_of, a. rewrite get_col_is, fields_line, EC by (auto; discriminate). auto. }
  assert (GB : get_col b (cols 0) TAB = value_of w b). { unfold value_of, b. rewrite get_col_is, fields_line, EC by (auto; discriminate). auto. }
  destruct (comp_items_lines_list exp10 k ks (side_by_side a b) (mkitem (N.of_nat 0) (N.of_nat (List.length a)) 0) (mkitem (N.of_nat (List.length a)) (N.of_nat (List.length b)) 0)) as [E1 E2].
  - apply not_complete; auto.
  - apply not_complete; auto.
  - rewrite get_first, get_second by auto. unfold key_safe, k. cbn [lc_cmp lc_delim cp_cmpr].
    assert (Ta : Forall text_byte (get_col a (cols 0) TAB)) by (apply get_col_text; auto). assert (Tb : Forall text_byte (get_col b (cols 0) TAB)) by (apply get_col_text; auto).
    inversion Va; inversion Vb; subst. apply fits_safe; auto; rewrite ?GA, ?GB; auto.
  - rewrite get_first, get_second by auto. destruct FS as [R|R]; [left; exact R|right]. unfold key_final, k. cbn [lc_cmp lc_delim cp_cmpr]. cbn [In] in R. destruct R as [<-|[<-|[<-|[]]]]; exact I.
  - cbv zeta in E1, E2. rewrite E1, E2, get_first, get_second by auto.
    destruct (lines_cols_agree exp10 TAB (k :: ks) x y 0 0 ltac:(discriminate) Nx Ny C) as [A B]. split; [exact A|exact B].
Qed.

(** What the tool compares lines by, in memory and when merging. *)
Lemma orders_agree : forall ws cs a b, (N.of_nat cap < 2 ^ 31)%N -> Forall2 placed ws cs -> first_sound ws ->
  (forall a b, whole_line a -> whole_line b -> merge_cmp exp10 cs a b = by_fields exp10 ws a b) ->
  fit_line ws a -> fit_line ws b ->
  (merge_cmp exp10 cs a b = clean_order ws a b /\ merge_eq exp10 cs a b = clean_eq ws a b) /\
  (item_cmp exp10 cs a b = clean_order ws a b /\ item_eq exp10 cs a b = clean_eq ws a b).
Proof.
  intros ws cs a b Hc F FS D A B. destruct ws as [|w ws]; [destruct FS|]. destruct (items_placed w ws cs a b Hc F FS A B) as [-> ->].
  assert (X : merge_cmp exp10 cs a b = clean_order (w :: ws) a b). { rewrite clean_order_is by (apply A || apply B). apply D; [apply A|apply B]. }
  assert (Y : merge_eq exp10 cs a b = clean_eq (w :: ws) a b).
  { unfold clean_eq. rewrite <- X. pose proof (merge_eq_ok exp10 cs a b) as M. destruct (merge_eq exp10 cs a b), (merge_cmp exp10 cs a b); intuition discriminate. }
  auto.
Qed.

(** Results for one comparison and for another. *)
Lemma exact_among_change : forall (c1 c2 : bytes -> bytes -> comparison) (u : bool) (Q : Prop) ls out, (u = true <-> Q) -> (forall a b, In a ls -> In b ls -> c1 a b = c2 a b) ->
  (forall y, In y out -> In y ls) -> (if u then first_of_groups c1 ls out else stable_sort_of c1 ls out) -> exact_among c2 Q ls out.
Proof.
  intros c1 c2 u Q ls out U E I H.
  assert (SS : forall (R1 R2 : bytes -> bytes -> Prop) l, (forall a b, In a l -> In b l -> R1 a b -> R2 a b) -> StronglySorted R1 l -> StronglySorted R2 l).
  { intros R1 R2 l. induction l as [|x l IH]; intros K S; [constructor|]. apply StronglySorted_inv in S as [S F]. constructor.
    - apply IH; auto. intros; apply K; cbn; auto.
    - rewrite Forall_forall in *. intros y J. apply K; cbn; auto. }
  assert (FA : forall x l, In x ls -> (forall y, In y l -> In y ls) -> filter (same c2 x) l = filter (same c1 x) l).
  { intros x l Ix Il. apply filter_agree. intros y J. unfold same. rewrite E; auto. }
  split; intros X; destruct u; try (exfalso; intuition discriminate).
  - destruct H as [A B]. split; [eapply SS; [|exact A]; cbv beta; intros; rewrite <- E; auto|]. intros x Ix. rewrite !FA by auto. apply B.
  - destruct H as (A & B & C). split; auto. split; [eapply SS; [|exact B]; cbv beta; intros; rewrite <- E; auto|]. intros x Ix. rewrite !FA by auto. apply C.
Qed.
Lemma result_in : forall (c : bytes -> bytes -> comparison) (u : bool) ls out, (if u then one_of_groups c ls out else sort_of c ls out) -> forall y, In y out -> In y ls.
Proof. intros c u ls out H y I. destruct u; [apply H; auto|]. eapply Permutation_in; [apply Permutation_sym; apply H|auto]. Qed.

Variable utf8_ok name_ok : bytes -> bool.
Variable size : nat.
Lemma clean_exact : forall ws u ls, if u : bool then first_of_groups (clean_order ws) ls (do_sort (clean_order ws) (clean_eq ws) u ls)
  else stable_sort_of (clean_order ws) ls (do_sort (clean_order ws) (clean_eq ws) u ls).
Proof. intros ws u ls. pose proof (clean_order_pre ws) as P. destruct u; [apply do_sort_unique; auto; apply clean_eq_ok|apply std_sort_stable; auto]. Qed.
Lemma fit_lines : forall ws ls, lines_fit cap ls -> Forall (line_fits exp10 ws) ls -> Forall (fit_line ws) ls.
Proof. intros ws ls L F. apply Forall_forall. intros l I. unfold lines_fit in L. rewrite Forall_forall in L, F. destruct (L l I) as (A & B & C & _). split; auto. split; auto. split; [lia|auto]. Qed.

Lemma val_headed : forall ws cs names (fs : list (src * list nat)) bodies u (Q : Prop), (N.of_nat cap < 2 ^ 31)%N -> 0 < cap -> 0 < size -> Forall2 placed ws cs -> first_sound ws ->
  (forall a b, whole_line a -> whole_line b -> merge_cmp exp10 cs a b = by_fields exp10 ws a b) ->
  names_fit utf8_ok name_ok names -> fs <> [] -> Forall2 (fun f b => content (fst f) = headline names ++ concat b) fs bodies ->
  lines_fit cap (concat bodies) -> Forall (line_fits exp10 ws) (concat bodies) -> (u = true <-> Q) ->
  exists out, sort_files (merge_cmp exp10 cs) (merge_eq exp10 cs) (item_cmp exp10 cs) (item_eq exp10 cs) bh_push bh_pop cap u utf8_ok name_ok size ck_new (mkso [] [])
      (map (fun f => (content (fst f), snd f)) fs) = Ok (headline names ++ concat out) /\
    result_of (by_fields exp10 ws) Q (concat bodies) out /\
    (List.length (concat (concat bodies)) < cap -> exact_among (by_fields exp10 ws) Q (concat bodies) out).
Proof.
  intros ws cs names fs bodies u Q Hc Hc0 Hs PL FS D NF NE F L LF U. destruct (headline_text _ _ _ NF) as (W & V & T & CX & _).
  pose proof (fit_lines _ _ L LF) as FL.
  rewrite (sort_files_good (fit_line ws) (merge_cmp exp10 cs) (item_cmp exp10 cs) (clean_order ws) (merge_eq exp10 cs) (item_eq exp10 cs) (clean_eq ws)).
  - set (gs := combine bodies (map snd fs)).
    assert (EG : map (fun f => (content (fst f), snd f)) fs = map (fun '(l, sched) => (headline names ++ concat l, sched)) gs /\ map fst gs = bodies /\ (fs <> [] -> gs <> [])).
    { unfold gs. clear NE L LF FL gs. induction F as [|f b fs bodies E F (IH1 & IH2 & _)]; [auto|]. cbn [map combine fst snd]. rewrite E, IH1, IH2. repeat split; auto. discriminate. }
    destruct EG as (-> & EB & EN). unfold lines_fit in L. rewrite <- EB in L, LF |- *.
    destruct (c20_header_files (clean_order ws) (clean_eq ws) u cap size utf8_ok name_ok (headline names) gs (clean_order_pre ws) (clean_eq_ok ws) Hs W V) as (out & R1 & R2 & R3); auto.
    + eapply Forall_impl; [|exact L]. cbn. tauto.
    + eapply Forall_impl; [|exact L]. cbn. tauto.
    + eapply Forall_impl; [|exact L]. cbn. intros l (_ & _ & _ & H). apply cdx_start; auto.
    + assert (AG : forall a b, In a (concat (map fst gs)) -> In b (concat (map fst gs)) -> clean_order ws a b = by_fields exp10 ws a b).
      { intros a b Ia Ib. rewrite Forall_forall in LF. apply clean_order_is; auto. }
      exists out. split; auto. split; [eapply result_given; eauto|]. intros H. apply (exact_among_change (clean_order ws) (by_fields exp10 ws) u); auto; [eapply result_in; eauto|]. rewrite (R3 H). apply clean_exact.
  - intros a b A B. apply (orders_agree ws cs a b Hc PL FS D A B).
  - intros a b A B. apply (orders_agree ws cs a b Hc PL FS D A B).
  - intros l H. apply H.
  - split; [exists []; auto|constructor].
  - clear NE L LF. induction F as [|f b fs bodies E F IH]; [constructor|]. cbn [concat] in FL. apply Forall_app in FL as [L1 L2]. constructor; auto. cbn [fst]. rewrite E.
    right. exists (headline names), (concat b). split; auto. split; auto. split; auto. exists b. auto.
Qed.
Lemma val_plain : forall ws cs ls (s : src) (sched : list nat) u (Q : Prop), (N.of_nat cap < 2 ^ 31)%N -> 0 < size -> Forall2 placed ws cs -> first_sound ws ->
  (forall a b, whole_line a -> whole_line b -> merge_cmp exp10 cs a b = by_fields exp10 ws a b) ->
  text_of ls (content s) -> lines_fit cap ls -> Forall (line_fits exp10 ws) ls -> (u = true <-> Q) ->
  exists out, sort_files (merge_cmp exp10 cs) (merge_eq exp10 cs) (item_cmp exp10 cs) (item_eq exp10 cs) bh_push bh_pop cap u utf8_ok name_ok size ck_new (mkso [] [])
      [(content s, sched)] = Ok (concat out) /\
    result_of (by_fields exp10 ws) Q ls out /\
    (List.length (concat ls) < cap -> exact_among (by_fields exp10 ws) Q ls out).
Proof.
  intros ws cs ls s sched u Q Hc Hs PL FS D T L LF U. pose proof (fit_lines _ _ L LF) as FL.
  rewrite (sort_files_good (fit_line ws) (merge_cmp exp10 cs) (item_cmp exp10 cs) (clean_order ws) (merge_eq exp10 cs) (item_eq exp10 cs) (clean_eq ws)).
  - destruct (c20_one_file (clean_order ws) (clean_eq ws) u cap size utf8_ok name_ok ls (content s) sched (clean_order_pre ws) (clean_eq_ok ws) Hs T) as (out & R1 & R2 & R3).
    + eapply Forall_impl; [|exact L]. cbn. tauto.
    + eapply Forall_impl; [|exact L]. cbn. intros l (_ & _ & _ & H). apply cdx_start; auto.
    + assert (AG : forall a b, In a ls -> In b ls -> clean_order ws a b = by_fields exp10 ws a b).
      { intros a b Ia Ib. rewrite Forall_forall in LF. apply clean_order_is; auto. }
      exists out. split; auto. split; [eapply result_given; eauto|]. intros H. apply (exact_among_change (clean_order ws) (by_fields exp10 ws) u); auto; [eapply result_in; eauto|]. rewrite (R3 H). apply clean_exact.
  - intros a b A B. apply (orders_agree ws cs a b Hc PL FS D A B).
  - intros a b A B. apply (orders_agree ws cs a b Hc PL FS D A B).
  - intros l H. apply H.
  - split; [exists []; auto|constructor].
  - constructor; [|constructor]. left. exists ls. split; auto. destruct T as [_ [E|[E _]]]; auto.
Qed.
End Order.

(** * The tool *)
Section Tool.
Variable exp10 : Z -> f64.
Hypothesis exp10_ok : forall z, valid64 (exp10 z).
Variable utf8_ok name_ok : bytes -> bool.
Variable uni_alpha uni_alnum : N -> bool.
Variable expr : Type.
Variable expr_new : bytes -> res expr.
Variable expr_lookup : expr -> list bytes -> res expr.
Variable expr_eval : expr -> textline -> f64.
Variable expr_eval_line : expr -> bytes -> byte -> f64.
Variable expr_none : f64.
Variable cap size : nat.
Notation wanted_ok := (wanted_ok (alphabetic uni_alpha) (alphanumeric uni_alnum)).
Notation add_keys := (add_keys uni_alpha uni_alnum expr expr_new).
Notation looked := (keys_lookup expr expr_new expr_lookup).
Notation as_lines := (key_lines expr expr_eval expr_eval_line expr_none).
Notation main := (sort_main utf8_ok name_ok uni_alpha uni_alnum expr expr_new expr_lookup expr_eval expr_eval_line expr_none exp10 bh_push bh_pop cap size).
Notation sort_args := (sort_args uni_alpha uni_alnum expr expr_new).
Lemma keys_placed : forall ws names ks ks' cs, Forall (wanted_ok [names]) ws -> add_keys (map text_of_key ws) = Ok ks -> looked ks names 0 = Ok ks' -> as_lines ks' = Some cs ->
  Forall2 placed ws cs.
Proof.
  intros ws names ks ks' cs F. revert ks ks' cs. induction F as [|w ws H F IH]; intros ks ks' cs A L C; cbn [map KeyModel.add_keys] in A.
  - injection A as <-. cbn [KeyModel.keys_lookup] in L. injection L as <-. cbn [KeyModel.key_lines] in C. injection C as <-. constructor.
  - destruct H as (H1 & H2 & H3 & H4 & H5 & H6 & H7). destruct (reads uni_alpha uni_alnum expr expr_new _ _ _ _ H2 H3 H4 H5) as (rev & R1 & R2).
    unfold text_of_key at 1 in A. rewrite R2 in A. cbn [rbind] in A. destruct (add_keys (map text_of_key ws)) as [r| |] eqn:AR; try discriminate. cbn [rbind] in A. injection A as <-.
    rewrite (iff_bool rev (wk_rev w) _ R1 H6) in *.
    assert (KO : key_of expr (wk_cols w) (MCmp (wk_cmp w)) = KCol (map col_of (wk_cols w)) (MCmp (wk_cmp w))) by (destruct (wk_cols w); [congruence|reflexivity]). rewrite KO in L.
    destruct (placed_all uni_alpha uni_alnum expr expr_new expr_lookup (wk_cols w) H1 (wk_pos w) [names] (map col_of (wk_cols w)) 0 (wk_rev w) (MCmp (wk_cmp w)) (placed_start uni_alpha uni_alnum (wk_cols w) (wk_pos w) H2) H7) as (c0 & E & PL & PP).
    cbn [key_lookups KeyModel.keys_lookup] in E, L. destruct (key_lookup expr expr_new expr_lookup _ names 0) as [k1| |]; try discriminate. cbn [rbind] in E, L. injection E as ->.
    destruct (looked r names 0) as [r'| |] eqn:LR; try discriminate. cbn [rbind] in L. injection L as <-. cbn [KeyModel.key_lines] in C. unfold key_line at 1 in C. cbn [k_cmp k_rev] in C.
    destruct (as_lines r') as [cs'|] eqn:CR; try discriminate. injection C as <-. constructor; [|eapply IH; eauto].
    eexists. split; [reflexivity|]. cbv beta. f_equal. apply PP; cbn [List.length] in *; lia.
Qed.
Lemma val_start : forall args ws names, known args -> ~ given (bs "Check") args -> values (bs "key") args (map text_of_key ws) -> Forall (wanted_ok [names]) ws -> first_sound ws ->
  exists o ks ks' cs, sort_args (sopts_new expr) args = Ok o /\
    match so_keys o with [] => rbind (make_line_comp uni_alpha uni_alnum expr expr_new []) (fun k => Ok [k]) | ks => Ok ks end = Ok ks /\
    (so_unique o = true <-> given (bs "unique") args) /\ (so_merge o = true <-> given (bs "merge") args) /\ (so_check o = true <-> given (bs "check") args \/ given (bs "Check") args) /\
    (so_alt_merge o = true <-> given (bs "alt-merge") args) /\
    add_keys (map text_of_key ws) = Ok ks /\ looked ks names 0 = Ok ks' /\ as_lines ks' = Some cs /\ Forall2 placed ws cs /\
    (forall a b, whole_line a -> whole_line b -> merge_cmp exp10 cs a b = by_fields exp10 ws a b).
Proof.
  intros args ws names K NC2 V WO WF.
  destruct (keys_for uni_alpha uni_alnum expr expr_new expr_lookup expr_eval expr_eval_line expr_none exp10 ws names WO) as (ks & ks' & cs & A & B & C & SH & D & _).
  destruct (args_read uni_alpha uni_alnum expr expr_new args _ V ks (sopts_new expr) K A) as (o & R & P1 & P2 & P3 & P4 & P5 & P6). { intros v I. exfalso. apply NC2. exists v. auto. }
  cbn [sopts_new so_keys so_unique so_merge so_check so_num so_alt_merge app] in *. exists o, ks, ks', cs. split; auto. split.
  - rewrite P1. destruct ws as [|w ws]; [destruct WF|]. cbn [map KeyModel.add_keys] in A. destruct (make_line_comp uni_alpha uni_alnum expr expr_new (text_of_key w)); try discriminate. cbn [rbind] in A.
    destruct (add_keys (map text_of_key ws)); try discriminate. injection A as <-. auto.
  - do 4 (split; [intuition discriminate|]). do 3 (split; auto). split; auto. eapply keys_placed; eauto.
Qed.
Lemma val_named : forall md args ws names fs bodies, known args -> ~ given (bs "merge") args -> ~ given (bs "check") args -> ~ given (bs "Check") args ->
  values (bs "key") args (map text_of_key ws) -> Forall (wanted_ok [names]) ws -> first_sound ws ->
  (N.of_nat cap < 2 ^ 31)%N -> 0 < cap -> 0 < size -> names_fit utf8_ok name_ok names -> fs <> [] ->
  Forall2 (fun f b => content (fst f) = headline names ++ concat b) fs bodies -> lines_fit cap (concat bodies) -> Forall (line_fits exp10 ws) (concat bodies) ->
  exists out, main md args fs = (headline names ++ concat out, Ok tt) /\ result_of (by_fields exp10 ws) (given (bs "unique") args) (concat bodies) out /\
    (List.length (concat (concat bodies)) < cap -> exact_among (by_fields exp10 ws) (given (bs "unique") args) (concat bodies) out).
Proof.
  intros md args ws names fs bodies K NM NC NC2 V WO WF Hc Hc0 Hs NF NE F L LF.
  destruct (val_start args ws names K NC2 V WO WF) as (o & ks & ks' & cs & R & KS & U & MG & CH & _ & _ & B & C & PL & D).
  assert (CH' : so_check o = false). { destruct (so_check o); auto. exfalso. intuition discriminate. }
  assert (MG' : so_merge o = false). { destruct (so_merge o); auto. exfalso. intuition discriminate. }
  unfold sort_main. unfold need at 1. rewrite R, CH', MG'. cbn [andb]. unfold need at 1. rewrite KS.
  unfold need at 1. rewrite (lookup_headed utf8_ok name_ok expr expr_new expr_lookup names fs bodies ks NF NE F), B, C.
  destruct (val_headed exp10 exp10_ok cap utf8_ok name_ok size ws cs names fs bodies (so_unique o) _ Hc Hc0 Hs PL WF D NF NE F L LF U) as (out & E & S1 & S2).
  rewrite E. exists out. auto.
Qed.
Lemma val_alone : forall md args ws (s : src) (sched : list nat) ls, known args -> ~ given (bs "merge") args -> ~ given (bs "check") args -> ~ given (bs "Check") args ->
  values (bs "key") args (map text_of_key ws) -> Forall (wanted_ok [[]]) ws -> first_sound ws ->
  (N.of_nat cap < 2 ^ 31)%N -> 0 < size -> text_of ls (content s) -> lines_fit cap ls -> Forall (line_fits exp10 ws) ls ->
  exists out, main md args [(s, sched)] = (concat out, Ok tt) /\ result_of (by_fields exp10 ws) (given (bs "unique") args) ls out /\
    (List.length (concat ls) < cap -> exact_among (by_fields exp10 ws) (given (bs "unique") args) ls out).
Proof.
  intros md args ws s sched ls K NM NC NC2 V WO WF Hc Hs T L LF.
  destruct (val_start args ws [] K NC2 V WO WF) as (o & ks & ks' & cs & R & KS & U & MG & CH & _ & A & B & C & PL & D).
  pose proof (unlooked uni_alpha uni_alnum expr expr_new expr_lookup ws ks WO A) as UL. rewrite UL in B. injection B as <-.
  assert (CH' : so_check o = false). { destruct (so_check o); auto. exfalso. intuition discriminate. }
  assert (MG' : so_merge o = false). { destruct (so_merge o); auto. exfalso. intuition discriminate. }
  unfold sort_main. unfold need at 1. rewrite R, CH', MG'. cbn [andb]. unfold need at 1. rewrite KS.
  assert (LK : sort_lookup expr expr_new expr_lookup ks true (map (fun f : src * list nat => content (fst f)) [(s, sched)]) = Ok ks).
  { cbn [map sort_lookup fst]. destruct (fst (first_line (content s))) as [|c l] eqn:E; auto. cbn [orb]. destruct (plain_header _ _ _ _ _ T L E) as [names ->]. cbn [rbind]. rewrite UL. reflexivity. }
  unfold need at 1. rewrite LK, C. cbn [map fst snd].
  destruct (val_plain exp10 exp10_ok cap utf8_ok name_ok size ws cs ls s sched (so_unique o) _ Hc Hs PL WF D T L LF U) as (out & E & S1 & S2).
  rewrite E. exists out. auto.
Qed.
Lemma val_merge : forall md args ws names (fs : list (src * list nat)) bodies, known args -> given (bs "merge") args -> ~ given (bs "check") args -> ~ given (bs "Check") args ->
  values (bs "key") args (map text_of_key ws) -> Forall (wanted_ok [[]]) ws -> ws <> [] ->
  names_fit utf8_ok name_ok names -> fs <> [] -> Forall2 (fun f b => content (fst f) = headline names ++ concat b) fs bodies ->
  Forall (Forall whole_line) bodies -> Forall (Forall (line_fits exp10 ws)) bodies -> Forall (sorted (by_fields exp10 ws)) bodies ->
  exists out, main md args fs = (headline names ++ concat out, Ok tt) /\ result_of (by_fields exp10 ws) (given (bs "unique") args) (concat bodies) out /\
    (given (bs "alt-merge") args -> exact_among (by_fields exp10 ws) (given (bs "unique") args) (concat bodies) out).
Proof.
  intros md args ws names fs bodies K NM NC NC2 V WO WF NF NE F W LF S.
  destruct (numbered_keys uni_alpha uni_alnum expr expr_new expr_lookup expr_eval expr_eval_line expr_none exp10 args ws K V WO (no_checks _ NC2)) as (o & ks & cs & R & KS & U & MG & CH & AM & UL & AL & BC & _ & _ & D & _).
  assert (LO : forall a b, line_order exp10 ws a b = by_fields exp10 ws a b) by (destruct ws; [congruence|reflexivity]).
  assert (MG' : so_merge o = true) by (apply MG; auto). assert (CH' : so_check o = false) by (eapply flag_off; [exact CH|tauto]).
  unfold sort_main. unfold need at 1. rewrite R, CH', MG'. cbn [andb]. unfold need at 1. rewrite KS, AL.
  assert (EM : map (fun f : src * list nat => content (fst f)) fs = map (fun b => headline names ++ concat b) bodies). { clear NE W S LF. induction F; cbn [map]; congruence. }
  rewrite EM. destruct (headline_text _ _ _ NF) as (Wh & _ & _ & Ch & _).
  set (P := fun l => whole_line l /\ line_fits exp10 ws l).
  assert (AG : forall a b, P a -> P b -> merge_cmp exp10 cs a b = clean_order exp10 ws a b /\ merge_eq exp10 cs a b = clean_eq exp10 ws a b).
  { intros a b [A1 A2] [B1 B2]. assert (X : merge_cmp exp10 cs a b = clean_order exp10 ws a b) by (rewrite clean_order_is, D, LO by auto; auto). split; auto.
    unfold clean_eq. rewrite <- X. pose proof (merge_eq_ok exp10 cs a b) as M. destruct (merge_eq exp10 cs a b), (merge_cmp exp10 cs a b); intuition discriminate. }
  assert (PB : Forall (Forall P) bodies). { rewrite Forall_forall in *. intros b I. specialize (W b I). specialize (LF b I). rewrite Forall_forall in *. intros l J. split; auto. }
  rewrite (merge_files_opened P (merge_cmp exp10 cs) (clean_order exp10 ws) (merge_eq exp10 cs) (clean_eq exp10 ws) AG (so_unique o)).
  - assert (CL : forall a b, In a (concat bodies) -> In b (concat bodies) -> clean_order exp10 ws a b = by_fields exp10 ws a b).
    { intros a b Ia Ib. apply Forall_concat in LF. rewrite Forall_forall in LF. apply clean_order_is; auto. }
    destruct (c19_files (clean_order exp10 ws) (clean_eq exp10 ws) (so_unique o) (so_alt_merge o) (headline names) bodies (clean_order_pre exp10 exp10_ok ws) (clean_eq_ok exp10 ws) Wh Ch) as (out & E & S1 & S2); auto.
    { intros ->. inversion F; congruence. }
    { apply Forall_forall. intros b I. rewrite Forall_forall in S. eapply sorted_change; [|apply S; auto]. intros x y Ix Iy. symmetry. apply CL; apply in_concat; eauto. }
    rewrite E. exists out. split; auto.
    split; [apply (result_given (clean_order exp10 ws) (by_fields exp10 ws) (so_unique o)); [exact U|auto|exact S1]|]. intros H. apply (exact_among_change (clean_order exp10 ws) (by_fields exp10 ws) (so_unique o)); auto.
    + eapply result_in; exact S1.
    + apply S2. apply AM; auto.
  - apply Forall_map. rewrite Forall_forall in *. intros b I. specialize (W b I). unfold open_tmp. change (headline names ++ concat b) with (concat (headline names :: b)).
    rewrite file_lines_concat by (constructor; auto). cbn [concat]. unfold is_cdx in Ch. rewrite starts_with_app by auto. cbn [snd]. auto.
Qed.
End Tool.
