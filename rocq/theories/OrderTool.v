(** The sort tool: sorting, checking and merging. *)
From Coq Require Import String List NArith ZArith Bool Arith Lia Sorting.Permutation Sorting.Sorted.
Open Scope list_scope.
Import ListNotations.
From Verif Require Import Base TextModel TextSpec TextProofs StrModel FloatModel ReadModel ReadSpec HeadModel HdrModel HdrProofs CompSpec LineSpec CompModel OrdProofs CompProofs CacheProofs LineProofs
  RawSplitProofs SortSpec SortModel SortProofs HeapProofs MergeProofs SorterProofs SortProps CompProps ReadProofs ToolModel ToolOpen PasteSpec PasteProofs TurnProofs NumbProofs KeyModel KeySpec KeyProofs
  OrderModel OrderSpec OrderSame OrderProofs.
Close Scope Z_scope. Open Scope nat_scope.

Section Check.
Variable utf8_ok : bytes -> bool.
Variable exp10 : Z -> f64.
Lemma check_loop_is : forall md cs u num rest fuel r l hist rep, at_line md r (proc md l :: hist) rest -> List.length rest < fuel ->
  check_loop exp10 fuel md cs u num rep r = Ok (sort_check_file exp10 cs u (N.to_nat num) (proc md l) (map (proc md) rest) rep).
Proof.
  intros md cs u num. induction rest as [|l' rest IH]; intros fuel r l hist rep HA Hf; (destruct fuel as [|k]; [lia|]); cbn [check_loop map sort_check_file].
  - destruct (next_nil _ _ _ HA) as (r' & N1 & N2 & _). rewrite N1. cbn [rbind]. rewrite N2. reflexivity.
  - destruct (next_cons _ _ _ _ _ HA) as (r' & N1 & N2 & _). rewrite N1. cbn [rbind].
    assert (D : r_done r' = false) by apply N2. rewrite D. rewrite (ring_curr _ _ _ (proj1 N2)), (ring_prev _ _ _ _ (proj1 N2)). cbn [rbind]. cbn [List.length] in Hf.
    destruct (comp_check exp10 cs u (proc md l) (proc md l')); [|apply (IH k r' l' _ rep N2); lia].
    replace (rep + 1) with (S rep) by lia. destruct (N.leb_spec num (N.of_nat (S rep))), (Nat.leb_spec (N.to_nat num) (S rep)); try lia; auto. apply (IH k r' l' _ _ N2). lia.
Qed.
Lemma check_one : forall md cs u num rep s f, md_ok md -> shows utf8_ok md s f -> forall more,
  check_files utf8_ok exp10 md cs u num rep (s :: more) =
  check_files utf8_ok exp10 md cs u num (match map (proc md) (sh_lines f) with [] => rep | p :: r => sort_check_file exp10 cs u (N.to_nat num) p r rep end) more.
Proof.
  intros md cs u num rep s f M H more. cbn [check_files]. destruct (open_shows _ _ _ _ H) as (t & -> & _ & _ & O). cbn [rbind].
  destruct (sh_lines f) as [|l rest]; cbn [map]; [rewrite O; reflexivity|]. assert (D : r_done (tf_rd t) = false) by apply O. rewrite D.
  pose proof (at_line_turns _ _ _ _ M O) as HT. rewrite (check_loop_is md cs u num rest _ _ l [] rep O) by lia. reflexivity.
Qed.
Lemma check_files_is : forall md cs u num fs shown rep, md_ok md -> Forall2 (shows utf8_ok md) fs shown ->
  exists n, check_files utf8_ok exp10 md cs u num rep fs = Ok n /\ negb (0 <? n) = sort_check exp10 cs u (N.to_nat num) (map (fun f => map (proc md) (sh_lines f)) shown) rep.
Proof.
  intros md cs u num fs shown rep M F. revert rep. induction F as [|s f fs shown H F IH]; intros rep; [exists rep; auto|]. 
  rewrite (check_one md cs u num rep s f M H). cbn [map sort_check]. destruct (map (proc md) (sh_lines f)); apply IH.
Qed.
(** The number of reports for one file. *)
Lemma check_counts : forall cs u n rest prev rep, rep < Nat.max 1 n ->
  sort_check_file exp10 cs u n prev rest rep = Nat.min (rep + breaks (comp_check exp10 cs u) (prev :: rest)) (Nat.max 1 n).
Proof.
  intros cs u n. induction rest as [|c r IH]; intros prev rep H; cbn [sort_check_file breaks]; [lia|].
  destruct (comp_check exp10 cs u prev c); [|rewrite IH by auto; reflexivity]. 
  destruct (Nat.leb_spec n (rep + 1)); [lia|]. rewrite IH by lia. change (match r with [] => 0 | y :: _ => (if comp_check exp10 cs u c y then 1 else 0) + breaks (comp_check exp10 cs u) r end)
    with (breaks (comp_check exp10 cs u) (c :: r)). lia.
Qed.
Lemma breaks_map : forall {A B} (g : A -> B) bad l, breaks bad (map g l) = breaks (fun a b => bad (g a) (g b)) l.
Proof. intros A B g bad. induction l as [|x l IH]; [reflexivity|]. destruct l as [|y l]; [reflexivity|]. cbn [map breaks] in *. rewrite IH. reflexivity. Qed.
Lemma reports : forall md cs u num s f, md_ok md -> shows utf8_ok md s f ->
  check_files utf8_ok exp10 md cs u num 0 [s] =
  Ok (Nat.min (breaks (fun a b => match ll_comp_cols_n exp10 cs (proc md a) (proc md b) 0 0 with Lt => false | Eq => u | Gt => true end) (sh_lines f)) (Nat.max 1 (N.to_nat num))).
Proof.
  intros md cs u num s f M H. rewrite (check_one md cs u num 0 s f M H). cbn [check_files]. f_equal. 
  change (fun a b => match ll_comp_cols_n exp10 cs (proc md a) (proc md b) 0 0 with Lt => false | Eq => u | Gt => true end) with (fun a b => comp_check exp10 cs u (proc md a) (proc md b)).
  rewrite <- (breaks_map (proc md) (comp_check exp10 cs u)). destruct (map (proc md) (sh_lines f)); [reflexivity|]. rewrite check_counts by lia. reflexivity.
Qed.
End Check.

Section Tool.
Variable utf8_ok : bytes -> bool.
Variable name_ok : bytes -> bool.
Variable uni_alpha uni_alnum : N -> bool.
Variable expr : Type.
Variable expr_new : bytes -> res expr.
Variable expr_lookup : expr -> list bytes -> res expr.
Variable expr_eval : expr -> textline -> f64.
Variable expr_eval_line : expr -> bytes -> byte -> f64.
Variable expr_none : f64.
Variable exp10 : Z -> f64.
Variable cap size : nat.
Notation wanted_ok := (wanted_ok (alphabetic uni_alpha) (alphanumeric uni_alnum)).
Notation add_keys := (add_keys uni_alpha uni_alnum expr expr_new).
Notation looked := (keys_lookup expr expr_new expr_lookup).
Notation as_lines := (key_lines expr expr_eval expr_eval_line expr_none).
Notation main := (sort_main utf8_ok name_ok uni_alpha uni_alnum expr expr_new expr_lookup expr_eval expr_eval_line expr_none exp10 bh_push bh_pop cap size).
Notation sort_args := (sort_args uni_alpha uni_alnum expr expr_new).
Notation cols_of md := (fun l => mode_columns (tm_quote md) l (tm_delim md)).
Notation numbered args ws K V WO N := (numbered_keys uni_alpha uni_alnum expr expr_new expr_lookup expr_eval expr_eval_line expr_none exp10 args ws K V WO N).

Lemma no_checks : forall args, ~ given (bs "Check") args -> forall v, In (bs "Check", v) args -> exists n, to_usize_whole v = Ok n.
Proof. intros args N v I. exfalso. apply N. exists v. auto. Qed.

(** * Sorting by numbered keys or whole lines *)
Lemma sorts_numbered : forall md args ws names fs bodies, known args -> ~ given (bs "merge") args -> ~ given (bs "check") args -> ~ given (bs "Check") args ->
  values (bs "key") args (map text_of_key ws) -> Forall (wanted_ok [[]]) ws -> Forall (fun w => plain_kind (wk_cmp w)) ws -> starts_forward ws ->
  (N.of_nat cap < 2 ^ 31)%N -> 0 < cap -> 0 < size -> names_fit utf8_ok name_ok names -> fs <> [] ->
  Forall2 (fun f b => content (fst f) = headline names ++ concat b) fs bodies -> lines_fit cap (concat bodies) ->
  exists out, main md args fs = (headline names ++ concat out, Ok tt) /\ result_of (line_order exp10 ws) (given (bs "unique") args) (concat bodies) out /\
    (List.length (concat (concat bodies)) < cap -> exact_of (line_order exp10 ws) (given (bs "unique") args) (concat bodies) out).
Proof.
  intros md args ws names fs bodies K NM NC NC2 V WO WK WF Hc Hc0 Hs NF NE F L.
  destruct (numbered args ws K V WO (no_checks _ NC2)) as (o & ks & cs & R & KS & U & MG & CH & AM & UL & AL & BC & OK & FS & D & _).
  assert (MG' : so_merge o = false) by (eapply flag_off; eauto). assert (CH' : so_check o = false) by (eapply flag_off; [exact CH|tauto]).
  unfold sort_main. unfold need at 1. rewrite R, CH', MG'. cbn [andb]. unfold need at 1. rewrite KS.
  unfold need at 1. rewrite (lookup_headed utf8_ok name_ok expr expr_new expr_lookup names fs bodies ks NF NE F), UL, AL.
  destruct (files_headed utf8_ok name_ok exp10 cap size cs names fs bodies (so_unique o) Hc Hc0 Hs BC (OK WK) (FS WF) NF NE F L) as (out & E & S1 & S2).
  rewrite E. exists out. split; auto.
  assert (AG : forall a b, In a (concat bodies) -> In b (concat bodies) -> merge_cmp exp10 cs a b = line_order exp10 ws a b).
  { intros a b Ia Ib. unfold lines_fit in L. rewrite Forall_forall in L. apply D; apply L; auto. }
  split; [eapply result_given; eauto|]. intros H. apply (exact_given (merge_cmp exp10 cs) (line_order exp10 ws) (so_unique o)); auto; [apply merge_pre; auto|apply line_order_pre; auto|exact (S2 H)].
Qed.

(** A file without header. *)
Lemma starts_first : forall l rest z, whole_line l -> l ++ rest = CDX ++ z -> firstn 4 l = bs " CDX".
Proof.
  intros l rest z (b & -> & N) E. change CDX with (bs " CDX") in E. 
  destruct b as [|b1 [|b2 [|b3 [|b4 b]]]]; cbn in E; try discriminate E. injection E as -> -> -> -> _. reflexivity.
Qed.
Lemma plain_header : forall ls text c l, text_of ls text -> lines_fit cap ls -> fst (first_line text) = c :: l -> exists names, make_header (c :: l) = Ok names.
Proof.
  intros ls text c l T L E. unfold make_header. destruct (starts_with (c :: l) CDX) eqn:X; [|eauto]. exfalso. destruct (first_line text) as [f r] eqn:EF. cbn [fst] in E. subst f.
  apply first_line_spec in EF as [-> _]. apply Base.starts_with_app in X as [z X]. rewrite X in T.
  assert (Q : exists q, concat ls = CDX ++ q). { destruct T as [_ [E|[E _]]]; [exists (z ++ r)|exists (z ++ r ++ [NL])]; rewrite E, <- !app_assoc; reflexivity. }
  destruct Q as [q Q]. destruct ls as [|l1 ls]; [discriminate Q|]. inversion L as [|? ? (W & _ & _ & H) _]; subst. apply H. eapply starts_first; eauto.
Qed.
Lemma sorts_plain : forall md args ws (s : src) (sched : list nat) ls, known args -> ~ given (bs "merge") args -> ~ given (bs "check") args -> ~ given (bs "Check") args ->
  values (bs "key") args (map text_of_key ws) -> Forall (wanted_ok [[]]) ws -> Forall (fun w => plain_kind (wk_cmp w)) ws -> starts_forward ws ->
  (N.of_nat cap < 2 ^ 31)%N -> 0 < size -> text_of ls (content s) -> lines_fit cap ls ->
  exists out, main md args [(s, sched)] = (concat out, Ok tt) /\ result_of (line_order exp10 ws) (given (bs "unique") args) ls out /\
    (List.length (concat ls) < cap -> exact_of (line_order exp10 ws) (given (bs "unique") args) ls out).
Proof.
  intros md args ws s sched ls K NM NC NC2 V WO WK WF Hc Hs T L.
  destruct (numbered args ws K V WO (no_checks _ NC2)) as (o & ks & cs & R & KS & U & MG & CH & AM & UL & AL & BC & OK & FS & D & _).
  assert (MG' : so_merge o = false) by (eapply flag_off; eauto). assert (CH' : so_check o = false) by (eapply flag_off; [exact CH|tauto]).
  unfold sort_main. unfold need at 1. rewrite R, CH', MG'. cbn [andb]. unfold need at 1. rewrite KS.
  assert (LK : sort_lookup expr expr_new expr_lookup ks true (map (fun f : src * list nat => content (fst f)) [(s, sched)]) = Ok ks).
  { cbn [map sort_lookup fst]. destruct (fst (first_line (content s))) as [|c l] eqn:E; auto. cbn [orb]. destruct (plain_header _ _ _ _ T L E) as [names ->]. cbn [rbind]. rewrite UL. reflexivity. }
  unfold need at 1. rewrite LK, AL. cbn [map fst snd].
  destruct (files_plain utf8_ok name_ok exp10 cap size cs ls _ s sched (so_unique o) Hc Hs BC (OK WK) (FS WF) eq_refl T L) as (out & E & S1 & S2).
  rewrite E. exists out. split; auto.
  assert (AG : forall a b, In a ls -> In b ls -> merge_cmp exp10 cs a b = line_order exp10 ws a b).
  { intros a b Ia Ib. unfold lines_fit in L. rewrite Forall_forall in L. apply D; apply L; auto. }
  split; [eapply result_given; eauto|]. intros H. apply (exact_given (merge_cmp exp10 cs) (line_order exp10 ws) (so_unique o)); auto; [apply merge_pre; auto|apply line_order_pre; auto|exact (S2 H)].
Qed.

(** * Merging *)
Lemma sorted_change : forall (c1 c2 : bytes -> bytes -> comparison) l, (forall a b, In a l -> In b l -> c1 a b = c2 a b) -> sorted c1 l -> sorted c2 l.
Proof.
  intros c1 c2 l. unfold sorted. induction l as [|x l IH]; intros E H; [constructor|]. apply StronglySorted_inv in H as [H F]. constructor.
  - apply IH; auto. intros; apply E; cbn; auto.
  - rewrite Forall_forall in *. intros y I. rewrite <- E; cbn; auto.
Qed.
Lemma merges_numbered : forall md args ws names (fs : list (src * list nat)) bodies, known args -> given (bs "merge") args -> ~ given (bs "check") args -> ~ given (bs "Check") args ->
  values (bs "key") args (map text_of_key ws) -> Forall (wanted_ok [[]]) ws -> Forall (fun w => plain_kind (wk_cmp w)) ws ->
  names_fit utf8_ok name_ok names -> fs <> [] -> Forall2 (fun f b => content (fst f) = headline names ++ concat b) fs bodies ->
  Forall (Forall whole_line) bodies -> Forall (sorted (line_order exp10 ws)) bodies ->
  exists out, main md args fs = (headline names ++ concat out, Ok tt) /\ result_of (line_order exp10 ws) (given (bs "unique") args) (concat bodies) out /\
    (given (bs "alt-merge") args -> exact_of (line_order exp10 ws) (given (bs "unique") args) (concat bodies) out).
Proof.
  intros md args ws names fs bodies K NM NC NC2 V WO WK NF NE F W S.
  destruct (numbered args ws K V WO (no_checks _ NC2)) as (o & ks & cs & R & KS & U & MG & CH & AM & UL & AL & BC & OK & FS & D & _).
  assert (MG' : so_merge o = true) by (apply MG; auto). assert (CH' : so_check o = false) by (eapply flag_off; [exact CH|tauto]).
  unfold sort_main. unfold need at 1. rewrite R, CH', MG'. cbn [andb]. unfold need at 1. rewrite KS, AL.
  assert (EM : map (fun f : src * list nat => content (fst f)) fs = map (fun b => headline names ++ concat b) bodies). { clear NE W S. induction F; cbn [map]; congruence. }
  rewrite EM. destruct (headline_text _ _ _ NF) as (Wh & _ & _ & Ch & _).
  assert (AG : forall a b, In a (concat bodies) -> In b (concat bodies) -> line_order exp10 ws a b = merge_cmp exp10 cs a b).
  { intros a b Ia Ib. apply Forall_concat in W. rewrite Forall_forall in W. symmetry. apply D; apply W; auto. }
  destruct (c19_files (merge_cmp exp10 cs) (merge_eq exp10 cs) (so_unique o) (so_alt_merge o) (headline names) bodies (merge_pre exp10 _ (OK WK)) (merge_eq_ok exp10 _) Wh Ch) as (out & E & S1 & S2); auto.
  { intros ->. inversion F; congruence. }
  { apply Forall_forall. intros b I. rewrite Forall_forall in S. eapply sorted_change; [|apply S; auto]. intros x y Ix Iy. apply AG; apply in_concat; eauto. }
  rewrite E. exists out. split; auto.
  split; [apply (result_given (merge_cmp exp10 cs) (line_order exp10 ws) (so_unique o)); [exact U|intros; symmetry; auto|exact S1]|]. intros H. apply (exact_given (merge_cmp exp10 cs) (line_order exp10 ws) (so_unique o)); auto.
  - apply merge_pre; auto.
  - apply line_order_pre; auto.
  - intros; symmetry; auto.
  - apply S2. apply AM; auto.
Qed.

(** * Checking *)
Lemma adjacent_map : forall (u : bool) (g : bytes -> textline) (c1 : bytes -> bytes -> comparison) c2 l, (forall a b, In a l -> In b l -> c2 (g a) (g b) = c1 a b) ->
  (adjacent_ok u c2 (map g l) <-> adjacent_ok u c1 l).
Proof.
  intros u g c1 c2 l E. unfold adjacent_ok, in_order. split; intros H p x y s EL.
  - rewrite <- (E x y) by (subst l; apply in_or_app; cbn; auto). apply (H (map g p) (g x) (g y) (map g s)). rewrite EL, map_app. reflexivity.
  - apply map_eq_app in EL as (p' & q & -> & <- & EL). destruct q as [|x' [|y' s']]; try discriminate EL. injection EL as <- <- <-.
    rewrite (E x' y') by (apply in_or_app; cbn; auto). eapply H. reflexivity.
Qed.
Lemma checks : forall md args ws fs shown u, known args -> ~ given (bs "merge") args -> given (bs "check") args \/ given (bs "Check") args ->
  (forall v, In (bs "Check", v) args -> exists n, to_usize_whole v = Ok n) -> (u = true <-> given (bs "unique") args) ->
  values (bs "key") args (map text_of_key ws) -> Forall (wanted_ok [[]]) ws -> md_ok md ->
  Forall2 (fun f s => shows utf8_ok md (fst f) s) fs shown ->
  exists r, main md args fs = ([], r) /\ (r = Ok tt \/ r = Err) /\
    (r = Ok tt <-> Forall (fun s => adjacent_ok u (shown_order exp10 (cols_of md) ws) (sh_lines s)) shown).
Proof.
  intros md args ws fs shown u K NM C NC U0 V WO M F.
  destruct (numbered args ws K V WO NC) as (o & ks & cs & R & KS & U & MG & CH & AM & UL & AL & BC & OK & FS & D & D2).
  assert (MG' : so_merge o = false) by (eapply flag_off; eauto). assert (CH' : so_check o = true) by (apply CH; auto).
  assert (UE : so_unique o = u). { destruct u, (so_unique o); auto; intuition congruence. }
  unfold sort_main. unfold need at 1. rewrite R, CH', MG', UE. cbn [andb]. unfold need at 1. rewrite KS, AL.
  assert (F2 : Forall2 (shows utf8_ok md) (map fst fs) shown). { induction F; cbn [map]; constructor; auto. }
  destruct (check_files_is utf8_ok exp10 md cs u (so_num o) (map fst fs) shown 0 M F2) as (n & E1 & E2). unfold need. rewrite E1. eexists. split; [reflexivity|].
  split; [destruct (0 <? n); auto|]. transitivity (negb (0 <? n) = true); [destruct (0 <? n); split; intros; auto; discriminate|]. rewrite E2, c54_check_exact.
  rewrite Forall_map. split; intros H; rewrite Forall_forall in *; intros s I; specialize (H s I); 
    eapply adjacent_map in H; eauto; intros; cbn beta; auto; symmetry; auto.
Qed.

Lemma shown_order_pre : forall cols ws, Forall (fun w => plain_kind (wk_cmp w)) ws -> total_preorder (shown_order exp10 cols ws).
Proof.
  intros cols ws F. destruct ws as [|w ws]; [apply (line_order_pre exp10 []); constructor|].
  apply (preorder_key cols (fun l r => first_answer (map (answers exp10 0 0 l r) (w :: ws)))); [apply first_answer_preorder; auto|auto].
Qed.

(** * What was sorted passes the check *)
Lemma plain_cols : forall l, whole_line l -> mode_columns QPlain l TAB = fields l.
Proof. intros l (b & -> & N). rewrite fields_line. cbn [mode_columns]. apply split_plain_nl. discriminate. Qed.
Lemma same_order : forall ws a b, whole_line a -> whole_line b -> shown_order exp10 (fun l => mode_columns QPlain l TAB) ws a b = line_order exp10 ws a b.
Proof. intros ws a b A B. unfold shown_order, line_order, by_fields. rewrite !plain_cols by auto. destruct ws; reflexivity. Qed.
Lemma headed_shows : forall names s ls, names_fit utf8_ok name_ok names -> utf8_ok (headline names) = true -> wf_src s -> content s = headline names ++ concat ls -> Forall whole_line ls ->
  shows utf8_ok (tabbed HYes) s (mkshown (headline names) names ls).
Proof.
  intros names s ls NF Hu Hw Hc HL. destruct (headline_text _ _ _ NF) as (Wh & _ & _ & _ & _). split; auto. left. cbn [sh_head sh_lines sh_names]. split.
  - unfold file_lines, read_header. destruct (fill_buf s) as [b s1] eqn:E. destruct (fill_buf_content _ _ _ E) as (C1 & C2 & C3). cbn [tabbed tm_head tm_quote tm_break].
    assert (b <> []). { intros ->. pose proof (proj1 (fill_buf_empty _ _ _ Hw E) eq_refl) as Z. rewrite Hc in Z. discriminate. }
    destruct b as [|x b]; [congruence|]. unfold read_string.
    pose proof (read_line_flat QPlain NL s1 (C3 Hw)) as A. rewrite C1, Hc in A. rewrite flat_line_cons in A by exact Wh. destruct A as (s2 & A1 & A2 & A3). exists s2. rewrite A1, Hu. split; [reflexivity|].
    rewrite read_all_flat by auto. rewrite A3. apply flat_all_lines; auto.
  - cbn [shown_names tabbed tm_delim]. destruct (headline names) eqn:EH; [discriminate EH|]. rewrite <- EH. symmetry. destruct NF as (NE & _ & F).
    apply (names_head names); auto. eapply Forall_impl; [|exact F]. cbn. tauto.
Qed.
Lemma sorted_adjacent : forall (c : bytes -> bytes -> comparison) (u : bool) (P : Prop) ls out, (u = true <-> P) -> result_of c P ls out -> adjacent_ok u c out.
Proof.
  intros c u P ls out U [A B] p x y s E. assert (SS : forall (R : bytes -> bytes -> Prop), StronglySorted R out -> R x y).
  { intros R H. subst out. clear A B. induction p as [|z p IH]; cbn [app] in H; apply StronglySorted_inv in H as [H F]; auto. inversion F; auto. }
  destruct u.
  - destruct (A ltac:(tauto)) as [H _]. left. apply (SS _ H).
  - destruct (B ltac:(intuition discriminate)) as [_ H]. specialize (SS _ H). cbn beta in SS. unfold in_order. destruct (c x y); auto. congruence.
Qed.
Lemma adjacent_change : forall (u : bool) (c1 c2 : bytes -> bytes -> comparison) l, (forall a b, In a l -> In b l -> c1 a b = c2 a b) -> adjacent_ok u c1 l -> adjacent_ok u c2 l.
Proof. intros u c1 c2 l E H p x y s EL. unfold in_order. rewrite <- (E x y) by (subst l; apply in_or_app; cbn; auto). eapply H; eauto. Qed.
Lemma result_whole : forall (c : bytes -> bytes -> comparison) P ls out, (P \/ ~ P) -> result_of c P ls out -> Forall whole_line ls -> Forall whole_line out.
Proof.
  intros c P ls out D [A B] W. rewrite Forall_forall in *. intros x I. apply W. destruct D as [D|D]; [apply (A D); auto|]. destruct (B D) as [H _]. eapply Permutation_in; [symmetry|]; eauto.
Qed.
Lemma given_dec : forall n args, given n args \/ ~ given n args.
Proof. intros n. induction args as [|[m v] args [IH|IH]]; [right; intros (v & [])|left; apply given_cons; auto|]. destruct (list_eq_dec N.eq_dec m n); [left|right]; rewrite given_cons; tauto. Qed.
Lemma passes : forall args ws names out ls s sched, known args -> ~ given (bs "merge") args -> ~ given (bs "Check") args ->
  values (bs "key") args (map text_of_key ws) -> Forall (wanted_ok [[]]) ws -> names_fit utf8_ok name_ok names -> utf8_ok (headline names) = true ->
  Forall whole_line ls -> result_of (line_order exp10 ws) (given (bs "unique") args) ls out -> wf_src s -> content s = headline names ++ concat out ->
  main (tabbed HYes) ((bs "check", []) :: args) [(s, sched)] = ([], Ok tt).
Proof.
  intros args ws names out ls s sched K NM NC V WO NF Hu W R Hw Hc. pose proof (result_whole _ _ _ _ (given_dec _ _) R W) as WO2.
  assert (UD : exists u : bool, u = true <-> given (bs "unique") args). { destruct (given_dec (bs "unique") args); [exists true|exists false]; intuition discriminate. }
  destruct UD as [u U]. assert (NX : forall n, n <> bs "check" -> (given n ((bs "check", []) :: args) <-> given n args)). { intros n D. rewrite given_cons. intuition congruence. }
  destruct (checks (tabbed HYes) ((bs "check", []) :: args) ws [(s, sched)] [mkshown (headline names) names out] u) as (r & E & _ & H).
  - constructor; auto. cbn. auto 10.
  - rewrite NX by discriminate. auto.
  - left. apply given_cons. auto.
  - intros v [I|I]; [discriminate I|]. exfalso. apply NC. exists v. auto.
  - rewrite NX by discriminate. auto.
  - constructor; auto. discriminate.
  - auto.
  - intros X. discriminate X.
  - constructor; [|constructor]. apply headed_shows; auto.
  - rewrite E. f_equal. apply H. constructor; [|constructor]. cbn [sh_lines]. eapply adjacent_change; [|eapply sorted_adjacent; eauto].
    intros a b Ia Ib. cbn [tabbed tm_quote tm_delim]. rewrite Forall_forall in WO2. symmetry. apply same_order; auto.
Qed.

(** * Options refused *)
Lemma args_kept : forall args o o', sort_args o args = Ok o' ->
  (so_merge o = true \/ given (bs "merge") args -> so_merge o' = true) /\ (so_check o = true \/ given (bs "check") args \/ given (bs "Check") args -> so_check o' = true) /\
  (forall v, In (bs "Check", v) args -> exists n, to_usize_whole v = Ok n) /\
  (forall v, In (bs "key", v) args -> exists k, make_line_comp uni_alpha uni_alnum expr expr_new v = Ok k) /\ known args.
Proof.
  induction args as [|[n v] args IH]; intros o o' E.
  - injection E as <-. assert (NG : forall n, ~ given n []) by (intros n (v & [])). repeat split; try (intros [H|H]; auto; exfalso); try (intros v []).
    + eapply NG; eauto. + destruct H; eapply NG; eauto. + constructor.
  - cbn [OrderModel.sort_args] in E. destruct (sort_arg uni_alpha uni_alnum expr expr_new o (n, v)) as [o1| |] eqn:E1; try discriminate. cbn [rbind] in E. destruct (IH _ _ E) as (A & B & C & D & K).
    rewrite !given_cons. unfold sort_arg in E1.
    assert (X : forall m, n <> m -> ~ (n = m)) by auto.
    destruct (beq n (bs "key")) eqn:B1; [apply beq_eq in B1; subst n; destruct (make_line_comp uni_alpha uni_alnum expr expr_new v) eqn:EK; try discriminate E1; injection E1 as <-|
    destruct (beq n (bs "alt-merge")) eqn:B2; [apply beq_eq in B2; subst n; injection E1 as <-|
    destruct (beq n (bs "alt-sort")) eqn:B3; [apply beq_eq in B3; subst n; injection E1 as <-|
    destruct (beq n (bs "merge")) eqn:B4; [apply beq_eq in B4; subst n; injection E1 as <-|
    destruct (beq n (bs "check")) eqn:B5; [apply beq_eq in B5; subst n; injection E1 as <-|
    destruct (beq n (bs "Check")) eqn:B6; [apply beq_eq in B6; subst n; destruct (to_usize_whole v) eqn:EN; try discriminate E1; injection E1 as <-|
    destruct (beq n (bs "unique")) eqn:B7; [apply beq_eq in B7; subst n; injection E1 as <-|discriminate E1]]]]]]]; cbn [so_merge so_check] in *;
    (split; [intros [H|[H|H]]; apply A; auto; discriminate H|]; split; [intros [H|[[H|H]|[H|H]]]; apply B; auto; discriminate H|];
     split; [intros w [H|H]; [try discriminate H; injection H as <-; eauto|eauto]|]; split; [intros w [H|H]; [try discriminate H; injection H as <-; eauto|eauto]|]; constructor; auto; cbn; auto 10).
Qed.
Lemma main_refuses : forall md args fs, (forall o, sort_args (sopts_new expr) args = Ok o -> so_check o = true /\ so_merge o = true) ->
  fst (main md args fs) = [] /\ snd (main md args fs) <> Ok tt.
Proof.
  intros md args fs H. unfold sort_main, need. destruct (sort_args (sopts_new expr) args) as [o| |]; [|split; [auto|discriminate]|split; [auto|discriminate]].
  destruct (H o eq_refl) as [H1 H2]. rewrite H1, H2. cbn [andb fst snd]. split; [auto|discriminate].
Qed.
End Tool.
