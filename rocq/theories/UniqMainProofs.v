(** Proofs for the uniq tool. *)
From Coq Require Import String List NArith ZArith Bool Arith Lia.
Open Scope list_scope.
Import ListNotations.
From Verif Require Import Base TextSpec TextModel TextProofs StrSpec StrModel FloatModel ReadSpec ReadModel ReadProofs HdrSpec HdrModel HdrProofs MatchModel MatchSpec MatchText CompModel CompSpec OrdProofs LineSpec LineProofs
  ColModel AggModel AggRow SortSpec KeySpec KeyModel KeyProofs ToolModel ToolOpen TurnProofs PasteSpec PasteProofs PickProofs NumbProofs OrderSpec OrderProofs OrderTool JoinMain JoinMainTool
  UniqModel UniqSpec UniqProofs UniqMain UniqMainSpec.
From Verif Require AggProps UniqProps.
Close Scope Z_scope. Open Scope nat_scope.

(** * Words *)
Lemma same_word_trans : forall w a b, same_word w a = true -> same_word w b = same_word a b.
Proof. unfold same_word. intros w a b H. apply beq_eq in H. rewrite H. reflexivity. Qed.
Lemma which_read : forall p w, pick_means p w -> read_which (fst p) = Ok w.
Proof.
  intros p w (_ & n & I & S). apply same_word_iff in S. unfold read_which. rewrite !(same_word_trans _ _ _ S).
  cbn [pick_words In] in I. destruct I as [I|[I|[I|[I|[]]]]]; inversion I; subst; reflexivity.
Qed.
Lemma count_read : forall v c, count_says v c -> read_count v = Ok c.
Proof.
  intros v c [n N|n w p N M]; unfold read_count.
  - rewrite split_once_none by auto. reflexivity.
  - rewrite split_once_app by auto. destruct M as [[-> ->]|(x & I & S)]; [reflexivity|]. destruct w as [|b w].
    + exfalso. cbn [place_words In] in I. destruct I as [I|[I|[I|[I|[I|[I|[]]]]]]]; inversion I; subst; inversion S.
    + apply same_word_iff in S. unfold one_of. cbn [existsb]. rewrite !(same_word_trans _ _ _ S).
      cbn [place_words In] in I. destruct I as [I|[I|[I|[I|[I|[I|[]]]]]]]; inversion I; subst; reflexivity.
Qed.

(** * Renaming the elements of runs *)
Section Renaming.
Variables A B : Type.
Variable g : A -> B.
Lemma chain_map : forall (e : A -> A -> bool) (e' : B -> B -> bool) r, (forall a b, In a r -> In b r -> e' (g a) (g b) = e a b) -> chain e r -> chain e' (map g r).
Proof.
  intros e e' r. induction r as [|x r IH]; intros H C; [exact I|]. destruct r as [|y r]; [exact I|]. destruct C as [C1 C2]. cbn [map chain]. split; [rewrite H; cbn; auto|].
  apply IH; auto. intros; apply H; right; auto.
Qed.
Lemma runs_map : forall (e : A -> A -> bool) (e' : B -> B -> bool) l rs, (forall a b, In a l -> In b l -> e' (g a) (g b) = e a b) -> runs_of e l rs -> runs_of e' (map g l) (map (map g) rs).
Proof.
  intros e e' l rs H (C & F & P). subst l. split; [rewrite concat_map; reflexivity|]. split.
  - rewrite Forall_map. rewrite Forall_forall in *. intros r I. destruct (F r I) as [N C]. split; [destruct r; [congruence|discriminate]|].
    apply (chain_map e); auto. intros a b Ia Ib. apply H; apply in_concat; eauto.
  - clear F. induction rs as [|r rs IH]; [exact I|]. destruct rs as [|s rs]; [exact I|]. destruct P as [(p & x & y & q & -> & -> & E) P]. cbn [map apart]. split.
    + exists (map g p), (g x), (g y), (map g q). rewrite map_app. split; auto. split; auto. rewrite H; auto; apply in_concat; [exists (p ++ [x])|exists (y :: q)]; cbn; intuition.
    + apply IH; auto. intros a b Ia Ib. apply H; cbn [concat] in *; apply in_or_app; right; auto.
Qed.
Lemma chosen_map : forall (c : A -> A -> comparison) (c' : B -> B -> comparison) w r x, (forall a b, In a r -> In b r -> c' (g a) (g b) = c a b) -> chosen c w r x -> chosen c' w (map g r) (g x).
Proof.
  intros c c' w r x H (p & q & -> & K). exists (map g p), (map g q). rewrite map_app. split; [reflexivity|]. destruct w; [subst; reflexivity|subst; reflexivity| |];
    (destruct K as [K1 K2]; split; rewrite Forall_map; rewrite Forall_forall in *; intros y I; rewrite H; try (apply in_or_app; cbn; tauto); auto).
Qed.
End Renaming.

(** * Reading the lines *)
Section Lines.
Variable md : tmode.
Lemma read_split : forall rest fuel r l hist, at_line md r (proc md l :: hist) rest -> S (List.length rest) < fuel ->
  read_rest md fuel r = Ok (map (proc md) (l :: rest)).
Proof.
  induction rest as [|l' rest IH]; intros fuel r l hist HA Hf; (destruct fuel as [|k]; [lia|]); cbn [read_rest];
    replace (r_done r) with false by (symmetry; apply HA); rewrite (ring_curr _ _ _ (proj1 HA)); cbn [rbind].
  - destruct (next_nil _ _ _ HA) as (r' & H1 & H2 & _). rewrite H1. cbn [rbind]. destruct k as [|k]; [cbn in Hf; lia|]. cbn [read_rest]. rewrite H2. reflexivity.
  - destruct (next_cons _ _ _ _ _ HA) as (r' & H1 & H2 & _). rewrite H1. cbn [rbind]. cbn [List.length] in Hf. rewrite (IH k r' l' (proc md l :: hist) H2) by lia. reflexivity.
Qed.
Lemma read_raw : tm_quote md = QPlain -> forall rest fuel r l, at_raw md r l rest -> S (List.length rest) < fuel ->
  exists ts, read_rest md fuel r = Ok ts /\ Forall2 (fun t l => tl_line t = l /\ plain_line t) ts (l :: rest).
Proof.
  intros Hp. induction rest as [|l' rest IH]; intros fuel r l HA Hf; (destruct fuel as [|k]; [lia|]); cbn [read_rest];
    replace (r_done r) with false by (symmetry; apply HA); pose proof HA as (_ & _ & _ & hist & t & H1 & H2 & H3); rewrite (ring_curr _ _ _ H1); cbn [rbind].
  - destruct (raw_nil _ _ _ HA) as (r' & E1 & E2). rewrite E1. cbn [rbind]. destruct k as [|k]; [cbn in Hf; lia|]. cbn [read_rest]. rewrite E2. cbn [rbind]. exists [t]. split; [reflexivity|].
    inversion H3; subst. constructor; [split; auto|constructor].
  - destruct (raw_cons _ _ _ _ _ Hp HA) as (r' & E1 & E2 & _). rewrite E1. cbn [rbind]. cbn [List.length] in Hf. destruct (IH k r' l' E2 ltac:(lia)) as (ts & I1 & I2). rewrite I1. cbn [rbind].
    exists (t :: ts). split; [reflexivity|]. inversion H3; subst. constructor; [split; auto|exact I2].
Qed.
Lemma split_same : forall r hist rest, at_line md r hist rest -> do_split r true = r.
Proof. intros r hist rest (_ & _ & H & _). destruct r. cbn in H. subst. reflexivity. Qed.
End Lines.
Lemma parted_cols : forall d l, d <> NL -> whole_line l -> mode_columns QPlain l d = parted d l.
Proof. intros d l D (b & -> & _). unfold parted. rewrite removelast_last. cbn [mode_columns]. apply split_plain_nl. auto. Qed.

(** * Opening *)
Lemma open_some u md s f : PasteProofs.shows u md s f -> sh_head f <> [] \/ sh_lines f <> [] -> exists t, open_file u md s = Ok t /\ tf_empty t = false /\ opened md t f.
Proof.
  intros (Hw & [(HL & HN)|(hd & s1 & H & E1 & E2 & E3)]) N; [|destruct N; congruence].
  destruct (open_file_lines _ _ _ _ _ Hw HL) as (t & O1 & OE & O2 & O3 & _ & O4). exists t. split; auto. split; auto. split; [rewrite O2; destruct (sh_head f); reflexivity|].
  split; [congruence|]. destruct (sh_lines f); [apply O4|exact O4].
Qed.

Section Tool.
Variable utf8_ok : bytes -> bool.
Variable uni_alpha uni_alnum : N -> bool.
Variable expr : Type.
Variable expr_new : bytes -> res expr.
Variable expr_lookup : expr -> list bytes -> res expr.
Variable expr_eval : expr -> textline -> f64.
Variable expr_eval_line : expr -> bytes -> byte -> f64.
Variable expr_none : f64.
Variable exp10 : Z -> f64.
Variable decode : bytes -> list N.
Variable is_space is_alnum : N -> bool.
Variable comp_make : bytes -> res comp_t.
Variable agg_expr : bytes -> res lineagg.
Variable print_num : f64 -> bytes.
Notation letter := (alphabetic uni_alpha).
Notation alnum := (alphanumeric uni_alnum).
Notation add_keys := (add_keys uni_alpha uni_alnum expr expr_new).
Notation make_key := (make_line_comp uni_alpha uni_alnum expr expr_new).
Notation as_lines := (key_lines expr expr_eval expr_eval_line expr_none).
Notation uniq_args := (uniq_args uni_alpha uni_alnum expr expr_new comp_make agg_expr).
Notation uniq_main := (uniq_main utf8_ok uni_alpha uni_alnum expr expr_new expr_lookup expr_eval expr_eval_line expr_none exp10 decode is_space is_alnum comp_make agg_expr print_num).
Notation uconf := (uconf expr).
Notation req := (aggreq AggProps.colref).
Notation option_of := (req_option AggProps.colref_text).
Notation whole_key := (mkkey false (KWhole (MCmp CPlain)) : key expr).
Notation col_ok := (AggProps.colref_ok uni_alpha uni_alnum).

(** * Options *)
Definition req_ok (q : req) (a : agg) : Prop := col_ok (rq_col q) /\ ~ In 44%N (req_title q) /\ agg_make comp_make (rq_agg q) = Ok a.
Definition la_of (q : req) (a : agg) : lineagger := mkla (rq_place q) (LAgg (AggProps.colref_nc (rq_col q)) a).
Definition pick_key (p : pick) (k : key expr) : Prop := make_key (match snd p with Some w => text_of_key w | None => [] end) = Ok k.

Lemma which_option : forall c p w k, pick_means p w -> pick_key p k ->
  get_which uni_alpha uni_alnum expr expr_new c (pick_text p) = Ok (mkuc expr (uc_keys expr c) (uc_name expr c) (uc_pos expr c) w k (uc_aggs expr c)).
Proof.
  intros c p w k M K. unfold get_which, pick_text. pose proof (which_read _ _ M) as W. destruct M as [N _]. unfold pick_key in K. destruct (snd p) as [v|].
  - rewrite split_once_app by auto. rewrite W. cbn [rbind]. rewrite K. reflexivity.
  - rewrite split_once_none by auto. rewrite W. cbn [rbind]. rewrite K. reflexivity.
Qed.
Lemma agg_option : forall c q a, req_ok q a ->
  uniq_arg uni_alpha uni_alnum expr expr_new comp_make agg_expr c (option_of q) = Ok (mkuc expr (uc_keys expr c) (uc_name expr c) (uc_pos expr c) (uc_which expr c) (uc_comp expr c) (uc_aggs expr c ++ [la_of q a])).
Proof.
  intros c q a (C & N & M). destruct q as [pl col g i]. cbn [rq_col rq_agg rq_place req_title] in *. unfold la_of. cbn [rq_place rq_col].
  destruct pl as [|n|n]; unfold req_option; cbn [rq_col rq_agg rq_place]; unfold uniq_arg; cbn [beq]; unfold push_agg.
  - rewrite (proj1 (AggProps.c65_spec decode is_space is_alnum comp_make uni_alpha uni_alnum agg_expr col g a [] C M (fun x => x))). reflexivity.
  - rewrite (proj1 (proj2 (AggProps.c65_spec decode is_space is_alnum comp_make uni_alpha uni_alnum agg_expr col g a n C M N))). reflexivity.
  - rewrite (proj1 (proj2 (proj2 (AggProps.c65_spec decode is_space is_alnum comp_make uni_alpha uni_alnum agg_expr col g a n C M N)))). reflexivity.
Qed.
Lemma last_cons2 : forall {A} (x : A) l d, last (x :: l) d = last l x.
Proof. intros A x l. revert x. induction l as [|y l IH]; intros x d; [reflexivity|]. change (last (x :: y :: l) d) with (last (y :: l) d). rewrite !IH. reflexivity. Qed.

Lemma val_none : forall n vs, values n [] vs -> vs = [].
Proof. intros n vs H. inversion H; auto. Qed.
Lemma val_skip : forall n m v args vs, values n ((m, v) :: args) vs -> m <> n -> values n args vs.
Proof. intros n m v args vs H N. inversion H; subst; [congruence|auto]. Qed.
Lemma val_take : forall n v args vs, values n ((n, v) :: args) vs -> exists r, vs = v :: r /\ values n args r.
Proof. intros n v args vs H. inversion H; subst; [eauto|congruence]. Qed.
Lemma options_read : forall args, uniq_known args -> forall kts ks cts counts ps ws wks qs gs (c : uconf),
  values (bs "key") args kts -> add_keys kts = Ok ks ->
  values (bs "count") args cts -> Forall2 count_says cts counts ->
  values (bs "which") args (map pick_text ps) -> Forall2 pick_means ps ws -> Forall2 pick_key ps wks ->
  agg_options AggProps.colref_text args qs -> Forall2 req_ok qs gs ->
  let nc := last counts (uc_name expr c, uc_pos expr c) in
  uniq_args c args = Ok (mkuc expr (uc_keys expr c ++ ks) (fst nc) (snd nc) (last ws (uc_which expr c)) (last wks (uc_comp expr c)) (uc_aggs expr c ++ map (fun qg => la_of (fst qg) (snd qg)) (combine qs gs))).
Proof.
  induction args as [|[n v] args IH]; intros K kts ks cts counts ps ws wks qs gs c VK AK VC FC VW FW FK AO FG.
  - apply val_none in VK, VC, VW. apply map_eq_nil in VW. subst. cbn in AK. injection AK as <-. inversion FC; subst.
    inversion FW; subst. inversion FK; subst. inversion AO; subst. inversion FG; subst. cbn [UniqMain.uniq_args last fst snd combine map]. rewrite !app_nil_r. destruct c; reflexivity.
  - inversion K as [|? ? K1 K2]; subst. cbn [fst] in K1. cbn [UniqMain.uniq_args].
    assert (NA : forall m, In m agg_names -> m <> bs "key" /\ m <> bs "count" /\ m <> bs "which") by (intros m [<-|[<-|[<-|[]]]]; repeat split; discriminate).
    inversion AO as [|q args' qs' AO2 E1 E2|m v' args' qs' NI AO2 E1 E2]; subst.
    + (* an aggregator *)
      inversion FG as [|q' a qs2 gs' G1 G2]; subst.
      assert (NM : n <> bs "key" /\ n <> bs "count" /\ n <> bs "which"). { apply NA. unfold req_option in E1. destruct (rq_place q); inversion E1; cbn; auto. }
      destruct NM as (N1 & N2 & N3). pose proof (val_skip _ _ _ _ _ VK N1) as VK2. pose proof (val_skip _ _ _ _ _ VC N2) as VC2. pose proof (val_skip _ _ _ _ _ VW N3) as VW2.
      rewrite (agg_option c q a G1). cbn [rbind]. rewrite (IH K2 _ _ _ _ _ _ _ _ _ _ VK2 AK VC2 FC VW2 FW FK AO2 G2). cbn [uc_keys uc_name uc_pos uc_which uc_comp uc_aggs].
      cbn [combine map fst snd]. rewrite <- app_assoc. reflexivity.
    + assert (KN : n = bs "key" \/ n = bs "count" \/ n = bs "which") by (cbn [In] in K1; unfold agg_names in K1, NI; intuition congruence).
      destruct KN as [-> | [-> | ->]].
      * destruct (val_take _ _ _ _ VK) as (vs & -> & VK2). pose proof (val_skip _ _ _ _ _ VC ltac:(discriminate)) as VC2. pose proof (val_skip _ _ _ _ _ VW ltac:(discriminate)) as VW2.
        unfold uniq_arg. rewrite beq_refl. cbn [KeyModel.add_keys] in AK. destruct (make_key v) as [k| |]; try discriminate. cbn [rbind] in *.
        destruct (add_keys vs) as [ks'| |] eqn:AE; try discriminate. cbn [rbind] in AK. injection AK as <-.
        rewrite (IH K2 _ _ _ _ _ _ _ _ _ _ VK2 AE VC2 FC VW2 FW FK AO2 FG). cbn [uc_keys uc_name uc_pos uc_which uc_comp uc_aggs]. rewrite <- app_assoc. reflexivity.
      * destruct (val_take _ _ _ _ VC) as (vs & -> & VC2). pose proof (val_skip _ _ _ _ _ VK ltac:(discriminate)) as VK2. pose proof (val_skip _ _ _ _ _ VW ltac:(discriminate)) as VW2.
        inversion FC as [|? [nm po] ? counts' F1 F2]; subst.
        unfold uniq_arg. change (beq (bs "count") (bs "key")) with false. rewrite beq_refl. cbn iota. rewrite (count_read _ _ F1). cbn [rbind].
        rewrite (IH K2 _ _ _ _ _ _ _ _ _ _ VK2 AK VC2 F2 VW2 FW FK AO2 FG). cbn [uc_keys uc_name uc_pos uc_which uc_comp uc_aggs]. rewrite last_cons2. reflexivity.
      * pose proof (val_skip _ _ _ _ _ VK ltac:(discriminate)) as VK2. pose proof (val_skip _ _ _ _ _ VC ltac:(discriminate)) as VC2.
        destruct (val_take _ _ _ _ VW) as (vs & E & VW2). destruct ps as [|p ps]; [discriminate|]. cbn [map] in E. injection E as <- <-.
        inversion FW as [|? w ? ws' W1 W2]; subst. inversion FK as [|? k ? wks' P1 P2]; subst.
        unfold uniq_arg. change (beq (bs "which") (bs "key")) with false. change (beq (bs "which") (bs "count")) with false. rewrite beq_refl. cbn iota. rewrite (which_option c p w k W1 P1). cbn [rbind].
        rewrite (IH K2 _ _ _ _ _ _ _ _ _ _ VK2 AK VC2 FC VW2 W2 P2 AO2 FG). cbn [uc_keys uc_name uc_pos uc_which uc_comp uc_aggs]. rewrite !last_cons2. reflexivity.
Qed.

(** * Keys *)
Lemma key_texts_ok : forall ws names, Forall (wanted_ok letter alnum [names]) ws ->
  exists ks ks' cs, add_keys (key_texts ws) = Ok ks /\ keys_lookup expr expr_new expr_lookup ks names 0 = Ok ks' /\ as_lines ks' = Some cs /\
    need_split expr ks' = (match ws with [] => false | _ => true end) /\
    forall l r, ll_comp_cols_n exp10 cs l r 0 0 = match ws with [] => c_comp exp10 CPlain (tl_text l) (tl_text r) | _ => first_answer (map (answers exp10 0 0 (tl_cols l) (tl_cols r)) ws) end.
Proof.
  intros ws names F. destruct ws as [|w ws].
  - exists [whole_key], [whole_key], [mklc false TAB (LWhole (CompModel.mkcomp false CPlain))]. split; [reflexivity|]. split; [reflexivity|]. split; [reflexivity|]. split; [reflexivity|].
    intros l r. unfold ll_comp_cols_n. cbn [first_diff]. unfold lc_comp_cols_n, lc_reverse. cbn [lc_rev lc_cmp l_comp_cols]. unfold cp_comp. cbn [cp_cmpr]. destruct (c_comp exp10 CPlain (tl_text l) (tl_text r)); reflexivity.
  - destruct (keys_used uni_alpha uni_alnum expr expr_new expr_lookup expr_eval expr_eval_line expr_none exp10 (fun _ => []) (w :: ws) [names] F) as (ks & ks' & cs & A1 & A2 & A3 & A4 & _ & A5).
    exists ks, ks', cs. split; [exact A1|]. cbn [list_lookups] in A2. destruct (keys_lookup expr expr_new expr_lookup ks names 0) as [k1| |]; try discriminate. cbn [rbind] in A2. injection A2 as <-.
    split; [reflexivity|]. split; [exact A3|]. split.
    + inversion A4 as [|? c ? cs' (cols & ->) _]; subst. destruct k1 as [|k k1]; [discriminate A3|]. cbn [key_lines] in A3. unfold need_split. cbn [existsb].
      destruct k as [rv [m|cl m|t es]]; cbn [k_cmp key_line orb] in *; try reflexivity.
      exfalso. unfold key_line in A3. cbn [k_cmp k_rev] in A3. destruct m; try discriminate A3. destruct (as_lines k1); discriminate A3.
    + intros l r. apply A5; cbn; lia.
Qed.
Lemma pick_ok : forall p names, Forall (wanted_ok letter alnum [names]) (pick_keys p) ->
  exists k k' c, pick_key p k /\ key_lookup expr expr_new expr_lookup k names 0 = Ok k' /\ as_lines [k'] = Some [c] /\
    (Forall (fun w => plain_kind (wk_cmp w)) (pick_keys p) -> orderly_key c) /\
    forall l r, lc_comp_cols_n exp10 c l r 0 0 = match pick_keys p with [] => c_comp exp10 CPlain (tl_text l) (tl_text r) | ws => first_answer (map (answers exp10 0 0 (tl_cols l) (tl_cols r)) ws) end.
Proof.
  intros p names F. unfold pick_keys, pick_key in *. destruct (snd p) as [w|].
  - destruct (keys_used uni_alpha uni_alnum expr expr_new expr_lookup expr_eval expr_eval_line expr_none exp10 (fun _ => []) [w] [names] F) as (ks & ks' & cs & A1 & A2 & A3 & A4 & _ & A5).
    cbn [map KeyModel.add_keys] in A1. destruct (make_key (text_of_key w)) as [k| |]; try discriminate. cbn [rbind] in A1. injection A1 as <-.
    cbn [list_lookups keys_lookup] in A2. destruct (key_lookup expr expr_new expr_lookup k names 0) as [k'| |] eqn:KL; try discriminate. cbn [rbind] in A2. injection A2 as <-.
    pose proof (shape_orderly _ _ A4) as O. inversion A4 as [|? c ? cs' Hs A6]; subst. inversion A6; subst. exists k, k', c. split; [reflexivity|]. split; [exact KL|]. split; [exact A3|].
    split; [intros P; specialize (O P); inversion O; auto|]. intros l r. specialize (A5 0 0 l r ltac:(cbn; lia) ltac:(cbn; lia)). unfold ll_comp_cols_n in A5. cbn [first_diff] in A5. rewrite <- A5.
    destruct (lc_comp_cols_n exp10 c l r 0 0); reflexivity.
  - exists whole_key, whole_key, (mklc false TAB (LWhole (CompModel.mkcomp false CPlain))). split; [reflexivity|]. split; [reflexivity|]. split; [reflexivity|]. split; [intros _; left; reflexivity|].
    intros l r. reflexivity.
Qed.
Lemma picks_ok : forall ps names, Forall (fun p => Forall (wanted_ok letter alnum [names]) (pick_keys p)) ps -> exists ks, Forall2 pick_key ps ks.
Proof.
  intros ps names F. induction F as [|p ps H F (ks & IH)]; [exists []; constructor|]. destruct (pick_ok p names H) as (k & _ & _ & K & _). exists (k :: ks). constructor; auto.
Qed.

(** * Lines *)
Definition seen (split : bool) (md : tmode) (t : textline) (l : bytes) : Prop := tl_line t = l /\ plain_line t /\ (split = true -> t = proc md l).
Lemma lines_seen : forall md t f b, tm_quote md = QPlain -> opened md t f -> sh_lines f <> [] ->
  exists ts, read_rest md (S (turns (do_split (tf_rd t) b))) (do_split (tf_rd t) b) = Ok ts /\ Forall2 (seen b md) ts (sh_lines f).
Proof.
  intros md t f b Q (_ & _ & O) N. destruct (sh_lines f) as [|l rest]; [congruence|].
  assert (M : md_ok md) by (intros X; congruence).
  pose proof (at_line_turns _ _ _ _ M O) as HT. destruct b.
  - rewrite (split_same _ _ _ _ O). exists (map (proc md) (l :: rest)). split; [apply (read_split md rest _ _ l []); auto; lia|].
    clear - Q. generalize (l :: rest). intros ls. assert (PL : forall x, tm_quote md = QPlain -> tl_line (proc md x) = x /\ plain_line (proc md x)) by (intros x E; unfold proc; rewrite E; split; reflexivity).
    induction ls as [|x ls IH]; constructor; auto. split; [|split; [|auto]]; apply PL; auto.
  - destruct (read_raw md Q rest (S (turns (do_split (tf_rd t) false))) (do_split (tf_rd t) false) l (at_line_raw _ _ _ _ _ Q O)) as (ts & R1 & R2).
    + change (turns (do_split (tf_rd t) false)) with (turns (tf_rd t)). lia.
    + exists ts. split; auto. clear - R2. induction R2 as [|t0 l0 ts ls [A B] R IH]; constructor; auto. split; auto. split; auto. discriminate.
Qed.

(** Comparing the lines as read is comparing them as they are. *)
Definition compares_as (d : N) (ws : list wanted) (c : textline -> textline -> comparison) : Prop :=
  forall l r, c l r = match ws with [] => c_comp exp10 CPlain (tl_text l) (tl_text r) | _ => first_answer (map (answers exp10 0 0 (tl_cols l) (tl_cols r)) ws) end.
Lemma seen_order : forall md b ws c x y lx ly, tm_quote md = QPlain -> tm_delim md <> NL -> compares_as (tm_delim md) ws c -> (ws <> [] -> b = true) ->
  seen b md x lx -> seen b md y ly -> whole_line lx -> whole_line ly -> shown_order exp10 (parted (tm_delim md)) ws (tl_line x) (tl_line y) = c x y.
Proof.
  intros md b ws c x y lx ly Q D C B (X1 & X2 & X3) (Y1 & Y2 & Y3) WX WY. rewrite C. unfold shown_order. destruct ws as [|w ws].
  - unfold tl_text. unfold plain_line in *. rewrite X2, Y2. reflexivity.
  - specialize (B ltac:(discriminate)). rewrite (X3 B), (Y3 B). unfold proc. rewrite !process_cols, Q. rewrite !parted_cols by auto. reflexivity.
Qed.
Lemma seen_in : forall b md ts ls t, Forall2 (seen b md) ts ls -> Forall whole_line ls -> In t ts -> exists l, seen b md t l /\ whole_line l.
Proof. intros b md ts ls t F W. induction F as [|t0 l ts ls S F IH]; intros I; [destruct I|]. inversion W; subst. destruct I as [<-|I]; eauto. Qed.
Lemma seen_lines : forall b md ts ls, Forall2 (seen b md) ts ls -> map tl_line ts = ls.
Proof. induction 1 as [|t l ts ls (<- & _) F IH]; [reflexivity|]. cbn. congruence. Qed.

Section Body.
Variables (md : tmode) (b : bool) (ts : list textline) (ls : list bytes) (ws pk : list wanted) (cs : list linecomp) (k : linecomp) (w : which) (pos : count_pos).
Hypothesis Q : tm_quote md = QPlain.
Hypothesis D : tm_delim md <> NL.
Hypothesis F : Forall2 (seen b md) ts ls.
Hypothesis W : Forall whole_line ls.
Hypothesis CW : compares_as (tm_delim md) ws (fun l r => ll_comp_cols_n exp10 cs l r 0 0).
Hypothesis CP : compares_as (tm_delim md) pk (fun l r => lc_comp_cols_n exp10 k l r 0 0).
Hypothesis BW : ws <> [] -> b = true.
Hypothesis BP : pk <> [] -> b = true.
Hypothesis OK : orderly_key k.
Lemma ts_whole : Forall UniqProps.whole_line ts.
Proof.
  apply Forall_forall. intros t I. destruct (seen_in _ _ _ _ _ F W I) as (l & (<- & P & _) & (body & E & _)). split; eauto.
Qed.
Lemma same_alike : forall x y, In x ts -> In y ts -> alike exp10 (tm_delim md) ws (tl_line x) (tl_line y) = UniqProps.same_keys exp10 cs x y.
Proof.
  intros x y Ix Iy. destruct (seen_in _ _ _ _ _ F W Ix) as (lx & Sx & Wx). destruct (seen_in _ _ _ _ _ F W Iy) as (ly & Sy & Wy).
  unfold alike. rewrite (seen_order md b ws _ x y lx ly Q D CW BW Sx Sy Wx Wy). unfold UniqProps.same_keys, ll_equal_cols_n, ll_comp_cols_n. clear.
  induction cs as [|c cs' IH]; [reflexivity|]. cbn [first_diff all_equal]. rewrite cols_equal_eq. destruct (lc_comp_cols_n exp10 c x y 0 0); cbn [is_eq]; auto.
Qed.
Lemma same_order : forall x y, In x ts -> In y ts -> shown_order exp10 (parted (tm_delim md)) pk (tl_line x) (tl_line y) = UniqProps.pick_order exp10 k x y.
Proof.
  intros x y Ix Iy. destruct (seen_in _ _ _ _ _ F W Ix) as (lx & Sx & Wx). destruct (seen_in _ _ _ _ _ F W Iy) as (ly & Sy & Wy).
  apply (seen_order md b pk (fun l r => lc_comp_cols_n exp10 k l r 0 0) x y lx ly Q D CP BP Sx Sy Wx Wy).
Qed.
Lemma body_plain : (tm_delim md < 128)%N ->
  exists rs outs, uniq_lines (UniqProps.same_keys exp10 cs) (UniqProps.pick_order exp10 k) w pos (tm_delim md) ts = outs /\ runs_of (alike exp10 (tm_delim md) ws) ls rs /\
    Forall2 (fun r out => exists body, chosen (shown_order exp10 (parted (tm_delim md)) pk) w r (body ++ [NL]) /\ out = run_text pos (List.length r) body (tm_delim md) ++ [NL]) rs outs.
Proof.
  intros D128. destruct (UniqProps.c23_uniq_partial exp10 cs k w pos (tm_delim md) ts OK ts_whole D128) as (rs & R & U).
  exists (map (map tl_line) rs). eexists. split; [reflexivity|]. split.
  - rewrite <- (seen_lines _ _ _ _ F). apply (runs_map _ _ tl_line (UniqProps.same_keys exp10 cs)); auto. apply same_alike.
  - destruct R as (CC & _). assert (I : Forall (fun r => forall x, In x r -> In x ts) rs) by (apply Forall_forall; intros r Hr x Hx; rewrite <- CC; apply in_concat; eauto).
    clear CC. revert U. generalize (uniq_lines (UniqProps.same_keys exp10 cs) (UniqProps.pick_order exp10 k) w pos (tm_delim md) ts). intros outs U.
    induction U as [|r out rs outs (x & body & C & E & ->) U IH]; [constructor|]. inversion I as [|? ? I1 I2]; subst. cbn [map]. constructor; auto.
    exists body. rewrite <- E, map_length. split; [|reflexivity]. apply (chosen_map _ _ tl_line (UniqProps.pick_order exp10 k)); auto. intros a c Ia Ic. apply same_order; auto.
Qed.
Lemma body_agg : exists rs, runs_of (alike exp10 (tm_delim md) ws) ls (map (map tl_line) rs) /\ Forall (fun r => forall x, In x r -> In x ts) rs /\
  Forall2 (fun r out => snd out = r /\ In (fst out) r /\ chosen (shown_order exp10 (parted (tm_delim md)) pk) w (map tl_line r) (tl_line (fst out))) rs
    (uniq_aggs (UniqProps.same_keys exp10 cs) (UniqProps.pick_order exp10 k) w ts).
Proof.
  destruct (UniqProps.c23_aggregates_partial exp10 cs k w ts OK ts_whole) as (rs & R & U). exists rs. split; [|split].
  - rewrite <- (seen_lines _ _ _ _ F). apply (runs_map _ _ tl_line (UniqProps.same_keys exp10 cs)); auto. apply same_alike.
  - destruct R as (CC & _). apply Forall_forall; intros r Hr x Hx; rewrite <- CC; apply in_concat; eauto.
  - destruct R as (CC & _). assert (I : Forall (fun r => forall x, In x r -> In x ts) rs) by (apply Forall_forall; intros r Hr x Hx; rewrite <- CC; apply in_concat; eauto).
    clear CC. induction U as [|r out rs outs (E & C) U IH]; [constructor|]. inversion I as [|? ? I1 I2]; subst. constructor; auto.
    split; auto. split; [eapply chosen_in; eauto|]. apply (chosen_map _ _ tl_line (UniqProps.pick_order exp10 k)); auto. intros a c Ia Ic. apply same_order; auto.
Qed.
End Body.

(** * The start of the tool *)
Lemma main_start : forall md cdx ot args s f ws cts counts ps kinds qs gs, uniq_known args ->
  values (bs "key") args (key_texts ws) -> Forall (wanted_ok letter alnum [sh_names f]) ws ->
  values (bs "count") args cts -> Forall2 count_says cts counts ->
  values (bs "which") args (map pick_text ps) -> Forall2 pick_means ps kinds -> Forall (fun p => Forall (wanted_ok letter alnum [sh_names f]) (pick_keys p)) ps ->
  agg_options AggProps.colref_text args qs -> Forall2 req_ok qs gs ->
  tm_quote md = QPlain -> PasteProofs.shows utf8_ok md s f -> sh_head f <> [] \/ sh_lines f <> [] ->
  let nc := last counts ([], CNone) in
  let pk := pick_keys (last ps ([], None)) in
  let b := match ws with [] => false | _ => true end in
  exists c cs k ts, uc_name expr c = fst nc /\ uc_pos expr c = snd nc /\ uc_which expr c = last kinds First /\ uc_aggs expr c = map (fun qg => la_of (fst qg) (snd qg)) (combine qs gs) /\
    compares_as (tm_delim md) ws (fun l r => ll_comp_cols_n exp10 cs l r 0 0) /\ compares_as (tm_delim md) pk (fun l r => lc_comp_cols_n exp10 k l r 0 0) /\
    (Forall (fun w => plain_kind (wk_cmp w)) pk -> orderly_key k) /\ Forall2 (seen b md) ts (sh_lines f) /\
    uniq_main md cdx ot args s =
    need (agg_columns uni_alpha uni_alnum expr comp_make agg_expr c (sh_names f)) (fun '(v, os) =>
    need (match sh_head f with [] => Ok [] | _ => rbind (out_names expr c v os (sh_names f)) (uniq_head uni_alpha uni_alnum cdx ot) end) (fun hd =>
    say hd (match sh_lines f with [] => ([], Ok tt) | _ => uniq_body expr exp10 decode is_space is_alnum print_num md ot c v os cs k ts end))).
Proof.
  intros md cdx ot args s f ws cts counts ps kinds qs gs K VK WK VC FC VW FW WP AO FG Q SH NE nc pk b.
  destruct (key_texts_ok ws (sh_names f) WK) as (ks & ks' & cs & A1 & A2 & A3 & A4 & A5). destruct (picks_ok ps _ WP) as (wks & FK).
  assert (LP : exists k k' c, pick_key (last ps ([], None)) k /\ last wks whole_key = k /\ key_lookup expr expr_new expr_lookup k (sh_names f) 0 = Ok k' /\ as_lines [k'] = Some [c] /\
    (Forall (fun w => plain_kind (wk_cmp w)) pk -> orderly_key c) /\ compares_as (tm_delim md) pk (fun l r => lc_comp_cols_n exp10 c l r 0 0)).
  { assert (WL : Forall (wanted_ok letter alnum [sh_names f]) pk).
    { unfold pk. clear - WP. induction ps as [|p ps IH]; [constructor|]. inversion WP; subst. rewrite last_cons2. destruct ps as [|p2 ps]; [auto|]. rewrite last_cons2 in *. apply IH; auto. }
    destruct (pick_ok (last ps ([], None)) (sh_names f) WL) as (k & k' & c & B1 & B2 & B3 & B4 & B5). exists k, k', c. split; auto. split; [|split; [exact B2|split; [exact B3|split; [exact B4|intros l r; cbv beta; rewrite B5; unfold pk; destruct (pick_keys _); reflexivity]]]].
    assert (PK : pick_key (last ps ([], None)) (last wks whole_key)).
    { clear - FK. assert (P0 : pick_key ([], None) whole_key) by reflexivity. revert P0. generalize (([], None) : pick) as p0, whole_key as k0.
      induction FK as [|p k ps ks P FK IH]; intros p0 k0 P0; [exact P0|]. rewrite !last_cons2. apply IH. auto. }
    unfold pick_key in PK, B1. congruence. }
  destruct LP as (k & k' & c1 & B1 & B2 & B3 & B4 & B5 & B6). destruct (open_some _ _ _ _ SH NE) as (t & O1 & O2 & O3).
  pose proof (options_read args K _ ks cts counts ps kinds wks qs gs (uconf_new expr) VK A1 VC FC VW FW FK AO FG) as OR. cbv zeta in OR.
  cbn [uconf_new uc_keys uc_name uc_pos uc_which uc_comp uc_aggs app] in OR. rewrite B2 in OR. fold nc in OR.
  set (c := mkuc expr ks (fst nc) (snd nc) (last kinds First) k (map (fun qg : req * agg => la_of (fst qg) (snd qg)) (combine qs gs))) in *.
  assert (LS : exists ts, Forall2 (seen b md) ts (sh_lines f) /\ (sh_lines f <> [] -> read_rest md (S (turns (do_split (tf_rd t) b))) (do_split (tf_rd t) b) = Ok ts)).
  { destruct (sh_lines f) as [|l rest] eqn:EL; [exists []; split; [constructor|congruence]|]. assert (NL' : sh_lines f <> []) by (rewrite EL; discriminate).
    destruct (lines_seen md t f b Q O3 NL') as (ts & R1 & R2). exists ts. rewrite EL in R2. auto. }
  destruct LS as (ts & S1 & S2). exists c, cs, c1, ts. split; [reflexivity|]. split; [reflexivity|]. split; [reflexivity|]. split; [reflexivity|]. split; [exact A5|]. split; [exact B6|]. split; [exact B5|]. split; [exact S1|].
  unfold UniqMain.uniq_main. unfold need at 1. rewrite OR. unfold need at 1. rewrite O1, O2. destruct O3 as (O4 & O5 & O6). rewrite O5.
  unfold need at 1. change (uc_keys expr c) with ks. rewrite A2. unfold need at 1. change (uc_comp expr c) with k. rewrite B3. cbn iota.
  rewrite A3, B4. cbn iota. rewrite A4. fold b. rewrite O4.
  destruct (agg_columns uni_alpha uni_alnum expr comp_make agg_expr c (sh_names f)) as [[v os]| |]; [|reflexivity|reflexivity]. unfold need at 1. unfold need at 3.
  assert (EH : (match match sh_head f with [] => None | h => Some h end with Some _ => rbind (out_names expr c v os (sh_names f)) (uniq_head uni_alpha uni_alnum cdx ot) | None => Ok [] end) =
    match sh_head f with [] => Ok [] | _ => rbind (out_names expr c v os (sh_names f)) (uniq_head uni_alpha uni_alnum cdx ot) end) by (destruct (sh_head f); reflexivity).
  rewrite EH. destruct (match sh_head f with [] => Ok [] | _ => rbind (out_names expr c v os (sh_names f)) (uniq_head uni_alpha uni_alnum cdx ot) end) as [hd| |]; [|reflexivity|reflexivity].
  unfold need at 1. unfold need at 2. f_equal. destruct (sh_lines f) as [|l rest]; [rewrite O6; reflexivity|]. replace (r_done (tf_rd t)) with false by (symmetry; apply O6). unfold need at 1. rewrite S2 by discriminate. reflexivity.
Qed.
End Tool.
