(** C77: the uniq tool. *)
From Coq Require Import String List NArith ZArith Bool Arith Lia.
Open Scope list_scope.
Import ListNotations.
From Verif Require Import Base TextSpec TextModel TextProofs StrSpec StrModel FloatModel ReadSpec ReadModel ReadProofs HdrSpec HdrModel HdrProofs MatchModel MatchSpec MatchText CompModel CompSpec OrdProofs LineSpec LineProofs
  ColModel AggModel AggRow SortSpec KeySpec KeyModel KeyProofs KeyProps ToolModel ToolOpen TurnProofs PasteSpec PasteProofs NumbProofs OrderSpec OrderProofs OrderTool
  UniqModel UniqSpec UniqMain UniqMainSpec UniqMainProofs UniqMainTool.
From Verif Require AggProps UniqProps UniqProofs OrderProps NumbProps LocProofs JoinMain JoinMainProps.
Close Scope Z_scope. Open Scope nat_scope.

(** Without aggregates: the header with the name of the count, and one line for every maximal run of adjacent lines with the same keys, the one
    --which asks for, with the length of the run where --count wants it. *)
Theorem c77_uniq : forall utf8_ok uni_alpha uni_alnum expr expr_new expr_lookup expr_eval expr_eval_line expr_none exp10 decode is_space is_alnum comp_make agg_expr print_num
    md cdx ot args s f ws cts counts ps kinds,
  Forall (fun a => In (fst a) [bs "key"; bs "count"; bs "which"]) args ->
  values (bs "key") args (key_texts ws) -> Forall (wanted_ok (alphabetic uni_alpha) (alphanumeric uni_alnum) [sh_names f]) ws ->
  values (bs "count") args cts -> Forall2 count_says cts counts ->
  values (bs "which") args (map pick_text ps) -> Forall2 pick_means ps kinds ->
  Forall (fun p => Forall (wanted_ok (alphabetic uni_alpha) (alphanumeric uni_alnum) [sh_names f]) (pick_keys p)) ps ->
  tm_quote md = QPlain -> tm_break md = NL -> tm_delim md <> NL -> (tm_delim md < 128)%N ->
  PasteProofs.shows utf8_ok md s f -> sh_head f <> [] \/ sh_lines f <> [] ->
  let c := last counts ([], CNone) in
  let pk := pick_keys (last ps ([], None)) in
  Forall (fun w => plain_kind (wk_cmp w)) pk -> (pk <> [] -> ws <> []) ->
  (sh_head f <> [] -> counted_names c (sh_names f) <> [] /\ proper uni_alpha uni_alnum (counted_names c (sh_names f))) ->
  exists rs outs,
    uniq_main utf8_ok uni_alpha uni_alnum expr expr_new expr_lookup expr_eval expr_eval_line expr_none exp10 decode is_space is_alnum comp_make agg_expr print_num md cdx ot args s =
      (match sh_head f with [] => [] | _ => head_line cdx (ColModel.tm_delim ot) (counted_names c (sh_names f)) end ++ concat outs, Ok tt) /\
    runs_of (alike exp10 (tm_delim md) ws) (sh_lines f) rs /\
    Forall2 (fun r out => exists body, chosen (shown_order exp10 (parted (tm_delim md)) pk) (last kinds First) r (body ++ [NL]) /\
                                       out = run_text (snd c) (List.length r) body (tm_delim md) ++ [NL]) rs outs.
Proof. exact uniqs. Qed.

(** With aggregates: one row for every run, of the new columns in front, the columns of the line --which asks for with aggregates in place of some,
    and the new columns behind; every aggregate is over exactly the lines of the run. The count is one of the new columns. *)
Theorem c77_aggregates : forall utf8_ok uni_alpha uni_alnum expr expr_new expr_lookup expr_eval expr_eval_line expr_none exp10 decode is_space is_alnum comp_make agg_expr print_num
    md cdx ot args s f ws cts counts ps kinds qs gs, uniq_known args ->
  values (bs "key") args (key_texts ws) -> Forall (wanted_ok (alphabetic uni_alpha) (alphanumeric uni_alnum) [sh_names f]) ws -> ws <> [] ->
  values (bs "count") args cts -> Forall2 count_says cts counts ->
  values (bs "which") args (map pick_text ps) -> Forall2 pick_means ps kinds ->
  Forall (fun p => Forall (wanted_ok (alphabetic uni_alpha) (alphanumeric uni_alnum) [sh_names f]) (pick_keys p)) ps ->
  agg_options AggProps.colref_text args qs -> Forall2 (req_ok uni_alpha uni_alnum comp_make) qs gs -> qs <> [] ->
  Forall (fun q => AggProps.refers (sh_names f) (rq_col q) (N.of_nat (rq_at q))) qs ->
  tm_quote md = QPlain -> tm_break md = NL -> tm_delim md <> NL ->
  ColModel.tm_quote ot = QPlain -> ColModel.tm_delim ot = tm_delim md -> ColModel.tm_break ot = NL ->
  PasteProofs.shows utf8_ok md s f -> sh_head f <> [] \/ sh_lines f <> [] ->
  Forall (fun x => x <> []) (sh_names f) -> sh_names f <> [] -> proper uni_alpha uni_alnum (sh_names f) ->
  Forall (fun l => List.length (sh_names f) <= List.length (parted (tm_delim md) l)) (sh_lines f) ->
  let c := last counts ([], CNone) in
  let pk := pick_keys (last ps ([], None)) in
  let all := counted_reqs (AggProps.ByNum 1) c qs in
  Forall (fun w => plain_kind (wk_cmp w)) pk ->
  (sh_head f <> [] -> proper uni_alpha uni_alnum (row_names all (sh_names f))) ->
  exists rs outs,
    uniq_main utf8_ok uni_alpha uni_alnum expr expr_new expr_lookup expr_eval expr_eval_line expr_none exp10 decode is_space is_alnum comp_make agg_expr print_num md cdx ot args s =
      (match sh_head f with [] => [] | _ => head_line cdx (tm_delim md) (row_names all (sh_names f)) end ++ concat outs, Ok tt) /\
    runs_of (alike exp10 (tm_delim md) ws) (sh_lines f) rs /\
    Forall2 (fun r out => exists x, chosen (shown_order exp10 (parted (tm_delim md)) pk) (last kinds First) r x /\
                                    agg_row (agg_val exp10 decode is_space is_alnum comp_make print_num (tm_delim md)) (tm_delim md) (tm_delim md) (List.length (sh_names f)) all r x out) rs outs.
Proof. exact sums. Qed.

(** Doing it again changes nothing. *)
Lemma reps_apart : forall {A} (e : A -> A -> bool) rs xs, (forall a b, e a b = e b a) -> (forall a b c, e a b = true -> e b c = true -> e a c = true) ->
  Forall2 (fun r x => In x r /\ chain e r) rs xs -> apart e rs -> runs_of e xs (map (fun x => [x]) xs).
Proof.
  intros A e rs xs SY TR F AP.
  assert (ALL : forall r, chain e r -> forall a b, In a r -> In b r -> a = b \/ e a b = true).
  { induction r as [|x r IH]; intros C a b Ia Ib; [destruct Ia|]. assert (H : forall y, In y r -> e x y = true).
    { destruct r as [|z r]; [intros y []|]. destruct C as [E C]. intros y Iy. destruct (IH C z y (or_introl eq_refl) Iy) as [->|Y]; auto. eapply TR; eauto. }
    assert (C' : chain e r) by (destruct r; [exact I|apply C]).
    destruct Ia as [<-|Ia], Ib as [<-|Ib]; auto. right. rewrite SY. auto. }
  split; [|split].
  - clear - F. revert rs F. induction xs as [|x xs IH]; intros rs F; [reflexivity|]. inversion F; subst. cbn [map concat app]. f_equal. eauto.
  - clear. induction xs as [|x xs IH]; cbn [map]; constructor; auto. split; [discriminate|exact I].
  - induction F as [|r x rs xs (I1 & C1) F IH]; [exact I|]. destruct F as [|s y rs xs (I2 & C2) F]; [exact I|]. destruct AP as [(p & a & b & q & -> & -> & N) AP].
    cbn [map]. split; [|apply IH; exact AP]. exists [], x, y, []. split; [reflexivity|]. split; [reflexivity|]. destruct (e x y) eqn:E; auto.
    assert (X : e a b = true); [|congruence]. assert (EA : a = x \/ e a x = true) by (apply (ALL _ C1); [apply in_or_app; right; left; auto|auto]). assert (EB : y = b \/ e y b = true) by (apply (ALL _ C2); [auto|left; auto]).
    assert (EX : e a y = true) by (destruct EA as [->|EA]; eauto). destruct EB as [<-|EB]; eauto.
Qed.

Lemma alike_eq : forall exp10 d ws, Forall (fun w => plain_kind (wk_cmp w)) ws ->
  (forall a b, alike exp10 d ws a b = alike exp10 d ws b a) /\ (forall a b c, alike exp10 d ws a b = true -> alike exp10 d ws b c = true -> alike exp10 d ws a c = true).
Proof.
  intros exp10 d ws P. destruct (shown_order_pre exp10 (parted d) ws P) as (R & S & T). unfold alike. split.
  - intros a b. rewrite (S a b). destruct (shown_order exp10 (parted d) ws a b); reflexivity.
  - intros a b c. pose proof (T a b c) as T1. pose proof (T c b a) as T2. pose proof (S a b) as S1. pose proof (S b c) as S2. pose proof (S a c) as S3.
    destruct (shown_order exp10 (parted d) ws a b); try discriminate. destruct (shown_order exp10 (parted d) ws b c); try discriminate. rewrite S1, S2, S3 in T2. cbn [CompOpp] in *.
    destruct (shown_order exp10 (parted d) ws a c); cbn [CompOpp] in *; auto; exfalso; [apply T2|apply T1]; congruence.
Qed.
(** On the output of a first run, with a header line and keys of ordinary kinds. *)
Theorem c77_again : forall utf8_ok name_ok uni_alpha uni_alnum expr expr_new expr_lookup expr_eval expr_eval_line expr_none exp10 decode is_space is_alnum comp_make agg_expr print_num
    ot args names ls s s2 out ws ps kinds,
  Forall (fun a => In (fst a) [bs "key"; bs "which"]) args ->
  values (bs "key") args (key_texts ws) -> Forall (wanted_ok (alphabetic uni_alpha) (alphanumeric uni_alnum) [names]) ws -> Forall (fun w => plain_kind (wk_cmp w)) ws ->
  values (bs "which") args (map pick_text ps) -> Forall2 pick_means ps kinds ->
  Forall (fun p => Forall (wanted_ok (alphabetic uni_alpha) (alphanumeric uni_alnum) [names]) (pick_keys p)) ps ->
  let pk := pick_keys (last ps ([], None)) in
  Forall (fun w => plain_kind (wk_cmp w)) pk -> (pk <> [] -> ws <> []) -> ColModel.tm_delim ot = TAB ->
  names_fit utf8_ok name_ok names -> utf8_ok (headline names) = true -> proper uni_alpha uni_alnum names -> Forall whole_line ls ->
  wf_src s -> content s = headline names ++ concat ls -> 4 <= List.length (fst (fill_buf s)) ->
  wf_src s2 -> content s2 = out -> 4 <= List.length (fst (fill_buf s2)) ->
  let uniq := uniq_main utf8_ok uni_alpha uni_alnum expr expr_new expr_lookup expr_eval expr_eval_line expr_none exp10 decode is_space is_alnum comp_make agg_expr print_num JoinMain.join_mode true ot args in
  uniq s = (out, Ok tt) -> uniq s2 = (out, Ok tt).
Proof.
  intros u no ua un ex en el ee eel eno e10 de isp ial cm ae pn ot args names ls s s2 out ws ps kinds K VK WK PK VW FW WP pk PKK PW OD NF HU NP WL W1 C1 H1 W2 C2 H2 uniq E.
  assert (NN : names <> []) by apply NF.
  assert (K' : Forall (fun a => In (fst a) [bs "key"; bs "count"; bs "which"]) args) by (eapply Forall_impl; [|exact K]; cbn; tauto).
  assert (VC : values (bs "count") args []).
  { clear - K. induction K as [|[m v] args H K IH]; constructor; auto. cbn [fst In] in H. destruct H as [<-|[<-|[]]]; discriminate. }
  assert (GO : forall ls s, Forall whole_line ls -> wf_src s -> content s = headline names ++ concat ls -> 4 <= List.length (fst (fill_buf s)) ->
    exists rs xs, uniq s = (headline names ++ concat xs, Ok tt) /\ runs_of (alike e10 TAB ws) ls rs /\ Forall2 (fun r x => chosen (shown_order e10 (parted TAB) pk) (last kinds First) r x) rs xs /\ Forall whole_line xs).
  { clear ls s W1 C1 H1 WL E. intros ls s WL W1 C1 H1. pose proof (JoinMainProps.c76_headed u no names s ls NF HU W1 C1 WL H1) as SH.
    destruct (c77_uniq u ua un ex en el ee eel eno e10 de isp ial cm ae pn JoinMain.join_mode true ot args s (mkshown (headline names) names ls) ws [] [] ps kinds
      K' VK WK VC (Forall2_nil _) VW FW WP eq_refl eq_refl ltac:(discriminate) ltac:(reflexivity) SH ltac:(left; discriminate) PKK PW (fun _ => conj NN NP)) as (rs & outs & U1 & U2 & U3).
    exists rs, outs. split; [|split; [exact U2|]].
    - fold uniq in U1. rewrite U1. cbn [sh_head last fst snd sh_names counted_names]. change (JoinMain.join_mode) with JoinMain.join_mode. f_equal. f_equal. unfold headline, head_line. rewrite OD. reflexivity.
    - cbn [sh_lines last snd run_text] in U2, U3. destruct U2 as (CC & _). clear - U3 CC WL. assert (I : Forall (fun r => Forall whole_line r) rs).
      { apply Forall_forall. intros r Ir. apply Forall_forall. intros x Ix. apply (proj1 (Forall_forall _ _) WL). rewrite <- CC. apply in_concat. eauto. }
      clear CC WL. induction U3 as [|r o rs outs (b & X & ->) U3 IH]; [split; constructor|]. inversion I as [|? ? I1 I2]; subst. destruct (IH I2) as [A B]. split; constructor; auto.
      destruct X as (p & q & -> & _). apply Forall_app in I1 as [_ I1]. inversion I1; auto. }
  destruct (GO ls s WL W1 C1 H1) as (rs & xs & G1 & G2 & G3 & G4). rewrite E in G1. apply (f_equal fst) in G1; cbn [fst] in G1. rewrite <- C2 in G1. rename G1 into C2'.
  destruct (GO xs s2 G4 W2 ltac:(congruence) H2) as (rs2 & xs2 & G5 & G6 & G7 & _). rewrite G5, <- C2, C2'.
  destruct (alike_eq e10 TAB ws PK) as [SY TR]. destruct G2 as (_ & CH & AP).
  assert (R2 : runs_of (alike e10 TAB ws) xs (map (fun x => [x]) xs)).
  { apply (reps_apart (alike e10 TAB ws) rs xs SY TR); auto. clear - G3 CH. induction G3 as [|r x rs xs X G3 IH]; [constructor|]. inversion CH as [|? ? (_ & C) CH']; subst. constructor; auto. split; [|exact C].
    destruct X as (p & q & -> & _). apply in_or_app. right. left. auto. }
  assert (Q : rs2 = map (fun x => [x]) xs) by (eapply UniqProofs.runs_unique; eauto). subst rs2.
  assert (xs2 = xs); [|congruence]. clear - G7. revert xs2 G7. induction xs as [|x xs IH]; intros xs2 F; inversion F as [|? ? ? ? X F']; subst; [reflexivity|]. f_equal; [|apply IH; auto].
  destruct X as (p & q & X & _). destruct p as [|z p]; [injection X as -> _; reflexivity|]. destruct p; discriminate X.
Qed.

(** Nothing is written for an empty file; words that are not understood are refused, whatever the file. *)
Theorem c77_empty : forall utf8_ok uni_alpha uni_alnum expr expr_new expr_lookup expr_eval expr_eval_line expr_none exp10 decode is_space is_alnum comp_make agg_expr print_num
    md cdx ot args s out r, wf_src s -> content s = [] ->
  uniq_main utf8_ok uni_alpha uni_alnum expr expr_new expr_lookup expr_eval expr_eval_line expr_none exp10 decode is_space is_alnum comp_make agg_expr print_num md cdx ot args s = (out, r) -> out = [].
Proof.
  intros u ua un ex en el ee eel eno e10 de isp ial cm ae pn md cdx ot args s out r W C. destruct (LocProofs.open_nothing u md s W C) as (f & O1 & O2).
  unfold uniq_main. destruct (uniq_args _ _ _ _ _ _ _ args) as [c| |]; unfold need; rewrite ?O1, ?O2; congruence.
Qed.

Definition not_understood (a : bytes * bytes) : Prop := exists n w v, snd a = n ++ v /\ ~ In 44%N n /\ (v = [] \/ exists t, v = 44%N :: t) /\
  ((fst a = bs "which" /\ w = n /\ ~ exists k, In k pick_words /\ same_but_case w (fst k)) \/ (fst a = bs "count" /\ v = 44%N :: w /\ forall p, ~ place_means w p)).
Theorem c77_words : forall utf8_ok uni_alpha uni_alnum expr expr_new expr_lookup expr_eval expr_eval_line expr_none exp10 decode is_space is_alnum comp_make agg_expr print_num
    md cdx ot args s a, In a args -> not_understood a ->
  exists r, uniq_main utf8_ok uni_alpha uni_alnum expr expr_new expr_lookup expr_eval expr_eval_line expr_none exp10 decode is_space is_alnum comp_make agg_expr print_num md cdx ot args s = ([], r) /\ r <> Ok tt.
Proof.
  intros u ua un ex en el ee eel eno e10 de isp ial cm ae pn md cdx ot args s a I U.
  assert (ARG : forall c, uniq_arg ua un ex en cm ae c a = Err).
  { intros c. destruct a as [m val]. destruct U as (n & w & v & E & N & V & [(M & -> & K)|(M & -> & K)]); cbn [fst snd] in E, M; subst m val.
    - unfold uniq_arg. cbn [beq]. change (beq (bs "which") (bs "key")) with false. change (beq (bs "which") (bs "count")) with false. change (beq (bs "which") (bs "which")) with true. cbn iota.
      unfold get_which. assert (RW : read_which n = Err).
      { unfold read_which. repeat match goal with |- context [same_word n ?x] => let Q := fresh in destruct (same_word n x) eqn:Q; [exfalso; apply K; apply same_word_iff in Q|] end; [| | | |reflexivity].
        all: match goal with Q : same_but_case _ ?x |- _ => refine (ex_intro _ (x, _) (conj _ Q)) end; cbn; eauto 10. }
      destruct V as [->|(t & ->)]; [rewrite app_nil_r, split_once_none by auto|rewrite split_once_app by auto]; rewrite RW; reflexivity.
    - unfold uniq_arg. change (beq (bs "count") (bs "key")) with false. change (beq (bs "count") (bs "count")) with true. cbn iota. unfold read_count. rewrite split_once_app by auto.
      assert (NO : forall l p, (forall x, In x l -> In (x, p) place_words) -> one_of w l = false).
      { intros l p H. unfold one_of. destruct (existsb (same_word w) l) eqn:Q; auto. apply existsb_exists in Q as (x & Ix & Q). apply same_word_iff in Q. exfalso. apply (K p). right. exists x. auto. }
      destruct w as [|w0 w]; [exfalso; apply (K CBegin); left; auto|]. rewrite (NO _ CBegin), (NO _ CEnd); [reflexivity| |]; cbn; intuition (subst; auto 10). }
  assert (AS : forall c c', uniq_args ua un ex en cm ae c args <> Ok c').
  { induction args as [|b args IH]; [destruct I|]. intros c c'. cbn [uniq_args]. destruct I as [->|I]; [rewrite ARG; discriminate|]. destruct (uniq_arg ua un ex en cm ae c b) as [c1| |]; cbn [rbind]; try discriminate. apply IH. exact I. }
  unfold uniq_main. destruct (uniq_args ua un ex en cm ae (uconf_new ex) args) as [c| |] eqn:E; [exfalso; eapply AS; exact E| |]; unfold need; eexists; split; try reflexivity; discriminate.
Qed.

(** For the examples: no expressions, every text valid, whole numbers printed. *)
Definition ex_show (x : f64) : bytes :=
  match x with SpecFloat.S754_finite s m e => print_Z (let z := Z.shiftl (Zpos m) e in if s then Z.opp z else z) | SpecFloat.S754_zero _ => bs "0" | _ => bs "?" end.
Definition ex_uniq (md : tmode) (args : list (bytes * bytes)) (s : src) : tool :=
  uniq_main OrderProps.yes none none unit no_expr no_find no_eval no_eval_line f_zero exp_ex (fun b => b) AggProps.ex_space byte_alnum AggProps.ex_comp (fun _ => Err) ex_show md true NumbProps.ex_ot args s.
Definition jm := JoinMain.join_mode.
Notation ln2 := JoinMainProps.ln2.
Notation ln3 := JoinMainProps.ln3.
Notation nm := JoinMainProps.nm0.
Definition bees : list bytes := [ln2 "7" "ant"; ln2 "2" "bee"; ln2 "1" "bee"; ln2 "5" "bee"; ln2 "1" "cow"].
Definition bee_src : src := mksrc [] [headline nm; concat bees].
Definition by_animal : wanted := mkw_key [ByName (bs "animal")] JustCols [] CPlain false (fun _ => 1%N).
Definition by_id : wanted := mkw_key [ByName (bs "id")] JustCols [] CPlain false (fun _ => 0%N).
Lemma by_ok : wanted_ok (alphabetic none) (alphanumeric none) [nm] by_animal /\ wanted_ok (alphabetic none) (alphanumeric none) [nm] by_id.
Proof.
  split; (repeat split; cbn [wk_cols wk_tail wk_kind wk_cmp wk_rev wk_pos]; try discriminate;
  [repeat constructor; try discriminate|right; split; auto; constructor|right; cbn; auto|intros (w & [] & _)|
   intros f ns E; destruct f as [|f]; [|destruct f; discriminate E]; injection E as <-; split; [reflexivity|]; intros [|j] L; [try discriminate; cbn in L; lia|cbn in L; lia]]).
Qed.
Lemma bees_whole : Forall whole_line bees.
Proof. assert (F : lines_fit 20 bees) by (apply OrderProps.fit_dec; reflexivity). eapply Forall_impl; [|exact F]. cbn. tauto. Qed.
Lemma bee_shows : PasteProofs.shows OrderProps.yes jm bee_src (mkshown (headline nm) nm bees).
Proof.
  apply (JoinMainProps.c76_headed OrderProps.yes OrderProps.yes);
    try (split; [discriminate|]; split; [reflexivity|]; repeat constructor; try discriminate; vm_compute; intuition discriminate); try reflexivity; try apply bees_whole; try (cbn; lia);
    unfold wf_src; cbn; repeat constructor; discriminate.
Qed.
Lemma nm_proper : proper none none nm.
Proof. split; [repeat constructor|]. repeat constructor; cbn; intuition discriminate. Qed.
Definition bee_args : list (bytes * bytes) := [(bs "count", bs "many"); (bs "key", bs "animal"); (bs "which", bs "last"); (bs "count", bs "N,End"); (bs "which", bs "MIN,id")].
Definition min_id : pick := (bs "MIN", Some by_id).
Ltac vals := repeat (first [apply val_nil | apply val_this | apply val_other; [discriminate|]]).
Example c77_uniq_ex : values (bs "key") bee_args (key_texts [by_animal]) /\ values (bs "which") bee_args (map pick_text [(bs "last", None); min_id]) /\
  values (bs "count") bee_args [bs "many"; bs "N,End"] /\ Forall2 count_says [bs "many"; bs "N,End"] [(bs "many", CBegin); (bs "N", CEnd)] /\
  Forall2 pick_means [(bs "last", None); min_id] [Last; Min] /\ wanted_ok (alphabetic none) (alphanumeric none) [nm] by_animal /\ wanted_ok (alphabetic none) (alphanumeric none) [nm] by_id /\
  PasteProofs.shows OrderProps.yes jm bee_src (mkshown (headline nm) nm bees) /\
  ex_uniq jm bee_args bee_src = (headline (nm ++ [bs "N"]) ++ ln3 "7" "ant" "1" ++ ln3 "1" "bee" "3" ++ ln3 "1" "cow" "1", Ok tt).
Proof.
  split; [vals|]. split; [vals|]. split; [vals|]. split.
  { constructor; [apply says_name; cbn; intuition discriminate|]. constructor; [|constructor]. apply (says_place (bs "N") (bs "End") CEnd); [cbn; intuition discriminate|].
    right. exists (bs "end"). split; [cbn; auto 10|]. repeat constructor. }
  split. { repeat (constructor; [split; [cbn; intuition discriminate|]|]); [exists (bs "last")|exists (bs "min")|constructor]; (split; [cbn; auto 10|]); repeat constructor. }
  split; [apply by_ok|]. split; [apply by_ok|]. split; [exact bee_shows|vm_compute; reflexivity].
Qed.
Definition agg_args : list (bytes * bytes) := [(bs "agg-pre", bs "total,1,sum"); (bs "key", bs "animal"); (bs "agg", bs "id,max"); (bs "count", bs "N,end"); (bs "which", bs "last")].
Definition agg_reqs : list (aggreq AggProps.colref) := [mkreq (Prefix (bs "total")) (AggProps.ByNum 1) (bs "sum") 0; mkreq Replace (AggProps.ByName (bs "id")) (bs "max") 0].
Example c77_aggregates_ex : uniq_known agg_args /\ agg_options AggProps.colref_text agg_args agg_reqs /\
  Forall (fun q => AggProps.colref_ok none none (rq_col q) /\ exists g, agg_make AggProps.ex_comp (rq_agg q) = Ok g) agg_reqs /\
  Forall (fun q => AggProps.refers nm (rq_col q) (N.of_nat (rq_at q))) agg_reqs /\ proper none none nm /\
  row_names (counted_reqs (AggProps.ByNum 1) (bs "N", CEnd) agg_reqs) nm = [bs "total"; bs "id"; bs "animal"; bs "N"] /\
  Forall (fun l => List.length nm <= List.length (parted TAB l)) bees /\
  ex_uniq jm agg_args bee_src = (headline [bs "total"; bs "id"; bs "animal"; bs "N"] ++ (bs "7" ++ TAB :: ln3 "7" "ant" "1") ++ (bs "8" ++ TAB :: ln3 "5" "bee" "3") ++ (bs "1" ++ TAB :: ln3 "1" "cow" "1"), Ok tt).
Proof.
  split; [repeat (constructor; [cbn; auto 10|]); constructor|].
  split; [apply (ao_this AggProps.colref_text (mkreq (Prefix (bs "total")) (AggProps.ByNum 1) (bs "sum") 0)); apply ao_other; [cbn; intuition discriminate|]; apply (ao_this AggProps.colref_text (mkreq Replace (AggProps.ByName (bs "id")) (bs "max") 0)); repeat (apply ao_other; [cbn; intuition discriminate|]); constructor|].
  split. { constructor; [split; [cbn; lia|eexists; reflexivity]|]. constructor; [|constructor]. split; [cbn; repeat split; try discriminate; repeat constructor|eexists; reflexivity]. }
  split. { constructor; [reflexivity|]. constructor; [|constructor]. split; [reflexivity|]. intros j H. cbn in H. lia. }
  split; [exact nm_proper|]. split; [reflexivity|]. split; [repeat constructor|vm_compute; reflexivity].
Qed.
Example c77_again_ex : forall out, out = headline nm ++ ln2 "7" "ant" ++ ln2 "1" "bee" ++ ln2 "1" "cow" ->
  names_fit OrderProps.yes OrderProps.yes nm /\ ex_uniq jm [(bs "key", bs "animal"); (bs "which", bs "MIN,id")] bee_src = (out, Ok tt) /\
  ex_uniq jm [(bs "key", bs "animal"); (bs "which", bs "MIN,id")] (mksrc [] [firstn 9 out; skipn 9 out]) = (out, Ok tt).
Proof.
  intros out ->. split; [split; [discriminate|]; split; [reflexivity|]; repeat constructor; try discriminate; vm_compute; intuition discriminate|]. split; vm_compute; reflexivity.
Qed.
Example c77_empty_ex : wf_src (mksrc [] []) /\ ex_uniq jm bee_args (mksrc [] []) = ([], Ok tt).
Proof. split; [constructor|vm_compute; reflexivity]. Qed.
Example c77_words_ex : not_understood (bs "which", bs "least,id") /\ not_understood (bs "count", bs "n,middle") /\
  ex_uniq jm [(bs "key", bs "1"); (bs "which", bs "least,id")] bee_src = ([], Err) /\ ex_uniq jm [(bs "count", bs "n,middle")] bee_src = ([], Err).
Proof.
  split; [|split; [|split; vm_compute; reflexivity]].
  - exists (bs "least"), (bs "least"), (bs ",id"). split; [reflexivity|]. split; [cbn; intuition discriminate|]. split; [right; exists (bs "id"); reflexivity|]. left. split; [reflexivity|]. split; [reflexivity|].
    intros (k & I & Q). apply same_word_iff in Q. cbn in I. destruct I as [<-|[<-|[<-|[<-|[]]]]]; discriminate Q.
  - exists (bs "n"), (bs "middle"), (bs ",middle"). split; [reflexivity|]. split; [cbn; intuition discriminate|]. split; [right; exists (bs "middle"); reflexivity|]. right. split; [reflexivity|]. split; [reflexivity|].
    intros p [[H _]|(n & I & Q)]; [discriminate H|]. apply same_word_iff in Q. cbn in I. repeat (destruct I as [I|I]; [injection I as <- <-; discriminate Q|]). destruct I.
Qed.

(** Without a key the whole file is one run. *)
Theorem c77_no_key_refuted : exists ls, Forall whole_line ls /\ NoDup ls /\ 1 < List.length ls /\ ex_uniq jm [] (mksrc [] [headline nm ++ concat ls]) = (headline nm ++ hd [] ls, Ok tt).
Proof.
  exists [ln2 "7" "ant"; ln2 "2" "bee"; ln2 "1" "cow"]. split. { assert (F : lines_fit 20 [ln2 "7" "ant"; ln2 "2" "bee"; ln2 "1" "cow"]) by (apply OrderProps.fit_dec; reflexivity). eapply Forall_impl; [|exact F]. cbn. tauto. }
  split; [repeat constructor; cbn; intuition discriminate|]. split; [cbn; lia|vm_compute; reflexivity].
Qed.
(** With --count, the header is divided by the delimiter of the output and the lines by that of the input. *)
Theorem c77_delimiters_refuted : exists md s rows, tm_delim md = 44%N /\ ColModel.tm_delim NumbProps.ex_ot = TAB /\
  ex_uniq md [(bs "key", bs "2"); (bs "count", bs "n")] s = (headline [bs "n"; bs "a"; bs "b"] ++ rows, Ok tt) /\ rows = bs "2,1,2" ++ [NL] /\ ~ In TAB rows.
Proof.
  exists (mkmode HMaybe QPlain 44 NL), (mksrc [] [bs " CDX,a,b" ++ NL :: bs "1,2" ++ NL :: bs "3,2" ++ [NL]]), (bs "2,1,2" ++ [NL]). split; [reflexivity|]. split; [reflexivity|]. split; [vm_compute; reflexivity|].
  split; [reflexivity|]. cbn. intuition discriminate.
Qed.
(** With the whole line as key, lines after the first are not split: their columns are cut where those of an earlier line were, or the tool panics. *)
Theorem c77_columns_refuted : exists args s s2, args = [(bs "key", []); (bs "agg-pre", bs "n,1,count")] /\
  content s = ln2 "a" "b" ++ ln2 "a" "b" ++ ln2 "cow" "d" /\ ex_uniq jm args s = (ln3 "2" "a" "b" ++ ln3 "1" "c" "w", Ok tt) /\
  content s2 = ln2 "aaa" "bbb" ++ ln2 "a" "b" /\ ex_uniq jm args s2 = ([], Panic).
Proof.
  exists [(bs "key", []); (bs "agg-pre", bs "n,1,count")], (mksrc [] [ln2 "a" "b" ++ ln2 "a" "b" ++ ln2 "cow" "d"]), (mksrc [] [ln2 "aaa" "bbb" ++ ln2 "a" "b"]).
  split; [reflexivity|]. split; [reflexivity|]. split; [vm_compute; reflexivity|]. split; [reflexivity|vm_compute; reflexivity].
Qed.
(** Of two aggregates in place of one column the later is not shown. *)
Theorem c77_twice_refuted : exists args, args = [(bs "key", bs "animal"); (bs "agg", bs "id,count"); (bs "agg", bs "id,max")] /\
  ex_uniq jm args bee_src = (headline nm ++ ln2 "1" "ant" ++ ln2 "3" "bee" ++ ln2 "1" "cow", Ok tt).
Proof. eexists. split; [reflexivity|vm_compute; reflexivity]. Qed.
(** Help for the aggregators is on offer, but asking for it panics. *)
Theorem c77_help_refuted : exists s, content s = headline nm ++ concat bees /\ forall args, ex_uniq jm ((bs "agg-help", []) :: args) s = ([], Panic).
Proof. exists bee_src. split; [reflexivity|]. intros args. reflexivity. Qed.
