(** C78: the cut tool. *)
From Coq Require Import String List NArith ZArith Bool Arith Lia SpecFloat.
Open Scope list_scope.
Import ListNotations.
From Verif Require Import Base TextSpec TextModel TextProofs StrSpec StrModel StrProofs MatchSpec MatchText FloatModel ReadSpec ReadModel ReadProofs HeadModel HdrModel HdrSpec HdrProofs TurnSpec PasteSpec
  ColSpec ColModel ColProofs ColWriteProofs ColCompProofs ColProps ToolModel ToolOpen PasteProofs LocProofs SortSpec OrderSpec UniqMainSpec UniqMainProofs ExprModel ExprSpec ExprCols ExprProps CutMain CutMainSpec CutMainExpr CutMainProofs.
From Verif Require Import CompProps ExprProofs ExprEval ExprTok ExprRun.
From Verif Require NumbProofs OrderProps JoinMain JoinMainProps.
Close Scope Z_scope. Open Scope nat_scope.

(** Files with a header: the new header once, then a row for every line of every file, holding the cells of the items in the order of the options.
    The places of the columns are those of each file's own header. *)
Theorem c78_headed : forall utf8_ok name_ok uni_alpha uni_alnum T (trans_make : bytes -> res T) trans_run match_make frem fpow libm exp10 print_num pos md ot args items words ss fs heads rss,
  cut_says args items words -> Forall (citem_ok (alphabetic uni_alpha) (alphanumeric uni_alnum) (made_trans T trans_make)) items -> items <> [] ->
  Forall (fun v => exists w, In w dup_words /\ same_but_case v w) words ->
  tm_quote md = QPlain -> tm_delim md <> NL -> ColModel.tm_quote ot = QPlain ->
  files_show (fun s => wf_src s /\ content s = []) (PasteProofs.shows utf8_ok md) ss fs -> Forall file_ok fs -> Forall (fun f => sh_head f <> []) fs -> fs <> [] ->
  Forall3 (cut_of (alphabetic uni_alpha) (alphanumeric uni_alnum) (maker match_make) (made_trans T trans_make) (trans_to T trans_make trans_run) utf8 frem fpow libm exp10 print_num pos
             items (replace2 (ColModel.tm_delim ot) (ColModel.tm_break ot) (ColModel.tm_repl ot)) (tm_delim md) (ColModel.tm_delim ot)) fs (map (fun _ => heads) fs) rss ->
  Forall (well_named (alphabetic uni_alpha) (alphanumeric uni_alnum)) heads -> NoDup heads \/ words <> [] /\ allows words -> heads <> [] ->
  bad_delim (ColModel.tm_delim ot) = false -> Forall (fun x => ~ In (ColModel.tm_delim ot) x /\ name_ok x = true /\ x <> []) heads -> utf8_ok (join (ColModel.tm_delim ot) heads) = true ->
  cut_main utf8_ok name_ok uni_alpha uni_alnum T trans_make trans_run match_make frem fpow libm exp10 print_num md true ot MMatch args ss =
    (head_line true (ColModel.tm_delim ot) heads ++ concat (concat rss), Ok tt).
Proof.
  intros u no ua un T tm tr mm fr fp lm e10 pn pos md ot args items words ss fs heads rss S K NE W Q D O F FO H NF C W1 W2 NH BD HF U.
  exact (headed u no ua un T tm tr mm fr fp lm e10 pn pos md true ot args items words ss fs S K NE W Q D O F FO heads rss eq_refl C W1 W2 NH BD HF U H NF).
Qed.

(** Files without a header: the rows only, whatever the mode of the header check. *)
Theorem c78_headless : forall utf8_ok name_ok uni_alpha uni_alnum T (trans_make : bytes -> res T) trans_run match_make frem fpow libm exp10 print_num pos md cdx ot m args items words ss fs hs rss,
  cut_says args items words -> Forall (citem_ok (alphabetic uni_alpha) (alphanumeric uni_alnum) (made_trans T trans_make)) items -> items <> [] ->
  Forall (fun v => exists w, In w dup_words /\ same_but_case v w) words ->
  tm_quote md = QPlain -> tm_delim md <> NL -> ColModel.tm_quote ot = QPlain ->
  files_show (fun s => wf_src s /\ content s = []) (PasteProofs.shows utf8_ok md) ss fs -> Forall file_ok fs -> Forall (fun f => sh_head f = []) fs ->
  Forall3 (cut_of (alphabetic uni_alpha) (alphanumeric uni_alnum) (maker match_make) (made_trans T trans_make) (trans_to T trans_make trans_run) utf8 frem fpow libm exp10 print_num pos
             items (replace2 (ColModel.tm_delim ot) (ColModel.tm_break ot) (ColModel.tm_repl ot)) (tm_delim md) (ColModel.tm_delim ot)) fs hs rss ->
  Forall (fun heads => Forall (well_named (alphabetic uni_alpha) (alphanumeric uni_alnum)) heads /\ (NoDup heads \/ words <> [] /\ allows words)) hs ->
  cut_main utf8_ok name_ok uni_alpha uni_alnum T trans_make trans_run match_make frem fpow libm exp10 print_num md cdx ot m args ss = (concat (concat rss), Ok tt).
Proof.
  intros u no ua un T tm tr mm fr fp lm e10 pn pos md cdx ot m args items words ss fs hs rss S K NE W Q D O F FO H C W1.
  exact (headless u no ua un T tm tr mm fr fp lm e10 pn pos md cdx ot args items words ss fs S K NE W Q D O F FO m hs rss C W1 H).
Qed.

(** All columns: a copy of the file. *)
Definition all_cols : cspec := mkspec [mkterm false [] (IRange (Some (PNum 1)) None)] None None.
Lemma cols_all {A} (d : A) l : map (fun k => nth k l d) (seq 0 (List.length l)) = l.
Proof. induction l as [|x l IH]; [reflexivity|]. cbn [List.length seq map nth]. f_equal. rewrite <- seq_shift, map_map. exact IH. Qed.
Lemma parted_free d l f : whole_line l -> In f (parted d l) -> ~ In d f /\ ~ In NL f.
Proof.
  intros (b & -> & N) I. unfold parted in I. rewrite removelast_last in I. split.
  - clear N. revert f I. induction b as [|c b IH]; intros f; cbn [split_on]; [intros [<- |[]]; auto|]. destruct (N.eqb_spec c d) as [->|E]; [intros [<- |I]; [tauto|auto]|].
    destruct (split_on d b) as [|g gs]; [intros [<- |[]]; cbn; intuition congruence|]. intros [<- |I]; [|apply IH; right; auto]. intros [->|J]; [congruence|]. eapply IH; [left; reflexivity|exact J].
  - intros J. apply N. rewrite <- (join_split d b). clear N. induction (split_on d b) as [|g gs IH]; [destruct I|]. destruct gs as [|g2 gs]; [destruct I as [->|[]]; exact J|].
    rewrite StrProofs.join_cons by discriminate. apply in_or_app. destruct I as [->|I]; [left; exact J|]. right. right. apply IH. exact I.
Qed.
Theorem c78_all : forall utf8_ok name_ok uni_alpha uni_alnum T (trans_make : bytes -> res T) trans_run match_make frem fpow libm exp10 print_num ot names ls s,
  names_fit utf8_ok name_ok names -> utf8_ok (OrderSpec.headline names) = true -> Forall (well_named (alphabetic uni_alpha) (alphanumeric uni_alnum)) names -> NoDup names ->
  (N.of_nat (List.length names) < 2 ^ 64)%N -> Forall whole_line ls -> Forall (fun l => List.length (parted TAB l) = List.length names) ls ->
  wf_src s -> content s = OrderSpec.headline names ++ concat ls -> 4 <= List.length (fst (fill_buf s)) ->
  ColModel.tm_quote ot = QPlain -> ColModel.tm_delim ot = TAB -> ColModel.tm_break ot = NL ->
  cut_main utf8_ok name_ok uni_alpha uni_alnum T trans_make trans_run match_make frem fpow libm exp10 print_num JoinMain.join_mode true ot MMatch [(bs "fields", bs "1-")] [s] = (content s, Ok tt).
Proof.
  intros u no ua un T tm tr mm fr fp lm e10 pn ot names ls s NF HU WN ND BN WL CL W C H4 Q D B. pose proof (JoinMainProps.c76_headed u no names s ls NF HU W C WL H4) as SH. rewrite C.
  replace (OrderSpec.headline names ++ concat ls) with (head_line true (ColModel.tm_delim ot) names ++ concat (concat [ls])) by (rewrite D; cbn [concat]; rewrite app_nil_r; reflexivity).
  destruct NF as (NE & NU & NF).
  apply (c78_headed u no ua un T tm tr mm fr fp lm e10 pn (fun _ => 0%N) JoinMain.join_mode ot [(bs "fields", bs "1-")] [CFields all_cols] [] [s] [mkshown (OrderSpec.headline names) names ls] names [ls]); auto; try discriminate.
  - apply (cs_item (CFields all_cols) [] [] []). constructor.
  - constructor; [|constructor]. split; [|discriminate]. split; [|split; [left; discriminate|split; discriminate]]. repeat constructor; cbn; lia.
  - apply fs_file; [exact SH|constructor].
  - constructor; [|constructor]. split; [left; discriminate|]. split; auto.
  - constructor; [discriminate|constructor].
  - cbn [map]. apply f3_cons; [|apply f3_nil]. set (ws := map (fun k => (k, (@nil N, @None bytes))) (seq 0 (List.length names))).
    exists [(CFields all_cols, PCols ws)]. cbn [sh_names sh_lines map fst flat_map labels]. split; [reflexivity|]. split; [|split].
    + constructor; [|constructor]. cbn [planned]. split; [|destruct names; [congruence|discriminate]]. exists [seq 0 (List.length names)]. split.
      * constructor; [|constructor]. cbn. exists 0, (List.length names - 1). assert (0 < List.length names) by (destruct names; [congruence|cbn; lia]). repeat split; cbn; try lia. f_equal. lia.
      * unfold wanted, drops, picks. cbn [all_cols parts_of map s_terms s_group s_trans t_not t_label t_item xorb app combine flat_map forallb q_not q_label q_trans andb existsb]. rewrite app_nil_r.
        unfold ws. symmetry. clear. induction (seq 0 (List.length names)) as [|k l IH]; [reflexivity|]. cbn [map filter]. rewrite IH. reflexivity.
    + rewrite app_nil_r. unfold ws. rewrite map_map. cbn [fst snd]. symmetry. apply cols_all.
    + clear - WL CL D B. induction ls as [|l ls IH]; [constructor|]. apply Forall_cons_iff in WL as [W1 W2], CL as [C1 C2]. constructor; [|auto]. change (tm_delim JoinMain.join_mode) with TAB.
      exists [parted TAB l]. split.
      * constructor; [|constructor]. exists (parted TAB l). split.
        -- rewrite <- (cols_all [] (parted TAB l)) at 2. rewrite C1. unfold ws. clear. induction (seq 0 (List.length names)); constructor; auto. reflexivity.
        -- rewrite D, B. rewrite <- map_id at 1. apply map_ext_in. intros f I. symmetry. apply replace2_id; eapply parted_free; eauto.
      * cbn [concat]. rewrite app_nil_r, D. unfold parted. rewrite join_split. destruct W1 as (b & -> & _). rewrite removelast_last. reflexivity.
  - rewrite D. reflexivity.
  - rewrite D. eapply Forall_impl; [|exact NF]. cbn. intros x (X1 & X2 & X3 & X4 & _). auto.
  - rewrite D. exact NU.
Qed.

(** Without an item nothing is written, and it is an error. *)
Theorem c78_nothing : forall utf8_ok name_ok uni_alpha uni_alnum T (trans_make : bytes -> res T) trans_run match_make frem fpow libm exp10 print_num md cdx ot m args words ss,
  cut_says args [] words ->
  cut_main utf8_ok name_ok uni_alpha uni_alnum T trans_make trans_run match_make frem fpow libm exp10 print_num md cdx ot m args ss = ([], Err).
Proof.
  intros u no ua un T tm tr mm fr fp lm e10 pn md cdx ot m args words ss S. unfold cut_main. generalize hdr_new. remember [] as its eqn:E. induction S as [|it args its ws S IH|w args its ws S IH]; intros h.
  - reflexivity.
  - discriminate.
  - cbn [cut_args cut_arg]. change (beq (bs "dups") (bs "dups")) with true. cbv iota. unfold dup_new. 
    repeat match goal with |- context [if beq (map lower w) ?x then _ else _] => destruct (beq (map lower w) x); [cbn [rbind]; apply IH; exact E|] end. reflexivity.
Qed.
Example c78_nothing_ex : cut_says [(bs "dups", bs "Allow"); (bs "dups", bs "what")] [] [bs "Allow"; bs "what"].
Proof. repeat constructor. Qed.

(** * Examples *)
Definition whole_num (x : f64) : bytes := match x with S754_finite false m e => print_N (Z.to_N (Z.shiftl (Zpos m) e)) | _ => bs "0" end.
Definition ex_cut := cut_main OrderProps.yes OrderProps.yes no_uni no_uni bytes ex_trans (fun _ x => Ok (map lower x)) ex_match ex_rem fmul ex_libm ex10 whole_num.
Definition one_col (s : string) : cspec := mkspec [mkterm false [] (IOne (PName (bs s)))] None None.
Definition cut_items : list citem :=
  [CFields (mkspec [mkterm false (bs "who") (IOne (PName (bs "id")))] None (Some (bs "lower"))); CGroup 59 (bs "both") (mkspec [mkterm false [] (IOne (PName (bs "price"))); mkterm false [] (IOne (PName (bs "qty")))] None None);
   CComposite (bs "tag") [CLit (bs "#"); CName false (bs "id")] false; CExpr (bs "total") [col_named "price"; BText (bs "*"); col_named "qty"]].
Definition cut_args_ex : list (bytes * bytes) :=
  [(bs "fields", bs "who:id+lower"); (bs "dups", bs "Fail"); (bs "group", bs ";both:price,qty"); (bs "composite", bs "tag:#^id"); (bs "expr", bs "total:[price]*[qty]")].
Definition cn1 : list bytes := [bs "id"; bs "price"; bs "qty"].
Definition cn2 : list bytes := [bs "qty"; bs "id"; bs "price"].
Definition cl1 : list bytes := [JoinMainProps.ln3 "Ax" "2" "5"; JoinMainProps.ln3 "B" "7" "3"].
Definition cl2 : list bytes := [JoinMainProps.ln3 "4" "C" "6"].
Definition cs1 : src := mksrc [] [OrderSpec.headline cn1 ++ concat cl1].
Definition cs2 : src := mksrc [] [OrderSpec.headline cn2; concat cl2].
Definition pos_ex (s : bytes) : N := if beq s (bs "c1") then 0%N else if beq s (bs "c2") then 1%N else 2%N.
Definition ex_tree (a b : string) : tree := Op BTimes (Ref (bs a)) (Ref (bs b)).
Definition ex_plans (i p q : nat) (a b : string) : list (citem * plan) :=
  combine cut_items [PCols [(i, (bs "who", Some (bs "lower")))]; PCols [(p, ([], None)); (q, ([], None))]; PText; PTree (ex_tree a b)].
Definition cut_heads : list bytes := [bs "who"; bs "both"; bs "tag"; bs "total"].
Definition cut_rows (l : list (string * string * string * string)) : list bytes := map (fun '(a, b, c, d) => join TAB [bs a; bs b; bs c; bs d] ++ [NL]) l.
Lemma cut_ex_shows : PasteProofs.shows OrderProps.yes JoinMain.join_mode cs1 (mkshown (OrderSpec.headline cn1) cn1 cl1) /\ PasteProofs.shows OrderProps.yes JoinMain.join_mode cs2 (mkshown (OrderSpec.headline cn2) cn2 cl2).
Proof.
  assert (W : forall cap ls, forallb _ ls = true -> Forall whole_line ls) by (intros cap ls H; pose proof (OrderProps.fit_dec cap ls H) as F; eapply Forall_impl; [|exact F]; cbn; tauto).
  split; apply (JoinMainProps.c76_headed OrderProps.yes OrderProps.yes);
    try (split; [discriminate|]; split; [reflexivity|]; repeat constructor; try discriminate; vm_compute; intuition discriminate); try reflexivity; try (apply (W 50); reflexivity); try (cbn; lia);
    unfold wf_src; cbn; repeat constructor; discriminate.
Qed.
Lemma cut_ex_ok : Forall (citem_ok (alphabetic no_uni) (alphanumeric no_uni) (made_trans bytes ex_trans)) cut_items.
Proof.
  unfold cut_items. constructor; [|constructor; [|constructor; [|constructor; [|constructor]]]]; cbn [citem_ok].
  - split.
    + split; [|split; [left; discriminate|split; [cbn; intros; discriminate|]]].
      * repeat constructor; cbn; try lia; try discriminate.
      * intros t [= <-]. exists 108%N, (bs "ower"). split; reflexivity.
    + intros t [= <-]. exists (bs "lower"). reflexivity.
  - split; [lia|]. split; [vm_compute; intuition discriminate|]. split; [|discriminate]. split; [|split; [left; discriminate|split; discriminate]]. repeat constructor; cbn; try lia; try discriminate.
  - split; [vm_compute; intuition discriminate|]. cbn. repeat split; auto; try (vm_compute; intuition discriminate); try discriminate; try lia; repeat constructor.
  - vm_compute; intuition discriminate.
Qed.
Notation ex_cut_of := (cut_of (alphabetic no_uni) (alphanumeric no_uni) (maker ex_match) (made_trans bytes ex_trans) (trans_to bytes ex_trans (fun _ x => Ok (map lower x))) utf8 ex_rem fmul ex_libm ex10 whole_num pos_ex
  cut_items (replace2 TAB NL 32) TAB TAB).
Ltac at_place := split; [cbn; lia|]; split; [reflexivity|]; intros j Hj; repeat (destruct j as [|j]; [discriminate|]); cbn in Hj; lia.
Lemma ex_planned names i p q a b : place_at names (PName (bs "id")) i -> place_at names (PName (bs "price")) p -> place_at names (PName (bs "qty")) q ->
  numbered (N.of_nat p) = bs a -> numbered (N.of_nat q) = bs b -> In (a, b) [("c2", "c3"); ("c3", "c1")]%string -> ~ In (bs a) names -> ~ In (bs b) names ->
  pos_ex (bs a) = N.of_nat p -> pos_ex (bs b) = N.of_nat q -> (N.of_nat p + 1 < 2 ^ 64)%N -> (N.of_nat q + 1 < 2 ^ 64)%N ->
  Forall (planned (alphabetic no_uni) (alphanumeric no_uni) (maker ex_match) (made_trans bytes ex_trans) ex_rem fmul ex_libm ex10 pos_ex names) (ex_plans i p q a b).
Proof.
  intros P1 P2 P3 E1 E2 AB N1 N2 Q1 Q2 B1 B2. unfold ex_plans, cut_items. cbn [combine]. constructor; [|constructor; [|constructor; [|constructor; [|constructor]]]]; cbn [planned].
  - split; [|discriminate]. exists [[i]]. split; [constructor; [|constructor]; exists i; auto|reflexivity].
  - exists [[p]; [q]]. split; [constructor; [exists p; auto|constructor; [exists q; auto|constructor]]|reflexivity].
  - intros b0 s [H|[H|[]]]; [discriminate|]. injection H as _ <-. eauto.
  - exists [bs a; bs "*"; bs b]. split; [|split; [|split]].
    + constructor; [|constructor; [|constructor; [|constructor]]].
      * rewrite <- E1. apply col_named_means; try named; auto.
      * split; [intros H; cbn in H; intuition discriminate|reflexivity].
      * rewrite <- E2. apply col_named_means; try named; auto.
    + destruct AB as [AB|[AB|[]]]; injection AB as <- <-.
      * exists [TVar (bs "c2"); TBin BTimes; TVar (bs "c3")]. exists (map bs ["c2"; "*"; "c3"]%string). split; [reflexivity|]. split; [|split; [|split; reflexivity]].
        -- match goal with |- sentence 1 ?l ?t => change l with (show 1 t) end. apply show_sentence; auto; lia.
        -- cbn [map]. constructor; [apply (sp_var _ _ _ 99%N (bs "2")); reflexivity|]. constructor; [apply sp_bin|]. constructor; [apply (sp_var _ _ _ 99%N (bs "3")); reflexivity|]. constructor.
      * exists [TVar (bs "c3"); TBin BTimes; TVar (bs "c1")]. exists (map bs ["c3"; "*"; "c1"]%string). split; [reflexivity|]. split; [|split; [|split; reflexivity]].
        -- match goal with |- sentence 1 ?l ?t => change l with (show 1 t) end. apply show_sentence; auto; lia.
        -- cbn [map]. constructor; [apply (sp_var _ _ _ 99%N (bs "3")); reflexivity|]. constructor; [apply sp_bin|]. constructor; [apply (sp_var _ _ _ 99%N (bs "1")); reflexivity|]. constructor.
    + intros s [<- |[<- |[]]]; right; right.
      * rewrite Q1. auto.
      * rewrite Q2. auto.
    + destruct AB as [AB|[AB|[]]]; injection AB as <- <-; vm_compute; discriminate.
Qed.
Lemma ex_row names i p q a b fields x y z l row : place_at names (PName (bs "id")) i -> fields = parted TAB l -> nth i fields [] = x -> nth p fields [] = y -> nth q fields [] = z ->
  row = join TAB [replace2 TAB NL 32 (map lower x); join 59 (map (replace2 59 NL 32) [y; z]); replace2 TAB NL 32 (bs "#" ++ x); whole_num (fmul (line_env ex10 pos_ex fields (bs a)) (line_env ex10 pos_ex fields (bs b)))] ++ [NL] ->
  exists css, Forall2 (cells (trans_to bytes ex_trans (fun _ x => Ok (map lower x))) utf8 ex_rem fmul ex_libm ex10 whole_num pos_ex (replace2 TAB NL 32) names (parted TAB l)) (ex_plans i p q a b) css /\
    row = join TAB (concat css) ++ [NL].
Proof.
  intros P -> <- <- <- ->. eexists [[_]; [_]; [_]; [_]]. split; [|reflexivity]. unfold ex_plans, cut_items. cbn [combine]. constructor; [|constructor; [|constructor; [|constructor; [|constructor]]]]; cbn [cells].
  - eexists [_]. split; [|reflexivity]. constructor; [|constructor]. exists (bs "lower"). split; reflexivity.
  - eexists [_; _]. split; [|reflexivity]. repeat (constructor; [reflexivity|]). constructor.
  - exists [bs "#"; nth i (parted TAB l) []]. split; [constructor; [reflexivity|constructor; [exists i; auto|constructor]]|]. unfold caret_text. cbn [concat]. rewrite !app_nil_r. reflexivity.
  - eexists. split; [reflexivity|reflexivity].
Qed.
Example c78_headed_ex :
  let fs := [mkshown (OrderSpec.headline cn1) cn1 cl1; mkshown (OrderSpec.headline cn2) cn2 cl2] in
  let rss := map cut_rows [[("ax", "2;5", "#Ax", "10"); ("b", "7;3", "#B", "21")]; [("c", "6;4", "#C", "24")]]%string in
  cut_says cut_args_ex cut_items [bs "Fail"] /\ Forall (citem_ok (alphabetic no_uni) (alphanumeric no_uni) (made_trans bytes ex_trans)) cut_items /\
  files_show (fun s => wf_src s /\ content s = []) (PasteProofs.shows OrderProps.yes JoinMain.join_mode) [cs1; mksrc [] []; cs2] fs /\ Forall file_ok fs /\
  Forall3 ex_cut_of fs (map (fun _ => cut_heads) fs) rss /\
  ex_cut JoinMain.join_mode true (ColModel.mktm QPlain TAB NL 32) MMatch cut_args_ex [cs1; mksrc [] []; cs2] = (OrderSpec.headline cut_heads ++ concat (concat rss), Ok tt).
Proof.
  cbv zeta. destruct cut_ex_shows as [S1 S2].
  assert (CS : cut_says cut_args_ex cut_items [bs "Fail"]) by (replace cut_args_ex with (match map item_option cut_items with a :: r => a :: (bs "dups", bs "Fail") :: r | [] => [] end) by reflexivity; unfold cut_items; cbn [map]; apply cs_item, cs_dups, cs_item, cs_item, cs_item, cs_nil).
  assert (FS : files_show (fun s => wf_src s /\ content s = []) (PasteProofs.shows OrderProps.yes JoinMain.join_mode) [cs1; mksrc [] []; cs2] [mkshown (OrderSpec.headline cn1) cn1 cl1; mkshown (OrderSpec.headline cn2) cn2 cl2]).
  { apply fs_file; auto. apply fs_skip; [split; [constructor|reflexivity]|]. apply fs_file; auto. constructor. }
  assert (FO : Forall file_ok [mkshown (OrderSpec.headline cn1) cn1 cl1; mkshown (OrderSpec.headline cn2) cn2 cl2]).
  { assert (W : forall cap ls, forallb _ ls = true -> Forall whole_line ls) by (intros cap ls H; pose proof (OrderProps.fit_dec cap ls H) as F; eapply Forall_impl; [|exact F]; cbn; tauto).
    constructor; [|constructor; [|constructor]]; (split; [left; discriminate|]; split; [apply (W 50); reflexivity|reflexivity]). }
  assert (CO : Forall3 ex_cut_of [mkshown (OrderSpec.headline cn1) cn1 cl1; mkshown (OrderSpec.headline cn2) cn2 cl2] [cut_heads; cut_heads]
    (map cut_rows [[("ax", "2;5", "#Ax", "10"); ("b", "7;3", "#B", "21")]; [("c", "6;4", "#C", "24")]]%string)).
  { cbn [map]. apply f3_cons; [|apply f3_cons; [|apply f3_nil]].
    - exists (ex_plans 0 1 2 "c2" "c3"). split; [reflexivity|]. split; [|split; [reflexivity|]].
      + apply ex_planned; try reflexivity; try (vm_compute; intuition discriminate); try at_place; auto with datatypes.
      + unfold cl1, cut_rows. cbn [map sh_lines sh_names]. constructor; [|constructor; [|constructor]]; eapply ex_row; try reflexivity; at_place.
    - exists (ex_plans 1 2 0 "c3" "c1"). split; [reflexivity|]. split; [|split; [reflexivity|]].
      + apply ex_planned; try reflexivity; try (vm_compute; intuition discriminate); try at_place; cbn; auto.
      + unfold cl2, cut_rows. cbn [map sh_lines sh_names]. constructor; [|constructor]. eapply ex_row; try reflexivity; at_place. }
  split; [exact CS|]. split; [exact cut_ex_ok|]. split; [exact FS|]. split; [exact FO|]. split; [exact CO|].
  apply (c78_headed OrderProps.yes OrderProps.yes no_uni no_uni bytes ex_trans (fun _ x => Ok (map lower x)) ex_match ex_rem fmul ex_libm ex10 whole_num pos_ex JoinMain.join_mode (ColModel.mktm QPlain TAB NL 32)
    cut_args_ex cut_items [bs "Fail"] [cs1; mksrc [] []; cs2] [mkshown (OrderSpec.headline cn1) cn1 cl1; mkshown (OrderSpec.headline cn2) cn2 cl2] cut_heads _ CS cut_ex_ok); try exact FS; try exact FO; try exact CO; try reflexivity; try discriminate.
  - constructor; [|constructor]. exists (bs "fail"). split; [left; reflexivity|]. apply same_case_map. reflexivity.
  - repeat (constructor; [discriminate|]). constructor.
  - repeat constructor.
  - left. repeat constructor; vm_compute; intuition discriminate.
  - repeat (constructor; [repeat split; [vm_compute; intuition discriminate|discriminate]|]). constructor.
Qed.

(** Without headers the second column, and the first again under a name of its own. *)
Definition swap_spec : cspec := mkspec [mkterm false [] (IOne (PNum 2)); mkterm false (bs "again") (IOne (PEnd 2))] None None.
Definition plain_cs : src := mksrc [] [OrderProps.ln "a" "b" ++ bs "c" ++ [NL]].
Example c78_headless_ex : exists names,
  let fs := [mkshown [] names [OrderProps.ln "a" "b"; bs "c" ++ [NL]]] in
  cut_says [(bs "fields", bs "2,again:+2")] [CFields swap_spec] [] /\ PasteProofs.shows OrderProps.yes JoinMain.join_mode plain_cs (hd (mkshown [] [] []) fs) /\ Forall file_ok fs /\
  cut_of (alphabetic no_uni) (alphanumeric no_uni) (maker ex_match) (made_trans bytes ex_trans) (trans_to bytes ex_trans (fun _ x => Ok (map lower x))) utf8 ex_rem fmul ex_libm ex10 whole_num pos_ex
    [CFields swap_spec] (replace2 TAB NL 32) TAB TAB (hd (mkshown [] [] []) fs) [bs "c2"; bs "again"] [OrderProps.ln "b" "a"; OrderProps.ln "" "c"] /\
  ex_cut JoinMain.join_mode true (ColModel.mktm QPlain TAB NL 32) MRequire [(bs "fields", bs "2,again:+2")] [plain_cs] = (OrderProps.ln "b" "a" ++ OrderProps.ln "" "c", Ok tt).
Proof.
  assert (WL : Forall whole_line [OrderProps.ln "a" "b"; bs "c" ++ [NL]]).
  { constructor; [exists (bs "a" ++ TAB :: bs "b"); split; [reflexivity|vm_compute; intuition discriminate]|]. constructor; [exists (bs "c"); split; [reflexivity|vm_compute; intuition discriminate]|constructor]. }
  destruct (JoinMainProps.c76_plain OrderProps.yes plain_cs (OrderProps.ln "a" "b") [bs "c" ++ [NL]]) as (names & SH & LN & NM); auto.
  { unfold wf_src; cbn; repeat constructor; discriminate. } { discriminate. }
  assert (EN : names = [bs "c1"; bs "c2"]).
  { vm_compute in LN. destruct names as [|x [|y [|z names]]]; try discriminate LN.
    pose proof (NM 0 ltac:(cbn; lia)) as A. pose proof (NM 1 ltac:(cbn; lia)) as B. cbn [nth] in A, B. rewrite A, B. reflexivity. }
  clear LN NM. subst names. exists [bs "c1"; bs "c2"]. cbv zeta. cbn [hd].
  assert (CS : cut_says [(bs "fields", bs "2,again:+2")] [CFields swap_spec] []) by (apply (cs_item (CFields swap_spec)), cs_nil).
  assert (FO : Forall file_ok [mkshown [] [bs "c1"; bs "c2"] [OrderProps.ln "a" "b"; bs "c" ++ [NL]]]) by (constructor; [split; [right; discriminate|]; split; [exact WL|reflexivity]|constructor]).
  split; [exact CS|]. split; [exact SH|]. split; [exact FO|].
  match goal with |- ?a /\ _ => assert (CO : a) end.
  { exists [(CFields swap_spec, PCols [(1, ([], None)); (0, (bs "again", None))])]. split; [reflexivity|]. split; [|split; [reflexivity|]].
    - constructor; [|constructor]. split; [|discriminate]. exists [[1]; [0]]. split; [|reflexivity]. constructor; [|constructor; [|constructor]]; [exists 1|exists 0]; (split; [split; [cbn; lia|reflexivity]|reflexivity]).
    - constructor; [|constructor; [|constructor]].
      + exists [[bs "b"; bs "a"]]. split; [|reflexivity]. constructor; [|constructor]. exists [bs "b"; bs "a"]. split; [|reflexivity]. repeat (constructor; [reflexivity|]). constructor.
      + exists [[[]; bs "c"]]. split; [|reflexivity]. constructor; [|constructor]. exists [[]; bs "c"]. split; [|reflexivity]. repeat (constructor; [reflexivity|]). constructor. }
  split; [exact CO|]. change (OrderProps.ln "b" "a" ++ OrderProps.ln "" "c") with (concat (concat [[OrderProps.ln "b" "a"; OrderProps.ln "" "c"]])).
  eapply (c78_headless OrderProps.yes OrderProps.yes no_uni no_uni bytes ex_trans (fun _ x => Ok (map lower x)) ex_match ex_rem fmul ex_libm ex10 whole_num pos_ex JoinMain.join_mode true (ColModel.mktm QPlain TAB NL 32) MRequire
    [(bs "fields", bs "2,again:+2")] [CFields swap_spec] [] [plain_cs] _ [[bs "c2"; bs "again"]]); try exact FO; auto; try discriminate.
  - constructor; [|constructor]. split; [|discriminate]. split; [|split; [left; discriminate|split; discriminate]]. repeat constructor; cbn; try lia; discriminate.
  - apply fs_file; [exact SH|constructor].
  - apply f3_cons; [exact CO|constructor].
  - constructor; [|constructor]. split; [repeat constructor|]. left. repeat constructor; vm_compute; intuition discriminate.
Qed.
Example c78_all_ex : names_fit OrderProps.yes OrderProps.yes cn1 /\ Forall (fun l => List.length (parted TAB l) = List.length cn1) cl1 /\
  ex_cut JoinMain.join_mode true (ColModel.mktm QPlain TAB NL 32) MMatch [(bs "fields", bs "1-")] [cs1] = (content cs1, Ok tt).
Proof.
  split; [|split; [repeat constructor|vm_compute; reflexivity]]. split; [discriminate|]; split; [reflexivity|]; repeat constructor; try discriminate; vm_compute; intuition discriminate.
Qed.

(** * What does not hold *)
(** A column cannot be written twice even where no header is written. *)
Theorem c78_dups_refuted : exists s, content s = OrderProps.ln "a" "b" /\
  ex_cut JoinMain.join_mode true (ColModel.mktm QPlain TAB NL 32) MMatch [(bs "fields", bs "2,1,2")] [s] = ([], Err) /\
  ex_cut JoinMain.join_mode true (ColModel.mktm QPlain TAB NL 32) MMatch [(bs "dups", bs "allow"); (bs "fields", bs "2,1,2")] [s] = (JoinMainProps.ln3 "b" "a" "b", Ok tt).
Proof. exists (mksrc [] [OrderProps.ln "a" "b"]). repeat split; vm_compute; reflexivity. Qed.
(** A plain name in an expression means the place it had in the first file. *)
Theorem c78_stale_refuted : exists s1 s2,
  content s1 = OrderSpec.headline [bs "a"; bs "b"] ++ OrderProps.ln "1" "2" /\ content s2 = OrderSpec.headline [bs "b"; bs "a"] ++ OrderProps.ln "5" "7" /\
  ex_cut JoinMain.join_mode true (ColModel.mktm QPlain TAB NL 32) MMatch [(bs "fields", bs "a"); (bs "expr", bs "ten:a*10")] [s1; s2] =
    (OrderSpec.headline [bs "a"; bs "ten"] ++ OrderProps.ln "1" "10" ++ OrderProps.ln "7" "50", Ok tt).
Proof.
  exists (mksrc [] [OrderSpec.headline [bs "a"; bs "b"] ++ OrderProps.ln "1" "2"]), (mksrc [] [OrderSpec.headline [bs "b"; bs "a"] ++ OrderProps.ln "5" "7"]).
  repeat split; vm_compute; reflexivity.
Qed.
(** The output delimiter is kept out of single columns, but not out of bunches of columns. *)
Theorem c78_group_refuted : exists s, content s = OrderSpec.headline [bs "a"; bs "b"] ++ OrderProps.ln "x,y" "z" /\
  ex_cut JoinMain.join_mode true (ColModel.mktm QPlain 44 NL 32) MMatch [(bs "fields", bs "a"); (bs "group", bs ";g:a,b")] [s] = (bs " CDX,a,g" ++ [NL] ++ bs "x y,x,y;z" ++ [NL], Ok tt).
Proof. exists (mksrc [] [OrderSpec.headline [bs "a"; bs "b"] ++ OrderProps.ln "x,y" "z"]). repeat split; vm_compute; reflexivity. Qed.
