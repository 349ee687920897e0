(** C79: the binsearch tool. *)
From Coq Require Import String List NArith ZArith Bool Arith Lia.
Open Scope list_scope.
Import ListNotations.
From Verif Require Import Base TextModel TextSpec StrModel StrSpec FloatModel ReadModel HdrModel HdrSpec HeadModel MatchModel CompModel ToolModel KeyModel KeySpec KeyProofs KeyProps SortSpec OrderSpec OrderProofs OrderProps
  NumbProofs CutMainProofs BinModel BinSpec BinProofs BinProps BinMain BinMainSpec BinMainProofs.
From Verif Require UniqMainProofs.
Close Scope Z_scope. Open Scope nat_scope.

Lemma shown_with_first fs h : forall bfs outs, List.length outs = List.length bfs -> bfs <> [] -> (forall b, In b bfs -> new_headline fs b = h) ->
  texts_with fs (true :: repeat false (List.length bfs - 1)) bfs outs = h ++ all_shown fs bfs outs.
Proof.
  intros [|b bfs] outs L NE H; [congruence|]. destruct outs as [|o outs]; [discriminate|]. cbn in L. injection L as L. cbn [List.length]. rewrite Nat.sub_succ, Nat.sub_0_r.
  unfold texts_with, all_shown. cbn [combine map concat fst snd]. rewrite (H b) by (left; auto). rewrite <- app_assoc. f_equal. f_equal. clear -L.
  revert outs L. induction bfs as [|b bfs IH]; intros [|o outs] L; try discriminate; [reflexivity|]. cbn [List.length repeat combine map concat fst snd]. cbn in L. injection L as L. rewrite IH by auto. reflexivity.
Qed.
Lemma shown_without fs : forall bfs outs, List.length outs = List.length bfs -> texts_with fs (repeat false (List.length bfs)) bfs outs = all_shown fs bfs outs.
Proof.
  unfold texts_with, all_shown. induction bfs as [|b bfs IH]; intros [|o outs] L; try discriminate; [reflexivity|]. cbn [List.length repeat combine map concat fst snd]. cbn in L. injection L as L. rewrite IH by auto. reflexivity.
Qed.
Lemma each_length P : forall bfs n outs, each P n bfs outs -> List.length outs = List.length bfs.
Proof. intros bfs n outs E. induction E; cbn; auto. Qed.
Lemma same_repeat {A B} (g : A -> B) h : forall l, (forall b, In b l -> g b = h) -> map g l = repeat h (List.length l).
Proof. induction l as [|x l IH]; intros H; [reflexivity|]. cbn [map List.length repeat]. rewrite (H x) by (left; auto). rewrite IH; auto. intros; apply H; right; auto. Qed.

(** C79. Files with the same header: the header once, with the file name column in front if asked, then for each file the lines equal to the
    values, with lines of context, each with the end of the path in front. The header line takes part in the search. *)
Theorem c79_headed : forall utf8_ok name_ok uni_alpha uni_alnum expr expr_new expr_lookup expr_eval expr_eval_line expr_none exp10 args ws fs ctx pat vs bfs outs names,
  bin_says (alphabetic uni_alpha) (alphanumeric uni_alnum) args ws fs ctx pat -> values_of (keys_used ws) pat vs ->
  each (search_of exp10 utf8_ok ctx (keys_used ws) vs) 0 bfs outs -> bfs <> [] -> Forall (fun b => bf_head b = true /\ bf_names b = names) bfs ->
  let new := match fs with Some f => fname_col f :: names | None => names end in
  Forall (fun x => ~ In TAB x /\ name_ok x = true /\ x <> []) new -> utf8_ok (join TAB new) = true ->
  bin_main utf8_ok name_ok uni_alpha uni_alnum expr expr_new expr_lookup expr_eval expr_eval_line expr_none exp10 MMatch args (map (fun b => (bf_path b, bf_data b)) bfs) =
    (headline new ++ all_shown fs bfs outs, Ok tt).
Proof.
  intros u no ua un ex exn exl exe exel exno e10 args ws fs ctx pat vs bfs outs names S V E NE SAME new F U.
  assert (H : forall b, In b bfs -> new_headline fs b = headline new). { intros b I. rewrite Forall_forall in SAME. destruct (SAME b I) as [H1 H2]. unfold new_headline. rewrite H1, H2. reflexivity. }
  assert (N : new <> []). { unfold new. destruct fs; [discriminate|]. destruct E as [|n b bfs o outs (B & _) _]; [congruence|]. destruct B as [_ B]. inversion SAME as [|? ? [H1 H2] _]; subst. rewrite H1 in B. apply B. }
  rewrite (bin_tool u no ua un ex exn exl exe exel exno e10 MMatch args ws fs ctx pat vs bfs outs (true :: repeat false (List.length bfs - 1)) S V E NE).
  - rewrite (shown_with_first fs (headline new)); auto. apply (each_length _ _ _ _ E).
  - rewrite (same_repeat _ (headline new)) by auto. replace (List.length bfs) with (Datatypes.S (List.length bfs - 1)) at 1 by (destruct bfs; [congruence|cbn; lia]).
    apply check_same; [|unfold headline; rewrite app_comm_cons, app_assoc; apply last_last]. unfold headline. apply (head_valid u no TAB new); auto.
Qed.

(** C79. Files without a header: the same without one, whatever the mode of the header check. *)
Theorem c79_headless : forall utf8_ok name_ok uni_alpha uni_alnum expr expr_new expr_lookup expr_eval expr_eval_line expr_none exp10 md args ws fs ctx pat vs bfs outs,
  bin_says (alphabetic uni_alpha) (alphanumeric uni_alnum) args ws fs ctx pat -> values_of (keys_used ws) pat vs ->
  each (search_of exp10 utf8_ok ctx (keys_used ws) vs) 0 bfs outs -> bfs <> [] -> Forall (fun b => bf_head b = false) bfs ->
  bin_main utf8_ok name_ok uni_alpha uni_alnum expr expr_new expr_lookup expr_eval expr_eval_line expr_none exp10 md args (map (fun b => (bf_path b, bf_data b)) bfs) =
    (all_shown fs bfs outs, Ok tt).
Proof.
  intros u no ua un ex exn exl exe exel exno e10 md args ws fs ctx pat vs bfs outs S V E NE SAME.
  assert (H : forall b, In b bfs -> new_headline fs b = []). { intros b I. rewrite Forall_forall in SAME. unfold new_headline. rewrite (SAME b I). reflexivity. }
  rewrite (bin_tool u no ua un ex exn exl exe exel exno e10 md args ws fs ctx pat vs bfs outs (repeat false (List.length bfs)) S V E NE).
  - rewrite shown_without; auto. apply (each_length _ _ _ _ E).
  - rewrite (same_repeat _ []) by auto. apply check_no_head.
Qed.

(** Examples. *)
Definition ex_bin := bin_main yes yes none none unit no_expr no_find no_eval no_eval_line f_zero exp_ex.
Definition fruit : list bytes := [bs "name"; bs "id"].
Definition by_col (s : string) (i : N) : wanted := mkw_key [ByName (bs s)] JustCols [] CPlain false (fun _ => i).
Definition two_keys : list wanted := [by_col "name" 0; by_col "id" 1].
Lemma one_col_ok s i : bs s <> [] -> well_named (alphabetic none) (alphanumeric none) (bs s) -> wanted_ok (alphabetic none) (alphanumeric none) [] (by_col s i).
Proof.
  intros NE W. unfold wanted_ok, by_col. cbn [wk_cols wk_tail wk_kind wk_cmp wk_rev wk_pos tail_words tail_ok]. split; [discriminate|]. split; [constructor; [split; auto|constructor]|]. split; [exact I|].
  split; [right; split; [constructor|reflexivity]|]. split; [right; right; right; left; reflexivity|]. split; [|intros f names X; destruct f; discriminate].
  split; [discriminate|]. intros (w & [] & _).
Qed.
Lemma by_col_ok : Forall (wanted_ok (alphabetic none) (alphanumeric none) []) two_keys.
Proof. constructor; [|constructor; [|constructor]]; apply one_col_ok; try discriminate; (split; [reflexivity|repeat constructor; right; left; reflexivity]) || (split; [reflexivity|repeat constructor]). Qed.
Definition bin_args_ex : list (bytes * bytes) := [(bs "key", bs "name"); (bs "context", bs "9"); (bs "filename", bs "from:2"); (bs "key", bs "id"); (bs "pattern", bs "fig,3"); (bs "context", bs "1.0,1")].
Definition file1 : bfile := mkbf (bs "data/sub/one.txt") true fruit (headline fruit ++ concat [ln "apple" "7"; ln "fig" "2"; ln "fig" "3"; ln "fig" "3"; ln "pear" "1"; ln "plum" "4"]).
Definition file2 : bfile := mkbf (bs "two.txt") true fruit (headline fruit ++ concat [ln "fig" "1"; bs "fig" ++ TAB :: bs "4"]).
Definition ctx_ex : ctx_spec := Sides (Differ 1 0) (Alike 1).
Lemma bin_says_ex : bin_says (alphabetic none) (alphanumeric none) bin_args_ex two_keys (Some (NamedParts (bs "from") 2)) ctx_ex (bs "fig,3").
Proof.
  split; [unfold bin_args_ex, bin_options; repeat (apply Forall_cons; [cbn [fst In]; auto 6|]); constructor|]. split; [unfold bin_args_ex; repeat (first [apply val_nil|apply val_this|apply val_other; [discriminate|]])|].
  split; [exact by_col_ok|]. split; [unfold bin_args_ex; repeat (first [apply val_nil|apply val_this|apply val_other; [discriminate|]])|].
  split; [split; [vm_compute; intuition discriminate|reflexivity]|]. split.
  - exists [BothSides (Alike 9); ctx_ex]. split; [unfold bin_args_ex; repeat (first [apply val_nil|apply val_this|apply val_other; [discriminate|]])|]. split; [repeat constructor|reflexivity].
  - exists [bs "fig,3"]. split; [unfold bin_args_ex; repeat (first [apply val_nil|apply val_this|apply val_other; [discriminate|]])|]. split; [discriminate|reflexivity].
Qed.
Lemma values_ex : values_of (keys_used two_keys) (bs "fig,3") [bs "fig"; bs "3"].
Proof. split; [reflexivity|]. split; [discriminate|]. split; [reflexivity|]. repeat constructor; vm_compute; intuition discriminate. Qed.
Definition out1 : list bytes := [ln "fig" "2"; ln "fig" "3"; ln "fig" "3"; ln "pear" "1"].
Definition out2 : list bytes := [bs "fig" ++ TAB :: bs "4"].
Lemma head_ok_ex path body : last path 0%N <> 47%N -> bfile_ok yes (mkbf path true fruit (headline fruit ++ body)).
Proof.
  intros P. split; [exact P|]. cbn [bf_head bf_data bf_names]. split; [eauto|]. split; [reflexivity|]. split; [discriminate|]. repeat constructor; vm_compute; intuition discriminate.
Qed.
Lemma each_ex : each (search_of exp_ex yes ctx_ex (keys_used two_keys) [bs "fig"; bs "3"]) 0 [file1; file2] [out1; out2].
Proof.
  assert (PL : forall f b, bf_names b = fruit -> placed_in (keys_used two_keys) f b).
  { intros f b E. unfold placed_in. rewrite E. repeat constructor; cbn; try (intros [|[|j]] L; [discriminate|lia|lia]); intros j L; lia. }
  assert (NL : ~ Exists (fun w => wk_cmp w = CLen) (keys_used two_keys)). { intros X. apply Exists_exists in X as (w & [<-|[<-|[]]] & X); discriminate. }
  apply each_cons; [|apply each_cons; [|apply each_nil]].
  - split; [apply head_ok_ex; discriminate|]. split; [apply PL; reflexivity|]. split.
    + split; [intros X; contradiction|]. split; [intros I; exfalso; vm_compute in I; intuition discriminate|]. right. left. reflexivity.
    + exists [headline fruit; ln "apple" "7"; ln "fig" "2"], [ln "fig" "3"; ln "fig" "3"], [ln "pear" "1"; ln "plum" "4"]. repeat (split; [first [reflexivity|repeat constructor]|]). reflexivity.
  - split; [apply head_ok_ex; discriminate|]. split; [apply PL; reflexivity|]. split.
    + split; [intros X; contradiction|]. split; [intros I; exfalso; vm_compute in I; intuition discriminate|]. right. right. reflexivity.
    + exists [headline fruit; ln "fig" "1"], [], [bs "fig" ++ TAB :: bs "4"]. repeat (split; [first [reflexivity|repeat constructor]|]). reflexivity.
Qed.
Example c79_headed_ex : ex_bin MMatch bin_args_ex (map (fun b => (bf_path b, bf_data b)) [file1; file2]) =
  (headline (bs "from" :: fruit) ++ concat (map (fun l => bs "sub/one.txt" ++ TAB :: l) out1) ++ bs "two.txt" ++ TAB :: bs "fig" ++ TAB :: bs "4" ++ [NL], Ok tt).
Proof.
  refine (eq_trans (c79_headed yes yes none none unit no_expr no_find no_eval no_eval_line f_zero exp_ex _ _ _ _ _ _ _ _ fruit bin_says_ex values_ex each_ex _ _ _ _) _); try discriminate; try reflexivity.
  - repeat constructor.
  - repeat constructor; vm_compute; intuition discriminate.
Qed.

Definition plain_lines : bytes := bs "ant" ++ [TAB] ++ bs "x" ++ [NL] ++ bs "bee" ++ [TAB] ++ bs "y" ++ [NL] ++ bs "cat".
Definition file3 : bfile := mkbf (bs "three") false (made_up 2) plain_lines.
Lemma bin_says_ex2 : bin_says (alphabetic none) (alphanumeric none) [(bs "pattern", bs "ox"); (bs "pattern", bs "bee")] [] None no_context (bs "bee").
Proof.
  split; [unfold bin_options; repeat (apply Forall_cons; [cbn [fst In]; auto 6|]); constructor|]. split; [repeat (first [apply val_nil|apply val_this|apply val_other; [discriminate|]])|].
  split; [constructor|]. split; [repeat (first [apply val_nil|apply val_this|apply val_other; [discriminate|]])|]. split; [exact I|]. split.
  - exists []. split; [repeat (first [apply val_nil|apply val_this|apply val_other; [discriminate|]])|]. split; [constructor|reflexivity].
  - exists [bs "ox"; bs "bee"]. split; [repeat (first [apply val_nil|apply val_this|apply val_other; [discriminate|]])|]. split; [discriminate|reflexivity].
Qed.
Example c79_headless_ex : ex_bin MStrip [(bs "pattern", bs "ox"); (bs "pattern", bs "bee")] [(bs "three", plain_lines)] = (bs "bee" ++ [TAB] ++ bs "y" ++ [NL], Ok tt).
Proof.
  refine (eq_trans (c79_headless yes yes none none unit no_expr no_find no_eval no_eval_line f_zero exp_ex MStrip _ [] None no_context (bs "bee") [bs "bee"] [file3] [[bs "bee" ++ [TAB] ++ bs "y" ++ [NL]]] bin_says_ex2 _ _ _ _) _);
    try discriminate; try reflexivity.
  - split; reflexivity.
  - apply each_cons; [|apply each_nil]. split; [split; [discriminate|]; split; [discriminate|reflexivity]|]. split; [repeat constructor|]. split.
    + split; [intros X; apply Exists_exists in X as (w & [<-|[]] & X); discriminate|]. split; [intros I; exfalso; vm_compute in I; intuition discriminate|]. right. right. reflexivity.
    + exists [bs "ant" ++ [TAB] ++ bs "x" ++ [NL]], [bs "bee" ++ [TAB] ++ bs "y" ++ [NL]], [bs "cat"]. repeat (split; [first [reflexivity|repeat constructor]|]). reflexivity.
  - repeat constructor.
Qed.

(** C79. In files sorted by the keys whose header is below the values, exactly the lines equal to the values are found. *)
Theorem c79_finds : forall utf8_ok name_ok uni_alpha uni_alnum expr expr_new expr_lookup expr_eval expr_eval_line expr_none exp10 args ws fs pat vs bfs outs names,
  bin_says (alphabetic uni_alpha) (alphanumeric uni_alnum) args ws fs no_context pat -> values_of (keys_used ws) pat vs -> Forall (fun w => plain_kind (wk_cmp w)) ws ->
  each (sorted_search exp10 utf8_ok (keys_used ws) vs) 0 bfs outs -> bfs <> [] -> Forall (fun b => bf_head b = true /\ bf_names b = names) bfs ->
  let new := match fs with Some f => fname_col f :: names | None => names end in
  Forall (fun x => ~ In TAB x /\ name_ok x = true /\ x <> []) new -> utf8_ok (join TAB new) = true ->
  bin_main utf8_ok name_ok uni_alpha uni_alnum expr expr_new expr_lookup expr_eval expr_eval_line expr_none exp10 MMatch args (map (fun b => (bf_path b, bf_data b)) bfs) =
    (headline new ++ all_shown fs bfs outs, Ok tt).
Proof.
  intros u no ua un ex exn exl exe exel exno e10 args ws fs pat vs bfs outs names S V P E NE SAME new F U.
  apply (c79_headed u no ua un ex exn exl exe exel exno e10 args ws fs no_context pat vs bfs outs names S V); auto.
  assert (PK : Forall (fun w => plain_kind (wk_cmp w)) (keys_used ws)) by (destruct ws; [repeat constructor|auto]).
  clear -E V PK SAME. revert SAME. induction E as [n|n b bfs o outs (B & PI & CL & body & D & H & SO & BL & ->) E IH]; intros SAME; [constructor|]. inversion SAME as [|? ? [H1 H2] SAME']; subst. constructor; auto.
  split; [auto|]. split; [auto|]. assert (W : whole (headline (bf_names b))).
  { destruct B as [_ B]. rewrite H1 in B. destruct B as (_ & _ & _ & FF). exists (bs " CDX" ++ TAB :: join TAB (bf_names b)). unfold headline. rewrite <- app_assoc. split; [reflexivity|]. intros I. apply in_app_iff in I as [I|[I|I]]; [vm_compute in I; intuition discriminate|discriminate I|].
    apply HdrProofs.in_join in I as [I|(f & I1 & I2)]; [discriminate|]. rewrite Forall_forall in FF. apply (FF f I1). auto. }
  unfold searchable. rewrite D, cut_head by auto. split.
  - split; [rewrite <- D; auto|]. split; [|right; right; reflexivity]. intros [I|I]; [discriminate I|auto].
  - apply found_below; auto. apply order_found, sorted_in_order; auto. apply V.
Qed.
Definition file4 : bfile := mkbf (bs "d/four") true fruit (headline fruit ++ concat [ln "apple" "7"; ln "fig" "2"; ln "fig" "3"; ln "pear" "3"; ln "plum" "4"]).
Lemma bin_says_ex3 : bin_says (alphabetic none) (alphanumeric none) [(bs "filename", bs "f:1"); (bs "pattern", bs "fig")] [] (Some (NamedParts (bs "f") 1)) no_context (bs "fig").
Proof.
  split; [unfold bin_options; repeat (apply Forall_cons; [cbn [fst In]; auto 6|]); constructor|]. split; [repeat (first [apply val_nil|apply val_this|apply val_other; [discriminate|]])|].
  split; [constructor|]. split; [repeat (first [apply val_nil|apply val_this|apply val_other; [discriminate|]])|]. split; [split; [vm_compute; intuition discriminate|reflexivity]|]. split.
  - exists []. split; [repeat (first [apply val_nil|apply val_this|apply val_other; [discriminate|]])|]. split; [constructor|reflexivity].
  - exists [bs "fig"]. split; [repeat (first [apply val_nil|apply val_this|apply val_other; [discriminate|]])|]. split; [discriminate|reflexivity].
Qed.
Example c79_finds_ex : ex_bin MMatch [(bs "filename", bs "f:1"); (bs "pattern", bs "fig")] [(bf_path file4, bf_data file4)] =
  (headline (bs "f" :: fruit) ++ bs "four" ++ TAB :: ln "fig" "2" ++ bs "four" ++ TAB :: ln "fig" "3", Ok tt).
Proof.
  refine (eq_trans (c79_finds yes yes none none unit no_expr no_find no_eval no_eval_line f_zero exp_ex _ _ _ _ [bs "fig"] [file4] [[ln "fig" "2"; ln "fig" "3"]] fruit bin_says_ex3 _ _ _ _ _ _ _) _);
    try discriminate; try reflexivity.
  - split; reflexivity.
  - constructor.
  - apply each_cons; [|apply each_nil]. split; [apply head_ok_ex; discriminate|]. split; [repeat constructor|]. split; [intros X; apply Exists_exists in X as (w & [<-|[]] & X); discriminate|].
    eexists. split; [reflexivity|]. split; [reflexivity|]. split; [unfold SortSpec.sorted; repeat constructor; discriminate|]. split; [intros I; exfalso; vm_compute in I; intuition discriminate|reflexivity].
  - repeat constructor.
  - repeat constructor; vm_compute; intuition discriminate.
Qed.

(** C79. Without a pattern, or without a file, or with a pattern whose parts are not as many as the keys, the tool ends with an error and writes nothing. *)
Theorem c79_refuses : forall utf8_ok name_ok uni_alpha uni_alnum expr expr_new expr_lookup expr_eval expr_eval_line expr_none exp10 md args files,
  let tool := bin_main utf8_ok name_ok uni_alpha uni_alnum expr expr_new expr_lookup expr_eval expr_eval_line expr_none exp10 md args in
  (forall ws fs cs, Forall (fun a => In (fst a) bin_options) args -> values (bs "key") args (map text_of_key ws) -> Forall (wanted_ok (alphabetic uni_alpha) (alphanumeric uni_alnum) []) ws ->
     values (bs "filename") args (match fs with Some f => [fname_text f] | None => [] end) -> match fs with Some f => fname_fit f | None => True end ->
     values (bs "context") args (map ctx_text cs) -> Forall ctx_small cs -> values (bs "pattern") args [] -> tool files = ([], Err)) /\
  (forall ws fs ctx pat, bin_says (alphabetic uni_alpha) (alphanumeric uni_alnum) args ws fs ctx pat -> tool [] = ([], Err)) /\
  (forall ws fs ctx vs, bin_says (alphabetic uni_alpha) (alphanumeric uni_alnum) args ws fs ctx (join 44 vs) -> Forall (fun v => ~ In 44%N v) vs -> vs <> [] ->
     List.length ws <> List.length vs -> 1 < List.length ws -> tool files = ([], Err)).
Proof.
  intros u no ua un ex exn exl exe exel exno e10 md args files tool.
  assert (R : forall ws fs cs ps, Forall (fun a => In (fst a) bin_options) args -> values (bs "key") args (map text_of_key ws) -> Forall (wanted_ok (alphabetic ua) (alphanumeric un) []) ws ->
     values (bs "filename") args (match fs with Some f => [fname_text f] | None => [] end) -> match fs with Some f => fname_fit f | None => True end ->
     values (bs "context") args (map ctx_text cs) -> Forall ctx_small cs -> values (bs "pattern") args ps ->
     exists c, bin_args ua un ex exn (bconf_new ex) args = Ok c /\ bc_pat c = last (map Some ps) None /\ List.length (bc_keys c) = List.length ws /\ bc_sub c = 44%N).
  { intros ws fs cs ps A1 A2 A3 A4 A5 A6 A7 A8. destruct (keys_made ua un ex exn ws A3) as (ks & K1 & K2). set (fts := match fs with Some f => [f] | None => [] end).
    assert (FT : map fname_text fts = match fs with Some f => [fname_text f] | None => [] end) by (destruct fs; reflexivity).
    rewrite (args_read ua un ex exn exl args A1 ws ks fts cs ps (bconf_new ex) A2 K1); auto; [|rewrite FT; auto|unfold fts; destruct fs; repeat constructor; auto|left; split; auto; unfold fts; destruct fs; cbn; lia].
    eexists. split; [reflexivity|]. split; [reflexivity|]. split; [|reflexivity]. cbn [bc_keys bconf_new app]. clear -K2. induction K2; cbn; auto. }
  assert (LS : forall ps : list bytes, ps <> [] -> last (map Some ps) None = Some (last ps [])). { induction ps as [|x [|y ps] IH]; intros N; [congruence|reflexivity|]. cbn [map last] in *. apply IH. discriminate. }
  split; [|split].
  - intros ws fs cs A1 A2 A3 A4 A5 A6 A7 A8. destruct (R ws fs cs [] A1 A2 A3 A4 A5 A6 A7 A8) as (c & E & P & _). unfold tool, bin_main. rewrite E. cbn [need]. rewrite P. reflexivity.
  - intros ws fs ctx pat (A1 & A2 & A3 & A4 & A5 & (cs & A6 & A7 & _) & (ps & A8 & A9 & _)). destruct (R ws fs cs ps A1 A2 A3 A4 A5 A6 A7 A8) as (c & E & P & _). unfold tool, bin_main. rewrite E. cbn [need].
    rewrite P, LS by auto. reflexivity.
  - intros ws fs ctx vs (A1 & A2 & A3 & A4 & A5 & (cs & A6 & A7 & _) & (ps & A8 & A9 & EP)) FV NV L L1. destruct (R ws fs cs ps A1 A2 A3 A4 A5 A6 A7 A8) as (c & E & P & K & SU). unfold tool, bin_main. rewrite E. cbn [need].
    rewrite P, LS by auto. destruct files as [|fl files]; [reflexivity|]. destruct (bc_keys c) as [|k1 [|k2 ks]] eqn:KE; [cbn in K; lia|cbn in K; lia|]. cbn [need]. unfold key_values, ll_values. rewrite map_length. cbn [List.length Nat.eqb].
    rewrite SU, <- EP, RawSplitProofs.bsplit_split_on, HdrProofs.split_on_join by auto. cbn [List.length] in K. replace (Nat.eqb (List.length vs) (S (S (List.length ks)))) with false; [reflexivity|].
    symmetry. apply Nat.eqb_neq. lia.
Qed.
Example c79_refuses_ex : ex_bin MMatch [(bs "key", bs "name"); (bs "key", bs "id"); (bs "pattern", bs "fig")] [(bf_path file1, bf_data file1)] = ([], Err) /\
  ex_bin MMatch [(bs "pattern", bs "fig")] [] = ([], Err) /\ ex_bin MMatch [] [(bf_path file1, bf_data file1)] = ([], Err).
Proof. repeat split; reflexivity. Qed.

Lemma args_two ua un ex exn : forall args, Forall (fun a => In (fst a) bin_options) args -> forall ws ks fts cs ps (c : bconf ex),
  values (bs "key") args (map text_of_key ws) -> Forall2 (fun w k => make_line_comp ua un ex exn (text_of_key w) = Ok k) ws ks ->
  values (bs "filename") args (map fname_text fts) -> Forall fname_fit fts -> (1 < List.length fts \/ bc_file c <> None /\ fts <> []) ->
  values (bs "context") args (map ctx_text cs) -> Forall ctx_small cs -> values (bs "pattern") args ps ->
  bin_args ua un ex exn c args = Err.
Proof.
  induction args as [|[n v] args IH]; intros KN ws ks fts cs ps c V1 K V2 FF FO V3 CS V4.
  - apply UniqMainProofs.val_none in V2. destruct fts; [|discriminate]. cbn [List.length] in FO. destruct FO as [X|[_ X]]; [lia|congruence].
  - inversion KN as [|? ? K1 K2]; subst. cbn [fst] in K1. unfold bin_options in K1. cbn [In] in K1. cbn [bin_args].
    destruct K1 as [<-|[<-|[<-|[<-|[]]]]].
    + apply UniqMainProofs.val_take in V1 as (r & E & V1). apply UniqMainProofs.val_skip in V2; [|discriminate]. apply UniqMainProofs.val_skip in V3; [|discriminate]. apply UniqMainProofs.val_skip in V4; [|discriminate].
      destruct ws as [|w ws]; [discriminate|]. cbn [map] in E. injection E as <- <-. inversion K as [|? k ? ks' Kw Ks]; subst.
      unfold bin_arg. change (beq (bs "key") (bs "key")) with true. cbn iota. rewrite Kw. cbn [rbind]. apply (IH K2 ws ks' fts cs ps _ V1 Ks V2 FF); auto.
    + apply UniqMainProofs.val_skip in V1; [|discriminate]. apply UniqMainProofs.val_take in V2 as (r & E & V2). apply UniqMainProofs.val_skip in V3; [|discriminate]. apply UniqMainProofs.val_skip in V4; [|discriminate].
      destruct fts as [|f fts]; [discriminate|]. cbn [map] in E. injection E as <- <-. inversion FF as [|? ? F1 F2]; subst.
      unfold bin_arg. change (beq (bs "filename") (bs "key")) with false. change (beq (bs "filename") (bs "filename")) with true. cbn iota.
      destruct (bc_file c) eqn:FN; [reflexivity|]. destruct FO as [X|[X _]]; [|congruence]. rewrite fn_set_ok by auto. cbn [rbind]. apply (IH K2 ws ks fts cs ps _ V1 K V2 F2); auto.
      right. cbn [bc_file]. split; [discriminate|]. destruct fts; [cbn in X; lia|discriminate].
    + apply UniqMainProofs.val_skip in V1; [|discriminate]. apply UniqMainProofs.val_skip in V2; [|discriminate]. apply UniqMainProofs.val_take in V3 as (r & E & V3). apply UniqMainProofs.val_skip in V4; [|discriminate].
      destruct cs as [|x cs]; [discriminate|]. cbn [map] in E. injection E as <- <-. inversion CS as [|? ? C1 C2]; subst.
      unfold bin_arg. change (beq (bs "context") (bs "key")) with false. change (beq (bs "context") (bs "filename")) with false. change (beq (bs "context") (bs "context")) with true. cbn iota.
      rewrite ctx_set_ok by auto. cbn [rbind]. apply (IH K2 ws ks fts cs ps _ V1 K V2 FF); auto.
    + apply UniqMainProofs.val_skip in V1; [|discriminate]. apply UniqMainProofs.val_skip in V2; [|discriminate]. apply UniqMainProofs.val_skip in V3; [|discriminate]. apply UniqMainProofs.val_take in V4 as (r & -> & V4).
      unfold bin_arg. change (beq (bs "pattern") (bs "key")) with false. change (beq (bs "pattern") (bs "filename")) with false. change (beq (bs "pattern") (bs "context")) with false.
      change (beq (bs "pattern") (bs "subdelim")) with false. change (beq (bs "pattern") (bs "pattern")) with true. cbn iota. cbn [rbind]. apply (IH K2 ws ks fts cs r _ V1 K V2 FF); auto.
Qed.
(** C79. With more than one file name column asked for, the tool ends with an error and writes nothing. *)
Theorem c79_one_filename : forall utf8_ok name_ok uni_alpha uni_alnum expr expr_new expr_lookup expr_eval expr_eval_line expr_none exp10 md args files ws fts cs ps,
  Forall (fun a => In (fst a) bin_options) args -> values (bs "key") args (map text_of_key ws) -> Forall (wanted_ok (alphabetic uni_alpha) (alphanumeric uni_alnum) []) ws ->
  values (bs "filename") args (map fname_text fts) -> Forall fname_fit fts -> 1 < List.length fts ->
  values (bs "context") args (map ctx_text cs) -> Forall ctx_small cs -> values (bs "pattern") args ps ->
  bin_main utf8_ok name_ok uni_alpha uni_alnum expr expr_new expr_lookup expr_eval expr_eval_line expr_none exp10 md args files = ([], Err).
Proof.
  intros u no ua un ex exn exl exe exel exno e10 md args files ws fts cs ps A1 A2 A3 A4 A5 A6 A7 A8 A9. destruct (keys_made ua un ex exn ws A3) as (ks & K1 & K2).
  unfold bin_main. rewrite (args_two ua un ex exn args A1 ws ks fts cs ps (bconf_new ex) A2 K1 A4 A5 (or_introl A6) A7 A8 A9). reflexivity.
Qed.
Example c79_one_filename_ex : ex_bin MMatch [(bs "filename", bs "f:1"); (bs "pattern", bs "fig"); (bs "filename", bs "g:2")] [(bf_path file4, bf_data file4)] = ([], Err).
Proof.
  refine (c79_one_filename yes yes none none unit no_expr no_find no_eval no_eval_line f_zero exp_ex MMatch _ _ [] [NamedParts (bs "f") 1; NamedParts (bs "g") 2] [] [bs "fig"] _ _ _ _ _ _ _ _ _); cbn [map].
  - unfold bin_options; repeat (apply Forall_cons; [cbn [fst In]; auto 6|]); constructor.
  - repeat (first [apply val_nil|apply val_this|apply val_other; [discriminate|]]).
  - constructor.
  - repeat (first [apply val_nil|apply val_this|apply val_other; [discriminate|]]).
  - repeat (apply Forall_cons; [split; [vm_compute; intuition discriminate|reflexivity]|]); constructor.
  - cbn; lia.
  - repeat (first [apply val_nil|apply val_this|apply val_other; [discriminate|]]).
  - constructor.
  - repeat (first [apply val_nil|apply val_this|apply val_other; [discriminate|]]).
Qed.

(** C79. A header may say what separates the columns, and other tools go by it; the columns of the lines are always taken to be separated by tabs, so that
    nothing is found. *)
Theorem c79_delim_refuted : exists data, firstn 9 data = bs " CDX,a,b" ++ [NL] /\ skipn 9 data = bs "1,x" ++ [NL] ++ bs "2,y" ++ [NL] /\
  ex_bin MMatch [(bs "key", bs "b"); (bs "pattern", bs "y")] [(bs "f", data)] = (firstn 9 data, Ok tt).
Proof. exists (bs " CDX,a,b" ++ [NL] ++ bs "1,x" ++ [NL] ++ bs "2,y" ++ [NL]). vm_compute. auto. Qed.
(** C79. A key for whole lines never finds a line, as the line end belongs to the line searched. *)
Theorem c79_whole_refuted : exists data, data = bs "abc" ++ [NL] /\
  ex_bin MMatch [(bs "key", bs ",plain"); (bs "pattern", bs "abc")] [(bs "f", data)] = ([], Ok tt).
Proof. eexists. split; [reflexivity|]. vm_compute. reflexivity. Qed.
(** C79. Lines of context before the first line include the header, which has been written already. *)
Theorem c79_context_refuted : exists data h, data = h ++ bs "abc" ++ [NL] /\ h = bs " CDX" ++ [TAB] ++ bs "x" ++ [NL] /\
  ex_bin MMatch [(bs "context", bs "1"); (bs "pattern", bs "abc")] [(bs "f", data)] = (h ++ h ++ bs "abc" ++ [NL], Ok tt).
Proof. do 2 eexists. split; [reflexivity|]. split; [reflexivity|]. vm_compute. reflexivity. Qed.
(** C79. A file name column without a number of parts shows no part of the path: the column is there, but empty. *)
Theorem c79_filename_refuted : exists data, data = bs " CDX" ++ [TAB] ++ bs "x" ++ [NL] ++ bs "abc" ++ [NL] /\
  ex_bin MMatch [(bs "filename", bs "file"); (bs "pattern", bs "abc")] [(bs "d/f.txt", data)] =
    (bs " CDX" ++ [TAB] ++ bs "file" ++ [TAB] ++ bs "x" ++ [NL] ++ [TAB] ++ bs "abc" ++ [NL], Ok tt).
Proof. eexists. split; [reflexivity|]. vm_compute. reflexivity. Qed.
(** C79. A file name column given by the number of parts only has no name, and files with a header are refused, whatever they are. *)
Theorem c79_parts_refuted : exists args, args = [(bs "filename", bs "1"); (bs "pattern", bs "abc")] /\ forall utf8_ok name_ok uni_alpha uni_alnum expr expr_new expr_lookup expr_eval expr_eval_line expr_none exp10 b rest,
  name_ok [] = false -> bfile_ok utf8_ok b -> bf_head b = true ->
  bin_main utf8_ok name_ok uni_alpha uni_alnum expr expr_new expr_lookup expr_eval expr_eval_line expr_none exp10 MMatch args ((bf_path b, bf_data b) :: rest) = ([], Err).
Proof.
  eexists. split; [reflexivity|]. intros u no ua un ex exn exl exe exel exno e10 b rest NO B H. unfold bin_main.
  assert (R : bin_args ua un ex exn (bconf_new ex) [(bs "filename", bs "1"); (bs "pattern", bs "abc")] = Ok (mkbc [] (Some (fn_of (OnlyParts 1))) (ctx_of no_context) 44 (Some (bs "abc")))) by reflexivity.
  rewrite R.
  cbn [need bc_pat bc_keys]. destruct (key_made ua un ex exn first_column) as (k & E1 & E2).
  { split; [discriminate|]. split; [repeat constructor; cbn; lia|]. split; [exact I|]. split; [right; split; [constructor|reflexivity]|]. split; [right; right; right; left; reflexivity|]. split; [|intros f names X; destruct f; discriminate].
    split; [discriminate|]. intros (w & [] & _). }
  change (text_of_key first_column) with (bs "1") in E1. rewrite E1. cbn [rbind need]. cbn [key_values]. unfold key_values. cbn [map ll_values List.length Nat.eqb]. unfold ll_values. cbn [List.length Nat.eqb need bin_files].
  destruct (mm_new_ok u no ua un ex exn exl exel b B) as (m & -> & M1 & M2 & M3 & M4). cbn [need bc_file].
  pose proof (bin_head_ok (Some (OnlyParts 1)) b m M3 M4) as BH. cbn [option_map] in BH. rewrite BH; [|destruct B as [_ B]; rewrite H in B; left; apply B].
  unfold check. assert (VC : is_valid_cdx u no MMatch (new_headline (Some (OnlyParts 1)) b) = Err).
  { unfold new_headline. rewrite H. cbn [fname_col]. unfold is_valid_cdx. destruct B as [_ B]. rewrite H in B. destruct B as (_ & _ & NE & FF).
    replace (headline ([] :: bf_names b)) with ((CDX ++ TAB :: join TAB ([] :: bf_names b)) ++ [NL]) by (unfold headline; rewrite <- app_assoc; reflexivity).
    replace (starts_with ((CDX ++ TAB :: join TAB ([] :: bf_names b)) ++ [NL]) CDX) with true by reflexivity. cbn [negb]. rewrite last_last, N.eqb_refl, removelast_last.
    rewrite StrProofs.join_cons by auto. destruct (_ <? 6)%nat; [reflexivity|]. change (nth 4 (CDX ++ TAB :: [] ++ TAB :: join TAB (bf_names b)) 0%N) with TAB.
    change (skipn 5 (CDX ++ TAB :: [] ++ TAB :: join TAB (bf_names b))) with (TAB :: join TAB (bf_names b)). cbn [bad_delim]. change (bad_delim TAB) with false. cbn iota.
    destruct (u (TAB :: join TAB (bf_names b))); cbn [negb]; [|reflexivity]. change (TAB :: join TAB (bf_names b)) with ([] ++ TAB :: join TAB (bf_names b)). rewrite JoinProps.split_on_sep by auto. cbn [forallb]. rewrite NO. reflexivity. }
  rewrite VC. reflexivity.
Qed.
(** C79. The option for another separator of the parts ends the tool, whatever the files. *)
Theorem c79_sub_delim_refuted : exists args, In (bs "sub-delim", bs ";") args /\ forall files, ex_bin MMatch args files = ([], Panic).
Proof. exists [(bs "pattern", bs "a;b"); (bs "sub-delim", bs ";")]. split; [right; left; reflexivity|]. intros files. reflexivity. Qed.
