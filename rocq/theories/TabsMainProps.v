(** C82: the tabs tool. *)
From Coq Require Import String List NArith ZArith Bool Arith Lia.
Open Scope list_scope.
Import ListNotations.
From Verif Require Import Base TextSpec TextModel ReadSpec ReadModel ReadProofs HdrModel ToolModel ToolOpen TurnProofs OrderSpec PasteSpec TabsModel TabsSpec TabsProofs TabsProps TabsMain TabsMainSpec TabsMainProofs.
From Verif Require PasteProofs JoinMain JoinMainProps OrderProps.
Close Scope Z_scope. Open Scope nat_scope.

(** One file: its table, on as many lines as the screen has, columns as wide as they can be. *)
Theorem c82_one : forall utf8_ok width cut lossy md ws W H name s f, cuts width cut -> (forall l, lossy (l ++ [NL]) = lossy l ++ [NL]) ->
  tm_quote md = QPlain -> tm_break md = NL -> tm_delim md <> NL -> screen_of ws W H -> PasteProofs.shows utf8_ok md s f -> fits lossy (tm_delim md) W f ->
  exists out used, tabs_main utf8_ok width cut lossy md ws [(name, s)] = (lines_text out, Ok tt) /\ shown_as width cut lossy (tm_delim md) W H f out used.
Proof. intros. eapply tabs_one; eauto. Qed.

(** Several files, three lines of screen for each, or two and no headers: every file with its name in the middle above it, on its share of the lines. *)
Theorem c82_several : forall utf8_ok width cut lossy md ws W H files fs, cuts width cut -> (forall l, lossy (l ++ [NL]) = lossy l ++ [NL]) ->
  tm_quote md = QPlain -> tm_break md = NL -> tm_delim md <> NL -> screen_of ws W H -> List.length files <> 1 ->
  Forall2 (fun x f => PasteProofs.shows utf8_ok md (snd x) f) files fs -> Forall (fits lossy (tm_delim md) W) fs ->
  2 * List.length files <= H -> 3 * List.length files <= S H \/ Forall (fun f => sh_head f = []) fs ->
  exists bs, tabs_main utf8_ok width cut lossy md ws files = (lines_text (stack bs), Ok tt) /\
    shares width cut lossy (tm_delim md) W (H - 2 * List.length files + 1) (combine (map fst files) fs) bs.
Proof. intros. eapply tabs_several; eauto. Qed.

(** All of it is on the screen at once: no more lines than it has, and none wider than it, where widths add up. *)
Lemma sum_firstn : forall k l, sum (firstn k l) <= sum l.
Proof. induction k as [|k IH]; intros [|x l]; cbn [firstn sum fold_right]; auto; try lia. specialize (IH l). unfold sum in *. lia. Qed.
Lemma shown_narrow width cut lossy delim W h f out used : (forall a b, width (a ++ b) = width a + width b) -> width [32%N] = 1 -> cuts width cut -> fits lossy delim W f ->
  shown_as width cut lossy delim W h f out used -> used <= W /\ Forall (fun t => width t <= W) out.
Proof.
  intros Add Blank C FT (wide & sizes & L & _ & [B1 B2 B3 B4] & U & T). destruct FT as [NW FC]. assert (used <= W) by lia. split; auto.
  assert (One : forall c r t, List.length r <= List.length (sh_names f) -> line_of width cut sizes c r t -> width t <= W).
  { intros c r t Hr Ht. rewrite (line_width width cut Add Blank sizes c r t) by (auto; lia). pose proof (sum_firstn (List.length r) sizes). lia. }
  assert (FR : Forall (fun r => List.length r <= List.length (sh_names f)) (top_rows lossy delim h f)).
  { apply Forall_forall. intros r I. unfold top_rows in I. assert (J : In r (all_rows lossy delim f)) by (rewrite <- (firstn_skipn (Nat.max h (if has_head f then 1 else 0))); apply in_or_app; auto).
    unfold all_rows in J. apply in_app_iff in J as [J|J]; [destruct (has_head f); [destruct J as [<-|[]]; auto|destruct J]|]. apply in_map_iff in J as (l & <- & J). rewrite Forall_forall in FC. apply FC, J. }
  destruct (top_rows lossy delim h f) as [|r rs], out as [|t ts]; cbn [table_of] in T; try contradiction; [constructor|]. destruct T as [T1 T2]. inversion FR as [|? ? F1 F2]; subst.
  constructor; [eapply One; eauto|]. clear - One F2 T2. induction T2; [constructor|]. inversion F2; subst. constructor; eauto.
Qed.
Theorem c82_fits : forall utf8_ok width cut lossy md ws W H files fs, cuts width cut -> (forall l, lossy (l ++ [NL]) = lossy l ++ [NL]) ->
  (forall a b, width (a ++ b) = width a + width b) -> width [32%N] = 1 -> width [45%N] = 1 -> (forall t, width t <= List.length t) ->
  tm_quote md = QPlain -> tm_break md = NL -> tm_delim md <> NL -> screen_of ws W H -> 2 <= List.length files ->
  Forall2 (fun x f => PasteProofs.shows utf8_ok md (snd x) f) files fs -> Forall (fits lossy (tm_delim md) W) fs ->
  2 * List.length files <= H -> 3 * List.length files <= S H \/ Forall (fun f => sh_head f = []) fs ->
  exists ls, tabs_main utf8_ok width cut lossy md ws files = (lines_text ls, Ok tt) /\ List.length ls <= H /\ Forall (fun l => width l <= W) ls.
Proof.
  intros u width cut lossy md ws W H files fs C LO Add Blank Rule Small P B D SC N F FF H2 H3.
  destruct (c82_several u width cut lossy md ws W H files fs C LO P B D SC ltac:(lia) F FF H2 H3) as (bs & E & S). exists (stack bs). split; [exact E|].
  assert (LEN : List.length files = List.length fs) by (clear -F; induction F; cbn; auto).
  assert (LC : List.length (combine (map fst files) fs) = List.length files) by (rewrite combine_length, map_length, LEN; apply Nat.min_id).
  split.
  - pose proof (shares_length u width cut lossy md LO B D W _ _ _ S) as L. rewrite LC in L. assert (combine (map fst files) fs <> []) by (intros X; rewrite X in LC; cbn in LC; lia). specialize (L H0). lia.
  - assert (FC : Forall (fun nf => fits lossy (tm_delim md) W (snd nf)) (combine (map fst files) fs)).
    { apply Forall_forall. intros [n f] I. apply in_combine_r in I. rewrite Forall_forall in FF. apply FF, I. }
    clear - S FC C Add Blank Rule Small. assert (Blanks : forall ch n, width [ch] = 1 -> width (repeat ch n) = n).
    { intros ch n X. induction n as [|n IH]; [|change (repeat ch (Datatypes.S n)) with ([ch] ++ repeat ch n); rewrite Add, X, IH; auto]. pose proof (Small []). cbn in *. lia. }
    induction S as [|left name f rest t out used more A T LE S IH]; [constructor|]. inversion FC as [|? ? F1 F2]; subst. cbn [snd] in F1.
    destruct (shown_narrow width cut lossy (tm_delim md) W _ f out used Add Blank C F1 A) as [U O].
    assert (TT : Forall (fun l => width l <= W) t).
    { unfold title in T. destruct (Nat.ltb_spec used (List.length name)); [subst; constructor|]. destruct T as (l & r & -> & Q & _). constructor; [|constructor].
      rewrite !Add, !Blanks by auto. pose proof (Small name). lia. }
    specialize (IH F2). destruct more as [|m more].
    + cbn [stack]. apply Forall_app. auto.
    + change (stack ((t, out, used) :: m :: more)) with (t ++ out ++ repeat 45%N used :: stack (m :: more)). apply Forall_app. split; auto. apply Forall_app. split; auto.
      constructor; auto. rewrite Blanks by auto. exact U.
Qed.

(** Every file gets an equal share of the lines, or all it needs. *)
Theorem c82_share : forall utf8_ok width cut lossy md ws W H files fs, cuts width cut -> (forall l, lossy (l ++ [NL]) = lossy l ++ [NL]) ->
  tm_quote md = QPlain -> tm_break md = NL -> tm_delim md <> NL -> screen_of ws W H -> 2 <= List.length files ->
  Forall2 (fun x f => PasteProofs.shows utf8_ok md (snd x) f) files fs -> Forall (fits lossy (tm_delim md) W) fs ->
  2 * List.length files <= H -> 3 * List.length files <= S H \/ Forall (fun f => sh_head f = []) fs ->
  exists bs, tabs_main utf8_ok width cut lossy md ws files = (lines_text (stack bs), Ok tt) /\
    Forall2 (fun f b => exists h, (H - 2 * List.length files + 1) / List.length files <= h /\ shown_as width cut lossy (tm_delim md) W h f (snd (fst b)) (snd b) /\
                                  Nat.min ((H - 2 * List.length files + 1) / List.length files) (List.length (all_rows lossy (tm_delim md) f)) <= List.length (snd (fst b))) fs bs.
Proof.
  intros u width cut lossy md ws W H files fs C LO P B D SC N F FF H2 H3.
  destruct (c82_several u width cut lossy md ws W H files fs C LO P B D SC ltac:(lia) F FF H2 H3) as (bs & E & S). exists bs. split; [exact E|].
  assert (LEN : List.length files = List.length fs) by (clear -F; induction F; cbn; auto). clear E H3.
  remember ((H - 2 * List.length files + 1) / List.length files) as q eqn:Q. assert (QL : q * List.length files <= H - 2 * List.length files + 1).
  { subst q. rewrite Nat.mul_comm. apply Nat.mul_div_le. lia. }
  clear Q. remember (H - 2 * List.length files + 1) as left. clear Heqleft. clear - S LEN QL.
  revert left bs S QL. revert fs LEN. induction files as [|x files IH]; intros [|f fs] LEN left bs S QL; try discriminate; cbn [map combine fst] in S; inversion S as [|? ? ? ? t out used more A T LE S']; subst; constructor.
  - cbn [fst snd]. injection LEN as LEN. rewrite combine_length, map_length, LEN, Nat.min_id in A. exists (left / Datatypes.S (List.length fs)).
    assert (q <= left / Datatypes.S (List.length fs)) by (apply Nat.div_le_lower_bound; [lia|cbn [List.length] in QL; lia]). split; auto. split; auto.
    destruct A as (wide & sizes & _ & _ & _ & _ & A). apply (table_length width cut) in A. rewrite top_length in A. lia.
  - injection LEN as LEN. apply (IH fs LEN (left - List.length out) more S'). destruct A as (wide & sizes & _ & _ & _ & _ & A). apply (table_length width cut) in A. rewrite top_length in A.
    rewrite combine_length, map_length, LEN, Nat.min_id in A. cbn [List.length] in QL. rewrite LEN in *.
    pose proof (Nat.div_mod left (Datatypes.S (List.length fs)) ltac:(lia)) as D. destruct q as [|q]; [lia|].
    assert (Datatypes.S q <= left / Datatypes.S (List.length fs)) by (apply Nat.div_le_lower_bound; nia).
    assert (List.length out <= left / Datatypes.S (List.length fs)) by (destruct (has_head f); lia). nia.
Qed.

(** Three lines of screen for each file are needed if all have headers. *)
Theorem c82_crowded : forall utf8_ok width cut lossy md ws W H files fs, cuts width cut -> (forall l, lossy (l ++ [NL]) = lossy l ++ [NL]) ->
  tm_quote md = QPlain -> tm_break md = NL -> tm_delim md <> NL -> screen_of ws W H -> Forall2 (fun x f => PasteProofs.shows utf8_ok md (snd x) f) files fs ->
  Forall (fits lossy (tm_delim md) W) fs -> Forall (fun f => sh_head f <> []) fs -> 2 <= List.length files -> S H < 3 * List.length files ->
  snd (tabs_main utf8_ok width cut lossy md ws files) = Panic.
Proof. intros. eapply tabs_crowded; eauto. Qed.

(** A file alone is shown or not at all: it fits the screen, or a line that would be on it has too many fields, or there are more columns than characters. *)
Theorem c82_wide : forall utf8_ok width cut lossy md ws W H name s f, (forall l, lossy (l ++ [NL]) = lossy l ++ [NL]) ->
  tm_quote md = QPlain -> tm_break md = NL -> tm_delim md <> NL -> screen_of ws W H -> PasteProofs.shows utf8_ok md s f ->
  W < List.length (sh_names f) \/ Exists (fun r => List.length (sh_names f) < List.length r) (top_rows lossy (tm_delim md) H f) ->
  tabs_main utf8_ok width cut lossy md ws [(name, s)] = ([], Panic).
Proof.
  intros u width cut lossy md ws W H name s f LO P B D SC S X. apply screen_is in SC. unfold tabs_main. rewrite SC. cbn [need].
  destruct (show_file_is u width cut lossy md LO P B D s f W H S) as [(_ & E1 & E2 & E3)|E].
  - exfalso. rewrite E3 in X. destruct X as [X|X]; [cbn in X; lia|]. unfold top_rows, all_rows, has_head in X. rewrite E1, E2 in X. cbn [map app] in X. rewrite firstn_nil in X. inversion X.
  - rewrite E. destruct X as [X|X].
    + rewrite (c38_narrow width cut _ _ _ W H X). reflexivity.
    + unfold show2. rewrite (shown_top lossy md B D f H). rewrite widen_all_short; [reflexivity|]. rewrite repeat_length. exact X.
Qed.

(** The library function that shows a file on the whole screen does the same as the tool. *)
Theorem c82_basic : forall utf8_ok width cut lossy md ws name s W H, screen_of ws W H -> 1 <= W ->
  basic utf8_ok width cut lossy md ws s = tabs_main utf8_ok width cut lossy md ws [(name, s)].
Proof.
  intros u width cut lossy md ws name s W H SC L. apply screen_is in SC. unfold basic, tabs_main, show. rewrite SC. cbn [need]. destruct (Nat.ltb_spec W 1); [lia|]. reflexivity.
Qed.

(** Examples: one character per byte, all text valid. *)
Definition ex_tabs := tabs_main OrderProps.yes (@List.length N) ex_cut (fun t => t) JoinMain.join_mode.
Definition ex_fs : list PasteSpec.shown := [mkshown (headline JoinMainProps.nm0) JoinMainProps.nm0 JoinMainProps.ls0; mkshown (headline JoinMainProps.nm1) JoinMainProps.nm1 JoinMainProps.ls1].
Definition ex_files : list (bytes * src) := [(bs "a.txt", JoinMainProps.src0); (bs "bb", JoinMainProps.src1)].
Lemma ex_fs_shown : Forall2 (fun x f => PasteProofs.shows OrderProps.yes JoinMain.join_mode (snd x) f) ex_files ex_fs /\ Forall (fits (fun t => t) TAB 14) ex_fs.
Proof. split; [constructor; [apply JoinMainProps.ex_shows|constructor; [apply JoinMainProps.ex_shows|constructor]]|]. repeat constructor. Qed.
Example c82_one_ex : screen_of (Some (4, 10)) 10 3 /\ fits (fun t => t) TAB 10 (hd (mkshown [] [] []) ex_fs) /\
  ex_tabs (Some (4, 10)) (firstn 1 ex_files) = (lines_text [bs "id animal"; bs "7  ant   "; bs "2  bee   "], Ok tt) /\
  ex_tabs (Some (4, 8)) (firstn 1 ex_files) = (lines_text [bs "id anim"; bs "7  ant "; bs "2  bee "], Ok tt).
Proof. split; [split; reflexivity|]. split; [repeat constructor|]. split; vm_compute; reflexivity. Qed.
(** Eleven lines: eight for the tables, of which the first needs its four, so that four are left for the second. *)
Example c82_several_ex : screen_of (Some (12, 16)) 16 11 /\ 3 * List.length ex_files <= 12 /\
  ex_tabs (Some (12, 16)) ex_files = (lines_text [bs "  a.txt   "; bs "id animal"; bs "7  ant   "; bs "2  bee   "; bs "5  bee   "; bs "----------"; bs "       bb       "; bs "kind legs wings"; bs "bee  6    4    "; bs "cow  4    0    "; bs "dog  4    0    "], Ok tt).
Proof. split; [split; reflexivity|]. split; [cbn; lia|vm_compute; reflexivity]. Qed.
Example c82_fits_ex : (forall t : bytes, List.length t <= List.length t) /\ (forall a b : bytes, List.length (a ++ b) = List.length a + List.length b) /\
  ex_tabs (Some (6, 14)) ex_files = (lines_text [bs "  a.txt   "; bs "id animal"; bs "----------"; bs "      bb      "; bs "kin legs wing"], Ok tt).
Proof. split; [auto|]. split; [apply app_length|vm_compute; reflexivity]. Qed.
Example c82_share_ex : 2 <= List.length ex_files /\ (9 - 2 * List.length ex_files + 1) / List.length ex_files = 3 /\
  ex_tabs (Some (10, 14)) ex_files =
    (lines_text [bs "  a.txt   "; bs "id animal"; bs "7  ant   "; bs "2  bee   "; bs "----------"; bs "      bb      "; bs "kin legs wing"; bs "bee 6    4   "; bs "cow 4    0   "], Ok tt).
Proof. split; [cbn; lia|]. split; [reflexivity|vm_compute; reflexivity]. Qed.
Example c82_crowded_ex : screen_of (Some (5, 14)) 14 4 /\ Forall (fun f => sh_head f <> []) ex_fs /\ ex_tabs (Some (5, 14)) ex_files = (lines_text [bs "  a.txt   "; bs "id animal"; bs "----------"; bs "      bb      "; bs "kin legs wing"], Panic) /\
  ex_tabs (Some (4, 14)) ex_files = ([], Panic).
Proof. split; [split; reflexivity|]. split; [repeat constructor; discriminate|]. split; vm_compute; reflexivity. Qed.
Definition wide_src : src := mksrc [] [headline JoinMainProps.nm0 ++ JoinMainProps.ln3 "1" "2" "3"].
Example c82_wide_ex : Exists (fun r => 2 < List.length r) (top_rows (fun t => t) TAB 9 (mkshown (headline JoinMainProps.nm0) JoinMainProps.nm0 [JoinMainProps.ln3 "1" "2" "3"])) /\
  ex_tabs (Some (10, 80)) [([], wide_src)] = ([], Panic) /\ ex_tabs (Some (2, 80)) [([], wide_src)] = (lines_text [bs "id animal"], Ok tt).
Proof. split; [right; left; vm_compute; lia|]. split; vm_compute; reflexivity. Qed.
Example c82_basic_ex : screen_of None 100 24 /\ basic OrderProps.yes (@List.length N) ex_cut (fun t => t) JoinMain.join_mode None (mksrc [] [bs "x"]) = (lines_text [bs "x"], Ok tt).
Proof. split; [split; reflexivity|vm_compute; reflexivity]. Qed.

(** Not every number of files that can be shown one by one can be shown together: nine on the screen of 24 lines. *)
Theorem c82_many_refuted : exists files, List.length files = 9 /\ Forall (fun x => snd (ex_tabs None [x]) = Ok tt) files /\ snd (ex_tabs None files) = Panic.
Proof. exists (repeat (bs "f", mksrc [] [headline [bs "id"]]) 9). split; [reflexivity|]. split; [repeat constructor|]. vm_compute. reflexivity. Qed.
(** A name longer than the table is wide is not shown at all. *)
Theorem c82_title_refuted : exists name s out c, ex_tabs None [(name, s); (name, s)] = (out, Ok tt) /\ In c name /\ ~ In c out.
Proof.
  exists (bs "long.txt"), (mksrc [] [headline [bs "id"]]), (lines_text [bs "id"; bs "---"; bs "id"]), 120%N. split; [vm_compute; reflexivity|].
  split; [vm_compute; tauto|vm_compute; intuition discriminate].
Qed.
(** The name of an empty file is not shown either, and the rule below it is an empty line. *)
Theorem c82_empty_refuted : exists name c, ex_tabs None [(name, mksrc [] []); (name, mksrc [] [])] = ([NL], Ok tt) /\ In c name.
Proof. exists (bs "f"), 102%N. split; [vm_compute; reflexivity|left; reflexivity]. Qed.
(** A file with escapes all of whose lines have as many fields as the header, but with an escaped delimiter: a panic. *)
Theorem c82_escape_refuted : exists names ls s, content s = headline names ++ concat ls /\ Forall (fun l => List.length (mode_columns QBackslash l TAB) = List.length names) ls /\
  tabs_main OrderProps.yes (@List.length N) ex_cut (fun t => t) (mkmode HMaybe QBackslash TAB NL) None [(bs "f", s)] = ([], Panic).
Proof.
  exists [bs "a"; bs "b"], [bs "x" ++ BSL :: TAB :: bs "y" ++ TAB :: bs "z" ++ [NL]].
  exists (mksrc [] [headline [bs "a"; bs "b"] ++ concat [bs "x" ++ BSL :: TAB :: bs "y" ++ TAB :: bs "z" ++ [NL]]]). split; [reflexivity|]. split; [repeat constructor|]. vm_compute. reflexivity.
Qed.
(** A terminal that does not know its size stops the tool, where without a terminal it works. *)
Theorem c82_no_size_refuted : exists files, snd (ex_tabs None files) = Ok tt /\ ex_tabs (Some (0, 0)) files = ([], Panic).
Proof. exists [(bs "f", mksrc [] [headline [bs "id"]])]. split; vm_compute; reflexivity. Qed.
(** On a terminal without columns the library function stops, where the tool shows an empty file. *)
Theorem c82_no_columns_refuted : exists name s, ex_tabs (Some (5, 0)) [(name, s)] = ([], Ok tt) /\
  basic OrderProps.yes (@List.length N) ex_cut (fun t => t) JoinMain.join_mode (Some (5, 0)) s = ([], Panic).
Proof. exists (bs "f"), (mksrc [] []). split; vm_compute; reflexivity. Qed.
