(** C76: the join tool. *)
From Coq Require Import String List NArith ZArith Bool Arith Lia Sorting.Sorted.
Open Scope list_scope.
Import ListNotations.
From Verif Require Import Base TextSpec TextModel TextProofs StrSpec StrModel StrProofs FloatModel ReadSpec ReadModel ReadProofs HdrModel HdrProofs CompModel CompSpec OrdProofs LineSpec LineProofs
  ColModel ColSpec ColProofs ColProps MatchModel MatchText TransProofs SortSpec KeySpec KeyModel KeyProofs KeyProps ToolModel ToolOpen TurnSpec TurnProofs PasteSpec PasteProofs OrderSpec OrderProofs OrderTool
  JoinSpec JoinProofs JoinMain JoinMainSpec JoinMainProofs JoinMainTool.
From Verif Require JoinModel JoinProps OrderProps FmtProps HdrProps.
Close Scope Z_scope. Open Scope nat_scope.

(** Two files sorted by the keys, the second without repeated keys: the main output is the header, if the first file has one, and for every line of the
    first file with a partner the chosen columns of both; every other output is the header of its file and the lines of it without partner. *)
Theorem c76_join : forall utf8_ok uni_alpha uni_alnum T trans_make match_make expr expr_new expr_lookup expr_eval expr_eval_line expr_none exp10 expr_used
    args ws askss alsos outs s0 s1 f0 f1 cols,
  join_known args -> values (bs "key") args (map text_of_key ws) -> values (bs "output") args (map output_text askss) ->
  values (bs "file") args outs -> values (bs "also") args (map also_text alsos) ->
  Forall (wanted_ok (alphabetic uni_alpha) (alphanumeric uni_alnum) [sh_names f0; sh_names f1]) ws -> Forall (fun w => plain_kind (wk_cmp w)) ws ->
  Forall (fun a => a <> [] /\ Forall (ask_ok (alphabetic uni_alpha) (alphanumeric uni_alnum)) a) askss ->
  (N.of_nat (List.length (sh_names f0)) < 2 ^ 64)%N -> (N.of_nat (List.length (sh_names f1)) < 2 ^ 64)%N ->
  out_columns (maker match_make) (keys_or ws) [sh_names f0; sh_names f1] (concat askss) cols -> cols <> [] ->
  Forall (fun a => fst a = 1%N \/ fst a = 2%N) alsos -> NoDup (map fst alsos) ->
  shows utf8_ok join_mode s0 f0 -> shows utf8_ok join_mode s1 f1 ->
  (forall a, In a alsos -> let f := if (fst a =? 1)%N then f0 else f1 in sh_head f <> [] \/ sh_lines f = []) ->
  let ord := keyed exp10 (keys_or ws) in
  ordered_by ord (of_file 0) (sh_lines f0) -> strictly_by ord (of_file 1) (sh_lines f1) ->
  join_main utf8_ok uni_alpha uni_alnum T trans_make match_make expr expr_new expr_lookup expr_eval expr_eval_line expr_none exp10 expr_used args [s0; s1] =
  Ok ((last outs (bs "-"),
       match sh_head f0 with [] => [] | _ => headline (names_of cols [sh_names f0; sh_names f1]) end ++
       concat (map (fun p => row_text cols [fst p; snd p]) (rows_spec ord (of_file 0) (of_file 1) (sh_lines f0) (sh_lines f1)))) ::
      map (fun a => (snd a, if (fst a =? 1)%N then sh_head f0 ++ concat (lone_left ord (of_file 0) (of_file 1) (sh_lines f0) (sh_lines f1))
                            else sh_head f1 ++ concat (lone_right ord (of_file 0) (of_file 1) (sh_lines f0) (sh_lines f1)))) alsos).
Proof. exact joins. Qed.

(** What a file shows: with a header line of names, its names and lines, if at least four bytes are read at first; without, numbered names. *)
Theorem c76_headed : forall utf8_ok name_ok names s ls, names_fit utf8_ok name_ok names -> utf8_ok (headline names) = true -> wf_src s ->
  content s = headline names ++ concat ls -> Forall whole_line ls -> 4 <= List.length (fst (fill_buf s)) ->
  shows utf8_ok join_mode s (mkshown (headline names) names ls).
Proof.
  intros u no names s ls NF Hu Hw Hc HL H4. destruct (headline_text _ _ _ NF) as (Wh & _ & _ & _ & _). split; auto. left. cbn [sh_head sh_lines sh_names]. split.
  - unfold file_lines, read_header. destruct (fill_buf s) as [b s1] eqn:E. destruct (fill_buf_content _ _ _ E) as (C1 & C2 & C3). cbn [fst] in H4. cbn [join_mode tm_head tm_quote tm_break].
    assert (SC : starts_with b CDX = true).
    { unfold content in C1. rewrite C2 in C1. unfold content in Hc. rewrite Hc in C1. destruct b as [|b1 [|b2 [|b3 [|b4 b]]]]; cbn in H4; try lia. cbn [app] in C1.
      unfold headline in C1. cbn [bs app String.list_ascii_of_string] in C1. injection C1 as -> -> -> -> _. reflexivity. }
    destruct b as [|x b]; [discriminate SC|]. rewrite SC. unfold read_string.
    pose proof (read_line_flat QPlain NL s1 (C3 Hw)) as A. rewrite C1, Hc in A. rewrite flat_line_cons in A by exact Wh. destruct A as (s2 & A1 & A2 & A3). exists s2. rewrite A1, Hu. split; [reflexivity|].
    rewrite read_all_flat by auto. rewrite A3. apply flat_all_lines; auto.
  - cbn [shown_names join_mode tm_delim]. destruct (headline names) eqn:EH; [discriminate EH|]. rewrite <- EH. symmetry. destruct NF as (NE & _ & F).
    apply (names_head names); auto. eapply Forall_impl; [|exact F]. cbn. tauto.
Qed.
Theorem c76_plain : forall utf8_ok s l ls, wf_src s -> content s = concat (l :: ls) -> Forall whole_line (l :: ls) -> firstn 4 l <> bs " CDX" ->
  exists names, shows utf8_ok join_mode s (mkshown [] names (l :: ls)) /\ List.length names = List.length (fields l) /\
    forall i, i < List.length names -> nth i names [] = bs "c" ++ print_N (N.of_nat (i + 1)).
Proof.
  intros u s l ls Hw Hc HL HF. eexists. split; [split; auto; left; cbn [sh_head sh_lines sh_names]; split; [|reflexivity]|].
  - unfold file_lines, read_header. destruct (fill_buf s) as [b s1] eqn:E. destruct (fill_buf_content _ _ _ E) as (C1 & C2 & C3). exists s1. cbn [join_mode tm_head tm_quote tm_break].
    assert (b <> []). { intros ->. pose proof (proj1 (fill_buf_empty _ _ _ Hw E) eq_refl) as Z. rewrite Hc in Z. inversion HL as [|? ? (x & -> & _) _]. cbn [concat] in Z. destruct x; discriminate Z. }
    assert (SC : starts_with b CDX = false).
    { destruct (starts_with b CDX) eqn:SC; auto. exfalso. apply HF. unfold content in C1. rewrite C2 in C1. unfold content in Hc. rewrite Hc in C1.
      destruct b as [|b1 [|b2 [|b3 [|b4 b]]]]; try (cbn in SC; rewrite ?andb_false_r in SC; discriminate SC). change CDX with [32; 67; 68; 88]%N in SC. cbn [starts_with] in SC. rewrite !andb_true_iff in SC.
      destruct SC as (B1 & B2 & B3 & B4 & _). apply N.eqb_eq in B1, B2, B3, B4. subst. cbn [app concat] in C1.
      inversion HL as [|? ? (x & -> & XN) _]; subst. 
      destruct x as [|x1 [|x2 [|x3 [|x4 x]]]]; cbn [app] in C1; try discriminate C1. injection C1 as <- <- <- <- _. reflexivity. }
    destruct b as [|x b]; [congruence|]. rewrite SC. split; [reflexivity|]. rewrite read_all_flat by auto. rewrite C1, Hc. apply flat_all_lines; auto.
  - assert (LN : List.length (tl_parts (proc join_mode l)) = List.length (fields l)).
    { rewrite <- plain_cols by (inversion HL; auto). change (mode_columns QPlain l TAB) with (mode_columns QPlain l TAB). rewrite <- process_cols. symmetry. apply map_length. }
    assert (NZ : 0 < List.length (fields l)) by (unfold fields; destruct (split_on TAB (removelast l)) eqn:Q; [destruct (removelast l) as [|c r]; [discriminate Q|]; cbn in Q; destruct (N.eqb c TAB); [discriminate Q|destruct (split_on TAB r); discriminate Q]|cbn; lia]).
    cbn [shown_names join_mode tm_delim]. rewrite LN, HdrProps.c62_tab by auto. rewrite map_length, seq_length. split; [reflexivity|]. intros i Hi.
    rewrite (nth_indep _ [] (bs "c" ++ print_N (N.of_nat 0))) by (rewrite map_length, seq_length; auto). rewrite (map_nth (fun i => bs "c" ++ print_N (N.of_nat i))), seq_nth by auto. rewrite Nat.add_comm. reflexivity.
Qed.

(** For the examples: no expressions, every text valid. *)
Definition ex_join := join_main OrderProps.yes none none bytes ex_trans ex_match unit no_expr no_find no_eval no_eval_line f_zero exp_ex (fun _ => []).
Definition ln3 (a b c : string) : bytes := bs a ++ TAB :: bs b ++ TAB :: bs c ++ [NL].
Definition ln2 := OrderProps.ln.
Definition nm0 : list bytes := [bs "id"; bs "animal"].
Definition nm1 : list bytes := [bs "kind"; bs "legs"; bs "wings"].
Definition ls0 : list bytes := [ln2 "7" "ant"; ln2 "2" "bee"; ln2 "5" "bee"; ln2 "1" "cow"].
Definition ls1 : list bytes := [ln3 "bee" "6" "4"; ln3 "cow" "4" "0"; ln3 "dog" "4" "0"].
Definition src0 : src := mksrc [] [headline nm0 ++ concat ls0].
Definition src1 : src := mksrc [] [headline nm1; concat ls1].
Definition by_kind : KeySpec.wanted := mkw_key [ByName (bs "animal"); ByName (bs "kind")] JustCols [] CPlain false (fun f => if f =? 0 then 1%N else 0%N).
Definition one_col (s : string) : cspec := mkspec [mkterm false [] (IOne (PName (bs s)))] None None.
Definition ex_asks : list (list ask) := [[(2%N, [one_col "legs"]); (1%N, [one_col "animal"; one_col "id"])]].
Definition ex_cols : list (nat * nat) := [(1, 1); (0, 1); (0, 0)].
Definition join_ex_args : list (bytes * bytes) :=
  [(bs "also", bs "2,right"); (bs "key", bs "animal.kind"); (bs "file", bs "first"); (bs "output", bs "2.legs,1.animal,id"); (bs "also", bs "1,left"); (bs "file", bs "out")].
Lemma by_kind_ok : wanted_ok (alphabetic none) (alphanumeric none) [nm0; nm1] by_kind.
Proof.
  repeat split; cbn [wk_cols wk_tail wk_kind wk_cmp wk_rev wk_pos]; try discriminate.
  - repeat constructor; try discriminate.
  - right. split; auto. constructor.
  - right. cbn. auto.
  - intros (w & [] & _).
  - intros f ns E. destruct f as [|[|f]]; [| |destruct f; discriminate E]; injection E as <-; (split; [reflexivity|]); intros [|j] L; try discriminate; cbn in L; lia.
Qed.
Lemma ex_shows : shows OrderProps.yes join_mode src0 (mkshown (headline nm0) nm0 ls0) /\ shows OrderProps.yes join_mode src1 (mkshown (headline nm1) nm1 ls1).
Proof.
  assert (W : forall cap ls, forallb _ ls = true -> Forall whole_line ls) by (intros cap ls H; pose proof (OrderProps.fit_dec cap ls H) as F; eapply Forall_impl; [|exact F]; cbn; tauto).
  split; apply (c76_headed OrderProps.yes OrderProps.yes);
    try (split; [discriminate|]; split; [reflexivity|]; repeat constructor; try discriminate; vm_compute; intuition discriminate); try reflexivity; try (apply (W 50); reflexivity); try (cbn; lia);
    unfold wf_src; cbn; repeat constructor; discriminate.
Qed.
Lemma ex_columns : out_columns (maker ex_match) (keys_or [by_kind]) [nm0; nm1] (concat ex_asks) ex_cols.
Proof.
  cbn [ex_asks concat app out_columns]. exists [[(1, 1)]; [(0, 1); (0, 0)]]. split; [|reflexivity]. constructor; [|constructor; [|constructor]].
  - exists nm1, [[1]]. split; [reflexivity|]. split; [|reflexivity]. constructor; [|constructor]. exists 1. split; [|reflexivity]. split; [cbn; lia|]. split; [reflexivity|].
    intros [|j] L; [discriminate|lia].
  - exists nm0, [[1]; [0]]. split; [reflexivity|]. split; [|reflexivity]. constructor; [|constructor; [|constructor]].
    + exists 1. split; [|reflexivity]. split; [cbn; lia|]. split; [reflexivity|]. intros [|j] L; [discriminate|lia].
    + exists 0. split; [|reflexivity]. split; [cbn; lia|]. split; [reflexivity|]. intros j L. lia.
Qed.
Example c76_join_ex : join_known join_ex_args /\ values (bs "key") join_ex_args (map text_of_key [by_kind]) /\ values (bs "output") join_ex_args (map output_text ex_asks) /\
  values (bs "also") join_ex_args (map also_text [(2%N, bs "right"); (1%N, bs "left")]) /\ wanted_ok (alphabetic none) (alphanumeric none) [nm0; nm1] by_kind /\
  shows OrderProps.yes join_mode src0 (mkshown (headline nm0) nm0 ls0) /\ shows OrderProps.yes join_mode src1 (mkshown (headline nm1) nm1 ls1) /\
  out_columns (maker ex_match) (keys_or [by_kind]) [nm0; nm1] (concat ex_asks) ex_cols /\
  ordered_by (keyed exp_ex [by_kind]) (of_file 0) ls0 /\ strictly_by (keyed exp_ex [by_kind]) (of_file 1) ls1 /\
  ex_join join_ex_args [src0; src1] =
  Ok [(bs "out", headline [bs "legs"; bs "animal"; bs "id"] ++ ln3 "6" "bee" "2" ++ ln3 "6" "bee" "5" ++ ln3 "4" "cow" "1");
      (bs "right", headline nm1 ++ ln3 "dog" "4" "0"); (bs "left", headline nm0 ++ ln2 "7" "ant")] /\
  ex_join [(bs "key", bs "2.1")] [src0; src1] =
  Ok [(bs "-", headline [bs "id"; bs "animal"; bs "legs"; bs "wings"] ++ (bs "2" ++ TAB :: ln3 "bee" "6" "4") ++ (bs "5" ++ TAB :: ln3 "bee" "6" "4") ++ (bs "1" ++ TAB :: ln3 "cow" "4" "0"))].
Proof.
  split; [repeat (constructor; [cbn; auto 10|]); constructor|].
  split; [repeat (first [apply val_nil | apply (val_this (bs "key")) | apply val_other; [discriminate|]])|].
  split; [repeat (first [apply val_nil | apply (val_this (bs "output")) | apply val_other; [discriminate|]])|].
  split; [repeat (first [apply val_nil | apply (val_this (bs "also")) | apply val_other; [discriminate|]])|].
  split; [exact by_kind_ok|]. split; [apply ex_shows|]. split; [apply ex_shows|]. split; [exact ex_columns|].
  split; [repeat constructor; discriminate|]. split; [repeat constructor|]. split; vm_compute; reflexivity.
Qed.
Example c76_headed_ex : wf_src src1 /\ content src1 = headline nm1 ++ concat ls1 /\ 4 <= List.length (fst (fill_buf src1)).
Proof. split; [unfold wf_src; cbn; repeat constructor; discriminate|]. split; [reflexivity|cbn; lia]. Qed.
Example c76_plain_ex : Forall whole_line ls0 /\ content (mksrc [] [concat ls0]) = concat ls0 /\
  ex_join [(bs "output", bs "2.2,1.c1")] [mksrc [] [concat ls1]; mksrc [] [concat [ln2 "bee" "x"; ln2 "dog" "y"]]] = Ok [(bs "-", ln2 "x" "bee" ++ ln2 "y" "dog")].
Proof.
  split. { assert (F : lines_fit 20 ls0) by (apply OrderProps.fit_dec; reflexivity). eapply Forall_impl; [|exact F]. cbn. tauto. }
  split; [reflexivity|vm_compute; reflexivity].
Qed.

Lemma values_at : forall n args vs, values n args vs -> forall m v r, args = (m, v) :: r -> (m = n /\ exists vs', vs = v :: vs' /\ values n r vs') \/ (m <> n /\ values n r vs).
Proof. intros n args vs V m v r E. destruct V; try discriminate; injection E as -> -> ->; eauto 10. Qed.
Lemma values_all : forall n args, exists vs, values n args vs.
Proof.
  induction args as [|[m v] args (vs & IH)]; [exists []; constructor|]. destruct (beq m n) eqn:E.
  - apply beq_eq in E. subst m. exists (v :: vs). constructor; auto.
  - exists vs. constructor; auto. intros ->. rewrite beq_refl in E. discriminate.
Qed.
Lemma once_head d : forall l a b, split_once d l = Some (a, b) -> l = a ++ d :: b /\ ~ In d a.
Proof.
  induction l as [|c l IH]; intros a b; cbn [split_once]; [discriminate|]. destruct (N.eqb_spec c d) as [->|N]; [intros E; injection E as <- <-; split; [reflexivity|intros []]|].
  destruct (split_once d l) as [(x, y)|]; [|discriminate]. intros E. injection E as <- <-. destruct (IH x y eq_refl) as [-> I]. split; [reflexivity|]. intros [J|J]; auto.
Qed.
Lemma first_piece d : forall l, exists p r, split_str d l = p :: r /\ ~ In d p /\ (l = p \/ exists t, l = p ++ d :: t).
Proof.
  intros l. rewrite <- split_on_split_str. induction l as [|c l IH]; [exists [], []; cbn; auto|]. cbn [split_on]. destruct (N.eqb_spec c d) as [->|N].
  - eexists [], _. split; [reflexivity|]. split; [intros []|]. right. exists l. reflexivity.
  - destruct IH as (p & r & -> & NI & H). exists (c :: p), r. split; [reflexivity|]. split; [intros [E|E]; auto|]. destruct H as [-> | (t & ->)]; [left|right; exists t]; reflexivity.
Qed.
Section Needs.
Variable uni_alpha : N -> bool.
Variable T : Type.
Variable trans_make : bytes -> res T.
(** What an option value must look like. *)
Definition also_reads (v : bytes) (a : N * bytes) : Prop := exists d, v = d ++ 44%N :: snd a /\ ~ In 44%N d /\ to_usize_whole d = Ok (fst a).
Definition output_reads (v : bytes) : Prop := exists d n r, v = d ++ 46%N :: r /\ ~ In 44%N d /\ ~ In 46%N d /\ to_usize_whole d = Ok n /\ (1 <= n)%N.
Lemma output_needs : forall v acc out, output_parts uni_alpha T trans_make (split_str 44 v) None set_new acc = Ok out -> output_reads v.
Proof.
  intros v acc out H. destruct (first_piece 44 v) as (p & r & E & NI & HV). rewrite E in H. cbn [output_parts] in H. destruct (split_once 46 p) as [(d, s)|] eqn:S; [|discriminate].
  apply once_head in S as [S1 S2]. unfold flush in H. cbn [no_parts cs_pos cs_neg set_new rbind] in H. destruct (to_usize_whole d) as [n| |] eqn:U; try discriminate. cbn [rbind] in H.
  destruct (N.eqb_spec n 0); [discriminate|]. exists d, n. subst p. destruct HV as [-> | (t & ->)]; [exists s|exists (s ++ 44%N :: t); rewrite <- app_assoc]; (split; [reflexivity|]);
    (split; [intros I; apply NI, in_or_app; auto|]); (split; [auto|]); (split; [auto|lia]).
Qed.
Lemma args_need : forall args c c', join_args uni_alpha T trans_make c args = Ok c' -> join_known args /\ (forall v, In (bs "output", v) args -> output_reads v) /\
  (forall vs, values (bs "file") args vs -> jc_out c' = last vs (jc_out c)) /\
  (forall vs, values (bs "also") args vs -> exists l, jc_also c' = jc_also c ++ l /\ Forall2 also_reads vs l).
Proof.
  induction args as [|[m v] args IH]; intros c c' H; cbn [join_args] in H.
  - injection H as <-. split; [constructor|]. split; [intros v []|]. split; [intros vs V; inversion V; reflexivity|]. intros vs V. inversion V. exists []. rewrite app_nil_r. split; auto.
  - destruct (join_arg uni_alpha T trans_make c (m, v)) as [c1| |] eqn:J; try discriminate. cbn [rbind] in H. destruct (IH c1 c' H) as (I1 & I2 & I3 & I4). unfold join_arg in J.
    destruct (beq m (bs "key")) eqn:E1; [|destruct (beq m (bs "output")) eqn:E2; [|destruct (beq m (bs "file")) eqn:E3; [|destruct (beq m (bs "also")) eqn:E4; [|discriminate]]]].
    + apply beq_eq in E1. subst m. injection J as <-. cbn [jc_out jc_also] in *. split; [constructor; [left; reflexivity|auto]|].
      split; [intros w [W|W]; [discriminate W|auto]|]. split; intros vs V; destruct (values_at _ _ _ V _ _ _ eq_refl) as [(X & _)|(_ & X)]; try discriminate X; auto.
    + apply beq_eq in E2. subst m. destruct (output_parts _ _ _ _ _ _ _) as [cols| |] eqn:O; try discriminate. cbn [rbind] in J. injection J as <-. cbn [jc_out jc_also] in *.
      split; [constructor; [right; left; reflexivity|auto]|]. split; [intros w [W|W]; [injection W as <-; eapply output_needs; eauto|auto]|].
      split; intros vs V; destruct (values_at _ _ _ V _ _ _ eq_refl) as [(X & _)|(_ & X)]; try discriminate X; auto.
    + apply beq_eq in E3. subst m. injection J as <-. cbn [jc_out jc_also] in *. split; [constructor; [right; right; left; reflexivity|auto]|]. split; [intros w [W|W]; [discriminate W|auto]|]. split.
      * intros vs V; destruct (values_at _ _ _ V _ _ _ eq_refl) as [(_ & vs' & -> & X)|(X & _)]; [|congruence]. rewrite last_cons. auto.
      * intros vs V; destruct (values_at _ _ _ V _ _ _ eq_refl) as [(X & _)|(_ & X)]; try discriminate X; auto.
    + apply beq_eq in E4. subst m. destruct (split_once 44 v) as [(d, b)|] eqn:SO; [|discriminate]. destruct (to_usize_whole d) as [n| |] eqn:U; try discriminate. cbn [rbind] in J. injection J as <-.
      cbn [jc_out jc_also] in *. split; [constructor; [right; right; right; left; reflexivity|auto]|]. split; [intros w [W|W]; [discriminate W|auto]|]. split.
      * intros vs V; destruct (values_at _ _ _ V _ _ _ eq_refl) as [(X & _)|(_ & X)]; try discriminate X; auto.
      * intros vs V; destruct (values_at _ _ _ V _ _ _ eq_refl) as [(_ & vs' & -> & X)|(X & _)]; [|congruence]. destruct (I4 vs' X) as (l & L1 & L2). exists ((n, b) :: l).
        rewrite L1, <- app_assoc. split; [reflexivity|]. constructor; auto. apply once_head in SO as [-> NI]. exists d. auto.
Qed.
End Needs.
Lemma also_needs : forall n l seen, also_ok n l seen = true -> Forall (fun a : N * bytes => 1 <= fst a <= N.of_nat n)%N l /\ NoDup (map fst l) /\ forall a, In a (map fst l) -> ~ In a seen.
Proof.
  induction l as [|[a b] l IH]; intros seen H; cbn [also_ok] in H; [split; [constructor|]; split; [constructor|intros a []]|]. rewrite !andb_true_iff in H. destruct H as (((H1 & H2) & H3) & H4).
  destruct (IH _ H4) as (A & B & C). apply N.leb_le in H1, H2. cbn [map fst]. split; [constructor; [cbn; lia|auto]|]. assert (NS : ~ In a seen).
  { intros I. apply negb_true_iff in H3. assert (existsb (N.eqb a) seen = true) by (apply existsb_exists; exists a; split; [auto|apply N.eqb_refl]). congruence. }
  split; [constructor; [intros I; apply (C a I); left; auto|auto]|]. intros x [<-|I]; auto. intros J. apply (C x I). right. auto.
Qed.

(** Whatever the files, join succeeds only with at least two of them, with options it knows, with outputs that begin with a file number, and with unmatched
    lines asked for by the number of a file, of every file once; and the outputs go where the options say. *)
Theorem c76_needs : forall utf8_ok uni_alpha uni_alnum T trans_make match_make expr expr_new expr_lookup expr_eval expr_eval_line expr_none exp10 expr_used args ss out,
  join_main utf8_ok uni_alpha uni_alnum T trans_make match_make expr expr_new expr_lookup expr_eval expr_eval_line expr_none exp10 expr_used args ss = Ok out ->
  join_known args /\ 2 <= List.length ss /\ (forall v, In (bs "output", v) args -> output_reads v) /\
  exists outs alsos avs, values (bs "file") args outs /\ values (bs "also") args avs /\ Forall2 also_reads avs alsos /\
    Forall (fun a => 1 <= fst a <= N.of_nat (List.length ss))%N alsos /\ NoDup (map fst alsos) /\ map fst out = last outs (bs "-") :: map snd alsos.
Proof.
  intros u ua un T tm mm ex en el ee eel eno e10 eu args ss out H. unfold JoinMain.join_main in H. destruct (join_args ua T tm (jconf_new T) args) as [c| |] eqn:A; try discriminate. cbn [rbind] in H.
  destruct (args_need _ _ _ _ _ _ A) as (N1 & N2 & N3 & N4). destruct (List.length ss <? 2) eqn:L; [discriminate|]. apply Nat.ltb_ge in L.
  destruct (open_files u join_mode ss) as [fs| |] eqn:O; try discriminate. cbn [rbind] in H. destruct (also_ok (List.length fs) (jc_also c) []) eqn:AO; [|discriminate]. cbn [negb] in H.
  assert (LF : List.length fs = List.length ss).
  { clear - O. revert fs O. induction ss as [|s ss IH]; intros fs O; cbn [open_files] in O; [injection O as <-; reflexivity|]. destruct (open_file u join_mode s); try discriminate. cbn [rbind] in O.
    destruct (open_files u join_mode ss) as [r| |]; try discriminate. cbn [rbind] in O. injection O as <-. cbn. f_equal. auto. }
  destruct (values_all (bs "file") args) as (outs & V1). destruct (values_all (bs "also") args) as (avs & V2). destruct (N4 _ V2) as (l & Q1 & Q2). cbn [jconf_new jc_also app] in Q1.
  destruct (also_needs _ _ _ AO) as (P1 & P2 & _). rewrite LF, Q1 in P1. rewrite Q1 in P2. split; auto. split; auto. split; auto. exists outs, l, avs. split; [auto|]. split; [auto|].
  split; [auto|]. split; [auto|]. split; [auto|]. specialize (N3 _ V1). cbn [jconf_new jc_out] in N3.
  destruct (add_keys _ _ _ _ _) as [ks| |]; try discriminate. cbn [rbind] in H. destruct (list_lookups _ _ _ _ _ _) as [ks'| |]; try discriminate. cbn [rbind] in H.
  destruct (join_cols _ _ _ _ _ _ _) as [[|o cols]| |]; try discriminate. cbn [rbind] in H. destruct fs as [|f0 [|f1 more]]; try discriminate. destruct (key_lines _ _ _ _ _) as [cs|]; try discriminate.
  destruct (lines_of f0) as [l0| |]; try discriminate. cbn [rbind] in H. destruct (lines_of f1) as [l1| |]; try discriminate. cbn [rbind] in H. destruct (firsts more) as [l2| |]; try discriminate. cbn [rbind] in H.
  destruct (JoinModel.join_files _ _ _ _ _ _ _) as [[rows one] two]. injection H as <-. cbn [map fst]. rewrite N3. f_equal. rewrite map_map, Q1. apply map_ext. intros [n b]. reflexivity.
Qed.
Example c76_needs_ex : ex_join join_ex_args [src0] = Err /\ ex_join [(bs "also", bs "3,x")] [src0; src1] = Err /\ ex_join [(bs "also", bs "0,x")] [src0; src1] = Err /\
  ex_join [(bs "also", bs "1,x"); (bs "also", bs "1,y")] [src0; src1] = Err /\ ex_join [(bs "also", bs "1")] [src0; src1] = Err /\
  ex_join [(bs "output", bs "id")] [src0; src1] = Err /\ ex_join [(bs "output", bs "0.id")] [src0; src1] = Err /\
  match ex_join join_ex_args [src0; src1] with Ok out => map fst out = [bs "out"; bs "right"; bs "left"] | _ => False end.
Proof. repeat split; vm_compute; reflexivity. Qed.

(** Output columns of a file that is not there are refused. *)
Theorem c76_no_file : forall utf8_ok uni_alpha uni_alnum T trans_make match_make expr expr_new expr_lookup expr_eval expr_eval_line expr_none exp10 expr_used args askss alsos ss a,
  values (bs "output") args (map output_text askss) -> Forall (fun a => a <> [] /\ Forall (ask_ok (alphabetic uni_alpha) (alphanumeric uni_alnum)) a) askss ->
  values (bs "also") args (map also_text alsos) -> Forall (fun a => (fst a < 2 ^ 64)%N) alsos -> In a (concat askss) -> (N.of_nat (List.length ss) < fst a)%N ->
  forall out, join_main utf8_ok uni_alpha uni_alnum T trans_make match_make expr expr_new expr_lookup expr_eval expr_eval_line expr_none exp10 expr_used args ss <> Ok out.
Proof.
  intros u ua un T tm mm ex en el ee eel eno e10 eu args askss alsos ss a VO AO VA AB IA HA out H. destruct (c76_needs _ _ _ _ _ _ _ _ _ _ _ _ _ _ _ _ _ H) as (K & L & _).
  destruct (values_all (bs "key") args) as (ks & VK). destruct (values_all (bs "file") args) as (outs & VF). unfold JoinMain.join_main in H.
  rewrite (options_read ua un T tm args ks outs K VK askss alsos (jconf_new T) VO AO VF VA AB) in H. cbn [rbind jconf_new jc_cols jc_keys jc_also jc_out app] in H.
  destruct (List.length ss <? 2); [discriminate|]. destruct (open_files u join_mode ss) as [fs| |] eqn:O; try discriminate. cbn [rbind] in H.
  assert (LF : List.length fs = List.length ss).
  { clear - O. revert fs O. induction ss as [|s ss IH]; intros fs O; cbn [open_files] in O; [injection O as <-; reflexivity|]. destruct (open_file u join_mode s); try discriminate. cbn [rbind] in O.
    destruct (open_files u join_mode ss) as [r| |]; try discriminate. cbn [rbind] in O. injection O as <-. cbn. f_equal. auto. }
  destruct (also_ok _ _ _); [|discriminate]. cbn [negb] in H. destruct (add_keys _ _ _ _ _) as [ks0| |]; try discriminate. cbn [rbind] in H. destruct (list_lookups _ _ _ _ _ _) as [ks'| |]; try discriminate. cbn [rbind] in H.
  assert (B : forall l names o, In a l -> List.length names = List.length ss -> asked_cols T mm (map (parsed T) l) names <> Ok o).
  { clear - HA. induction l as [|b l IH]; intros names o I LN; [destruct I|]. destruct I as [<-|I]; cbn [map asked_cols parsed].
    - destruct (N.leb_spec (N.of_nat (List.length names)) (fst b - 1)); [discriminate|lia].
    - destruct (N.of_nat (List.length names) <=? fst b - 1)%N; [discriminate|]. destruct (lookup mm _ _) as [c| |]; try discriminate. cbn [rbind].
      destruct (asked_cols T mm (map (parsed T) l) names) as [x| |] eqn:E; try discriminate. destruct (IH names x I LN E). }
  destruct (join_cols _ _ _ _ _ _ _) as [cols| |] eqn:JC; try discriminate. unfold join_cols in JC. destruct (map (parsed T) (concat askss)) as [|p l] eqn:E.
  - apply map_eq_nil in E. rewrite E in IA. destruct IA.
  - rewrite <- E in JC. revert JC. apply B; auto. rewrite map_length. exact LF.
Qed.
Example c76_no_file_ex : values (bs "output") [(bs "output", bs "3.id")] (map output_text [[(3%N, [one_col "id"])]]) /\ ex_join [(bs "output", bs "3.id")] [src0; src1] = Err.
Proof. split; [apply (val_this (bs "output")); constructor|vm_compute; reflexivity]. Qed.

(** Unmatched lines of a file without header come under a header line it does not have. *)
Theorem c76_headerless_refuted : exists args s0 s1 lines rest, values (bs "also") args [bs "1,left"] /\ content s0 = concat lines /\ Forall whole_line lines /\
  ex_join args [s0; s1] = Ok [(bs "-", rest); (bs "left", (bs "c1" ++ TAB :: bs "c2" ++ [NL]) ++ ln2 "ant" "7")] /\ ~ In (bs "c1" ++ TAB :: bs "c2" ++ [NL]) lines.
Proof.
  exists [(bs "also", bs "1,left")], (mksrc [] [concat [ln2 "ant" "7"; ln2 "bee" "2"]]), (mksrc [] [concat ls1]), [ln2 "ant" "7"; ln2 "bee" "2"], (bs "bee" ++ TAB :: ln3 "2" "6" "4").
  split; [apply (val_this (bs "also")); constructor|]. split; [reflexivity|].
  split. { assert (F : lines_fit 20 [ln2 "ant" "7"; ln2 "bee" "2"]) by (apply OrderProps.fit_dec; reflexivity). eapply Forall_impl; [|exact F]. cbn. tauto. }
  split; [vm_compute; reflexivity|]. intros [E|[E|[]]]; discriminate E.
Qed.
(** The header of the second file is lost when the first has none. *)
Theorem c76_lost_header_refuted : exists s0 s1, content s1 = headline nm1 ++ concat ls1 /\
  ex_join [] [s0; s1] = Ok [(bs "-", bs "bee" ++ TAB :: ln3 "2" "6" "4")].
Proof. exists (mksrc [] [ln2 "bee" "2"]), src1. split; [reflexivity|vm_compute; reflexivity]. Qed.
(** New names and transforms for output columns are read and then not used. *)
Theorem c76_labels_refuted : exists args args', args = [(bs "key", bs "2.1"); (bs "output", bs "1.nr:id,2.kind+lower")] /\ args' = [(bs "key", bs "2.1"); (bs "output", bs "1.id,2.kind")] /\
  ex_join args [src0; src1] = ex_join args' [src0; src1] /\
  ex_join args [src0; src1] = Ok [(bs "-", headline [bs "id"; bs "kind"] ++ ln2 "2" "bee" ++ ln2 "5" "bee" ++ ln2 "1" "cow")].
Proof. eexists _, _. split; [reflexivity|]. split; [reflexivity|]. split; vm_compute; reflexivity. Qed.
(** An empty part of an output specification stops the tool with a panic instead of an error. *)
Theorem c76_empty_part_refuted : exists v, In v [bs "1."; bs "1.id,"; bs "1.id,,2.kind"] /\ ex_join [(bs "output", v)] [src0; src1] = Panic.
Proof. exists (bs "1.id,"). split; [cbn; auto|vm_compute; reflexivity]. Qed.
(** An output file that is already there keeps its end if the new text is shorter. *)
Theorem c76_truncate_refuted : exists old new, stored old new <> new /\ ex_join [(bs "file", bs "out")] [src1; mksrc [] [ln2 "dog" "x"]] = Ok [(bs "out", new)].
Proof.
  exists (repeat 120%N 80), (headline [bs "kind"; bs "legs"; bs "wings"; bs "c2"] ++ bs "dog" ++ TAB :: bs "4" ++ TAB :: ln2 "0" "x").
  split; [vm_compute; discriminate|vm_compute; reflexivity].
Qed.
