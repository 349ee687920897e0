(** C78 and C83: ranges of columns, and a file cut in two and pasted together again. *)
From Coq Require Import String List NArith ZArith Bool Arith Lia SpecFloat.
Open Scope list_scope.
Import ListNotations.
From Verif Require Import Base TextSpec TextModel TextProofs StrSpec StrModel StrProofs MatchSpec MatchText FloatModel ReadSpec ReadModel ReadProofs HeadModel HdrModel HdrSpec HdrProofs TurnSpec PasteSpec
  ColSpec ColModel ColProofs ColWriteProofs ColCompProofs ColProps ToolModel ToolOpen PasteProofs LocProofs SortSpec OrderSpec UniqMainSpec UniqMainProofs ExprModel ExprSpec ExprCols ExprProps CutMain CutMainSpec CutMainExpr CutMainProofs.
From Verif Require Import CompProps.
From Verif Require NumbProofs OrderProps JoinMain JoinMainProps CutMainProps PasteProps TurnProps.
Close Scope Z_scope. Open Scope nat_scope.

Definition span_of (a b : option place) : cspec := mkspec [mkterm false [] (IRange a b)] None None.
(** [m] elements from place [i] on. *)
Definition cut_list {A} (i m : nat) (l : list A) : list A := firstn m (skipn i l).
Lemma cols_slice {A} (d : A) l : forall i m, i + m <= List.length l -> map (fun k => nth k l d) (seq i m) = cut_list i m l.
Proof.
  unfold cut_list. induction l as [|x l IH]; intros i m H; [destruct m; [destruct i; reflexivity|cbn in H; lia]|].
  destruct i as [|i]; cbn [skipn].
  - destruct m as [|m]; [reflexivity|]. cbn [seq map nth firstn]. f_equal. cbn in H. rewrite <- seq_shift, map_map. cbn [nth]. rewrite (IH 0 m) by lia. reflexivity.
  - cbn in H. rewrite <- seq_shift, map_map. cbn [nth]. apply IH. lia.
Qed.
Lemma cut_list_in {A} i m (l : list A) x : In x (cut_list i m l) -> In x l.
Proof. unfold cut_list. intros I. rewrite <- (firstn_skipn i l). apply in_or_app. right. rewrite <- (firstn_skipn m (skipn i l)). apply in_or_app. auto. Qed.
Lemma cut_list_forall {A} (P : A -> Prop) i m l : Forall P l -> Forall P (cut_list i m l).
Proof. rewrite !Forall_forall. intros H x I. apply H. eapply cut_list_in; eauto. Qed.
Lemma nodup_app {A} (l r : list A) : NoDup (l ++ r) -> NoDup l /\ NoDup r.
Proof.
  induction l as [|x l IH]; intros N; [split; [constructor|exact N]|]. inversion N as [|? ? N1 N2]; subst. apply IH in N2 as [N2 N3]. split; [|exact N3]. constructor; [|exact N2].
  intros I. apply N1. apply in_or_app. auto.
Qed.
Lemma cut_list_nodup {A} i m (l : list A) : NoDup l -> NoDup (cut_list i m l).
Proof.
  intros N. unfold cut_list. rewrite <- (firstn_skipn i l) in N. apply nodup_app in N as [_ N]. rewrite <- (firstn_skipn m (skipn i l)) in N. apply nodup_app in N. tauto.
Qed.
Lemma cut_list_length {A} i m (l : list A) : i + m <= List.length l -> List.length (cut_list i m l) = m.
Proof. intros H. unfold cut_list. rewrite firstn_length, skipn_length. lia. Qed.

(** A range of columns of a file: their names and their fields, in file order. *)
Theorem c78_range : forall utf8_ok name_ok uni_alpha uni_alnum T (trans_make : bytes -> res T) trans_run match_make frem fpow libm exp10 print_num ot names ls s a b i j,
  names_fit utf8_ok name_ok names -> utf8_ok (OrderSpec.headline names) = true -> Forall (well_named (alphabetic uni_alpha) (alphanumeric uni_alnum)) names -> NoDup names ->
  (N.of_nat (List.length names) < 2 ^ 64)%N -> Forall whole_line ls -> Forall (fun l => List.length (parted TAB l) = List.length names) ls ->
  wf_src s -> content s = OrderSpec.headline names ++ concat ls -> 4 <= List.length (fst (fill_buf s)) ->
  ColModel.tm_quote ot = QPlain -> ColModel.tm_delim ot = TAB -> ColModel.tm_break ot = NL ->
  end_ok (alphabetic uni_alpha) (alphanumeric uni_alnum) a -> end_ok (alphabetic uni_alpha) (alphanumeric uni_alnum) b ->
  first_at names a i -> last_at names b j -> i <= j -> utf8_ok (join TAB (cut_list i (j - i + 1) names)) = true ->
  cut_main utf8_ok name_ok uni_alpha uni_alnum T trans_make trans_run match_make frem fpow libm exp10 print_num JoinMain.join_mode true ot MMatch
    [(bs "fields", end_text a ++ 45%N :: end_text b)] [s] =
  (OrderSpec.headline (cut_list i (j - i + 1) names) ++ concat (map (fun l => join TAB (cut_list i (j - i + 1) (parted TAB l)) ++ [NL]) ls), Ok tt).
Proof.
  intros u no ua un T tm tr mm fr fp lm e10 pn ot names ls s a b i j NF HU WN ND BN WL CL W C H4 Q D B Ka Kb Fa Lb Hij HUs.
  pose proof (JoinMainProps.c76_headed u no names s ls NF HU W C WL H4) as SH.
  assert (Hj : j < List.length names).
  { unfold last_at in Lb. destruct b as [p|]; [destruct Lb as [Lb _]; exact Lb|lia]. }
  set (m := j - i + 1) in *. assert (Him : i + m <= List.length names) by (unfold m; lia).
  set (heads := cut_list i m names) in *. set (rows := map (fun l => join TAB (cut_list i m (parted TAB l)) ++ [NL]) ls).
  replace (OrderSpec.headline heads ++ concat rows) with (head_line true (ColModel.tm_delim ot) heads ++ concat (concat [rows])) by (rewrite D; cbn [concat]; rewrite app_nil_r; reflexivity).
  assert (HL : List.length heads = m) by (apply cut_list_length; exact Him).
  destruct NF as (NE & NU & NF).
  replace (end_text a ++ 45%N :: end_text b) with (spec_text (span_of a b)) by (unfold spec_text, span_of; cbn [s_terms s_group s_trans map app join term_text t_not t_label t_item label_text item_text]; rewrite app_nil_r; reflexivity).
  apply (CutMainProps.c78_headed u no ua un T tm tr mm fr fp lm e10 pn (fun _ => 0%N) JoinMain.join_mode ot [(bs "fields", spec_text (span_of a b))] [CFields (span_of a b)] [] [s] [mkshown (OrderSpec.headline names) names ls] heads [rows]); auto; try discriminate.
  - apply (cs_item (CFields (span_of a b)) [] [] []). constructor.
  - constructor; [|constructor]. split; [|discriminate]. split; [|split; [left; discriminate|split; discriminate]]. constructor; [|constructor]. split; [cbn; auto|split; assumption].
  - apply fs_file; [exact SH|constructor].
  - constructor; [|constructor]. split; [left; discriminate|]. split; auto.
  - constructor; [discriminate|constructor].
  - cbn [map]. apply f3_cons; [|apply f3_nil]. set (ws := map (fun k => (k, (@nil N, @None bytes))) (seq i m)).
    exists [(CFields (span_of a b), PCols ws)]. cbn [sh_names sh_lines map fst flat_map labels]. split; [reflexivity|]. split; [|split].
    + constructor; [|constructor]. cbn [planned]. split; [|unfold ws, m; rewrite Nat.add_comm; discriminate]. exists [seq i m]. split.
      * constructor; [|constructor]. cbn. exists i, j. auto.
      * unfold wanted, drops, picks. cbn [span_of parts_of map s_terms s_group s_trans t_not t_label t_item xorb app combine flat_map forallb q_not q_label q_trans andb existsb]. rewrite app_nil_r.
        unfold ws. symmetry. clear. induction (seq i m) as [|k l IH]; [reflexivity|]. cbn [map filter]. rewrite IH. reflexivity.
    + rewrite app_nil_r. unfold ws. rewrite map_map. cbn [fst snd]. symmetry. apply cols_slice. exact Him.
    + clear - WL CL D B Him. unfold rows. induction ls as [|l ls IH]; [constructor|]. apply Forall_cons_iff in WL as [W1 W2], CL as [C1 C2]. constructor; [|auto]. change (tm_delim JoinMain.join_mode) with TAB.
      exists [cut_list i m (parted TAB l)]. split.
      * constructor; [|constructor]. exists (cut_list i m (parted TAB l)). split.
        -- rewrite <- (cols_slice [] (parted TAB l)) by lia. unfold ws. clear. induction (seq i m); constructor; auto. reflexivity.
        -- rewrite D, B. rewrite <- map_id at 1. apply map_ext_in. intros f I. apply cut_list_in in I. symmetry. apply replace2_id; eapply CutMainProps.parted_free; eauto.
      * cbn [concat]. rewrite app_nil_r, D. reflexivity.
  - apply cut_list_forall; exact WN.
  - left. apply cut_list_nodup. exact ND.
  - intros E. rewrite E in HL. cbn in HL. unfold m in HL. lia.
  - rewrite D. reflexivity.
  - rewrite D. apply cut_list_forall. eapply Forall_impl; [|exact NF]. cbn. intros x (X1 & X2 & X3 & X4 & _). auto.
  - rewrite D. exact HUs.
Qed.

Lemma add_join d cols : add_head cols d = join d cols.
Proof.
  destruct cols as [|c r]; [reflexivity|]. cbn [add_head]. revert c. induction r as [|x r IH]; intros c; [cbn; apply app_nil_r|].
  cbn [flat_map]. rewrite StrProofs.join_cons by discriminate. f_equal. cbn [app]. f_equal. apply IH.
Qed.
Lemma join_two d a b : a <> [] -> b <> [] -> join d [join d a; join d b] = join d (a ++ b).
Proof.
  intros A B. induction a as [|x a IH]; [congruence|]. destruct a as [|y a].
  - cbn [app]. rewrite (StrProofs.join_cons d x b), (StrProofs.join_cons d (join d [x]) [join d b]) by (auto; discriminate). reflexivity.
  - cbn [app] in *. rewrite (StrProofs.join_cons d x (y :: a)), (StrProofs.join_cons d x (y :: a ++ b)) by discriminate.
    rewrite <- IH by discriminate. rewrite (StrProofs.join_cons d (x ++ _)), (StrProofs.join_cons d (join d (y :: a)) [_]) by discriminate. rewrite <- app_assoc. reflexivity.
Qed.
Lemma pasted_rows n (ls : list bytes) : Forall whole_line ls -> Forall (fun l => 0 < n < List.length (parted TAB l)) ls -> forall p q,
  side_by_side (List.length ls) [(map (fun l => join TAB (firstn n (parted TAB l)) ++ [NL]) ls, p); (map (fun l => join TAB (skipn n (parted TAB l)) ++ [NL]) ls, q)] = concat ls.
Proof.
  intros W H p q. unfold side_by_side, table. cbn [map]. f_equal. rewrite map_map. unfold part_of. cbn [fst snd map]. rewrite !map_map.
  induction ls as [|l ls IH]; [reflexivity|]. apply Forall_cons_iff in W as [W1 W2], H as [H1 H2]. cbn [List.length seq map]. rewrite <- seq_shift, map_map. f_equal.
  - cbn [nth]. rewrite !removelast_last. rewrite join_two.
    + rewrite firstn_skipn. unfold parted. rewrite join_split. destruct W1 as (b & -> & _). rewrite removelast_last. reflexivity.
    + intros E. apply (f_equal (@List.length bytes)) in E. rewrite firstn_length in E. cbn in E. lia.
    + intros E. apply (f_equal (@List.length bytes)) in E. rewrite skipn_length in E. cbn in E. lia.
  - cbn [nth map]. apply IH; assumption.
Qed.

(** A file cut into its first columns and the others, and pasted together again, is the file. *)
Theorem c83_split : forall utf8_ok name_ok uni_alpha uni_alnum T (trans_make : bytes -> res T) trans_run match_make frem fpow libm exp10 print_num ot names ls s n,
  names_fit utf8_ok name_ok names -> utf8_ok (OrderSpec.headline names) = true ->
  names_fit utf8_ok name_ok (firstn n names) -> utf8_ok (OrderSpec.headline (firstn n names)) = true ->
  names_fit utf8_ok name_ok (skipn n names) -> utf8_ok (OrderSpec.headline (skipn n names)) = true ->
  Forall (well_named (alphabetic uni_alpha) (alphanumeric uni_alnum)) names -> NoDup names ->
  (N.of_nat (List.length names) < 2 ^ 64)%N -> Forall whole_line ls -> Forall (fun l => List.length (parted TAB l) = List.length names) ls ->
  wf_src s -> content s = OrderSpec.headline names ++ concat ls -> 4 <= List.length (fst (fill_buf s)) ->
  ColModel.tm_quote ot = QPlain -> ColModel.tm_delim ot = TAB -> ColModel.tm_break ot = NL ->
  let cut range := cut_main utf8_ok name_ok uni_alpha uni_alnum T trans_make trans_run match_make frem fpow libm exp10 print_num JoinMain.join_mode true ot MMatch [(bs "fields", range)] [s] in
  exists front back, cut (bs "1-" ++ print_N (N.of_nat n)) = (front, Ok tt) /\ cut (print_N (N.of_nat (n + 1)) ++ bs "-") = (back, Ok tt) /\
    forall V mm mode use_last (dflt d : ColModel.values V) s1 s2, wf_src s1 -> wf_src s2 -> content s1 = front -> content s2 = back ->
      4 <= List.length (fst (fill_buf s1)) -> 4 <= List.length (fst (fill_buf s2)) ->
      values_lookup mm dflt names = Ok d -> (mode = Late -> use_last = true -> ls <> []) ->
      PasteProps.paste_of utf8_ok uni_alpha uni_alnum mm JoinMain.join_mode mode use_last dflt hdr_new true TAB [s1; s2] = (content s, Ok tt).
Proof.
  intros u no ua un T tm tr mm fr fp lm e10 pn ot names ls s n NF HU NF1 HU1 NF2 HU2 WN ND BN WL CL W C H4 Q D B cut.
  assert (Hn : 0 < n < List.length names).
  { destruct NF1 as (E1 & _), NF2 as (E2 & _). split.
    - destruct n; [cbn in E1; congruence|lia].
    - destruct (Nat.lt_ge_cases n (List.length names)) as [L|L]; [exact L|]. rewrite skipn_all2 in E2 by lia. congruence. }
  set (front := map (fun l => join TAB (firstn n (parted TAB l)) ++ [NL]) ls). set (back := map (fun l => join TAB (skipn n (parted TAB l)) ++ [NL]) ls).
  assert (WF : Forall whole_line front /\ Forall whole_line back).
  { assert (G : forall g, (forall l x, In x (g (parted TAB l)) -> In x (parted TAB l)) -> Forall whole_line (map (fun l => join TAB (g (parted TAB l)) ++ [NL]) ls)).
    { intros g Hg. clear - WL Hg. induction WL as [|l ls W1 WL IH]; [constructor|]. constructor; [|exact IH]. eexists. split; [reflexivity|].
      assert (F : Forall (fun x => ~ In NL x) (g (parted TAB l))). { apply Forall_forall. intros x I. apply Hg in I. eapply CutMainProps.parted_free; eauto. }
      induction F as [|x xs F1 F2 IH2]; [cbn; auto|]. destruct xs as [|y xs]; [exact F1|]. rewrite StrProofs.join_cons by discriminate.
      intros I. apply in_app_or in I as [I|[I|I]]; [auto|discriminate|auto]. }
    split; apply G; intros l x I; rewrite <- (firstn_skipn n (parted TAB l)); apply in_or_app; auto. }
  destruct WF as [WF1 WF2].
  exists (OrderSpec.headline (firstn n names) ++ concat front), (OrderSpec.headline (skipn n names) ++ concat back). split; [|split].
  - pose proof (c78_range u no ua un T tm tr mm fr fp lm e10 pn ot names ls s (Some (PNum 1)) (Some (PNum (N.of_nat n))) 0 (n - 1)) as R.
    replace (n - 1 - 0 + 1) with n in R by lia. unfold cut_list in R. cbn [skipn] in R. apply R; auto; try lia.
    + cbn. lia.
    + cbn [end_ok place_ok]. change (2 ^ 64)%N with 18446744073709551616%N in *. lia.
    + cbn [first_at place_at]. split; [lia|f_equal; lia].
    + cbn [last_at place_at]. split; [lia|f_equal; lia].
    + destruct NF1 as (_ & X & _). exact X.
  - pose proof (c78_range u no ua un T tm tr mm fr fp lm e10 pn ot names ls s (Some (PNum (N.of_nat (n + 1)))) None n (List.length names - 1)) as R.
    replace (List.length names - 1 - n + 1) with (List.length names - n) in R by lia. unfold cut_list in R.
    assert (E : firstn (List.length names - n) (skipn n names) = skipn n names) by (apply firstn_all2; rewrite skipn_length; lia).
    assert (E2 : map (fun l => join TAB (firstn (List.length names - n) (skipn n (parted TAB l))) ++ [NL]) ls = back).
    { unfold back. clear - CL. induction CL as [|l ls C1 CL IH]; [reflexivity|]. cbn [map]. rewrite IH. do 3 f_equal. apply firstn_all2. rewrite skipn_length. lia. }
    rewrite E, E2 in R. apply R; auto; try lia.
    + cbn [end_ok place_ok]. change (2 ^ 64)%N with 18446744073709551616%N in *. lia.
    + exact I.
    + cbn [first_at place_at]. split; [lia|f_equal; lia].
    + cbn [last_at]. lia.
    + destruct NF2 as (_ & X & _). exact X.
  - intros V vm mode ul dflt d s1 s2 W1 W2 C1 C2 F1 F2 HV HL.
    pose proof (JoinMainProps.c76_headed u no _ s1 front NF1 HU1 W1 C1 WF1 F1) as S1. pose proof (JoinMainProps.c76_headed u no _ s2 back NF2 HU2 W2 C2 WF2 F2) as S2.
    assert (E : names = firstn n names ++ skipn n names) by (symmetry; apply firstn_skipn).
    rewrite (PasteProps.c40_paste_partial V u ua un vm JoinMain.join_mode mode ul dflt d hdr_new (mkhdr names DFail [] false) (mkhdr names DFail [] false) true TAB (OrderSpec.headline names) [s1; s2]
      [mkshown (OrderSpec.headline (firstn n names)) (firstn n names) front; mkshown (OrderSpec.headline (skipn n names)) (skipn n names) back]); auto.
    + cbn [filled sh_lines sh_names PasteProps.lengths map]. unfold PasteProps.lengths. cbn [map sh_lines].
      replace (List.length front) with (List.length ls) by (unfold front; rewrite map_length; reflexivity). replace (List.length back) with (List.length ls) by (unfold back; rewrite map_length; reflexivity).
      assert (L1 : longest [List.length ls; List.length ls] = List.length ls) by (unfold longest; cbn; lia).
      assert (L2 : shortest [List.length ls; List.length ls] = List.length ls) by (unfold shortest; cbn; lia).
      rewrite L1, L2, Nat.eqb_refl. rewrite C. replace (match mode with Late => List.length ls | _ => List.length ls end) with (List.length ls) by (destruct mode; reflexivity).
      unfold front, back. rewrite pasted_rows; auto.
      * destruct mode; reflexivity.
      * eapply Forall_impl; [|exact CL]. cbn. intros l ->. exact Hn.
    + match goal with |- push_all _ _ _ ?x = _ => change x with (firstn n names ++ skipn n names ++ []) end. rewrite app_nil_r, firstn_skipn. rewrite push_all_fresh; auto.
    + match goal with |- _ = push_all_unchecked _ ?x => change x with (@nil bytes) end. unfold push_all_unchecked. cbn [h_cols h_dups h_rename h_sloppy]. rewrite app_nil_r. reflexivity.
    + change (get_head true TAB names = Ok (OrderSpec.headline names)). unfold OrderSpec.headline. rewrite <- add_join. destruct names as [|x names]; [cbn in Hn; lia|]. reflexivity.
    + intros L. specialize (HL L). destruct ul; [|cbn [h_cols]; destruct names; [cbn in Hn; lia|discriminate]].
      assert (NE : ls <> []) by auto. constructor; [|constructor; [|constructor]]; cbn [sh_lines]; unfold front, back; destruct ls; congruence || discriminate.
Qed.

(** * Examples *)
Definition out_tab : ColModel.tmode := ColModel.mktm QPlain TAB NL 32.
Definition sp_names : list bytes := [bs "id"; bs "price"; bs "qty"].
Definition sp_lines : list bytes := [JoinMainProps.ln3 "Ax" "2" "5"; JoinMainProps.ln3 "B" "" "3"].
Definition sp_src : src := mksrc [] [OrderSpec.headline sp_names; concat sp_lines].
Definition sp_cut (range : bytes) := cut_main OrderProps.yes OrderProps.yes no_uni no_uni bytes ex_trans (fun _ x => Ok x) ex_match ex_rem fmul ex_libm ex10 CutMainProps.whole_num JoinMain.join_mode true out_tab MMatch
  [(bs "fields", range)] [sp_src].
Lemma sp_fits : names_fit OrderProps.yes OrderProps.yes sp_names /\ names_fit OrderProps.yes OrderProps.yes (firstn 1 sp_names) /\ names_fit OrderProps.yes OrderProps.yes (skipn 1 sp_names).
Proof. repeat split; try discriminate; repeat constructor; try discriminate; vm_compute; intuition discriminate. Qed.
Lemma sp_file : Forall (well_named (alphabetic no_uni) (alphanumeric no_uni)) sp_names /\ NoDup sp_names /\ Forall whole_line sp_lines /\
  Forall (fun l => List.length (parted TAB l) = List.length sp_names) sp_lines /\ wf_src sp_src /\ content sp_src = OrderSpec.headline sp_names ++ concat sp_lines /\ 4 <= List.length (fst (fill_buf sp_src)).
Proof.
  split; [repeat constructor; cbn; try lia; try discriminate|]. split; [repeat constructor; vm_compute; intuition discriminate|]. split.
  { pose proof (OrderProps.fit_dec 50 sp_lines eq_refl) as F. eapply Forall_impl; [|exact F]. cbn. tauto. }
  split; [repeat constructor|]. split; [unfold wf_src; cbn; repeat constructor; discriminate|]. split; [reflexivity|cbn; lia].
Qed.
Example c78_range_ex : end_ok (alphabetic no_uni) (alphanumeric no_uni) (Some (PName (bs "price"))) /\ first_at sp_names (Some (PName (bs "price"))) 1 /\ last_at sp_names None 2 /\
  sp_cut (bs "price-") = (OrderSpec.headline [bs "price"; bs "qty"] ++ bs "2" ++ [TAB] ++ bs "5" ++ [NL; TAB] ++ bs "3" ++ [NL], Ok tt) /\
  sp_cut (bs "1-price") = (OrderSpec.headline [bs "id"; bs "price"] ++ bs "Ax" ++ [TAB] ++ bs "2" ++ [NL] ++ bs "B" ++ [TAB; NL], Ok tt).
Proof.
  split; [split; [discriminate|repeat constructor; cbn; try lia; try discriminate]|]. split.
  { split; [cbn; lia|]. split; [reflexivity|]. intros [|j] H; [discriminate|lia]. }
  split; [reflexivity|]. split; vm_compute; reflexivity.
Qed.
Example c83_split_ex : bs "1-" ++ print_N (N.of_nat 1) = bs "1-1" /\
  PasteProps.paste_of OrderProps.yes no_uni no_uni ex_match JoinMain.join_mode Late true PasteProps.no_values hdr_new true TAB [TurnProps.text (fst (sp_cut (bs "1-1"))); TurnProps.text (fst (sp_cut (bs "2-")))] =
    (content sp_src, Ok tt) /\ values_lookup ex_match PasteProps.no_values sp_names = Ok (mkvals (bs "-") [] [false; false; false] [bs "-"; bs "-"; bs "-"]).
Proof. split; [|split]; vm_compute; reflexivity. Qed.
