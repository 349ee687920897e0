(** C80: the calc tool. *)
From Coq Require Import String List NArith ZArith Bool Arith Lia.
Open Scope list_scope.
Import ListNotations.
From Verif Require Import Base TextModel StrSpec FloatModel ReadModel ReadSpec ReadProofs HdrModel ToolModel TurnProps ColProps PasteSpec PasteProofs CompProps ExprModel ExprSpec ExprProofs ExprProps FmtModel FmtProps OrderSpec OrderProofs JoinMainSpec JoinMain JoinMainProps
  CalcMain CalcMainSpec CalcMainProofs.
Close Scope Z_scope. Open Scope nat_scope.

(** C80. Every line with an expression that has a value is answered by a line with that value, in the order of the lines and of the files;
    the others are left out and the tool still ends well. The value is written in the format the line names, else in the one last named on
    an earlier line, even of another file, else in that of the last option, else in the default. *)
Theorem c80_answers : forall utf8_ok lossy uni_alpha uni_alnum frem fpow libm exp10 disp disp_p expo expo_p md args names fmts ss fs vs f',
  Forall (fun a => fst a = bs "fmt") args -> map snd args = names -> Forall2 names_format names fmts ->
  tm_quote md = QPlain -> Forall2 (shows utf8_ok md) ss fs -> (forall l, utf8_ok l = true -> lossy l = l) ->
  Forall (fun l => utf8_ok (removelast l) = true) (concat (map sh_lines fs)) ->
  answers uni_alpha uni_alnum frem fpow libm exp10 (last fmts (NShort None)) (map (@removelast N) (concat (map sh_lines fs))) vs f' ->
  calc_main utf8_ok lossy uni_alpha uni_alnum frem fpow libm exp10 disp disp_p expo expo_p md args ss =
    (concat (map (fun x => match x with Some (f, v) => fmt_print disp disp_p expo expo_p f v ++ [NL] | None => [] end) vs), Ok tt).
Proof.
  intros u lo ua un fr fp lm e10 d dp ex exp md args names fmts ss fs vs f' A N F Q H L U V. unfold calc_main. rewrite (args_last args names fmts fmt_default A N F). cbn [need].
  apply (files_answer u lo ua un fr fp lm e10 d dp ex exp md Q ss fs (last fmts fmt_default) vs f'); auto. eapply Forall_impl; [|exact U]. auto.
Qed.
(** The files as they are: lines in the default format without a header. *)
Theorem c80_plain : forall utf8_ok lossy uni_alpha uni_alnum frem fpow libm exp10 disp disp_p expo expo_p args names fmts s l ls vs f',
  Forall (fun a => fst a = bs "fmt") args -> map snd args = names -> Forall2 names_format names fmts ->
  wf_src s -> content s = concat (map (fun l => l ++ [NL]) (l :: ls)) -> Forall (fun l => ~ In NL l /\ utf8_ok l = true) (l :: ls) -> firstn 4 l <> bs " CDX" ->
  (forall l, utf8_ok l = true -> lossy l = l) ->
  answers uni_alpha uni_alnum frem fpow libm exp10 (last fmts (NShort None)) (l :: ls) vs f' ->
  calc_main utf8_ok lossy uni_alpha uni_alnum frem fpow libm exp10 disp disp_p expo expo_p join_mode args [s] =
    (concat (map (fun x => match x with Some (f, v) => fmt_print disp disp_p expo expo_p f v ++ [NL] | None => [] end) vs), Ok tt).
Proof.
  intros u lo ua un fr fp lm e10 d dp ex exp args names fmts s l ls vs f' A NM F W C L H LO V.
  assert (RB : forall xs : list bytes, map (@removelast N) (map (fun l => l ++ [NL]) xs) = xs). { induction xs as [|x xs IH]; [reflexivity|]. cbn [map]. rewrite removelast_last, IH. reflexivity. }
  destruct (c76_plain u s (l ++ [NL]) (map (fun l => l ++ [NL]) ls) W C) as (ns & SH & _).
  { change ((l ++ [NL]) :: map (fun l => l ++ [NL]) ls) with (map (fun l => l ++ [NL]) (l :: ls)). apply Forall_forall. intros x X. apply in_map_iff in X as (y & <- & Y). rewrite Forall_forall in L. exists y. split; [reflexivity|]. apply L; auto. }
  { intros E. apply H. destruct l as [|a [|b [|c [|e l]]]]; cbn in E; try discriminate E. cbn. exact E. }
  apply (c80_answers u lo ua un fr fp lm e10 d dp ex exp join_mode args names fmts [s] _ vs f' A NM F eq_refl (Forall2_cons _ _ SH (Forall2_nil _)) LO); cbn [map sh_lines concat]; rewrite app_nil_r.
  - change ((l ++ [NL]) :: map (fun l => l ++ [NL]) ls) with (map (fun l => l ++ [NL]) (l :: ls)). apply Forall_forall. intros x X. apply in_map_iff in X as (y & <- & Y). rewrite removelast_last. rewrite Forall_forall in L. apply L; auto.
  - change ((l ++ [NL]) :: map (fun l => l ++ [NL]) ls) with (map (fun l => l ++ [NL]) (l :: ls)). rewrite RB. exact V.
Qed.
Notation ex_calc_tool := (calc_main any_text (fun l => l) no_uni no_uni ex_rem fmul ex_libm ex10 ex_d ex_dp ex_d ex_dp join_mode).
Definition calc_lines : list bytes := map bs ["10-2*max(1+2,-7)"; "P10,2000"; "1 + 2"; "abs(2,3)"; "17000000"]%string.
Lemma number_line ds x : forallb is_digit ds = true -> ds <> [] -> to_f64_lossy ex10 ds = x -> written ex10 (alphabetic no_uni) (alphanumeric no_uni) ds (Leaf x).
Proof. intros D N E. exists [TNum x], [ds]. cbn [concat]. rewrite app_nil_r. split; [reflexivity|]. split; [apply (show_sentence (Leaf x)); auto; lia|]. split; [|split; reflexivity]. constructor; [apply number_spelled; auto|constructor]. Qed.
Lemma calc_answers_ex : answers no_uni no_uni ex_rem fmul ex_libm ex10 (NPlain None) calc_lines
  [Some (NPlain None, num 4); Some (NPower10, num 2000); None; None; Some (NPower10, num 17000000)] NPower10.
Proof.
  assert (FR : foreign 32%N) by (split; [reflexivity|split; [reflexivity|split; [reflexivity|vm_compute; intuition discriminate]]]).
  destruct c32_value_partial_ex as [W V].
  unfold calc_lines. cbn [map]. apply (an_plain _ _ _ _ _ _ (NPlain None) (bs "10-2*max(1+2,-7)") (Some (num 4))).
  { eapply gi_value; eauto. }
  { intros X. apply Exists_exists in X as (c & I & _ & X1 & X2 & X3). exfalso. apply X3. clear X3. revert X1 X2. repeat (destruct I as [<-|I]; [vm_compute; intros; try discriminate; auto 20|]). elim I. }
  apply (an_format _ _ _ _ _ _ (NPlain None) (bs "P10") NPower10 (bs "2000") (Some (num 2000))); [apply nf_ten; right; reflexivity|eapply gi_value; [apply number_line; [reflexivity|discriminate|vm_compute; reflexivity]|reflexivity]|].
  apply (an_plain _ _ _ _ _ _ NPower10 (bs "1 + 2") None); [apply gi_foreign, Exists_exists; exists 32%N; split; [vm_compute; auto|exact FR]| |].
  { intros _ a b E. exfalso. assert (I : In 44%N (bs "1 + 2")) by (rewrite E; apply in_or_app; right; left; reflexivity). vm_compute in I. intuition discriminate. }
  apply (an_plain _ _ _ _ _ _ NPower10 (bs "abs(2,3)") None).
  { apply (gi_call _ _ _ _ _ _ _ (Call (bs "abs") [Leaf (num 2); Leaf (num 3)])); [|reflexivity].
    exists [TFunc (bs "abs") None; TNum (num 2); TComma; TNum (num 3); TRParen], (map bs ["abs("; "2"; ","; "3"; ")"]%string). split; [reflexivity|]. split; [|split; [|split; reflexivity]].
    - match goal with |- sentence 1 ?l ?t => change l with (show 1 t) end. apply show_sentence; auto; lia.
    - cbn [map]. apply Forall2_cons; [apply (sp_func _ _ _ 97%N (bs "bs")); reflexivity|]. apply Forall2_cons; [apply number_spelled; [reflexivity|discriminate|vm_compute; reflexivity]|].
      apply Forall2_cons; [apply sp_comma|]. apply Forall2_cons; [apply number_spelled; [reflexivity|discriminate|vm_compute; reflexivity]|]. apply Forall2_cons; [apply sp_right|constructor]. }
  { intros X. apply Exists_exists in X as (c & I & _ & X1 & X2 & X3). exfalso. apply X3. clear X3. revert X1 X2. repeat (destruct I as [<-|I]; [vm_compute; intros; try discriminate; auto 20|]). elim I. }
  apply (an_plain _ _ _ _ _ _ NPower10 (bs "17000000") (Some (num 17000000))); [eapply gi_value; [apply number_line; [reflexivity|discriminate|vm_compute; reflexivity]|reflexivity]| |constructor].
  intros X. apply Exists_exists in X as (c & I & _ & X1 & X2 & X3). exfalso. apply X3. clear X3. revert X1 X2. repeat (destruct I as [<-|I]; [vm_compute; intros; try discriminate; auto 20|]). elim I.
Qed.
Example c80_plain_ex : ex_calc_tool [(bs "fmt", bs "float.3"); (bs "fmt", bs "Plain")] [text (concat (map (fun l => l ++ [NL]) calc_lines))] =
  (bs "4" ++ [NL] ++ bs "2.0k" ++ [NL] ++ bs "17m" ++ [NL], Ok tt).
Proof.
  refine (eq_trans (c80_plain any_text (fun l => l) no_uni no_uni ex_rem fmul ex_libm ex10 ex_d ex_dp ex_d ex_dp _ _ [NFloat (Some 3%N); NPlain None] _ _ _ _ _ _ eq_refl _ _ _ _ _ _ calc_answers_ex) _).
  - repeat constructor.
  - constructor; [apply (nf_float_n (bs "float") 3%N); reflexivity|]. constructor; [apply nf_plain; reflexivity|constructor].
  - repeat constructor; discriminate.
  - cbn [text content s_buf s_chunks concat app]. rewrite app_nil_r. reflexivity.
  - unfold calc_lines. cbn [map]. repeat (apply Forall_cons; [split; [vm_compute; intuition discriminate|reflexivity]|]). constructor.
  - discriminate.
  - reflexivity.
  - vm_compute. reflexivity.
Qed.

Lemma one_line l : ~ In NL l -> firstn 4 l <> bs " CDX" -> exists n, shows any_text join_mode (text (l ++ [NL])) (mkshown [] n [l ++ [NL]]).
Proof.
  intros N F. destruct (c76_plain any_text (text (l ++ [NL])) (l ++ [NL]) []) as (n & H & _).
  - constructor; [destruct l; discriminate|constructor].
  - reflexivity.
  - constructor; [exists l; auto|constructor].
  - intros E. apply F. destruct l as [|a [|b [|c [|e l]]]]; cbn in E; try discriminate E. exact E.
  - exists n. exact H.
Qed.
Example c80_answers_ex : ex_calc_tool [] [text (bs "p2,2048" ++ [NL]); mksrc [] []; text (bs "4096" ++ [NL])] = (bs "2.0K" ++ [NL] ++ bs "4.0K" ++ [NL], Ok tt).
Proof.
  pose proof (one_line (bs "p2,2048") ltac:(vm_compute; intuition discriminate) ltac:(discriminate)) as S1.
  pose proof (one_line (bs "4096") ltac:(vm_compute; intuition discriminate) ltac:(discriminate)) as S3.
  destruct S1 as (n1 & S1). destruct S3 as (n3 & S3).
  assert (S2 : shows any_text join_mode (mksrc [] []) (mkshown [] [] [])) by (split; [constructor|]; right; eexists; eexists; repeat split; vm_compute; reflexivity).
  refine (eq_trans (c80_answers any_text (fun l => l) no_uni no_uni ex_rem fmul ex_libm ex10 ex_d ex_dp ex_d ex_dp join_mode [] [] [] _ [mkshown [] n1 _; mkshown [] [] []; mkshown [] n3 _]
    [Some (NPower2, num 2048); Some (NPower2, num 4096)] NPower2 (Forall_nil _) eq_refl (Forall2_nil _) eq_refl (Forall2_cons _ _ S1 (Forall2_cons _ _ S2 (Forall2_cons _ _ S3 (Forall2_nil _)))) _ _ _) _).
  - reflexivity.
  - cbn [map sh_lines concat app]. repeat constructor.
  - apply (an_format _ _ _ _ _ _ _ (bs "p2") NPower2 (bs "2048") (Some (num 2048))); [apply nf_two; right; reflexivity|eapply gi_value; [apply number_line; [reflexivity|discriminate|vm_compute; reflexivity]|reflexivity]|].
    apply (an_plain _ _ _ _ _ _ NPower2 (bs "4096") (Some (num 4096))); [eapply gi_value; [apply number_line; [reflexivity|discriminate|vm_compute; reflexivity]|reflexivity]| |constructor].
    intros X. apply Exists_exists in X as (c & I & _ & X1 & X2 & X3). exfalso. apply X3. clear X3. revert X1 X2. repeat (destruct I as [<-|I]; [vm_compute; intros; try discriminate; auto 20|]). elim I.
  - vm_compute. reflexivity.
Qed.

(** C80. The text of an expression is never mistaken for one with a format in front. *)
Theorem c80_unmistaken : forall exp10 uni_alpha uni_alnum f s t, written exp10 (alphabetic uni_alpha) (alphanumeric uni_alnum) s t -> parse_fmt_expr f s = (f, s).
Proof. intros e10 ua un f s t W. apply comma_same. eapply written_comma; eauto. Qed.
Example c80_unmistaken_ex : parse_fmt_expr (NFloat None) (bs "max(p2,3)") = (NFloat None, bs "max(p2,3)") /\ parse_fmt_expr (NFloat None) (bs "p2,3") = (NPower2, bs "3").
Proof. split; reflexivity. Qed.

(** C80. Whatever the lines, the tool reaches the end of the last file, unless a line or what follows a comma in it is made of brackets only. *)
Theorem c80_goes_on_partial : forall utf8_ok lossy uni_alpha uni_alnum frem fpow libm exp10 disp disp_p expo expo_p md args names fmts ss fs,
  Forall (fun a => fst a = bs "fmt") args -> map snd args = names -> Forall2 names_format names fmts ->
  tm_quote md = QPlain -> Forall2 (shows utf8_ok md) ss fs -> Forall (fun l => busy (lossy (removelast l))) (concat (map sh_lines fs)) ->
  exists out, calc_main utf8_ok lossy uni_alpha uni_alnum frem fpow libm exp10 disp disp_p expo expo_p md args ss = (out, Ok tt).
Proof.
  intros u lo ua un fr fp lm e10 d dp ex exp md args names fmts ss fs A N F Q H B. unfold calc_main. rewrite (args_last args names fmts fmt_default A N F). cbn [need].
  eapply files_go; eauto.
Qed.
Lemma busy_by s : forallb (fun e => existsb (fun c => negb ((c =? 40) || (c =? 41))%N) e) (s :: (fix tails (l : bytes) := match l with [] => [] | c :: r => if (c =? 44)%N then r :: tails r else tails r end) s) = true -> busy s.
Proof.
  cbn [forallb]. intros H. apply andb_true_iff in H as [H1 H2].
  assert (X : forall e, existsb (fun c => negb ((c =? 40) || (c =? 41))%N) e = true -> exists c, In c e /\ c <> 40%N /\ c <> 41%N).
  { intros e E. apply existsb_exists in E as (c & I & E). exists c. split; auto. apply negb_true_iff, orb_false_iff in E as [E1 E2]. apply N.eqb_neq in E1, E2. auto. }
  intros e [->|(a & ->)]; [auto|]. apply X. clear H1 X. revert H2. induction a as [|c a IH]; cbn [app].
  - rewrite N.eqb_refl. cbn [forallb]. intros H. apply andb_true_iff in H as [H _]. exact H.
  - intros H. apply IH. destruct (c =? 44)%N; [cbn [forallb] in H; apply andb_true_iff in H as [_ H]|]; exact H.
Qed.
Example c80_goes_on_partial_ex : Forall busy (map bs ["1++"; "2,3,)4("; "p2,"" "; "max("]%string) /\ exists out, ex_calc_tool [] [text (bs "1++" ++ [NL] ++ bs "2,3,)4(" ++ [NL] ++ bs "max(")] = (out, Ok tt).
Proof. split; [repeat (apply Forall_cons; [apply busy_by; reflexivity|]); constructor|]. eexists. vm_compute. reflexivity. Qed.
(** C80. An empty line ends the tool with a panic, and the lines after it are not answered. *)
Theorem c80_blank_refuted : exists data, data = bs "1+1" ++ [NL] ++ [NL] ++ bs "2+2" ++ [NL] /\ ex_calc_tool [] [text data] = (bs "2" ++ [NL], Panic).
Proof. eexists. split; [reflexivity|]. vm_compute. reflexivity. Qed.
(** C80. The tool ends well although no expression could be evaluated. *)
Theorem c80_status_refuted : exists data, data = bs "1 + 2" ++ [NL] ++ bs "sqr(2" ++ [NL] /\ ex_calc_tool [] [text data] = ([], Ok tt).
Proof. eexists. split; [reflexivity|]. vm_compute. reflexivity. Qed.
(** C80. A name that is neither a constant nor a function counts as 0, so that a misspelt name goes unnoticed. *)
Theorem c80_name_refuted : exists data, data = bs "2*pie" ++ [NL] /\ ex_calc_tool [(bs "fmt", bs "plain")] [text data] = (bs "0" ++ [NL], Ok tt).
Proof. eexists. split; [reflexivity|]. vm_compute. reflexivity. Qed.
(** C80. An option whose text is no format is refused before anything is read. *)
Theorem c80_option : forall utf8_ok lossy uni_alpha uni_alnum frem fpow libm exp10 disp disp_p expo expo_p md word rest ss,
  ~ In 46%N word -> ~ In (map lower word) (map bs ["plain"; "short"; "float"; "power2"; "p2"; "power10"; "p10"]%string) ->
  calc_main utf8_ok lossy uni_alpha uni_alnum frem fpow libm exp10 disp disp_p expo expo_p md ((bs "fmt", word) :: rest) ss = ([], Err).
Proof.
  intros u lo ua un fr fp lm e10 d dp ex exp md word rest ss P W. unfold calc_main. cbn [calc_args]. rewrite beq_refl.
  assert (E : fmt_new word = Err).
  { destruct (fmt_new word) as [f| |] eqn:E; [|reflexivity|].
    - apply c69_new_only in E as [E|(a & b & p & -> & _)]; [contradiction|]. elim P. apply in_or_app. right. left. reflexivity.
    - exfalso. unfold fmt_new in E. repeat (match type of E with (if ?b then _ else _) = _ => destruct b end; [discriminate|]). rewrite MatchText.split_once_none in E by auto. discriminate. }
  rewrite E. reflexivity.
Qed.
Example c80_option_ex : ex_calc_tool [(bs "fmt", bs "plane")] [text (bs "1" ++ [NL])] = ([], Err).
Proof. reflexivity. Qed.
