(** C83: sorting files, and sorting what cat makes of them. *)
From Coq Require Import String List NArith ZArith Bool Arith Lia SpecFloat Sorting.Permutation Sorting.Sorted.
Open Scope list_scope.
Import ListNotations.
From Verif Require Import Base TextSpec FloatModel CompModel CompSpec ReadModel ReadSpec ReadProofs HeadModel HeadSpec HeadProps HdrModel MatchModel OrdProofs LineSpec LineProofs SortSpec SortProofs HeapProofs SortModel KeySpec KeyModel KeyProofs ToolModel ToolOpen
  OrderModel OrderSpec OrderProofs OrderTool CatSpec CatProofs PipeSpec PipeProofs.
From Verif Require KeyProps OrderProps CatProps UniqMainProps JoinMainProps PipeProps SortProps.
Close Scope Z_scope. Open Scope nat_scope.

Lemma first_of_whole h t : whole_line h -> first_line (h ++ t) = h.
Proof.
  intros (b & -> & N). induction b as [|c b IH]; [reflexivity|]. cbn [app first_line]. destruct (c =? NL)%N eqn:E.
  - apply N.eqb_eq in E. subst. exfalso. apply N. left. reflexivity.
  - f_equal. apply IH. intros I. apply N. right. exact I.
Qed.
Lemma has_newline h t : whole_line h -> no_newline (h ++ t) = false.
Proof. intros (b & -> & _). unfold no_newline. rewrite !existsb_app. cbn [existsb]. rewrite N.eqb_refl, !orb_true_r. reflexivity. Qed.

(** cat of files with one and the same header: the header once, and all lines in order, whatever padding is asked for. *)
Theorem c43_headed : forall utf8_ok name_ok names pad ss lss, names_fit utf8_ok name_ok names -> ss <> [] ->
  Forall2 (fun s ls => wf_src s /\ content s = headline names ++ concat ls /\ Forall whole_line ls) ss lss ->
  cat utf8_ok name_ok MMatch pad true ck_new ss = (headline names ++ concat (concat lss), Ok tt).
Proof.
  intros u no names pad ss lss NF NE HS. destruct (headline_text _ _ _ NF) as (WH & VH & _ & IH & _). set (h := headline names) in *.
  assert (HN : h <> []) by discriminate.
  assert (T : filter not_empty (map content ss) = map (fun ls => h ++ concat ls) lss).
  { clear - HS HN. induction HS as [|s ls ss lss (_ & C & _) HS I]; [reflexivity|]. cbn [map filter]. rewrite C, I. destruct h; [congruence|reflexivity]. }
  assert (F : map first_line (map (fun ls => h ++ concat ls) lss) = map (fun _ => h) lss).
  { rewrite map_map. apply map_ext. intros ls. apply first_of_whole. exact WH. }
  assert (R : Forall (regular u no MMatch) (map (fun _ => h) lss)).
  { apply Forall_forall. intros x I. apply in_map_iff in I as (_ & <- & _). split; [exact HN|]. split; [rewrite VH, IH; reflexivity|]. intros _. destruct WH as (b & -> & _). apply last_last. }
  destruct lss as [|ls lss]; [inversion HS; subst; congruence|].
  assert (CK : check_all u no MMatch ck_new (map (fun _ : list bytes => h) (ls :: lss)) = Ok (true :: map (fun _ => false) lss)).
  { rewrite (c07_match u no _ R). cbn [map spec_match]. rewrite IH. replace (forallb (fun l => beq l h) (map (fun _ => h) lss)) with true.
    - cbn [to_res]. rewrite map_map. reflexivity.
    - symmetry. apply forallb_forall. intros x I. apply in_map_iff in I as (_ & <- & _). apply beq_refl. }
  assert (WS : Forall wf_src ss). { clear - HS. induction HS as [|s x ss xs (W & _) HS I]; constructor; auto. }
  pose proof (CatProps.c43_cat_partial u no MMatch pad ss (true :: map (fun _ => false) lss) WS) as G. cbv zeta in G. rewrite T, F in G. specialize (G CK).
  assert (B : forall p, concat (map (fun f : bool * bytes => kept (fst f) (snd f) ++ if p && fst f && no_newline (snd f) then [NL] else []) (combine (true :: map (fun _ => false) lss) (map (fun ls => h ++ concat ls) (ls :: lss)))) = h ++ concat (concat (ls :: lss))).
  { intros p. cbn [map combine concat fst snd kept]. rewrite (has_newline _ _ WH), andb_false_r, app_nil_r, concat_app, <- app_assoc. f_equal. f_equal.
    clear - WH. induction lss as [|l lss I]; [reflexivity|]. cbn [map combine concat fst snd]. rewrite I, andb_false_r. cbn [andb kept]. rewrite (first_of_whole _ _ WH), app_nil_r, concat_app, skipn_app, skipn_all, Nat.sub_diag. reflexivity. }
  rewrite G. rewrite !B. destruct pad; try reflexivity.
  replace (last_open false (combine (true :: map (fun _ => false) lss) (map (fun ls0 => h ++ concat ls0) (ls :: lss)))) with false; [rewrite app_nil_r; reflexivity|].
  cbn [map combine last_open]. rewrite (has_newline _ _ WH). clear - WH.
  assert (Z : forall k, last_open false (combine (map (fun _ : list bytes => false) k) (map (fun ls0 : list bytes => h ++ concat ls0) k)) = false).
  { induction k as [|l k I]; [reflexivity|]. cbn [map combine last_open]. rewrite (has_newline _ _ WH). destruct (kept false (h ++ concat l)); exact I. }
  destruct (kept false (h ++ concat ls)); symmetry; apply Z.
Qed.

(** Sorting what cat writes is sorting the files. *)
Theorem c83_cat : forall utf8_ok name_ok uni_alpha uni_alnum expr expr_new expr_lookup expr_eval expr_eval_line expr_none exp10 cap size md args ws names fs bodies pad s sched,
  sort_run utf8_ok name_ok (alphabetic uni_alpha) (alphanumeric uni_alnum) cap size args ws names fs bodies -> ~ given (bs "unique") args ->
  List.length (concat (concat bodies)) < cap -> Forall (fun f => wf_src (fst f)) fs ->
  let sorting := sort_main utf8_ok name_ok uni_alpha uni_alnum expr expr_new expr_lookup expr_eval expr_eval_line expr_none exp10 bh_push bh_pop cap size md args in
  content s = fst (cat utf8_ok name_ok MMatch pad true ck_new (map fst fs)) -> sorting [(s, sched)] = sorting fs /\ snd (sorting fs) = Ok tt.
Proof.
  intros u no ua un ex en el ee eel eno e10 cap size md args ws names fs bodies pad s sched (K & NM & NC & NC2 & V & WO & WK & WF & Hc & Hc0 & Hs & NF & NE & F & L) NU SZ W sorting C.
  assert (WL : Forall whole_line (concat bodies)) by (eapply PipeProps.fit_whole; exact L).
  rewrite (c43_headed u no names pad (map fst fs) bodies NF) in C.
  - cbn [fst] in C.
    destruct (OrderProps.c75_named u no ua un ex en el ee eel eno e10 cap size md args ws names fs bodies K NM NC NC2 V WO WK WF Hc Hc0 Hs NF NE F L) as (out & E & _ & X).
    destruct (OrderProps.c75_named u no ua un ex en el ee eel eno e10 cap size md args ws names [(s, sched)] [concat bodies] K NM NC NC2 V WO WK WF Hc Hc0 Hs NF ltac:(discriminate)) as (out2 & E2 & _ & X2).
    + constructor; [exact C|constructor].
    + cbn [concat]. rewrite app_nil_r. exact L.
    + fold sorting in E, E2. rewrite E, E2. cbn [concat] in X2. rewrite app_nil_r in X2. destruct (X SZ) as [_ Y]. destruct (X2 SZ) as [_ Y2].
      rewrite (SortProps.c18_determined _ _ _ _ (PipeProps.by_fields_pre e10 ws WK WF) (Y NU) (Y2 NU)). auto.
  - destruct fs; [congruence|discriminate].
  - clear - W F WL. revert W WL. induction F as [|f b fs bodies C F IH]; intros W WL; [constructor|]. cbn [concat] in WL. apply Forall_app in WL as [WL1 WL2]. apply Forall_cons_iff in W as [W1 W2]. cbn [map]. constructor; auto.
Qed.

Import KeyProps OrderProps.
Example c43_headed_ex : names_fit yes yes JoinMainProps.nm0 /\
  Forall2 (fun s ls => wf_src s /\ content s = headline JoinMainProps.nm0 ++ concat ls /\ Forall whole_line ls) (map fst (map PipeProps.zoo_file PipeProps.zoo)) PipeProps.zoo /\
  cat yes yes MMatch PadAll true ck_new (map fst (map PipeProps.zoo_file PipeProps.zoo)) = (headline JoinMainProps.nm0 ++ concat (concat PipeProps.zoo), Ok tt).
Proof.
  assert (WL : Forall whole_line (concat PipeProps.zoo)).
  { assert (Z : sort_run yes yes (alphabetic none) (alphanumeric none) 99 7 PipeProps.zoo_args [UniqMainProps.by_animal] JoinMainProps.nm0 (map PipeProps.zoo_file PipeProps.zoo) PipeProps.zoo) by (apply PipeProps.zoo_run; [lia|reflexivity]).
    destruct Z as (_ & _ & _ & _ & _ & _ & _ & _ & _ & _ & _ & _ & _ & _ & L). eapply PipeProps.fit_whole; exact L. }
  split; [apply PipeProps.nm_fit|]. split; [|vm_compute; reflexivity].
  cbn [PipeProps.zoo concat app] in WL. repeat match goal with H : Forall _ (_ :: _) |- _ => apply Forall_cons_iff in H as [? ?] end.
  constructor; [|constructor; [|constructor]]; (split; [repeat constructor; discriminate|]; split; [reflexivity|]; repeat constructor; assumption).
Qed.
Example c83_cat_ex : sort_run yes yes (alphabetic none) (alphanumeric none) 99 7 PipeProps.zoo_args [UniqMainProps.by_animal] JoinMainProps.nm0 (map PipeProps.zoo_file PipeProps.zoo) PipeProps.zoo /\
  List.length (concat (concat PipeProps.zoo)) < 99 /\ Forall (fun f => wf_src (fst f)) (map PipeProps.zoo_file PipeProps.zoo) /\
  ex_main 99 ex_mode PipeProps.zoo_args [(mksrc [] [fst (cat yes yes MMatch PadAll true ck_new (map fst (map PipeProps.zoo_file PipeProps.zoo)))], [3])] = (PipeProps.zoo_sorted, Ok tt).
Proof. split; [apply PipeProps.zoo_run; [lia|reflexivity]|]. split; [vm_compute; lia|]. split; [repeat constructor; discriminate|vm_compute; reflexivity]. Qed.
