(** C83: searching and sorting may be exchanged. *)
From Coq Require Import String List NArith ZArith Bool Arith Lia SpecFloat Sorting.Permutation Sorting.Sorted.
Open Scope list_scope.
Import ListNotations.
From Verif Require Import Base TextSpec FloatModel CompModel CompSpec ReadModel ReadSpec ReadProofs HeadModel HdrModel HdrSpec MatchModel OrdProofs LineSpec LineProofs SortSpec SortProofs HeapProofs SortModel KeySpec KeyModel KeyProofs ToolModel ToolOpen TurnProofs PasteSpec PasteProofs NumbProofs
  OrderModel OrderSpec OrderProofs OrderTool LocSpec LocModel LocProofs PipeSpec PipeProofs.
From Verif Require KeyProps OrderProps JoinMain JoinMainProps LocProps PipeProps SortProps.
Close Scope Z_scope. Open Scope nat_scope.

Section Filter.
Context {A : Type} (cmp : A -> A -> comparison) (p : A -> bool).
Lemma filter_sorted l : sorted cmp l -> sorted cmp (filter p l).
Proof.
  intros S. induction S as [|x l S IH F]; [constructor|]. cbn [filter]. destruct (p x); [|exact IH]. constructor; [exact IH|]. rewrite Forall_forall in *. intros y I. apply filter_In in I. apply F. tauto.
Qed.
Lemma filter_comm (q : A -> bool) l : filter p (filter q l) = filter q (filter p l).
Proof. induction l as [|x l IH]; [reflexivity|]. cbn [filter]. destruct (p x) eqn:P, (q x) eqn:Q; cbn [filter]; rewrite ?P, ?Q, IH; reflexivity. Qed.
Lemma filter_stable l r : stable_sort_of cmp l r -> stable_sort_of cmp (filter p l) (filter p r).
Proof.
  intros (P & S & K). split; [apply perm_filter; exact P|]. split; [apply filter_sorted; exact S|]. intros x. rewrite <- !(filter_comm (same cmp x)), (K x). reflexivity.
Qed.
End Filter.

Lemma found_nothing name test : forall ls before k, found [] name test before k ls = concat (filter test ls).
Proof. induction ls as [|l ls IH]; intros before k; [reflexivity|]. cbn [found filter map concat app]. rewrite IH. destruct (test l); reflexivity. Qed.

(** A condition that can be asked of files with these names, and what it says of a line. *)
Definition asks_lines (resolve : list bytes -> res (ReadModel.textline -> res bool)) (names : list bytes) (test : bytes -> bool) (ls : list bytes) : Prop :=
  exists ok, resolve names = Ok ok /\ forall l, In l ls -> ok (proc JoinMain.join_mode l) = Ok (test l).

(** cgrep of files with the same header: the header and the lines that pass. *)
Lemma greps u no ua un resolve names test rv : forall ss lss,
  names_fit u no names -> u (headline names) = true -> Forall (well_named (alphabetic ua) (alphanumeric un)) names -> NoDup names -> ss <> [] ->
  Forall2 (fun s ls => last (fst s) 0%N <> 47%N /\ wf_src (snd s) /\ content (snd s) = headline names ++ concat ls /\ 4 <= List.length (fst (fill_buf (snd s))) /\ Forall whole_line ls) ss lss ->
  asks_lines resolve names test (concat lss) ->
  cgrep u ua un no resolve JoinMain.join_mode true TAB MMatch [] rv ss = (headline names ++ concat (filter (fun l => xorb (test l) rv) (concat lss)), Ok tt).
Proof.
  intros ss lss NF HU WN ND NE HS (ok & R & HT).
  set (fs := map (fun sl => (fst (fst sl), Some (mkshown (headline names) names (snd sl)))) (combine ss lss)).
  assert (FULL : full fs = map (fun ls => mkshown (headline names) names ls) lss).
  { unfold fs. clear - HS. induction HS as [|s ls ss lss _ HS IH]; [reflexivity|]. cbn [combine map full fst snd]. rewrite IH. reflexivity. }
  assert (FA : found_all [] (fun _ l => xorb (test l) rv) fs = concat (filter (fun l => xorb (test l) rv) (concat lss))).
  { unfold fs. clear - HS. induction HS as [|s ls ss lss _ HS IH]; [reflexivity|]. cbn [combine map found_all fst snd concat sh_lines sh_head]. rewrite found_nothing, IH, filter_app, concat_app. reflexivity. }
  rewrite (LocProps.c71_headed_partial u no ua un resolve JoinMain.join_mode TAB [] [] rv (fun _ => test) ss fs names); auto.
  - cbn [map app]. rewrite FA. unfold headline. rewrite <- !app_assoc. cbn [app]. rewrite <- !app_assoc. reflexivity.
  - unfold fs. clear - HS NF HU. induction HS as [|s ls ss lss (H1 & H2 & H3 & H4 & H5) HS IH]; [constructor|]. cbn [combine map]. constructor; [|exact IH]. split; [reflexivity|]. split; [exact H1|]. split; [exact H2|].
    cbn [fst snd]. pose proof (JoinMainProps.c76_headed u no names (snd s) ls NF HU H2 H3 H5 H4) as (_ & [S|(hd & s1 & _ & S & _)]); [exact S|discriminate S].
  - rewrite FULL. inversion HS; subst; [congruence|discriminate].
  - apply NF.
  - rewrite FULL. apply Forall_forall. intros f I. apply in_map_iff in I as (ls & <- & I). split; [discriminate|]. split; [reflexivity|]. exists ok. split; [exact R|]. cbn [sh_lines sh_names]. intros x J. apply HT. apply in_concat. eauto.
  - split; assumption.
  - destruct NF as (_ & _ & NF). eapply Forall_impl; [|exact NF]. cbn. tauto.
  - destruct NF as (_ & X & _). exact X.
Qed.

(** Searching what sort writes, and sorting what cgrep writes, give the same bytes. *)
Theorem c83_grep : forall utf8_ok name_ok uni_alpha uni_alnum expr expr_new expr_lookup expr_eval expr_eval_line expr_none exp10 cap size md args ws names fs bodies resolve test rv ss,
  sort_run utf8_ok name_ok (alphabetic uni_alpha) (alphanumeric uni_alnum) cap size args ws names fs bodies -> ~ given (bs "unique") args ->
  List.length (concat (concat bodies)) < cap ->
  utf8_ok (headline names) = true -> Forall (well_named (alphabetic uni_alpha) (alphanumeric uni_alnum)) names -> NoDup names ->
  map snd ss = map fst fs -> Forall (fun s => last (fst s) 0%N <> 47%N /\ wf_src (snd s) /\ 4 <= List.length (fst (fill_buf (snd s)))) ss ->
  asks_lines resolve names test (concat bodies) ->
  let sorting := sort_main utf8_ok name_ok uni_alpha uni_alnum expr expr_new expr_lookup expr_eval expr_eval_line expr_none exp10 bh_push bh_pop cap size md args in
  let searching := cgrep utf8_ok uni_alpha uni_alnum name_ok resolve JoinMain.join_mode true TAB MMatch [] rv in
  forall file s1 s2 sched, last file 0%N <> 47%N -> wf_src s1 -> 4 <= List.length (fst (fill_buf s1)) ->
    content s1 = fst (sorting fs) -> content s2 = fst (searching ss) ->
    exists lines, searching [(file, s1)] = (headline names ++ concat lines, Ok tt) /\ sorting [(s2, sched)] = (headline names ++ concat lines, Ok tt) /\
      stable_sort_of (by_fields exp10 ws) (filter (fun l => xorb (test l) rv) (concat bodies)) lines.
Proof.
  intros u no ua un ex en el ee eel eno e10 cap size md args ws names fs bodies resolve test rv ss (K & NM & NC & NC2 & V & WO & WK & WF & Hc & Hc0 & Hs & NF & NE & F & L) NU SZ HU WN ND ES HS AL sorting searching file s1 s2 sched HF W1 F1 C1 C2.
  destruct (OrderProps.c75_named u no ua un ex en el ee eel eno e10 cap size md args ws names fs bodies K NM NC NC2 V WO WK WF Hc Hc0 Hs NF NE F L) as (out & E & _ & X).
  fold sorting in E. rewrite E in C1. cbn [fst] in C1. destruct (X SZ) as [_ X']. pose proof (X' NU) as ST. clear X X'.
  pose proof (PipeProps.by_fields_pre e10 ws WK WF) as PRE. pose proof ST as (P & _).
  assert (WL : Forall whole_line (concat bodies)) by (eapply PipeProps.fit_whole; exact L).
  assert (HS2 : Forall2 (fun s ls => last (fst s) 0%N <> 47%N /\ wf_src (snd s) /\ content (snd s) = headline names ++ concat ls /\ 4 <= List.length (fst (fill_buf (snd s))) /\ Forall whole_line ls) ss bodies).
  { clear - ES HS F WL. revert fs bodies ES F WL. induction ss as [|s ss IH]; intros [|f fs] bodies ES F WL; try discriminate; [inversion F; constructor|]. cbn [map] in ES. injection ES as E1 E2. inversion F as [|? b ? bs' F1 F2]; subst.
    apply Forall_cons_iff in HS as [(H1 & H2 & H3) HS]. cbn [concat] in WL. apply Forall_app in WL as [WL1 WL2]. constructor; [|eapply IH; eauto]. rewrite E1 in *. auto. }
  assert (NS : ss <> []) by (destruct ss; [destruct fs; [congruence|discriminate]|discriminate]).
  pose proof (greps u no ua un resolve names test rv ss bodies NF HU WN ND NS HS2 AL) as G2. fold searching in G2. rewrite G2 in C2. cbn [fst] in C2.
  set (q := fun l => xorb (test l) rv) in *. exists (filter q out).
  assert (ST2 : stable_sort_of (by_fields e10 ws) (filter q (concat bodies)) (filter q out)) by (apply filter_stable; exact ST).
  split; [|split; [|exact ST2]].
  - unfold searching. rewrite (greps u no ua un resolve names test rv [(file, s1)] [out]); auto.
    + cbn [concat]. rewrite app_nil_r. reflexivity.
    + discriminate.
    + constructor; [|constructor]. cbn [fst snd]. repeat split; auto. rewrite Forall_forall in *. intros x I. apply WL. eapply Permutation_in; [symmetry; exact P|exact I].
    + destruct AL as (ok & A1 & A2). exists ok. split; [exact A1|]. cbn [concat]. rewrite app_nil_r. intros l I. apply A2. eapply Permutation_in; [symmetry; exact P|exact I].
  - assert (LF : lines_fit cap (filter q (concat bodies))). { unfold lines_fit in *. rewrite Forall_forall in *. intros x I. apply filter_In in I as [I _]. auto. }
    assert (LE : forall ls, List.length (concat (filter q ls)) <= List.length (concat ls)).
    { induction ls as [|l ls IH]; [reflexivity|]. cbn [filter concat]. destruct (q l); cbn [concat]; rewrite ?app_length; lia. }
    destruct (OrderProps.c75_named u no ua un ex en el ee eel eno e10 cap size md args ws names [(s2, sched)] [filter q (concat bodies)] K NM NC NC2 V WO WK WF Hc Hc0 Hs NF ltac:(discriminate)) as (out2 & E2 & _ & X).
    + constructor; [exact C2|constructor].
    + cbn [concat]. rewrite app_nil_r. exact LF.
    + fold sorting in E2. rewrite E2. cbn [concat] in X. rewrite app_nil_r in X. specialize (LE (concat bodies)). destruct X as [_ X]; [lia|].
      replace out2 with (filter q out); [reflexivity|]. exact (SortProps.c18_determined _ _ _ _ PRE ST2 (X NU)).
Qed.

(** Searching twice keeps the lines that meet both conditions, so the order of the searches is of no account. *)
Theorem c83_grep_twice : forall utf8_ok name_ok uni_alpha uni_alnum names resolve1 test1 rv1 resolve2 test2 rv2 ss lss,
  names_fit utf8_ok name_ok names -> utf8_ok (headline names) = true -> Forall (well_named (alphabetic uni_alpha) (alphanumeric uni_alnum)) names -> NoDup names -> ss <> [] ->
  Forall2 (fun s ls => last (fst s) 0%N <> 47%N /\ wf_src (snd s) /\ content (snd s) = headline names ++ concat ls /\ 4 <= List.length (fst (fill_buf (snd s))) /\ Forall whole_line ls) ss lss ->
  asks_lines resolve1 names test1 (concat lss) -> asks_lines resolve2 names test2 (concat lss) ->
  let search r rv := cgrep utf8_ok uni_alpha uni_alnum name_ok r JoinMain.join_mode true TAB MMatch [] rv in
  let readable (f : bytes * src) := last (fst f) 0%N <> 47%N /\ wf_src (snd f) /\ 4 <= List.length (fst (fill_buf (snd f))) in
  forall f12 f21, readable f12 -> readable f21 -> content (snd f12) = fst (search resolve1 rv1 ss) -> content (snd f21) = fst (search resolve2 rv2 ss) ->
    search resolve2 rv2 [f12] = search resolve1 rv1 [f21] /\
    search resolve2 rv2 [f12] = (headline names ++ concat (filter (fun l => andb (xorb (test1 l) rv1) (xorb (test2 l) rv2)) (concat lss)), Ok tt).
Proof.
  intros u no ua un names r1 t1 rv1 r2 t2 rv2 ss lss NF HU WN ND NS HS A1 A2 search readable [n12 f12] [n21 f21] R1 R2 C1 C2.
  unfold search in C1, C2. rewrite (greps u no ua un r1 names t1 rv1 ss lss) in C1 by auto. rewrite (greps u no ua un r2 names t2 rv2 ss lss) in C2 by auto. cbn [fst snd] in C1, C2.
  assert (WL : Forall whole_line (concat lss)). { clear - HS. induction HS as [|s ls ss lss (_ & _ & _ & _ & H) HS IH]; [constructor|]. apply Forall_app. auto. }
  assert (ONE : forall r t rv q n f, asks_lines r names t (concat lss) -> readable (n, f) -> content f = headline names ++ concat (filter q (concat lss)) ->
    search r rv [(n, f)] = (headline names ++ concat (filter (fun l => xorb (t l) rv) (filter q (concat lss))), Ok tt)).
  { intros r t rv q n f (ok & B1 & B2) (D1 & D2 & D3) C. unfold search. rewrite (greps u no ua un r names t rv [(n, f)] [filter q (concat lss)]); auto.
    - cbn [concat]. rewrite app_nil_r. reflexivity.
    - discriminate.
    - constructor; [|constructor]. cbn [fst snd] in *. repeat split; auto. rewrite Forall_forall in *. intros x I. apply filter_In in I as [I _]. auto.
    - exists ok. split; [exact B1|]. cbn [concat]. rewrite app_nil_r. intros l I. apply filter_In in I as [I _]. auto. }
  rewrite (ONE _ _ _ _ _ _ A2 R1 C1), (ONE _ _ _ _ _ _ A1 R2 C2).
  assert (FF : forall (p q : bytes -> bool) ls, filter q (filter p ls) = filter (fun l => andb (p l) (q l)) ls).
  { intros p q. induction ls as [|l ls IH]; [reflexivity|]. cbn [filter]. destruct (p l); cbn [filter andb]; rewrite IH; reflexivity. }
  rewrite !FF. split; [|reflexivity]. f_equal. f_equal. f_equal. apply filter_ext. intros l. apply andb_comm.
Qed.

(** Example: the animals whose number is below six, sorted by name. *)
Import KeyProps OrderProps.
Definition below (c : N) (l : bytes) : bool := match l with x :: _ => (x <? c)%N | [] => false end.
Definition asks_below (c : N) (names : list bytes) : res (ReadModel.textline -> res bool) := Ok (fun l => Ok (below c (tl_get l 0))).
Definition zoo_named : list (bytes * src) := map (fun ls => (bs "zoo", fst (PipeProps.zoo_file ls))) PipeProps.zoo.
Definition ex_search (c : N) (rv : bool) := cgrep yes none none yes (asks_below c) JoinMain.join_mode true TAB MMatch [] rv.
Definition zoo_below : bytes := headline JoinMainProps.nm0 ++ ln "5" "ant" ++ ln "2" "bee" ++ ln "1" "bee" ++ ln "4" "eel".
Lemma zoo_asks c : asks_lines (asks_below c) JoinMainProps.nm0 (below c) (concat PipeProps.zoo).
Proof. eexists. split; [reflexivity|]. intros l I. cbn in I. repeat destruct I as [<-|I]; try reflexivity. destruct I. Qed.
Example c83_grep_ex : asks_lines (asks_below 54) JoinMainProps.nm0 (below 54) (concat PipeProps.zoo) /\ map snd zoo_named = map fst (map PipeProps.zoo_file PipeProps.zoo) /\
  List.length (concat (concat PipeProps.zoo)) < 99 /\
  Forall (fun s => last (fst s) 0%N <> 47%N /\ wf_src (snd s) /\ 4 <= List.length (fst (fill_buf (snd s)))) zoo_named /\
  ex_search 54 false [(bs "sorted", mksrc [] [PipeProps.zoo_sorted])] = (zoo_below, Ok tt) /\
  ex_main 99 ex_mode PipeProps.zoo_args [(mksrc [] [fst (ex_search 54 false zoo_named)], [2])] = (zoo_below, Ok tt).
Proof.
  split; [apply zoo_asks|]. split; [reflexivity|]. split; [vm_compute; lia|]. split.
  - repeat constructor; cbn; try discriminate; lia.
  - split; vm_compute; reflexivity.
Qed.
Example c83_grep_met : forall file s1 s2 sched, last file 0%N <> 47%N -> wf_src s1 -> 4 <= List.length (fst (fill_buf s1)) ->
  content s1 = fst (ex_main 99 ex_mode PipeProps.zoo_args (map PipeProps.zoo_file PipeProps.zoo)) -> content s2 = fst (ex_search 54 false zoo_named) ->
  ex_search 54 false [(file, s1)] = ex_main 99 ex_mode PipeProps.zoo_args [(s2, sched)].
Proof.
  intros file s1 s2 sched H1 H2 H3 C1 C2.
  destruct (c83_grep yes yes none none unit no_expr no_find no_eval no_eval_line f_zero exp_ex 99 7 ex_mode PipeProps.zoo_args [UniqMainProps.by_animal] JoinMainProps.nm0 (map PipeProps.zoo_file PipeProps.zoo) PipeProps.zoo
    (asks_below 54) (below 54) false zoo_named) with (file := file) (s1 := s1) (s2 := s2) (sched := sched) as (lines & E1 & E2 & _); auto.
  - apply PipeProps.zoo_run; [lia|reflexivity].
  - apply PipeProps.only_key. discriminate.
  - vm_compute; lia.
  - repeat constructor.
  - repeat constructor; cbn; intuition discriminate.
  - apply c83_grep_ex.
  - apply zoo_asks.
  - unfold ex_search, ex_main. rewrite E1, E2. reflexivity.
Qed.
Example c83_grep_twice_ex : Forall2 (fun s ls => last (fst s) 0%N <> 47%N /\ wf_src (snd s) /\ content (snd s) = headline JoinMainProps.nm0 ++ concat ls /\ 4 <= List.length (fst (fill_buf (snd s))) /\ Forall whole_line ls) zoo_named PipeProps.zoo /\
  asks_lines (asks_below 50) JoinMainProps.nm0 (below 50) (concat PipeProps.zoo) /\
  ex_search 50 true [(bs "f", mksrc [] [fst (ex_search 54 false zoo_named)])] = (headline JoinMainProps.nm0 ++ ln "2" "bee" ++ ln "5" "ant" ++ ln "4" "eel", Ok tt).
Proof.
  assert (WL : Forall whole_line (concat PipeProps.zoo)).
  { assert (Z : sort_run yes yes (alphabetic none) (alphanumeric none) 99 7 PipeProps.zoo_args [UniqMainProps.by_animal] JoinMainProps.nm0 (map PipeProps.zoo_file PipeProps.zoo) PipeProps.zoo) by (apply PipeProps.zoo_run; [lia|reflexivity]).
    destruct Z as (_ & _ & _ & _ & _ & _ & _ & _ & _ & _ & _ & _ & _ & _ & L). eapply PipeProps.fit_whole; exact L. }
  split; [|split; [apply zoo_asks|vm_compute; reflexivity]].
  cbn [PipeProps.zoo concat app] in WL. repeat match goal with H : Forall _ (_ :: _) |- _ => apply Forall_cons_iff in H as [? ?] end.
  constructor; [|constructor; [|constructor]]; (split; [discriminate|]; split; [repeat constructor; discriminate|]; split; [reflexivity|]; split; [cbn; lia|repeat constructor; assumption]).
Qed.
