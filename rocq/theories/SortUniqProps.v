(** C83: sort --unique, and uniq after sort. *)
From Coq Require Import String List NArith ZArith Bool Arith Lia SpecFloat Sorting.Permutation Sorting.Sorted.
Open Scope list_scope.
Import ListNotations.
From Verif Require Import Base TextSpec FloatModel CompModel CompSpec ReadModel ReadSpec ReadProofs HeadModel HdrModel MatchModel OrdProofs LineSpec LineProofs SortSpec SortProofs HeapProofs SortModel KeySpec KeyModel KeyProofs ToolModel PasteSpec PasteProofs NumbProofs
  OrderModel OrderSpec OrderProofs OrderTool UniqModel UniqSpec UniqMainSpec UniqMain JoinMain PipeSpec PipeProofs.
From Verif Require KeyProps OrderProps UniqMainProps JoinMainProps PipeProps SortProps.
Close Scope Z_scope. Open Scope nat_scope.

Section Firsts.
Context {A : Type} (cmp : A -> A -> comparison) (PRE : total_preorder cmp).
(** The first elements of the runs of a sorted list are the first of their groups. *)
Lemma firsts_of_runs : forall rs xs, runs_of (same cmp) (concat rs) rs -> sorted cmp (concat rs) -> Forall2 (fun r x => exists q, r = x :: q) rs xs -> first_of_groups cmp (concat rs) xs.
Proof.
  intros rs xs R S F. split.
  { assert (FI : Forall2 (fun r x => In x r) rs xs) by (clear - F; induction F as [|r x rs xs (q & ->) F IH]; constructor; auto; left; reflexivity).
    destruct (runs_reps cmp PRE rs xs R S FI) as (O & _). exact O. }
  intros z. induction F as [|r x rs xs (q & ->) F IH]; [reflexivity|].
  assert (S2 : sorted cmp (concat rs)). { cbn [concat] in S. clear - S. revert S. generalize (x :: q). intros l. induction l as [|a l IH]; intros S; [exact S|]. inversion S; subst. auto. }
  specialize (IH (runs_tail _ _ _ R) S2). pose proof (runs_groups cmp PRE _ R S) as G. apply Forall_cons_iff in G as [G _]. pose proof (G x (or_introl eq_refl)) as GX.
  assert (Q : Forall (fun y => same cmp x y = true) (x :: q)). { rewrite GX at 1. apply Forall_forall. intros y I. apply filter_In in I. tauto. }
  pose proof (same_trans cmp PRE) as TR. pose proof (same_sym cmp PRE) as SY.
  assert (B : forall y, In y (concat rs) -> cmp x y = Lt) by (intros y I; eapply (runs_below cmp PRE); [exact R|exact S|left; reflexivity|exact I]).
  change (concat ((x :: q) :: rs)) with ((x :: q) ++ concat rs). rewrite filter_app. cbn [filter]. destruct (same cmp z x) eqn:E.
  - cbn [app firstn]. f_equal. rewrite IH. destruct (filter (same cmp z) (concat rs)) as [|y t] eqn:Y; [reflexivity|]. exfalso.
    assert (I : In y (filter (same cmp z) (concat rs))) by (rewrite Y; left; reflexivity). apply filter_In in I as [I1 I2]. specialize (B y I1). rewrite SY in E. pose proof (TR _ _ _ E I2) as T. unfold same in T. rewrite B in T. discriminate.
  - replace (filter (same cmp z) q) with (@nil A); [exact IH|]. apply Forall_cons_iff in Q as [_ Q]. clear - Q E TR SY. induction q as [|y q IH]; [reflexivity|]. apply Forall_cons_iff in Q as [Q1 Q2]. cbn [filter].
    destruct (same cmp z y) eqn:E2; [|auto]. rewrite SY in Q1. rewrite (TR _ _ _ E2 Q1) in E. discriminate.
Qed.
End Firsts.

(** sort --unique writes what uniq with the same keys writes after sort without it. *)
Theorem c83_unique : forall utf8_ok name_ok uni_alpha uni_alnum expr expr_new expr_lookup expr_eval expr_eval_line expr_none exp10 decode is_space is_alnum comp_make agg_expr print_num
    cap size md args0 args1 ws names fs bodies ot uargs s,
  sort_run utf8_ok name_ok (alphabetic uni_alpha) (alphanumeric uni_alnum) cap size args0 ws names fs bodies -> ~ given (bs "unique") args0 ->
  sort_run utf8_ok name_ok (alphabetic uni_alpha) (alphanumeric uni_alnum) cap size args1 ws names fs bodies -> given (bs "unique") args1 ->
  List.length (concat (concat bodies)) < cap ->
  let sorting := sort_main utf8_ok name_ok uni_alpha uni_alnum expr expr_new expr_lookup expr_eval expr_eval_line expr_none exp10 bh_push bh_pop cap size md in
  content s = fst (sorting args0 fs) -> wf_src s -> 4 <= List.length (fst (fill_buf s)) -> utf8_ok (headline names) = true ->
  Forall (fun a => fst a = bs "key") uargs -> values (bs "key") uargs (map text_of_key ws) -> ColModel.tm_delim ot = TAB -> proper uni_alpha uni_alnum names ->
  uniq_main utf8_ok uni_alpha uni_alnum expr expr_new expr_lookup expr_eval expr_eval_line expr_none exp10 decode is_space is_alnum comp_make agg_expr print_num join_mode true ot uargs s = sorting args1 fs.
Proof.
  intros u no ua un ex en el ee eel eno e10 de isp ial cm ae pn cap size md args0 args1 ws names fs bodies ot uargs s
    (K & NM & NC & NC2 & V & WO & WK & WF & Hc & Hc0 & Hs & NF & NE & F & L) NU (K' & NM' & NC' & NC2' & V' & _) GU SZ sorting C W H4 HU UK VK OD PR.
  destruct (OrderProps.c75_named u no ua un ex en el ee eel eno e10 cap size md args0 ws names fs bodies K NM NC NC2 V WO WK WF Hc Hc0 Hs NF NE F L) as (out & E & _ & X).
  destruct (OrderProps.c75_named u no ua un ex en el ee eel eno e10 cap size md args1 ws names fs bodies K' NM' NC' NC2' V' WO WK WF Hc Hc0 Hs NF NE F L) as (out1 & E1 & _ & X1).
  destruct (X SZ) as [_ ST]. destruct (X1 SZ) as [FG _]. specialize (ST NU). specialize (FG GU). clear X X1. destruct ST as (PO & SO & KT0).
  fold sorting in E, E1. rewrite E in C. cbn [fst] in C. pose proof (PipeProps.by_fields_pre e10 ws WK WF) as PRE.
  assert (WL : Forall whole_line out). { pose proof (PipeProps.fit_whole _ _ L) as WL. eapply Permutation_Forall; [exact PO|exact WL]. }
  pose proof (JoinMainProps.c76_headed u no names s out NF HU W C WL H4) as SH.
  assert (WN : ws <> []) by (destruct ws; [destruct WF|discriminate]).
  assert (KT : key_texts ws = map text_of_key ws) by (destruct ws; [congruence|reflexivity]).
  assert (VN : forall n, n <> bs "key" -> values n uargs []). { intros n D. clear - UK D. induction UK as [|[m v] uargs H UK IH]; constructor; auto. cbn [fst] in H. congruence. }
  assert (UK' : Forall (fun a => In (fst a) [bs "key"; bs "count"; bs "which"]) uargs) by (eapply Forall_impl; [|exact UK]; cbn; intros a ->; left; reflexivity).
  destruct (UniqMainProps.c77_uniq u ua un ex en el ee eel eno e10 de isp ial cm ae pn join_mode true ot uargs s (mkshown (headline names) names out) ws [] [] [] []
      UK' ltac:(rewrite KT; exact VK) WO (VN (bs "count") ltac:(discriminate)) (Forall2_nil _) (VN (bs "which") ltac:(discriminate)) (Forall2_nil _) (Forall_nil _) eq_refl eq_refl ltac:(discriminate) ltac:(reflexivity) SH ltac:(left; discriminate) (Forall_nil _) (fun _ => WN)
      ltac:(intros _; split; [apply NF|exact PR])) as (rs & outs & U1 & U2 & U3).
  cbn [sh_head sh_names sh_lines last snd fst counted_names pick_keys] in *.
  assert (AL : forall a b, alike e10 (tm_delim join_mode) ws a b = same (by_fields e10 ws) a b). { intros a b. unfold alike, same. destruct ws; [congruence|reflexivity]. }
  assert (R2 : runs_of (same (by_fields e10 ws)) (concat rs) rs).
  { destruct U2 as (_ & U2 & U4). split; [reflexivity|]. split.
    - eapply Forall_impl; [|exact U2]. cbn. intros r [RN RC]. split; auto. clear - RC AL. induction r as [|a [|b r] IH]; [exact I|exact I|]. destruct RC as [R1 RC]. split; [rewrite <- AL; exact R1|exact (IH RC)].
    - clear - U4 AL. induction rs as [|r [|q rs] IH]; [exact I|exact I|]. destruct U4 as [(p & x & y & t & A1 & A2 & A3) U4]. split; [|exact (IH U4)]. exists p, x, y, t. rewrite <- AL. auto. }
  destruct U2 as (CC & _). rewrite <- CC in SO, KT0.
  assert (FX : Forall2 (fun r x => exists q, r = x :: q) rs outs).
  { clear - U3. induction U3 as [|r o rs outs (b & (p & q & -> & ->) & ->) U3 IH]; constructor; auto. exists q. reflexivity. }
  pose proof (firsts_of_runs _ PRE rs outs R2 SO FX) as G. rewrite U1, E1.
  rewrite (groups_unique _ PRE (concat bodies) outs out1 (first_of_groups_ties _ _ _ _ KT0 G) FG). rewrite OD. reflexivity.
Qed.

Import KeyProps OrderProps.
Definition zoo_unique : list (bytes * bytes) := [(bs "key", bs "animal"); (bs "unique", [])].
Example c83_unique_ex : sort_run yes yes (alphabetic none) (alphanumeric none) 99 7 PipeProps.zoo_args [UniqMainProps.by_animal] JoinMainProps.nm0 (map PipeProps.zoo_file PipeProps.zoo) PipeProps.zoo /\
  sort_run yes yes (alphabetic none) (alphanumeric none) 99 7 zoo_unique [UniqMainProps.by_animal] JoinMainProps.nm0 (map PipeProps.zoo_file PipeProps.zoo) PipeProps.zoo /\ given (bs "unique") zoo_unique /\
  proper none none JoinMainProps.nm0 /\
  UniqMainProps.ex_uniq join_mode PipeProps.zoo_args (mksrc [] [PipeProps.zoo_sorted]) = (headline JoinMainProps.nm0 ++ ln "5" "ant" ++ ln "2" "bee" ++ ln "7" "cow" ++ ln "4" "eel", Ok tt) /\
  ex_main 99 ex_mode zoo_unique (map PipeProps.zoo_file PipeProps.zoo) = (headline JoinMainProps.nm0 ++ ln "5" "ant" ++ ln "2" "bee" ++ ln "7" "cow" ++ ln "4" "eel", Ok tt).
Proof.
  assert (Z : sort_run yes yes (alphabetic none) (alphanumeric none) 99 7 PipeProps.zoo_args [UniqMainProps.by_animal] JoinMainProps.nm0 (map PipeProps.zoo_file PipeProps.zoo) PipeProps.zoo) by (apply PipeProps.zoo_run; [lia|reflexivity]).
  split; [exact Z|]. split.
  { destruct Z as (_ & _ & _ & _ & _ & WO & WK & WF & R). split; [apply Forall_cons; [cbn; auto 10|]; apply Forall_cons; [cbn; auto 10|]; apply Forall_nil|].
    assert (NG : forall n, n <> bs "key" -> n <> bs "unique" -> ~ given n zoo_unique) by (intros n D1 D2 (v & [E|[E|[]]]); congruence).
    split; [apply NG; discriminate|]. split; [apply NG; discriminate|]. split; [apply NG; discriminate|]. split; [|auto].
    apply (val_this (bs "key") (bs "animal") [(bs "unique", [])] []). apply val_other; [discriminate|constructor]. }
  split; [exists []; right; left; reflexivity|]. split; [split; [repeat constructor|]; repeat constructor; cbn; intuition discriminate|]. split; vm_compute; reflexivity.
Qed.
