(** Proofs about constant folding and evaluation. *)
From Coq Require Import String List NArith ZArith Bool Arith Lia SpecFloat.
Open Scope list_scope.
From Verif Require Import Base FloatModel ExprModel ExprSpec ExprProofs.
Import ListNotations.
Close Scope Z_scope.

Section E.
Variable frem fpow : f64 -> f64 -> f64.
Variable libm : fop -> list f64 -> f64.
Variable env : bytes -> f64.
Notation builtin := (builtin fpow libm).
Notation value := (value frem fpow factorial builtin env).
Notation run := (run frem fpow factorial builtin env).
Notation run_step := (run_step frem fpow factorial builtin env).
Notation eval_loop := (eval_loop frem fpow libm).
Notation eval_step := (eval_step frem fpow libm).
Notation fold_step := (fold_step frem fpow libm).
Notation fold_loop := (fold_loop frem fpow libm).

Lemma compare_swap a b : SFcompare b a = option_map CompOpp (SFcompare a b).
Proof.
  destruct a as [s|s| |s m e], b as [s'|s'| |s' m' e']; cbn [SFcompare option_map]; auto; try destruct s; try destruct s'; auto.
  - change (Pcompare m m' Eq) with (m ?= m')%positive. change (Pcompare m' m Eq) with (m' ?= m)%positive.
    rewrite (Z.compare_antisym e e'), (Pos.compare_antisym m m').
    destruct (e ?= e')%Z; auto; cbn; now destruct (m ?= m')%positive.
  - change (Pcompare m m' Eq) with (m ?= m')%positive. change (Pcompare m' m Eq) with (m' ?= m)%positive.
    rewrite (Z.compare_antisym e e'), (Pos.compare_antisym m m').
    destruct (e ?= e')%Z; auto; cbn; now destruct (m ?= m')%positive.
Qed.
Lemma op_value_ok o a b : op_value frem fpow o a b = apply_binary frem fpow o a b.
Proof.
  destruct o; cbn [op_value apply_binary]; auto; unfold to_f, truth, SFltb, SFeqb, SFleb;
    change (f_of_Z 0) with f_zero; change (f_of_Z 1) with f_one; auto; rewrite ?(compare_swap a b);
    destruct (SFcompare a b) as [[]|]; reflexivity.
Qed.
Lemma un_value_ok u a : un_value factorial u a = apply_unary u a.
Proof. now destruct u. Qed.

Lemma run_app st a b : run st (a ++ b) = match run st a with Some s => run s b | None => None end.
Proof. revert st. induction a as [|t a IH]; intros st; cbn [app ExprSpec.run]; auto. destruct (run_step st t); auto. Qed.

Lemma all_some_length {A} (l : list (option A)) r : all_some l = Some r -> List.length r = List.length l.
Proof.
  revert r. induction l as [|x l IH]; cbn [all_some]; intros r H.
  - now injection H as <-.
  - destruct x; [|discriminate]. destruct (all_some l); [|discriminate]. injection H as <-. cbn. now rewrite IH.
Qed.

(** Running the evaluation order of a tree pushes its value. *)
Lemma run_postfix t : forall st, run st (postfix t) = match value t with Some v => Some (v :: st) | None => None end.
Proof.
  induction t as [x|s|u a IH|a IH|o a b IHa IHb|s l IH] using tree_rec2; intros st; cbn [postfix ExprSpec.value]; auto.
  - rewrite run_app, IH. destruct (value a); auto.
  - rewrite run_app, IH. destruct (value a); auto.
  - rewrite run_app, IHa. destruct (value a) as [va|]; auto. rewrite run_app, IHb. destruct (value b); auto.
  - rewrite run_app.
    assert (H : forall st, run st (flat_map postfix l) = match all_some (map value l) with Some r => Some (rev r ++ st) | None => None end).
    { clear st. induction IH as [|x l Hx _ IHl]; intros st; cbn [flat_map map all_some]; auto.
      rewrite run_app, Hx. destruct (value x) as [v|]; auto. rewrite IHl. destruct (all_some (map value l)); auto.
      cbn [rev]. now rewrite <- app_assoc. }
    rewrite H. destruct (all_some (map value l)) as [r|] eqn:E; auto.
    apply all_some_length in E. rewrite map_length in E. cbn [ExprSpec.run ExprSpec.run_step].
    rewrite app_length, rev_length, <- E. destruct (Nat.ltb_spec (List.length r + List.length st) (List.length r)); [lia|].
    assert (F1 : firstn (List.length r) (rev r ++ st) = rev r).
    { rewrite <- (rev_length r). rewrite firstn_app, Nat.sub_diag, firstn_all. cbn [firstn]. now rewrite app_nil_r. }
    assert (F2 : skipn (List.length r) (rev r ++ st) = st).
    { rewrite <- (rev_length r). now rewrite skipn_app, Nat.sub_diag, skipn_all. }
    rewrite F1, F2, rev_involutive.
    destruct (builtin s r); auto.
Qed.

(** Functions. *)
Lemma reads_min f : reads_args f <= min_args f. Proof. destruct f; cbn; lia. Qed.
Lemma min_pos f : 1 <= min_args f. Proof. destruct f; cbn; lia. Qed.
Lemma apply_func_ok f args : min_args f <= List.length args -> exists v, apply_func fpow libm f args = Ok v.
Proof.
  intros H. pose proof (reads_min f). unfold apply_func. destruct (Nat.ltb_spec (List.length args) (reads_args f)); [lia|]. eauto.
Qed.
Lemma builtin_ok s args : fun_ok (TFunc s (Some (List.length args))) = true ->
  exists f v, find_func s = Ok f /\ arity_ok f (List.length args) = true /\ apply_func fpow libm f args = Ok v /\ builtin s args = Some v.
Proof.
  unfold fun_ok, ExprSpec.builtin. destruct (find_func s) as [f| |]; try discriminate. intros A. rewrite A.
  unfold arity_ok in A. apply andb_prop in A. destruct A as [A1 A2]. apply Nat.leb_le in A1.
  destruct (apply_func_ok f args A1) as [v E]. rewrite E. exists f, v. unfold arity_ok. rewrite A2, andb_true_r. apply Nat.leb_le in A1. auto.
Qed.
Lemma builtin_inv s args v : builtin s args = Some v ->
  exists f, find_func s = Ok f /\ arity_ok f (List.length args) = true /\ apply_func fpow libm f args = Ok v.
Proof.
  unfold ExprSpec.builtin. destruct (find_func s) as [f| |]; try discriminate. destruct (arity_ok f (List.length args)) eqn:A; try discriminate.
  destruct (apply_func fpow libm f args) eqn:E; try discriminate. injection 1 as ->. eauto.
Qed.

(** Evaluation and more variables. *)
Lemma eval_loop_app vals st a b : eval_loop vals st (a ++ b) = rbind (eval_loop vals st a) (fun s => eval_loop vals s b).
Proof. revert st. induction a as [|t a IH]; intros st; cbn [app ExprModel.eval_loop rbind]; auto. destruct (eval_step vals st t); cbn [rbind]; auto. Qed.
Lemma eval_loop_more vals more l : forall st s, eval_loop vals st l = Ok s -> eval_loop (vals ++ more) st l = Ok s.
Proof.
  induction l as [|x l IH]; intros st s; cbn [ExprModel.eval_loop]; auto.
  destruct (eval_step vals st x) as [s1| |] eqn:E; cbn [rbind]; try discriminate. intros H.
  assert (E2 : eval_step (vals ++ more) st x = Ok s1).
  { destruct x; cbn [ExprModel.eval_step] in *; auto.
    destruct (nth_error vals i) eqn:N; [|discriminate]. rewrite nth_error_app1; [now rewrite N|]. apply nth_error_Some. congruence. }
  rewrite E2. cbn [rbind]. auto.
Qed.

Lemma var_index_some vars s i k : var_index vars s k = Some i -> exists v, i >= k /\ nth_error vars (i - k) = Some v /\ v_name v = s.
Proof.
  revert k. induction vars as [|v r IH]; intros k; cbn [var_index]; [discriminate|].
  destruct (beq (v_name v) s) eqn:B.
  - injection 1 as <-. exists v. rewrite Nat.sub_diag. split; [lia|]. split; auto. now apply Base.beq_eq in B.
  - intros H. destruct (IH _ H) as (w & G & N & E). exists w. split; [lia|]. split; auto.
    replace (i - k) with (S (i - (k + 1))) by lia. exact N.
Qed.

Definition names (vars : list varmap) : list f64 := map (fun v => env (v_name v)) vars.

Lemma eval_snoc vals e x st : eval_loop vals [] (rev e) = Ok st -> eval_loop vals [] (rev (x :: e)) = eval_step vals st x.
Proof.
  intros H. cbn [rev]. rewrite eval_loop_app, H. cbn [rbind ExprModel.eval_loop]. destruct (eval_step vals st x); auto.
Qed.

Hypothesis consts : knows_consts env.

Lemma fold_step_ok e vars t st st' :
  eval_loop (names vars) [] (rev e) = Ok st -> run_step st t = Some st' ->
  exists e1 more, fold_step e vars t = Ok (e1, vars ++ more) /\ eval_loop (names (vars ++ more)) [] (rev e1) = Ok st'.
Proof.
  intros E R. destruct t as [o|u| | | |x|s|s [n|]]; cbn [ExprSpec.run_step] in R; try (destruct st; discriminate).
  - (* binary *) destruct st as [|b [|a r]]; try discriminate. injection R as <-. rewrite op_value_ok.
    assert (G : exists e1 more, Ok (NBin o :: e, vars) = Ok (e1, vars ++ more) /\ eval_loop (names (vars ++ more)) [] (rev e1) = Ok (apply_binary frem fpow o a b :: r)).
    { exists (NBin o :: e), []. rewrite app_nil_r. split; auto. now rewrite (eval_snoc _ _ _ _ E). }
    cbn [ExprModel.fold_step].
    destruct e as [|x e]; [discriminate E|]. destruct x; try exact G.
    assert (E1 : eval_loop (names vars) [] (rev e) = Ok (a :: r) /\ x = b).
    { cbn [rev] in E. rewrite eval_loop_app in E. destruct (eval_loop (names vars) [] (rev e)) as [s1| |]; try discriminate.
      cbn in E. injection E as -> ->. auto. }
    destruct E1 as [E1 ->].
    destruct e as [|y e]; [discriminate E1|]. destruct y; try exact G.
    exists (NVal (apply_binary frem fpow o x b) :: e), []. rewrite app_nil_r. split; auto.
    cbn [rev] in E1 |- *. rewrite eval_loop_app in E1 |- *. destruct (eval_loop (names vars) [] (rev e)) as [s2| |]; try discriminate.
    cbn in E1 |- *. injection E1 as -> ->. reflexivity.
  - (* unary *) destruct st as [|a r]; [discriminate|]. injection R as <-. rewrite un_value_ok.
    assert (G : exists e1 more, Ok (NUn u :: e, vars) = Ok (e1, vars ++ more) /\ eval_loop (names (vars ++ more)) [] (rev e1) = Ok (apply_unary u a :: r)).
    { exists (NUn u :: e), []. rewrite app_nil_r. split; auto. now rewrite (eval_snoc _ _ _ _ E). }
    assert (G2 : exists e1 more, match e with [] => Panic | NVal v :: e' => Ok (NVal (apply_unary u v) :: e', vars) | _ => Ok (NUn u :: e, vars) end = Ok (e1, vars ++ more) /\ eval_loop (names (vars ++ more)) [] (rev e1) = Ok (apply_unary u a :: r)).
    { destruct e as [|x e]; [discriminate E|]. destruct x; try exact G.
      exists (NVal (apply_unary u x) :: e), []. rewrite app_nil_r. split; auto.
      cbn [rev] in E |- *. rewrite eval_loop_app in E |- *. destruct (eval_loop (names vars) [] (rev e)) as [s2| |]; try discriminate.
      cbn in E |- *. injection E as -> ->. reflexivity. }
    cbn [ExprModel.fold_step]. destruct u; try exact G2.
    exists e, []. rewrite app_nil_r. auto.
  - (* number *) injection R as <-. exists (NVal x :: e), []. rewrite app_nil_r. split; auto. now rewrite (eval_snoc _ _ _ _ E).
  - (* variable *) injection R as <-. cbn [ExprModel.fold_step]. destruct (find_const s) as [v|] eqn:C.
    + exists (NVal v :: e), []. rewrite app_nil_r. split; auto. rewrite (eval_snoc _ _ _ _ E). cbn. now rewrite (consts _ _ C).
    + unfold find_var. destruct (var_index vars s 0) as [i|] eqn:V.
      * destruct (var_index_some _ _ _ _ V) as (v & _ & N & <-). rewrite Nat.sub_0_r in N.
        exists (NVar i :: e), []. rewrite app_nil_r. split; auto. rewrite (eval_snoc _ _ _ _ E). cbn [ExprModel.eval_step].
        unfold names. now rewrite (map_nth_error _ _ _ N).
      * exists (NVar (List.length vars) :: e), [mkvar s f_zero None]. split; auto.
        unfold names. rewrite map_app. erewrite eval_snoc; [|apply eval_loop_more; exact E]. cbn [ExprModel.eval_step].
        rewrite nth_error_app2; rewrite map_length; [|lia]. rewrite Nat.sub_diag. reflexivity.
  - (* function *) destruct (Nat.ltb_spec (List.length st) n) as [|L]; [destruct st; discriminate|].
    assert (R' : option_map (fun v => v :: skipn n st) (builtin s (rev (firstn n st))) = Some st') by (destruct st; exact R). clear R.
    destruct (builtin s (rev (firstn n st))) as [v|] eqn:B; [|discriminate]. injection R' as <-.
    destruct (builtin_inv _ _ _ B) as (f & F & A & Ap). rewrite rev_length, firstn_length_le in A by auto.
    cbn [ExprModel.fold_step]. rewrite F. cbn [rbind].
    unfold arity_ok in A. apply andb_prop in A. destruct A as [A1 A2]. apply Nat.leb_le in A1.
    destruct (Nat.ltb_spec n (min_args f)); [lia|].
    assert (A3 : (0 <? max_args f) && (max_args f <? n) = false).
    { apply orb_prop in A2. destruct A2 as [A2|A2]; [apply Nat.eqb_eq in A2; rewrite A2; reflexivity|].
      apply Nat.leb_le in A2. destruct (Nat.ltb_spec (max_args f) n); [lia|]. apply andb_false_r. }
    rewrite A3.
    assert (G : exists e1 more, Ok (NFunc f n :: e, vars) = Ok (e1, vars ++ more) /\ eval_loop (names (vars ++ more)) [] (rev e1) = Ok (v :: skipn n st)).
    { exists (NFunc f n :: e), []. rewrite app_nil_r. split; auto. rewrite (eval_snoc _ _ _ _ E). cbn [ExprModel.eval_step].
      destruct (Nat.ltb_spec (List.length st) n); [lia|]. rewrite Ap. reflexivity. }
    destruct (Nat.eqb_spec n 1) as [->|]; [|exact G].
    destruct e as [|x e]. { cbn in E. injection E as <-. cbn in L. lia. }
    destruct x; try exact G.
    destruct st as [|a r]; [cbn in L; lia|]. cbn [firstn rev app] in Ap. cbn [skipn].
    assert (E1 : eval_loop (names vars) [] (rev e) = Ok r /\ x = a).
    { cbn [rev] in E. rewrite eval_loop_app in E. destruct (eval_loop (names vars) [] (rev e)) as [s1| |]; try discriminate.
      cbn in E. injection E as -> ->. auto. }
    destruct E1 as [E1 ->]. rewrite Ap. cbn [rbind]. exists (NVal v :: e), []. rewrite app_nil_r. split; auto. now rewrite (eval_snoc _ _ _ _ E1).
Qed.

Lemma fold_loop_ok ts : forall e vars st st',
  eval_loop (names vars) [] (rev e) = Ok st -> run st ts = Some st' ->
  exists e1 more, fold_loop e vars ts = Ok (e1, vars ++ more) /\ eval_loop (names (vars ++ more)) [] (rev e1) = Ok st'.
Proof.
  induction ts as [|t ts IH]; intros e vars st st' E R; cbn [ExprSpec.run] in R.
  - injection R as <-. exists e, []. rewrite app_nil_r. auto.
  - destruct (run_step st t) as [s1|] eqn:S; [|discriminate].
    destruct (fold_step_ok _ _ _ _ _ E S) as (e1 & m1 & F1 & E1).
    destruct (IH _ _ _ _ E1 R) as (e2 & m2 & F2 & E2).
    exists e2, (m1 ++ m2). cbn [ExprModel.fold_loop]. rewrite F1. cbn [rbind]. rewrite F2. now rewrite app_assoc.
Qed.

(** Folding keeps the meaning. *)
Lemma folding x0 rpn st : run [] rpn = Some st ->
  exists x, rpn_to_expr frem fpow libm x0 rpn = Ok x
    /\ forall y, same_code y x -> agrees env y -> eval_loop (map v_val (e_vars y)) [] (e_nodes y) = Ok st.
Proof.
  intros R. destruct (fold_loop_ok rpn [] (e_vars x0) [] st eq_refl R) as (e & more & F & E).
  unfold rpn_to_expr. rewrite F. cbn [rbind]. eexists. split; [reflexivity|].
  intros y (Nn & Nv) Ag. cbn [e_nodes e_vars] in *. rewrite Nn.
  assert (V : map v_val (e_vars y) = names (e_vars x0 ++ more)).
  { unfold names. rewrite <- (map_map v_name env), <- Nv, map_map. apply map_ext_in. intros v Hv. unfold agrees in Ag.
    rewrite Forall_forall in Ag. auto. }
  now rewrite V.
Qed.

(** Success does not depend on the values. *)
Lemma eval_shape l : forall vals vals' st st' s, List.length vals = List.length vals' -> List.length st = List.length st' ->
  eval_loop vals st l = Ok s -> exists s', eval_loop vals' st' l = Ok s' /\ List.length s' = List.length s.
Proof.
  induction l as [|x l IH]; intros vals vals' st st' s Lv Ls; cbn [ExprModel.eval_loop].
  - injection 1 as <-. exists st'. auto.
  - destruct (eval_step vals st x) as [s1| |] eqn:E; cbn [rbind]; try discriminate. intros H.
    assert (G : exists s2, eval_step vals' st' x = Ok s2 /\ List.length s1 = List.length s2).
    { destruct x; cbn [ExprModel.eval_step] in *.
      - injection E as <-. eexists. split; [reflexivity|]. cbn. auto.
      - destruct (nth_error vals i) eqn:N; [|discriminate]. injection E as <-.
        destruct (nth_error vals' i) eqn:N'. + eexists. split; [reflexivity|]. cbn. auto.
        + apply nth_error_None in N'. assert (i < List.length vals) by (apply nth_error_Some; congruence). lia.
      - destruct st as [|a r]; [discriminate|]. destruct st' as [|a' r']; [discriminate|]. injection E as <-. eexists. split; [reflexivity|]. cbn in *. auto.
      - destruct st as [|a [|b r]]; try discriminate. destruct st' as [|a' [|b' r']]; try discriminate. injection E as <-.
        eexists. split; [reflexivity|]. cbn in *. lia.
      - rewrite <- Ls. destruct (Nat.ltb_spec (List.length st) n); [discriminate|].
        destruct (apply_func fpow libm f (rev (firstn n st))) as [v| |] eqn:A; try discriminate. cbn [rbind] in E. injection E as <-.
        unfold apply_func in *. rewrite rev_length, firstn_length_le in A by auto. rewrite rev_length, firstn_length_le by lia.
        destruct (n <? reads_args f); [discriminate|]. cbn [rbind]. eexists. split; [reflexivity|]. cbn [List.length]. rewrite !skipn_length. lia. }
    destruct G as (s2 & E2 & L2). rewrite E2. cbn [rbind]. eapply IH; eauto.
Qed.

(** What the verification pass guarantees. *)
Lemma verified_runs ts : forall n m st, verify_loop n ts = Ok m -> Z.of_nat (List.length st) = n -> forallb fun_ok ts = true ->
  exists st', run st ts = Some st' /\ Z.of_nat (List.length st') = m.
Proof.
  induction ts as [|t ts IH]; intros n m st V L F; cbn [verify_loop] in V.
  - injection V as <-. exists st. auto.
  - cbn [forallb] in F. apply andb_prop in F. destruct F as [F1 F2].
    destruct (match t with TVar _ | TNum _ => Ok (n + 1)%Z | TUn _ => Ok n | TBin _ => Ok (n - 1)%Z | TFunc _ (Some k) => Ok (n - (Z.of_nat k - 1))%Z | _ => Panic end) as [n1| |] eqn:N;
      cbn [rbind] in V; try discriminate.
    destruct (Z.leb_spec n1 0) as [|P]; [discriminate|].
    assert (G : exists s1, run_step st t = Some s1 /\ Z.of_nat (List.length s1) = n1).
    { destruct t as [o|u| | | |x|s|s [k|]]; try discriminate; injection N as <-; cbn [ExprSpec.run_step].
      - destruct st as [|a [|b r]]; cbn [List.length] in *; try lia. eexists. split; [reflexivity|]. cbn [List.length]. lia.
      - destruct st as [|a r]; cbn [List.length] in *; try lia. eexists. split; [reflexivity|]. cbn [List.length]. lia.
      - eexists. split; [reflexivity|]. cbn [List.length]. lia.
      - eexists. split; [reflexivity|]. cbn [List.length]. lia.
      - destruct (Nat.ltb_spec (List.length st) k); [lia|].
        assert (LA : List.length (rev (firstn k st)) = k) by (rewrite rev_length; apply firstn_length_le; auto).
        destruct (builtin_ok s (rev (firstn k st))) as (f & v & _ & A & _ & B). { now rewrite LA. }
        rewrite LA in A. unfold arity_ok in A. apply andb_prop in A. destruct A as [A _]. apply Nat.leb_le in A. pose proof (min_pos f).
        assert (K : 1 <= k) by lia.
        rewrite B. exists (v :: skipn k st). split; [now destruct st|]. cbn [List.length]. rewrite skipn_length. lia. }
    destruct G as (s1 & R1 & L1). destruct (IH _ _ s1 V L1 F2) as (s2 & R2 & L2). exists s2. cbn [ExprSpec.run]. rewrite R1. auto.
Qed.
End E.
