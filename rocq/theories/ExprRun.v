(** Proofs about whole expressions: compiling and evaluating a text. *)
From Coq Require Import String List NArith ZArith Bool Arith Lia SpecFloat.
Open Scope list_scope.
From Verif Require Import Base FloatModel HdrModel ExprModel ExprSpec ExprProofs ExprEval ExprTok.
Import ListNotations.
Close Scope Z_scope.

(** ** Which tokens reach the output *)
Definition paren (t : token) : bool := match t with TLParen | TRParen => true | _ => false end.
Definition weight (s : list token * list token) : nat := List.length (fst s) + List.length (filter (fun t => negb (paren t)) (snd s)).
Lemma weight_move out t r : weight (out, t :: r) <= weight (out ++ [t], r).
Proof. unfold weight. cbn [fst snd filter]. rewrite app_length. cbn [List.length]. destruct (paren t); cbn [negb List.length]; lia. Qed.
Lemma pop_ops_weight pa out st : weight (out, st) <= weight (pop_ops pa out st).
Proof.
  revert out. induction st as [|t r IH]; intros out; cbn [pop_ops]; [lia|].
  pose proof (weight_move out t r). pose proof (IH (out ++ [t])).
  destruct pa as [i []]; try lia; destruct (_ : bool); lia.
Qed.
Lemma pop_rparen_weight st : forall out s, pop_rparen out st = Ok s -> weight (out, st) <= weight s.
Proof.
  induction st as [|t r IH]; intros out s; cbn [pop_rparen]; [discriminate|]. pose proof (weight_move out t r) as M.
  destruct t; intros H; try (apply IH in H; lia); injection H as <-.
  - unfold weight. cbn. lia.
  - unfold weight in *. cbn [fst snd filter paren negb List.length] in *. rewrite app_length in *. cbn [List.length] in *. lia.
Qed.
Lemma pop_comma_weight st : forall out s, pop_comma out st = Ok s -> weight (out, st) <= weight s /\ 1 <= weight s.
Proof.
  induction st as [|t r IH]; intros out s; cbn [pop_comma]; [discriminate|]. pose proof (weight_move out t r) as M.
  destruct t; intros H; try (apply IH in H; lia); try discriminate; injection H as <-.
  unfold weight in *. cbn [fst snd filter paren negb List.length] in *. lia.
Qed.
Lemma rpn_loop_weight ts : forall s s', rpn_loop s ts = Ok s' -> weight s <= weight s' /\ (forallb paren ts = false -> 1 <= weight s').
Proof.
  induction ts as [|t ts IH]; intros s s'; cbn [rpn_loop].
  - injection 1 as <-. split; [lia|discriminate].
  - destruct (rpn_step s t) as [s1| |] eqn:E; try discriminate. cbn [rbind]. intros H. destruct (IH _ _ H) as [A B].
    assert (G : weight s <= weight s1 /\ (paren t = false -> 1 <= weight s1)).
    { destruct s as [out st]. destruct t; cbn [rpn_step] in E.
      - pose proof (pop_ops_weight (prec_assoc (TBin op)) out st). destruct (pop_ops _ out st) as [o' s2]. injection E as <-. unfold weight in *. cbn [fst snd filter paren negb List.length] in *. lia.
      - injection E as <-. unfold weight. cbn [fst snd filter paren negb List.length]. lia.
      - injection E as <-. unfold weight. cbn [fst snd filter paren negb List.length]. split; [lia|discriminate].
      - apply pop_rparen_weight in E. split; [lia|discriminate].
      - apply pop_comma_weight in E. lia.
      - injection E as <-. unfold weight. cbn [fst snd]. rewrite app_length. cbn [List.length]. lia.
      - injection E as <-. unfold weight. cbn [fst snd]. rewrite app_length. cbn [List.length]. lia.
      - injection E as <-. unfold weight. cbn [fst snd filter paren negb List.length]. lia. }
    destruct G as [G1 G2]. split; [lia|]. cbn [forallb]. destruct (paren t); cbn [andb]; auto. intros _. specialize (G2 eq_refl). lia.
Qed.
Lemma pop_rest_length st : forall out o, pop_rest out st = Ok o -> List.length o = List.length out + List.length st.
Proof.
  induction st as [|t r IH]; intros out o; cbn [pop_rest]. { injection 1 as <-. cbn. lia. }
  destruct t; try discriminate; intros H; apply IH in H; rewrite app_length in H; cbn [List.length] in *; lia.
Qed.
(** Only brackets give an empty program. *)
Lemma empty_rpn ts : to_rpn ts = Ok [] -> forallb paren ts = true.
Proof.
  unfold to_rpn. destruct (rpn_loop ([], []) ts) as [[out st]| |] eqn:E; try discriminate. cbn [rbind].
  destruct (pop_rest out st) as [o| |] eqn:P; try discriminate. cbn [rbind].
  destruct (verify_loop 0 o); try discriminate. cbn [rbind]. destruct (1 <? a)%Z; try discriminate. injection 1 as ->.
  apply pop_rest_length in P. cbn in P. assert (out = [] /\ st = []) as [-> ->] by (destruct out, st; cbn in P; auto; lia).
  apply rpn_loop_weight in E. destruct (forallb paren ts); auto. destruct E as [_ E]. specialize (E eq_refl). cbn in E. lia.
Qed.

(** No step of the conversion panics. *)
Lemma pop_rparen_np st : forall out, pop_rparen out st <> Panic.
Proof. induction st as [|t r IH]; intros out; cbn [pop_rparen]; [discriminate|]. destruct t; try discriminate; apply IH. Qed.
Lemma pop_comma_np st : forall out, pop_comma out st <> Panic.
Proof. induction st as [|t r IH]; intros out; cbn [pop_comma]; [discriminate|]. destruct t; try discriminate; apply IH. Qed.
(** The stack holds only operators, opening brackets and functions; the output only operands, operators and counted functions. *)
Definition stackable (t : token) : bool := match t with TBin _ | TUn _ | TLParen | TFunc _ _ => true | _ => false end.
Definition outable (t : token) : bool := match t with TBin _ | TUn _ | TNum _ | TVar _ | TFunc _ (Some _) => true | _ => false end.
Definition fine (s : list token * list token) : Prop := forallb outable (fst s) = true /\ forallb stackable (snd s) = true.
Lemma fine_move out t r : fine (out, t :: r) -> isop t = true -> fine (out ++ [t], r).
Proof. unfold fine. cbn [fst snd forallb]. intros [A B] I. apply andb_prop in B. rewrite forallb_app. cbn [forallb]. rewrite A. destruct t; try discriminate; tauto. Qed.
Lemma pop_ops_fine i a st : forall out, 1 <= i -> fine (out, st) -> fine (pop_ops (i, a) out st).
Proof.
  induction st as [|t r IH]; intros out I F; cbn [pop_ops]; auto.
  assert (G : i <= fst (prec_assoc t) -> fine (pop_ops (i, a) (out ++ [t]) r)).
  { intros L. apply IH; auto. apply fine_move; auto. destruct t; cbn in L; auto; lia. }
  destruct a; auto.
  - destruct (Nat.leb_spec i (fst (prec_assoc t))); auto.
  - destruct (Nat.ltb_spec i (fst (prec_assoc t))); auto. apply G. lia.
Qed.
Lemma pop_rparen_fine st : forall out s, fine (out, st) -> pop_rparen out st = Ok s -> fine s.
Proof.
  induction st as [|t r IH]; intros out s F; cbn [pop_rparen]; [discriminate|].
  destruct t; intros H; try (eapply IH; [|exact H]; apply fine_move; auto; reflexivity); try (destruct F as [_ F]; discriminate F); injection H as <-; destruct F as [A B]; split; auto.
  cbn [fst] in *. rewrite forallb_app, A. reflexivity.
Qed.
Lemma pop_comma_fine st : forall out s, fine (out, st) -> pop_comma out st = Ok s -> fine s.
Proof.
  induction st as [|t r IH]; intros out s F; cbn [pop_comma]; [discriminate|].
  destruct t; intros H; try (eapply IH; [|exact H]; apply fine_move; auto; reflexivity); try (destruct F as [_ F]; discriminate F); try discriminate; injection H as <-; destruct F as [A B]; split; auto.
Qed.
Lemma rpn_loop_fine ts : forall s, fine s -> rpn_loop s ts <> Panic /\ forall s', rpn_loop s ts = Ok s' -> fine s'.
Proof.
  induction ts as [|t ts IH]; intros s F; cbn [rpn_loop].
  - split; [discriminate|]. intros s' H. injection H as <-. auto.
  - assert (G : rpn_step s t <> Panic /\ forall s1, rpn_step s t = Ok s1 -> fine s1).
    { destruct s as [out st]. destruct t; cbn [rpn_step]; try (split; [discriminate|]; intros s1 H; injection H as <-; destruct F as [A B]; split; cbn [fst snd forallb] in *; auto;
        rewrite forallb_app, A; reflexivity).
      - pose proof (pop_ops_fine (fst (prec_assoc (TBin op))) (snd (prec_assoc (TBin op))) st out ltac:(destruct op; cbn; lia) F) as P.
        rewrite <- surjective_pairing in P. destruct (pop_ops _ out st) as [o' s2]. split; [discriminate|]. intros s1 H. injection H as <-. destruct P as [A B]. split; auto.
      - split; [apply pop_rparen_np|]. intros s1. now apply pop_rparen_fine.
      - split; [apply pop_comma_np|]. intros s1. now apply pop_comma_fine. }
    destruct G as [G1 G2]. destruct (rpn_step s t) as [s1| |]; cbn [rbind]; [|split; discriminate|congruence]. apply IH. auto.
Qed.
Lemma pop_rest_fine st : forall out, fine (out, st) -> pop_rest out st <> Panic /\ forall o, pop_rest out st = Ok o -> forallb outable o = true.
Proof.
  induction st as [|t r IH]; intros out F; cbn [pop_rest].
  - split; [discriminate|]. intros o H. injection H as <-. apply F.
  - destruct t; try (split; discriminate); try (destruct F as [_ F]; discriminate F); apply IH; apply fine_move; auto.
Qed.
Lemma verify_np ts : forall n, forallb outable ts = true -> verify_loop n ts <> Panic.
Proof.
  induction ts as [|t ts IH]; intros n F; cbn [verify_loop]; [discriminate|]. cbn [forallb] in F. apply andb_prop in F. destruct F as [F1 F2].
  destruct t as [| | | | | | |s [k|]]; try discriminate F1; cbn [rbind]; destruct (_ <=? 0)%Z; try discriminate; auto.
Qed.
Lemma to_rpn_no_panic ts : to_rpn ts <> Panic.
Proof.
  unfold to_rpn. destruct (rpn_loop_fine ts ([], [])) as [A B]; [split; reflexivity|].
  destruct (rpn_loop ([], []) ts) as [[out st]| |]; cbn [rbind]; try congruence. specialize (B _ eq_refl).
  destruct (pop_rest_fine _ _ B) as [C D]. destruct (pop_rest out st) as [o| |]; cbn [rbind]; try congruence. specialize (D _ eq_refl).
  pose proof (verify_np o 0%Z D). destruct (verify_loop 0 o) as [n| |]; cbn [rbind]; try congruence. destruct (1 <? n)%Z; discriminate.
Qed.
Lemma to_rpn_verified ts rpn : to_rpn ts = Ok rpn -> rpn <> [] -> verify_loop 0 rpn = Ok 1%Z.
Proof.
  unfold to_rpn. destruct (rpn_loop ([], []) ts) as [[out st]| |]; try discriminate. cbn [rbind].
  destruct (pop_rest out st) as [o| |]; try discriminate. cbn [rbind].
  destruct (verify_loop 0 o) as [m| |] eqn:V; try discriminate. cbn [rbind]. destruct (Z.ltb_spec 1 m); try discriminate. injection 1 as ->. intros NE.
  rewrite V. f_equal.
  assert (P : forall ts n m, verify_loop n ts = Ok m -> ts <> [] -> (0 < m)%Z).
  { clear. induction ts as [|t ts IH]; intros n m V NE; [congruence|]. cbn [verify_loop] in V.
    destruct (match t with TVar _ | TNum _ => _ | TUn _ => _ | TBin _ => _ | TFunc _ _ => _ | _ => _ end) as [n1| |]; cbn [rbind] in V; try discriminate.
    destruct (Z.leb_spec n1 0); [discriminate|]. destruct ts as [|u ts]; [cbn in V; injection V as <-; auto|]. eapply IH; [exact V|discriminate]. }
  pose proof (P _ _ _ V NE). lia.
Qed.

Section R.
Variable frem fpow : f64 -> f64 -> f64.
Variable libm : fop -> list f64 -> f64.
Notation eval_loop := (eval_loop frem fpow libm).
Notation fold_step := (fold_step frem fpow libm).
Notation fold_loop := (fold_loop frem fpow libm).
Notation rpn_to_expr := (rpn_to_expr frem fpow libm).

Lemma env0_consts : knows_consts env0. Proof. intros s v H. unfold env0. now rewrite H. Qed.

Lemma fold_app a b e vars : fold_loop e vars (a ++ b) = rbind (fold_loop e vars a) (fun '(e, vars) => fold_loop e vars b).
Proof.
  revert e vars. induction a as [|t a IH]; intros e vars; cbn [app ExprModel.fold_loop rbind]; auto.
  destruct (fold_step e vars t) as [[e1 v1]| |]; cbn [rbind]; auto.
Qed.
Lemma split_bad l : forallb fun_ok l = false -> exists a t b, l = a ++ t :: b /\ forallb fun_ok a = true /\ fun_ok t = false.
Proof.
  induction l as [|t l IH]; cbn [forallb]; [discriminate|]. destruct (fun_ok t) eqn:F; cbn [andb].
  - intros H. destruct (IH H) as (a & u & b & -> & A & U). exists (t :: a), u, b. cbn [forallb]. rewrite F, A. auto.
  - intros _. exists [], t, l. auto.
Qed.
Lemma find_func_np s : find_func s <> Panic.
Proof. unfold find_func. induction FUNCS as [|[n v] l IH]; cbn [find_func_loop]; [discriminate|]. destruct (beq n s); auto. discriminate. Qed.
Lemma verify_app a b n m : verify_loop n (a ++ b) = Ok m -> exists k, verify_loop n a = Ok k /\ verify_loop k b = Ok m.
Proof.
  revert n. induction a as [|t a IH]; intros n; cbn [app verify_loop]. { intros H. exists n. auto. }
  destruct (match t with TVar _ | TNum _ => _ | TUn _ => _ | TBin _ => _ | TFunc _ _ => _ | _ => _ end) as [n1| |]; cbn [rbind]; try discriminate.
  destruct (n1 <=? 0)%Z; [discriminate|]. apply IH.
Qed.

(** Accepted programs: compiled when every function is known with that many arguments, and then they evaluate to one value. *)
Lemma accepted x0 ts rpn : to_rpn ts = Ok rpn -> rpn <> [] ->
  if forallb fun_ok rpn
  then exists x, rpn_to_expr x0 rpn = Ok x /\ forall vals, List.length vals = List.length (e_vars x) -> exists v, eval_loop vals [] (e_nodes x) = Ok [v]
  else rpn_to_expr x0 rpn = Err.
Proof.
  intros T NE. pose proof (to_rpn_verified _ _ T NE) as V. destruct (forallb fun_ok rpn) eqn:F.
  - destruct (verified_runs frem fpow libm env0 rpn 0%Z 1%Z [] V eq_refl F) as (st & R & L).
    assert (exists v, st = [v]) as [v ->]. { destruct st as [|v [|w st]]; cbn [List.length] in L; try lia. eauto. }
    destruct (folding frem fpow libm env0 env0_consts x0 rpn [v] R) as (x & E & K). exists x. split; auto. intros vals Lv.
    specialize (K (mkexpr (e_str x) (e_nodes x) (map (fun v => mkvar (v_name v) (env0 (v_name v)) (v_col v)) (e_vars x)))).
    cbn [e_nodes e_vars] in K. rewrite map_map in K. cbn [v_val] in K.
    destruct (eval_shape frem fpow libm (e_nodes x) (map (fun v => env0 (v_name v)) (e_vars x)) vals [] [] [v]) as (s' & E' & L').
    + now rewrite map_length.
    + reflexivity.
    + apply K.
      * repeat split; cbn; now rewrite map_map.
      * unfold agrees. cbn [e_vars]. apply Forall_forall. intros w Hw. apply in_map_iff in Hw. destruct Hw as (y & <- & _). reflexivity.
    + destruct s' as [|v' [|w s']]; cbn in L'; try lia. eauto.
  - destruct (split_bad _ F) as (a & t & b & -> & Fa & Ft). unfold ExprModel.rpn_to_expr. rewrite fold_app.
    apply verify_app in V. destruct V as (k & Va & Vb).
    destruct (verified_runs frem fpow libm env0 a 0%Z k [] Va eq_refl Fa) as (st & R & L).
    destruct (fold_loop_ok frem fpow libm env0 env0_consts a [] (e_vars x0) [] st eq_refl R) as (e & more & E & _). rewrite E. cbn [rbind ExprModel.fold_loop].
    destruct t as [| | | | | | |s [n|]]; try discriminate Ft. cbn [fun_ok] in Ft. cbn [ExprModel.fold_step].
    pose proof (find_func_np s). destruct (find_func s) as [f| |]; cbn [rbind]; try congruence.
    unfold arity_ok in Ft. destruct (Nat.ltb_spec n (min_args f)) as [|L1]; [reflexivity|].
    apply Nat.leb_le in L1. rewrite L1 in Ft. cbn [andb] in Ft. apply orb_false_iff in Ft. destruct Ft as [F1 F2].
    apply Nat.eqb_neq in F1. apply Nat.leb_gt in F2.
    replace (0 <? max_args f) with true by (symmetry; apply Nat.ltb_lt; lia). replace (max_args f <? n) with true by (symmetry; apply Nat.ltb_lt; lia). reflexivity.
Qed.

(** ** The variables of a compiled program *)
Definition fresh (v : varmap) : Prop := v_val v = f_zero /\ v_col v = None /\ find_const (v_name v) = None.
Lemma var_index_none vars s : forall k, var_index vars s k = None <-> ~ In s (map v_name vars).
Proof.
  induction vars as [|v r IH]; intros k; cbn [var_index map In]; [tauto|].
  destruct (beq (v_name v) s) eqn:B.
  - apply Base.beq_eq in B. split; [discriminate|]. tauto.
  - rewrite IH. split; [|tauto]. intros H [E|E]; auto. subst. now rewrite Base.beq_refl in B.
Qed.
Lemma fold_step_vars e vars t e1 vars1 : fold_step e vars t = Ok (e1, vars1) ->
  exists more, vars1 = vars ++ more /\ Forall fresh more /\ (NoDup (map v_name vars) -> NoDup (map v_name vars1))
    /\ forall v, In v more -> t = TVar (v_name v).
Proof.
  intros H.
  assert (Z : vars1 = vars -> exists more, vars1 = vars ++ more /\ Forall fresh more /\ (NoDup (map v_name vars) -> NoDup (map v_name vars1)) /\ forall v, In v more -> t = TVar (v_name v)).
  { intros ->. exists []. rewrite app_nil_r. repeat split; auto. intros v []. }
  destruct t as [o|u| | | |x|s|s [n|]]; cbn [ExprModel.fold_step] in H.
  - apply Z. destruct e as [|[] [|[] e]]; try discriminate; congruence.
  - apply Z. destruct u; try congruence; destruct e as [|[] e]; try discriminate; congruence.
  - apply Z. congruence.
  - apply Z. congruence.
  - apply Z. congruence.
  - apply Z. congruence.
  - destruct (find_const s) eqn:C; [apply Z; congruence|]. unfold find_var in H. destruct (var_index vars s 0) eqn:V; [apply Z; congruence|].
    injection H as <- <-. exists [mkvar s f_zero None]. split; auto. split; [constructor; [|constructor]; repeat split; auto|]. split.
    + intros ND. rewrite map_app. cbn [map v_name]. apply var_index_none in V. apply NoDup_rev in ND. rewrite <- (rev_involutive (map v_name vars ++ [s])).
      apply NoDup_rev. rewrite rev_app_distr. cbn [rev app]. constructor; auto. rewrite <- in_rev. exact V.
    + intros v [<-|[]]. reflexivity.
  - apply Z. destruct (find_func s) as [f| |]; try discriminate. cbn [rbind] in H.
    destruct (n <? min_args f); [discriminate|]. destruct (_ && _); [discriminate|]. destruct (n =? 1); [|congruence].
    destruct e as [|[] e]; try discriminate; try congruence. destruct (apply_func fpow libm f [x]); try discriminate. cbn [rbind] in H. congruence.
  - apply Z. congruence.
Qed.
Lemma fold_loop_vars ts : forall e vars e1 vars1, fold_loop e vars ts = Ok (e1, vars1) ->
  exists more, vars1 = vars ++ more /\ Forall fresh more /\ (NoDup (map v_name vars) -> NoDup (map v_name vars1))
    /\ forall v, In v more -> In (TVar (v_name v)) ts.
Proof.
  induction ts as [|t ts IH]; intros e vars e1 vars1; cbn [ExprModel.fold_loop].
  - injection 1 as <- <-. exists []. rewrite app_nil_r. repeat split; auto; intros v [].
  - destruct (fold_step e vars t) as [[e2 v2]| |] eqn:E; cbn [rbind]; try discriminate. intros H.
    destruct (fold_step_vars _ _ _ _ _ E) as (m1 & -> & F1 & N1 & I1). destruct (IH _ _ _ _ H) as (m2 & -> & F2 & N2 & I2).
    exists (m1 ++ m2). rewrite app_assoc. repeat split; auto.
    + apply Forall_app; auto.
    + intros v Hv. apply in_app_or in Hv. destruct Hv as [Hv|Hv]; [left; auto|right; auto].
Qed.

(** ** From text to value *)
Variable exp10 : Z -> f64.
Variable uni_alpha uni_alnum : N -> bool.
Notation spells := (spells exp10 (alphabetic uni_alpha) (alphanumeric uni_alnum)).
Notation parse := (parse frem fpow libm exp10 uni_alpha uni_alnum).
Notation calc := (calc frem fpow libm exp10 uni_alpha uni_alnum).
Notation value := (value frem fpow factorial (builtin fpow libm)).

Notation written := (written exp10 (alphabetic uni_alpha) (alphanumeric uni_alnum)).
Lemma written_tokens s t : written s t -> exists ts, tokenize exp10 uni_alpha uni_alnum s = Ok ts /\ to_rpn ts = Ok (postfix t).
Proof. intros (ts & ss & -> & S & F & E & M). exists ts. split; [eapply sentence_text; eauto|]. now apply sentence_rpn. Qed.

Lemma parse_written x0 s t env v : knows_consts env -> written s t -> value env t = Some v ->
  exists x, parse x0 s = Ok x /\ rpn_to_expr x0 (postfix t) = Ok x /\
    forall y, same_code y x -> agrees env y -> do_eval frem fpow libm y = Ok v.
Proof.
  intros K W V. destruct (written_tokens _ _ W) as (ts & T & R). unfold ExprModel.parse. rewrite T. cbn [rbind]. rewrite R. cbn [rbind].
  destruct (folding frem fpow libm env K x0 (postfix t) [v]) as (x & E & H). { rewrite run_postfix, V. reflexivity. }
  exists x. repeat split; auto. intros y S A. unfold do_eval. rewrite (H y S A). reflexivity.
Qed.

Lemma calc_written s t v : written s t -> value env0 t = Some v -> calc s = Ok v.
Proof.
  intros W V. unfold ExprModel.calc, eval_plain. cbn [expr_new e_str].
  destruct (parse_written (expr_new s) s t env0 v env0_consts W V) as (x & E & P & H). rewrite E. cbn [rbind].
  rewrite (H x); auto; [repeat split|].
  unfold ExprModel.rpn_to_expr in P. destruct (fold_loop [] (e_vars (expr_new s)) (postfix t)) as [[e vs]| |] eqn:F; try discriminate. cbn [rbind] in P. injection P as <-.
  destruct (fold_loop_vars _ _ _ _ _ F) as (more & -> & Fr & _). unfold agrees. cbn [expr_new e_vars app]. eapply Forall_impl; [|exact Fr].
  intros w (A & _ & C). unfold env0. now rewrite C.
Qed.

(** A whole calculation panics only on brackets with nothing in them. *)
Lemma calc_panics s : calc s = Panic -> exists ts, tokenize exp10 uni_alpha uni_alnum s = Ok ts /\ forallb paren ts = true /\ to_rpn ts = Ok [].
Proof.
  unfold ExprModel.calc, eval_plain. cbn [expr_new e_str]. unfold ExprModel.parse. pose proof (tokenize_no_panic exp10 uni_alpha uni_alnum s).
  destruct (tokenize exp10 uni_alpha uni_alnum s) as [ts| |]; cbn [rbind]; try congruence.
  pose proof (to_rpn_no_panic ts). destruct (to_rpn ts) as [rpn| |] eqn:T; cbn [rbind]; try congruence.
  intros P. exists ts. split; auto. destruct rpn as [|t rpn]; [split; auto; now apply empty_rpn|]. exfalso.
  pose proof (accepted (expr_new s) ts (t :: rpn) T ltac:(discriminate)) as A. destruct (forallb fun_ok (t :: rpn)).
  - destruct A as (x & E & V). unfold expr_new in *. rewrite E in P. cbn [rbind] in P. unfold do_eval in P.
    destruct (V (map v_val (e_vars x))) as [v Ev]. { now rewrite map_length. } rewrite Ev in P. discriminate.
  - unfold expr_new in *. rewrite A in P. discriminate.
Qed.
End R.
