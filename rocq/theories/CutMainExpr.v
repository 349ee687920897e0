(** Lemmas for the cut tool: expressions looked up in one file after the other. *)
From Coq Require Import String List NArith ZArith Bool Arith Lia SpecFloat.
Open Scope list_scope.
Import ListNotations.
From Verif Require Import Base TextSpec TextModel StrSpec StrModel FloatModel HdrModel ColSpec ColModel ColProofs ColProps ExprModel ExprSpec ExprProofs ExprEval ExprTok ExprRun ExprCols.
Close Scope Z_scope. Open Scope nat_scope.

Section C.
Variable frem fpow : f64 -> f64 -> f64.
Variable libm : fop -> list f64 -> f64.
Variable exp10 : Z -> f64.
Variable uni_alpha uni_alnum : N -> bool.
Variable T : Type.
Variable trans_make : bytes -> res T.
Variable match_make : bytes -> res (bytes -> bool).
Notation expr_lookup := (expr_lookup frem fpow libm exp10 uni_alpha uni_alnum T trans_make match_make).
Notation eval := (eval frem fpow libm exp10).
Notation bit_means := (bit_means (alphabetic uni_alpha) (alphanumeric uni_alnum) (maker match_make) (fun t => exists x, trans_make t = Ok x)).
Notation value := (value frem fpow factorial (builtin fpow libm)).
Variable pos : bytes -> N.

(** Every variable has a name of its own and the column belonging to that name. *)
Definition settled (x : expr) : Prop :=
  NoDup (map v_name (e_vars x)) /\ Forall (fun v => v_col v = Some (pos (v_name v)) /\ find_const (v_name v) = None) (e_vars x).
Definition env_at (fields : list bytes) (s : bytes) : f64 :=
  match find_const s with Some c => c | None => to_f64_lossy exp10 (nth (N.to_nat (pos s)) fields []) end.
(** The compiled form of [t], ready for any line. *)
Definition runs_tree (t : tree) (y : expr) : Prop :=
  (forall s, In s (refs t) -> find_const s = None -> In s (map v_name (e_vars y))) /\
  forall env v, knows_consts env -> value env t = Some v -> forall z, same_code z y -> agrees env z -> do_eval frem fpow libm z = Ok v.

Lemma lookup_settled x names bits outs t : settled x -> (N.of_nat (List.length names) < 2 ^ 64)%N ->
  e_str x = concat (map bit_text bits) -> Forall2 (bit_means names) bits outs ->
  written exp10 (alphabetic uni_alpha) (alphanumeric uni_alnum) (concat outs) t ->
  value env0 t <> None -> (forall s, In s (refs t) -> find_const s <> None \/ column_of names s (pos s)) ->
  exists y, expr_lookup x names = Ok y /\ e_str y = e_str x /\ settled y /\ runs_tree t y.
Proof.
  intros (Nd & Fv) B Es F W V0 M. unfold ExprModel.expr_lookup. destruct (value env0 t) as [v0|] eqn:V; [clear V0|congruence].
  assert (K0 : knows_consts env0) by (intros s c H; unfold env0; now rewrite H).
  assert (Bk : brackets uni_alpha T trans_make match_make (S (List.length (e_str x))) names (e_str x) = Ok (concat outs)).
  { rewrite Es. apply (brackets_spec frem fpow exp10 uni_alpha uni_alnum T trans_make match_make names bits outs B F _ []); auto. pose proof (cols_length T trans_make match_make bits). lia. }
  rewrite Bk. cbn [rbind].
  destruct (parse_written frem fpow libm exp10 uni_alpha uni_alnum x (concat outs) t env0 v0 K0 W V) as (z & P & R & _).
  rewrite P. cbn [rbind].
  unfold ExprModel.rpn_to_expr in R. destruct (fold_loop frem fpow libm [] (e_vars x) (postfix t)) as [[e vs]| |] eqn:Fl; try discriminate. cbn [rbind] in R. injection R as <-.
  destruct (fold_loop_vars _ _ _ _ _ _ _ _ Fl) as (more & -> & Fr & N & I). cbn [e_vars e_nodes e_str] in *.
  rewrite skipn_app, skipn_all, Nat.sub_diag, firstn_app, firstn_all, Nat.sub_diag. cbn [skipn firstn app]. rewrite app_nil_r.
  specialize (N Nd).
  assert (Bo : forall v, In v more -> bound names (v_name v) = Ok (pos (v_name v))).
  { intros v Hv. specialize (I v Hv). apply refs_postfix in I. destruct (M _ I) as [C|C].
    - rewrite Forall_forall in Fr. destruct (Fr v Hv) as (_ & _ & C'). congruence.
    - now apply column_of_bound. }
  destruct (bind_vars_ok names more) as [bnd Bd]. { intros v Hv. eauto. }
  rewrite Bd. cbn [rbind]. apply bind_vars_inv in Bd. eexists. split; [reflexivity|]. cbn [e_str e_vars e_nodes]. split; auto.
  assert (Nm : map v_name (e_vars x ++ bnd) = map v_name (e_vars x ++ more)) by (rewrite !map_app; f_equal; eapply linked_names; eauto).
  split; [|split].
  - split; cbn [e_vars]; [now rewrite Nm|]. apply Forall_app. split; auto.
    clear -Bd Fr Bo. induction Bd as [|p q r s (E & _ & k & Hk & K) _ IH]; constructor; inversion Fr; subst.
    + rewrite Bo in Hk by (now left). injection Hk as <-. rewrite K, E. split; auto. apply H1.
    + apply IH; auto. intros v Hv. apply Bo. now right.
  - cbn [e_vars]. intros s Hs C. rewrite Nm. eapply fold_loop_in; [|exact C|exact Fl]. now apply refs_postfix.
  - intros env v Kc Vv q [Q1 Q2] Ag. cbn [e_nodes e_vars] in *.
    destruct (parse_written frem fpow libm exp10 uni_alpha uni_alnum x (concat outs) t env v Kc W Vv) as (z' & P' & R' & Hz). rewrite P in P'. injection P' as <-.
    apply Hz; auto. split; cbn [e_nodes e_vars] in *; auto. congruence.
Qed.

Lemma prepared_names y get : map v_name (e_vars (prepare exp10 y get)) = map v_name (e_vars y).
Proof. cbn [prepare e_vars]. rewrite map_map. apply map_ext. intros [n w [c|]]; reflexivity. Qed.
Lemma eval_settled y t fields v : settled y -> runs_tree t y -> value (env_at fields) t = Some v ->
  exists z, eval y fields = Ok (z, v) /\ e_str z = e_str y /\ settled z /\ runs_tree t z.
Proof.
  intros (Nd & Fv) (In_ & Hv) V. unfold ExprModel.eval. set (get := get_or_empty fields).
  assert (Ag : agrees (env_at fields) (prepare exp10 y get)).
  { unfold agrees. cbn [prepare e_vars]. apply Forall_map. eapply Forall_impl; [|exact Fv]. intros w [C K]. rewrite C. cbn [v_val v_name]. unfold env_at. rewrite K. reflexivity. }
  rewrite (Hv (env_at fields) v); auto.
  - cbn [rbind]. exists (prepare exp10 y get). split; [reflexivity|]. split; [reflexivity|]. split.
    + split; [rewrite prepared_names; exact Nd|]. cbn [prepare e_vars]. apply Forall_map. eapply Forall_impl; [|exact Fv]. intros w [C K]. rewrite C. cbn [v_col v_name]. auto.
    + split; [intros s Hs C; rewrite prepared_names; auto|]. intros env u Kc Vu z [Z1 Z2] Az. apply (Hv env u); auto. split; [exact Z1|]. rewrite Z2. apply prepared_names.
  - intros s c H. unfold env_at. now rewrite H.
  - split; [reflexivity|]. apply prepared_names.
Qed.
Lemma settled_new s : settled (expr_new s).
Proof. split; constructor. Qed.
End C.
