(** Proofs about expressions over the columns of a file. *)
From Coq Require Import String List NArith ZArith Bool Arith Lia SpecFloat.
Open Scope list_scope.
From Verif Require Import TextProofs CompModel RawSplitProofs.
From Verif Require Import Base TextSpec TextModel StrSpec StrModel StrProofs IpProofs FloatModel HdrModel ColSpec ColModel ColProofs ColProps ExprModel ExprSpec ExprProofs ExprEval ExprTok ExprRun.
Import ListNotations.
Close Scope Z_scope.

(** ** Trees and their names *)
Lemma value_ext frem fpow fact call env env' t : (forall s, In s (refs t) -> env s = env' s) ->
  value frem fpow fact call env t = value frem fpow fact call env' t.
Proof.
  induction t as [x|s|u a IH|a IH|o a b IHa IHb|s l IH] using tree_rec2; cbn [refs value]; intros H; auto.
  - f_equal. apply H. now left.
  - now rewrite IH.
  - now rewrite IH.
  - rewrite IHa, IHb; auto; intros; apply H, in_or_app; auto.
  - enough (E : map (value frem fpow fact call env) l = map (value frem fpow fact call env') l) by now rewrite E.
    apply map_ext_in. intros a Ha. rewrite Forall_forall in IH. apply IH; auto. intros s' Hs. apply H, in_flat_map. eauto.
Qed.
Lemma refs_postfix t s : In (TVar s) (postfix t) <-> In s (refs t).
Proof.
  induction t as [x|s'|u a IH|a IH|o a b IHa IHb|s' l IH] using tree_rec2; cbn [refs postfix]; rewrite ?in_app_iff.
  - cbn. split; [intros [H|[]]; discriminate|tauto].
  - cbn. split; intros [H|[]]; left; congruence.
  - rewrite IH. cbn. split; [intros [H|[H|[]]]; auto; discriminate|auto].
  - rewrite IH. cbn. split; [intros [H|[H|[]]]; auto; discriminate|auto].
  - rewrite IHa, IHb. cbn. split; [intros [H|[H|[H|[]]]]; auto; discriminate|tauto].
  - rewrite !in_flat_map. rewrite Forall_forall in IH. cbn. split.
    + intros [(x & H & K)|[H|[]]]; [|discriminate]. exists x. split; auto. now apply IH.
    + intros (x & H & K). left. exists x. split; auto. now apply IH.
Qed.

(** ** Column numbers *)
Lemma print_digits n : forallb is_digit (print_N n) = true.
Proof. apply forallb_forall. intros c Hc. unfold print_N in Hc. pose proof (digits_digit (N.to_uint n)) as D. rewrite Forall_forall in D. specialize (D c Hc). unfold CompSpec.digit_byte in D. unfold is_digit. lia. Qed.
Lemma col_number_numbered k : (k + 1 < 2 ^ 64)%N -> col_number (numbered k) = Some (k + 1)%N.
Proof.
  intros H. unfold numbered. pose proof (to_usize_whole_print (k + 1) H) as E. pose proof (print_digits (k + 1)) as F.
  destruct (print_N_head (k + 1)) as (d & r & P & _). rewrite P in *. cbn [bs app col_number].
  unfold col_number. change (N.eqb _ 99) with true. cbn [andb]. rewrite F, E. reflexivity.
Qed.
Lemma numbered_inj j k : (j + 1 < 2 ^ 64)%N -> (k + 1 < 2 ^ 64)%N -> numbered j = numbered k -> j = k.
Proof. intros A B E. pose proof (col_number_numbered j A) as C. rewrite E, col_number_numbered in C by auto. injection C. lia. Qed.

Lemma name_index_spec names s : forall i k, name_index names s i = Some k <->
  (i <= k)%N /\ nth_error names (N.to_nat (k - i)) = Some s /\ forall j, j < N.to_nat (k - i) -> nth_error names j <> Some s.
Proof.
  induction names as [|y r IH]; intros i k; cbn [name_index].
  - split; [discriminate|]. intros (_ & H & _). destruct (N.to_nat (k - i)); discriminate.
  - destruct (beq y s) eqn:B.
    + apply Base.beq_eq in B. subst y. split.
      * intros H. injection H as <-. rewrite N.sub_diag. repeat split; try lia; intros j Hj; cbn in Hj; lia.
      * intros (L & H & F). f_equal. destruct (N.eq_dec i k); auto. exfalso. apply (F 0); [lia|reflexivity].
    + assert (NE : Some y <> Some s) by (intros E; injection E as ->; now rewrite Base.beq_refl in B).
      rewrite IH. split.
      * intros (L & H & F). split; [lia|]. replace (N.to_nat (k - i)) with (S (N.to_nat (k - (i + 1)))) by lia. split; auto.
        intros [|j] Hj; cbn [nth_error]; auto. apply F. lia.
      * intros (L & H & F). assert (i <> k). { intros ->. rewrite N.sub_diag in H. cbn in H. congruence. }
        split; [lia|]. replace (N.to_nat (k - i)) with (S (N.to_nat (k - (i + 1)))) in H, F by lia. split; auto.
        intros j Hj. apply (F (S j)). lia.
Qed.
Lemma name_index_none names s : forall i, ~ In s names -> name_index names s i = None.
Proof. induction names as [|y r IH]; intros i H; cbn [name_index]; auto. destruct (beq y s) eqn:B; [apply Base.beq_eq in B; subst; cbn in H; tauto|]. apply IH. cbn in H. tauto. Qed.

(** What one variable is bound to. *)
Definition bound (names : list bytes) (s : bytes) : res N :=
  match name_index names s 0 with
  | Some i => Ok i
  | None => match col_number s with
            | Some n => if (n =? 0)%N then Panic else Ok (n - 1)%N
            | None => Err
            end
  end.
Lemma column_of_bound names s k : column_of names s k -> bound names s = Ok k.
Proof.
  unfold bound. intros [[A B]|(A & -> & B)].
  - replace (name_index names s 0) with (Some k); auto. symmetry. apply name_index_spec. rewrite N.sub_0_r. repeat split; auto. lia.
  - rewrite name_index_none, col_number_numbered by auto. destruct (N.eqb_spec (k + 1) 0); [lia|]. f_equal. lia.
Qed.
Definition linked (names : list bytes) (y z : varmap) : Prop := v_name z = v_name y /\ v_val z = v_val y /\ exists k, bound names (v_name y) = Ok k /\ v_col z = Some k.
Lemma bind_vars_inv names vs : forall zs, bind_vars names vs = Ok zs -> Forall2 (linked names) vs zs.
Proof.
  induction vs as [|y r IH]; intros zs; cbn [bind_vars]. { injection 1 as <-. constructor. }
  fold (bound names (v_name y)). destruct (bound names (v_name y)) as [k| |] eqn:E; cbn [rbind]; try discriminate.
  destruct (bind_vars names r) as [zs'| |]; cbn [rbind]; try discriminate. injection 1 as <-. constructor; auto. repeat split. exists k. auto.
Qed.
Lemma bind_vars_ok names vs : (forall v, In v vs -> exists k, bound names (v_name v) = Ok k) -> exists zs, bind_vars names vs = Ok zs.
Proof.
  induction vs as [|y r IH]; intros H; cbn [bind_vars]; [eauto|]. fold (bound names (v_name y)).
  destruct (H y (or_introl eq_refl)) as [k ->]. cbn [rbind]. destruct IH as [zs ->]. { intros v Hv. apply H. now right. } cbn [rbind]. eauto.
Qed.
Lemma linked_names names vs zs : Forall2 (linked names) vs zs -> map v_name zs = map v_name vs.
Proof. induction 1 as [|y z r s L _ IH]; cbn [map]; auto. destruct L as [-> _]. congruence. Qed.

Lemma balanced_free o c l : ~ In o l -> ~ In c l -> balanced o c l.
Proof.
  assert (X : forall g, ~ In o g -> ~ In c g -> balance o c g = 0%Z).
  { induction g as [|x g IH]; intros A B; cbn [balance]; auto. cbn in A, B. destruct (N.eqb_spec x o); [tauto|]. destruct (N.eqb_spec x c); [tauto|]. rewrite IH; tauto. }
  intros A B. split; [auto|]. intros p q ->. rewrite X; [lia| |]; intros H; [apply A|apply B]; apply in_or_app; auto.
Qed.

(** ** Unsplit lines *)
Lemma get_col_same d l i : ColModel.get_col l i d = CompModel.get_col l i d.
Proof.
  unfold ColModel.get_col, CompModel.get_col. rewrite bsplit_split_on. destruct (nth_error (split_on d l) i) as [s|]; auto.
  destruct s as [|a s] using rev_ind; auto. rewrite rev_app_distr, last_last, removelast_last. cbn [rev app]. rewrite rev_involutive. destruct s; reflexivity.
Qed.
Lemma join_NL d fs : d <> NL -> Forall (fun f => ~ In NL f) fs -> ~ In NL (join d fs).
Proof.
  intros Hd F. induction F as [|f [|g r] H F IH]; cbn [join]; auto. intros I. apply in_app_or in I. destruct I as [I|[I|I]]; auto.
Qed.
Lemma get_col_field d fs i : d <> NL -> fs <> [] -> Forall (fun f => ~ In d f /\ ~ In NL f) fs -> ColModel.get_col (join d fs ++ [NL]) i d = nth i fs [].
Proof.
  intros Hd NE F. rewrite get_col_same, RawSplitProofs.get_col_is; auto.
  - rewrite TextProofs.split_join; auto. eapply Forall_impl; [|exact F]. intros f [A B]; auto.
  - apply join_NL; auto. eapply Forall_impl; [|exact F]. intros f [A B]; auto.
Qed.

Section C.
Variable frem fpow : f64 -> f64 -> f64.
Variable libm : fop -> list f64 -> f64.
Variable exp10 : Z -> f64.
Variable uni_alpha uni_alnum : N -> bool.
Variable T : Type.
Variable trans_make : bytes -> res T.
Variable match_make : bytes -> res (bytes -> bool).
Notation brackets := (brackets uni_alpha T trans_make match_make).
Notation parse := (parse frem fpow libm exp10 uni_alpha uni_alnum).
Notation expr_lookup := (expr_lookup frem fpow libm exp10 uni_alpha uni_alnum T trans_make match_make).
Notation eval := (eval frem fpow libm exp10).
Notation eval_line := (eval_line frem fpow libm exp10).
Notation bit_means := (bit_means (alphabetic uni_alpha) (alphanumeric uni_alnum) (maker match_make) (fun t => exists x, trans_make t = Ok x)).

(** ** Brackets *)
Lemma col_texts_spec (trs : list T) l ws : Forall2 (column_for trans_make trs) l ws ->
  col_texts (map oc_num l) = TextSpec.join 44 (map (fun w => numbered (N.of_nat (fst w))) ws).
Proof.
  intros F. unfold col_texts. f_equal. rewrite map_map. induction F as [|o w l ws [H _] F IH]; cbn [map]; auto. rewrite IH, H. reflexivity.
Qed.
Lemma numbered_no_bracket k c : In c (numbered k) -> c <> 91%N.
Proof.
  unfold numbered. cbn [bs app]. intros [<-|H]; [discriminate|]. pose proof (print_digits (k + 1)) as D. rewrite forallb_forall in D. apply D in H.
  intros ->. discriminate H.
Qed.
Lemma join_in d l c : In c (TextSpec.join d l) -> c = d \/ exists x, In x l /\ In c x.
Proof.
  induction l as [|x [|y r] IH]; cbn [TextSpec.join]. { intros []. }
  - intros H. right. exists x. cbn. auto.
  - intros H. apply in_app_or in H. destruct H as [H|[H|H]]; auto. { right. exists x. cbn. auto. }
    destruct (IH H) as [|(z & A & B)]; auto. right. exists z. cbn in *. tauto.
Qed.
Definition is_cols (b : bit) : bool := match b with BCols _ => true | _ => false end.
Lemma brackets_spec names bits outs : (N.of_nat (List.length names) < 2 ^ 64)%N -> Forall2 (bit_means names) bits outs ->
  forall fuel pre, List.length (filter is_cols bits) < fuel -> ~ In 91%N pre -> brackets fuel names (pre ++ concat (map bit_text bits)) = Ok (pre ++ concat outs).
Proof.
  intros B F. induction F as [|b out bits outs M F IH]; intros fuel pre Hf Hp; cbn [map concat].
  - destruct fuel; [lia|]. cbn [ExprModel.brackets]. rewrite app_nil_r, split_once_none; auto.
  - destruct b as [s|s]; cbn [ExprSpec.bit_means bit_text filter is_cols] in *.
    + destruct M as [M ->]. rewrite !app_assoc. apply IH; [cbn in Hf; lia|]. intros H. apply in_app_or in H. tauto.
    + destruct M as (S1 & S2 & Bal & kss & P & ->). destruct fuel as [|fuel]; [lia|]. cbn [ExprModel.brackets].
      replace (pre ++ (91%N :: spec_text s ++ [93%N]) ++ concat (map bit_text bits)) with (pre ++ 91%N :: (spec_text s ++ 93%N :: concat (map bit_text bits))) by (cbn [app]; rewrite <- app_assoc; reflexivity).
      rewrite split_once_app by auto. rewrite find_close_hit by (auto; cbn; tauto). cbn [rbind].
      replace (List.length (spec_text s) + 2 - 2) with (List.length (spec_text s)) by lia. rewrite firstn_app, firstn_all, Nat.sub_diag. cbn [firstn]. rewrite app_nil_r.
      destruct (c27_selected uni_alpha uni_alnum T trans_make match_make names [(false, s)] kss) as (c & c' & E & L & _ & G); auto.
      { unfold parts_all. cbn [flat_map]. rewrite app_nil_r. auto. }
      cbn [texts map adds] in E. destruct (add uni_alpha trans_make set_new (spec_text s) false) as [c0| |]; cbn [rbind] in E; try discriminate. injection E as ->.
      cbn [rbind]. rewrite L. cbn [rbind].
      replace (skipn (List.length (spec_text s) + 2) (91%N :: spec_text s ++ 93%N :: concat (map bit_text bits))) with (concat (map bit_text bits)).
      * rewrite (col_texts_spec _ _ _ G). unfold parts_all. cbn [flat_map]. rewrite app_nil_r, !app_assoc. apply IH; [cbn in Hf; lia|].
        intros H. apply in_app_or in H. destruct H as [H|H]; auto. apply join_in in H. destruct H as [H|(x & Hx & Hc)]; [discriminate|].
        apply in_map_iff in Hx. destruct Hx as (w & <- & _). apply numbered_no_bracket in Hc. congruence.
      * change (91%N :: spec_text s ++ 93%N :: concat (map bit_text bits)) with ((91%N :: spec_text s) ++ [93%N] ++ concat (map bit_text bits)). rewrite app_assoc, skipn_app.
        rewrite skipn_all2; rewrite !app_length; cbn [List.length]; [|lia]. replace (List.length (spec_text s) + 2 - (S (List.length (spec_text s)) + 1)) with 0 by lia. reflexivity.
Qed.
Lemma cols_length bits : List.length (filter is_cols bits) <= List.length (concat (map bit_text bits)).
Proof. induction bits as [|[x|x] r IH]; cbn [filter is_cols map concat bit_text List.length]; auto; rewrite !app_length; cbn [List.length]; rewrite ?app_length; lia. Qed.

(** ** Histories *)
(** Expressions as they come to be: made from a text, looked up in headers (of which no name looks like a column number), evaluated. *)
Inductive history : expr -> Prop :=
| h_new : forall s, history (expr_new s)
| h_look : forall x names y, history x -> (forall k, ~ In (numbered k) names) -> expr_lookup x names = Ok y -> history y
| h_eval : forall x fields y v, history x -> eval x fields = Ok (y, v) -> history y
| h_line : forall x line delim y v, history x -> eval_line x line delim = Ok (y, v) -> history y.

(** Variables have columns, different names, and numbered ones the column of their number. *)
Record tidy (x : expr) : Prop := {
  td_nodup : NoDup (map v_name (e_vars x));
  td_cols : Forall (fun v => exists k, v_col v = Some k) (e_vars x);
  td_const : Forall (fun v => find_const (v_name v) = None) (e_vars x);
  td_num : Forall (fun v => forall k, (k + 1 < 2 ^ 64)%N -> v_name v = numbered k -> v_col v = Some k) (e_vars x) }.

Lemma parse_vars x s y : parse x s = Ok y -> exists more, e_str y = e_str x /\ e_vars y = e_vars x ++ more /\ Forall fresh more /\
  (NoDup (map v_name (e_vars x)) -> NoDup (map v_name (e_vars y))).
Proof.
  unfold ExprModel.parse. destruct (tokenize _ _ _ s) as [ts| |]; try discriminate. cbn [rbind]. destruct (to_rpn ts) as [rpn| |]; try discriminate. cbn [rbind].
  unfold ExprModel.rpn_to_expr. destruct (fold_loop frem fpow libm [] (e_vars x) rpn) as [[e vs]| |] eqn:F; try discriminate. cbn [rbind]. injection 1 as <-. cbn [e_str e_vars].
  destruct (fold_loop_vars _ _ _ _ _ _ _ _ F) as (more & -> & Fr & N & _). exists more. auto.
Qed.
Lemma lookup_shape x names y : expr_lookup x names = Ok y -> exists out z more bnd, brackets (S (List.length (e_str x))) names (e_str x) = Ok out /\
  parse x out = Ok z /\ e_vars z = e_vars x ++ more /\ Forall2 (linked names) more bnd /\ y = mkexpr (e_str x) (e_nodes z) (e_vars x ++ bnd) /\ Forall fresh more /\
  (NoDup (map v_name (e_vars x)) -> NoDup (map v_name (e_vars y))).
Proof.
  unfold ExprModel.expr_lookup. destruct (brackets _ names (e_str x)) as [out| |]; try discriminate. cbn [rbind].
  destruct (parse x out) as [z| |] eqn:P; try discriminate. cbn [rbind]. destruct (parse_vars _ _ _ P) as (more & E1 & E2 & Fr & N).
  rewrite E2, skipn_app, skipn_all, Nat.sub_diag, firstn_app, firstn_all, Nat.sub_diag. cbn [skipn firstn app]. rewrite app_nil_r.
  destruct (bind_vars names more) as [bnd| |] eqn:B; try discriminate. cbn [rbind]. injection 1 as <-. apply bind_vars_inv in B.
  exists out, z, more, bnd. rewrite E1. repeat split; auto. cbn [e_vars]. rewrite E2 in N. rewrite map_app, (linked_names _ _ _ B), <- map_app. exact N.
Qed.

Lemma prepare_tidy x get : tidy x -> tidy (prepare exp10 x get).
Proof.
  intros [A B C D]. assert (N : map v_name (e_vars (prepare exp10 x get)) = map v_name (e_vars x)).
  { cbn [prepare e_vars]. rewrite map_map. apply map_ext. intros [n w [c|]]; reflexivity. }
  split; [now rewrite N|..]; cbn [prepare e_vars]; apply Forall_map.
  - eapply Forall_impl; [|exact B]. intros [n w [c|]]; cbn; auto.
  - eapply Forall_impl; [|exact C]. intros [n w [c|]]; cbn; auto.
  - eapply Forall_impl; [|exact D]. intros [n w [c|]]; cbn; auto.
Qed.
Lemma lookup_tidy x names y : tidy x -> (forall v, In v (e_vars y) -> In v (e_vars x) \/ forall k, v_name v = numbered k -> ~ In (numbered k) names) -> expr_lookup x names = Ok y -> tidy y.
Proof.
  intros [A B C D] U H. destruct (lookup_shape _ _ _ H) as (out & z & more & bnd & _ & _ & E2 & L & -> & Fr & N). specialize (N A). cbn [e_vars] in *.
  split; auto; cbn [e_vars]; apply Forall_app; split; auto; clear N.
  - clear -L. induction L as [|p q r s (_ & _ & k & _ & K) _ IH]; constructor; eauto.
  - clear -L Fr. induction L as [|p q r s (E & _ & _) _ IH]; constructor; inversion Fr; subst; auto. rewrite E. apply H1.
  - rewrite Forall_forall. intros v Hv k Hk E.
    assert (G : exists j, bound names (v_name v) = Ok j /\ v_col v = Some j).
    { clear -L Hv. induction L as [|p q r s (E & _ & K) _ IH]; [destruct Hv|]. destruct Hv as [<-|Hv]; auto. rewrite E. exact K. }
    destruct G as (j & G1 & G2). destruct (U v) as [I|I]; [apply in_or_app; auto|rewrite Forall_forall in D; now apply D|].
    rewrite G2. f_equal. specialize (I k E). rewrite E in G1. rewrite (column_of_bound names (numbered k) k) in G1; [congruence|]. right. auto.
Qed.
Lemma history_tidy x : history x -> tidy x.
Proof.
  induction 1 as [s|x names y H IH U E|x fields y v H IH E|x line delim y v H IH E].
  - split; cbn [expr_new e_vars map]; constructor.
  - eapply lookup_tidy; eauto.
  - unfold ExprModel.eval in E. destruct (do_eval _ _ _ _); try discriminate. cbn [rbind] in E. injection E as <- _. now apply prepare_tidy.
  - unfold ExprModel.eval_line in E. destruct (do_eval _ _ _ _); try discriminate. cbn [rbind] in E. injection E as <- _. now apply prepare_tidy.
Qed.

(** ** Looking up and evaluating *)
Lemma fold_step_in e vars s e1 vars1 : fold_step frem fpow libm e vars (TVar s) = Ok (e1, vars1) -> find_const s = None -> In s (map v_name vars1).
Proof.
  cbn [fold_step]. intros H C. rewrite C in H. unfold find_var in H. destruct (var_index vars s 0) eqn:V.
  - injection H as _ <-. destruct (in_dec (list_eq_dec N.eq_dec) s (map v_name vars)) as [I|I]; auto. apply (var_index_none vars s 0) in I. congruence.
  - injection H as _ <-. rewrite map_app. apply in_or_app. right. cbn. auto.
Qed.
Lemma fold_loop_in ts s : In (TVar s) ts -> find_const s = None -> forall e vars e1 vars1, fold_loop frem fpow libm e vars ts = Ok (e1, vars1) -> In s (map v_name vars1).
Proof.
  intros H C. induction ts as [|t ts IH]; [destruct H|]. intros e vars e1 vars1. cbn [ExprModel.fold_loop].
  destruct (fold_step frem fpow libm e vars t) as [[e2 v2]| |] eqn:E; try discriminate. cbn [rbind]. intros F. destruct H as [->|H]; [|eauto].
  apply fold_step_in in E; auto. destruct (fold_loop_vars _ _ _ _ _ _ _ _ F) as (more & -> & _). rewrite map_app. apply in_or_app. auto.
Qed.

(** The value a variable has by name. *)
Fixpoint var_value (vars : list varmap) (s : bytes) : f64 :=
  match vars with [] => f_zero | v :: r => if beq (v_name v) s then v_val v else var_value r s end.
Lemma var_value_in vars v : NoDup (map v_name vars) -> In v vars -> var_value vars (v_name v) = v_val v.
Proof.
  induction vars as [|w r IH]; intros N I; [destruct I|]. cbn [var_value]. inversion_clear N. destruct I as [->|I]; [now rewrite Base.beq_refl|].
  destruct (beq (v_name w) (v_name v)) eqn:B; auto. apply Base.beq_eq in B. exfalso. apply H. rewrite B. now apply in_map.
Qed.
Definition env_of (y : expr) (s : bytes) : f64 := match find_const s with Some c => c | None => var_value (e_vars y) s end.

(** What the names in a tree are worth on a line. *)
Definition means (get : N -> bytes) (x : expr) (names : list bytes) (env : bytes -> f64) (s : bytes) : Prop :=
  find_const s = Some (env s) \/
  find_const s = None /\ (exists k, column_of names s k /\ env s = to_f64_lossy exp10 (get k)) /\
  (~ In s (map v_name (e_vars x)) \/ ~ In s names).

Lemma looked_up x names bits outs t : tidy x -> (N.of_nat (List.length names) < 2 ^ 64)%N ->
  e_str x = concat (map bit_text bits) -> Forall2 (bit_means names) bits outs ->
  written exp10 (alphabetic uni_alpha) (alphanumeric uni_alnum) (concat outs) t ->
  (exists env v, knows_consts env /\ value frem fpow factorial (builtin fpow libm) env t = Some v) ->
  (forall s, In s (refs t) -> exists g env, means g x names env s) ->
  exists y, expr_lookup x names = Ok y /\ e_str y = e_str x /\ NoDup (map v_name (e_vars y)) /\
    Forall (fun v => (exists k, v_col v = Some k) /\ find_const (v_name v) = None) (e_vars y) /\
    (forall g env s, In s (refs t) -> means g x names env s -> find_const s = Some (env s) \/
       find_const s = None /\ exists k w, In w (e_vars y) /\ v_name w = s /\ v_col w = Some k /\ env s = to_f64_lossy exp10 (g k)) /\
    (forall env v, knows_consts env -> value frem fpow factorial (builtin fpow libm) env t = Some v ->
       forall z, same_code z y -> agrees env z -> do_eval frem fpow libm z = Ok v).
Proof.
  intros Td B Es F W (env0 & v0 & env0_consts & V0) M. unfold ExprModel.expr_lookup.
  assert (Bk : brackets (S (List.length (e_str x))) names (e_str x) = Ok (concat outs)).
  { rewrite Es. apply (brackets_spec names bits outs B F _ []); auto. pose proof (cols_length bits). lia. }
  rewrite Bk. cbn [rbind].
  destruct (parse_written frem fpow libm exp10 uni_alpha uni_alnum x (concat outs) t env0 v0 env0_consts W V0) as (z & P & R & _).
  rewrite P. cbn [rbind].
  unfold ExprModel.rpn_to_expr in R. destruct (fold_loop frem fpow libm [] (e_vars x) (postfix t)) as [[e vs]| |] eqn:Fl; try discriminate. cbn [rbind] in R. injection R as <-.
  destruct (fold_loop_vars _ _ _ _ _ _ _ _ Fl) as (more & -> & Fr & N & I). cbn [e_vars e_nodes e_str] in *.
  rewrite skipn_app, skipn_all, Nat.sub_diag, firstn_app, firstn_all, Nat.sub_diag. cbn [skipn firstn app]. rewrite app_nil_r.
  specialize (N (td_nodup _ Td)).
  destruct (bind_vars_ok names more) as [bnd Bd].
  { intros v Hv. specialize (I v Hv). apply refs_postfix in I. destruct (M _ I) as (g & env & [C|(_ & (k & C & _) & _)]).
    - rewrite Forall_forall in Fr. destruct (Fr v Hv) as (_ & _ & C'). congruence.
    - exists k. now apply column_of_bound. }
  rewrite Bd. cbn [rbind]. apply bind_vars_inv in Bd. eexists. split; [reflexivity|]. cbn [e_str e_vars e_nodes]. split; auto.
  assert (Nm : map v_name (e_vars x ++ bnd) = map v_name (e_vars x ++ more)) by (rewrite !map_app; f_equal; eapply linked_names; eauto).
  split; [now rewrite Nm|]. split.
  { apply Forall_app. split.
    - destruct Td as [_ A C _]. rewrite Forall_forall in *. auto.
    - clear -Bd Fr. induction Bd as [|p q r s (E & _ & k & _ & K) _ IH]; constructor; inversion Fr; subst; eauto. split; eauto. rewrite E. apply H1. }
  split.
  - intros g env s Hs [C|(C & (k & K & Ev) & Or)]; auto. right. split; auto.
    assert (In s (map v_name (e_vars x ++ bnd))) as Hin.
    { rewrite Nm. eapply fold_loop_in; [|exact C|exact Fl]. now apply refs_postfix. }
    apply in_map_iff in Hin. destruct Hin as (w & Ew & Hw). apply in_app_or in Hw. destruct Hw as [Hw|Hw].
    + destruct Or as [Or|Or]. { exfalso. apply Or. rewrite <- Ew. now apply in_map. }
      destruct K as [[K _]|(_ & K & Kb)]. { exfalso. apply Or. eapply nth_error_In; eauto. }
      exists k, w. repeat split; auto; [apply in_or_app; auto|]. destruct Td as [_ _ _ D]. rewrite Forall_forall in D. apply D; auto. congruence.
    + assert (G : exists j, bound names (v_name w) = Ok j /\ v_col w = Some j).
      { clear -Bd Hw. induction Bd as [|p q r s (E & _ & K) _ IH]; [destruct Hw|]. destruct Hw as [<-|Hw]; auto. rewrite E. exact K. }
      destruct G as (j & G1 & G2). rewrite Ew, (column_of_bound _ _ _ K) in G1. injection G1 as <-.
      exists k, w. repeat split; auto. apply in_or_app; auto.
  - intros env v Kc V q [Q1 Q2] Ag.
    destruct (parse_written frem fpow libm exp10 uni_alpha uni_alnum x (concat outs) t env v Kc W V) as (z' & P' & R' & Hz). rewrite P in P'. injection P' as <-.
    apply Hz; auto. split; cbn [e_nodes e_vars] in *; auto. congruence.
Qed.

Lemma evaluated x names bits outs t env v get : tidy x -> (N.of_nat (List.length names) < 2 ^ 64)%N ->
  e_str x = concat (map bit_text bits) -> Forall2 (bit_means names) bits outs ->
  written exp10 (alphabetic uni_alpha) (alphanumeric uni_alnum) (concat outs) t ->
  (forall s, In s (refs t) -> means get x names env s) ->
  value frem fpow factorial (builtin fpow libm) env t = Some v ->
  exists y, expr_lookup x names = Ok y /\ do_eval frem fpow libm (prepare exp10 y get) = Ok v.
Proof.
  intros Td B Es F W M V.
  assert (V0 : exists env v0, knows_consts env /\ value frem fpow factorial (builtin fpow libm) env t = Some v0).
  { exists (fun s => match find_const s with Some c => c | None => env s end), v. split; [intros s c H; now rewrite H|].
    rewrite <- V. apply value_ext. intros s Hs. destruct (M s Hs) as [->|(-> & _)]; auto. }
  destruct (looked_up x names bits outs t Td B Es F W V0) as (y & E & _ & N & Fc & G & Hv). { intros s Hs. exists get, env. auto. }
  exists y. split; auto.
  assert (Nm : map v_name (e_vars (prepare exp10 y get)) = map v_name (e_vars y)).
  { cbn [prepare e_vars]. rewrite map_map. apply map_ext. intros [n w [c|]]; reflexivity. }
  apply (Hv (env_of (prepare exp10 y get))).
  - intros s c H. unfold env_of. now rewrite H.
  - rewrite <- V. apply value_ext. intros s Hs. specialize (G get env s Hs (M s Hs)). unfold env_of. destruct G as [->|(-> & k & w & Hw & <- & Cw & Ev)]; auto.
    rewrite Ev. change (v_name w) with (v_name (mkvar (v_name w) (to_f64_lossy exp10 (get k)) (Some k))). rewrite var_value_in; auto; [now rewrite Nm|].
    cbn [prepare e_vars]. apply in_map_iff. exists w. rewrite Cw. auto.
  - split; auto.
  - unfold agrees. apply Forall_forall. intros w Hw. unfold env_of.
    assert (C : find_const (v_name w) = None).
    { rewrite Forall_forall in Fc. cbn [prepare e_vars] in Hw. apply in_map_iff in Hw. destruct Hw as (u & <- & Hu). destruct (Fc u Hu) as [_ <-]. destruct u as [n w [c|]]; reflexivity. }
    rewrite C. symmetry. apply var_value_in; auto. now rewrite Nm.
Qed.
End C.
