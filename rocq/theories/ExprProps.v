(** Properties C31 to C34, C53 and C66: expressions. *)
From Coq Require Import String List NArith ZArith Bool Arith Lia SpecFloat.
Open Scope list_scope.
Import ListNotations.
From Verif Require Import Base TextSpec StrSpec StrModel FloatModel FloatValid FloatInt HdrModel ColSpec ColModel ShareProofs CompProps ColProps
  ExprModel ExprSpec ExprProofs ExprEval ExprTok ExprRun ExprCols ExprFun.
Close Scope Z_scope.

(** Functions for the examples: left operand for remainder and power, 1 for the functions of the maths library. *)
Definition ex_rem (x _ : f64) : f64 := x.
Definition ex_libm (_ : fop) (_ : list f64) : f64 := f_one.
Notation num n := (f_of_Z n%Z).
Notation ex_calc s := (calc ex_rem fmul ex_libm ex10 no_uni no_uni (bs s)).

(** * C31 *)
Theorem c31_accepted_partial : forall frem fpow libm x0 ts rpn x,
  to_rpn ts = Ok rpn -> rpn <> [] -> rpn_to_expr frem fpow libm x0 rpn = Ok x ->
  forall vals, List.length vals = List.length (e_vars x) -> exists v, eval_loop frem fpow libm vals [] (e_nodes x) = Ok [v].
Proof.
  intros frem fpow libm x0 ts rpn x T NE E vals L. pose proof (accepted frem fpow libm x0 ts rpn T NE) as A. destruct (forallb fun_ok rpn); [|congruence].
  destruct A as (y & Ey & H). rewrite Ey in E. injection E as <-. auto.
Qed.
Example c31_accepted_partial_ex :
  let ts := [TUn UMinus; TVar (bs "a"); TBin BTimes; TFunc (bs "max") None; TNum (num 2); TComma; TVar (bs "b"); TRParen; TUn UFact] in
  exists rpn x, to_rpn ts = Ok rpn /\ List.length rpn = 7 /\ rpn_to_expr ex_rem fmul ex_libm (expr_new []) rpn = Ok x /\ List.length (e_vars x) = 2 /\
    eval_loop ex_rem fmul ex_libm [num 3; num 4] [] (e_nodes x) = Ok [num (-72)].
Proof. eexists. eexists. split; [reflexivity|]. split; [reflexivity|]. split; [reflexivity|]. split; vm_compute; reflexivity. Qed.

(** A refused expression is an error: nothing in the conversion or the compilation panics. *)
Theorem c31_no_panic_partial : forall frem fpow libm exp10 ua un s,
  calc frem fpow libm exp10 ua un s = Panic ->
  exists ts, tokenize exp10 ua un s = Ok ts /\ Forall (fun t => t = TLParen \/ t = TRParen) ts.
Proof.
  intros frem fpow libm exp10 ua un s H. destruct (calc_panics _ _ _ _ _ _ _ H) as (ts & T & P & _). exists ts. split; auto.
  apply Forall_forall. intros t Ht. rewrite forallb_forall in P. specialize (P t Ht). destruct t; try discriminate; auto.
Qed.
Example c31_no_panic_partial_ex : ex_calc "(())" = Panic /\
  ex_calc "2+" = Err /\ ex_calc "(2" = Err /\ ex_calc "2,3" = Err /\ ex_calc "2 3" = Err /\ ex_calc "max(2" = Err /\ ex_calc "if(1,2)" = Err /\ ex_calc "nosuch(1)" = Err /\ ex_calc "7-2-1" = Ok (num 4).
Proof. repeat split; vm_compute; reflexivity. Qed.
(** Nothing at all, or empty brackets, is accepted and then there is no value. *)
Theorem c31_accepted_refuted : exists ts x, to_rpn ts = Ok [] /\ ts <> [] /\ rpn_to_expr ex_rem fmul ex_libm (expr_new []) [] = Ok x /\
  do_eval ex_rem fmul ex_libm x = Panic /\ ex_calc "" = Panic /\ ex_calc "()" = Panic.
Proof. exists [TLParen; TRParen]. eexists. split; [reflexivity|]. split; [discriminate|]. split; [reflexivity|]. repeat split; vm_compute; reflexivity. Qed.
(** Operators after their operands are accepted too. *)
Theorem c31_wellformed_refuted : exists s, s = bs "2(3)+" /\ calc ex_rem fmul ex_libm ex10 no_uni no_uni s = Ok (num 5) /\ ex_calc "x" = Ok (num 0).
Proof. eexists. split; [reflexivity|]. split; vm_compute; reflexivity. Qed.

(** * C32 *)
(** However a tree is written, with or without needless brackets, it is evaluated in its own order. *)
Theorem c32_order : forall ts t, sentence 1 ts t -> to_rpn ts = Ok (postfix t).
Proof. exact sentence_rpn. Qed.
(** The same with just the brackets that are needed. *)
Theorem c32_least_brackets : forall t, writable t = true -> to_rpn (show 1 t) = Ok (postfix t).
Proof. intros t W. apply sentence_rpn. apply show_sentence; auto; lia. Qed.
Definition ex_tree : tree := (* 1-2-3*-4^-5^x!<if(a,(1+2)*3,4) *)
  Op BLT (Op BMinus (Op BMinus (Leaf (num 1)) (Leaf (num 2)))
            (Op BTimes (Leaf (num 3)) (Pre UMinus (Op BPow (Leaf (num 4)) (Pre UMinus (Op BPow (Leaf (num 5)) (Post (Ref (bs "x")))))))))
    (Call (bs "if") [Ref (bs "a"); Op BTimes (Op BPlus (Leaf (num 1)) (Leaf (num 2))) (Leaf (num 3)); Leaf (num 4)]).
Definition ex_tokens : list token :=
  [TNum (num 1); TBin BMinus; TNum (num 2); TBin BMinus; TNum (num 3); TBin BTimes; TUn UMinus; TNum (num 4); TBin BPow; TUn UMinus; TNum (num 5); TBin BPow;
   TVar (bs "x"); TUn UFact; TBin BLT; TFunc (bs "if") None; TVar (bs "a"); TComma; TLParen; TNum (num 1); TBin BPlus; TNum (num 2); TRParen; TBin BTimes; TNum (num 3); TComma; TNum (num 4); TRParen].
Example c32_least_brackets_ex : writable ex_tree = true /\ show 1 ex_tree = ex_tokens /\ to_rpn ex_tokens = Ok (postfix ex_tree).
Proof. repeat split; reflexivity. Qed.
Example c32_order_ex : sentence 1 [TLParen; TNum (num 1); TBin BMinus; TLParen; TNum (num 2); TRParen; TRParen; TBin BMinus; TNum (num 3)]
  (Op BMinus (Op BMinus (Leaf (num 1)) (Leaf (num 2))) (Leaf (num 3))).
Proof.
  assert (U : forall n ts t k, 1 <= n -> sentence (k + n) ts t -> sentence n ts t) by (intros n ts t k; induction k; cbn [Nat.add]; auto; intros L H; apply IHk; auto; apply s_up; auto; lia).
  apply s_up; [lia|]. apply (s_left BMinus [TLParen; TNum (num 1); TBin BMinus; TLParen; TNum (num 2); TRParen; TRParen] _ [TNum (num 3)]); [cbn; lia| |apply (U _ _ _ 4); [cbn; lia|apply s_num]].
  apply (U 2 _ _ 5); [lia|]. apply (s_paren [TNum (num 1); TBin BMinus; TLParen; TNum (num 2); TRParen]). apply s_up; [lia|].
  apply (s_left BMinus [TNum (num 1)] _ [TLParen; TNum (num 2); TRParen]); [cbn; lia|apply (U _ _ _ 5); [cbn; lia|apply s_num]|].
  apply (U _ _ _ 4); [cbn; lia|]. apply (s_paren [TNum (num 2)]). apply (U _ _ _ 6); [lia|apply s_num].
Qed.
(** From text to value; names that are not constants count as 0. *)
Theorem c32_value_partial : forall frem fpow libm exp10 ua un s t v,
  written exp10 (alphabetic ua) (alphanumeric un) s t ->
  value frem fpow factorial (builtin fpow libm) env0 t = Some v ->
  calc frem fpow libm exp10 ua un s = Ok v.
Proof. exact calc_written. Qed.
Ltac spell := repeat first [apply Forall2_nil | apply Forall2_cons |
  apply (sp_var _ _ _ _ []) | apply (sp_func _ _ _ (hd 0%N _)) | apply sp_bin | apply sp_un | apply sp_left | apply sp_right | apply sp_comma | reflexivity].
Lemma number_spelled : forall (exp10 : Z -> f64) alpha alnum ds x, forallb is_digit ds = true -> ds <> [] -> to_f64_lossy exp10 ds = x -> spells exp10 alpha alnum (TNum x) ds.
Proof. intros exp10 alpha alnum ds x D NE <-. apply sp_num. exists ds, []. auto. Qed.
Example c32_value_partial_ex :
  let t := Op BMinus (Leaf (num 10)) (Op BTimes (Leaf (num 2)) (Call (bs "max") [Op BPlus (Leaf (num 1)) (Leaf (num 2)); Pre UMinus (Leaf (num 7))])) in
  written ex10 (alphabetic no_uni) (alphanumeric no_uni) (bs "10-2*max(1+2,-7)") t /\
  value ex_rem fmul factorial (builtin fmul ex_libm) env0 t = Some (num 4).
Proof.
  cbv zeta. split; [|vm_compute; reflexivity].
  exists [TNum (num 10); TBin BMinus; TNum (num 2); TBin BTimes; TFunc (bs "max") None; TNum (num 1); TBin BPlus; TNum (num 2); TComma; TUn UMinus; TNum (num 7); TRParen].
  exists (map bs ["10"; "-"; "2"; "*"; "max("; "1"; "+"; "2"; ","; "-"; "7"; ")"]%string).
  split; [reflexivity|]. split; [|split; [|split; reflexivity]].
  - match goal with |- sentence 1 ?l ?t => change l with (show 1 t) end. apply show_sentence; auto; lia.
  - cbn [map]. apply Forall2_cons; [apply number_spelled; [reflexivity|discriminate|vm_compute; reflexivity]|].
    apply Forall2_cons; [apply sp_bin|]. apply Forall2_cons; [apply number_spelled; [reflexivity|discriminate|vm_compute; reflexivity]|].
    apply Forall2_cons; [apply sp_bin|]. apply Forall2_cons; [apply (sp_func _ _ _ 109%N (bs "ax")); reflexivity|].
    apply Forall2_cons; [apply number_spelled; [reflexivity|discriminate|vm_compute; reflexivity]|].
    apply Forall2_cons; [apply sp_bin|]. apply Forall2_cons; [apply number_spelled; [reflexivity|discriminate|vm_compute; reflexivity]|].
    apply Forall2_cons; [apply sp_comma|]. apply Forall2_cons; [apply sp_un|]. apply Forall2_cons; [apply number_spelled; [reflexivity|discriminate|vm_compute; reflexivity]|].
    apply Forall2_cons; [apply sp_right|constructor].
Qed.
(** A sign as first argument, a minus after a factorial, a space: refused. *)
Theorem c32_text_refuted : exists s, s = bs "abs(-5)" /\ calc ex_rem fmul ex_libm ex10 no_uni no_uni s = Err /\ ex_calc "abs((-5))" = Ok (num 5) /\
  ex_calc "5!-3" = Err /\ ex_calc "(5!)-3" = Ok (num 117) /\ ex_calc "1 + 2" = Err /\ ex_calc "1+2" = Ok (num 3).
Proof. eexists. split; [reflexivity|]. repeat split; vm_compute; reflexivity. Qed.

(** * C33 *)
(** A compiled expression, with any values in its variables, gives what its operations give one by one. *)
Theorem c33_folding : forall frem fpow libm env x0 rpn st,
  knows_consts env -> run frem fpow factorial (builtin fpow libm) env [] rpn = Some st ->
  exists x, rpn_to_expr frem fpow libm x0 rpn = Ok x /\
    forall y, same_code y x -> agrees env y -> eval_loop frem fpow libm (map v_val (e_vars y)) [] (e_nodes y) = Ok st.
Proof. intros frem fpow libm env x0 rpn st K R. exact (folding frem fpow libm env K x0 rpn st R). Qed.
(** Whether there is a value does not depend on the values of the variables, so the compiled program serves every line. *)
Theorem c33_every_assignment : forall frem fpow libm nodes vals vals' v,
  List.length vals' = List.length vals -> eval_loop frem fpow libm vals [] nodes = Ok [v] ->
  exists v', eval_loop frem fpow libm vals' [] nodes = Ok [v'].
Proof.
  intros frem fpow libm nodes vals vals' v L E. destruct (eval_shape frem fpow libm nodes vals vals' [] [] [v]) as (s & E' & L'); auto.
  destruct s as [|a [|b s]]; cbn in L'; try lia. eauto.
Qed.
Definition ex_env (s : bytes) : f64 := match find_const s with Some c => c | None => if beq s (bs "a") then num 3 else num 4 end.
Example c33_folding_ex :
  let rpn := [TNum (num 2); TNum (num 5); TBin BPlus; TVar (bs "a"); TBin BTimes; TVar (bs "pi"); TUn UMinus; TBin BLT; TNum (num 3); TUn UFact; TVar (bs "b"); TFunc (bs "max") (Some 3)] in
  knows_consts ex_env /\ run ex_rem fmul factorial (builtin fmul ex_libm) ex_env [] rpn = Some [num 6] /\
  exists x, rpn_to_expr ex_rem fmul ex_libm (expr_new []) rpn = Ok x /\ List.length (e_nodes x) = 8 /\ map v_name (e_vars x) = [bs "a"; bs "b"] /\
    let y := mkexpr [] (e_nodes x) [mkvar (bs "a") (num 3) None; mkvar (bs "b") (num 4) None] in same_code y x /\ agrees ex_env y.
Proof.
  cbv zeta. split; [intros s v H; unfold ex_env; now rewrite H|]. split; [vm_compute; reflexivity|].
  eexists. split; [vm_compute; reflexivity|]. split; [reflexivity|]. split; [reflexivity|]. split; [split; reflexivity|].
  repeat constructor; vm_compute; reflexivity.
Qed.
Example c33_every_assignment_ex : exists x, rpn_to_expr ex_rem fmul ex_libm (expr_new []) [TVar (bs "a"); TNum (num 1); TBin BPlus; TUn UFact] = Ok x /\
  eval_loop ex_rem fmul ex_libm [num 3] [] (e_nodes x) = Ok [num 24] /\ eval_loop ex_rem fmul ex_libm [S754_nan] [] (e_nodes x) = Ok [num 0].
Proof. eexists. split; [vm_compute; reflexivity|]. split; vm_compute; reflexivity. Qed.

(** * C34 *)
(** No text with an equals sign is accepted, so none of these operators can be used; the language has only < and >. *)
Theorem c34_no_equals : forall frem fpow libm exp10 ua un s, In 61%N s -> calc frem fpow libm exp10 ua un s = Err.
Proof.
  intros frem fpow libm exp10 ua un s H. unfold calc, eval_plain. cbn [expr_new e_str]. unfold parse. pose proof (tokenize_no_panic exp10 ua un s) as NP.
  destruct (tokenize exp10 ua un s) as [ts| |] eqn:T; cbn [rbind]; try congruence.
  pose proof (tokenize_allowed exp10 ua un s ts 61%N T H) as A. cbv in A. discriminate.
Qed.
Theorem c34_usable_refuted : exists texts, texts = map bs ["1<=2"; "2>=1"; "1==1"; "1!=2"]%string /\
  Forall (fun s => calc ex_rem fmul ex_libm ex10 no_uni no_uni s = Err) texts.
Proof. eexists. split; [reflexivity|]. repeat constructor; vm_compute; reflexivity. Qed.
Example c34_no_equals_ex : In 61%N (bs "a<=b") /\ ex_calc "a<=b" = Err /\ ex_calc "1<2" = Ok (num 1).
Proof. split; [cbn; auto|]. split; vm_compute; reflexivity. Qed.

(** * C53 *)
(** After a lookup each reference reads its column of that header: numbered and bracketed references always, plain names when
    they were not looked up before in another header. *)
Theorem c53_columns_partial : forall frem fpow libm exp10 ua un T (trans_make : bytes -> res T) match_make x names bits outs t env v fields,
  history frem fpow libm exp10 ua un T trans_make match_make x -> (N.of_nat (List.length names) < 2 ^ 64)%N ->
  e_str x = concat (map bit_text bits) ->
  Forall2 (bit_means (alphabetic ua) (alphanumeric un) (maker match_make) (fun t => exists y, trans_make t = Ok y) names) bits outs ->
  written exp10 (alphabetic ua) (alphanumeric un) (concat outs) t ->
  (forall s, In s (refs t) -> means exp10 (fun k => nth (N.to_nat k) fields []) x names env s) ->
  value frem fpow factorial (builtin fpow libm) env t = Some v ->
  exists y z, expr_lookup frem fpow libm exp10 ua un T trans_make match_make x names = Ok y /\ eval frem fpow libm exp10 y fields = Ok (z, v).
Proof.
  intros frem fpow libm exp10 ua un T tm mm x names bits outs t env v fields H B Es F W M V.
  destruct (evaluated frem fpow libm exp10 ua un T tm mm x names bits outs t env v (get_or_empty fields)) as (y & E & Ev); auto.
  { eapply history_tidy; eauto. }
  exists y. eexists. split; auto. unfold eval. rewrite Ev. reflexivity.
Qed.
(** The same on an unsplit line. *)
Theorem c53_line_partial : forall frem fpow libm exp10 ua un T (trans_make : bytes -> res T) match_make x names bits outs t env v fields delim,
  history frem fpow libm exp10 ua un T trans_make match_make x -> (N.of_nat (List.length names) < 2 ^ 64)%N ->
  e_str x = concat (map bit_text bits) ->
  Forall2 (bit_means (alphabetic ua) (alphanumeric un) (maker match_make) (fun t => exists y, trans_make t = Ok y) names) bits outs ->
  written exp10 (alphabetic ua) (alphanumeric un) (concat outs) t ->
  (forall s, In s (refs t) -> means exp10 (fun k => nth (N.to_nat k) fields []) x names env s) ->
  value frem fpow factorial (builtin fpow libm) env t = Some v ->
  delim <> NL -> fields <> [] -> Forall (fun f => ~ In delim f /\ ~ In NL f) fields ->
  exists y z, expr_lookup frem fpow libm exp10 ua un T trans_make match_make x names = Ok y /\
    eval_line frem fpow libm exp10 y (join delim fields ++ [NL]) delim = Ok (z, v).
Proof.
  intros frem fpow libm exp10 ua un T tm mm x names bits outs t env v fields delim H B Es F W M V Hd NE Hf.
  destruct (evaluated frem fpow libm exp10 ua un T tm mm x names bits outs t env v (fun c => get_col (join delim fields ++ [NL]) (N.to_nat c) delim)) as (y & E & Ev); auto.
  { eapply history_tidy; eauto. }
  { intros s Hs. destruct (M s Hs) as [C|(C & (k & K & Ek) & Or)]; [now left|]. right. split; auto. split; auto. exists k. split; auto. rewrite Ek, get_col_field; auto. }
  exists y. eexists. split; auto. unfold eval_line. rewrite Ev. reflexivity.
Qed.
Notation ex_lookup := (expr_lookup ex_rem fmul ex_libm ex10 no_uni no_uni bytes ex_trans ex_match).
Notation ex_eval := (eval ex_rem fmul ex_libm ex10).
Definition ex_new (x : expr) (names : list bytes) (fields : list bytes) : res (expr * f64) := rbind (ex_lookup x names) (fun x => ex_eval x fields).
Definition col_named (s : string) : bit := BCols (mkspec [mkterm false [] (IOne (PName (bs s)))] None None).
(** [price]*[qty]+1, looked up in one header, evaluated, and looked up again in another order of columns. *)
Definition ex_bits : list bit := [col_named "price"; BText (bs "*"); col_named "qty"; BText (bs "+1")].
Definition ex_meant (names : list bytes) (bits : list bit) (outs : list bytes) : Prop :=
  Forall2 (bit_means (alphabetic no_uni) (alphanumeric no_uni) (maker ex_match) (fun t => exists y, ex_trans t = Ok y) names) bits outs.
Lemma col_named_means names s k : bs s <> [] -> HdrSpec.well_named (alphabetic no_uni) (alphanumeric no_uni) (bs s) -> ~ In 91%N (bs s) -> ~ In 93%N (bs s) ->
  place_at names (PName (bs s)) k ->
  bit_means (alphabetic no_uni) (alphanumeric no_uni) (maker ex_match) (fun t => exists y, ex_trans t = Ok y) names (col_named s) (numbered (N.of_nat k)).
Proof.
  intros NE W A B P. unfold col_named. cbn [bit_means s_trans]. split; [|split; [discriminate|split]].
  - split; [|split; [left; discriminate|split; discriminate]]. constructor; [|constructor]. split; [exact I|]. split; auto.
  - unfold spec_text. cbn [s_terms s_group s_trans map term_text t_not t_label t_item label_text item_text place_text app join]. rewrite !app_nil_r. apply balanced_free; auto.
  - exists [[k]]. split; [constructor; [|constructor]; cbn; exists k; auto|]. reflexivity.
Qed.
Ltac named := first [discriminate | (intros H; cbn in H; intuition discriminate) | (split; [reflexivity|]; repeat constructor)].
Ltac named_first := intros j Hj; repeat (destruct j as [|j]; [discriminate|]); cbn in Hj; lia.
Example c53_columns_partial_ex :
  let names1 := map bs ["id"; "price"; "qty"]%string in let names := map bs ["qty"; "tax"; "id"; "price"]%string in
  let fields := map bs ["3"; "1"; "x"; "20"]%string in
  let t := Op BPlus (Op BTimes (Ref (bs "c4")) (Ref (bs "c1"))) (Leaf (num 1)) in
  let env s := if beq s (bs "c4") then num 20 else num 3 in
  exists x, history ex_rem fmul ex_libm ex10 no_uni no_uni bytes ex_trans ex_match x /\ ex_new (expr_new (bs "[price]*[qty]+1")) names1 (map bs ["7"; "5"; "2"]%string) = Ok (x, num 11) /\
    e_str x = concat (map bit_text ex_bits) /\ map v_name (e_vars x) = map bs ["c2"; "c3"]%string /\
    ex_meant names ex_bits (map bs ["c4"; "*"; "c1"; "+1"]%string) /\
    written ex10 (alphabetic no_uni) (alphanumeric no_uni) (bs "c4*c1+1") t /\
    (forall s, In s (refs t) -> means ex10 (fun k => nth (N.to_nat k) fields []) x names env s) /\
    value ex_rem fmul factorial (builtin fmul ex_libm) env t = Some (num 61).
Proof.
  cbv zeta. eexists. split; [|split; [vm_compute; reflexivity|]].
  - eapply (h_eval _ _ _ _ _ _ _ _ _ _ (map bs ["7"; "5"; "2"]%string)); [eapply (h_look _ _ _ _ _ _ _ _ _ _ (map bs ["id"; "price"; "qty"]%string)); [apply (h_new _ _ _ _ _ _ _ _ _ (bs "[price]*[qty]+1"))| |vm_compute; reflexivity]|vm_compute; reflexivity].
    intros k H. unfold numbered in H. cbn [map bs In app] in H. intuition discriminate.
  - split; [reflexivity|]. split; [reflexivity|]. split; [|split; [|split]].
    + unfold ex_meant, ex_bits. cbn [map]. repeat (apply Forall2_cons || apply Forall2_nil).
      * change (bs "c4") with (numbered (N.of_nat 3)). apply col_named_means; try named. split; [cbn; lia|]. split; [reflexivity|]. named_first.
      * split; [intros H; cbn in H; intuition discriminate|reflexivity].
      * change (bs "c1") with (numbered (N.of_nat 0)). apply col_named_means; try named. split; [cbn; lia|]. split; [reflexivity|]. intros j Hj. lia.
      * split; [intros H; cbn in H; intuition discriminate|reflexivity].
    + exists [TVar (bs "c4"); TBin BTimes; TVar (bs "c1"); TBin BPlus; TNum (num 1)]. exists (map bs ["c4"; "*"; "c1"; "+"; "1"]%string).
      split; [reflexivity|]. split; [|split; [|split; reflexivity]].
      * match goal with |- sentence 1 ?l ?t => change l with (show 1 t) end. apply show_sentence; auto; lia.
      * cbn [map]. apply Forall2_cons; [apply (sp_var _ _ _ 99%N (bs "4")); reflexivity|]. apply Forall2_cons; [apply sp_bin|].
        apply Forall2_cons; [apply (sp_var _ _ _ 99%N (bs "1")); reflexivity|]. apply Forall2_cons; [apply sp_bin|].
        apply Forall2_cons; [apply number_spelled; [reflexivity|discriminate|vm_compute; reflexivity]|constructor].
    + intros s H. cbn [refs app In] in H. destruct H as [<-|[<-|[]]]; right; (split; [vm_compute; reflexivity|]); (split; [|right; intros H; cbn in H; intuition discriminate]).
      * exists 3%N. split; [right; split; [intros H; cbn in H; intuition discriminate|split; [reflexivity|lia]]|vm_compute; reflexivity].
      * exists 0%N. split; [right; split; [intros H; cbn in H; intuition discriminate|split; [reflexivity|lia]]|vm_compute; reflexivity].
    + vm_compute. reflexivity.
Qed.
(** A new expression may use plain names. *)
Example c53_line_partial_ex :
  let names := map bs ["qty"; "tax"]%string in let fields := map bs ["3"; "2"]%string in
  let t := Op BTimes (Ref (bs "tax")) (Ref (bs "pi")) in
  let env s := if beq s (bs "tax") then num 2 else env0 s in
  history ex_rem fmul ex_libm ex10 no_uni no_uni bytes ex_trans ex_match (expr_new (bs "tax*pi")) /\
  ex_meant names [BText (bs "tax*pi")] [bs "tax*pi"] /\ written ex10 (alphabetic no_uni) (alphanumeric no_uni) (bs "tax*pi") t /\
  (forall s, In s (refs t) -> means ex10 (fun k => nth (N.to_nat k) fields []) (expr_new (bs "tax*pi")) names env s) /\
  (exists v, value ex_rem fmul factorial (builtin fmul ex_libm) env t = Some v) /\ Forall (fun f => ~ In TAB f /\ ~ In NL f) fields.
Proof.
  cbv zeta. split; [constructor|]. split; [|split; [|split; [|split]]].
  - constructor; [|constructor]. split; [intros H; cbn in H; intuition discriminate|reflexivity].
  - exists [TVar (bs "tax"); TBin BTimes; TVar (bs "pi")]. exists (map bs ["tax"; "*"; "pi"]%string).
    split; [reflexivity|]. split; [|split; [|split; reflexivity]].
    + match goal with |- sentence 1 ?l ?t => change l with (show 1 t) end. apply show_sentence; auto; lia.
    + cbn [map]. apply Forall2_cons; [apply (sp_var _ _ _ 116%N (bs "ax")); reflexivity|]. apply Forall2_cons; [apply sp_bin|].
      apply Forall2_cons; [apply (sp_var _ _ _ 112%N (bs "i")); reflexivity|constructor].
  - intros s H. cbn [refs app In] in H. destruct H as [<-|[<-|[]]].
    + right. split; [vm_compute; reflexivity|]. split; [|left; intros []]. exists 1%N. split; [|vm_compute; reflexivity]. left. split; [reflexivity|].
      intros [|j] Hj; [discriminate|cbn in Hj; lia].
    + left. vm_compute. reflexivity.
  - eexists. vm_compute. reflexivity.
  - repeat constructor; intros H; cbn in H; intuition discriminate.
Qed.
(** Looked up again, a plain name keeps the column it had in the first header. *)
Theorem c53_again_refuted : exists names1 names2 x y z, names1 = map bs ["a"; "b"]%string /\ names2 = map bs ["b"; "a"]%string /\
  ex_new (expr_new (bs "a*10")) names1 (map bs ["1"; "2"]%string) = Ok (x, num 10) /\
  ex_new x names2 (map bs ["5"; "7"]%string) = Ok (y, num 50) /\
  ex_new (expr_new (bs "a*10")) names2 (map bs ["5"; "7"]%string) = Ok (z, num 70).
Proof. do 5 eexists. split; [reflexivity|]. split; [reflexivity|]. split; [vm_compute; reflexivity|]. split; vm_compute; reflexivity. Qed.
(** A column that is called c2 takes the place of the second column, also in brackets. *)
Theorem c53_number_refuted : exists names x y, names = map bs ["c2"; "b"]%string /\
  ex_new (expr_new (bs "[2]")) names (map bs ["5"; "7"]%string) = Ok (x, num 5) /\
  ex_new (expr_new (bs "[b]")) names (map bs ["5"; "7"]%string) = Ok (y, num 5).
Proof. do 3 eexists. split; [reflexivity|]. split; vm_compute; reflexivity. Qed.
(** Columns called e or pi cannot be read by name, and c0 panics. *)
Theorem c53_names_refuted : exists names x y, names = map bs ["e"; "b"]%string /\
  ex_new (expr_new (bs "e")) names (map bs ["5"; "7"]%string) = Ok (x, f_of_bits 4613303445314885481) /\
  ex_new (expr_new (bs "[e]")) names (map bs ["5"; "7"]%string) = Ok (y, num 5) /\
  ex_lookup (expr_new (bs "c0")) names = Panic.
Proof. do 3 eexists. split; [reflexivity|]. repeat split; vm_compute; reflexivity. Qed.

(** * C66 *)
Theorem c66_max : forall fpow libm args, args <> [] -> Forall (fun x => valid64 x /\ x <> S754_nan) args ->
  exists f v, find_func (bs "max") = Ok f /\ apply_func fpow libm f args = Ok v /\ In v args /\ forall x, In x args -> SFltb v x = false.
Proof. intros fpow libm args NE F. destruct (max_spec fpow libm args NE F) as (v & E & H). exists FMax, v. split; [reflexivity|]. auto. Qed.
Theorem c66_min : forall fpow libm args, args <> [] -> Forall (fun x => valid64 x /\ x <> S754_nan) args ->
  exists f v, find_func (bs "min") = Ok f /\ apply_func fpow libm f args = Ok v /\ In v args /\ forall x, In x args -> SFltb x v = false.
Proof. intros fpow libm args NE F. destruct (min_spec fpow libm args NE F) as (v & E & H). exists FMin, v. split; [reflexivity|]. auto. Qed.
Example c66_max_ex : let args := [num (-3); S754_infinity true; num 12; num 7] in
  Forall (fun x => valid64 x /\ x <> S754_nan) args /\ apply_func fmul ex_libm FMax args = Ok (num 12) /\ apply_func fmul ex_libm FMin args = Ok (S754_infinity true).
Proof. cbv zeta. split; [repeat constructor; discriminate|split; vm_compute; reflexivity]. Qed.
(** The mean of whole numbers is the nearest double. *)
Theorem c66_avg_partial : forall fpow libm args zs, args <> [] -> Forall2 holds_int args zs ->
  small (sum_abs zs) -> small (Z.of_nat (List.length args)) ->
  exists f v, find_func (bs "avg") = Ok f /\ apply_func fpow libm f args = Ok v /\ holds_real v (Rdefinitions.Rdiv (Rdefinitions.IZR (sum zs)) (Rdefinitions.IZR (Z.of_nat (List.length zs)))).
Proof. intros fpow libm args zs NE F A B. destruct (avg_spec fpow libm args zs NE F A B) as (v & E & H). exists FAvg, v. split; [reflexivity|]. auto. Qed.
Example c66_avg_partial_ex : let zs := [1; 2; -5]%Z in Forall2 holds_int (map f_of_Z zs) zs /\ small (sum_abs zs) /\ sum zs = (-2)%Z /\
  apply_func fmul ex_libm FAvg (map f_of_Z zs) = Ok (fdiv (num (-2)) (num 3)).
Proof. cbv zeta. split; [repeat constructor; apply holds_of_Z; unfold small; lia|]. split; [unfold small; cbn; lia|]. split; [reflexivity|vm_compute; reflexivity]. Qed.
Theorem c66_if : forall fpow libm c a b, exists f, find_func (bs "if") = Ok f /\
  apply_func fpow libm f [c; a; b] = Ok (match SFcompare c f_zero with Some Eq => b | _ => a end).
Proof. intros. exists FIf. split; [reflexivity|]. unfold apply_func. cbn [List.length Nat.ltb Nat.leb reads_args hd nth]. unfold SFeqb. destruct (SFcompare c f_zero) as [[]|]; reflexivity. Qed.
Example c66_if_ex : ex_calc "if(3<2,10,20)" = Ok (num 20) /\ ex_calc "if(2<3,10,20)" = Ok (num 10).
Proof. split; vm_compute; reflexivity. Qed.
(** Factorials are right to one part in 2^49, and the nearest doubles up to 27. *)
Theorem c66_factorial_partial : forall n, 1 <= n <= 170 -> near (factorial (f_of_Z (Z.of_nat n))) (fact_upto n).
Proof. exact factorial_near. Qed.
Theorem c66_factorial_small : forall n, 1 <= n <= 27 -> factorial (f_of_Z (Z.of_nat n)) = f_of_Z (fact_upto n).
Proof. exact factorial_exact. Qed.
Example c66_factorial_ex : fact_upto 5 = 120%Z /\ factorial (num 5) = num 120 /\ factorial (num 171) = S754_infinity false.
Proof. repeat split; vm_compute; reflexivity. Qed.
(** 28! is not the nearest double, and 0! is 0. *)
Theorem c66_factorial_refuted : exists n, n = 28 /\ factorial (f_of_Z (Z.of_nat n)) <> f_of_Z (fact_upto n) /\ ex_calc "0!" = Ok (num 0).
Proof. exists 28. split; [reflexivity|]. split; [intros H; vm_compute in H; discriminate|vm_compute; reflexivity]. Qed.
(** acos gives the absolute value, whatever the maths library does. *)
Theorem c66_acos_is_abs : forall fpow libm x, exists f g, find_func (bs "acos") = Ok f /\ find_func (bs "abs") = Ok g /\
  apply_func fpow libm f [x] = Ok (SFabs x) /\ apply_func fpow libm f [x] = apply_func fpow libm g [x].
Proof. intros. exists FAcos, FAbs. repeat split; reflexivity. Qed.
Theorem c66_acos_refuted : exists s, s = bs "acos(1)" /\ calc ex_rem fmul ex_libm ex10 no_uni no_uni s = Ok (num 1) /\ ex_calc "abs(1)" = Ok (num 1).
Proof. eexists. split; [reflexivity|]. split; vm_compute; reflexivity. Qed.
(** The constants with an underscore in their names cannot be written: such a text is never accepted. *)
Theorem c66_no_underscore : forall frem fpow libm exp10 ua un s, In 95%N s -> calc frem fpow libm exp10 ua un s = Err.
Proof.
  intros frem fpow libm exp10 ua un s H. unfold calc, eval_plain. cbn [expr_new e_str]. unfold parse. pose proof (tokenize_no_panic exp10 ua un s) as NP.
  destruct (tokenize exp10 ua un s) as [ts| |] eqn:T; cbn [rbind]; try congruence.
  pose proof (tokenize_allowed exp10 ua un s ts 95%N T H) as A. cbv in A. discriminate.
Qed.
Theorem c66_constants_refuted : exists s, s = bs "M_PI" /\ find_const s <> None /\ calc ex_rem fmul ex_libm ex10 no_uni no_uni s = Err /\ find_const (bs "M_PI") = find_const (bs "pi") /\ ex_calc "pi" = Ok (f_of_bits 4614256656552045848).
Proof. eexists. split; [reflexivity|]. split; [vm_compute; discriminate|]. repeat split; vm_compute; reflexivity. Qed.
