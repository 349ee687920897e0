(** Proofs about the conversion to reverse Polish order and the evaluation of expressions. *)
From Coq Require Import String List NArith ZArith Bool Arith Lia SpecFloat.
Open Scope list_scope.
From Verif Require Import Base FloatModel ExprModel ExprSpec.
Import ListNotations.
Close Scope Z_scope.

Definition isop (t : token) : bool := match t with TBin _ | TUn _ => true | _ => false end. (* which tokens end up between parentheses on the stack *)
Notation prec t := (fst (prec_assoc t)).

(** The stack below a sentence of level [n] is not disturbed by it. *)
Definition ready (n : nat) (st : list token) : Prop :=
  match st with
  | [] => True
  | t :: _ => if n <=? 3 then prec t < n else if n <=? 5 then prec t <= 5 else True
  end.
(** What a sentence of level [n] leaves on the stack. *)
Definition held (n : nat) (B : list token) : Prop :=
  if n <=? 5 then Forall (fun t => isop t = true /\ Nat.min n 4 <= prec t) B
  else if n <=? 6 then exists k, B = repeat (TUn UFact) k
  else B = [].

Lemma ready_up n st : ready n st -> ready (S n) st.
Proof.
  unfold ready. destruct st as [|t r]; [trivial|].
  destruct (Nat.leb_spec n 3); destruct (Nat.leb_spec (S n) 3); destruct (Nat.leb_spec n 5); destruct (Nat.leb_spec (S n) 5); auto; lia.
Qed.

Lemma held_down n B : held (S n) B -> held n B.
Proof.
  unfold held. intros H.
  destruct (Nat.leb_spec (S n) 5) as [L|L].
  - destruct (Nat.leb_spec n 5); [|lia]. eapply Forall_impl; [|exact H]. intros t [A C]. split; auto. lia.
  - destruct (Nat.leb_spec n 5).
    + destruct (Nat.leb_spec (S n) 6).
      * destruct H as [k ->]. apply Forall_forall. intros x Hx. apply repeat_spec in Hx. subst. cbn. split; auto. lia.
      * lia.
    + destruct (Nat.leb_spec (S n) 6); [lia|].
      destruct (Nat.leb_spec n 6); auto. exists 0. exact H.
Qed.

Lemma held_ops n B : held n B -> Forall (fun t => isop t = true) B.
Proof.
  unfold held. destruct (n <=? 5); [|destruct (n <=? 6)].
  - intros H. eapply Forall_impl; [|exact H]. now intros t [A _].
  - intros [k ->]. apply Forall_forall. intros x Hx. apply repeat_spec in Hx. now subst.
  - intros ->. constructor.
Qed.

Lemma pop_left i out B st :
  Forall (fun t => i <= prec t) B -> match st with [] => True | t :: _ => prec t < i end ->
  pop_ops (i, ALeft) out (B ++ st) = (out ++ B, st).
Proof.
  revert out. induction B as [|b B IH]; intros out F C; cbn [app].
  - rewrite app_nil_r. destruct st as [|t r]; cbn [pop_ops]; auto. destruct (Nat.leb_spec i (prec t)); auto. lia.
  - inversion F; subst. cbn [pop_ops]. destruct (Nat.leb_spec i (prec b)); [|lia].
    rewrite IH by auto. now rewrite <- app_assoc.
Qed.
Lemma pop_right i out B st :
  Forall (fun t => i < prec t) B -> match st with [] => True | t :: _ => prec t <= i end ->
  pop_ops (i, ARight) out (B ++ st) = (out ++ B, st).
Proof.
  revert out. induction B as [|b B IH]; intros out F C; cbn [app].
  - rewrite app_nil_r. destruct st as [|t r]; cbn [pop_ops]; auto. destruct (Nat.ltb_spec i (prec t)); auto. lia.
  - inversion F; subst. cbn [pop_ops]. destruct (Nat.ltb_spec i (prec b)); [|lia].
    rewrite IH by auto. now rewrite <- app_assoc.
Qed.
Lemma pop_rparen_ops out B r : Forall (fun t => isop t = true) B -> pop_rparen out (B ++ r) = pop_rparen (out ++ B) r.
Proof.
  revert out. induction B as [|b B IH]; intros out F; cbn [app]. { now rewrite app_nil_r. }
  inversion F; subst.
  destruct b; try discriminate; cbn [pop_rparen]; rewrite IH by auto; now rewrite <- app_assoc.
Qed.
Lemma pop_comma_ops out B r : Forall (fun t => isop t = true) B -> pop_comma out (B ++ r) = pop_comma (out ++ B) r.
Proof.
  revert out. induction B as [|b B IH]; intros out F; cbn [app]. { now rewrite app_nil_r. }
  inversion F; subst.
  destruct b; try discriminate; cbn [pop_comma]; rewrite IH by auto; now rewrite <- app_assoc.
Qed.
Lemma pop_rest_ops out B : Forall (fun t => isop t = true) B -> pop_rest out B = Ok (out ++ B).
Proof.
  revert out. induction B as [|b B IH]; intros out F; cbn [pop_rest]. { now rewrite app_nil_r. }
  inversion F; subst. destruct b; try discriminate; rewrite IH by auto; now rewrite <- app_assoc.
Qed.
Lemma rpn_loop_app s a b : rpn_loop s (a ++ b) = rbind (rpn_loop s a) (fun s => rpn_loop s b).
Proof. revert s. induction a as [|t a IH]; intros s; cbn [app rpn_loop rbind]; auto. destruct (rpn_step s t); cbn [rbind]; auto. Qed.

Lemma level_prec o : prec (TBin o) = level o. Proof. now destruct o. Qed.
Lemma level_left o : level o <= 3 -> prec_assoc (TBin o) = (level o, ALeft). Proof. destruct o; cbn; auto; lia. Qed.
Lemma level_pos o : 1 <= level o. Proof. destruct o; cbn; lia. Qed.

Definition runs (n : nat) (ts : list token) (t : tree) : Prop :=
  forall out st, ready n st -> exists A B, rpn_loop (out, st) ts = Ok (out ++ A, B ++ st) /\ A ++ B = postfix t /\ held n B.
Definition nargs0 (k : nat) : option nat := match k with 0 => None | S _ => Some k end.
Definition runs_args (ts : list token) (l : list tree) : Prop :=
  forall out st s k, exists A B,
    rpn_loop (out, TFunc s (nargs0 k) :: st) ts = Ok (out ++ A, B ++ TFunc s (nargs0 (k + List.length l - 1)) :: st)
    /\ A ++ B = flat_map postfix l /\ Forall (fun t => isop t = true) B.

Lemma more_nargs k : more_args (nargs0 k) = nargs0 (S k).
Proof. destruct k; cbn; auto. unfold more_args. f_equal. lia. Qed.

Lemma repeat_cons {A} (x : A) k : repeat x k ++ [x] = x :: repeat x k.
Proof. induction k; cbn; auto. now rewrite IHk. Qed.

Lemma both_run :
  (forall n ts t, sentence n ts t -> runs n ts t) /\ (forall ts l, arglist ts l -> l <> [] /\ runs_args ts l).
Proof.
  apply sentence_both.
  - (* up *) intros n ts t L _ IH out st R. destruct (IH out st (ready_up _ _ R)) as (A & B & E & P & H).
    exists A, B. auto using held_down.
  - (* left *) intros o ts a us b L _ IHa _ IHb out st R.
    destruct (IHa out st R) as (A & B & E & P & H).
    rewrite rpn_loop_app, E. cbn [rbind rpn_loop rpn_step].
    rewrite level_left by auto.
    unfold ready in R. destruct (Nat.leb_spec (level o) 3); [|lia].
    rewrite pop_left; auto.
    2:{ unfold held in H. destruct (Nat.leb_spec (level o) 5); [|lia]. eapply Forall_impl; [|exact H].
        intros t [_ C]. lia. }
    cbn [rbind].
    destruct (IHb ((out ++ A) ++ B) (TBin o :: st)) as (A' & B' & E' & P' & H').
    { unfold ready. rewrite level_prec. destruct (Nat.leb_spec (S (level o)) 3); [lia|]. destruct (Nat.leb_spec (S (level o)) 5); [lia|auto]. }
    exists ((A ++ B) ++ A'), (B' ++ [TBin o]). rewrite E'. split; [|split].
    + rewrite <- !app_assoc. reflexivity.
    + cbn [postfix]. rewrite <- P', <- P, <- !app_assoc. reflexivity.
    + unfold held in *. destruct (Nat.leb_spec (level o) 5); [|lia]. destruct (Nat.leb_spec (S (level o)) 5); [|lia].
      apply Forall_app. split.
      * eapply Forall_impl; [|exact H']. intros t [C D]. split; auto. lia.
      * constructor; [|constructor]. rewrite level_prec. split; auto. lia.
  - (* sign *) intros u ts a U _ IH out st R. cbn [rpn_loop rpn_step rbind].
    assert (Pu : prec (TUn u) = 4) by (destruct u; cbn; congruence).
    destruct (IH out (TUn u :: st)) as (A & B & E & P & H). { unfold ready. rewrite Pu. cbn. lia. }
    exists A, (B ++ [TUn u]). rewrite E. split; [|split].
    + now rewrite <- app_assoc.
    + cbn [postfix]. now rewrite <- P, app_assoc.
    + unfold held in *. cbn [Nat.leb] in *. apply Forall_app. split; auto. constructor; [|constructor]. rewrite Pu. cbn. auto.
  - (* pow *) intros ts a us b _ IHa _ IHb out st R.
    destruct (IHa out st) as (A & B & E & P & H). { unfold ready. destruct st; cbn; auto. }
    rewrite rpn_loop_app, E. cbn [rbind rpn_loop rpn_step prec_assoc].
    unfold held in H. cbn [Nat.leb] in H. destruct H as [k ->].
    rewrite pop_right.
    2:{ apply Forall_forall. intros x Hx. apply repeat_spec in Hx. subst. cbn. lia. }
    2:{ unfold ready in R. cbn [Nat.leb] in R. exact R. }
    cbn [rbind].
    destruct (IHb ((out ++ A) ++ repeat (TUn UFact) k) (TBin BPow :: st)) as (A' & B' & E' & P' & H'). { unfold ready. cbn. lia. }
    exists ((A ++ repeat (TUn UFact) k) ++ A'), (B' ++ [TBin BPow]). rewrite E'. split; [|split].
    + rewrite <- !app_assoc. reflexivity.
    + cbn [postfix]. rewrite <- P', <- P, <- !app_assoc. reflexivity.
    + unfold held in *. cbn [Nat.leb] in *. apply Forall_app. split; auto. constructor; [|constructor]. cbn. split; auto; lia.
  - (* fact *) intros ts a _ IH out st R.
    destruct (IH out st R) as (A & B & E & P & H). unfold held in H. cbn [Nat.leb] in H. destruct H as [k ->].
    rewrite rpn_loop_app, E. cbn [rbind rpn_loop rpn_step].
    exists A, (TUn UFact :: repeat (TUn UFact) k). split; [|split]; auto.
    + cbn [postfix]. rewrite <- P, <- repeat_cons. now rewrite app_assoc.
    + unfold held. cbn [Nat.leb]. exists (S k). reflexivity.
  - (* num *) intros x out st R. exists [TNum x], []. unfold held. cbn. auto.
  - (* var *) intros x out st R. exists [TVar x], []. unfold held. cbn. auto.
  - (* paren *) intros ts a _ IH out st R. cbn [rpn_loop rpn_step rbind].
    destruct (IH out (TLParen :: st)) as (A & B & E & P & H). { unfold ready. cbn. lia. }
    rewrite rpn_loop_app, E. cbn [rbind rpn_loop rpn_step].
    rewrite pop_rparen_ops by eauto using held_ops. cbn [pop_rparen rbind].
    exists (A ++ B), []. rewrite app_nil_r. unfold held. cbn. rewrite app_assoc. auto.
  - (* call *) intros s ts args _ [NE IH] out st R. cbn [rpn_loop rpn_step rbind].
    destruct (IH out st s 0) as (A & B & E & P & H). cbn [nargs0] in E.
    rewrite rpn_loop_app, E. cbn [rbind rpn_loop rpn_step].
    rewrite pop_rparen_ops by auto. cbn [pop_rparen rbind].
    exists (A ++ B ++ [TFunc s (Some (List.length args))]), [].
    cbn [postfix]. rewrite app_nil_r, <- P. unfold held. cbn [Nat.leb app].
    split; [|split]; auto.
    + rewrite more_nargs. destruct args as [|x l]; [congruence|]. cbn [List.length Nat.add]. rewrite Nat.sub_succ, Nat.sub_0_r. cbn [nargs0].
      now rewrite <- !app_assoc.
    + now rewrite <- !app_assoc.
  - (* one *) intros ts a _ IH. split; [discriminate|]. intros out st s k.
    destruct (IH out (TFunc s (nargs0 k) :: st)) as (A & B & E & P & H). { unfold ready. cbn. lia. }
    exists A, B. cbn [List.length]. rewrite Nat.add_sub. cbn [flat_map]. rewrite app_nil_r. eauto using held_ops.
  - (* more *) intros ts a us l _ IH _ [NE IHl]. split; [discriminate|]. intros out st s k.
    destruct (IH out (TFunc s (nargs0 k) :: st)) as (A & B & E & P & H). { unfold ready. cbn. lia. }
    rewrite rpn_loop_app, E. cbn [rbind rpn_loop rpn_step].
    rewrite pop_comma_ops by eauto using held_ops. cbn [pop_comma rbind]. rewrite more_nargs.
    destruct (IHl ((out ++ A) ++ B) st s (S k)) as (A' & B' & E' & P' & H').
    exists ((A ++ B) ++ A'), B'. rewrite E'. cbn [List.length flat_map]. rewrite <- P', <- P.
    replace (k + S (List.length l) - 1) with (S k + List.length l - 1) by lia.
    rewrite <- !app_assoc. auto.
Qed.

Section TreeInd.
Variable P : tree -> Prop.
Hypothesis Hleaf : forall x, P (Leaf x).
Hypothesis Href : forall s, P (Ref s).
Hypothesis Hpre : forall u a, P a -> P (Pre u a).
Hypothesis Hpost : forall a, P a -> P (Post a).
Hypothesis Hop : forall o a b, P a -> P b -> P (Op o a b).
Hypothesis Hcall : forall s l, Forall P l -> P (Call s l).
Fixpoint tree_rec2 (t : tree) : P t :=
  match t with
  | Leaf x => Hleaf x
  | Ref s => Href s
  | Pre u a => Hpre u a (tree_rec2 a)
  | Post a => Hpost a (tree_rec2 a)
  | Op o a b => Hop o a b (tree_rec2 a) (tree_rec2 b)
  | Call s l => Hcall s l ((fix go (l : list tree) : Forall P l :=
                              match l with [] => Forall_nil _ | x :: r => Forall_cons _ (tree_rec2 x) (go r) end) l)
  end.
End TreeInd.

(** The verification pass on an evaluation order. *)
Lemma verify_postfix t : (forall s, t = Call s [] -> False) -> writable t = true ->
  forall n r, (0 <= n)%Z -> verify_loop n (postfix t ++ r) = verify_loop (n + 1) r.
Proof.
  intros _. induction t as [x|s|u a IH|a IH|o a b IHa IHb|s l IH] using tree_rec2; cbn [writable]; intros W n r Hn; cbn [postfix].
  - cbn [app verify_loop rbind]. destruct (Z.leb_spec (n + 1) 0); [lia|auto].
  - cbn [app verify_loop rbind]. destruct (Z.leb_spec (n + 1) 0); [lia|auto].
  - rewrite <- app_assoc, IH by (auto; destruct u; try discriminate; auto). cbn [app verify_loop rbind]. destruct (Z.leb_spec (n + 1) 0); [lia|auto].
  - rewrite <- app_assoc, IH by auto. cbn [app verify_loop rbind]. destruct (Z.leb_spec (n + 1) 0); [lia|auto].
  - apply andb_prop in W. destruct W. rewrite <- !app_assoc, IHa, IHb by (auto; lia).
    cbn [app verify_loop rbind]. replace (n + 1 + 1 - 1)%Z with (n + 1)%Z by lia. destruct (Z.leb_spec (n + 1) 0); [lia|auto].
  - apply andb_prop in W. destruct W as [NE W].
    assert (H : forall n r, (0 <= n)%Z -> verify_loop n (flat_map postfix l ++ r) = verify_loop (n + Z.of_nat (List.length l)) r).
    { clear NE Hn n r. induction IH as [|x l Hx _ IHl]; intros n r Hn; cbn [flat_map app List.length].
      - f_equal. lia.
      - cbn [forallb] in W. apply andb_prop in W. destruct W as [W1 W2].
        rewrite <- app_assoc, Hx, IHl by (auto; lia). f_equal. lia. }
    rewrite <- app_assoc, H by auto. cbn [app verify_loop rbind].
    replace (n + Z.of_nat (List.length l) - (Z.of_nat (List.length l) - 1))%Z with (n + 1)%Z by lia.
    destruct (Z.leb_spec (n + 1) 0); [lia|auto].
Qed.

Lemma sentence_writable :
  (forall n ts t, sentence n ts t -> writable t = true) /\ (forall ts l, arglist ts l -> l <> [] /\ forallb writable l = true).
Proof.
  apply sentence_both; intros; cbn [writable forallb]; auto.
  - now rewrite H, H0.
  - now destruct u.
  - now rewrite H, H0.
  - destruct H as [A B]. rewrite B. now destruct args.
  - rewrite H. split; [discriminate|auto].
  - destruct H0 as [A B]. rewrite H, B. split; [discriminate|auto].
Qed.

Lemma sentence_rpn ts t : sentence 1 ts t -> to_rpn ts = Ok (postfix t).
Proof.
  intros S. pose proof (proj1 both_run _ _ _ S [] [] I) as (A & B & E & P & H).
  pose proof (proj1 sentence_writable _ _ _ S) as W.
  unfold to_rpn. rewrite E. cbn [rbind app]. rewrite app_nil_r, pop_rest_ops by eauto using held_ops. cbn [rbind].
  rewrite P. pose proof (verify_postfix t (fun s e => ltac:(subst; discriminate)) W 0%Z [] ltac:(lia)) as V.
  rewrite app_nil_r in V. rewrite V. reflexivity.
Qed.

Lemma sentence_level n m ts t : sentence n ts t -> 1 <= m -> m <= n -> sentence m ts t.
Proof.
  intros S Hm. remember (n - m) as d eqn:D. revert n S D. induction d as [|d IH]; intros n S D L.
  - now replace m with n by lia.
  - destruct n as [|n]; [lia|]. apply (IH n); try lia. apply s_up; auto. lia.
Qed.

Lemma show_sentence t : writable t = true -> forall n, 1 <= n <= 7 -> sentence n (show n t) t.
Proof.
  induction t as [x|s|u a IH|a IH|o a b IHa IHb|s l IH] using tree_rec2; cbn [writable]; intros W n Hn; cbn [show].
  - apply (sentence_level 7); [apply s_num|lia|lia].
  - apply (sentence_level 7); [apply s_var|lia|lia].
  - assert (SS : sentence 4 (TUn u :: show 4 a) (Pre u a)).
    { destruct u; try discriminate; apply s_sign; try discriminate; apply IH; auto; lia. }
    unfold wrap. destruct (Nat.ltb_spec 4 n); [|apply (sentence_level 4); auto; lia].
    apply (sentence_level 7); [|lia|lia]. apply s_paren, (sentence_level 4); auto; lia.
  - assert (SS : sentence 6 (show 6 a ++ [TUn UFact]) (Post a)). { apply s_fact, IH; auto; lia. }
    unfold wrap. destruct (Nat.ltb_spec 6 n); [|apply (sentence_level 6); auto; lia].
    apply (sentence_level 7); [|lia|lia]. apply s_paren, (sentence_level 6); auto; lia.
  - apply andb_prop in W. destruct W as [Wa Wb].
    destruct (le_lt_dec (level o) 3) as [L|L].
    + assert (SS : sentence (level o) (show (level o) a ++ TBin o :: show (S (level o)) b) (Op o a b)).
      { pose proof (level_pos o). apply s_left; auto; [apply IHa|apply IHb]; auto; lia. }
      assert (G : sentence n (wrap (level o <? n) (show (level o) a ++ TBin o :: show (S (level o)) b)) (Op o a b)).
      { pose proof (level_pos o). unfold wrap. destruct (Nat.ltb_spec (level o) n); [|apply (sentence_level (level o)); auto; lia].
        apply (sentence_level 7); [|lia|lia]. apply s_paren, (sentence_level (level o)); auto; lia. }
      destruct o; try exact G. cbn in L. lia.
    + destruct o; cbn in L; try lia.
      assert (SS : sentence 5 (show 6 a ++ TBin BPow :: show 4 b) (Op BPow a b)). { apply s_pow; [apply IHa|apply IHb]; auto; lia. }
      unfold wrap. destruct (Nat.ltb_spec 5 n); [|apply (sentence_level 5); auto; lia].
      apply (sentence_level 7); [|lia|lia]. apply s_paren, (sentence_level 5); auto; lia.
  - apply (sentence_level 7); [|lia|lia]. apply s_call.
    apply andb_prop in W. destruct W as [NE W].
    destruct l as [|x l]; [discriminate|]. clear NE.
    revert x W IH. induction l as [|y l IHl]; intros x W IH; inversion IH as [|? ? Hx Hl]; subst; cbn [forallb] in W; apply andb_prop in W; destruct W as [W1 W2].
    + apply a_one, Hx; auto; lia.
    + apply a_more; [apply Hx; auto; lia|]. apply IHl; auto.
Qed.
