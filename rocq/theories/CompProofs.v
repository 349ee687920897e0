(** Proofs about the comparators. *)
From Coq Require Import List NArith ZArith QArith Bool Arith Lia SpecFloat.
From Coq Require Import ZifyBool ZifyN ZifyNat.
Import ListNotations.
From Verif Require Import Base TextSpec TextModel ReadModel StrModel StrSpec FloatModel CompModel CompSpec OrdProofs.
Close Scope Q_scope.
Close Scope Z_scope.

Lemma bcmp_lexl : forall a b, bcmp a b = lexl N.compare a b.
Proof. induction a; intros [|y b]; cbn; auto. destruct (a ?= y)%N; auto. Qed.

Lemma bcmp_preorder : total_preorder bcmp.
Proof. apply (preorder_key (fun x => x) (lexl N.compare)). apply lexl_preorder, N_preorder. apply bcmp_lexl. Qed.

Lemma bcmp_refl : forall a, bcmp a a = Eq.
Proof. apply bcmp_preorder. Qed.

Lemma bcmp_eq : forall a b, bcmp a b = Eq <-> a = b.
Proof.
  split; [|intros ->; apply bcmp_refl].
  revert b; induction a; intros [|y b]; cbn; try congruence.
  destruct (N.compare_spec a y); try congruence. intros; f_equal; auto.
Qed.

Lemma bcmp_antisym : forall a b, bcmp b a = CompOpp (bcmp a b).
Proof. apply bcmp_preorder. Qed.

Lemma bcmp_lt : forall a b, bcmp a b = Lt <-> dict_lt a b.
Proof.
  split.
  - revert b; induction a as [|x a IH]; intros [|y b]; cbn; try congruence.
    + intros _. left. exists y, b. auto.
    + destruct (N.compare_spec x y) as [E|E|E]; try congruence.
      * intros H. apply IH in H as [(z & r & ->)|(p & u & v & a' & b' & -> & -> & L)].
        -- left. exists z, r. subst. auto.
        -- right. exists (x :: p), u, v, a', b'. subst. auto.
      * intros _. right. exists [], x, y, a, b. auto.
  - intros [(y & r & ->)|(p & x & y & a' & b' & -> & -> & L)].
    + induction a; cbn; auto. rewrite N.compare_refl. auto.
    + induction p; cbn.
      * apply N.compare_lt_iff in L. rewrite L. auto.
      * rewrite N.compare_refl. auto.
Qed.

Lemma bcmp_app : forall p a b, bcmp (p ++ a) (p ++ b) = bcmp a b.
Proof. induction p; cbn; intros; auto. rewrite N.compare_refl. auto. Qed.

Lemma beq_bcmp : forall a b, beq a b = is_eq (bcmp a b).
Proof.
  intros. destruct (bcmp a b) eqn:E; cbn.
  - apply bcmp_eq in E. subst. apply beq_refl.
  - destruct (beq a b) eqn:F; auto. apply beq_eq in F. subst. rewrite bcmp_refl in E. congruence.
  - destruct (beq a b) eqn:F; auto. apply beq_eq in F. subst. rewrite bcmp_refl in E. congruence.
Qed.

(** Case insensitive comparison. *)
Lemma insens_loop_bcmp : forall a b n, insens_loop a b (n + length a) (n + length b) = bcmp (map lower a) (map lower b).
Proof.
  induction a as [|x a IH]; intros [|y b] n; cbn [insens_loop map bcmp length].
  - rewrite Nat.compare_refl. auto.
  - apply Nat.compare_lt_iff. lia.
  - apply Nat.compare_gt_iff. lia.
  - rewrite <- (IH b (S n)). replace (n + S (length a)) with (S n + length a) by lia.
    replace (n + S (length b)) with (S n + length b) by lia.
    destruct (N.compare_spec (lower x) (lower y)) as [E|E|E].
    + rewrite E, N.ltb_irrefl. auto.
    + apply N.ltb_lt in E. rewrite E. auto.
    + replace (lower x <? lower y)%N with false by lia. apply N.ltb_lt in E. rewrite E. auto.
Qed.
Lemma cmp_insens_bcmp : forall a b, cmp_insens a b = bcmp (map lower a) (map lower b).
Proof. intros. apply (insens_loop_bcmp a b 0). Qed.

Lemma insens_quick_bcmp : forall a b n,
  insens_quick_loop a b (n + length a) (n + length b) = bcmp a (map lower b).
Proof.
  induction a as [|x a IH]; intros [|y b] n; cbn [insens_quick_loop map bcmp length].
  - rewrite Nat.compare_refl. auto.
  - apply Nat.compare_lt_iff. lia.
  - apply Nat.compare_gt_iff. lia.
  - rewrite <- (IH b (S n)). replace (n + S (length a)) with (S n + length a) by lia.
    replace (n + S (length b)) with (S n + length b) by lia.
    destruct (N.compare_spec x (lower y)) as [E|E|E].
    + rewrite E, N.ltb_irrefl. auto.
    + apply N.ltb_lt in E. rewrite E. auto.
    + replace (x <? lower y)%N with false by lia. apply N.ltb_lt in E. rewrite E. auto.
Qed.
Lemma lower_lower : forall c, lower (lower c) = lower c.
Proof. intros. unfold lower. destruct ((65 <=? c) && (c <=? 90))%N eqn:E; [|rewrite E; auto].
  replace ((65 <=? c + 32) && (c + 32 <=? 90))%N with false by lia. auto. Qed.
Lemma map_lower_lower : forall a, map lower (map lower a) = map lower a.
Proof. intros. rewrite map_map. apply map_ext. apply lower_lower. Qed.
Lemma equal_insens_bcmp : forall a b, equal_insens a b = is_eq (bcmp (map lower a) (map lower b)).
Proof.
  induction a as [|x a IH]; intros [|y b]; cbn; auto. rewrite IH.
  destruct (N.compare_spec (lower x) (lower y)) as [E|E|E]; cbn.
  - rewrite E, N.eqb_refl. auto.
  - replace (lower x =? lower y)%N with false by lia. auto.
  - replace (lower x =? lower y)%N with false by lia. auto.
Qed.
Lemma lower_caseless : forall a, map lower a = caseless a.
Proof. reflexivity. Qed.

(** IP comparison: dotted runs of digits. *)
Definition shortlex (a b : bytes) : comparison := thenc (Nat.compare (length a) (length b)) (bcmp a b).
Lemma shortlex_preorder : total_preorder shortlex.
Proof.
  apply (thenc_preorder (fun a b => Nat.compare (length a) (length b)) bcmp).
  - apply (preorder_key (@length N) Nat.compare); auto. apply nat_preorder.
  - apply bcmp_preorder.
Qed.

Fixpoint segs (fuel : nat) (a : bytes) : list bytes :=
  match fuel with
  | 0 => []
  | S f => firstn (digit_run a) a ::
           if dot_at a (digit_run a) then segs f (skipn (digit_run a + 1) a) else []
  end.

Lemma digit_run_le : forall a, digit_run a <= length a.
Proof. induction a; cbn; auto. destruct (is_digit a); lia. Qed.

Lemma run_cmp_bcmp : forall n a b, n <= length a -> n <= length b -> run_cmp n a b = bcmp (firstn n a) (firstn n b).
Proof.
  induction n; intros [|x a] [|y b] Ha Hb; cbn in *; auto; try lia.
  destruct (N.eqb_spec x y) as [->|E].
  - rewrite N.compare_refl. apply IHn; lia.
  - destruct (N.compare_spec x y); auto; congruence.
Qed.

Lemma dot_len : forall a n, dot_at a n = true -> n < length a.
Proof. intros a n H. unfold dot_at in H. destruct (nth_error a n) eqn:E; try congruence. apply nth_error_Some. congruence. Qed.

Lemma ip_loop_segs : forall f a b, length a < f -> forall g, length b < g ->
  ip_loop f a b = lexl shortlex (segs f a) (segs g b).
Proof.
  induction f as [|f IH]; intros a b Ha g Hb; [lia|]. destruct g as [|g]; [lia|].
  cbn [ip_loop segs lexl].
  unfold shortlex at 1. rewrite !firstn_length, !Nat.min_l by apply digit_run_le.
  destruct (Nat.eqb_spec (digit_run a) (digit_run b)) as [E|E]; cbn [negb].
  - rewrite E, Nat.compare_refl. cbn [thenc].
    rewrite run_cmp_bcmp; [|rewrite <- E; apply digit_run_le|apply digit_run_le].
    destruct (bcmp (firstn (digit_run b) a) (firstn (digit_run b) b)); auto.
    destruct (dot_at a (digit_run b)) eqn:Da, (dot_at b (digit_run b)) eqn:Db; cbn [negb andb].
    + apply IH; rewrite skipn_length; apply dot_len in Da; apply dot_len in Db; lia.
    + destruct (segs f _) eqn:G; auto. destruct f; [apply dot_len in Da; lia|discriminate].
    + destruct (segs g _) eqn:G; auto. destruct g; [apply dot_len in Db; lia|discriminate].
    + auto.
  - destruct (Nat.compare_spec (digit_run a) (digit_run b)); auto; congruence.
Qed.

Lemma trim_left_length : forall a, length (trim_left a) <= length a.
Proof. induction a; cbn; auto. destruct (32 <? a)%N; cbn; lia. Qed.

Definition ip_key (a : bytes) : list bytes := segs (S (length a)) (trim_left a).
Lemma ip_cmp_key : forall a b, ip_cmp a b = lexl shortlex (ip_key a) (ip_key b).
Proof.
  intros. unfold ip_cmp, ip_key. apply ip_loop_segs; pose proof (trim_left_length a); pose proof (trim_left_length b); lia.
Qed.
Lemma ip_preorder : total_preorder ip_cmp.
Proof. apply (preorder_key ip_key (lexl shortlex)). apply lexl_preorder, shortlex_preorder. apply ip_cmp_key. Qed.
