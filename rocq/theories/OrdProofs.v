(** Total preorders: building blocks. *)
From Coq Require Import List NArith ZArith Bool Arith Lia.
Import ListNotations.
From Verif Require Import Base CompSpec.

Lemma preorder_key : forall {A B} (key : A -> B) (cmpB : B -> B -> comparison) (cmp : A -> A -> comparison),
  total_preorder cmpB -> (forall x y, cmp x y = cmpB (key x) (key y)) -> total_preorder cmp.
Proof.
  intros A B key cmpB cmp (R & S & T) E. repeat split; intros.
  - rewrite E. apply R.
  - rewrite !E. apply S.
  - rewrite E in *. eapply T; eauto.
Qed.

Lemma preorder_on_key : forall {A B} (P : A -> Prop) (key : A -> B) (cmpB : B -> B -> comparison) (cmp : A -> A -> comparison),
  total_preorder cmpB -> (forall x y, P x -> P y -> cmp x y = cmpB (key x) (key y)) -> total_preorder_on P cmp.
Proof.
  intros A B P key cmpB cmp (R & S & T) E. repeat split; intros.
  - rewrite E by auto. apply R.
  - rewrite !E by auto. apply S.
  - rewrite E in * by auto. eapply T; eauto.
Qed.

(** Consequences of the three laws. *)
Lemma preorder_eq_trans : forall {A} (cmp : A -> A -> comparison), total_preorder cmp ->
  forall x y z, cmp x y = Eq -> cmp y z = Eq -> cmp x z = Eq.
Proof.
  intros A cmp (R & S & T) x y z H1 H2.
  assert (cmp x z <> Gt) by (apply (T x y z); congruence).
  assert (cmp z x <> Gt) by (apply (T z y x); rewrite S; [rewrite H2|rewrite H1]; cbn; congruence).
  rewrite S in H0. destruct (cmp x z); cbn in *; congruence.
Qed.
Lemma preorder_lt_trans : forall {A} (cmp : A -> A -> comparison), total_preorder cmp ->
  forall x y z, cmp x y = Lt -> cmp y z <> Gt -> cmp x z = Lt.
Proof.
  intros A cmp (R & S & T) x y z H1 H2.
  assert (cmp x z <> Gt) by (apply (T x y z); congruence).
  destruct (cmp x z) eqn:E; auto; try congruence. exfalso.
  assert (cmp z x <> Gt) by (rewrite S, E; cbn; congruence).
  assert (cmp y x <> Gt) by (apply (T y z x); auto). rewrite S, H1 in H3. cbn in H3. congruence.
Qed.
Lemma preorder_le_lt_trans : forall {A} (cmp : A -> A -> comparison), total_preorder cmp ->
  forall x y z, cmp x y <> Gt -> cmp y z = Lt -> cmp x z = Lt.
Proof.
  intros A cmp (R & S & T) x y z H1 H2.
  assert (cmp x z <> Gt) by (apply (T x y z); congruence).
  destruct (cmp x z) eqn:E; auto; try congruence. exfalso.
  assert (cmp z x <> Gt) by (rewrite S, E; cbn; congruence).
  assert (cmp z y <> Gt) by (apply (T z x y); auto). rewrite S, H2 in H3. cbn in H3. congruence.
Qed.

Lemma N_preorder : total_preorder N.compare.
Proof.
  repeat split; intros.
  - apply N.compare_refl.
  - apply N.compare_antisym.
  - rewrite !N.compare_le_iff in *. lia.
Qed.
Lemma nat_preorder : total_preorder Nat.compare.
Proof.
  repeat split; intros.
  - apply Nat.compare_refl.
  - apply Nat.compare_antisym.
  - rewrite !Nat.compare_le_iff in *. lia.
Qed.
Lemma Z_preorder : total_preorder Z.compare.
Proof.
  repeat split; intros.
  - apply Z.compare_refl.
  - apply Z.compare_antisym.
  - rewrite !Z.compare_le_iff in *. lia.
Qed.

(** First difference of two lists, shorter first. *)
Fixpoint lexl {A} (cmp : A -> A -> comparison) (a b : list A) : comparison :=
  match a, b with
  | [], [] => Eq
  | [], _ :: _ => Lt
  | _ :: _, [] => Gt
  | x :: a', y :: b' => match cmp x y with Eq => lexl cmp a' b' | c => c end
  end.

(** Compare by one key, then by another. *)
Definition thenc (c1 c2 : comparison) : comparison := match c1 with Eq => c2 | c => c end.

Lemma thenc_preorder : forall {A} (c1 c2 : A -> A -> comparison), total_preorder c1 -> total_preorder c2 ->
  total_preorder (fun x y => thenc (c1 x y) (c2 x y)).
Proof.
  intros A c1 c2 P1 P2. pose proof P1 as (R1 & S1 & T1). pose proof P2 as (R2 & S2 & T2).
  repeat split; intros.
  - rewrite R1. apply R2.
  - rewrite S1. destruct (c1 x y); cbn; auto.
  - destruct (c1 x y) eqn:E1; cbn in H; try congruence.
    + destruct (c1 y z) eqn:E2; cbn in H0; try congruence.
      * rewrite (preorder_eq_trans c1 P1 x y z) by auto. cbn. eapply T2; eauto.
      * rewrite (preorder_le_lt_trans c1 P1 x y z) by congruence. cbn. congruence.
    + destruct (c1 y z) eqn:E2; cbn in H0; try congruence;
        rewrite (preorder_lt_trans c1 P1 x y z) by congruence; cbn; congruence.
Qed.

Lemma const_preorder : forall {A}, total_preorder (fun _ _ : A => Eq).
Proof. repeat split; intros; cbn; congruence. Qed.

Lemma rev_preorder : forall {A} (cmp : A -> A -> comparison), total_preorder cmp ->
  total_preorder (fun x y => CompOpp (cmp x y)).
Proof.
  intros A cmp (R & S & T). repeat split; intros.
  - rewrite R. auto.
  - rewrite S. auto.
  - rewrite <- S in *. eapply T; eauto.
Qed.

Lemma lexl_preorder : forall {A} (cmp : A -> A -> comparison), total_preorder cmp -> total_preorder (lexl cmp).
Proof.
  intros A cmp P. pose proof P as (R & S & T). split; [|split].
  - induction x; cbn; auto. rewrite R. auto.
  - induction x; intros [|y ys]; cbn; auto. rewrite S. destruct (cmp a y); cbn; auto.
  - induction x as [|a x IH]; intros [|b y] [|c z]; cbn; try congruence.
    intros H0 H1. destruct (cmp a b) eqn:E1; cbn in *; try congruence.
    + destruct (cmp b c) eqn:E2; cbn in *; try congruence.
      * rewrite (preorder_eq_trans cmp P a b c) by auto. eapply IH; eauto.
      * rewrite (preorder_le_lt_trans cmp P a b c) by congruence. congruence.
    + destruct (cmp b c) eqn:E2; cbn in *; try congruence;
        rewrite (preorder_lt_trans cmp P a b c) by congruence; congruence.
Qed.
