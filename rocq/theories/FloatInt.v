(** Arithmetic on doubles holding integers below 2^53 is exact. *)
From Coq Require Import List NArith ZArith Bool Lia SpecFloat Reals Lra.
From Flocq Require Import IEEE754.BinarySingleNaN Core.
Import ListNotations.
From Verif Require Import Base StrModel FloatModel FloatValid.
Open Scope Z_scope.

(** [x] is a finite double whose value is the integer [n]. *)
Definition holds_int (x : f64) (n : Z) : Prop :=
  exists b : binary_float 53 1024, x = B2SF b /\ B2R b = IZR n /\ is_finite b = true.

Definition small (n : Z) : Prop := Z.abs n < 2 ^ 53.

Lemma small_round : forall n, small n ->
  round radix2 (SpecFloat.fexp 53 1024) (round_mode mode_NE) (IZR n) = IZR n.
Proof.
  intros n H. destruct (Z.eq_dec n 0) as [->|Hn]; [apply round_0, valid_rnd_round_mode|].
  apply round_generic; [apply valid_rnd_round_mode|].
  replace (IZR n) with (F2R (Float radix2 n 0)) by (unfold F2R; cbn; lra).
  apply generic_format_F2R. intros _. unfold cexp, SpecFloat.fexp, emin.
  assert (M : (mag radix2 (F2R (Float radix2 n 0)) <= 53)%Z).
  { apply mag_le_bpow.
    - intros E. apply eq_0_F2R in E. cbn in E. auto.
    - unfold F2R. cbn [Fnum Fexp bpow]. rewrite Rmult_1_r. rewrite <- abs_IZR. unfold small in H.
      change (bpow radix2 53) with (IZR (2 ^ 53)). apply IZR_lt. auto. }
  cbn [Fexp]. lia.
Qed.

Lemma small_lt_emax : forall n, small n -> Rlt_bool (Rabs (IZR n)) (bpow radix2 1024) = true.
Proof.
  intros n H. apply Rlt_bool_true. rewrite <- abs_IZR.
  apply Rlt_trans with (bpow radix2 53).
  - change (bpow radix2 53) with (IZR (2 ^ 53)). apply IZR_lt. auto.
  - apply bpow_lt. lia.
Qed.

Lemma holds_of_Z : forall n, small n -> holds_int (f_of_Z n) n.
Proof.
  intros n H. unfold f_of_Z. rewrite bn_equiv.
  pose proof (binary_normalize_correct 53 1024 Hprec53 Hmax53 mode_NE n 0 false) as C.
  replace (F2R (Float radix2 n 0)) with (IZR n) in C by (unfold F2R; cbn; lra). cbv zeta in C.
  rewrite small_round in C by auto. rewrite small_lt_emax in C by auto. destruct C as (C1 & C2 & _).
  eexists. split; [reflexivity|]. auto.
Qed.

Lemma holds_add : forall x y n m, holds_int x n -> holds_int y m -> small (n + m) -> holds_int (fadd x y) (n + m).
Proof.
  intros x y n m (a & -> & Va & Fa) (b & -> & Vb & Fb) H. rewrite fadd_equiv.
  pose proof (Bplus_correct 53 1024 Hprec53 Hmax53 mode_NE a b Fa Fb) as C.
  rewrite Va, Vb, <- plus_IZR in C. rewrite small_round in C by auto. rewrite small_lt_emax in C by auto.
  destruct C as (C1 & C2 & _). eexists. split; [reflexivity|]. auto.
Qed.

Lemma holds_mul : forall x y n m, holds_int x n -> holds_int y m -> small (n * m) -> holds_int (fmul x y) (n * m).
Proof.
  intros x y n m (a & -> & Va & Fa) (b & -> & Vb & Fb) H. rewrite fmul_equiv.
  pose proof (Bmult_correct 53 1024 Hprec53 Hmax53 mode_NE a b) as C.
  rewrite Va, Vb, <- mult_IZR in C. rewrite small_round in C by auto. rewrite small_lt_emax in C by auto.
  destruct C as (C1 & C2 & _). eexists. split; [reflexivity|]. rewrite Fa, Fb in C2. auto.
Qed.

Lemma holds_neg : forall x n, holds_int x n -> holds_int (fneg x) (- n).
Proof.
  intros x n (a & -> & Va & Fa). exists (Bopp a). rewrite B2R_Bopp, Va, opp_IZR, is_finite_Bopp.
  repeat split; auto. destruct a; auto.
Qed.

Lemma holds_zero : holds_int f_zero 0.
Proof. exists (B754_zero false). auto. Qed.

Lemma holds_valid : forall x n, holds_int x n -> valid64 x /\ x <> S754_nan.
Proof. intros x n (a & -> & _ & Fa). split; [apply valid_binary_B2SF|]. destruct a; discriminate. Qed.

Lemma holds_cmp : forall x y n m, holds_int x n -> holds_int y m -> SFcompare x y = Some (n ?= m).
Proof.
  intros x y n m (a & -> & Va & Fa) (b & -> & Vb & Fb).
  change (SFcompare (B2SF a) (B2SF b)) with (Bcompare a b).
  rewrite Bcompare_correct by auto. rewrite Va, Vb. f_equal.
  destruct (Z.compare_spec n m) as [E|E|E].
  - subst. apply Rcompare_Eq. auto.
  - apply Rcompare_Lt. apply IZR_lt. auto.
  - apply Rcompare_Gt. apply IZR_lt. auto.
Qed.

Lemma holds_fcmp : forall x y n m, holds_int x n -> holds_int y m -> fcmp x y = (n ?= m).
Proof.
  intros x y n m Hx Hy. unfold fcmp, f_eqb, f_ltb, SFeqb, SFltb.
  rewrite (holds_cmp x y n m), (holds_cmp y x m n) by auto. rewrite (Z.compare_antisym n m).
  destruct (n ?= m); auto.
Qed.

Lemma holds_zero_inv : forall x n s, holds_int x n -> x = S754_zero s -> n = 0.
Proof.
  intros x n s (a & E & Va & Fa) Ex. rewrite Ex in E. destruct a; try discriminate. cbn in Va.
  symmetry. apply eq_IZR. auto.
Qed.

(** Equal integers held with the same sign of zero are the same double. *)
Lemma holds_unique : forall x y n, holds_int x n -> holds_int y n -> n <> 0 -> x = y.
Proof.
  intros x y n (a & -> & Va & Fa) (b & -> & Vb & Fb) H. f_equal. apply B2R_inj.
  - destruct a; cbn in *; auto; try discriminate. exfalso. apply H. apply eq_IZR. auto.
  - destruct b; cbn in *; auto; try discriminate. exfalso. apply H. apply eq_IZR. auto.
  - congruence.
Qed.
