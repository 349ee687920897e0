(** The positions chosen when a sample is thinned out: strictly increasing, although computed in doubles. *)
From Coq Require Import List NArith ZArith Bool Lia SpecFloat Reals Lra.
From Flocq Require Import IEEE754.BinarySingleNaN Core.
Import ListNotations.
From Verif Require Import Base StrModel FloatModel FloatValid FloatInt ShareProofs SampModel.
Open Scope Z_scope.

Notation F := (generic_format radix2 (SpecFloat.fexp 53 1024)).
Local Instance fe : Valid_exp (SpecFloat.fexp 53 1024) := fexp_correct 53 1024 eq_refl.
Local Instance fm : Monotone_exp (SpecFloat.fexp 53 1024) := fexp_monotone 53 1024.

Lemma as_usize_floor : forall b : binary_float 53 1024, is_finite b = true -> (0 <= B2R b)%R -> as_usize (B2SF b) = Z.to_N (Zfloor (B2R b)).
Proof.
  intros [s|s| |s m e B] Fb H; try discriminate.
  - cbn [B2R B2SF as_usize]. change 0%R with (IZR 0). rewrite Zfloor_IZR. destruct s; reflexivity.
  - destruct s.
    + exfalso. assert (N : (B2R (B754_finite true m e B) < 0)%R) by (cbn [B2R]; apply F2R_lt_0; reflexivity). lra.
    + cbn [B2R B2SF as_usize cond_Zopp]. f_equal. unfold F2R. cbn [Fnum Fexp].
      destruct e as [|q|q].
      * cbn [bpow]. rewrite Rmult_1_r, Zfloor_IZR. reflexivity.
      * change (bpow radix2 (Z.pos q)) with (IZR (Z.pow_pos 2 q)). rewrite <- mult_IZR, Zfloor_IZR. reflexivity.
      * change (bpow radix2 (Z.neg q)) with (/ IZR (Z.pow_pos 2 q))%R. change (IZR (Z.pos m) * / IZR (Z.pow_pos 2 q))%R with (IZR (Z.pos m) / IZR (Z.pow_pos 2 q))%R.
        rewrite Zfloor_div; [reflexivity|]. change (Z.pow_pos 2 q) with (2 ^ Z.pos q). pose proof (Z.pow_pos_nonneg 2 (Z.pos q)). lia.
Qed.

Lemma int_F : forall k, Z.abs k <= 2 ^ 52 -> F (IZR k).
Proof. intros k H. rewrite <- (small_round k) by (unfold small; lia). apply generic_format_round; [apply fe|apply valid_rnd_round_mode]. Qed.

(** A value times 2 that is whole and small is in the format. *)
Lemma half_F : forall k, Z.abs k <= 2 ^ 52 -> F (IZR k / 2)%R.
Proof.
  intros k H. destruct (Z.eq_dec k 0) as [->|NZ]; [unfold Rdiv; rewrite Rmult_0_l; apply generic_format_0|].
  replace (IZR k / 2)%R with (F2R (Float radix2 k (-1))) by (unfold F2R; cbn; lra).
  apply generic_format_F2R. intros _. unfold cexp, SpecFloat.fexp, emin.
  assert (M : (mag radix2 (F2R (Float radix2 k (-1))) <= 52)%Z).
  { apply mag_le_bpow; [intros E; apply eq_0_F2R in E; cbn in E; auto|].
    unfold F2R. cbn [Fnum Fexp]. change (bpow radix2 (-1)) with (/2)%R. rewrite Rabs_mult, (Rabs_pos_eq (/2)) by lra. rewrite <- abs_IZR.
    apply IZR_le in H. change (bpow radix2 52) with (IZR (2 ^ 52)). assert (0 < IZR (2 ^ 52))%R by (apply IZR_lt; reflexivity). lra. }
  lia.
Qed.

(** One less than a value of the format between 1 and 2^53 is in the format. *)
Lemma minus_one_F : forall x, F x -> (1 <= x < bpow radix2 53)%R -> F (x - 1)%R.
Proof.
  intros x Fx [L U]. destruct (Req_dec x 1) as [->|NE]; [replace (1 - 1)%R with 0%R by lra; apply generic_format_0|].
  set (e := cexp radix2 (SpecFloat.fexp 53 1024) x). set (m := Ztrunc (scaled_mantissa radix2 (SpecFloat.fexp 53 1024) x)).
  assert (X : x = F2R (Float radix2 m e)) by exact Fx.
  assert (E : e <= 0).
  { unfold e, cexp, SpecFloat.fexp, emin. assert (mag radix2 x <= 53); [|lia]. apply mag_le_bpow; [lra|]. rewrite Rabs_pos_eq by lra. auto. }
  replace (x - 1)%R with (F2R (Float radix2 (m - 2 ^ (- e)) e)).
  - apply generic_format_F2R. intros NZ. replace (F2R (Float radix2 (m - 2 ^ (- e)) e)) with (x - 1)%R.
    + change (cexp radix2 (SpecFloat.fexp 53 1024) (x - 1) <= cexp radix2 (SpecFloat.fexp 53 1024) x). unfold cexp. apply fm. apply mag_le; lra.
    + rewrite X. unfold F2R. cbn [Fnum Fexp]. rewrite minus_IZR, Rmult_minus_distr_r. f_equal.
      change 2 with (radix_val radix2). rewrite IZR_Zpower by lia. rewrite <- bpow_plus. replace (- e + e) with 0 by lia. reflexivity.
  - rewrite X. unfold F2R. cbn [Fnum Fexp]. rewrite minus_IZR, Rmult_minus_distr_r. f_equal.
    change 2 with (radix_val radix2). rewrite IZR_Zpower by lia. rewrite <- bpow_plus. replace (- e + e) with 0 by lia. reflexivity.
Qed.

Notation prd := (pred radix2 (SpecFloat.fexp 53 1024)).

Lemma pred_step : forall k, 1 <= k < 2 ^ 52 -> (prd (IZR (k + 1)) <= prd (IZR k) + 1)%R.
Proof.
  intros k H. destruct (Rle_or_lt (prd (IZR (k + 1))) (prd (IZR k) + 1)) as [L|L]; auto. exfalso.
  assert (Fk : F (IZR k)) by (apply int_F; lia). assert (Fk1 : F (IZR (k + 1))) by (apply int_F; lia).
  assert (P : (prd (IZR (k + 1)) < IZR (k + 1))%R) by (apply pred_lt_id; apply IZR_neq; lia).
  assert (Q : (IZR k <= prd (IZR (k + 1)))%R) by (apply pred_ge_gt; auto; [apply fe|apply IZR_lt; lia]).
  assert (B : (IZR (k + 1) <= bpow radix2 53)%R) by (change (bpow radix2 53) with (IZR (2 ^ 53)); apply IZR_le; lia).
  assert (K1 : (1 <= IZR k)%R) by (apply IZR_le; lia).
  assert (G : F (prd (IZR (k + 1)) - 1)%R).
  { apply minus_one_F; [apply generic_format_pred; auto; apply fe|]. lra. }
  rewrite plus_IZR in P at 2.
  assert (X : (prd (IZR (k + 1)) - 1 <= prd (IZR k))%R) by (apply pred_ge_gt; auto; [apply fe|lra]).
  lra.
Qed.

(** If z rounds to at least k, anything more than 1 above z rounds to at least k + 1. *)
Lemma step : forall k z z', 1 <= k < 2 ^ 52 -> (IZR k <= rnd z)%R -> (z + 1 < z')%R -> (IZR (k + 1) <= rnd z')%R.
Proof.
  intros k z z' H R Z. apply round_N_ge_midp; [apply fe|apply int_F; lia|].
  apply round_N_ge_ge_midp in R; [|apply fe|apply int_F; lia].
  pose proof (pred_step k H) as P. rewrite plus_IZR in *. lra.
Qed.

Section Spread.
Variables n m : Z.
Hypothesis N1 : 1 <= n.
Hypothesis NM : n < m.
Hypothesis M52 : m < 2 ^ 50.
Notation q := (IZR m / IZR n)%R.
Notation r := (rnd q).

Lemma n_pos : (1 <= IZR n)%R. Proof. apply IZR_le; auto. Qed.
Lemma q_gt : (1 + bpow radix2 (-52) <= q)%R.
Proof.
  pose proof n_pos. assert (D : (q = 1 + IZR (m - n) / IZR n)%R) by (rewrite minus_IZR; field; lra). rewrite D. apply Rplus_le_compat_l.
  change (bpow radix2 (-52)) with (/ IZR (2 ^ 52))%R. apply Rle_trans with (/ IZR n)%R.
  - apply Rinv_le; [lra|]. apply IZR_le. lia.
  - rewrite <- (Rmult_1_l (/ IZR n)). unfold Rdiv. apply Rmult_le_compat_r; [left; apply Rinv_0_lt_compat; lra|]. apply IZR_le. lia.
Qed.
Lemma r_gt : (1 < r)%R.
Proof.
  apply Rlt_le_trans with (1 + bpow radix2 (-52))%R.
  - pose proof (bpow_gt_0 radix2 (-52)). lra.
  - rewrite <- (round_generic radix2 (SpecFloat.fexp 53 1024) (round_mode mode_NE) (1 + bpow radix2 (-52))).
    + apply round_le; [apply fe|apply valid_rnd_round_mode|apply q_gt].
    + replace (1 + bpow radix2 (-52))%R with (F2R (Float radix2 (2 ^ 52 + 1) (-52))).
      * apply generic_format_F2R. intros _. unfold cexp, SpecFloat.fexp, emin.
        rewrite mag_F2R_Zdigits by discriminate. vm_compute. discriminate.
      * unfold F2R. cbn [Fnum Fexp]. rewrite plus_IZR. change (IZR (2 ^ 52)) with (bpow radix2 52). rewrite Rmult_plus_distr_r, <- bpow_plus, Rmult_1_l. reflexivity.
Qed.
Lemma q_le : (q <= IZR m)%R.
Proof.
  pose proof n_pos. assert (0 <= IZR m)%R by (apply IZR_le; lia). unfold Rdiv. rewrite <- (Rmult_1_r (IZR m)) at 2. apply Rmult_le_compat_l; auto.
  rewrite <- Rinv_1. apply Rinv_le; lra.
Qed.
Lemma r_le : (r <= IZR m)%R.
Proof.
  apply Rle_trans with (rnd (IZR m)); [apply round_le; [apply fe|apply valid_rnd_round_mode|apply q_le]|].
  right. apply small_round. unfold small. lia.
Qed.
(** The last position: at most m. *)
Lemma r_err : (IZR n * r <= IZR m + / 2)%R.
Proof.
  pose proof n_pos as P. pose proof q_gt as Q. pose proof (bpow_gt_0 radix2 (-52)) as B0.
  assert (E : (Rabs (r - q) <= / 2 * ulp radix2 (SpecFloat.fexp 53 1024) q)%R) by (apply error_le_half_ulp; apply fe).
  assert (U : (ulp radix2 (SpecFloat.fexp 53 1024) q <= bpow radix2 (-52) * q)%R).
  { rewrite ulp_neq_0 by lra. unfold cexp.
    assert (E1 : 1 <= mag radix2 q) by (apply mag_ge_bpow; rewrite Rabs_pos_eq by lra; change (bpow radix2 (1 - 1)) with 1%R; lra).
    destruct (mag radix2 q) as (e & He). cbn [mag_val] in *. specialize (He ltac:(lra)). rewrite Rabs_pos_eq in He by lra. destruct He as [He _].
    unfold SpecFloat.fexp, emin. rewrite Z.max_l by lia. replace (e - 53) with (-52 + (e - 1)) by lia. rewrite bpow_plus.
    apply Rmult_le_compat_l; lra. }
  assert (NQ : (IZR n * q = IZR m)%R) by (field; lra).
  apply Rabs_le_inv in E. destruct E as [_ E].
  assert (T : (IZR n * r <= IZR m + / 2 * (bpow radix2 (-52) * IZR m))%R).
  { assert (X : (IZR n * r <= IZR n * (q + / 2 * (bpow radix2 (-52) * q)))%R) by (apply Rmult_le_compat_l; lra).
    replace (IZR n * (q + / 2 * (bpow radix2 (-52) * q)))%R with (IZR n * q + / 2 * (bpow radix2 (-52) * (IZR n * q)))%R in X by ring.
    rewrite NQ in X. auto. }
  assert (S1 : (bpow radix2 (-52) * IZR m <= 1)%R).
  { apply Rle_trans with (bpow radix2 (-52) * IZR (2 ^ 52))%R; [apply Rmult_le_compat_l; [lra|]; apply IZR_le; lia|].
    change (IZR (2 ^ 52)) with (bpow radix2 52). rewrite <- bpow_plus. cbn [Z.add]. right. reflexivity. }
  lra.
Qed.

Definition at_pos (i : Z) : Z := Zfloor (rnd (IZR i * r)).

Lemma prod_le : forall i, 0 <= i <= n -> (0 <= IZR i * r <= IZR m + / 2)%R.
Proof.
  intros i H. pose proof r_gt. pose proof r_err. assert (0 <= IZR i <= IZR n)%R by (split; apply IZR_le; lia).
  split; [apply Rmult_le_pos; lra|]. eapply Rle_trans; [|eassumption]. apply Rmult_le_compat_r; lra.
Qed.
Lemma rnd_prod_le : forall i, 0 <= i <= n -> (IZR i <= rnd (IZR i * r) <= IZR m + / 2)%R.
Proof.
  intros i H. pose proof (prod_le i H) as P. pose proof r_gt as R. split.
  - apply round_ge_generic; [apply fe|apply valid_rnd_round_mode|apply int_F; lia|].
    rewrite <- (Rmult_1_r (IZR i)) at 1. apply Rmult_le_compat_l; [apply IZR_le; lia|lra].
  - apply round_le_generic; [apply fe|apply valid_rnd_round_mode| |lra].
    replace (IZR m + / 2)%R with (IZR (2 * m + 1) / 2)%R by (rewrite plus_IZR, mult_IZR; field). apply half_F. lia.
Qed.
Lemma pos_ge : forall i, 0 <= i <= n -> i <= at_pos i.
Proof. intros i H. unfold at_pos. apply Zfloor_lub. apply rnd_prod_le; auto. Qed.
Lemma pos_le : forall i, 0 <= i <= n -> at_pos i <= m.
Proof.
  intros i H. unfold at_pos. pose proof (rnd_prod_le i H) as [_ P].
  assert (X : Zfloor (rnd (IZR i * r)) < m + 1); [|lia]. apply lt_IZR. eapply Rle_lt_trans; [apply Zfloor_lb|]. rewrite plus_IZR. lra.
Qed.
Lemma pos_step : forall i, 1 <= i -> i + 1 <= n -> at_pos i < at_pos (i + 1).
Proof.
  intros i H1 H2. assert (at_pos i + 1 <= at_pos (i + 1)); [|lia]. unfold at_pos at 2. apply Zfloor_lub.
  pose proof (pos_ge i ltac:(lia)). pose proof (pos_le i ltac:(lia)). pose proof r_gt as R.
  apply step with (IZR i * r)%R; [lia|apply Zfloor_lb|]. rewrite plus_IZR. lra.
Qed.

Lemma spread_pos : forall i, 0 <= i <= n ->
  as_usize (fmul (f_of_Z i) (fdiv (f_of_Z m) (f_of_Z n))) = Z.to_N (at_pos i).
Proof.
  intros i H. destruct (holds_of_Z i ltac:(unfold small; lia)) as (bi & -> & Vi & Fi).
  destruct (holds_of_Z m ltac:(unfold small; lia)) as (bm & -> & Vm & Fm).
  destruct (holds_of_Z n ltac:(unfold small; lia)) as (bn & -> & Vn & Fn).
  rewrite fdiv_equiv. pose proof n_pos as NP.
  assert (NZ : B2R bn <> 0%R) by (rewrite Vn; lra).
  pose proof (Bdiv_correct 53 1024 Hprec53 Hmax53 mode_NE bm bn NZ) as C. rewrite Vm, Vn in C.
  pose proof r_gt as RG. pose proof r_le as RL.
  assert (BM : (IZR m + / 2 < bpow radix2 1024)%R).
  { apply Rlt_trans with (bpow radix2 53); [|apply bpow_lt; lia]. change (bpow radix2 53) with (IZR (2 ^ 53)).
    apply Rle_lt_trans with (IZR (m + 1)); [rewrite plus_IZR; lra|apply IZR_lt; lia]. }
  rewrite Rlt_bool_true in C by (rewrite Rabs_pos_eq by lra; lra). destruct C as (C1 & C2 & _). rewrite Fm in C2.
  set (d := Bdiv mode_NE bm bn) in *. rewrite fmul_equiv.
  pose proof (Bmult_correct 53 1024 Hprec53 Hmax53 mode_NE bi d) as D. rewrite Vi, C1 in D.
  pose proof (rnd_prod_le i H) as [P0 P1]. assert (I0 : (0 <= IZR i)%R) by (apply IZR_le; lia).
  rewrite Rlt_bool_true in D by (rewrite Rabs_pos_eq by lra; lra). destruct D as (D1 & D2 & _). rewrite Fi, C2 in D2.
  rewrite as_usize_floor; [rewrite D1; reflexivity|exact D2|rewrite D1; lra].
Qed.
End Spread.

(** The positions of collapse, /repo/src/sampler.rs:96. *)
Open Scope nat_scope.
Section Nat.
Variables old new : nat.
Hypothesis New : 3 <= new.
Hypothesis Old : new < old.
Hypothesis Small : (N.of_nat old < 2 ^ 50)%N.
Lemma spread_is : forall i, i <= new - 2 -> spread old new i = Z.to_nat (at_pos (Z.of_nat (new - 2)) (Z.of_nat (old - 2)) (Z.of_nat i)).
Proof.
  intros i H. unfold spread. assert (Z.of_N (2 ^ 50) = 2 ^ 50)%Z by reflexivity. rewrite spread_pos; lia.
Qed.
Lemma spread_ge : forall i, i <= new - 2 -> i <= spread old new i.
Proof.
  intros i H. assert (Z.of_N (2 ^ 50) = 2 ^ 50)%Z by reflexivity. rewrite spread_is by auto.
  pose proof (pos_ge (Z.of_nat (new - 2)) (Z.of_nat (old - 2)) ltac:(lia) ltac:(lia) ltac:(lia) (Z.of_nat i) ltac:(lia)). lia.
Qed.
Lemma spread_le : forall i, i <= new - 2 -> spread old new i <= old - 2.
Proof.
  intros i H. assert (Z.of_N (2 ^ 50) = 2 ^ 50)%Z by reflexivity. rewrite spread_is by auto.
  pose proof (pos_le (Z.of_nat (new - 2)) (Z.of_nat (old - 2)) ltac:(lia) ltac:(lia) ltac:(lia) (Z.of_nat i) ltac:(lia)). lia.
Qed.
Lemma spread_step : forall i, 1 <= i -> S i <= new - 2 -> spread old new i < spread old new (S i).
Proof.
  intros i H1 H2. assert (Z.of_N (2 ^ 50) = 2 ^ 50)%Z by reflexivity. rewrite !spread_is by lia.
  pose proof (pos_step (Z.of_nat (new - 2)) (Z.of_nat (old - 2)) ltac:(lia) ltac:(lia) ltac:(lia) (Z.of_nat i) ltac:(lia) ltac:(lia)) as P.
  replace (Z.of_nat i + 1)%Z with (Z.of_nat (S i)) in P by lia.
  pose proof (pos_ge (Z.of_nat (new - 2)) (Z.of_nat (old - 2)) ltac:(lia) ltac:(lia) ltac:(lia) (Z.of_nat i) ltac:(lia)). lia.
Qed.
End Nat.
