(** Fractional thresholds: what the rounded comparisons decide. *)
From Coq Require Import List NArith ZArith Bool Lia SpecFloat Reals Lra.
From Flocq Require Import IEEE754.BinarySingleNaN Core Calc.Operations.
Import ListNotations.
From Verif Require Import Base StrModel FloatModel FloatValid FloatInt MatchModel.
Open Scope Z_scope.

Notation rnd := (round radix2 (SpecFloat.fexp 53 1024) (round_mode mode_NE)).

(** [x] is the double nearest to the real [r]. *)
Definition holds_real (x : f64) (r : R) : Prop :=
  exists b : binary_float 53 1024, x = B2SF b /\ B2R b = rnd r /\ is_finite b = true.

Lemma fma_exact : forall x y z a b c, holds_int x a -> holds_int y b -> holds_int z c -> small (a * b) -> small (a * b + c) ->
  holds_int (f_fma x y z) (a * b + c).
Proof.
  intros x y z a b c Hx Hy Hz S1 S2.
  assert (D : holds_int (fadd (fmul x y) z) (a * b + c)) by (apply holds_add; auto; apply holds_mul; auto).
  unfold f_fma. destruct x as [sx|sx| |sx mx ex]; auto. destruct y as [sy|sy| |sy my ey]; auto. destruct z as [sz|sz| |sz mz ez]; auto.
  clear D. destruct Hx as (bx & Ex & Vx & Fx), Hy as (by_ & Ey & Vy & Fy), Hz as (bz & Ez & Vz & Fz).
  destruct bx as [?|?| |sx' mx' ex' Bx]; try discriminate. injection Ex as <- <- <-.
  destruct by_ as [?|?| |sy' my' ey' By]; try discriminate. injection Ey as <- <- <-.
  destruct bz as [?|?| |sz' mz' ez' Bz]; try discriminate. injection Ez as <- <- <-.
  cbn [B2R] in Vx, Vy, Vz.
  set (e := Z.min (ex + ey) ez). set (p := cond_Zopp (xorb sx sy) (Zpos (mx * my)) * 2 ^ (ex + ey - e)).
  set (q := cond_Zopp sz (Zpos mz) * 2 ^ (ez - e)).
  assert (V : F2R (Float radix2 (p + q) e) = IZR (a * b + c)).
  { assert (P : F2R (Float radix2 p e) = IZR (a * b)).
    { rewrite mult_IZR, <- Vx, <- Vy. unfold p. change (2 ^ (ex + ey - e)) with (radix_val radix2 ^ (ex + ey - e)). rewrite <- (F2R_change_exp radix2 e (cond_Zopp (xorb sx sy) (Zpos (mx * my))) (ex + ey)) by (unfold e; lia).
      rewrite <- F2R_mult. unfold Fmult. f_equal. f_equal. destruct sx, sy; cbn [xorb cond_Zopp]; lia. }
    assert (Q : F2R (Float radix2 q e) = IZR c).
    { rewrite <- Vz. unfold q. change (2 ^ (ez - e)) with (radix_val radix2 ^ (ez - e)). rewrite <- (F2R_change_exp radix2 e (cond_Zopp sz (Zpos mz)) ez) by (unfold e; lia). reflexivity. }
    rewrite plus_IZR, <- P, <- Q. unfold F2R. cbn [Fnum Fexp]. rewrite plus_IZR. lra. }
  rewrite bn_equiv. pose proof (binary_normalize_correct 53 1024 Hprec53 Hmax53 mode_NE (p + q) e false) as C.
  cbv zeta in C. rewrite V in C. rewrite small_round in C by auto. rewrite small_lt_emax in C by auto. destruct C as (C1 & C2 & _).
  eexists. split; [reflexivity|]. auto.
Qed.

Lemma rnd_lt_emax : forall r, (Rabs r <= 2)%R -> Rlt_bool (Rabs (rnd r)) (bpow radix2 1024) = true.
Proof.
  intros r H. apply Rlt_bool_true. apply Rle_lt_trans with (bpow radix2 1); [|apply bpow_lt; lia].
  apply abs_round_le_generic; [apply fexp_correct; reflexivity|apply valid_rnd_round_mode| |change (bpow radix2 1) with 2%R; auto].
  apply generic_format_bpow. unfold SpecFloat.fexp, emin. lia.
Qed.

Lemma div_real : forall x y a b, holds_int x a -> holds_int y b -> b <> 0 -> (Rabs (IZR a / IZR b) <= 2)%R ->
  holds_real (fdiv x y) (IZR a / IZR b).
Proof.
  intros x y a b (bx & -> & Vx & Fx) (by_ & -> & Vy & Fy) Hb H. rewrite fdiv_equiv.
  assert (NZ : B2R by_ <> 0%R) by (rewrite Vy; apply IZR_neq; auto).
  pose proof (Bdiv_correct 53 1024 Hprec53 Hmax53 mode_NE bx by_ NZ) as C.
  rewrite Vx, Vy in C. rewrite rnd_lt_emax in C by auto. destruct C as (C1 & C2 & _).
  eexists. split; [reflexivity|]. rewrite C2. auto.
Qed.

Lemma real_cmp : forall x y r s, holds_real x r -> holds_real y s -> SFcompare x y = Some (Rcompare (rnd r) (rnd s)).
Proof.
  intros x y r s (a & -> & Va & Fa) (b & -> & Vb & Fb).
  change (SFcompare (B2SF a) (B2SF b)) with (Bcompare a b). rewrite Bcompare_correct by auto. rewrite Va, Vb. reflexivity.
Qed.

(** Values at most 2 that are more than 2^-51 apart do not round to the same double. *)
Lemma rnd_gap : forall r s, (Rabs r <= 2)%R -> (Rabs s <= 2)%R -> (bpow radix2 (-51) < s - r)%R -> (rnd r < rnd s)%R.
Proof.
  intros r s Hr Hs G.
  assert (E : forall x, (Rabs x <= 2)%R -> (Rabs (rnd x - x) <= bpow radix2 (-52))%R).
  { intros x Hx. eapply Rle_trans; [apply error_le_half_ulp; apply fexp_correct; reflexivity|].
    assert (U : (ulp radix2 (SpecFloat.fexp 53 1024) x <= ulp radix2 (SpecFloat.fexp 53 1024) (bpow radix2 1))%R).
    { apply ulp_le; [apply fexp_correct; reflexivity|apply fexp_monotone|]. change (bpow radix2 1) with 2%R. rewrite (Rabs_pos_eq 2) by lra. auto. }
    rewrite ulp_bpow in U. change (SpecFloat.fexp 53 1024 (1 + 1)) with (-51) in U.
    assert (B : (bpow radix2 (-51) = 2 * bpow radix2 (-52))%R) by (change (-51) with (1 + -52); rewrite bpow_plus; reflexivity). lra. }
  assert (B : (bpow radix2 (-51) = 2 * bpow radix2 (-52))%R) by (change (-51) with (1 + -52); rewrite bpow_plus; reflexivity).
  pose proof (E r Hr) as E1. pose proof (E s Hs) as E2. apply Rabs_le_inv in E1. apply Rabs_le_inv in E2. lra.
Qed.

(** Shares of a total below 2^50, compared with the points halfway between two counts. *)
Section Share.
Variable tot : N.
Hypothesis T0 : (0 < tot)%N.
Hypothesis T1 : (tot < 2 ^ 50)%N.
Notation T := (Z.of_N tot).

Lemma T_real : (0 < IZR T < IZR (2 ^ 50))%R.
Proof. split; apply IZR_lt; [|change (2 ^ 50) with (Z.of_N (2 ^ 50))]; lia. Qed.

(** [x] is a/(2 tot) rounded. *)
Definition at_half (x : f64) (a : Z) : Prop := holds_real x (IZR a / IZR (2 * T)).

Lemma half_bound : forall a, Z.abs a <= 4 * T -> (Rabs (IZR a / IZR (2 * T)) <= 2)%R.
Proof.
  intros a H. pose proof T_real as [P _]. rewrite mult_IZR. unfold Rdiv. rewrite Rabs_mult, <- abs_IZR, Rabs_inv.
  rewrite (Rabs_pos_eq (2 * IZR T)) by lra. apply Rmult_le_reg_r with (2 * IZR T)%R; [lra|].
  rewrite Rmult_assoc, Rinv_l by lra. apply IZR_le in H. rewrite mult_IZR in H. lra.
Qed.

Lemma at_half_div : forall x y a, holds_int x a -> holds_int y (2 * T) -> Z.abs a <= 4 * T -> at_half (fdiv x y) a.
Proof. intros x y a Hx Hy H. apply div_real; auto; [lia|]. apply half_bound; auto. Qed.

Lemma below_half : forall n, (n <= tot)%N -> at_half (half_below n tot) (2 * Z.of_N n - 1).
Proof.
  intros n H. assert (Z.of_N (2 ^ 50) = 2 ^ 50) by reflexivity. assert (2 ^ 50 * 4 < 2 ^ 53) by reflexivity. unfold half_below. apply at_half_div.
  - replace (2 * Z.of_N n - 1) with (2 * Z.of_N n + -1) by lia. apply fma_exact; try apply holds_of_Z; unfold small; lia.
  - apply holds_mul; try apply holds_of_Z; unfold small; lia.
  - lia.
Qed.
Lemma above_half : forall n, (n <= tot)%N -> at_half (half_above n tot) (2 * Z.of_N n + 1).
Proof.
  intros n H. assert (Z.of_N (2 ^ 50) = 2 ^ 50) by reflexivity. assert (2 ^ 50 * 4 < 2 ^ 53) by reflexivity. unfold half_above. apply at_half_div.
  - apply fma_exact; try apply holds_of_Z; unfold small; lia.
  - apply holds_mul; try apply holds_of_Z; unfold small; lia.
  - lia.
Qed.
(** The share m/tot as the user would give it. *)
Lemma share_half : forall m, (m <= tot)%N -> at_half (f_ratio (Z.of_N m) T) (2 * Z.of_N m).
Proof.
  intros m H. assert (Z.of_N (2 ^ 50) = 2 ^ 50) by reflexivity. assert (2 ^ 50 * 4 < 2 ^ 53) by reflexivity. unfold f_ratio, at_half.
  replace (IZR (2 * Z.of_N m) / IZR (2 * T))%R with (IZR (Z.of_N m) / IZR T)%R.
  - apply div_real; try (apply holds_of_Z; unfold small; lia); [lia|].
    replace (IZR (Z.of_N m) / IZR T)%R with (IZR (2 * Z.of_N m) / IZR (2 * T))%R; [apply half_bound; lia|].
    rewrite !mult_IZR. pose proof T_real. field. lra.
  - rewrite !mult_IZR. pose proof T_real. field. lra.
Qed.

Lemma half_cmp : forall x y a b, at_half x a -> at_half y b -> Z.abs a <= 4 * T -> Z.abs b <= 4 * T -> SFcompare x y = Some (a ?= b).
Proof.
  intros x y a b Hx Hy A B. rewrite (real_cmp _ _ _ _ Hx Hy). f_equal. pose proof T_real as [P Q].
  assert (G : forall u v, Z.abs u <= 4 * T -> Z.abs v <= 4 * T -> u < v -> (rnd (IZR u / IZR (2 * T)) < rnd (IZR v / IZR (2 * T)))%R).
  { intros u v U V L. apply rnd_gap; try (apply half_bound; auto).
    assert (D : (IZR v / IZR (2 * T) - IZR u / IZR (2 * T) = IZR (v - u) * / IZR (2 * T))%R) by (rewrite minus_IZR; unfold Rdiv; ring).
    rewrite D. assert (1 <= IZR (v - u))%R by (apply IZR_le; lia).
    apply Rlt_le_trans with (/ IZR (2 * T))%R.
    - change (bpow radix2 (-51)) with (/ IZR (2 ^ 51))%R. apply Rinv_lt_contravar.
      + apply Rmult_lt_0_compat; apply IZR_lt; lia.
      + apply IZR_lt. assert (Z.of_N (2 ^ 50) = 2 ^ 50) by reflexivity. assert (2 ^ 50 * 2 = 2 ^ 51) by reflexivity. lia.
    - rewrite <- (Rmult_1_l (/ IZR (2 * T))) at 1. apply Rmult_le_compat_r; auto.
      left. apply Rinv_0_lt_compat. rewrite mult_IZR. lra. }
  destruct (Z.compare_spec a b) as [E|E|E].
  - subst. apply Rcompare_Eq. auto.
  - apply Rcompare_Lt. auto.
  - apply Rcompare_Gt. auto.
Qed.

Lemma share_less : forall m n, (m <= tot)%N -> (n <= tot)%N -> f64_less (f_ratio (Z.of_N m) T) n tot = (m <=? n)%N.
Proof.
  intros m n Hm Hn. unfold f64_less, SFltb. rewrite (half_cmp _ _ _ _ (share_half m Hm) (above_half n Hn)) by lia.
  destruct (N.leb_spec m n); destruct (Z.compare_spec (2 * Z.of_N m) (2 * Z.of_N n + 1)); auto; lia.
Qed.
Lemma share_greater : forall m n, (m <= tot)%N -> (n <= tot)%N -> f64_greater (f_ratio (Z.of_N m) T) n tot = (n <=? m)%N.
Proof.
  intros m n Hm Hn. unfold f64_greater, SFltb. rewrite (half_cmp _ _ _ _ (below_half n Hn) (share_half m Hm)) by lia.
  destruct (N.leb_spec n m); destruct (Z.compare_spec (2 * Z.of_N n - 1) (2 * Z.of_N m)); auto; lia.
Qed.
Lemma share_equal : forall m n, (m <= tot)%N -> (n <= tot)%N -> f64_equal (f_ratio (Z.of_N m) T) n tot = (n =? m)%N.
Proof.
  intros m n Hm Hn. unfold f64_equal, SFltb, SFleb. rewrite (half_cmp _ _ _ _ (below_half n Hn) (share_half m Hm)) by lia.
  rewrite (half_cmp _ _ _ _ (share_half m Hm) (above_half n Hn)) by lia.
  destruct (N.eqb_spec n m); destruct (Z.compare_spec (2 * Z.of_N n - 1) (2 * Z.of_N m)); destruct (Z.compare_spec (2 * Z.of_N m) (2 * Z.of_N n + 1)); auto; lia.
Qed.
End Share.
