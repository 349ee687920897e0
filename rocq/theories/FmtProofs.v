(** Proofs about printed numbers. *)
From Coq Require Import String List NArith ZArith Bool Arith Reals Lia Lra SpecFloat.
From Flocq Require Import Core BinarySingleNaN Relative.
Open Scope list_scope.
Import ListNotations.
From Verif Require Import Base TextModel StrSpec StrModel FloatModel FloatValid FloatInt ShareProofs FmtSpec FmtModel.
Open Scope Z_scope.

Definition finite (x : f64) : Prop := match x with S754_zero _ | S754_finite _ _ _ => True | _ => False end.
Lemma lift_finite x : valid64 x -> finite x -> exists b : binary_float 53 1024, x = B2SF b /\ B2R b = val x /\ is_finite b = true.
Proof.
  intros V Fx. destruct (lift_valid x V) as (b & ->). exists b. split; [reflexivity|]. split; [destruct b; reflexivity|]. destruct b; cbn in *; tauto.
Qed.
Lemma cmp_val x y : valid64 x -> finite x -> valid64 y -> finite y -> SFcompare x y = Some (Rcompare (val x) (val y)).
Proof.
  intros V1 F1 V2 F2. destruct (lift_finite x V1 F1) as (a & -> & A1 & A2). destruct (lift_finite y V2 F2) as (b & -> & B1 & B2).
  change (SFcompare (B2SF a) (B2SF b)) with (Bcompare a b). rewrite Bcompare_correct by auto. rewrite A1, B1. reflexivity.
Qed.
Lemma ltb_val x y : valid64 x -> finite x -> valid64 y -> finite y -> (f_ltb x y = true <-> (val x < val y)%R).
Proof.
  intros V1 F1 V2 F2. unfold f_ltb, SFltb. rewrite cmp_val by auto. destruct (Rcompare_spec (val x) (val y)); split; intros; try discriminate; try lra; auto.
Qed.
Lemma leb_val x y : valid64 x -> finite x -> valid64 y -> finite y -> (f_leb x y = true <-> (val x <= val y)%R).
Proof.
  intros V1 F1 V2 F2. unfold f_leb, SFleb. rewrite cmp_val by auto. destruct (Rcompare_spec (val x) (val y)); split; intros; try discriminate; try lra; auto.
Qed.

(** The quotient of numbers that are not close to the ends of the range. *)
Lemma div_val x y : valid64 x -> finite x -> valid64 y -> finite y -> (1 <= val y)%R -> (1 / 2 <= val x / val y)%R ->
  valid64 (fdiv x y) /\ finite (fdiv x y) /\ (Rabs (val (fdiv x y) - val x / val y) <= 1 / 1000000000 * (val x / val y))%R.
Proof.
  intros V1 F1 V2 F2 Hy Hq. destruct (lift_finite x V1 F1) as (a & -> & A1 & A2). destruct (lift_finite y V2 F2) as (b & -> & B1 & B2).
  rewrite <- A1, <- B1 in *. rewrite fdiv_equiv. pose proof (Bdiv_correct 53 1024 Hprec53 Hmax53 mode_NE a b ltac:(lra)) as C.
  assert (Ha : (0 < B2R a)%R). { apply Rnot_le_lt. intros H. assert (B2R a / B2R b <= 0)%R; [|lra]. apply Rmult_le_reg_r with (B2R b); [lra|]. unfold Rdiv. rewrite Rmult_assoc, Rinv_l by lra. lra. }
  assert (HA : (Rabs (rnd (B2R a / B2R b)) <= Rabs (B2R a))%R).
  { apply abs_round_le_generic; [apply fexp_correct; reflexivity|apply valid_rnd_round_mode|apply generic_format_abs, generic_format_B2R|].
    rewrite !Rabs_pos_eq by lra. apply Rmult_le_reg_r with (B2R b); [lra|]. unfold Rdiv. rewrite Rmult_assoc, Rinv_l by lra. nra. }
  rewrite Rlt_bool_true in C by (eapply Rle_lt_trans; [exact HA|apply abs_B2R_lt_emax]). destruct C as (C1 & C2 & _).
  rewrite A2 in C2. split; [|split].
  - apply valid_binary_B2SF.
  - destruct (Bdiv mode_NE a b); cbn in *; try discriminate; auto.
  - assert (VB : forall c : binary_float 53 1024, val (B2SF c) = B2R c) by (intros []; reflexivity). rewrite VB, C1.
    eapply Rle_trans; [apply (@error_le_half_ulp radix2 (SpecFloat.fexp 53 1024) (fexp_correct 53 1024 Hprec53))|].
    rewrite ulp_neq_0 by lra. unfold cexp.
    assert (M : (0 <= mag radix2 (B2R a / B2R b))%Z). { apply mag_ge_bpow. rewrite Rabs_pos_eq by lra. change (bpow radix2 (0 - 1)) with (/ 2)%R. lra. }
    replace (SpecFloat.fexp 53 1024 (mag radix2 (B2R a / B2R b))) with (mag radix2 (B2R a / B2R b) - 1 + (-52))%Z by (unfold SpecFloat.fexp, emin; lia).
    rewrite bpow_plus. pose proof (bpow_mag_le radix2 (B2R a / B2R b) ltac:(lra)) as B. rewrite Rabs_pos_eq in B by lra.
    assert (bpow radix2 (-52) <= 1 / 1000000000)%R by (change (bpow radix2 (-52)) with (/ IZR (2 ^ 52))%R; change (2 ^ 52) with 4503599627370496; lra).
    pose proof (bpow_gt_0 radix2 (-52)). nra.
Qed.

(** Bounds on doubles that are written down. *)
Definition at_least (x : f64) (n d : Z) : bool :=
  match x with S754_finite false m e => if (0 <=? e)%Z then n <=? d * (Zpos m * 2 ^ e) else n * 2 ^ (- e) <=? d * Zpos m | _ => false end.
Definition at_most (x : f64) (n d : Z) : bool :=
  match x with S754_finite false m e => if (0 <=? e)%Z then d * (Zpos m * 2 ^ e) <=? n else d * Zpos m <=? n * 2 ^ (- e) | _ => false end.
Lemma val_pos m e : 0 <= e -> val (S754_finite false m e) = IZR (Zpos m * 2 ^ e).
Proof. intros H. unfold val, SF2R, F2R. cbn [cond_Zopp Fnum Fexp]. rewrite mult_IZR. f_equal. rewrite <- IZR_Zpower by auto. reflexivity. Qed.
Lemma val_neg m e : e < 0 -> (val (S754_finite false m e) * IZR (2 ^ (- e)) = IZR (Zpos m))%R.
Proof.
  intros H. unfold val, SF2R, F2R. cbn [cond_Zopp Fnum Fexp]. change (2 ^ (- e)) with (radix_val radix2 ^ (- e)). rewrite IZR_Zpower by lia. rewrite Rmult_assoc, <- bpow_plus.
  replace (e + - e) with 0 by lia. cbn. lra.
Qed.
Lemma at_least_ok x n d : 0 < d -> at_least x n d = true -> (IZR n / IZR d <= val x)%R.
Proof.
  intros Hd H. assert (D : (0 < IZR d)%R) by (apply (IZR_lt 0); auto). unfold at_least in H. destruct x as [| | |[] m e]; try discriminate.
  apply Rmult_le_reg_r with (IZR d); [auto|]. unfold Rdiv. rewrite Rmult_assoc, Rinv_l by lra. rewrite Rmult_1_r. destruct (0 <=? e) eqn:E.
  - apply Z.leb_le in E, H. rewrite val_pos by auto. rewrite <- mult_IZR. apply IZR_le. lia.
  - apply Z.leb_gt in E. apply Z.leb_le in H. pose proof (val_neg m e E) as V. apply IZR_le in H. rewrite !mult_IZR in H. rewrite <- V in H.
    assert (P : (0 < IZR (2 ^ (- e)))%R) by (apply (IZR_lt 0); apply Z.pow_pos_nonneg; lia). nra.
Qed.
Lemma at_most_ok x n d : 0 < d -> at_most x n d = true -> (val x <= IZR n / IZR d)%R.
Proof.
  intros Hd H. assert (D : (0 < IZR d)%R) by (apply (IZR_lt 0); auto). unfold at_most in H. destruct x as [| | |[] m e]; try discriminate.
  apply Rmult_le_reg_r with (IZR d); [auto|]. unfold Rdiv. rewrite Rmult_assoc, Rinv_l by lra. rewrite Rmult_1_r. destruct (0 <=? e) eqn:E.
  - apply Z.leb_le in E, H. rewrite val_pos by auto. rewrite <- mult_IZR. apply IZR_le. lia.
  - apply Z.leb_gt in E. apply Z.leb_le in H. pose proof (val_neg m e E) as V. apply IZR_le in H. rewrite !mult_IZR in H. rewrite <- V in H.
    assert (P : (0 < IZR (2 ^ (- e)))%R) by (apply (IZR_lt 0); apply Z.pow_pos_nonneg; lia). nra.
Qed.
Lemma at_least_finite x n d : at_least x n d = true -> finite x.
Proof. destruct x; cbn; auto; discriminate. Qed.

(** ** Rounding to whole numbers *)
Lemma round_ok x : valid64 x -> finite x -> valid64 (f_round x) /\ finite (f_round x) /\ (Rabs (val (f_round x) - val x) <= 1 / 2)%R /\ (exists n, val (f_round x) = IZR n).
Proof.
  intros V Fx. destruct x as [s| | |s m e]; try contradiction.
  - cbn [f_round]. repeat split; auto. { rewrite Rminus_diag_eq by reflexivity. rewrite Rabs_R0. lra. } exists 0. reflexivity.
  - cbn [f_round]. destruct (0 <=? e) eqn:E.
    + apply Z.leb_le in E. repeat split; auto. { rewrite Rminus_diag_eq by reflexivity. rewrite Rabs_R0. lra. } exists (cond_Zopp s (Zpos m) * 2 ^ e).
      unfold val, SF2R, F2R. cbn [Fnum Fexp]. rewrite mult_IZR. f_equal. change (2 ^ e) with (radix_val radix2 ^ e). rewrite IZR_Zpower by auto. reflexivity.
    + apply Z.leb_gt in E. set (n := (2 * Zpos m + 2 ^ (- e)) / 2 ^ (1 - e)).
      assert (P : 0 < 2 ^ (- e)) by (apply Z.pow_pos_nonneg; lia).
      assert (P2 : 2 ^ (1 - e) = 2 * 2 ^ (- e)) by (replace (1 - e) with (Z.succ (- e)) by lia; rewrite Z.pow_succ_r by lia; reflexivity).
      assert (N0 : 2 ^ (1 - e) * n <= 2 * Zpos m + 2 ^ (- e) < 2 ^ (1 - e) * n + 2 ^ (1 - e)).
      { unfold n. pose proof (Z.div_mod (2 * Zpos m + 2 ^ (- e)) (2 ^ (1 - e)) ltac:(lia)). pose proof (Z.mod_pos_bound (2 * Zpos m + 2 ^ (- e)) (2 ^ (1 - e)) ltac:(lia)). lia. }
      rewrite P2 in N0.
      assert (VA : (val (S754_finite s m e) * IZR (2 ^ (- e)) = (if s then -1 else 1) * IZR (Zpos m))%R).
      { pose proof (val_neg m e E) as A. destruct s; [|rewrite A; lra]. replace (val (S754_finite true m e)) with (- val (S754_finite false m e))%R; [rewrite <- A; lra|].
        unfold val, SF2R. cbn [cond_Zopp]. rewrite <- F2R_Zopp. reflexivity. }
      assert (B : (Rabs ((if s then -1 else 1) * IZR n - val (S754_finite s m e)) <= 1 / 2)%R).
      { assert (Q : (0 < IZR (2 ^ (- e)))%R) by (apply (IZR_lt 0); auto). set (q := IZR (2 ^ (- e))) in *.
        assert (I1 : (2 * q * IZR n <= 2 * IZR (Zpos m) + q)%R). { unfold q. rewrite <- !mult_IZR, <- plus_IZR. apply IZR_le. lia. }
        assert (I2 : (2 * IZR (Zpos m) + q < 2 * q * IZR n + 2 * q)%R). { unfold q. rewrite <- !mult_IZR, <- !plus_IZR. apply IZR_lt. lia. }
        apply Rabs_le. destruct s; split; apply Rmult_le_reg_r with q; auto; rewrite Rmult_minus_distr_r, VA; lra. }
      assert (SM : small n).
      { assert (Hm : Zpos m < 2 ^ 53). { apply andb_prop in V as (V & _). unfold canonical_mantissa in V. apply Zeq_bool_eq in V. unfold SpecFloat.fexp, emin in V.
          rewrite Digits.Zpos_digits2_pos in V. pose proof (Digits.Zdigits_correct radix2 (Zpos m)) as (_ & D2). rewrite Z.abs_eq in D2 by lia.
          eapply Z.lt_le_trans; [exact D2|]. change (Z.pow radix2) with (Z.pow 2). apply Z.pow_le_mono_r; lia. }
        unfold small. assert (0 <= n) by (unfold n; apply Z.div_pos; lia). rewrite Z.abs_eq by auto. nia. }
      destruct (n =? 0) eqn:N1.
      * apply Z.eqb_eq in N1. split; [reflexivity|]. split; [exact I|]. split; [|exists 0; reflexivity]. rewrite N1, Rmult_0_r in B. exact B.
      * assert (HZ : small (if s then - n else n)) by (destruct s; unfold small in *; lia). destruct (holds_of_Z _ HZ) as (b & B1 & B2 & B3).
        rewrite B1. split; [apply valid_binary_B2SF|]. split; [destruct b; cbn in *; auto; discriminate|].
        replace (val (B2SF b)) with (B2R b) by (destruct b; reflexivity). rewrite B2. split; [|eauto].
        replace (IZR (if s then - n else n)) with ((if s then -1 else 1) * IZR n)%R; [exact B|]. destruct s; rewrite ?opp_IZR; lra.
Qed.

(** ** The units *)
Definition base_of (two : bool) : f64 := f_of_Z (if two then 1024 else 1000).  (* exp of /repo/src/num.rs:217-221 *)
Fixpoint curr_of (two : bool) (k : nat) : f64 := match k with O => f_one | S j => fmul (curr_of two j) (base_of two) end.  (* curr_exp after k turns, /repo/src/num.rs:223 and 248 *)
Definition size_of (two : bool) (k : nat) : Z := (if two then 1024 else 1000) ^ Z.of_nat k.
Definition near_size (two : bool) (k : nat) : bool :=
  SpecFloat.valid_binary 53 1024 (curr_of two k) &&
  at_least (curr_of two k) (size_of two k * 999999999) 1000000000 && at_most (curr_of two k) (size_of two k * 1000000001) 1000000000.
Definition good_bounds (two : bool) (k : nat) : bool :=
  let c := curr_of two k in
  SpecFloat.valid_binary 53 1024 (fmul (f_of_Z 999) c) && SpecFloat.valid_binary 53 1024 (fmul (f_of_Z 10) c) && SpecFloat.valid_binary 53 1024 (fmul (f_ratio 11 10) c) &&
  at_least (fmul (f_of_Z 999) c) (size_of two (S k) * 97) 100 &&
  at_least (fmul (f_of_Z 10) c) (size_of two k * 999) 100 &&
  at_least (fmul (f_ratio 11 10) c) (size_of two k * 109) 100 && at_most (fmul (f_ratio 11 10) c) (size_of two k * 1101) 1000.
Lemma sizes_checked : forallb (fun two => forallb (near_size two) (seq 0 9)) [true; false] = true.
Proof. vm_compute. reflexivity. Qed.
Lemma bounds_checked : forallb (fun two => forallb (good_bounds two) (seq 0 8)) [true; false] = true.
Proof. vm_compute. reflexivity. Qed.
Lemma size_pos two k : 0 < size_of two k.
Proof. unfold size_of. apply Z.pow_pos_nonneg; destruct two; lia. Qed.
Lemma curr_near two k : (k <= 8)%nat -> valid64 (curr_of two k) /\ finite (curr_of two k) /\
  (Rabs (val (curr_of two k) - IZR (size_of two k)) <= 1 / 1000000000 * IZR (size_of two k))%R.
Proof.
  intros H. pose proof sizes_checked as C. rewrite forallb_forall in C. specialize (C two ltac:(destruct two; cbn; auto)). rewrite forallb_forall in C.
  specialize (C k ltac:(apply in_seq; lia)). unfold near_size in C. apply andb_prop in C as (C & C3). apply andb_prop in C as (C1 & C2).
  split; [exact C1|]. split; [eapply at_least_finite; exact C2|]. apply at_least_ok in C2; [|lia]. apply at_most_ok in C3; [|lia].
  rewrite mult_IZR in C2, C3. apply Rabs_le. split; lra.
Qed.
Lemma curr_bounds two k : (k <= 7)%nat -> let c := curr_of two k in
  (valid64 (fmul (f_of_Z 999) c) /\ finite (fmul (f_of_Z 999) c) /\ (97 / 100 * IZR (size_of two (S k)) <= val (fmul (f_of_Z 999) c))%R) /\
  (valid64 (fmul (f_of_Z 10) c) /\ finite (fmul (f_of_Z 10) c) /\ (999 / 100 * IZR (size_of two k) <= val (fmul (f_of_Z 10) c))%R) /\
  (valid64 (fmul (f_ratio 11 10) c) /\ finite (fmul (f_ratio 11 10) c) /\ (109 / 100 * IZR (size_of two k) <= val (fmul (f_ratio 11 10) c) <= 1101 / 1000 * IZR (size_of two k))%R).
Proof.
  intros H c. pose proof bounds_checked as C. rewrite forallb_forall in C. specialize (C two ltac:(destruct two; cbn; auto)). rewrite forallb_forall in C.
  specialize (C k ltac:(apply in_seq; lia)). unfold good_bounds in C. fold c in C. do 6 (apply andb_prop in C; let K := fresh in destruct C as (C & K)).
  repeat split; try assumption; try (eapply at_least_finite; eassumption);
  repeat match goal with K : at_least _ _ _ = true |- _ => apply at_least_ok in K; [|lia]; rewrite mult_IZR in K | K : at_most _ _ _ = true |- _ => apply at_most_ok in K; [|lia]; rewrite mult_IZR in K end; lra.
Qed.

Lemma quotient_near x c u : (0 < u)%R -> (0 < x)%R -> (Rabs (c - u) <= 1 / 1000000000 * u)%R ->
  (Rabs (x / c - x / u) <= 2 / 1000000000 * (x / u))%R.
Proof.
  intros U X A. apply Rabs_le_inv in A. assert (C : (0 < c)%R) by lra.
  replace (x / c - x / u)%R with (x / u * ((u - c) / c))%R by (field; lra). rewrite Rabs_mult. rewrite (Rabs_pos_eq (x / u)) by (apply Rlt_le, Rdiv_lt_0_compat; auto).
  rewrite Rmult_comm. apply Rmult_le_compat_r; [apply Rlt_le, Rdiv_lt_0_compat; auto|].
  apply Rabs_le. split; apply Rmult_le_reg_r with c; auto; unfold Rdiv; rewrite ?Rmult_assoc, Rinv_l, ?Rmult_1_r by lra; nra.
Qed.

(** Dividing by a unit: close to the true quotient. *)
Lemma unit_quotient num two k : valid64 num -> finite num -> (k <= 8)%nat -> (9 / 10 * IZR (size_of two k) <= val num)%R ->
  valid64 (fdiv num (curr_of two k)) /\ finite (fdiv num (curr_of two k)) /\ (0 <= val (fdiv num (curr_of two k)))%R /\
  (Rabs (val (fdiv num (curr_of two k)) - val num / IZR (size_of two k)) <= 4 / 1000000000 * (val num / IZR (size_of two k)))%R.
Proof.
  intros V Fn K B. destruct (curr_near two k K) as (C1 & C2 & C3). assert (U : (1 <= IZR (size_of two k))%R) by (apply (IZR_le 1); pose proof (size_pos two k) as SP; lia).
  set (u := IZR (size_of two k)) in *. pose proof (quotient_near (val num) (val (curr_of two k)) u ltac:(lra) ltac:(lra) C3) as Q.
  assert (Y : (9 / 10 <= val num / u)%R). { apply Rmult_le_reg_r with u; [lra|]. unfold Rdiv at 2. rewrite Rmult_assoc, Rinv_l by lra. lra. }
  set (y := (val num / u)%R) in *. pose proof (Rabs_le_inv _ _ C3) as C4. pose proof (Rabs_le_inv _ _ Q) as Q2.
  assert (CB : (1 / 2 <= val num / val (curr_of two k))%R) by lra.
  destruct (Z.eq_dec (size_of two k) 1) as [E1|E1].
  - assert (K0 : k = 0%nat). { destruct k; auto. unfold size_of in E1. assert (1 < (if two then 1024 else 1000) ^ Z.of_nat (S k)) by (apply Z.pow_gt_1; destruct two; lia). lia. }
    subst k. assert (CU : (1 / 1 <= val (curr_of two 0))%R) by (apply at_least_ok; [lia|vm_compute; reflexivity]).
    destruct (div_val num _ V Fn C1 C2 ltac:(lra) CB) as (D1 & D2 & D3). repeat split; auto; set (q := val (fdiv num (curr_of two 0))) in *.
    + apply Rabs_le_inv in D3. lra.
    + apply Rabs_le_inv in D3. apply Rabs_le. lra.
  - assert (U2 : (2 <= u)%R) by (apply (IZR_le 2); pose proof (size_pos two k); lia).
    destruct (div_val num _ V Fn C1 C2 ltac:(lra) CB) as (D1 & D2 & D3). repeat split; auto; set (q := val (fdiv num (curr_of two k))) in *; apply Rabs_le_inv in D3.
    + lra.
    + apply Rabs_le. lra.
Qed.
Lemma letter_of (two : bool) k : (1 <= k <= 8)%nat -> nth k (if two then P2_LETTERS else P10_LETTERS) 0%N = nth (k - 1) (unit_letters two) 0%N.
Proof. intros H. do 9 (destruct k as [|k]; [destruct two; reflexivity || lia|]). lia. Qed.

Section Loop.
Variable disp_p : N -> f64 -> bytes.
(** The standard library prints a decimal number nearest to the double. *)
Hypothesis shows : forall q, valid64 q -> finite q -> (0 <= val q)%R -> nearest false (disp_p 0 q) (val q) /\ nearest true (disp_p 1 q) (val q).
Variables (two : bool) (num : f64).
Hypothesis Vn : valid64 num.
Hypothesis Fn : finite num.
Definition says (t : bytes) : Prop :=
  exists tenths n k, (k < 8)%nat /\ t = decimal tenths n ++ [nth k (unit_letters two) 0%N] /\
    (Rabs (decimal_val tenths n * IZR (unit_size two k) - val num) <= 925 / 10000 * val num)%R.
Lemma close_enough (u d q y e : R) : (0 < u)%R -> (Rabs (d - q) <= e)%R -> (Rabs (q - y) <= 4 / 1000000000 * y)%R -> (e <= 92 / 1000 * y)%R -> (0 < y)%R ->
  (Rabs (d * u - y * u) <= 925 / 10000 * (y * u))%R.
Proof.
  intros U A B C Y. apply Rabs_le_inv in A, B. replace (d * u - y * u)%R with ((d - y) * u)%R by ring. rewrite Rabs_mult, (Rabs_pos_eq u) by lra. rewrite <- Rmult_assoc.
  apply Rmult_le_compat_r; [lra|]. apply Rabs_le. lra.
Qed.
Lemma loop_ok : forall fuel k, (1 <= k)%nat -> (k + fuel = 7)%nat -> (97 / 100 * IZR (size_of two k) <= val num)%R ->
  says (power_loop disp_p fuel k num (curr_of two k) (base_of two) (if two then P2_LETTERS else P10_LETTERS)).
Proof.
  assert (US : forall k, (1 <= k)%nat -> unit_size two (k - 1) = size_of two k). { intros k H. unfold unit_size, size_of. do 2 f_equal. lia. }
  assert (One : forall k, (1 <= k <= 7)%nat -> (97 / 100 * IZR (size_of two k) <= val num)%R -> f_ltb num (fmul (f_of_Z 999) (curr_of two k)) = true ->
    says ((if f_leb (fmul (f_of_Z 10) (curr_of two k)) num then disp_p 0 (fdiv num (curr_of two k))
      else if f_leb (fmul (f_ratio 11 10) (curr_of two k)) num then disp_p 1 (fdiv num (curr_of two k)) else bs "1") ++ [nth k (if two then P2_LETTERS else P10_LETTERS) 0%N])).
  { intros k K B _. destruct (curr_bounds two k) as (_ & (A1 & A2 & A3) & (B1 & B2 & B3)); [lia|]. rewrite letter_of by lia.
    destruct (unit_quotient num two k Vn Fn ltac:(lia)) as (Q1 & Q2 & Q3 & Q4). { pose proof (IZR_lt _ _ (size_pos two k)). lra. }
    destruct (shows _ Q1 Q2 Q3) as ((n0 & E0 & N0) & (n1 & E1 & N1)).
    pose proof (IZR_lt _ _ (size_pos two k)) as U. set (u := IZR (size_of two k)) in *.
    assert (YU : (val num / u * u = val num)%R) by (field; lra). set (y := (val num / u)%R) in *.
    assert (GE : forall r, (r * u <= val num -> r <= y)%R). { intros r H. apply Rmult_le_reg_r with u; lra. }
    destruct (f_leb (fmul (f_of_Z 10) (curr_of two k)) num) eqn:L1; [|destruct (f_leb (fmul (f_ratio 11 10) (curr_of two k)) num) eqn:L2].
    - apply leb_val in L1; auto. exists false, n0, (k - 1)%nat. split; [lia|]. split; [rewrite E0; reflexivity|]. rewrite US by lia. fold u. rewrite <- YU.
      assert (999 / 100 <= y)%R by (apply GE; lra). eapply close_enough; try eassumption; cbn [decimal_val] in *; lra.
    - apply leb_val in L2; auto. exists true, n1, (k - 1)%nat. split; [lia|]. split; [rewrite E1; reflexivity|]. rewrite US by lia. fold u. rewrite <- YU.
      assert (109 / 100 <= y)%R by (apply GE; lra). eapply close_enough; try eassumption; cbn [decimal_val] in *; lra.
    - assert (L3 : (val num < 1101 / 1000 * u)%R). { destruct (Rlt_le_dec (val num) (1101 / 1000 * u)) as [|W]; auto. assert (f_leb (fmul (f_ratio 11 10) (curr_of two k)) num = true) by (apply leb_val; auto; lra). congruence. }
      exists false, 1%N, (k - 1)%nat. split; [lia|]. split; [reflexivity|]. rewrite US by lia. fold u. cbn [decimal_val Z.of_N]. apply Rabs_le. lra. }
  assert (Up : forall k, (1 <= k <= 7)%nat -> f_ltb num (fmul (f_of_Z 999) (curr_of two k)) = false -> (97 / 100 * IZR (size_of two (S k)) <= val num)%R).
  { intros k K L. destruct (curr_bounds two k) as ((A1 & A2 & A3) & _); [lia|]. destruct (Rle_lt_dec (97 / 100 * IZR (size_of two (S k))) (val num)) as [|W]; auto.
    assert (f_ltb num (fmul (f_of_Z 999) (curr_of two k)) = true) by (apply ltb_val; auto; lra). congruence. }
  induction fuel as [|fuel IH]; intros k K1 K2 B; cbn [power_loop]; destruct (f_ltb num (fmul (f_of_Z 999) (curr_of two k))) eqn:L.
  - apply One; auto; lia.
  - assert (K8 : k = 7%nat) by lia. subst k. pose proof (Up 7%nat ltac:(lia) L) as B8. change (fmul (curr_of two 7) (base_of two)) with (curr_of two 8).
    pose proof (IZR_lt _ _ (size_pos two 8)) as U. destruct (unit_quotient num two 8 Vn Fn ltac:(lia) ltac:(lra)) as (Q1 & Q2 & Q3 & Q4).
    destruct (shows _ Q1 Q2 Q3) as (_ & (n1 & E1 & N1)). rewrite letter_of by lia. exists true, n1, 7%nat. split; [lia|]. split; [rewrite E1; reflexivity|].
    pose proof (US 8%nat ltac:(lia)) as U8; change (8 - 1)%nat with 7%nat in U8; rewrite U8. set (u := IZR (size_of two 8)) in *. assert (YU : (val num / u * u = val num)%R) by (field; lra).
    assert (97 / 100 <= val num / u)%R by (apply Rmult_le_reg_r with u; lra). rewrite <- YU. eapply close_enough; try eassumption; cbn [decimal_val] in *; lra.
  - apply One; auto; lia.
  - change (fmul (curr_of two k) (base_of two)) with (curr_of two (S k)). apply IH; try lia. apply Up; auto. lia.
Qed.
Lemma power_ok : (1000 <= val num)%R -> says (power_loop disp_p 7 0 num f_one (base_of two) (if two then P2_LETTERS else P10_LETTERS)).
Proof.
  intros B. assert (L : f_ltb num (fmul (f_of_Z 999) f_one) = false).
  { destruct (f_ltb num (fmul (f_of_Z 999) f_one)) eqn:L; auto. exfalso. apply ltb_val in L; [|exact Vn|exact Fn|vm_compute; reflexivity|vm_compute; exact I]. assert (E : (val (fmul (f_of_Z 999) f_one) <= 999 / 1)%R) by (apply at_most_ok; [lia|vm_compute; reflexivity]). lra. }
  assert (E : power_loop disp_p 7 0 num f_one (base_of two) (if two then P2_LETTERS else P10_LETTERS) = power_loop disp_p 6 1 num (curr_of two 1) (base_of two) (if two then P2_LETTERS else P10_LETTERS)).
  { change 7%nat with (S 6). generalize 6%nat. intros f. cbn [power_loop]. rewrite L. reflexivity. }
  rewrite E. apply loop_ok; try lia.
    assert (IZR (size_of two 1) <= 1024)%R by (apply IZR_le; destruct two; cbn; lia). lra.
Qed.
End Loop.

(** ** The power formats *)
Lemma val_fneg x : val (fneg x) = (- val x)%R.
Proof.
  destruct x as [| | |s m e]; unfold val, fneg; cbn [SFopp SF2R]; try lra. rewrite <- F2R_Zopp. unfold F2R. cbn [Fnum Fexp]. destruct s; reflexivity.
Qed.
Lemma val_fabs x : val (f_abs x) = Rabs (val x).
Proof.
  destruct x as [| | |s m e]; unfold val, f_abs; cbn [SFabs SF2R]; try (rewrite Rabs_R0; reflexivity). unfold F2R. cbn [Fnum Fexp]. rewrite Rabs_mult, (Rabs_pos_eq (bpow radix2 e)) by apply bpow_ge_0. f_equal.
  rewrite <- abs_IZR. destruct s; reflexivity.
Qed.
Lemma fneg_fin x : finite x -> valid64 x -> finite (fneg x) /\ valid64 (fneg x).
Proof. destruct x; cbn; tauto. Qed.
Lemma fabs_fin x : finite x -> valid64 x -> finite (f_abs x) /\ valid64 (f_abs x).
Proof. destruct x; cbn; tauto. Qed.

Section Power.
Variable disp : f64 -> bytes.
Variable disp_p : N -> f64 -> bytes.
Hypothesis shows : forall q, valid64 q -> finite q -> (0 <= val q)%R -> nearest false (disp_p 0 q) (val q) /\ nearest true (disp_p 1 q) (val q).
Lemma small_printed two x : valid64 x -> finite x -> (Rabs (val (f_round x)) < 1000)%R -> print_power disp disp_p two x = disp (f_round x).
Proof.
  intros V Fx H. destruct (round_ok x V Fx) as (R1 & R2 & _). unfold print_power. destruct (fabs_fin _ R2 R1) as (A1 & A2).
  assert (L : f_ltb (f_abs (f_round x)) (f_of_Z 1000) = true).
  { apply (proj2 (ltb_val (f_abs (f_round x)) (f_of_Z 1000) A2 A1 ltac:(vm_compute; reflexivity) ltac:(vm_compute; exact I))). rewrite val_fabs. eapply Rlt_le_trans; [exact H|].
    assert (1000 / 1 <= val (f_of_Z 1000))%R by (apply at_least_ok; [lia|vm_compute; reflexivity]). lra. }
  rewrite L. reflexivity.
Qed.
Lemma power_printed two x : valid64 x -> finite x -> (1000 <= Rabs (val (f_round x)))%R ->
  exists r, reads two (print_power disp disp_p two x) r /\ (Rabs (r - val x) <= Rabs (val x) / 10)%R.
Proof.
  intros V Fx H. destruct (round_ok x V Fx) as (R1 & R2 & R3 & _). set (num := f_round x) in *. unfold print_power. fold num. destruct (fabs_fin _ R2 R1) as (A1 & A2).
  assert (L : f_ltb (f_abs num) (f_of_Z 1000) = false).
  { destruct (f_ltb (f_abs num) (f_of_Z 1000)) eqn:E; auto. apply ltb_val in E; [|exact A2|exact A1|vm_compute; reflexivity|vm_compute; exact I]. rewrite val_fabs in E.
    assert (val (f_of_Z 1000) <= 1000 / 1)%R by (apply at_most_ok; [lia|vm_compute; reflexivity]). lra. }
  rewrite L. replace (match num with S754_nan | S754_infinity _ => true | _ => false end) with false by (destruct num; cbn in R2; tauto). cbn [orb].
  set (neg := f_ltb num f_zero). assert (Z0 : val f_zero = 0%R) by reflexivity.
  assert (NEG : neg = true <-> (val num < 0)%R). { unfold neg. rewrite (ltb_val num f_zero R1 R2 ltac:(reflexivity) ltac:(exact I)). rewrite Z0. reflexivity. }
  set (n2 := if neg then fneg num else num).
  assert (N2 : valid64 n2 /\ finite n2 /\ val n2 = Rabs (val num)).
  { unfold n2. destruct neg eqn:En. { destruct (fneg_fin num R2 R1). repeat split; auto. rewrite val_fneg. rewrite Rabs_left by tauto. reflexivity. }
    repeat split; auto. rewrite Rabs_pos_eq; auto. apply Rnot_lt_le. intros K. apply NEG in K. discriminate. }
  destruct N2 as (N2 & N3 & N4).
  destruct (power_ok disp_p shows two n2 N2 N3 ltac:(rewrite N4; exact H)) as (tenths & n & k & K & E & B).
  exists ((if neg then -1 else 1) * decimal_val tenths n * IZR (unit_size two k))%R. split.
  - exists neg, tenths, n, k. split; auto. split; [|reflexivity]. f_equal. exact E.
  - rewrite N4 in B. set (d := (decimal_val tenths n * IZR (unit_size two k))%R) in *.
    replace ((if neg then -1 else 1) * decimal_val tenths n * IZR (unit_size two k))%R with ((if neg then -1 else 1) * d)%R by (unfold d; ring).
    assert (SN : val num = ((if neg then -1 else 1) * Rabs (val num))%R).
    { destruct neg eqn:En. { rewrite Rabs_left by tauto. ring. } rewrite Rabs_pos_eq; [ring|]. apply Rnot_lt_le. intros W. apply NEG in W. discriminate. }
    apply Rabs_le_inv in B, R3. set (a := Rabs (val num)) in *. rewrite SN in R3.
    destruct neg; apply Rabs_le; unfold Rabs at 1 2; destruct (Rcase_abs (val x)); lra.
Qed.
End Power.
