(** How far the sum and the mean of doubles are from those of the numbers. *)
From Coq Require Import List NArith ZArith Bool Lia SpecFloat Reals Lra.
From Flocq Require Import IEEE754.BinarySingleNaN Core Relative Plus_error.
Import ListNotations.
From Verif Require Import Base StrModel FloatModel FloatValid FloatInt CompSpec NumProofs NumCache NumText ShareProofs DecSpec FracErr DecProofs SumSpec.
Open Scope R_scope.

Lemma sizes_pos : forall xs, 0 <= sizes xs.
Proof. induction xs as [|x xs IH]; cbn [sizes fold_right]; [lra|]. fold (sizes xs). pose proof (Rabs_pos x). lra. Qed.
Lemma u53_pos : 0 < u53 <= / 1000000.
Proof. unfold u53. lra. Qed.

(** Adding two doubles never underflows. *)
Lemma rnd_plus : forall x y r s, is_real x r -> is_real y s -> Rabs (rnd (r + s) - (r + s)) <= u53 * Rabs (r + s).
Proof.
  intros x y r s (a & _ & <- & _) (b & _ & <- & _).
  destruct (@FLT_plus_error_N_ex radix2 (-1074) 53 Hprec53 (fun z => negb (Z.even z)) (B2R a) (B2R b) (generic_format_B2R 53 1024 a) (generic_format_B2R 53 1024 b)) as (e & He & E).
  change (round radix2 (FLT_exp (-1074) 53) (Znearest (fun z => negb (Z.even z))) (B2R a + B2R b)) with (rnd (B2R a + B2R b)) in E. rewrite E.
  replace ((B2R a + B2R b) * (1 + e) - (B2R a + B2R b)) with (e * (B2R a + B2R b)) by ring. rewrite Rabs_mult. apply Rmult_le_compat_r; [apply Rabs_pos|].
  eapply Rle_trans; [exact He|]. unfold u_ro. assert (U : / 2 * bpow radix2 (- (53) + 1) = u53).
  { rewrite u53_bpow. change (- (53) + 1)%Z with (1 + -53)%Z. rewrite bpow_plus. change (bpow radix2 1) with 2. lra. }
  rewrite U. pose proof u53_pos. apply Rmult_le_reg_r with (1 + u53); [lra|]. unfold Rdiv. rewrite Rmult_assoc, Rinv_l by lra. nra.
Qed.

Lemma add_run : forall fs xs, Forall2 is_real fs xs -> forall x s, is_real x s -> (1 + u53) ^ length fs * (Rabs s + sizes xs) <= bpow radix2 1023 ->
  exists t, is_real (fold_left fadd fs x) t /\ Rabs (t - (s + total xs)) <= ((1 + u53) ^ length fs - 1) * (Rabs s + sizes xs).
Proof.
  intros fs xs H. pose proof u53_pos as U. induction H as [|f v fs xs Hf H IH]; intros x s Hx B; cbn [fold_left length pow sizes total fold_right] in *.
  - exists s. split; auto. replace (s - (s + 0)) with 0 by ring. rewrite Rabs_R0. lra.
  - fold (sizes xs) in *. fold (total xs) in *. set (g := (1 + u53) ^ length fs) in *. assert (G : 1 <= g) by (apply pow_R1_Rle; lra).
    pose proof (sizes_pos xs) as A. pose proof (Rabs_pos s). pose proof (Rabs_pos v). pose proof (Rabs_triang s v) as T. set (M := Rabs s + (Rabs v + sizes xs)) in *.
    assert (M0 : 0 <= M) by (unfold M; lra).
    assert (MB : M <= bpow radix2 1023). { eapply Rle_trans; [|exact B]. assert (1 <= (1 + u53) * g) by nra. nra. }
    pose proof (is_add x f s v Hx Hf ltac:(unfold M in MB; lra)) as R. pose proof (rnd_plus x f s v Hx Hf) as E.
    set (s' := rnd (s + v)) in *.
    assert (S' : Rabs s' <= (1 + u53) * (Rabs s + Rabs v)).
    { replace s' with ((s' - (s + v)) + (s + v)) by ring. eapply Rle_trans; [apply Rabs_triang|]. nra. }
    assert (M' : Rabs s' + sizes xs <= (1 + u53) * M) by (unfold M; nra).
    destruct (IH _ _ R) as (t & Ht & Et).
    + eapply Rle_trans; [|exact B]. replace ((1 + u53) * g * M) with (g * ((1 + u53) * M)) by ring. apply Rmult_le_compat_l; lra.
    + exists t. split; auto. replace (t - (s + (v + total xs))) with ((t - (s' + total xs)) + (s' - (s + v))) by ring. eapply Rle_trans; [apply Rabs_triang|].
      assert ((g - 1) * (Rabs s' + sizes xs) <= (g - 1) * ((1 + u53) * M)) by (apply Rmult_le_compat_l; lra).
      assert (u53 * Rabs (s + v) <= u53 * M) by (apply Rmult_le_compat_l; unfold M; lra). nra.
Qed.
Lemma grows : forall n, INR n <= 1099511627776 -> (1 + u53) ^ n <= 1 + 1001 / 1000 * INR n * u53.
Proof.
  induction n as [|n IH]; intros H; [cbn; lra|]. rewrite S_INR in *. cbn [pow]. pose proof (pos_INR n) as P. pose proof u53_pos as U. specialize (IH ltac:(lra)).
  assert (N : INR n * u53 <= / 8000). { unfold u53 in *. lra. }
  assert ((1 + u53) * (1 + u53) ^ n <= (1 + u53) * (1 + 1001 / 1000 * INR n * u53)) by (apply Rmult_le_compat_l; lra). nra.
Qed.
Lemma zero_real : is_real f_zero 0.
Proof. exists (B754_zero false). auto. Qed.
Lemma sum_near : forall fs xs, Forall2 is_real fs xs -> INR (length fs) <= 1099511627776 -> sizes xs <= bpow radix2 1000 ->
  exists t, is_real (fold_left fadd fs f_zero) t /\ Rabs (t - total xs) <= 1001 / 1000 * INR (length fs) * u53 * sizes xs.
Proof.
  intros fs xs H L B. pose proof (grows (length fs) L) as G. pose proof (sizes_pos xs) as A. pose proof u53_pos as U. pose proof (pos_INR (length fs)) as P.
  assert (G2 : (1 + u53) ^ length fs <= 2) by (unfold u53 in *; lra).
  destruct (add_run fs xs H f_zero 0 zero_real) as (t & R & E).
  - rewrite Rabs_R0, Rplus_0_l. apply Rle_trans with (2 * bpow radix2 1000); [apply Rmult_le_compat; try lra; apply pow_le; lra|].
    change 2 with (bpow radix2 1). rewrite <- bpow_plus. apply bpow_le. lia.
  - exists t. split; auto. rewrite Rabs_R0, !Rplus_0_l in E. eapply Rle_trans; [exact E|]. apply Rmult_le_compat_r; auto. lra.
Qed.
Lemma is_div : forall x y r s, is_real x r -> is_real y s -> s <> 0 -> Rabs (r / s) <= bpow radix2 1023 -> is_real (fdiv x y) (rnd (r / s)).
Proof.
  intros x y r s (a & -> & Va & Fa) (b & -> & Vb & Fb) N H. rewrite fdiv_equiv.
  pose proof (Bdiv_correct 53 1024 Hprec53 Hmax53 mode_NE a b ltac:(rewrite Vb; auto)) as C.
  rewrite Va, Vb in C. rewrite rnd_fits in C by auto. destruct C as (C1 & C2 & _).
  eexists. split; [reflexivity|]. rewrite Fa in C2. auto.
Qed.
Lemma mean_near : forall y t c n xs, is_real y t -> holds_int c (Z.of_nat n) -> (0 < n)%nat -> INR n <= 1099511627776 -> sizes xs <= bpow radix2 1000 ->
  Rabs (t - total xs) <= 1001 / 1000 * INR n * u53 * sizes xs -> Rabs (total xs) <= sizes xs ->
  exists m, is_real (fdiv y c) m /\ Rabs (m - total xs / INR n) <= 1001 / 1000 * (INR n + 1) * u53 * (sizes xs / INR n) + eta.
Proof.
  intros y t c n xs Y C N L B E TS. apply is_int in C. rewrite <- INR_IZR_INZ in C. pose proof u53_pos as U. pose proof (sizes_pos xs) as A.
  assert (N1 : 1 <= INR n) by (change 1 with (INR 1); apply le_INR; lia). set (k := INR n) in *. set (S := sizes xs) in *. set (T := total xs) in *.
  assert (KU : k * u53 <= / 8000) by (unfold u53; lra).
  assert (Tt : Rabs t <= 1001 / 1000 * S). { replace t with ((t - T) + T) by ring. eapply Rle_trans; [apply Rabs_triang|]. nra. }
  assert (D : forall x, Rabs (x / k) = Rabs x / k). { intros x. unfold Rdiv. rewrite Rabs_mult, (Rabs_pos_eq (/ k)); auto. apply Rlt_le, Rinv_0_lt_compat. lra. }
  assert (Q : Rabs (t / k) <= 1001 / 1000 * (S / k)). { rewrite D. unfold Rdiv. rewrite <- Rmult_assoc. apply Rmult_le_compat_r; [apply Rlt_le, Rinv_0_lt_compat; lra|]. exact Tt. }
  assert (SK : S / k <= S). { apply Rmult_le_reg_r with k; [lra|]. unfold Rdiv. rewrite Rmult_assoc, Rinv_l by lra. nra. }
  assert (SK0 : 0 <= S / k) by (apply Rmult_le_pos; auto; apply Rlt_le, Rinv_0_lt_compat; lra).
  exists (rnd (t / k)). split.
  - apply is_div; auto; [lra|]. eapply Rle_trans; [exact Q|]. apply Rle_trans with (2 * bpow radix2 1000); [lra|]. change 2 with (bpow radix2 1). rewrite <- bpow_plus. apply bpow_le. lia.
  - replace (rnd (t / k) - T / k) with ((rnd (t / k) - t / k) + (t - T) / k) by (field; lra). eapply Rle_trans; [apply Rabs_triang|]. rewrite D. pose proof (rnd_err (t / k)) as R.
    assert (X : Rabs (t - T) / k <= 1001 / 1000 * k * u53 * (S / k)).
    { unfold Rdiv at 1. replace (1001 / 1000 * k * u53 * (S / k)) with (1001 / 1000 * k * u53 * S * / k) by (unfold Rdiv; ring). apply Rmult_le_compat_r; [apply Rlt_le, Rinv_0_lt_compat; lra|exact E]. }
    assert (Z : u53 * Rabs (t / k) <= u53 * (1001 / 1000 * (S / k))) by (apply Rmult_le_compat_l; lra). lra.
Qed.
Lemma total_sizes : forall xs, Rabs (total xs) <= sizes xs.
Proof. induction xs as [|x xs IH]; cbn [total sizes fold_right]; [rewrite Rabs_R0; lra|]. fold (total xs) (sizes xs). eapply Rle_trans; [apply Rabs_triang|]. lra. Qed.

(** Values that are themselves only near the numbers. *)
Lemma near_values : forall C xs ds, 0 <= C -> Forall2 (fun x d => Rabs (x - d) <= C * Rabs d) xs ds ->
  Rabs (total xs - total ds) <= C * sizes ds /\ sizes xs <= (1 + C) * sizes ds.
Proof.
  intros C xs ds HC H. induction H as [|x d xs ds E H [IH1 IH2]]; cbn [total sizes fold_right]; [rewrite Rminus_0_r, Rabs_R0; lra|].
  fold (total xs) (total ds) (sizes xs) (sizes ds). split.
  - replace (x + total xs - (d + total ds)) with ((x - d) + (total xs - total ds)) by ring. eapply Rle_trans; [apply Rabs_triang|]. lra.
  - assert (Rabs x <= Rabs d + C * Rabs d). { replace x with ((x - d) + d) by ring. eapply Rle_trans; [apply Rabs_triang|]. lra. } lra.
Qed.
