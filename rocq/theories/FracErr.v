(** How far a decimal text is from the double it is read as. *)
From Coq Require Import List NArith ZArith Bool Lia SpecFloat Reals Lra.
From Flocq Require Import IEEE754.BinarySingleNaN Core Relative.
Import ListNotations.
From Verif Require Import Base StrModel FloatModel FloatValid FloatInt CompSpec NumProofs NumCache NumText DecSpec ShareProofs.
Open Scope R_scope.

Definition u53 : R := / 9007199254740992.
Definition eta : R := bpow radix2 (-1075).

Lemma u53_bpow : u53 = bpow radix2 (-53).
Proof. unfold u53. cbn. lra. Qed.

Lemma eta_pos : 0 < eta. Proof. apply bpow_gt_0. Qed.
Lemma eta_one : eta <= 1.
Proof. unfold eta. change 1 with (bpow radix2 0). apply bpow_le. lia. Qed.

Lemma rnd_small : forall x, Rabs x < bpow radix2 (-1022) -> Rabs (rnd x - x) <= eta.
Proof.
  intros x H. eapply Rle_trans; [apply error_le_half_ulp; apply fexp_correct; reflexivity|].
  assert (U : ulp radix2 (SpecFloat.fexp 53 1024) x <= ulp radix2 (SpecFloat.fexp 53 1024) (bpow radix2 (-1022))).
  { apply ulp_le; [apply fexp_correct; reflexivity|apply fexp_monotone|]. rewrite (Rabs_pos_eq (bpow radix2 (-1022))) by apply bpow_ge_0. lra. }
  rewrite ulp_bpow in U. change (SpecFloat.fexp 53 1024 (-1022 + 1)) with (-1074)%Z in U.
  assert (B : bpow radix2 (-1074) = 2 * eta) by (unfold eta; change (-1074)%Z with (1 + -1075)%Z; rewrite bpow_plus; reflexivity). lra.
Qed.

Lemma rnd_normal : forall x, bpow radix2 (-1022) <= Rabs x -> Rabs (rnd x - x) <= u53 * Rabs x.
Proof.
  intros x H. pose proof (relative_error_N_FLT radix2 (-1074) 53 ltac:(reflexivity) (fun z => negb (Z.even z)) x) as E.
  replace (u53) with (/ 2 * bpow radix2 (-53 + 1)).
  - apply E. change (-1074 + 53 - 1)%Z with (-1022)%Z. auto.
  - rewrite u53_bpow. change (-53 + 1)%Z with (1 + -53)%Z. rewrite bpow_plus. change (bpow radix2 1) with 2. lra.
Qed.

Lemma rnd_err : forall x, Rabs (rnd x - x) <= u53 * Rabs x + eta.
Proof.
  intros x. pose proof eta_pos. pose proof (Rabs_pos x). destruct (Rlt_or_le (Rabs x) (bpow radix2 (-1022))) as [H1|H1].
  - pose proof (rnd_small x H1). assert (0 <= u53 * Rabs x) by (apply Rmult_le_pos; auto; unfold u53; lra). lra.
  - pose proof (rnd_normal x H1). lra.
Qed.

Lemma rnd_zero : rnd 0 = 0.
Proof. apply round_0, valid_rnd_round_mode. Qed.

Lemma rnd_fits : forall r, Rabs r <= bpow radix2 1023 -> Rlt_bool (Rabs (rnd r)) (bpow radix2 1024) = true.
Proof.
  intros r H. apply Rlt_bool_true. apply Rle_lt_trans with (bpow radix2 1023); [|apply bpow_lt; lia].
  apply abs_round_le_generic; [apply fexp_correct; reflexivity|apply valid_rnd_round_mode| |auto].
  apply generic_format_bpow. unfold SpecFloat.fexp, emin. lia.
Qed.

Lemma is_add : forall x y r s, is_real x r -> is_real y s -> Rabs (r + s) <= bpow radix2 1023 -> is_real (fadd x y) (rnd (r + s)).
Proof.
  intros x y r s (a & -> & Va & Fa) (b & -> & Vb & Fb) H. rewrite fadd_equiv.
  pose proof (Bplus_correct 53 1024 Hprec53 Hmax53 mode_NE a b Fa Fb) as C.
  rewrite Va, Vb in C. rewrite rnd_fits in C by auto. destruct C as (C1 & C2 & _). eexists. split; [reflexivity|]. auto.
Qed.

Lemma is_mul : forall x y r s, is_real x r -> is_real y s -> Rabs (r * s) <= bpow radix2 1023 -> is_real (fmul x y) (rnd (r * s)).
Proof.
  intros x y r s (a & -> & Va & Fa) (b & -> & Vb & Fb) H. rewrite fmul_equiv.
  pose proof (Bmult_correct 53 1024 Hprec53 Hmax53 mode_NE a b) as C.
  rewrite Va, Vb in C. rewrite rnd_fits in C by auto. destruct C as (C1 & C2 & _).
  eexists. split; [reflexivity|]. rewrite Fa, Fb in C2. auto.
Qed.

Lemma is_int : forall x n, holds_int x n -> is_real x (IZR n).
Proof. intros x n H. exact H. Qed.

Lemma digit_real : forall c, digit_byte c -> is_real (f_of_Z (Z.of_N c - 48)) (IZR (Z.of_N c - 48)) /\ (0 <= Z.of_N c - 48 <= 9)%Z.
Proof. intros c H. unfold digit_byte in H. split; [|lia]. apply is_int, holds_of_Z. unfold small. lia. Qed.

Definition tenth : R := rnd (1 / 10).

Lemma tenth_is : is_real (f_ratio 1 10) tenth.
Proof.
  assert (A : holds_int (f_of_Z 1) 1) by (apply holds_of_Z; reflexivity).
  assert (B : holds_int (f_of_Z 10) 10) by (apply holds_of_Z; reflexivity).
  destruct (div_real (f_of_Z 1) (f_of_Z 10) 1 10 A B) as (b & E & V & Fb); [lia| |].
  - rewrite Rabs_pos_eq; lra.
  - exists b. auto.
Qed.

Lemma big_one : 1048576 * 1048576 * 1048576 <= bpow radix2 1023.
Proof. replace (1048576 * 1048576 * 1048576) with (bpow radix2 60) by (cbn; lra). apply bpow_le. lia. Qed.

Lemma tenth_near : Rabs (tenth - 1 / 10) <= u53 * (1 / 10).
Proof.
  unfold tenth. pose proof (rnd_normal (1 / 10)) as H. rewrite (Rabs_pos_eq (1 / 10)) in H by lra. apply H.
  apply Rle_trans with (bpow radix2 (-4)); [apply bpow_le; lia|]. cbn. lra.
Qed.

Lemma ab : forall x e, Rabs x <= e -> - e <= x <= e.
Proof. intros x e H. apply Rabs_le_inv. auto. Qed.
Lemma ba : forall x e, - e <= x <= e -> Rabs x <= e.
Proof. intros x e H. apply Rabs_le. lra. Qed.

(** What the loop over the fraction does to the real values. *)
Fixpoint frun (fs : bytes) (r q : R) : R :=
  match fs with [] => r | c :: l => frun l (rnd (r + rnd (q * IZR (Z.of_N c - 48)))) (rnd (q * tenth)) end.

(** The fraction digits as a number: [p] is the worth of the first place. *)
Fixpoint fsum (fs : bytes) (p : R) : R :=
  match fs with [] => 0 | c :: l => IZR (Z.of_N c - 48) * p + fsum l (p / 10) end.

Section Step.
Variables a n p q S r d M : R.
Hypothesis A0 : 0 <= a <= 1048576.
Hypothesis N0 : 1 <= n <= 1099511627776.
Hypothesis P0 : 0 < p.
Hypothesis S0 : 0 <= S.
Hypothesis D0 : 0 <= d <= 9.
Hypothesis Hq : Rabs (q - p) <= 5 / 2 * n * u53 * p + 2 * eta.
Hypothesis Hr : Rabs (r - S) <= (5 / 2 * n + 3 / 2 + a) * u53 * S + 42 * (n - 1) * eta.

Lemma step_place : Rabs (rnd (q * tenth) - p / 10) <= 5 / 2 * (n + 1) * u53 * (p / 10) + 2 * eta.
Proof.
  pose proof eta_pos as E0. pose proof (ab _ _ tenth_near) as T. pose proof (ab _ _ Hq) as Q.
  set (w := n * p). assert (W : p <= w <= 1099511627776 * p) by (unfold w; nra).
  replace (5 / 2 * n * u53 * p) with (5 / 2 * u53 * w) in Q by (unfold w; ring).
  replace (5 / 2 * (n + 1) * u53 * (p / 10)) with (1 / 4 * u53 * w + 1 / 4 * u53 * p) by (unfold w; field).
  pose proof (rnd_err (q * tenth)) as R. unfold u53 in *.
  assert (Y : Rabs (q * tenth - p / 10) <= (1 / 10 + / 9007199254740992 * (1 / 10)) * Rabs (q - p) + p * (/ 9007199254740992 * (1 / 10))).
  { replace (q * tenth - p / 10) with ((q - p) * tenth + p * (tenth - 1 / 10)) by field.
    eapply Rle_trans; [apply Rabs_triang|]. rewrite !Rabs_mult, (Rabs_pos_eq p) by lra. apply Rplus_le_compat.
    - rewrite Rmult_comm. apply Rmult_le_compat_r; [apply Rabs_pos|]. apply ba. lra.
    - apply Rmult_le_compat_l; [lra|]. apply tenth_near. }
  assert (Q' : Rabs (q - p) <= 5 / 2 * / 9007199254740992 * w + 2 * eta) by (apply ba; lra).
  assert (Z : Rabs (q * tenth) <= Rabs (q * tenth - p / 10) + p / 10).
  { replace (q * tenth) with ((q * tenth - p / 10) + p / 10) at 1 by ring. eapply Rle_trans; [apply Rabs_triang|]. rewrite (Rabs_pos_eq (p / 10)) by lra. lra. }
  replace (rnd (q * tenth) - p / 10) with ((rnd (q * tenth) - q * tenth) + (q * tenth - p / 10)) by ring.
  eapply Rle_trans; [apply Rabs_triang|].
  lra.
Qed.

Lemma step_term : Rabs (rnd (q * d) - d * p) <= (5 / 2 * n + 11 / 10) * u53 * (d * p) + 20 * eta.
Proof.
  pose proof eta_pos as E0. pose proof (ab _ _ Hq) as Q.
  set (w := n * (d * p)). assert (W0 : 0 <= d * p) by nra. assert (W : d * p <= w <= 1099511627776 * (d * p)) by (unfold w; nra).
  replace ((5 / 2 * n + 11 / 10) * u53 * (d * p)) with (5 / 2 * u53 * w + 11 / 10 * u53 * (d * p)) by (unfold w; field).
  pose proof (rnd_err (q * d)) as R.
  assert (Y : Rabs (q * d - d * p) <= 5 / 2 * u53 * w + 18 * eta).
  { replace (q * d - d * p) with (d * (q - p)) by ring. rewrite Rabs_mult, (Rabs_pos_eq d) by lra.
    apply Rle_trans with (d * (5 / 2 * n * u53 * p + 2 * eta)); [apply Rmult_le_compat_l; [lra|apply Hq]|].
    replace (d * (5 / 2 * n * u53 * p + 2 * eta)) with (5 / 2 * u53 * w + 2 * (d * eta)) by (unfold w; ring). nra. }
  assert (Z : Rabs (q * d) <= Rabs (q * d - d * p) + d * p).
  { replace (q * d) with ((q * d - d * p) + d * p) at 1 by ring. eapply Rle_trans; [apply Rabs_triang|]. rewrite (Rabs_pos_eq (d * p)) by lra. lra. }
  replace (rnd (q * d) - d * p) with ((rnd (q * d) - q * d) + (q * d - d * p)) by ring.
  eapply Rle_trans; [apply Rabs_triang|]. unfold u53 in *. lra.
Qed.

Lemma step_sum : Rabs (rnd (r + rnd (q * d)) - (S + d * p)) <= (5 / 2 * (n + 1) + 3 / 2 + a) * u53 * (S + d * p) + 42 * (n + 1 - 1) * eta /\
  Rabs (r + rnd (q * d)) <= 2 * (S + d * p) + 42 * n * eta.
Proof.
  pose proof eta_pos as E0. pose proof step_term as T.
  assert (W0 : 0 <= d * p) by nra. set (t := rnd (q * d)) in *. set (x := d * p) in *.
  set (w := n * x). assert (W : x <= w <= 1099511627776 * x) by (unfold w; nra).
  set (v := n * S). assert (V : S <= v <= 1099511627776 * S) by (unfold v; nra).
  set (ax := a * x). assert (AX : 0 <= ax <= 1048576 * x) by (unfold ax; nra).
  set (as_ := a * S). assert (AS : 0 <= as_ <= 1048576 * S) by (unfold as_; nra).
  set (m := n * eta). assert (Mb : eta <= m <= 1099511627776 * eta) by (unfold m; nra).
  replace ((5 / 2 * n + 11 / 10) * u53 * x) with (5 / 2 * u53 * w + 11 / 10 * u53 * x) in T by (unfold w; field).
  pose proof Hr as Hr'. replace ((5 / 2 * n + 3 / 2 + a) * u53 * S + 42 * (n - 1) * eta) with (5 / 2 * u53 * v + 3 / 2 * u53 * S + u53 * as_ + 42 * m - 42 * eta) in Hr' by (unfold v, as_, m; field).
  replace ((5 / 2 * (n + 1) + 3 / 2 + a) * u53 * (S + x) + 42 * (n + 1 - 1) * eta)
    with (5 / 2 * u53 * v + 4 * u53 * S + u53 * as_ + 5 / 2 * u53 * w + 4 * u53 * x + u53 * ax + 42 * m) by (unfold v, w, ax, as_, m; field).
  replace (42 * n * eta) with (42 * m) by (unfold m; ring).
  pose proof (rnd_err (r + t)) as R.
  assert (Y : Rabs (r + t - (S + x)) <= Rabs (r - S) + Rabs (t - x)).
  { replace (r + t - (S + x)) with ((r - S) + (t - x)) by ring. apply Rabs_triang. }
  assert (Z : Rabs (r + t) <= Rabs (r + t - (S + x)) + (S + x)).
  { replace (r + t) with ((r + t - (S + x)) + (S + x)) at 1 by ring. eapply Rle_trans; [apply Rabs_triang|]. rewrite (Rabs_pos_eq (S + x)) by lra. lra. }
  unfold u53 in *. split; [|lra].
  replace (rnd (r + t) - (S + x)) with ((rnd (r + t) - (r + t)) + (r + t - (S + x))) by ring.
  eapply Rle_trans; [apply Rabs_triang|]. lra.
Qed.
End Step.

Notation len l := (IZR (Z.of_nat (length l))).

Lemma len_cons : forall (c : byte) l, len (c :: l) = len l + 1.
Proof. intros. cbn [length]. rewrite Nat2Z.inj_succ. unfold Z.succ. apply plus_IZR. Qed.
Lemma len_pos : forall l : bytes, 0 <= len l.
Proof. intros. apply IZR_le. lia. Qed.

Lemma fsum_bounds : forall fs p, Forall digit_byte fs -> 0 < p -> 0 <= fsum fs p <= 10 * p.
Proof.
  intros fs p H. revert p. induction H as [|c l Hc _ IH]; intros p P; cbn [fsum]; [lra|].
  destruct (digit_real c Hc) as [_ D]. assert (Dr : 0 <= IZR (Z.of_N c - 48) <= 9) by (split; apply IZR_le; lia).
  specialize (IH (p / 10) ltac:(lra)). set (d := IZR (Z.of_N c - 48)) in *. assert (0 <= d * p <= 9 * p) by nra. lra.
Qed.

Lemma frac_loop_near : forall fs x pl a n p q S r B, Forall digit_byte fs -> is_real x r -> is_real pl q -> 0 <= a <= 1048576 ->
  1 <= n -> n + len fs <= 1099511627776 -> 0 < p <= 1 / 10 -> 0 <= S -> S + 10 * p <= B -> 4 * B + 1048576 * 1048576 * 1048576 / 4 <= bpow radix2 1023 ->
  Rabs (q - p) <= 5 / 2 * n * u53 * p + 2 * eta ->
  Rabs (r - S) <= (5 / 2 * n + 3 / 2 + a) * u53 * S + 42 * (n - 1) * eta ->
  is_real (fst (f64_frac_loop fs x pl)) (frun fs r q) /\
  Rabs (frun fs r q - (S + fsum fs p)) <= (5 / 2 * (n + len fs) + 3 / 2 + a) * u53 * (S + fsum fs p) + 42 * (n + len fs - 1) * eta.
Proof.
  intros fs x pl a n p q S r B H. revert x pl n p q S r B.
  induction H as [|c l Hc Hl IH]; intros x pl n p q S r B Hx Hp A N1 N2 P S0 SB BB Hq Hr.
  - cbn [f64_frac_loop frun fsum fst length Z.of_nat]. split; auto. rewrite !Rplus_0_r. auto.
  - cbn [f64_frac_loop frun fsum]. rewrite (proj2 (digit_is c) Hc). rewrite len_cons in *. pose proof (len_pos l) as L0.
    destruct (digit_real c Hc) as [Dx D]. assert (Dr : 0 <= IZR (Z.of_N c - 48) <= 9) by (split; apply IZR_le; lia).
    set (d := IZR (Z.of_N c - 48)) in *.
    assert (Nb : 1 <= n <= 1099511627776) by lra.
    pose proof eta_pos as E0. pose proof eta_one as E1.
    assert (W : 0 <= d * p <= 9 * p) by nra.
    pose proof (step_place n p q Nb ltac:(lra) Hq) as G1.
    destruct (step_sum a n p q S r d A Nb ltac:(lra) S0 Dr Hq Hr) as [G2 G3].
    assert (Q : Rabs q <= 4).
    { assert (n * p <= 1099511627776 * (1 / 10)) by nra. replace (5 / 2 * n * u53 * p) with (5 / 2 * u53 * (n * p)) in Hq by ring.
      apply ab in Hq. apply ba. unfold u53 in *. lra. }
    pose proof big_one as BO.
    assert (Tt : is_real (fmul pl (f_of_Z (Z.of_N c - 48))) (rnd (q * d))).
    { apply is_mul; auto. rewrite Rabs_mult, (Rabs_pos_eq d) by lra. assert (Rabs q * d <= 4 * 9) by (apply Rmult_le_compat; try lra; apply Rabs_pos). lra. }
    assert (Tq : is_real (fmul pl (f_ratio 1 10)) (rnd (q * tenth))).
    { apply is_mul; auto; [apply tenth_is|]. rewrite Rabs_mult. pose proof (ab _ _ tenth_near) as TN. unfold u53 in TN.
      assert (Rabs q * Rabs tenth <= 4 * 1) by (apply Rmult_le_compat; try lra; try apply Rabs_pos; apply ba; lra). lra. }
    assert (Tr : is_real (fadd x (fmul pl (f_of_Z (Z.of_N c - 48)))) (rnd (r + rnd (q * d)))).
    { apply is_add; auto. assert (42 * n * eta <= 42 * 1099511627776) by nra. lra. }
    specialize (IH _ _ (n + 1) (p / 10) _ (S + d * p) _ B Tr Tq A ltac:(lra) ltac:(lra) ltac:(lra) ltac:(lra) ltac:(lra) BB G1 G2).
    destruct IH as [I1 I2]. split; auto.
    replace (n + (len l + 1)) with (n + 1 + len l) by ring. replace (S + (d * p + fsum l (p / 10))) with (S + d * p + fsum l (p / 10)) by ring. auto.
Qed.

Lemma frac_loop_app : forall fs rest x p, Forall digit_byte fs -> no_digit rest ->
  f64_frac_loop (fs ++ rest) x p = (fst (f64_frac_loop fs x p), rest).
Proof.
  intros fs rest x p H. revert x p. induction H as [|c l Hc _ IH]; intros x p Hr; cbn [app f64_frac_loop].
  - destruct rest as [|c r]; auto. cbn in Hr. cbn [f64_frac_loop]. rewrite Hr. auto.
  - apply digit_is in Hc. rewrite Hc. apply IH; auto.
Qed.

(** The loop over the digits before the point. *)
Definition int_near (n : R) (r : R) (acc : Z) : Prop :=
  (r = 0 /\ acc = 0%Z) \/ ((1 <= acc)%Z /\ Rabs (r - IZR acc) <= 3 * n * u53 * IZR acc).

Lemma int_loop_near : forall l acc x r n, Forall digit_byte l -> is_real x r -> int_near n r acc -> 0 <= n -> n + len l <= 1048576 / 4 ->
  IZR (dval_ l acc) * 4 <= bpow radix2 1023 ->
  snd (f64_int_loop l x) = [] /\ exists r', is_real (fst (f64_int_loop l x)) r' /\ int_near (n + len l) r' (dval_ l acc).
Proof.
  intros l acc x r n H. revert acc x r n. induction H as [|c l Hc Hl IH]; intros acc x r n Hx Hn N0 N1 B.
  - cbn [f64_int_loop fst snd dval_ fold_left length Z.of_nat]. split; auto. exists r. rewrite Rplus_0_r. auto.
  - cbn [f64_int_loop]. rewrite (proj2 (digit_is c) Hc). rewrite len_cons in *. pose proof (len_pos l) as L0.
    destruct (digit_real c Hc) as [Dx D]. assert (Dr : 0 <= IZR (Z.of_N c - 48) <= 9) by (split; apply IZR_le; lia).
    change (dval_ (c :: l) acc) with (dval_ l (acc * 10 + (Z.of_N c - 48))) in *.
    assert (A0 : (0 <= acc)%Z) by (destruct Hn as [[_ ->]|[]]; lia).
    pose proof (dval_ge l (acc * 10 + (Z.of_N c - 48)) Hl ltac:(lia)) as G. apply IZR_le in G.
    assert (Bc : (IZR acc * 10 + IZR (Z.of_N c - 48)) * 4 <= bpow radix2 1023) by (rewrite plus_IZR, mult_IZR in G; lra).
    assert (Ten : is_real (f_of_Z 10) 10) by (apply (is_int _ 10), holds_of_Z; reflexivity).
    pose proof big_one as BO.
    assert (K : exists r', is_real (fadd (fmul x (f_of_Z 10)) (f_of_Z (Z.of_N c - 48))) r' /\ int_near (n + 1) r' (acc * 10 + (Z.of_N c - 48))).
    { destruct Hn as [[-> ->]|[A1 Hr]].
      - assert (T1 : is_real (fmul x (f_of_Z 10)) 0).
        { rewrite <- rnd_zero at 1. replace 0 with (0 * 10) at 1 by ring. apply is_mul; auto. rewrite Rmult_0_l, Rabs_R0. lra. }
        exists (IZR (Z.of_N c - 48)). split.
        + rewrite <- (small_round (Z.of_N c - 48)) by (unfold small; lia). rewrite <- (Rplus_0_l (IZR (Z.of_N c - 48))) at 1. apply is_add; auto.
          rewrite Rplus_0_l, Rabs_pos_eq by lra. lra.
        + unfold int_near. change (0 * 10 + (Z.of_N c - 48))%Z with (Z.of_N c - 48)%Z. destruct (Z.eq_dec (Z.of_N c - 48) 0) as [->|NZ]; [left; auto|right].
          split; [lia|]. rewrite Rminus_diag_eq, Rabs_R0 by auto. unfold u53. assert (1 <= IZR (Z.of_N c - 48)) by (apply IZR_le; lia). nra.
      - assert (A1r : 1 <= IZR acc) by (apply IZR_le; auto). set (d := IZR (Z.of_N c - 48)) in *. set (S := IZR acc) in *.
        set (v := n * S). assert (V : 0 <= v <= 1048576 / 4 * S) by (unfold v; nra).
        replace (3 * n * u53 * S) with (3 * u53 * v) in Hr by (unfold v; ring).
        pose proof (ab _ _ Hr) as Hr'. unfold u53 in Hr'.
        assert (R0 : 1 / 2 <= r <= 2 * S) by lra.
        assert (T1 : is_real (fmul x (f_of_Z 10)) (rnd (r * 10))) by (apply is_mul; auto; rewrite Rabs_pos_eq by lra; lra).
        assert (Big : forall y, 1 / 2 <= y -> Rabs (rnd y - y) <= u53 * y).
        { intros y Y. pose proof (rnd_normal y) as RN. rewrite (Rabs_pos_eq y) in RN by lra. apply RN.
          apply Rle_trans with (bpow radix2 (-1)); [apply bpow_le; lia|]. cbn. lra. }
        pose proof (ab _ _ (Big (r * 10) ltac:(lra))) as E1. set (t := rnd (r * 10)) in *. unfold u53 in E1.
        assert (T2 : is_real (fadd (fmul x (f_of_Z 10)) (f_of_Z (Z.of_N c - 48))) (rnd (t + d))).
        { apply is_add; auto. rewrite Rabs_pos_eq by lra. lra. }
        exists (rnd (t + d)). split; auto. right. split; [lia|]. rewrite plus_IZR, mult_IZR. fold S d.
        pose proof (ab _ _ (Big (t + d) ltac:(lra))) as E2. unfold u53 in E2.
        replace (3 * (n + 1) * u53 * (S * 10 + d)) with (30 * u53 * v + 30 * u53 * S + 3 * u53 * (n * d) + 3 * u53 * d) by (unfold v; ring).
        assert (0 <= n * d) by nra. apply ba. unfold u53. lra. }
    destruct K as (r' & K1 & K2). destruct (IH _ _ r' (n + 1) K1 K2 ltac:(lra) ltac:(lra) B) as [I1 (r2 & I2 & I3)].
    split; auto. exists r2. split; auto. replace (n + (len l + 1)) with (n + 1 + len l) by ring. auto.
Qed.
