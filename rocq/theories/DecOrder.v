(** Decimals of few digits are ordered by their values. *)
From Coq Require Import List NArith ZArith QArith Bool Lia SpecFloat Reals Lra.
From Coq Require Import ZifyBool ZifyN ZifyNat.
From Flocq Require Import IEEE754.BinarySingleNaN Core.
Import ListNotations.
From Verif Require Import Base StrModel FloatModel FloatValid FloatInt CompModel CompSpec CompProofs NumProofs NumCache NumText ShareProofs DecSpec FracErr DecProofs.
Close Scope Q_scope.
Open Scope R_scope.

Lemma real_fcmp : forall x y r s, is_real x r -> is_real y s -> fcmp x y = Rcompare r s.
Proof.
  intros x y r s (a & -> & Va & Fa) (b & -> & Vb & Fb). unfold fcmp, f_eqb, f_ltb, SFeqb, SFltb.
  change (SFcompare (B2SF a) (B2SF b)) with (Bcompare a b). change (SFcompare (B2SF b) (B2SF a)) with (Bcompare b a).
  rewrite !Bcompare_correct by auto. rewrite Va, Vb, (Rcompare_sym s r).
  destruct (Rcompare r s); auto.
Qed.

Fixpoint qrun (fs : bytes) (q : R) : R := match fs with [] => q | _ :: l => qrun l (rnd (q * tenth)) end.

Lemma frun_app : forall a b r q, frun (a ++ b) r q = frun b (frun a r q) (qrun a q).
Proof. induction a as [|c a IH]; intros; cbn [app frun qrun]; auto. Qed.

Lemma frun_pad : forall k r q, rnd r = r -> frun (repeat 48%N k) r q = r.
Proof.
  induction k as [|k IH]; intros r q H; cbn [repeat frun]; auto. change (IZR (Z.of_N 48 - 48)) with 0.
  rewrite Rmult_0_r, rnd_zero, Rplus_0_r, H. auto.
Qed.

Lemma frun_round : forall fs r q, rnd r = r -> rnd (frun fs r q) = frun fs r q.
Proof.
  induction fs as [|c l IH]; intros r q H; cbn [frun]; auto. apply IH. apply round_generic; [apply valid_rnd_round_mode|].
  apply generic_format_round; [apply fexp_correct; reflexivity|apply valid_rnd_round_mode].
Qed.

(** The fraction digits filled up with zeros, and all digits as one number. *)
Definition pad (K : nat) (d : decimal) : bytes := frac_digits d ++ repeat 48%N (K - length (frac_digits d)).
Definition grid (K : nat) (d : decimal) : Z := dval_ (d_int d ++ pad K d) 0.

Section Grid.
Variable K : nat.
Hypothesis K14 : (K <= 14)%nat.

Lemma pad_ok : forall d, few K d -> Forall digit_byte (pad K d) /\ length (pad K d) = K.
Proof.
  intros d ((O1 & O2 & _) & _ & _ & L & _). unfold pad. split.
  - apply Forall_app. split; auto. apply Forall_forall. intros x I. apply repeat_spec in I. subst. unfold digit_byte. lia.
  - rewrite app_length, repeat_length. lia.
Qed.

Lemma pow_K : (1 <= 10 ^ Z.of_nat K)%Z.
Proof. change 1%Z with (10 ^ 0)%Z. apply Z.pow_le_mono_r; lia. Qed.

Lemma grid_parts : forall d, few K d -> grid K d = (dval_ (d_int d) 0 * 10 ^ Z.of_nat K + dval_ (pad K d) 0)%Z /\
  (0 <= dval_ (d_int d) 0 < 2 ^ 53)%Z /\ (0 <= dval_ (pad K d) 0 < 10 ^ Z.of_nat K)%Z /\ (0 <= grid K d < 10 ^ 14)%Z.
Proof.
  intros d F. destruct (pad_ok d F) as [P1 P2]. destruct F as ((O1 & O2 & _) & _ & _ & L & V). rewrite digits_val_is in V by auto.
  pose proof (dval_bound (d_int d) O1) as B1. pose proof (dval_bound (pad K d) P1) as B2. rewrite P2 in B2.
  unfold grid. rewrite dval_app, P2. pose proof pow_K as PK. split; auto. split; [|split; auto].
  - split; [lia|]. assert (dval_ (d_int d) 0 * 1 <= dval_ (d_int d) 0 * 10 ^ Z.of_nat K)%Z by (apply Z.mul_le_mono_nonneg_l; lia).
    assert (10 ^ 14 < 2 ^ 53)%Z by reflexivity. lia.
  - assert (E : (10 ^ 14 = 10 ^ Z.of_nat (14 - K) * 10 ^ Z.of_nat K)%Z) by (rewrite <- Z.pow_add_r by lia; f_equal; lia).
    rewrite E in V |- *. assert (dval_ (d_int d) 0 < 10 ^ Z.of_nat (14 - K))%Z by (apply Z.mul_lt_mono_pos_r in V; lia).
    assert (dval_ (d_int d) 0 + 1 <= 10 ^ Z.of_nat (14 - K))%Z by lia.
    assert ((dval_ (d_int d) 0 + 1) * 10 ^ Z.of_nat K <= 10 ^ Z.of_nat (14 - K) * 10 ^ Z.of_nat K)%Z by (apply Z.mul_le_mono_nonneg_r; lia). lia.
Qed.

Lemma base_run : forall d, few K d -> exists r, is_real (base_of d) r /\ r = frun (pad K d) (IZR (dval_ (d_int d) 0)) tenth /\
  Rabs (r - IZR (grid K d) / 10 ^ K) <= 39 * u53 * (IZR (grid K d) / 10 ^ K) + 600 * eta.
Proof.
  intros d F. destruct (pad_ok d F) as [P1 P2]. destruct (grid_parts d F) as (G1 & G2 & G3 & G4).
  pose proof F as ((O1 & O2 & O3 & _) & _ & _ & L & V).
  destruct (int_loop_holds (d_int d) 0 f_zero O1 holds_zero ltac:(lia) ltac:(lia)) as [_ IH].
  set (x := fst (f64_int_loop (d_int d) f_zero)) in *. set (S := IZR (dval_ (d_int d) 0)) in *.
  assert (X : is_real x S) by exact IH.
  assert (Sr : rnd S = S) by (apply small_round; unfold small; lia).
  assert (S0 : 0 <= S < bpow radix2 53).
  { change (bpow radix2 53) with (IZR (2 ^ 53)). split; [apply IZR_le; lia|apply IZR_lt; lia]. }
  assert (Lk : 0 <= len (pad K d) <= 14) by (rewrite P2; split; [apply IZR_le; lia|change 14 with (IZR 14); apply IZR_le; lia]).
  assert (GV : IZR (grid K d) / 10 ^ K = S + fsum (pad K d) (1 / 10)).
  { rewrite fsum_dval, P2 by auto. rewrite G1, plus_IZR, mult_IZR, <- pow10_IZR. fold S. pose proof (pow10_pos K). field. lra. }
  destruct (frac_loop_near (pad K d) x (f_ratio 1 10) 0 1 (1 / 10) tenth S S (S + 1) P1 X tenth_is) as [_ F2]; try lra.
  - apply room. assert (bpow radix2 53 <= bpow radix2 1000) by (apply bpow_le; lia). lra.
  - apply frac_start.
  - rewrite Rminus_diag_eq, Rabs_R0 by auto. pose proof eta_pos. unfold u53. lra.
  - exists (frun (pad K d) S tenth). split; [|split; auto].
    + unfold pad. rewrite frun_app, frun_pad by (apply frun_round; auto). unfold base_of. fold x. unfold frac_digits. destruct (d_frac d) as [fs|] eqn:Fr; [|exact X].
      assert (O2' : Forall digit_byte fs) by (unfold frac_digits in O2; rewrite Fr in O2; auto).
      assert (L' : (length fs <= K)%nat) by (unfold frac_digits in L; rewrite Fr in L; auto).
      assert (Lf : 0 <= len fs <= 14) by (split; [apply IZR_le; lia|change 14 with (IZR 14); apply IZR_le; lia]).
      destruct (frac_loop_near fs x (f_ratio 1 10) 0 1 (1 / 10) tenth S S (S + 1) O2' X tenth_is) as [F1 _]; auto; try lra.
      * apply room. assert (bpow radix2 53 <= bpow radix2 1000) by (apply bpow_le; lia). lra.
      * apply frac_start.
      * rewrite Rminus_diag_eq, Rabs_R0 by auto. pose proof eta_pos. unfold u53. lra.
    + rewrite GV. eapply Rle_trans; [apply F2|]. set (W := S + fsum (pad K d) (1 / 10)).
      assert (W0 : 0 <= W) by (unfold W; pose proof (fsum_bounds (pad K d) (1 / 10) P1 ltac:(lra)); lra).
      assert (len (pad K d) * W <= 14 * W) by (apply Rmult_le_compat_r; lra).
      assert (len (pad K d) * eta <= 14 * eta) by (pose proof eta_pos; apply Rmult_le_compat_r; lra). pose proof eta_pos.
      replace ((5 / 2 * (1 + len (pad K d)) + 3 / 2 + 0) * u53 * W + 42 * (1 + len (pad K d) - 1) * eta)
        with (5 / 2 * u53 * (len (pad K d) * W) + 4 * u53 * W + 42 * (len (pad K d) * eta)) by field.
      unfold u53. lra.
Qed.

Lemma grid_same : forall a b, few K a -> few K b -> grid K a = grid K b -> dval_ (d_int a) 0 = dval_ (d_int b) 0 /\ pad K a = pad K b.
Proof.
  intros a b Fa Fb E. destruct (grid_parts a Fa) as (A1 & A2 & A3 & _). destruct (grid_parts b Fb) as (B1 & B2 & B3 & _).
  rewrite A1, B1 in E. pose proof pow_K as PK. set (p := (10 ^ Z.of_nat K)%Z) in *.
  assert (I : dval_ (d_int a) 0 = dval_ (d_int b) 0).
  { rewrite (Z.div_unique (dval_ (d_int a) 0 * p + dval_ (pad K a) 0) p (dval_ (d_int a) 0) (dval_ (pad K a) 0)) by lia.
    rewrite E. symmetry. apply (Z.div_unique _ p _ (dval_ (pad K b) 0)); lia. }
  split; auto. assert (J : dval_ (pad K a) 0 = dval_ (pad K b) 0) by (rewrite I in E; lia).
  destruct (pad_ok a Fa) as [Pa La]. destruct (pad_ok b Fb) as [Pb Lb].
  apply bcmp_eq. rewrite (same_len_cmp (pad K a) (pad K b)); auto; [|congruence]. rewrite J. apply Z.compare_refl.
Qed.

Lemma grid_lt : forall z r, (0 <= z < 10 ^ 14)%Z -> Rabs (r - IZR z / 10 ^ K) <= 39 * u53 * (IZR z / 10 ^ K) + 600 * eta ->
  IZR z - / 2 < r * 10 ^ K < IZR z + / 2.
Proof.
  intros z r Z H. apply ab in H. pose proof (pow10_pos K) as P. pose proof eta_pos as E0.
  assert (Zr : 0 <= IZR z <= 100000000000000) by (split; [apply IZR_le; lia|change 100000000000000 with (IZR (10 ^ 14)); apply IZR_le; lia]).
  assert (K1 : 10 ^ K <= 100000000000000) by (replace 100000000000000 with (10 ^ 14) by (cbn; lra); apply Rle_pow; [lra|auto]).
  assert (Eb : eta * 10 ^ K <= 1 / 100000).
  { apply Rle_trans with (bpow radix2 (-100) * 100000000000000); [apply Rmult_le_compat; try lra; unfold eta; apply bpow_le; lia|]. cbn. lra. }
  set (v := IZR z / 10 ^ K) in *. assert (Vz : v * 10 ^ K = IZR z) by (unfold v; field; lra).
  set (p := 10 ^ K) in *.
  assert (H1 : (r - v) * p <= (39 * u53 * v + 600 * eta) * p) by (apply Rmult_le_compat_r; lra).
  assert (H2 : - (39 * u53 * v + 600 * eta) * p <= (r - v) * p) by (apply Rmult_le_compat_r; lra).
  replace ((39 * u53 * v + 600 * eta) * p) with (39 * u53 * (v * p) + 600 * (eta * p)) in H1 by ring.
  replace (- (39 * u53 * v + 600 * eta) * p) with (- (39 * u53 * (v * p) + 600 * (eta * p))) in H2 by ring.
  rewrite Rmult_minus_distr_r, Vz in *. unfold u53 in *. lra.
Qed.

Lemma base_order : forall a b, few K a -> few K b -> exists r s, is_real (base_of a) r /\ is_real (base_of b) s /\ 0 <= r /\ 0 <= s /\
  (grid K a = grid K b -> r = s) /\ ((grid K a < grid K b)%Z -> r < s) /\ ((grid K b < grid K a)%Z -> s < r) /\
  (grid K a = 0%Z -> r = 0) /\ (grid K b = 0%Z -> s = 0) /\ ((0 < grid K a)%Z -> 0 < r) /\ ((0 < grid K b)%Z -> 0 < s).
Proof.
  intros a b Fa Fb. destruct (base_run a Fa) as (r & R1 & R2 & R3). destruct (base_run b Fb) as (s & S1 & S2 & S3).
  destruct (grid_parts a Fa) as (A1 & A2 & A3 & A4). destruct (grid_parts b Fb) as (B1 & B2 & B3 & B4).
  pose proof (grid_lt _ _ A4 R3) as HA. pose proof (grid_lt _ _ B4 S3) as HB. pose proof (pow10_pos K) as P. pose proof pow_K as PK.
  assert (Zr : forall d t, few K d -> t = frun (pad K d) (IZR (dval_ (d_int d) 0)) tenth -> grid K d = 0%Z -> t = 0).
  { intros d t F T Z. destruct (grid_parts d F) as (D1 & D2 & D3 & _). rewrite D1 in Z. destruct (pad_ok d F) as [P1 P2].
    assert (dval_ (d_int d) 0 = 0%Z) by nia. assert (dval_ (pad K d) 0 = 0%Z) by nia.
    rewrite T, H, (zeros_back (pad K d) P1 H0). apply frun_zeros. }
  assert (Pz : forall z t, (0 < z)%Z -> IZR z - / 2 < t * 10 ^ K -> 0 < t).
  { intros z t Z H. assert (1 <= IZR z) by (apply IZR_le; lia). assert (0 < t * 10 ^ K) by lra. nra. }
  exists r, s. repeat split; auto.
  - destruct (Z.eq_dec (grid K a) 0) as [Z|NZ]; [rewrite (Zr a r Fa R2 Z); lra|]. apply Rlt_le, (Pz (grid K a)); [lia|lra].
  - destruct (Z.eq_dec (grid K b) 0) as [Z|NZ]; [rewrite (Zr b s Fb S2 Z); lra|]. apply Rlt_le, (Pz (grid K b)); [lia|lra].
  - intros E. destruct (grid_same a b Fa Fb E) as [I J]. rewrite R2, S2, I, J. auto.
  - intros E. assert (IZR (grid K a) + 1 <= IZR (grid K b)) by (rewrite <- plus_IZR; apply IZR_le; lia). apply Rmult_lt_reg_r with (10 ^ K); auto. lra.
  - intros E. assert (IZR (grid K b) + 1 <= IZR (grid K a)) by (rewrite <- plus_IZR; apply IZR_le; lia). apply Rmult_lt_reg_r with (10 ^ K); auto. lra.
  - intros E. apply (Zr a r); auto.
  - intros E. apply (Zr b s); auto.
  - intros E. apply (Pz (grid K a)); auto. lra.
  - intros E. apply (Pz (grid K b)); auto. lra.
Qed.

Lemma frac_grid : forall a b, few K a -> few K b ->
  Qcompare (dec_frac a) (dec_frac b) = (signed (d_sign a) (grid K a) ?= signed (d_sign b) (grid K b))%Z.
Proof.
  intros a b Fa Fb.
  assert (D : forall d, few K d -> exists j, (0 < j)%Z /\ (Z.pos (Qden (dec_frac d)) * j = 10 ^ Z.of_nat K)%Z /\
     (Qnum (dec_frac d) * j = signed (d_sign d) (grid K d))%Z).
  { intros d F. destruct F as ((O1 & O2 & _) & _ & _ & L & _). exists (10 ^ Z.of_nat (K - length (frac_digits d)))%Z.
    assert (P : (0 < 10 ^ Z.of_nat (length (frac_digits d)))%Z) by (apply Z.pow_pos_nonneg; lia).
    split; [apply Z.pow_pos_nonneg; lia|]. unfold dec_frac. cbn [Qden Qnum]. rewrite Z2Pos.id by auto. split.
    - rewrite <- Z.pow_add_r by lia. f_equal. lia.
    - unfold grid, pad. rewrite app_assoc, dval_app, dval_zeros, repeat_length, Z.add_0_r. rewrite digits_val_is by (apply Forall_app; auto).
      destruct (d_sign d); cbn [signed]; lia. }
  destruct (D a Fa) as (i & I1 & I2 & I3). destruct (D b Fb) as (j & J1 & J2 & J3).
  unfold Qcompare. rewrite <- I3, <- J3. set (na := Qnum (dec_frac a)) in *. set (nb := Qnum (dec_frac b)) in *.
  set (da := Z.pos (Qden (dec_frac a))) in *. set (db := Z.pos (Qden (dec_frac b))) in *.
  assert (Pa : (0 < da)%Z) by reflexivity. assert (Pb : (0 < db)%Z) by reflexivity.
  assert (P : (0 < 10 ^ Z.of_nat K)%Z) by (apply Z.pow_pos_nonneg; lia). set (p := (10 ^ Z.of_nat K)%Z) in *.
  (* na*db ? nb*da  multiplied by i*j  =  na*i*(db*j) ? nb*j*(da*i) *)
  rewrite (Zmult_compare_compat_r (na * db) (nb * da) (i * j)) by nia.
  rewrite (Zmult_compare_compat_r (na * i) (nb * j) p) by lia.
  f_equal; [rewrite <- J2|rewrite <- I2]; ring.
Qed.

Theorem few_order : forall exp10 a b ra rb, few K a -> few K b -> ends_number ra -> ends_number rb ->
  fcmp (fst (to_f64 exp10 (dec_text a ++ ra))) (fst (to_f64 exp10 (dec_text b ++ rb))) = Qcompare (dec_frac a) (dec_frac b).
Proof.
  intros exp10 a b ra rb Fa Fb Ea Eb. rewrite frac_grid by auto.
  assert (X : forall d r, few K d -> ends_number r -> fst (to_f64 exp10 (dec_text d ++ r)) = fmul (sign_f (d_sign d)) (base_of d)).
  { intros d r (O & X & U & _) E. rewrite read_stages; auto.
    - cbn [fst]. unfold scaled, powered. rewrite U, X. auto.
    - unfold dec_end. rewrite U. auto.
    - unfold exp_value. rewrite X. reflexivity. }
  rewrite (X a), (X b) by auto.
  destruct (base_order a b Fa Fb) as (r & s & R & S & R0 & S0 & Eq & Lt & Gt & Za & Zb & Pa & Pb).
  rewrite (real_fcmp _ _ _ _ (sign_real (d_sign a) _ r R) (sign_real (d_sign b) _ s S)).
  destruct (grid_parts a Fa) as (_ & _ & _ & A4). destruct (grid_parts b Fb) as (_ & _ & _ & B4).
  set (za := grid K a) in *. set (zb := grid K b) in *.
  assert (Same : Rcompare r s = (za ?= zb)%Z).
  { destruct (Z.compare_spec za zb) as [E|E|E]; [apply Rcompare_Eq|apply Rcompare_Lt|apply Rcompare_Gt]; auto. }
  assert (Opp : Rcompare (- r) (- s) = (- za ?= - zb)%Z).
  { destruct (Z.compare_spec (- za) (- zb)) as [E|E|E]; [apply Rcompare_Eq|apply Rcompare_Lt|apply Rcompare_Gt].
    - rewrite Eq by lia. auto. - assert (s < r) by (apply Gt; lia). lra. - assert (r < s) by (apply Lt; lia). lra. }
  assert (M1 : Rcompare (- r) s = (- za ?= zb)%Z).
  { destruct (Z.compare_spec (- za) zb) as [E|E|E]; [apply Rcompare_Eq|apply Rcompare_Lt|lia].
    - rewrite Za, Zb by lia. lra.
    - destruct (Z.eq_dec za 0) as [Z|NZ]; [assert (0 < s) by (apply Pb; lia)|assert (0 < r) by (apply Pa; lia)]; lra. }
  assert (M2 : Rcompare r (- s) = (za ?= - zb)%Z).
  { destruct (Z.compare_spec za (- zb)) as [E|E|E]; [apply Rcompare_Eq|lia|apply Rcompare_Gt].
    - rewrite Za, Zb by lia. lra.
    - destruct (Z.eq_dec za 0) as [Z|NZ]; [assert (0 < s) by (apply Pb; lia)|assert (0 < r) by (apply Pa; lia)]; lra. }
  destruct (d_sign a), (d_sign b); cbn [signed]; auto.
Qed.
End Grid.
