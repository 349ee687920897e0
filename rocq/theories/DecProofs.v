(** Decimal text read as a double: which parts of the text are used, and how far the result is from the number. *)
From Coq Require Import List NArith ZArith QArith Bool Lia SpecFloat Reals Lra.
From Coq Require Import ZifyBool ZifyN ZifyNat.
From Flocq Require Import IEEE754.BinarySingleNaN Core.
Import ListNotations.
From Verif Require Import Base StrModel FloatModel FloatValid FloatInt CompSpec NumProofs NumCache NumText ShareProofs DecSpec FracErr.
Close Scope Q_scope.
Open Scope R_scope.

(** ** The stages *)
Definition base_of (d : decimal) : f64 :=
  let x := fst (f64_int_loop (d_int d) f_zero) in
  match d_frac d with Some fs => fst (f64_frac_loop fs x (f_ratio 1 10)) | None => x end.
Definition powered (exp10 : Z -> f64) (d : decimal) (x : f64) : f64 :=
  match d_exp d with Some _ => exp_factor exp10 x (exp_value d) | None => x end.
Definition scaled (d : decimal) (x : f64) : f64 :=
  match d_unit d with Some c => match suffix_valf c with Some m => fmul x m | None => x end | None => x end.

Lemma unit_in : forall c m, unit_of c = Some m -> In (c, m) units.
Proof.
  intros c m H. unfold unit_of in H. destruct (find (fun p => (fst p =? c)%N) units) as [[c' m']|] eqn:E; [|discriminate].
  apply find_some in E. destruct E as [I E]. apply N.eqb_eq in E. cbn in E, H. injection H as <-. subst. auto.
Qed.

Definition is_exp_false := fun l => is_exp l = false.

Lemma rnd_IZR : forall m k f, (0 < m)%Z -> m = (k * 2 ^ f)%Z -> (0 <= f)%Z -> small k -> rnd (IZR m) = IZR m.
Proof.
  intros m k f M E F0 K. apply round_generic; [apply valid_rnd_round_mode|].
  replace (IZR m) with (F2R (Float radix2 k f)).
  2:{ unfold F2R. cbn [Fnum Fexp]. rewrite <- IZR_Zpower by auto. rewrite <- mult_IZR. f_equal. auto. }
  apply generic_format_F2R. intros NZ. unfold cexp, SpecFloat.fexp, emin.
  rewrite mag_F2R by auto. assert (Mk : (mag radix2 (IZR k) <= 53)%Z).
  { apply mag_le_bpow; [apply IZR_neq; auto|]. rewrite <- abs_IZR. change (bpow radix2 53) with (IZR (2 ^ 53)). apply IZR_lt. auto. }
  lia.
Qed.

Lemma of_Z_near : forall m, (1 <= m <= 2 ^ 80)%Z -> exists r, is_real (f_of_Z m) r /\ Rabs (r - IZR m) <= u53 * IZR m.
Proof.
  intros m M. exists (rnd (IZR m)). assert (M1 : 1 <= IZR m) by (apply IZR_le; lia).
  assert (M2 : IZR m <= bpow radix2 80) by (change (bpow radix2 80) with (IZR (2 ^ 80)); apply IZR_le; lia).
  split.
  - unfold f_of_Z. rewrite bn_equiv. pose proof (binary_normalize_correct 53 1024 Hprec53 Hmax53 mode_NE m 0 false) as C.
    replace (F2R (Float radix2 m 0)) with (IZR m) in C by (unfold F2R; cbn; lra). cbv zeta in C.
    rewrite rnd_fits in C. + destruct C as (C1 & C2 & _). eexists. split; [reflexivity|]. auto.
    + rewrite Rabs_pos_eq by lra. eapply Rle_trans; [apply M2|]. apply bpow_le. lia.
  - pose proof (rnd_normal (IZR m)) as RN. rewrite (Rabs_pos_eq (IZR m)) in RN by lra. apply RN.
    apply Rle_trans with 1; auto. change 1 with (bpow radix2 0). apply bpow_le. lia.
Qed.

Lemma unit_facts : forall c m, unit_of c = Some m -> is_digit c = false /\ (c =? 46)%N = false /\ (1 <= m <= 2 ^ 80)%Z /\
  exists f r, suffix_valf c = Some f /\ is_real f r /\ Rabs (r - IZR m) <= u53 * IZR m.
Proof.
  intros c m H. apply unit_in in H. assert (K : is_digit c = false /\ (c =? 46)%N = false /\ (1 <= m <= 2 ^ 80)%Z /\ suffix_valf c = Some (f_of_Z m)).
  { unfold units in H. repeat (destruct H as [[= <- <-]|H]; [repeat split; vm_compute; congruence|]). destruct H. }
  destruct K as (K1 & K2 & K3 & K4). destruct (of_Z_near m K3) as (r & R1 & R2). split; auto. split; auto. split; auto. exists (f_of_Z m), r. auto.
Qed.

Lemma unit_exp : forall c m rest, unit_of c = Some m ->
  (match rest with b :: _ => c = 101%N \/ c = 69%N -> ~ (48 <= b <= 57)%N /\ b <> 43%N /\ b <> 45%N | [] => True end) -> is_exp (c :: rest) = false.
Proof.
  intros c m [|b r] H E; [reflexivity|]. unfold is_exp. destruct ((c =? 101) || (c =? 69))%N eqn:C; auto.
  assert (X : c = 101%N \/ c = 69%N) by lia. destruct (E X) as (E1 & E2 & E3). unfold is_digit.
  replace ((48 <=? b) && (b <=? 57))%N with false by lia. replace ((b =? 43) || (b =? 45))%N with false by lia. auto.
Qed.

Lemma tail3 : forall exp10 d rest x, dec_ok d -> dec_end d rest ->
  no_digit (unit_text d ++ rest) /\ (forall y, point_stage y (unit_text d ++ rest) = (y, unit_text d ++ rest)) /\
  (d_exp d = None -> forall y, exp_stage exp10 y (unit_text d ++ rest) = (y, unit_text d ++ rest)) /\
  suffix_stage x (unit_text d ++ rest) = (scaled d x, rest).
Proof.
  intros exp10 d rest x (_ & _ & _ & _ & U) E. unfold dec_end in E. unfold unit_text, scaled. destruct (d_unit d) as [c|].
  - destruct (unit_of c) as [m|] eqn:M; [|congruence]. destruct (unit_facts c m M) as (U1 & U2 & U3 & f & r & U4 & _). cbn [app].
    split; [|split; [|split]].
    + cbn. auto.
    + intros y. cbn. rewrite U2. auto.
    + intros N y. rewrite N in E. unfold exp_stage. rewrite (unit_exp c m rest M) by auto. auto.
    + unfold suffix_stage. rewrite U4. auto.
  - cbn [app]. destruct (ends_stages exp10 x rest E) as (E0 & _ & _ & E3). split; auto. split; [|split; auto].
    + intros y. destruct (ends_stages exp10 y rest E) as (_ & E1 & _). auto.
    + intros _ y. destruct (ends_stages exp10 y rest E) as (_ & _ & E2 & _). auto.
Qed.

Lemma tail2 : forall exp10 d rest x, dec_ok d -> dec_end d rest -> (Z.abs (exp_value d) < 2 ^ 31)%Z ->
  no_digit (exp_part d ++ unit_text d ++ rest) /\ (forall y, point_stage y (exp_part d ++ unit_text d ++ rest) = (y, exp_part d ++ unit_text d ++ rest)) /\
  exp_stage exp10 x (exp_part d ++ unit_text d ++ rest) = (powered exp10 d x, unit_text d ++ rest).
Proof.
  intros exp10 d rest x O E V. destruct (tail3 exp10 d rest x O E) as (T1 & T2 & T3 & _). destruct O as (_ & _ & _ & X & _).
  unfold exp_part, powered, exp_value in *. destruct (d_exp d) as [[[c s] es]|].
  - destruct X as (X1 & X2 & X3). change ((c :: sign_text s ++ es) ++ unit_text d ++ rest) with (exp_text c s es ++ unit_text d ++ rest).
    destruct (exp_text_start c s es (unit_text d ++ rest) X1) as [A B]. split; auto. split; auto.
    apply exp_stage_is; auto. assert (0 <= digits_val es)%Z by (rewrite digits_val_is by auto; apply dval_bound; auto). destruct s; cbn [signed] in V; lia.
  - cbn [app]. auto.
Qed.

Lemma read_stages : forall exp10 d rest, dec_ok d -> dec_end d rest -> (Z.abs (exp_value d) < 2 ^ 31)%Z ->
  to_f64 exp10 (dec_text d ++ rest) = (fmul (sign_f (d_sign d)) (scaled d (powered exp10 d (base_of d))), rest).
Proof.
  intros exp10 d rest O E V.
  assert (S : forall l, match l with c :: _ => c <> 43%N /\ c <> 45%N | [] => False end ->
    to_f64 exp10 (sign_text (d_sign d) ++ l) =
    (let '(ret, curr) := f64_int_loop l f_zero in
     let '(ret, curr) := point_stage ret curr in
     let '(ret, curr) := exp_stage exp10 ret curr in
     let '(ret, curr) := suffix_stage ret curr in
     (fmul (sign_f (d_sign d)) ret, curr))).
  { intros l L. destruct (d_sign d); cbn [sign_text app]; try reflexivity.
    destruct l as [|c l]; [tauto|]. unfold to_f64. replace (c =? 43)%N with false by lia. replace (c =? 45)%N with false by lia. reflexivity. }
  unfold dec_text. rewrite <- !app_assoc. rewrite S.
  - pose proof O as (O1 & O2 & O3 & _).
    destruct (tail2 exp10 d rest (base_of d) O E V) as (T1 & T2 & T3).
    set (T := exp_part d ++ unit_text d ++ rest) in *.
    assert (P : no_digit (frac_text d ++ T) /\ point_stage (fst (f64_int_loop (d_int d) f_zero)) (frac_text d ++ T) = (base_of d, T)).
    { unfold frac_text, base_of. destruct (d_frac d) as [fs|] eqn:Fr.
      - assert (O2' : Forall digit_byte fs) by (unfold frac_digits in O2; rewrite Fr in O2; auto).
        split; [reflexivity|]. cbn [app point_stage]. change (46 =? 46)%N with true. cbv iota. apply frac_loop_app; auto.
      - cbn [app]. split; auto. }
    destruct P as [P1 P2]. rewrite int_loop_app by auto. rewrite P2, T3.
    destruct (tail3 exp10 d rest (powered exp10 d (base_of d)) O E) as (_ & _ & _ & T4). rewrite T4. reflexivity.
  - destruct O as (O1 & O2 & O3 & _). destruct (d_int d) as [|c l].
    + cbn [app]. unfold frac_digits in O3. unfold frac_text. destruct (d_frac d); [|exfalso; apply O3; reflexivity]. cbn [app]. split; discriminate.
    + inversion O1 as [|? ? Hc]; subst. unfold digit_byte in Hc. cbn [app]. split; lia.
Qed.

(** ** The real values *)
Definition base_real (d : decimal) : R := IZR (digits_val (d_int d ++ frac_digits d)) / 10 ^ length (frac_digits d).

Lemma pow10_pos : forall k, 0 < 10 ^ k. Proof. intros. apply pow_lt. lra. Qed.
Lemma pow10_IZR : forall k, 10 ^ k = IZR (10 ^ Z.of_nat k).
Proof. intros. rewrite pow_IZR. reflexivity. Qed.

Lemma fsum_dval : forall fs p, Forall digit_byte fs -> fsum fs p = IZR (dval_ fs 0) * (10 * p) / 10 ^ length fs.
Proof.
  intros fs p H. revert p. induction H as [|c l Hc _ IH]; intros p.
  - cbn. lra.
  - cbn [fsum length]. rewrite IH, dval_cons, plus_IZR, mult_IZR, <- pow10_IZR. cbn [pow]. pose proof (pow10_pos (length l)). field. lra.
Qed.

Lemma base_real_sum : forall d, dec_ok d -> base_real d = IZR (dval_ (d_int d) 0) + fsum (frac_digits d) (1 / 10).
Proof.
  intros d (O1 & O2 & _). unfold base_real. rewrite digits_val_is by (apply Forall_app; auto). rewrite dval_app, plus_IZR, mult_IZR, <- pow10_IZR.
  rewrite fsum_dval by auto. pose proof (pow10_pos (length (frac_digits d))). field. lra.
Qed.

Lemma frun_zeros : forall k q, frun (repeat 48%N k) 0 q = 0.
Proof.
  induction k as [|k IH]; intros q; cbn [repeat frun]; auto. change (IZR (Z.of_N 48 - 48)) with 0.
  rewrite Rmult_0_r, rnd_zero, Rplus_0_r, rnd_zero. apply IH.
Qed.

Lemma zeros_back : forall l, Forall digit_byte l -> dval_ l 0 = 0%Z -> l = repeat 48%N (length l).
Proof. intros l H E. apply dval_zero_iff; auto. Qed.

Lemma ten_bits : forall k, 10 ^ (3 * k) <= 2 ^ (10 * k).
Proof.
  intros k. rewrite !pow_mult. apply pow_incr. split; [apply pow_le; lra|]. cbn. lra.
Qed.

Lemma pow2_bpow : forall k, 2 ^ k = bpow radix2 (Z.of_nat k).
Proof.
  intros k. rewrite <- IZR_Zpower by lia. rewrite <- pow_IZR. reflexivity.
Qed.

Lemma ten300 : 10 ^ 300 <= bpow radix2 1000.
Proof. pose proof (ten_bits 100) as H. change (3 * 100)%nat with 300%nat in H. change (10 * 100)%nat with 1000%nat in H. rewrite pow2_bpow in H. exact H. Qed.

Lemma tiny300 : forall k, (k <= 300)%nat -> bpow radix2 (-1000) <= / 10 ^ k.
Proof.
  intros k K. replace (bpow radix2 (-1000)) with (/ bpow radix2 1000).
  - apply Rinv_le; [apply pow10_pos|]. eapply Rle_trans; [|apply ten300]. apply Rle_pow; [lra|auto].
  - rewrite <- bpow_opp. reflexivity.
Qed.

Lemma int_part : forall l, Forall digit_byte l -> (length l <= 300)%nat ->
  exists r, is_real (fst (f64_int_loop l f_zero)) r /\ int_near (len l) r (dval_ l 0).
Proof.
  intros l H L. pose proof (dval_bound l H) as B.
  destruct (int_loop_near l 0 f_zero 0 0 H) as [_ (r & R1 & R2)].
  - apply (is_int _ 0), holds_zero.
  - left. auto.
  - lra.
  - rewrite Rplus_0_l. apply Rle_trans with (IZR 300); [apply IZR_le; lia|lra].
  - apply Rle_trans with (bpow radix2 1000 * 4).
    + apply Rmult_le_compat_r; [lra|]. eapply Rle_trans; [|apply ten300]. apply Rle_trans with (10 ^ length l); [|apply Rle_pow; [lra|auto]].
      rewrite pow10_IZR. apply IZR_le. lia.
    + change 4 with (bpow radix2 2). rewrite <- bpow_plus. apply bpow_le. lia.
  - rewrite Rplus_0_l in R2. exists r. auto.
Qed.

Lemma frac_start : Rabs (tenth - 1 / 10) <= 5 / 2 * 1 * u53 * (1 / 10) + 2 * eta.
Proof. pose proof tenth_near. pose proof eta_pos. unfold u53 in *. lra. Qed.

Lemma room : forall B, B <= bpow radix2 1000 + 1 -> 4 * B + 1048576 * 1048576 * 1048576 / 4 <= bpow radix2 1023.
Proof.
  intros B H. assert (E : bpow radix2 1023 = 8388608 * bpow radix2 1000) by (change (1023)%Z with (23 + 1000)%Z; rewrite bpow_plus; f_equal; cbn; lra).
  assert (1048576 * 1048576 * 1048576 <= bpow radix2 1000) by (replace (1048576 * 1048576 * 1048576) with (bpow radix2 60) by (cbn; lra); apply bpow_le; lia). lra.
Qed.

Lemma base_near : forall d, dec_ok d -> (length (d_int d) <= 300)%nat -> (length (frac_digits d) <= 300)%nat ->
  exists r, is_real (base_of d) r /\
  ((base_real d = 0 /\ r = 0) \/
   (bpow radix2 (-1000) <= base_real d /\
    Rabs (r - base_real d) <= (5 / 2 * len (frac_digits d) + 3 * len (d_int d) + 5) * u53 * base_real d)).
Proof.
  intros d O L1 L2. pose proof (base_real_sum d O) as BR. pose proof O as (O1 & O2 & O3 & _).
  destruct (int_part (d_int d) O1 L1) as (r0 & R1 & R2).
  pose proof (dval_bound (d_int d) O1) as B. pose proof (dval_bound (frac_digits d) O2) as Bf.
  set (fs := frac_digits d) in *. set (S := IZR (dval_ (d_int d) 0)) in *.
  assert (Lf : 0 <= len fs <= 300) by (split; [apply len_pos|change 300 with (IZR 300); apply IZR_le; lia]).
  assert (Li : 0 <= len (d_int d) <= 300) by (split; [apply len_pos|change 300 with (IZR 300); apply IZR_le; lia]).
  assert (Sb : 0 <= S <= bpow radix2 1000).
  { split; [apply IZR_le; lia|]. eapply Rle_trans; [|apply ten300]. apply Rle_trans with (10 ^ length (d_int d)); [|apply Rle_pow; [lra|auto]].
    rewrite pow10_IZR. apply IZR_le. lia. }
  assert (Fin : exists r, is_real (base_of d) r /\ (dval_ (d_int d) 0 = 0%Z -> dval_ fs 0 = 0%Z -> r = 0) /\
    Rabs (r - base_real d) <= (5 / 2 * (1 + len fs) + 3 / 2 + 3 * len (d_int d)) * u53 * base_real d + 42 * (1 + len fs - 1) * eta).
  { unfold base_of. assert (I : Rabs (r0 - S) <= (5 / 2 * 1 + 3 / 2 + 3 * len (d_int d)) * u53 * S + 42 * (1 - 1) * eta).
    { destruct R2 as [[-> Z]|[_ R2]].
      - unfold S. rewrite Z. rewrite Rminus_0_r, Rabs_R0. lra.
      - fold S in R2. eapply Rle_trans; [apply R2|]. set (v := len (d_int d) * S). replace (3 * len (d_int d) * u53 * S) with (3 * u53 * v) by (unfold v; ring).
        replace ((5 / 2 * 1 + 3 / 2 + 3 * len (d_int d)) * u53 * S + 42 * (1 - 1) * eta) with (4 * u53 * S + 3 * u53 * v) by (unfold v; field).
        unfold u53. lra. }
    assert (Z0 : dval_ (d_int d) 0 = 0%Z -> r0 = 0) by (intros Z; destruct R2 as [[? _]|[? _]]; auto; lia).
    destruct (d_frac d) as [gs|] eqn:Fr.
    - assert (G : gs = fs) by (unfold fs, frac_digits; rewrite Fr; auto). rewrite G in *.
      destruct (frac_loop_near fs _ (f_ratio 1 10) (3 * len (d_int d)) 1 (1 / 10) tenth S r0 (S + 1) O2 R1 tenth_is) as [F1 F2]; try lra.
      + apply room. lra.
      + apply frac_start.
      + exists (frun fs r0 tenth). split; auto. split; [|rewrite BR; auto].
        intros Z1 Z2. rewrite (Z0 Z1), (zeros_back fs O2 Z2). apply frun_zeros.
    - assert (G : fs = []) by (unfold fs, frac_digits; rewrite Fr; auto). rewrite G in *. exists r0. split; auto. split; auto.
      rewrite BR. cbn [fsum length Z.of_nat]. rewrite !Rplus_0_r. auto. }
  destruct Fin as (r & F1 & F2 & F3). exists r. split; auto.
  assert (BD : base_real d = IZR (digits_val (d_int d ++ fs)) / 10 ^ length fs) by reflexivity.
  rewrite digits_val_is in BD by (apply Forall_app; auto). rewrite dval_app in BD.
  assert (P10 : (1 <= 10 ^ Z.of_nat (length fs))%Z) by (change 1%Z with (10 ^ 0)%Z; apply Z.pow_le_mono_r; lia).
  destruct (Z.eq_dec (dval_ (d_int d) 0 * 10 ^ Z.of_nat (length fs) + dval_ fs 0) 0) as [Z|NZ].
  - left. rewrite Z in BD. split; [rewrite BD; unfold Rdiv; ring|]. apply F2; nia.
  - right. assert (V : bpow radix2 (-1000) <= base_real d).
    { eapply Rle_trans; [apply (tiny300 (length fs) L2)|]. rewrite BD. unfold Rdiv. pose proof (Rinv_0_lt_compat _ (pow10_pos (length fs))).
      rewrite <- (Rmult_1_l (/ 10 ^ length fs)) at 1. apply Rmult_le_compat_r; [lra|]. apply IZR_le. nia. }
    split; auto. eapply Rle_trans; [apply F3|].
    assert (Et : 42 * 300 * eta <= u53 * base_real d).
    { apply Rle_trans with (u53 * bpow radix2 (-1000)); [|apply Rmult_le_compat_l; [unfold u53; lra|auto]].
      apply Rle_trans with (bpow radix2 14 * eta); [apply Rmult_le_compat_r; [apply Rlt_le, eta_pos|cbn; lra]|].
      rewrite u53_bpow. unfold eta. rewrite <- !bpow_plus. apply bpow_le. lia. }
    assert (E2 : 42 * (1 + len fs - 1) * eta <= 42 * 300 * eta) by (pose proof eta_pos; apply Rmult_le_compat_r; lra).
    replace ((5 / 2 * len fs + 3 * len (d_int d) + 5) * u53 * base_real d) with ((5 / 2 * (1 + len fs) + 3 / 2 + 3 * len (d_int d)) * u53 * base_real d + u53 * base_real d) by field.
    lra.
Qed.

(** ** Powers and units *)
Lemma mul_near : forall x y A B r f v m, is_real x r -> is_real y f -> 0 <= A <= 4096 -> 0 <= B <= 2 -> 0 < v -> 0 < m ->
  bpow radix2 (-1000) <= v * m <= bpow radix2 1010 -> Rabs (r - v) <= A * u53 * v -> Rabs (f - m) <= B * u53 * m ->
  is_real (fmul x y) (rnd (r * f)) /\ Rabs (rnd (r * f) - v * m) <= (A + B + 3 / 2) * u53 * (v * m).
Proof.
  intros x y A B r f v m Hx Hy HA HB V M [W1 W2] Hr Hf.
  assert (W : 0 < v * m) by nra. set (w := v * m) in *.
  assert (E : Rabs (r * f - w) <= (A + B + 1 / 4) * u53 * w).
  { replace (r * f - w) with ((r - v) * m + (v * (f - m) + (r - v) * (f - m))) by (unfold w; ring).
    eapply Rle_trans; [apply Rabs_triang|]. eapply Rle_trans; [apply Rplus_le_compat_l, Rabs_triang|]. rewrite !Rabs_mult, (Rabs_pos_eq v), (Rabs_pos_eq m) by lra.
    assert (K1 : Rabs (r - v) * m <= A * u53 * w) by (unfold w; apply Rle_trans with (A * u53 * v * m); [apply Rmult_le_compat_r; lra|lra]).
    assert (K2 : v * Rabs (f - m) <= B * u53 * w) by (unfold w; apply Rle_trans with (v * (B * u53 * m)); [apply Rmult_le_compat_l; lra|lra]).
    assert (K3 : Rabs (r - v) * Rabs (f - m) <= 1 / 4 * u53 * w).
    { apply Rle_trans with ((A * u53 * v) * (B * u53 * m)); [apply Rmult_le_compat; auto; apply Rabs_pos|].
      replace (A * u53 * v * (B * u53 * m)) with (A * B * u53 * (u53 * w)) by (unfold w; ring).
      replace (1 / 4 * u53 * w) with (1 / 4 * (u53 * w)) by ring. apply Rmult_le_compat_r; [unfold u53; nra|].
      assert (0 <= A * B <= 8192) by nra. unfold u53. lra. }
    replace ((A + B + 1 / 4) * u53 * w) with (A * u53 * w + (B * u53 * w + 1 / 4 * u53 * w)) by field. lra. }
  set (aw := A * w). assert (AW : 0 <= aw <= 4096 * w) by (unfold aw; nra).
  set (bw := B * w). assert (BW : 0 <= bw <= 2 * w) by (unfold bw; nra).
  replace ((A + B + 1 / 4) * u53 * w) with (u53 * aw + u53 * bw + 1 / 4 * u53 * w) in E by (unfold aw, bw; field).
  replace ((A + B + 3 / 2) * u53 * w) with (u53 * aw + u53 * bw + 3 / 2 * u53 * w) by (unfold aw, bw; field).
  pose proof (ab _ _ E) as E'. unfold u53 in E'.
  assert (Pos : w / 2 <= r * f <= 2 * w) by lra.
  assert (L : bpow radix2 (-1022) <= w / 2).
  { assert (bpow radix2 (-1000) = 2 * bpow radix2 (-1001)) by (change (-1000)%Z with (1 + -1001)%Z; rewrite bpow_plus; reflexivity).
    assert (bpow radix2 (-1022) <= bpow radix2 (-1001)) by (apply bpow_le; lia). lra. }
  split.
  - apply is_mul; auto. rewrite Rabs_pos_eq by lra. assert (bpow radix2 1023 = 8192 * bpow radix2 1010) by (change 1023%Z with (13 + 1010)%Z; rewrite bpow_plus; f_equal; cbn; lra). lra.
  - pose proof (rnd_normal (r * f)) as RN. rewrite (Rabs_pos_eq (r * f)) in RN by lra. specialize (RN ltac:(lra)). apply ab in RN. apply ba. unfold u53 in *. lra.
Qed.

Lemma mul_zero : forall x y f, is_real x 0 -> is_real y f -> is_real (fmul x y) 0.
Proof.
  intros x y f Hx Hy. rewrite <- rnd_zero at 1. replace 0 with (0 * f) at 1 by ring. apply is_mul; auto. rewrite Rmult_0_l, Rabs_R0. apply bpow_ge_0.
Qed.

Lemma ratio_near : forall b, (1 < b <= 2 ^ 20)%Z -> exists r, is_real (f_ratio 1 b) r /\ Rabs (r - / IZR b) <= u53 * / IZR b.
Proof.
  intros b Bb. assert (B1 : 1 < IZR b) by (apply IZR_lt; lia). assert (Bi : / IZR b < 1) by (rewrite <- Rinv_1; apply Rinv_lt_contravar; lra).
  assert (B0 : 0 < / IZR b) by (apply Rinv_0_lt_compat; lra).
  destruct (div_real (f_of_Z 1) (f_of_Z b) 1 b) as (x & E & V & Fx).
  - apply holds_of_Z; reflexivity.
  - apply holds_of_Z. unfold small. lia.
  - lia.
  - unfold Rdiv. rewrite Rmult_1_l, Rabs_pos_eq; lra.
  - exists (rnd (1 / IZR b)). split; [exists x; auto|]. unfold Rdiv. rewrite Rmult_1_l.
    pose proof (rnd_normal (/ IZR b)) as RN. rewrite (Rabs_pos_eq (/ IZR b)) in RN by lra. apply RN.
    replace (bpow radix2 (-1022)) with (/ bpow radix2 1022) by (rewrite <- bpow_opp; reflexivity).
    apply Rinv_le; [lra|]. apply Rle_trans with (bpow radix2 20); [change (bpow radix2 20) with (IZR (2 ^ 20)); apply IZR_le; lia|apply bpow_le; lia].
Qed.

Lemma factor_near : forall exp10 e, ((e < -2 \/ 3 < e)%Z -> good_exp10 exp10 e) ->
  (e = 0%Z /\ forall x, exp_factor exp10 x e = x) \/
  exists y f, is_real y f /\ Rabs (f - powerRZ 10 e) <= 2 * u53 * powerRZ 10 e /\ forall x, exp_factor exp10 x e = fmul x y.
Proof.
  intros exp10 e G. unfold exp_factor.
  assert (I : forall b, (1 < b <= 2 ^ 20)%Z -> exists r, is_real (f_ratio 1 b) r /\ Rabs (r - / IZR b) <= 2 * u53 * / IZR b).
  { intros b Hb. destruct (ratio_near b Hb) as (r & R1 & R2). exists r. split; auto.
    assert (0 < / IZR b) by (apply Rinv_0_lt_compat; apply IZR_lt; lia). unfold u53 in *. lra. }
  assert (J : forall b, (1 < b < 2 ^ 20)%Z -> is_real (f_of_Z b) (IZR b) /\ Rabs (IZR b - IZR b) <= 2 * u53 * IZR b).
  { intros b Hb. split; [apply is_int, holds_of_Z; unfold small; lia|]. rewrite Rminus_diag_eq, Rabs_R0 by auto.
    assert (0 < IZR b) by (apply IZR_lt; lia). unfold u53. lra. }
  destruct (Z.eqb_spec e (-2)) as [->|N1].
  - right. destruct (I 100%Z ltac:(lia)) as (r & R1 & R2). exists (f_ratio 1 100), r. split; auto. split; auto.
    replace (powerRZ 10 (-2)) with (/ IZR 100) by (change (powerRZ 10 (-2)) with (/ (10 * (10 * 1))); f_equal; lra). auto.
  - destruct (Z.eqb_spec e (-1)) as [->|N2].
    + right. destruct (I 10%Z ltac:(lia)) as (r & R1 & R2). exists (f_ratio 1 10), r. split; auto. split; auto.
      replace (powerRZ 10 (-1)) with (/ IZR 10) by (change (powerRZ 10 (-1)) with (/ (10 * 1)); f_equal; lra). auto.
    + destruct (Z.eqb_spec e 0) as [->|N3]; [left; auto|]. right.
      destruct (Z.eqb_spec e 1) as [->|N4]; [|destruct (Z.eqb_spec e 2) as [->|N5]; [|destruct (Z.eqb_spec e 3) as [->|N6]]].
      * destruct (J 10%Z ltac:(lia)) as [J1 J2]. exists (f_of_Z 10), (IZR 10). split; auto. split; auto. replace (powerRZ 10 1) with (IZR 10) by (change (powerRZ 10 1) with (10 * 1); lra). auto.
      * destruct (J 100%Z ltac:(lia)) as [J1 J2]. exists (f_of_Z 100), (IZR 100). split; auto. split; auto. replace (powerRZ 10 2) with (IZR 100) by (change (powerRZ 10 2) with (10 * (10 * 1)); lra). auto.
      * destruct (J 1000%Z ltac:(lia)) as [J1 J2]. exists (f_of_Z 1000), (IZR 1000). split; auto. split; auto. replace (powerRZ 10 3) with (IZR 1000) by (change (powerRZ 10 3) with (10 * (10 * (10 * 1))); lra). auto.
      * destruct G as (r & R1 & R2); [lia|]. exists (exp10 e), r. split; auto.
Qed.

Lemma sign_real : forall s x r, is_real x r -> is_real (fmul (sign_f s) x) (match s with SMinus => - r | _ => r end).
Proof.
  intros s x r Hx.
  assert (Fm : rnd r = r).
  { destruct Hx as (b & _ & <- & _). apply round_generic; [apply valid_rnd_round_mode|apply generic_format_B2R]. }
  assert (Bd : Rabs r <= bpow radix2 1023 \/ bpow radix2 1023 < Rabs r) by (destruct (Rle_or_lt (Rabs r) (bpow radix2 1023)); auto).
  assert (Lt : Rlt_bool (Rabs r) (bpow radix2 1024) = true).
  { apply Rlt_bool_true. destruct Hx as (b & _ & <- & _). apply abs_B2R_lt_emax. }
  assert (One : is_real f_one 1) by (apply (is_int _ 1), holds_of_Z; reflexivity).
  assert (Mone : is_real (fneg f_one) (-1)) by (apply (is_int _ (-1)), (holds_neg f_one 1), holds_of_Z; reflexivity).
  assert (K : forall y c, is_real y c -> rnd (c * r) = c * r -> Rabs (c * r) = Rabs r -> is_real (fmul y x) (c * r)).
  { intros y c (a & -> & Va & Fa) E1 E2. destruct Hx as (b & -> & Vb & Fb). rewrite fmul_equiv.
    pose proof (Bmult_correct 53 1024 Hprec53 Hmax53 mode_NE a b) as C. rewrite Va, Vb in C. rewrite E1, E2, Lt in C. destruct C as (C1 & C2 & _).
    eexists. split; [reflexivity|]. rewrite Fa, Fb in C2. auto. }
  assert (P : is_real (fmul f_one x) r).
  { pose proof (K f_one 1 One) as P. rewrite Rmult_1_l in P. auto. }
  destruct s; cbn [sign_f]; auto.
  replace (- r) with (-1 * r) by ring. apply K; auto.
  - replace (-1 * r) with (- r) by ring. rewrite round_NE_opp. f_equal. exact Fm.
  - rewrite Rabs_mult. replace (-1) with (- (1)) by ring. rewrite Rabs_Ropp, Rabs_R1. ring.
Qed.

Theorem read_near : forall exp10 d rest, dec_ok d -> dec_end d rest -> (length (d_int d) <= 300)%nat -> (length (frac_digits d) <= 300)%nat ->
  (Z.abs (exp_value d) < 2 ^ 31)%Z -> ((exp_value d < -2 \/ 3 < exp_value d)%Z -> good_exp10 exp10 (exp_value d)) ->
  (dec_real d = 0 \/ bpow radix2 (-900) <= Rabs (dec_real d) <= bpow radix2 1000) ->
  snd (to_f64 exp10 (dec_text d ++ rest)) = rest /\
  exists r, is_real (fst (to_f64 exp10 (dec_text d ++ rest))) r /\
    Rabs (r - dec_real d) <= (5 / 2 * len (frac_digits d) + 3 * len (d_int d) + 11) * u53 * Rabs (dec_real d).
Proof.
  intros exp10 d rest O E L1 L2 V G Rg. rewrite read_stages by auto. cbn [fst snd]. split; auto.
  destruct (base_near d O L1 L2) as (r0 & B1 & B2).
  set (n := len (d_int d)) in *. set (k := len (frac_digits d)) in *.
  assert (Kb : 0 <= k <= 300) by (split; [apply len_pos|unfold k; change 300 with (IZR 300); apply IZR_le; lia]).
  assert (Nb : 0 <= n <= 300) by (split; [apply len_pos|unfold n; change 300 with (IZR 300); apply IZR_le; lia]).
  set (A := 5 / 2 * k + 3 * n + 5) in *.
  assert (Ab : 0 <= A <= 4000) by (unfold A; lra).
  assert (Pe : 0 < powerRZ 10 (exp_value d)) by (apply powerRZ_lt; lra).
  assert (Um : exists c, IZR (unit_value d) = c /\ 1 <= c <= bpow radix2 80 /\
     ((c = 1 /\ forall x, scaled d x = x) \/ exists y f, is_real y f /\ Rabs (f - c) <= u53 * c /\ forall x, scaled d x = fmul x y)).
  { exists (IZR (unit_value d)). split; auto. unfold scaled, unit_value. destruct O as (_ & _ & _ & _ & U). destruct (d_unit d) as [c|].
    - destruct (unit_of c) as [m|] eqn:M; [|congruence]. destruct (unit_facts c m M) as (_ & _ & U3 & f & r & U4 & U5 & U6).
      split; [split; [apply IZR_le; lia|change (bpow radix2 80) with (IZR (2 ^ 80)); apply IZR_le; lia]|]. right. exists f, r. rewrite U4. auto.
    - split; [split; [lra|change 1 with (bpow radix2 0); apply bpow_le; lia]|]. left. auto. }
  destruct Um as (c & Uc & Cb & Us).
  assert (Dr : dec_real d = (match d_sign d with SMinus => - (base_real d * powerRZ 10 (exp_value d) * c) | _ => base_real d * powerRZ 10 (exp_value d) * c end)).
  { unfold dec_real, base_real. rewrite Uc. destruct (d_sign d); cbn [signed]; try reflexivity. rewrite opp_IZR. unfold Rdiv. ring. }
  set (pe := powerRZ 10 (exp_value d)) in *.
  assert (Fin : exists r, is_real (scaled d (powered exp10 d (base_of d))) r /\ Rabs (r - base_real d * pe * c) <= (A + 6) * u53 * (base_real d * pe * c)).
  { assert (PF : (pe = 1 /\ forall x, powered exp10 d x = x) \/ exists y f, is_real y f /\ Rabs (f - pe) <= 2 * u53 * pe /\ forall x, powered exp10 d x = fmul x y).
    { unfold powered. destruct (d_exp d) eqn:X.
      - destruct (factor_near exp10 (exp_value d) G) as [[E0 F]|F]; auto. left. split; auto. unfold pe. rewrite E0. reflexivity.
      - left. split; auto. unfold pe, exp_value. rewrite X. reflexivity. }
    destruct B2 as [[Z ->]|[Bl Be]].
    - exists 0. rewrite Z, !Rmult_0_l, Rmult_0_r, Rminus_0_r, Rabs_R0. split; [|lra].
      assert (P0 : is_real (powered exp10 d (base_of d)) 0).
      { destruct PF as [[_ F]|(y & f & F1 & _ & F3)]; [rewrite F; auto|]. rewrite F3. apply mul_zero with f; auto. }
      destruct Us as [[_ F]|(y & f & F1 & _ & F3)]; [rewrite F; auto|]. rewrite F3. apply mul_zero with f; auto.
    - assert (V0 : 0 < base_real d) by (pose proof (bpow_gt_0 radix2 (-1000)); lra).
      assert (W0 : 0 < base_real d * pe) by (apply Rmult_lt_0_compat; auto).
      assert (Ra : Rabs (dec_real d) = base_real d * pe * c).
      { rewrite Dr. assert (0 < base_real d * pe * c) by (apply Rmult_lt_0_compat; lra). destruct (d_sign d); [| |rewrite Rabs_Ropp]; apply Rabs_pos_eq; lra. }
      assert (Rg' : bpow radix2 (-900) <= base_real d * pe * c <= bpow radix2 1000).
      { destruct Rg as [Z|Rg]; [|rewrite Ra in Rg; auto]. rewrite Z, Rabs_R0 in Ra. assert (0 < base_real d * pe * c) by (apply Rmult_lt_0_compat; lra). lra. }
      assert (Wr : bpow radix2 (-1000) <= base_real d * pe <= bpow radix2 1010).
      { split.
        - destruct (Rle_or_lt (bpow radix2 (-1000)) (base_real d * pe)) as [|Lo]; auto. exfalso.
          assert (base_real d * pe * c <= bpow radix2 (-1000) * bpow radix2 80) by (apply Rmult_le_compat; lra).
          rewrite <- bpow_plus in H. assert (bpow radix2 (-1000 + 80) < bpow radix2 (-900)) by (apply bpow_lt; lia). lra.
        - assert (base_real d * pe * 1 <= base_real d * pe * c) by (apply Rmult_le_compat_l; lra).
          assert (bpow radix2 1000 <= bpow radix2 1010) by (apply bpow_le; lia). lra. }
      assert (S1 : exists r1, is_real (powered exp10 d (base_of d)) r1 /\ Rabs (r1 - base_real d * pe) <= (A + 7 / 2) * u53 * (base_real d * pe)).
      { destruct PF as [[P1 F]|(y & f & F1 & F2 & F3)].
        - exists r0. rewrite F, P1, Rmult_1_r. split; auto. eapply Rle_trans; [apply Be|].
          apply Rmult_le_compat_r; [lra|]. apply Rmult_le_compat_r; [unfold u53; lra|lra].
        - destruct (mul_near (base_of d) y A 2 r0 f (base_real d) pe B1 F1 ltac:(lra) ltac:(lra) V0 Pe Wr Be F2) as [M1 M2].
          exists (rnd (r0 * f)). rewrite F3. split; auto. replace (A + 7 / 2) with (A + 2 + 3 / 2) by field. auto. }
      destruct S1 as (r1 & S1 & S2).
      destruct Us as [[P1 F]|(y & f & F1 & F2 & F3)].
      + exists r1. rewrite F, P1, Rmult_1_r. split; auto. eapply Rle_trans; [apply S2|].
        apply Rmult_le_compat_r; [lra|]. apply Rmult_le_compat_r; [unfold u53; lra|lra].
      + destruct (mul_near (powered exp10 d (base_of d)) y (A + 7 / 2) 1 r1 f (base_real d * pe) c S1 F1 ltac:(lra) ltac:(lra) W0 ltac:(lra)) as [M1 M2]; auto.
        * destruct Rg' as [? Hi]. split; [|assert (bpow radix2 1000 <= bpow radix2 1010) by (apply bpow_le; lia); lra].
          assert (bpow radix2 (-1000) <= bpow radix2 (-900)) by (apply bpow_le; lia). lra.
        * rewrite Rmult_1_l. auto.
        * exists (rnd (r1 * f)). rewrite F3. split; auto. replace (A + 6) with (A + 7 / 2 + 1 + 3 / 2) by field. auto. }
  destruct Fin as (r & F1 & F2). pose proof (sign_real (d_sign d) _ r F1) as SR.
  eexists. split; [apply SR|].
  assert (W : 0 <= base_real d * pe * c).
  { apply Rmult_le_pos; [|lra]. apply Rmult_le_pos; [|lra]. destruct B2 as [[-> _]|[Bl _]]; [lra|]. pose proof (bpow_gt_0 radix2 (-1000)). lra. }
  replace (5 / 2 * k + 3 * n + 11) with (A + 6) by (unfold A; field).
  rewrite Dr. destruct (d_sign d).
  - rewrite (Rabs_pos_eq (base_real d * pe * c)) by auto. auto.
  - rewrite (Rabs_pos_eq (base_real d * pe * c)) by auto. auto.
  - rewrite Rabs_Ropp, (Rabs_pos_eq (base_real d * pe * c)) by auto. replace (- r - - (base_real d * pe * c)) with (- (r - base_real d * pe * c)) by ring.
    rewrite Rabs_Ropp. auto.
Qed.
