(** Proofs about the keys and the comparison of doubles. *)
From Coq Require Import List NArith ZArith Bool Lia SpecFloat.
From Coq Require Import ZifyBool ZifyN ZifyNat.
Import ListNotations.
From Verif Require Import Base FloatModel FloatSpec.
Open Scope Z_scope.

(** The pattern as sign, biased exponent and mantissa. *)
Lemma bits_parts : forall x, (x < 2 ^ 64)%N ->
  Z.of_N x = sign_field x * 2 ^ 63 + exp_field x * 2 ^ 52 + man_field x /\
  (sign_field x = 0 \/ sign_field x = 1) /\ 0 <= exp_field x < 2048 /\ 0 <= man_field x < 2 ^ 52.
Proof.
  intros x Hx. unfold sign_field, exp_field, man_field.
  assert (Hz : 0 <= Z.of_N x < 2 ^ 64) by lia.
  set (z := Z.of_N x) in *. clearbody z. clear Hx.
  change (2 ^ 63) with (2 ^ 52 * 2048). change (2 ^ 64) with (2 ^ 52 * 2048 * 2) in Hz.
  generalize dependent (2 ^ 52); intros p Hz.
  assert (0 < p) by lia.
  rewrite <- Z.div_div by lia.
  pose proof (Z.div_mod z p ltac:(lia)). pose proof (Z.mod_pos_bound z p ltac:(lia)).
  set (q := z / p) in *. clearbody q.
  pose proof (Z.div_mod q 2048 ltac:(lia)). pose proof (Z.mod_pos_bound q 2048 ltac:(lia)).
  set (s := q / 2048) in *. clearbody s.
  assert (0 <= s < 2) by nia.
  rewrite (Z.mod_small s 2) by lia. split; [nia | lia].
Qed.

Lemma testbit63 : forall x, (x < 2 ^ 64)%N -> N.testbit x 63 = (sign_field x =? 1).
Proof.
  intros x Hx. destruct (bits_parts x Hx) as (_ & Hs & _).
  assert (E : Z.testbit (Z.of_N x) 63 = N.testbit x 63).
  { change 63 with (Z.of_N 63). apply Z.testbit_of_N. }
  rewrite <- E. rewrite Z.testbit_eqb by lia. fold (sign_field x). reflexivity.
Qed.

Lemma key_value : forall x, (x < 2 ^ 64)%N ->
  Z.of_N (ulp_key_bits x) =
  if sign_field x =? 1 then 2 ^ 64 - 1 - Z.of_N x else Z.of_N x + 2 ^ 63.
Proof.
  intros x Hx. unfold ulp_key_bits. rewrite testbit63 by auto.
  destruct (sign_field x =? 1) eqn:E.
  - assert (H : N.lxor x (2 ^ 64 - 1) = (2 ^ 64 - 1 - x)%N).
    { change (2 ^ 64 - 1)%N with (N.ones 64). change (N.lxor x (N.ones 64)) with (N.lnot x 64).
      destruct (N.eq_dec x 0) as [->|Hn]; [reflexivity|].
      apply N.lnot_sub_low. apply N.log2_lt_pow2; lia. }
    rewrite H. lia.
  - assert (Hl : N.land x (2 ^ 63) = 0%N).
    { apply N.bits_inj_0. intros n. rewrite N.land_spec. destruct (N.eq_dec n 63) as [->|Hn].
      - rewrite testbit63, E by auto. reflexivity.
      - rewrite N.pow2_bits_false by auto. apply andb_false_r. }
    rewrite <- N.lxor_lor by auto. rewrite <- N.add_nocarry_lxor by auto. lia.
Qed.

(** Normalised exponent and mantissa. *)
Definition nexp (x : N) : Z := Z.max 1 (exp_field x).
Definition nman (x : N) : Z := if exp_field x =? 0 then man_field x else man_field x + 2 ^ 52.

Lemma magn_norm : forall x, (x < 2 ^ 64)%N -> magn x = nman x * 2 ^ (nexp x - 1) /\
  0 <= nman x < 2 ^ 53 /\ 1 <= nexp x /\ (1 < nexp x -> 2 ^ 52 <= nman x).
Proof.
  intros x Hx. destruct (bits_parts x Hx) as (_ & _ & He & Hm).
  unfold magn, nman, nexp. destruct (Z.eqb_spec (exp_field x) 0) as [E|E].
  - rewrite E. rewrite Z.max_l by lia. change (2 ^ (1 - 1)) with 1. repeat split; try lia.
  - rewrite Z.max_r by lia. repeat split; lia.
Qed.

Lemma norm_compare : forall m1 e1 m2 e2,
  0 <= m1 < 2 ^ 53 -> 0 <= m2 < 2 ^ 53 -> 1 <= e1 -> 1 <= e2 ->
  (1 < e1 -> 2 ^ 52 <= m1) -> (1 < e2 -> 2 ^ 52 <= m2) ->
  (m1 * 2 ^ (e1 - 1) ?= m2 * 2 ^ (e2 - 1)) = match e1 ?= e2 with Eq => m1 ?= m2 | c => c end.
Proof.
  assert (L : forall m1 e1 m2 e2,
    0 <= m1 < 2 ^ 53 -> 0 <= m2 -> 1 <= e1 -> e1 < e2 -> 2 ^ 52 <= m2 ->
    m1 * 2 ^ (e1 - 1) < m2 * 2 ^ (e2 - 1)).
  { intros m1 e1 m2 e2 H1 H2 H3 H4 H5.
    replace (e2 - 1) with ((e1 - 1) + 1 + (e2 - e1 - 1)) by lia.
    rewrite !Z.pow_add_r by lia. pose proof (Z.pow_pos_nonneg 2 (e1 - 1) ltac:(lia) ltac:(lia)).
    pose proof (Z.pow_pos_nonneg 2 (e2 - e1 - 1) ltac:(lia) ltac:(lia)).
    change (2 ^ 53) with (2 * 2 ^ 52) in H1. change (2 ^ 1) with 2.
    generalize dependent (2 ^ 52). intros p ? ?. 
    set (a := 2 ^ (e1 - 1)) in *. set (b := 2 ^ (e2 - e1 - 1)) in *. clearbody a b.
    apply Z.lt_le_trans with (2 * p * a); [nia|].
    apply Z.le_trans with (m2 * (a * 2 * 1)); [nia|]. apply Z.mul_le_mono_nonneg_l; nia. }
  intros. destruct (Z.compare_spec e1 e2) as [E|E|E].
  - subst. symmetry. apply Zmult_compare_compat_r. apply Z.lt_gt. apply Z.pow_pos_nonneg; lia.
  - apply Z.compare_lt_iff. apply L; lia.
  - apply Z.compare_gt_iff. apply L; lia.
Qed.

Lemma magn_compare : forall x y, (x < 2 ^ 64)%N -> (y < 2 ^ 64)%N ->
  (magn x ?= magn y) = match nexp x ?= nexp y with Eq => nman x ?= nman y | c => c end.
Proof.
  intros x y Hx Hy. destruct (magn_norm x Hx) as (-> & ? & ? & ?). destruct (magn_norm y Hy) as (-> & ? & ? & ?).
  apply norm_compare; auto.
Qed.

(** The order of magnitudes is the order of the low 63 bits. *)
Lemma magn_low : forall x y, (x < 2 ^ 64)%N -> (y < 2 ^ 64)%N ->
  (magn x ?= magn y) = (exp_field x * 2 ^ 52 + man_field x ?= exp_field y * 2 ^ 52 + man_field y).
Proof.
  intros x y Hx Hy. rewrite magn_compare by auto.
  destruct (bits_parts x Hx) as (_ & _ & He & Hm). destruct (bits_parts y Hy) as (_ & _ & He' & Hm').
  unfold nexp, nman.
  destruct (Z.eqb_spec (exp_field x) 0), (Z.eqb_spec (exp_field y) 0);
    destruct (Z.compare_spec (Z.max 1 (exp_field x)) (Z.max 1 (exp_field y)));
    match goal with |- ?l = (?a ?= ?b) => destruct (Z.compare_spec a b) end;
    try (apply Z.compare_eq_iff; lia); try (apply Z.compare_lt_iff; lia); try (apply Z.compare_gt_iff; lia);
    try reflexivity; exfalso; nia.
Qed.

Lemma magn_nonneg x : (x < 2 ^ 64)%N -> 0 <= magn x.
Proof. intros H. destruct (magn_norm x H) as (-> & ? & _). apply Z.mul_nonneg_nonneg; [lia|]. apply Z.pow_nonneg. lia. Qed.

Lemma magn_zero x : (x < 2 ^ 64)%N -> magn x = 0 -> exp_field x = 0 /\ man_field x = 0.
Proof.
  intros H E. destruct (bits_parts x H) as (_ & _ & He & Hm). unfold magn in E.
  destruct (Z.eqb_spec (exp_field x) 0); auto. exfalso.
  pose proof (Z.pow_pos_nonneg 2 (exp_field x - 1) ltac:(lia) ltac:(lia)). nia.
Qed.

Theorem key_monotone : forall x y, (x < 2 ^ 64)%N -> (y < 2 ^ 64)%N ->
  dval x < dval y -> (ulp_key_bits x < ulp_key_bits y)%N.
Proof.
  intros x y Hx Hy H. enough (Z.of_N (ulp_key_bits x) < Z.of_N (ulp_key_bits y)) by lia.
  rewrite !key_value by auto. unfold dval in H.
  pose proof (magn_low x y Hx Hy) as L. pose proof (magn_nonneg x Hx). pose proof (magn_nonneg y Hy).
  destruct (bits_parts x Hx) as (-> & Hs & He & Hm). destruct (bits_parts y Hy) as (-> & Hs' & He' & Hm').
  destruct (Z.eqb_spec (sign_field x) 1), (Z.eqb_spec (sign_field y) 1); try lia.
  - assert (magn x ?= magn y = Gt) as G by (apply Z.compare_gt_iff; lia).
    rewrite G in L. symmetry in L. apply (proj1 (Z.compare_gt_iff _ _)) in L. lia.
  - assert (magn x ?= magn y = Lt) as G by (apply Z.compare_lt_iff; lia).
    rewrite G in L. symmetry in L. apply (proj1 (Z.compare_lt_iff _ _)) in L. lia.
Qed.

Theorem key_injective : forall x y, (x < 2 ^ 64)%N -> (y < 2 ^ 64)%N ->
  ulp_key_bits x = ulp_key_bits y -> x = y.
Proof.
  intros x y Hx Hy H. apply (f_equal Z.of_N) in H. rewrite !key_value in H by auto.
  destruct (bits_parts x Hx) as (Ex & Hs & He & Hm). destruct (bits_parts y Hy) as (Ey & Hs' & He' & Hm').
  destruct (Z.eqb_spec (sign_field x) 1), (Z.eqb_spec (sign_field y) 1); nia.
Qed.

(** Same value means same pattern, except for the two zeros. *)
Lemma dval_inj : forall x y, (x < 2 ^ 64)%N -> (y < 2 ^ 64)%N -> dval x = dval y -> x = y \/ dval x = 0.
Proof.
  intros x y Hx Hy H. destruct (Z.eq_dec (dval x) 0) as [|Hn]; auto. left.
  pose proof (magn_nonneg x Hx). pose proof (magn_nonneg y Hy).
  pose proof (magn_low x y Hx Hy) as L.
  assert (sign_field x = sign_field y /\ magn x = magn y) as [E1 E2].
  { unfold dval in *. destruct (bits_parts x Hx) as (_ & Hs & _). destruct (bits_parts y Hy) as (_ & Hs' & _).
    destruct (Z.eqb_spec (sign_field x) 1), (Z.eqb_spec (sign_field y) 1); split; try lia. }
  rewrite E2, Z.compare_refl in L. symmetry in L. apply Z.compare_eq_iff in L.
  destruct (bits_parts x Hx) as (Ex & Hs & He & Hm). destruct (bits_parts y Hy) as (Ey & Hs' & He' & Hm').
  nia.
Qed.

(** The model's decoding, in terms of the fields. *)
Lemma f_of_bits_fields : forall x, (x < 2 ^ 64)%N -> ~ is_nan_bits x ->
  f_of_bits x =
  if exp_field x =? 2047 then S754_infinity (sign_field x =? 1)
  else match nman x with
       | Zpos p => S754_finite (sign_field x =? 1) p (nexp x - 1075)
       | _ => S754_zero (sign_field x =? 1)
       end.
Proof.
  intros x Hx Hn. unfold f_of_bits. rewrite testbit63 by auto.
  destruct (bits_parts x Hx) as (_ & _ & He & Hm).
  assert (E1 : Z.of_N ((x / 2 ^ 52) mod 2048)%N = exp_field x).
  { rewrite N2Z.inj_mod, N2Z.inj_div. reflexivity. }
  assert (E2 : Z.of_N (x mod 2 ^ 52)%N = man_field x).
  { rewrite N2Z.inj_mod. reflexivity. }
  set (e := ((x / 2 ^ 52) mod 2048)%N) in *. set (m := (x mod 2 ^ 52)%N) in *. clearbody e m.
  cbv zeta. destruct (N.eqb_spec e 2047) as [E|E].
  - replace (exp_field x =? 2047) with true by lia. destruct (N.eqb_spec m 0) as [E'|E']; auto.
    exfalso. apply Hn. split; lia.
  - replace (exp_field x =? 2047) with false by lia. unfold nman, nexp.
    destruct (N.eqb_spec e 0) as [E'|E'].
    + replace (exp_field x =? 0) with true by lia. rewrite Z.max_l by lia.
      destruct m, (man_field x); try lia; auto. f_equal. lia.
    + replace (exp_field x =? 0) with false by lia. rewrite Z.max_r by lia.
      destruct (m + 2 ^ 52)%N eqn:Em, (man_field x + 2 ^ 52) eqn:Ez; try lia.
      f_equal; lia.
Qed.

Lemma nman_zero : forall x, (x < 2 ^ 64)%N -> nman x <= 0 -> magn x = 0.
Proof.
  intros x Hx H. destruct (magn_norm x Hx) as (-> & ? & _). replace (nman x) with 0 by lia. reflexivity.
Qed.

Lemma inf_max : forall x y, (x < 2 ^ 64)%N -> (y < 2 ^ 64)%N -> ~ is_nan_bits y ->
  exp_field x = 2047 -> exp_field y <> 2047 -> magn y < magn x.
Proof.
  intros x y Hx Hy Hn E1 E2. unfold Z.lt. rewrite magn_low by auto. apply (proj2 (Z.compare_lt_iff _ _)).
  destruct (bits_parts x Hx) as (_ & Hs & He & Hm). destruct (bits_parts y Hy) as (_ & Hs' & He' & Hm'). nia.
Qed.

Lemma inf_same : forall x y, (x < 2 ^ 64)%N -> (y < 2 ^ 64)%N -> ~ is_nan_bits x -> ~ is_nan_bits y ->
  exp_field x = 2047 -> exp_field y = 2047 -> magn y = magn x.
Proof.
  intros x y Hx Hy Hn1 Hn2 E1 E2. unfold magn. rewrite E1, E2.
  assert (man_field x = 0) by (destruct (Z.eq_dec (man_field x) 0); auto; exfalso; apply Hn1; split; auto).
  assert (man_field y = 0) by (destruct (Z.eq_dec (man_field y) 0); auto; exfalso; apply Hn2; split; auto).
  rewrite H, H0. reflexivity.
Qed.

(** Comparison of two patterns that are not NaN is the comparison of their values. *)
Theorem sfcompare_value : forall x y, (x < 2 ^ 64)%N -> (y < 2 ^ 64)%N -> ~ is_nan_bits x -> ~ is_nan_bits y ->
  SFcompare (f_of_bits x) (f_of_bits y) = Some (dval x ?= dval y).
Proof.
  intros x y Hx Hy Nx Ny. rewrite !f_of_bits_fields by auto. unfold dval.
  pose proof (magn_compare x y Hx Hy) as L. pose proof (magn_norm x Hx) as (Mx & Bx & Ex & Cx).
  pose proof (magn_norm y Hy) as (My & By & Ey & Cy).
  pose proof (magn_nonneg x Hx). pose proof (magn_nonneg y Hy).
  pose proof (nman_zero x Hx) as Zx. pose proof (nman_zero y Hy) as Zy.
  assert (Px : 0 < nman x -> 0 < magn x).
  { intros. rewrite Mx. apply Z.mul_pos_pos; auto. apply Z.pow_pos_nonneg; lia. }
  assert (Py : 0 < nman y -> 0 < magn y).
  { intros. rewrite My. apply Z.mul_pos_pos; auto. apply Z.pow_pos_nonneg; lia. }
  clear Mx My.
  destruct (Z.eqb_spec (exp_field x) 2047) as [Ix|Ix], (Z.eqb_spec (exp_field y) 2047) as [Iy|Iy].
  - rewrite (inf_same x y) by auto.
    assert (0 < magn x) by (apply Px; unfold nman; rewrite Ix; cbn [Z.eqb]; destruct (bits_parts x Hx); lia).
    destruct (sign_field x =? 1), (sign_field y =? 1); cbn [SFcompare]; f_equal; symmetry;
      rewrite ?Z.compare_refl; auto; try (apply Z.compare_lt_iff; lia); apply Z.compare_gt_iff; lia.
  - pose proof (inf_max x y Hx Hy Ny Ix Iy).
    destruct (sign_field x =? 1), (sign_field y =? 1); destruct (nman y); cbn [SFcompare]; f_equal; symmetry;
      try (apply Z.compare_lt_iff; lia); apply Z.compare_gt_iff; lia.
  - pose proof (inf_max y x Hy Hx Nx Iy Ix).
    destruct (sign_field x =? 1), (sign_field y =? 1); destruct (nman x); cbn [SFcompare]; f_equal; symmetry;
      try (apply Z.compare_lt_iff; lia); apply Z.compare_gt_iff; lia.
  - assert (Sub : (nexp x - 1075 ?= nexp y - 1075) = (nexp x ?= nexp y)).
    { destruct (Z.compare_spec (nexp x) (nexp y)); [apply Z.compare_eq_iff|apply (proj2 (Z.compare_lt_iff _ _))|apply (proj2 (Z.compare_gt_iff _ _))]; lia. }
    destruct (nman x) as [|p|p] eqn:Enx; [|cbn [Z.le] in *|lia];
    (destruct (nman y) as [|q|q] eqn:Eny; [| |lia]);
    destruct (sign_field x =? 1), (sign_field y =? 1); cbn [SFcompare]; f_equal; rewrite ?Sub;
    try (symmetry; first [apply Z.compare_eq_iff; lia | apply Z.compare_lt_iff; lia | apply Z.compare_gt_iff; lia]).
    + rewrite Z.compare_opp. rewrite (Z.compare_antisym (magn x)), L.
      change (Pos.compare_cont Eq p q) with (Z.pos p ?= Z.pos q). destruct (nexp x ?= nexp y); reflexivity.
    + rewrite L. reflexivity.
Qed.

Theorem fcmp_value : forall x y, (x < 2 ^ 64)%N -> (y < 2 ^ 64)%N -> ~ is_nan_bits x -> ~ is_nan_bits y ->
  fcmp (f_of_bits x) (f_of_bits y) = (dval x ?= dval y).
Proof.
  intros x y Hx Hy Nx Ny. unfold fcmp, f_eqb, f_ltb, SFeqb, SFltb. rewrite !sfcompare_value by auto.
  rewrite (Z.compare_antisym (dval x) (dval y)). destruct (dval x ?= dval y); reflexivity.
Qed.

(** Every valid float is the decoding of its own bits. *)
Lemma digits2_size : forall p, Zpos (digits2_pos p) = Z.log2 (Zpos p) + 1.
Proof.
  induction p; cbn [digits2_pos]; rewrite ?Pos2Z.inj_succ.
  - rewrite IHp. rewrite (Pos2Z.inj_xI p). rewrite Z.log2_succ_double by lia. lia.
  - rewrite IHp. rewrite (Pos2Z.inj_xO p). rewrite Z.log2_double by lia. lia.
  - reflexivity.
Qed.

Lemma bounded_range : forall m e, bounded 53 1024 m e = true ->
  Zpos m < 2 ^ 53 /\ -1074 <= e <= 971 /\ (-1074 < e -> 2 ^ 52 <= Zpos m).
Proof.
  intros m e H. unfold bounded, canonical_mantissa in H. apply andb_true_iff in H as [H1 H2].
  apply Zeq_bool_eq in H1. apply Zle_bool_imp_le in H2.
  unfold fexp, emin in H1. change (3 - 1024 - 53) with (-1074) in H1. rewrite digits2_size in H1.
  assert (L : Z.log2 (Zpos m) < 53) by lia.
  split; [|split; [lia|]].
  - apply Z.log2_lt_pow2; lia.
  - intros He. assert (Z.log2 (Zpos m) = 52) by lia.
    destruct (Z.log2_spec (Zpos m) ltac:(lia)) as [? _]. rewrite H in H0. exact H0.
Qed.

Lemma fields_of : forall s e m, (s = 0 \/ s = 1) -> 0 <= e < 2048 -> 0 <= m < 2 ^ 52 ->
  let x := Z.to_N (s * 2 ^ 63 + e * 2 ^ 52 + m) in
  (x < 2 ^ 64)%N /\ sign_field x = s /\ exp_field x = e /\ man_field x = m.
Proof.
  intros s e m Hs He Hm x. assert (Hx : (x < 2 ^ 64)%N) by (subst x; lia). split; auto.
  assert (Ex : Z.of_N x = s * 2 ^ 63 + e * 2 ^ 52 + m) by (subst x; lia).
  destruct (bits_parts x Hx) as (E & Hs' & He' & Hm'). rewrite Ex in E. lia.
Qed.

Lemma f_bits_fields : forall x, valid_binary 53 1024 x = true -> x <> S754_nan ->
  exists s e m, (s = 0 \/ s = 1) /\ 0 <= e < 2048 /\ 0 <= m < 2 ^ 52 /\
    f_bits x = Z.to_N (s * 2 ^ 63 + e * 2 ^ 52 + m) /\ (e = 2047 -> m = 0) /\
    x = if e =? 2047 then S754_infinity (s =? 1)
        else match (if e =? 0 then m else m + 2 ^ 52) with
             | Zpos p => S754_finite (s =? 1) p (Z.max 1 e - 1075)
             | _ => S754_zero (s =? 1)
             end.
Proof.
  intros x V Nn. destruct x as [s|s| |s m e]; try congruence.
  - exists (if s then 1 else 0), 0, 0. destruct s; cbn; repeat split; auto; lia.
  - exists (if s then 1 else 0), 2047, 0. destruct s; cbn; repeat split; auto; lia.
  - cbn [valid_binary] in V. apply bounded_range in V as (H1 & H2 & H3).
    exists (if s then 1 else 0). unfold f_bits.
    assert (Es : ((if s then 1 else 0) =? 1) = s) by (destruct s; reflexivity). rewrite Es.
    destruct (Pos.leb_spec (2 ^ 52) m) as [L|L].
    + exists (e + 1075), (Zpos m - 2 ^ 52). split; [destruct s; auto|]. split; [lia|]. split; [lia|].
      split. { destruct s; lia. }
      split; [lia|]. replace (e + 1075 =? 2047) with false by lia. replace (e + 1075 =? 0) with false by lia.
      replace (Zpos m - 2 ^ 52 + 2 ^ 52) with (Zpos m) by lia. f_equal. lia.
    + assert (e = -1074) by lia. subst e.
      exists 0, (Zpos m). split; [destruct s; auto|]. split; [lia|]. split; [lia|].
      split. { destruct s; lia. }
      split; [lia|]. reflexivity.
Qed.

Theorem f_bits_roundtrip : forall x, valid_binary 53 1024 x = true -> x <> S754_nan ->
  (f_bits x < 2 ^ 64)%N /\ ~ is_nan_bits (f_bits x) /\ f_of_bits (f_bits x) = x.
Proof.
  intros x V Nn. destruct (f_bits_fields x V Nn) as (s & e & m & Hs & He & Hm & E & Hi & Ex).
  destruct (fields_of s e m Hs He Hm) as (B & F1 & F2 & F3). rewrite <- E in *.
  assert (NN : ~ is_nan_bits (f_bits x)).
  { intros [A1 A2]. rewrite F2 in A1. rewrite F3 in A2. auto. }
  split; auto. split; auto. rewrite f_of_bits_fields by auto. unfold nman, nexp. rewrite F1, F2, F3. auto.
Qed.

(** Key comparison against comparison of the numbers. *)
Theorem key_compare : forall x y, valid_binary 53 1024 x = true -> valid_binary 53 1024 y = true ->
  x <> S754_nan -> y <> S754_nan ->
  ~ (exists s t, x = S754_zero s /\ y = S754_zero t /\ s <> t) ->
  (ulp_to_ulong x ?= ulp_to_ulong y)%N = fcmp x y.
Proof.
  intros x y Vx Vy Nx Ny Hz.
  destruct (f_bits_roundtrip x Vx Nx) as (Bx & Mx & Rx). destruct (f_bits_roundtrip y Vy Ny) as (By & My & Ry).
  rewrite <- Rx at 2. rewrite <- Ry at 2. rewrite fcmp_value by auto. unfold ulp_to_ulong.
  destruct (Z.compare_spec (dval (f_bits x)) (dval (f_bits y))) as [E|E|E].
  - destruct (dval_inj _ _ Bx By E) as [E'|E']; [rewrite E'; apply N.compare_refl|].
    assert (Z0 : forall z, valid_binary 53 1024 z = true -> z <> S754_nan -> dval (f_bits z) = 0 ->
      exists s, z = S754_zero s).
    { clear. intros z V Nz D. destruct (f_bits_roundtrip z V Nz) as (B & M & R).
      assert (G : magn (f_bits z) = 0) by (unfold dval in D; destruct (sign_field (f_bits z) =? 1); lia).
      apply magn_zero in G as [G1 G2]; auto.
      rewrite f_of_bits_fields in R by auto. unfold nman in R. rewrite G1, G2 in R. cbn in R. eauto. }
    destruct (Z0 x Vx Nx E') as [s Es]. rewrite E in E'. destruct (Z0 y Vy Ny E') as [t Et].
    destruct (Bool.bool_dec s t) as [->|Hn]; [subst; apply N.compare_refl|].
    exfalso. apply Hz. exists s, t. auto.
  - apply N.compare_lt_iff. apply key_monotone; auto.
  - apply N.compare_gt_iff. apply key_monotone; auto.
Qed.
