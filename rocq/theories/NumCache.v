(** The float sort key of the numeric comparator on ordinary whole numbers. *)
From Coq Require Import List NArith ZArith QArith Bool Arith Lia SpecFloat.
From Coq Require Import ZifyBool ZifyN ZifyNat.
Import ListNotations.
From Verif Require Import Base StrModel FloatModel FloatSpec FloatProofs FloatValid FloatInt
  CompModel CompSpec OrdProofs CompProofs NumProofs CacheProofs.
Close Scope Q_scope.
Close Scope Z_scope.

Lemma dval_ge : forall l acc, Forall digit_byte l -> (0 <= acc)%Z -> (acc <= dval_ l acc)%Z.
Proof.
  intros l acc H Ha. rewrite dval_acc. pose proof (dval_bound l H). nia.
Qed.

Lemma int_loop_holds : forall l acc x, Forall digit_byte l -> holds_int x acc -> (0 <= acc)%Z -> (dval_ l acc < 2 ^ 53)%Z ->
  snd (f64_int_loop l x) = [] /\ holds_int (fst (f64_int_loop l x)) (dval_ l acc).
Proof.
  intros l acc x H. revert acc x. induction H as [|c l Hc Hl IH]; intros acc x Hx Ha Hb; cbn [f64_int_loop]; auto.
  assert (D : is_digit c = true) by (apply digit_is; auto). rewrite D.
  change (dval_ (c :: l) acc) with (dval_ l (acc * 10 + (Z.of_N c - 48))) in *. unfold digit_byte in Hc.
  pose proof (dval_ge l (acc * 10 + (Z.of_N c - 48)) Hl ltac:(lia)) as G.
  apply IH; auto; try lia.
  apply holds_add.
  - apply holds_mul; auto; [apply holds_of_Z; reflexivity|unfold small; lia].
  - apply holds_of_Z. unfold small. lia.
  - unfold small. lia.
Qed.

Lemma zeros_loop : forall k, f64_int_loop (repeat 48%N k) f_zero = (f_zero, []).
Proof. induction k; auto. Qed.

Definition signed_val (n : numeral) : Z := if n_neg n then (- digits_val (n_int n))%Z else digits_val (n_int n).

Lemma whole_holds : forall exp10 n, whole_number n ->
  holds_int (to_f64_lossy exp10 (numeral_text n)) (signed_val n) /\
  (signed_val n = 0%Z -> to_f64_lossy exp10 (numeral_text n) = f_zero).
Proof.
  intros exp10 n (Hb & Hi & Hf & Hv & Hn). unfold numeral_text, signed_val. rewrite Hb, Hf, app_nil_r. cbn [app].
  rewrite digits_val_dg, (dg_digit_id (n_int n)) in * by auto.
  set (l := n_int n) in *.
  pose proof (dval_bound l Hi) as B.
  assert (One : holds_int f_one 1) by (apply holds_of_Z; reflexivity).
  unfold to_f64_lossy.
  assert (K : forall neg c r, (neg, c) = (f_one, l) \/ (neg, c) = (fneg f_one, l) ->
    fst (let '(ret, curr) := f64_int_loop c f_zero in
      let '(ret, curr) := match curr with d :: r => if (d =? 46)%N then f64_frac_loop r ret (f_ratio 1 10) else (ret, curr) | [] => (ret, curr) end in
      let '(ret, curr) := if is_exp curr then r ret curr else (ret, curr) in
      let '(ret, curr) := match curr with
                          | c :: r => match suffix_valf c with Some mul => (fmul ret mul, r) | None => (ret, curr) end
                          | [] => (ret, curr) end in
      (fmul neg ret, curr)) = fmul neg (fst (f64_int_loop l f_zero))).
  { intros neg c r Hc. assert (c = l) by (destruct Hc as [E|E]; injection E; auto). subst c.
    destruct (int_loop_holds l 0 f_zero Hi holds_zero ltac:(lia) Hv) as [S _].
    destruct (f64_int_loop l f_zero) as [ret cur]. cbn [snd] in S. subst cur. reflexivity. }
  destruct (int_loop_holds l 0 f_zero Hi holds_zero ltac:(lia) Hv) as [S HL].
  destruct (n_neg n).
  - cbn [app to_f64]. change (45 =? 43)%N with false. change (45 =? 45)%N with true. cbv iota.
    rewrite (K (fneg f_one) l _ (or_intror eq_refl)). split.
    + replace (- dval_ l 0)%Z with (-1 * dval_ l 0)%Z by lia. apply holds_mul; [|exact HL|].
      * apply (holds_neg f_one 1). auto.
      * unfold small. lia.
    + intros E. exfalso. apply Hn; auto. lia.
  - cbn [app]. clearbody l. destruct l as [|c r].
    + split; [apply holds_zero|reflexivity].
    + assert (Hc : digit_byte c) by (inversion Hi; auto). unfold digit_byte in Hc.
      cbn [to_f64].
      replace (c =? 43)%N with false by lia. replace (c =? 45)%N with false by lia.
      rewrite (K f_one (c :: r) _ (or_introl eq_refl)). split.
      * replace (dval_ (c :: r) 0) with (1 * dval_ (c :: r) 0)%Z by lia. apply holds_mul; [exact One|exact HL|]. unfold small. lia.
      * intros E. apply dval_zero_iff in E; auto. rewrite E, zeros_loop. reflexivity.
Qed.

Theorem numeric_key_safe : forall exp10 a b, whole_number a -> whole_number b ->
  cache_safe exp10 CNumeric (numeral_text a) (numeral_text b).
Proof.
  intros exp10 a b Ha Hb. destruct (whole_holds exp10 a Ha) as [HA ZA]. destruct (whole_holds exp10 b Hb) as [HB ZB].
  cbn [cache_safe]. destruct (Z.eq_dec (signed_val a) (signed_val b)) as [E|E].
  - right. destruct (Z.eq_dec (signed_val a) 0) as [Z0|Z0].
    + rewrite ZA, ZB by congruence. auto.
    + rewrite E in HA, Z0. rewrite (holds_unique _ _ _ HA HB Z0). auto.
  - left. destruct (holds_valid _ _ HA) as [Va Na]. destruct (holds_valid _ _ HB) as [Vb Nb].
    rewrite key_compare; auto.
    2:{ intros (s & t & E1 & E2 & _). apply E. rewrite (holds_zero_inv _ _ _ HA E1), (holds_zero_inv _ _ _ HB E2). auto. }
    rewrite (holds_fcmp _ _ _ _ HA HB).
    destruct Ha as (Ba & Ia & Fa & La & Ma). destruct Hb as (Bb & Ib & Fb & Lb & Mb).
    symmetry. assert (Oa : numeral_ok a).
    { unfold numeral_ok. rewrite Ba, Fa. repeat split; auto. eapply Forall_impl; [|apply Ia]. auto. }
    assert (Ob : numeral_ok b).
    { unfold numeral_ok. rewrite Bb, Fb. repeat split; auto. eapply Forall_impl; [|apply Ib]. auto. }
    assert (V : forall n, n_frac n = None -> numeral_abs n = Qmake (digits_val (n_int n)) 1).
    { intros n Hn. unfold numeral_abs, frac_of. rewrite Hn, app_nil_r. auto. }
    rewrite (proj2 (signed_value a b Oa Ob)).
    + unfold Qcompare, numeral_value, signed_val. rewrite (V a), (V b) by auto.
      destruct (n_neg a), (n_neg b); cbn [Qnum Qden Qopp]; rewrite !Z.mul_1_r; auto.
    + unfold misjudged. rewrite Fa, Fb. unfold numeral_value, signed_val in *. rewrite (V a), (V b) by auto.
      unfold Qeq. destruct (n_neg a), (n_neg b); cbn [Qnum Qden Qopp]; intuition lia.
Qed.
