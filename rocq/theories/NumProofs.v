(** Proofs about the numeric comparator. *)
From Coq Require Import List NArith ZArith QArith Bool Arith Lia.
From Coq Require Import ZifyBool ZifyN ZifyNat.
Import ListNotations.
From Verif Require Import Base StrModel StrSpec CompModel CompSpec OrdProofs CompProofs.
Close Scope Q_scope.
Close Scope Z_scope.

Definition isnum (c : byte) : Prop := digit_byte c \/ c = 44%N.
Definition dg (l : bytes) : bytes := filter (fun c => negb (c =? 44)%N) l.
Definition tail_ok (t : bytes) : Prop := match t with [] => True | c :: f => c = 46%N /\ Forall digit_byte f end.
Definition nolead (l : bytes) : Prop := match l with [] => True | c :: _ => c <> 44%N end.
Definition nozero (l : bytes) : Prop := match l with [] => True | c :: _ => c <> 48%N end.

Lemma digit_is : forall c, is_digit c = true <-> digit_byte c.
Proof. intros. unfold is_digit, digit_byte. lia. Qed.

Lemma dg_digits : forall l, Forall isnum l -> Forall digit_byte (dg l).
Proof.
  induction 1 as [|c l [H|H] _ IH]; cbn; auto.
  - unfold digit_byte in H. replace (c =? 44)%N with false by lia. cbn. constructor; auto.
  - subst. auto.
Qed.

Lemma tail_not_num : forall c f, tail_ok (c :: f) -> is_digit c = false /\ c <> 44%N.
Proof. intros c f [-> _]. split; auto. discriminate. Qed.

Lemma skip_comma_app : forall I t, Forall isnum I -> tail_ok t -> exists I',
  skip_comma (I ++ t) = I' ++ t /\ Forall isnum I' /\ nolead I' /\ dg I' = dg I /\ length I' <= length I.
Proof.
  intros I t H Ht. induction H as [|c I Hc HI IH]; cbn [app].
  - exists []. destruct t as [|c f]; cbn; auto. apply tail_not_num in Ht as [_ Ht].
    replace (c =? 44)%N with false by lia. auto.
  - cbn [skip_comma]. destruct (N.eqb_spec c 44) as [->|E].
    + destruct IH as (I' & -> & ? & ? & E' & ?). exists I'. cbn. repeat split; auto; lia.
    + exists (c :: I). repeat split; auto.
Qed.

Lemma dg_cons : forall c l, c <> 44%N -> dg (c :: l) = c :: dg l.
Proof. intros. cbn. replace (c =? 44)%N with false by lia. auto. Qed.
Lemma dg_length_cons : forall c l, c <> 44%N -> length (dg (c :: l)) = S (length (dg l)).
Proof. intros. rewrite dg_cons; auto. Qed.
Lemma dg_comma : forall l, dg (44%N :: l) = dg l.
Proof. auto. Qed.

Lemma skip_comma_zero_app : forall I t, Forall isnum I -> tail_ok t -> exists I' k,
  skip_comma_zero (I ++ t) = I' ++ t /\ Forall isnum I' /\ nolead I' /\ dg I = repeat 48%N k ++ dg I' /\
  nozero (dg I').
Proof.
  intros I t H Ht. induction H as [|c I Hc HI IH]; cbn [app].
  - exists [], 0. destruct t as [|c f]; cbn; auto. destruct Ht as [-> _]. auto.
  - cbn [skip_comma_zero]. destruct (N.eqb_spec c 48) as [->|E]; cbn [orb].
    + destruct IH as (I' & k & -> & ? & ? & E' & ?). exists I', (S k). rewrite dg_cons by discriminate. rewrite E'. cbn [repeat app]. repeat split; auto.
    + destruct (N.eqb_spec c 44) as [->|E2]; cbn [orb].
      * destruct IH as (I' & k & -> & ? & ? & E' & ?). exists I', k. rewrite dg_comma. repeat split; auto.
      * exists (c :: I), 0. rewrite dg_cons by auto. cbn [repeat app nozero nolead]. repeat split; auto.
Qed.


Definition differ (a b : bytes) : Prop :=
  match a, b with x :: _, y :: _ => x <> y | _, _ => True end.

Lemma num_skip_app : forall fuel Ia Ib ta tb,
  Forall isnum Ia -> Forall isnum Ib -> nolead Ia -> nolead Ib -> tail_ok ta -> tail_ok tb ->
  length (Ia ++ ta) <= fuel ->
  exists p Ia' Ib', num_skip fuel (Ia ++ ta) (Ib ++ tb) = (Ia' ++ ta, Ib' ++ tb) /\
    Forall isnum Ia' /\ Forall isnum Ib' /\ nolead Ia' /\ nolead Ib' /\
    dg Ia = p ++ dg Ia' /\ dg Ib = p ++ dg Ib' /\ differ Ia' Ib'.
Proof.
  induction fuel as [|fuel IH]; intros Ia Ib ta tb Ha Hb La Lb Ta Tb Hf.
  - exists [], Ia, Ib. destruct Ia; cbn in *; try lia. repeat split; auto.
  - destruct Ia as [|x Ia].
    + exists [], [], Ib. cbn [num_skip app]. split.
      * destruct ta as [|c f]; [auto|]. destruct (Ib ++ tb) as [|y b]; auto.
        apply tail_not_num in Ta as [Td _]. rewrite Td, andb_false_r. auto.
      * repeat split; auto.
    + destruct Ib as [|y Ib].
      * exists [], (x :: Ia), []. cbn [num_skip app]. split.
        -- destruct tb as [|c f]; [auto|]. apply tail_not_num in Tb as [Td Tc].
           destruct (N.eqb_spec x c) as [->|]; [rewrite Td|]; auto.
        -- repeat split; auto.
      * cbn [app num_skip]. inversion Ha as [|? ? Hx HIa]; inversion Hb as [|? ? Hy HIb]; subst.
        cbn in La, Lb.
        destruct (N.eqb_spec x y) as [->|E]; cbn [andb].
        -- assert (D : is_digit y = true) by (apply digit_is; destruct Hy; auto; congruence).
           rewrite D.
           destruct (skip_comma_app Ia ta HIa Ta) as (Ja & -> & ? & ? & Ea & Lea).
           destruct (skip_comma_app Ib tb HIb Tb) as (Jb & -> & ? & ? & Eb & Leb).
           destruct (IH Ja Jb ta tb) as (p & Ia' & Ib' & -> & ? & ? & ? & ? & E1 & E2 & ?); auto.
           { cbn [length app] in Hf. rewrite app_length in *. lia. }
           exists (y :: p), Ia', Ib'. rewrite !dg_cons by auto. rewrite <- Ea, <- Eb, E1, E2. repeat split; auto.
        -- exists [], (x :: Ia), (y :: Ib). repeat split; auto.
Qed.

Lemma num_log_app : forall fuel I t, Forall isnum I -> nolead I -> tail_ok t -> length (I ++ t) <= fuel ->
  num_log fuel (I ++ t) = length (dg I).
Proof.
  induction fuel as [|fuel IH]; intros I t H L T Hf.
  - destruct I; cbn in *; [auto|lia].
  - destruct I as [|x I]; cbn [num_log app].
    + destruct t as [|c f]; auto. apply tail_not_num in T as [-> _]. auto.
    + inversion H as [|? ? Hx HI]; subst. cbn in L.
      assert (D : is_digit x = true) by (apply digit_is; destruct Hx; auto; congruence).
      rewrite D, dg_cons by auto. cbn [length]. f_equal.
      destruct (skip_comma_app I t HI T) as (J & -> & ? & ? & E & ?). rewrite <- E. apply IH; auto.
      cbn [length app] in Hf. rewrite app_length in *. lia.
Qed.

(** The fraction part: digits compared left to right, a prefix first. *)
Lemma frac_skip_bcmp : forall f g, Forall digit_byte f -> Forall digit_byte g ->
  frac_cmp (46%N :: f) (46%N :: g) = bcmp f g.
Proof.
  unfold frac_cmp. cbn [tl].
  induction f as [|x f IH]; intros [|y g] Hf Hg; cbn [frac_skip bcmp]; auto.
  - inversion Hg; subst. apply digit_is in H1. rewrite H1. auto.
  - inversion Hf; subst. apply digit_is in H1. rewrite H1. auto.
  - inversion Hf as [|? ? Hx Hf']; inversion Hg as [|? ? Hy Hg']; subst.
    apply digit_is in Hx. apply digit_is in Hy.
    destruct (N.eqb_spec x y) as [->|E]; cbn [andb].
    + rewrite Hy, N.compare_refl. apply IH; auto.
    + rewrite Hx, Hy. destruct (N.compare_spec x y); auto; congruence.
Qed.

Definition tails_cmp (ta tb : bytes) : comparison :=
  match ta, tb with _ :: f, _ :: g => bcmp f g | _, _ => Eq end.

Lemma num_cmp_unsigned_spec : forall Ia Ib ta tb,
  Forall isnum Ia -> Forall isnum Ib -> tail_ok ta -> tail_ok tb ->
  exists ka kb da db, dg Ia = repeat 48%N ka ++ da /\ dg Ib = repeat 48%N kb ++ db /\ nozero da /\ nozero db /\
    Forall digit_byte da /\ Forall digit_byte db /\
    num_cmp_unsigned (Ia ++ ta) (Ib ++ tb) = thenc (shortlex da db) (tails_cmp ta tb).
Proof.
  intros Ia Ib ta tb Ha Hb Ta Tb.
  destruct (skip_comma_zero_app Ia ta Ha Ta) as (Ja & ka & Ea & HJa & La & Da & Za).
  destruct (skip_comma_zero_app Ib tb Hb Tb) as (Jb & kb & Eb & HJb & Lb & Db & Zb).
  exists ka, kb, (dg Ja), (dg Jb). do 4 (split; auto). split; [apply dg_digits; auto|]. split; [apply dg_digits; auto|].
  unfold num_cmp_unsigned. rewrite Ea, Eb.
  destruct (num_skip_app (length (Ja ++ ta)) Ja Jb ta tb) as (p & Ka & Kb & -> & HKa & HKb & LKa & LKb & E1 & E2 & D); auto.
  unfold shortlex. rewrite E1, E2, (app_length p (dg Ka)), (app_length p (dg Kb)), bcmp_app.
  assert (NC : Nat.compare (length p + length (dg Ka)) (length p + length (dg Kb)) = Nat.compare (length (dg Ka)) (length (dg Kb))).
  { destruct (Nat.compare_spec (length (dg Ka)) (length (dg Kb)));
      [apply Nat.compare_eq_iff|apply Nat.compare_lt_iff|apply Nat.compare_gt_iff]; lia. }
  rewrite NC. clear NC E1 E2 p.
  destruct Ka as [|x Ka], Kb as [|y Kb].
  - cbn [app dg filter length Nat.compare bcmp thenc]. destruct ta as [|c f], tb as [|d g]; cbn [tails_cmp]; auto.
    + apply tail_not_num in Tb as [-> _]. auto.
    + apply tail_not_num in Ta as [-> _]. auto.
    + destruct Ta as [-> Hf], Tb as [-> Hg]. cbn [N.eqb andb]. apply frac_skip_bcmp; auto.
  - inversion HKb as [|? ? Hy HKb']; subst. cbn in LKb.
    assert (Dy : is_digit y = true) by (apply digit_is; destruct Hy; auto; congruence).
    rewrite dg_cons by auto. cbn [app dg filter length Nat.compare thenc].
    destruct ta as [|c f].
    + rewrite Dy. auto.
    + assert ((y =? 46)%N = false) as E by (unfold is_digit in Dy; lia). rewrite E, andb_false_r.
      assert (N1 : forall n, length (c :: f) <= n -> num_log n (c :: f) = 0) by (intros n Hn; apply (num_log_app n [] (c :: f)); auto).
      assert (N2 : forall n, length (y :: Kb ++ tb) <= n -> num_log n (y :: Kb ++ tb) = S (length (dg Kb))).
      { intros n Hn. rewrite <- (dg_length_cons y Kb) by auto. apply (num_log_app n (y :: Kb) tb); auto. }
      rewrite N1, N2 by (cbn; lia). auto.
  - inversion HKa as [|? ? Hx HKa']; subst. cbn in LKa.
    assert (Dx : is_digit x = true) by (apply digit_is; destruct Hx; auto; congruence).
    rewrite dg_cons by auto. cbn [app dg filter length Nat.compare thenc].
    destruct tb as [|c f].
    + rewrite Dx. auto.
    + assert ((x =? 46)%N = false) as E by (unfold is_digit in Dx; lia). rewrite E. cbn [andb].
      assert (N1 : forall n, length (c :: f) <= n -> num_log n (c :: f) = 0) by (intros n Hn; apply (num_log_app n [] (c :: f)); auto).
      assert (N2 : forall n, length (x :: Ka ++ ta) <= n -> num_log n (x :: Ka ++ ta) = S (length (dg Ka))).
      { intros n Hn. rewrite <- (dg_length_cons x Ka) by auto. apply (num_log_app n (x :: Ka) ta); auto. }
      rewrite N1, N2 by (cbn; lia). auto.
  - inversion HKa as [|? ? Hx HKa']; inversion HKb as [|? ? Hy HKb']; subst. cbn in LKa, LKb, D.
    assert (Dx : is_digit x = true) by (apply digit_is; destruct Hx; auto; congruence).
    cbn [app].
    assert ((x =? 46)%N = false) as E by (unfold is_digit in Dx; lia). rewrite E. cbn [andb].
    change (x :: Ka ++ ta) with ((x :: Ka) ++ ta). change (y :: Kb ++ tb) with ((y :: Kb) ++ tb).
    rewrite !num_log_app by auto. rewrite !dg_cons by auto. cbn [length].
    destruct (Nat.eqb_spec (S (length (dg Ka))) (S (length (dg Kb)))) as [El|El]; cbn [negb Nat.eqb].
    + rewrite El, Nat.compare_refl. cbn [thenc bcmp]. destruct (N.compare_spec x y); auto; congruence.
    + destruct (Nat.compare_spec (S (length (dg Ka))) (S (length (dg Kb)))); auto; congruence.
Qed.

(** Values of digit strings. *)
Definition dval_ (l : bytes) (acc : Z) : Z := fold_left (fun acc c => (acc * 10 + (Z.of_N c - 48))%Z) l acc.

Lemma digits_val_dg : forall l, digits_val l = dval_ (dg l) 0.
Proof.
  intros. unfold digits_val, dval_. generalize 0%Z. induction l as [|c l IH]; intros acc; cbn; auto.
  destruct (N.eqb_spec c 44) as [->|E]; cbn; rewrite IH; auto.
Qed.

Lemma dval_acc : forall l acc, (dval_ l acc = acc * 10 ^ Z.of_nat (length l) + dval_ l 0)%Z.
Proof.
  induction l as [|c l IH]; intros acc.
  - cbn. lia.
  - cbn [dval_ fold_left length]. fold (dval_ l (acc * 10 + (Z.of_N c - 48))).
    fold (dval_ l (0 * 10 + (Z.of_N c - 48))). rewrite IH, (IH (0 * 10 + _)%Z).
    rewrite Nat2Z.inj_succ, Z.pow_succ_r by lia. lia.
Qed.
Lemma dval_cons : forall c l, dval_ (c :: l) 0 = ((Z.of_N c - 48) * 10 ^ Z.of_nat (length l) + dval_ l 0)%Z.
Proof. intros. change (dval_ (c :: l) 0) with (dval_ l (0 * 10 + (Z.of_N c - 48))). rewrite dval_acc. f_equal. Qed.
Lemma dval_app : forall a b, dval_ (a ++ b) 0 = (dval_ a 0 * 10 ^ Z.of_nat (length b) + dval_ b 0)%Z.
Proof. intros. unfold dval_. rewrite fold_left_app. fold (dval_ a 0). fold (dval_ b (dval_ a 0)). apply dval_acc. Qed.
Lemma dval_zeros : forall k, dval_ (repeat 48%N k) 0 = 0%Z.
Proof. induction k; cbn [repeat]; auto. Qed.

Lemma dval_bound : forall l, Forall digit_byte l -> (0 <= dval_ l 0 < 10 ^ Z.of_nat (length l))%Z.
Proof.
  induction 1 as [|c l H _ IH].
  - cbn. lia.
  - rewrite dval_cons. cbn [length]. rewrite Nat2Z.inj_succ, Z.pow_succ_r by lia. unfold digit_byte in H. nia.
Qed.

Lemma same_len_cmp : forall a b, Forall digit_byte a -> Forall digit_byte b -> length a = length b ->
  bcmp a b = (dval_ a 0 ?= dval_ b 0)%Z.
Proof.
  induction a as [|x a IH]; intros [|y b] Ha Hb L; cbn in L; try lia; auto.
  inversion Ha as [|? ? Hx Ha']; inversion Hb as [|? ? Hy Hb']; subst. cbn [bcmp].
  rewrite !dval_cons. injection L as L. rewrite L.
  pose proof (dval_bound a Ha') as Ba. pose proof (dval_bound b Hb') as Bb. rewrite L in Ba.
  destruct (N.compare_spec x y) as [E|E|E].
  - subst. rewrite IH by auto. symmetry. apply Z.add_compare_mono_l.
  - symmetry. apply (proj2 (Z.compare_lt_iff _ _)). nia.
  - symmetry. apply (proj2 (Z.compare_gt_iff _ _)). nia.
Qed.

Lemma shortlex_value : forall a b, Forall digit_byte a -> Forall digit_byte b -> nozero a -> nozero b ->
  shortlex a b = (dval_ a 0 ?= dval_ b 0)%Z.
Proof.
  assert (L : forall a b, Forall digit_byte a -> Forall digit_byte b -> nozero b -> length a < length b ->
    (dval_ a 0 < dval_ b 0)%Z).
  { intros a [|y b] Ha Hb Hz Hl; cbn in Hl; [lia|]. rewrite dval_cons. inversion Hb as [|? ? Hy Hb']; subst.
    cbn in Hz. unfold digit_byte in Hy.
    pose proof (dval_bound a Ha). pose proof (dval_bound b Hb').
    assert (10 ^ Z.of_nat (length a) <= 10 ^ Z.of_nat (length b))%Z by (apply Z.pow_le_mono_r; lia). nia. }
  intros a b Ha Hb Za Zb. unfold shortlex. destruct (Nat.compare_spec (length a) (length b)) as [E|E|E]; cbn.
  - apply same_len_cmp; auto.
  - symmetry. apply (proj2 (Z.compare_lt_iff _ _)). auto.
  - symmetry. apply (proj2 (Z.compare_gt_iff _ _)). auto.
Qed.

(** Fractions: digit-by-digit comparison is the comparison of the values, except that appending zeros
    counts as larger. *)
Lemma dval_zero_iff : forall l, Forall digit_byte l -> (dval_ l 0 = 0%Z <-> l = repeat 48%N (length l)).
Proof.
  induction 1 as [|c l H Hl IH]; cbn [length repeat]; [split; auto|].
  rewrite dval_cons. pose proof (dval_bound l Hl). unfold digit_byte in H.
  assert (0 < 10 ^ Z.of_nat (length l))%Z by lia. split.
  - intros E. assert (c = 48%N) by nia. subst c. f_equal. apply IH. nia.
  - intros E. injection E as -> E. apply IH in E. rewrite E. lia.
Qed.

Lemma zeros_after_cons : forall x y f g, zeros_after (x :: f) (y :: g) <-> x = y /\ zeros_after f g.
Proof.
  intros. split.
  - intros (k & K & E). cbn in E. injection E as -> ->. split; auto. exists k; auto.
  - intros (-> & k & K & ->). exists k. auto.
Qed.

Lemma zeros_after_nil : forall y g, Forall digit_byte (y :: g) -> (zeros_after [] (y :: g) <-> dval_ (y :: g) 0 = 0%Z).
Proof.
  intros y g H. rewrite dval_zero_iff by auto. split.
  - intros (k & K & E). cbn [app] in E. rewrite E. rewrite repeat_length. auto.
  - intros E. exists (length (y :: g)). split; [cbn; lia|]. auto.
Qed.

Lemma cross : forall p q a b c d : Z, (p < q -> 0 <= c < a -> 0 <= d < b ->
  (p * a + c) * b < (q * b + d) * a)%Z.
Proof.
  intros p q a b c d H1 H2 H3.
  assert (K : (0 < a * b)%Z) by (apply Z.mul_pos_pos; lia).
  assert ((p + 1) * (a * b) <= q * (a * b))%Z by (apply Z.mul_le_mono_nonneg_r; lia).
  assert (c * b < a * b)%Z by (apply Z.mul_lt_mono_pos_r; lia).
  assert (0 <= d * a)%Z by (apply Z.mul_nonneg_nonneg; lia). lia.
Qed.
Lemma cross10 : forall p q a b c d : Z, (p < q -> 0 <= c < a -> 0 <= d < b ->
  (p * a + c) * (10 * b) < (q * b + d) * (10 * a))%Z.
Proof. intros p q a b c d H1 H2 H3. pose proof (cross p q a b c d H1 H2 H3). lia. Qed.

Lemma frac_value : forall f g, Forall digit_byte f -> Forall digit_byte g ->
  (bcmp f g = (dval_ f 0 * 10 ^ Z.of_nat (length g) ?= dval_ g 0 * 10 ^ Z.of_nat (length f))%Z <->
   ~ (zeros_after f g \/ zeros_after g f)).
Proof.
  assert (NN : forall f x, ~ zeros_after (x :: f) []).
  { intros f x (k & K & E). discriminate. }
  induction f as [|x f IH]; intros [|y g] Hf Hg.
  - cbn. split; auto. intros _ [(k & K & E)|(k & K & E)]; destruct k; cbn in E; try lia; discriminate.
  - cbn [bcmp]. pose proof (zeros_after_nil y g Hg) as Z. pose proof (dval_bound _ Hg).
    cbn [dval_ fold_left length]. fold (dval_ (y :: g) 0) in *.
    replace (0 * 10 ^ Z.of_nat (S (length g)))%Z with 0%Z by lia. replace (10 ^ Z.of_nat 0)%Z with 1%Z by auto.
    change (fold_left _ g _) with (dval_ (y :: g) 0).
    split.
    + intros E [C|C]; [|apply (NN _ _ C)]. apply Z in C. rewrite C in E. discriminate.
    + intros C. symmetry. apply (proj2 (Z.compare_lt_iff _ _)).
      assert (dval_ (y :: g) 0 <> 0%Z) by (intros E; apply C; left; apply Z; auto). lia.
  - cbn [bcmp]. pose proof (zeros_after_nil x f Hf) as Z. pose proof (dval_bound _ Hf).
    change (dval_ [] 0) with 0%Z. change (length (@nil byte)) with 0. replace (10 ^ Z.of_nat 0)%Z with 1%Z by auto.
    rewrite Z.mul_0_l. split.
    + intros E [C|C]; [apply (NN _ _ C)|]. apply Z in C. rewrite C in E. discriminate.
    + intros C. symmetry. apply (proj2 (Z.compare_gt_iff _ _)).
      assert (dval_ (x :: f) 0 <> 0%Z) by (intros E; apply C; right; apply Z; auto). lia.
  - inversion Hf as [|? ? Hx Hf']; inversion Hg as [|? ? Hy Hg']; subst.
    rewrite !zeros_after_cons. cbn [bcmp]. rewrite !dval_cons. cbn [length].
    rewrite !Nat2Z.inj_succ, !Z.pow_succ_r by lia.
    pose proof (dval_bound f Hf') as Bf. pose proof (dval_bound g Hg') as Bg.
    specialize (IH g Hf' Hg').
    set (A := (10 ^ Z.of_nat (length f))%Z) in *. set (B := (10 ^ Z.of_nat (length g))%Z) in *.
    set (F := dval_ f 0) in *. set (G := dval_ g 0) in *. clearbody A B F G.
    unfold digit_byte in Hx, Hy.
    destruct (N.compare_spec x y) as [E|E|E].
    + subst y.
      assert (HC : (((Z.of_N x - 48) * A + F) * (10 * B) ?= ((Z.of_N x - 48) * B + G) * (10 * A))%Z = (F * B ?= G * A)%Z).
      { replace (((Z.of_N x - 48) * A + F) * (10 * B))%Z with (10 * ((Z.of_N x - 48) * A * B) + 10 * (F * B))%Z by lia.
        replace (((Z.of_N x - 48) * B + G) * (10 * A))%Z with (10 * ((Z.of_N x - 48) * A * B) + 10 * (G * A))%Z by lia.
        rewrite Z.add_compare_mono_l. symmetry. apply Zmult_compare_compat_l. lia. }
      rewrite HC, IH. split; [intros C [[_ D]|[_ D]]; tauto|intros C D; tauto].
    + split; [intros _ [[D _]|[D _]]; lia|intros _]. symmetry. apply (proj2 (Z.compare_lt_iff _ _)). apply cross10; lia.
    + split; [intros _ [[D _]|[D _]]; lia|intros _]. symmetry. apply (proj2 (Z.compare_gt_iff _ _)). apply cross10; lia.
Qed.

(** Absolute values. *)
Definition tail_of (n : numeral) : bytes := match n_frac n with None => [] | Some f => 46%N :: f end.

Definition mis_abs (a b : numeral) : Prop :=
  digits_val (n_int a) = digits_val (n_int b) /\
  match n_frac a, n_frac b with
  | None, None => False
  | Some f, None | None, Some f => digits_val f <> 0%Z
  | Some f, Some g => zeros_after f g \/ zeros_after g f
  end.

Lemma dg_digit_id : forall l, Forall digit_byte l -> dg l = l.
Proof. induction 1 as [|c l H _ IH]; auto. unfold digit_byte in H. rewrite dg_cons by lia. congruence. Qed.

Lemma dg_app : forall a b, dg (a ++ b) = dg a ++ dg b.
Proof. intros. apply filter_app. Qed.

Lemma abs_parts : forall n, numeral_ok n ->
  Qnum (numeral_abs n) = (digits_val (n_int n) * 10 ^ Z.of_nat (length (frac_of n)) + dval_ (frac_of n) 0)%Z /\
  Z.pos (Qden (numeral_abs n)) = (10 ^ Z.of_nat (length (frac_of n)))%Z /\
  (0 <= dval_ (frac_of n) 0 < 10 ^ Z.of_nat (length (frac_of n)))%Z /\ (0 <= digits_val (n_int n))%Z.
Proof.
  intros n (Hb & Hi & Hf). assert (F : Forall digit_byte (frac_of n)).
  { unfold frac_of. destruct (n_frac n); auto. }
  pose proof (dval_bound _ F). unfold numeral_abs. cbn [Qnum Qden].
  rewrite !digits_val_dg, dg_app, (dg_digit_id (frac_of n)) by auto. rewrite dval_app.
  pose proof (dval_bound _ (dg_digits _ Hi)).
  rewrite Z2Pos.id by lia. repeat split; lia.
Qed.

Lemma unsigned_value : forall a b, numeral_ok a -> numeral_ok b ->
  (num_cmp_unsigned (n_int a ++ tail_of a) (n_int b ++ tail_of b) = Qcompare (numeral_abs a) (numeral_abs b) <->
   ~ mis_abs a b).
Proof.
  intros a b Ha Hb.
  destruct (abs_parts a Ha) as (Na & Da & Fa & Ia). destruct (abs_parts b Hb) as (Nb & Db & Fb & Ib).
  destruct Ha as (_ & Hia & Hfa). destruct Hb as (_ & Hib & Hfb).
  assert (Ta : tail_ok (tail_of a)) by (unfold tail_of; destruct (n_frac a); cbn; auto).
  assert (Tb : tail_ok (tail_of b)) by (unfold tail_of; destruct (n_frac b); cbn; auto).
  destruct (num_cmp_unsigned_spec _ _ _ _ Hia Hib Ta Tb) as (ka & kb & da & db & Ea & Eb & Za & Zb & Ga & Gb & ->).
  rewrite shortlex_value by auto. unfold Qcompare, mis_abs. rewrite Na, Nb, Da, Db.
  assert (Va : dval_ da 0 = digits_val (n_int a)).
  { rewrite digits_val_dg, Ea, dval_app, dval_zeros. lia. }
  assert (Vb : dval_ db 0 = digits_val (n_int b)).
  { rewrite digits_val_dg, Eb, dval_app, dval_zeros. lia. }
  rewrite Va, Vb. clear Na Nb Da Db ka kb da db Ea Eb Za Zb Ga Gb Va Vb Hia Hib Ta Tb.
  set (p := digits_val (n_int a)) in *. set (q := digits_val (n_int b)) in *. clearbody p q.
  set (A := (10 ^ Z.of_nat (length (frac_of a)))%Z) in *. set (B := (10 ^ Z.of_nat (length (frac_of b)))%Z) in *.
  destruct (Z.compare_spec p q) as [E|E|E]; cbn [thenc].
  - subst q.
    replace ((p * A + dval_ (frac_of a) 0) * B)%Z with (p * A * B + dval_ (frac_of a) 0 * B)%Z by lia.
    replace ((p * B + dval_ (frac_of b) 0) * A)%Z with (p * A * B + dval_ (frac_of b) 0 * A)%Z by lia.
    rewrite Z.add_compare_mono_l. subst A B. unfold tail_of, frac_of in *.
    destruct (n_frac a) as [f|], (n_frac b) as [g|]; cbn [tails_cmp] in *.
    + rewrite frac_value by auto. tauto.
    + cbn [length Z.of_nat] in *. rewrite digits_val_dg, dg_digit_id by auto.
      change (dval_ [] 0) with 0%Z. rewrite Z.mul_0_l, Z.pow_0_r, Z.mul_1_r. split.
      * intros H [_ C]. symmetry in H. apply Z.compare_eq in H. auto.
      * intros C. symmetry. apply Z.compare_eq_iff. destruct (Z.eq_dec (dval_ f 0) 0); auto. tauto.
    + cbn [length Z.of_nat] in *. rewrite digits_val_dg, dg_digit_id by auto.
      change (dval_ [] 0) with 0%Z. rewrite Z.mul_0_l, Z.pow_0_r, Z.mul_1_r. split.
      * intros H [_ C]. symmetry in H. apply Z.compare_eq in H. auto.
      * intros C. symmetry. apply Z.compare_eq_iff. destruct (Z.eq_dec (dval_ g 0) 0); auto. tauto.
    + cbn. tauto.
  - split; [intros _ [D _]; lia|intros _]. symmetry. apply (proj2 (Z.compare_lt_iff _ _)). apply cross; lia.
  - split; [intros _ [D _]; lia|intros _]. symmetry. apply (proj2 (Z.compare_gt_iff _ _)). apply cross; lia.
Qed.

Lemma trim_left_blanks : forall bl r, Forall (fun c => (c <= 32)%N) bl ->
  (match r with [] => True | c :: _ => (32 < c)%N end) -> trim_left (bl ++ r) = r.
Proof.
  induction 1 as [|c bl H _ IH]; intros Hr; cbn [app trim_left].
  - destruct r as [|c r]; auto. cbn. replace (32 <? c)%N with true by lia. auto.
  - replace (32 <? c)%N with false by lia. auto.
Qed.

Lemma signed_text : forall n, numeral_ok n ->
  take_minus (trim_left (numeral_text n)) = (n_neg n, n_int n ++ tail_of n).
Proof.
  intros n (Hb & Hi & Hf). unfold numeral_text. fold (tail_of n).
  rewrite trim_left_blanks; auto.
  - destruct (n_neg n); cbn; auto.
    destruct (n_int n) as [|c l].
    + unfold tail_of. destruct (n_frac n); cbn; auto.
    + inversion Hi as [|? ? Hc ?]; subst. cbn. unfold digit_byte in Hc.
      replace (c =? 45)%N with false by lia. auto.
  - destruct (n_neg n); cbn; try lia.
    destruct (n_int n) as [|c l].
    + unfold tail_of. destruct (n_frac n); cbn; auto. lia.
    + inversion Hi as [|? ? Hc ?]; subst. cbn. unfold digit_byte in Hc. lia.
Qed.

Lemma mis_abs_sym : forall a b, mis_abs a b -> mis_abs b a.
Proof.
  unfold mis_abs. intros a b [E H]. split; auto. destruct (n_frac a), (n_frac b); auto. tauto.
Qed.

Lemma Qcompare_opp_ : forall x y, Qcompare (- x) (- y) = Qcompare y x.
Proof. intros [n d] [m e]. unfold Qcompare. cbn. rewrite !Z.mul_opp_l. apply Z.compare_opp. Qed.

Theorem signed_value : forall a b, numeral_ok a -> numeral_ok b ->
  (num_cmp_signed (numeral_text a) (numeral_text b) = Qcompare (numeral_value a) (numeral_value b) <->
   ~ misjudged a b).
Proof.
  intros a b Ha Hb. unfold num_cmp_signed. rewrite !signed_text by auto.
  pose proof (unsigned_value a b Ha Hb) as Uab. pose proof (unsigned_value b a Hb Ha) as Uba.
  destruct (abs_parts a Ha) as (Na & Da & Fa & Ia). destruct (abs_parts b Hb) as (Nb & Db & Fb & Ib).
  unfold misjudged, numeral_value. fold (mis_abs a b).
  assert (Pa : (0 <= Qnum (numeral_abs a))%Z) by nia. assert (Pb : (0 <= Qnum (numeral_abs b))%Z) by nia.
  destruct (n_neg a), (n_neg b).
  - rewrite Qcompare_opp_, Uba. split.
    + intros H [[_ C]|[C _]]; [|congruence]. apply H, mis_abs_sym, C.
    + intros H C. apply H. left. split; auto. apply mis_abs_sym, C.
  - split.
    + intros H [[C _]|(_ & Z1 & Z2)]; [congruence|].
      rewrite Z1, Z2 in H. discriminate.
    + intros H. symmetry. apply (proj1 (Qlt_alt _ _)). unfold Qlt. cbn [Qnum Qden Qopp].
      assert (Qnum (numeral_abs a) <> 0%Z \/ Qnum (numeral_abs b) <> 0%Z).
      { destruct (Z.eq_dec (Qnum (numeral_abs a)) 0) as [E|E]; [|auto].
        destruct (Z.eq_dec (Qnum (numeral_abs b)) 0) as [E2|E2]; [|auto].
        exfalso. apply H. right. split; [congruence|]. unfold Qeq. cbn [Qnum Qden Qopp]. rewrite E, E2. lia. }
      nia.
  - split.
    + intros H [[C _]|(_ & Z1 & Z2)]; [congruence|].
      rewrite Z1, Z2 in H. discriminate.
    + intros H. symmetry. apply (proj1 (Qgt_alt _ _)). unfold Qlt. cbn [Qnum Qden Qopp].
      assert (Qnum (numeral_abs a) <> 0%Z \/ Qnum (numeral_abs b) <> 0%Z).
      { destruct (Z.eq_dec (Qnum (numeral_abs a)) 0) as [E|E]; [|auto].
        destruct (Z.eq_dec (Qnum (numeral_abs b)) 0) as [E2|E2]; [|auto].
        exfalso. apply H. right. split; [congruence|]. unfold Qeq. cbn [Qnum Qden Qopp]. rewrite E, E2. lia. }
      nia.
  - rewrite Uab. split; [intros H [[_ C]|[C _]]; [auto|congruence]|tauto].
Qed.
