(** Precomputed sort keys against direct comparison. *)
From Coq Require Import List NArith ZArith Bool Arith Lia SpecFloat.
From Coq Require Import ZifyBool ZifyN ZifyNat.
Import ListNotations.
From Verif Require Import Base ReadModel StrModel FloatModel FloatSpec FloatProofs FloatValid
  CompModel CompSpec OrdProofs CompProofs NumProofs IpProofs.
Close Scope Q_scope.
Close Scope Z_scope.

(** Flag and size share one word. *)
Lemma mod31_lor : forall x, (N.lor x (2 ^ 31) mod 2 ^ 31 = x mod 2 ^ 31)%N.
Proof.
  intros. rewrite <- !N.land_ones. apply N.bits_inj. intros n. rewrite !N.land_spec, N.lor_spec.
  destruct (N.ltb_spec n 31).
  - rewrite (N.pow2_bits_false 31 n) by lia. rewrite orb_false_r. auto.
  - rewrite N.ones_spec_high by lia. rewrite !andb_false_r. auto.
Qed.
Lemma set_complete_spec : forall i, it_complete (set_complete i) = true /\ it_size (set_complete i) = it_size i /\
  it_off (set_complete i) = it_off i /\ it_cache (set_complete i) = it_cache i.
Proof.
  intros [o p k]. unfold it_complete, set_complete, it_size. cbn [it_off it_plus it_cache].
  rewrite N.lor_spec, N.pow2_bits_true, orb_true_r, mod31_lor. auto.
Qed.
Lemma clear_complete_spec : forall i, it_complete (clear_complete i) = false /\ it_size (clear_complete i) = it_size i /\
  it_off (clear_complete i) = it_off i /\ it_cache (clear_complete i) = it_cache i.
Proof.
  intros [o p k]. unfold it_complete, clear_complete, it_size. cbn [it_off it_plus it_cache].
  rewrite N.mod_mod by lia. repeat split; auto. rewrite <- N.land_ones, N.land_spec, N.ones_spec_high by lia.
  apply andb_false_r.
Qed.

(** What filling the key leaves in an item. *)
Definition fill_key (exp10 : Z -> f64) (c : cmpr) (v : bytes) : N :=
  match c with
  | CPlain => from_be (make_array v) 0
  | CLower => from_be (map lower (make_array v)) 0
  | CIP | CEqual => 0%N
  | CNumeric | CF64 => ulp_to_ulong (to_f64_lossy exp10 v)
  | CLen => N.of_nat (length v)
  end.
Definition fill_done (c : cmpr) (v : bytes) (old : bool) : bool :=
  match c with
  | CPlain | CLower => Nat.leb (length v) 8
  | CIP => false
  | CNumeric => old
  | CEqual | CF64 | CLen => true
  end.

Lemma fill_spec : forall exp10 c i v base,
  it_get (c_fill_cache exp10 c i v) base = it_get i base /\
  it_cache (c_fill_cache exp10 c i v) = fill_key exp10 c v /\
  it_complete (c_fill_cache exp10 c i v) = fill_done c v (it_complete i).
Proof.
  assert (S : forall i k base, it_get (set_complete (set_cache i k)) base = it_get i base /\
    it_cache (set_complete (set_cache i k)) = k /\ it_complete (set_complete (set_cache i k)) = true).
  { intros i k base. destruct (set_complete_spec (set_cache i k)) as (A & B & C & D).
    unfold it_get. rewrite A, B, C, D. auto. }
  assert (K : forall i k base, it_get (clear_complete (set_cache i k)) base = it_get i base /\
    it_cache (clear_complete (set_cache i k)) = k /\ it_complete (clear_complete (set_cache i k)) = false).
  { intros i k base. destruct (clear_complete_spec (set_cache i k)) as (A & B & C & D).
    unfold it_get. rewrite A, B, C, D. auto. }
  intros exp10 c i v base. destruct c; cbn [c_fill_cache fill_key fill_done]; auto;
    unfold assign_complete; destruct (Nat.leb (length v) 8); auto.
Qed.

(** Zero padding to [n] bytes. *)
Fixpoint padn (n : nat) (v : bytes) : bytes :=
  match n with
  | 0 => []
  | S m => match v with [] => 0%N :: padn m [] | x :: r => x :: padn m r end
  end.

Lemma padn_nil : forall n, padn n [] = repeat 0%N n.
Proof. induction n; cbn; congruence. Qed.
Lemma padn_firstn : forall n v, padn n v = firstn n (v ++ repeat 0%N n).
Proof.
  assert (G : forall n v m, n <= m -> padn n v = firstn n (v ++ repeat 0%N m)).
  { induction n as [|n IH]; intros v m H; auto. destruct v as [|x v]; cbn [padn app].
    - destruct m as [|m]; [lia|]. cbn [repeat firstn]. f_equal. apply (IH [] m). lia.
    - cbn [firstn]. f_equal. apply IH. lia. }
  intros. apply G. auto.
Qed.
Lemma padn_length : forall n v, length (padn n v) = n.
Proof. induction n; intros [|x v]; cbn; auto. Qed.
Lemma padn_map : forall n v f, f 0%N = 0%N -> map f (padn n v) = padn n (map f v).
Proof. induction n as [|n IH]; intros [|x v] f H; cbn; auto; rewrite ?H, IH; auto. Qed.

Lemma pad_lt : forall n a b, bcmp (padn n a) (padn n b) = Lt -> bcmp a b = Lt.
Proof.
  induction n as [|n IH]; intros [|x a] [|y b]; cbn [padn bcmp]; try congruence.
  - rewrite N.compare_refl. intros H. rewrite bcmp_refl in H. congruence.
  - destruct (N.compare_spec x 0) as [E|E|E]; try lia; try congruence.
    intros H. apply IH in H. destruct a; discriminate.
  - destruct (N.compare_spec x y) as [E|E|E]; auto.
Qed.


Lemma pad_eq : forall n a b, length a <= n -> length b <= n -> padn n a = padn n b ->
  a = b \/ (exists k, 0 < k /\ b = a ++ repeat 0%N k) \/ (exists k, 0 < k /\ a = b ++ repeat 0%N k).
Proof.
  induction n as [|n IH]; intros [|x a] [|y b] Ha Hb; cbn [length padn] in *; try lia; auto.
  - intros E. injection E as Ey E. destruct (IH [] b) as [E1|[(k & K & E1)|(k & K & E1)]]; cbn; auto; try lia.
    + subst. right. left. exists 1. auto.
    + right. left. exists (S k). split; [lia|]. cbn in *. subst; auto.
    + destruct b; destruct k; cbn in E1; try lia; discriminate.
  - intros E. injection E as Ey E. destruct (IH a []) as [E1|[(k & K & E1)|(k & K & E1)]]; cbn; auto; try lia.
    + subst. right. right. exists 1. auto.
    + destruct a; destruct k; cbn in E1; try lia; discriminate.
    + right. right. exists (S k). split; [lia|]. cbn in *. subst; auto.
  - intros E. injection E as <- E. destruct (IH a b) as [E1|[(k & K & E1)|(k & K & E1)]]; auto; try lia.
    + subst; auto.
    + right. left. exists k. subst; auto.
    + right. right. exists k. subst; auto.
Qed.


Lemma from_be_bound : forall l acc, Forall is_byte l ->
  (acc * 256 ^ N.of_nat (length l) <= from_be l acc < (acc + 1) * 256 ^ N.of_nat (length l))%N.
Proof.
  induction l as [|c l IH]; intros acc H.
  - cbn. lia.
  - inversion H as [|? ? Hc Hl]; subst. cbn [from_be length]. specialize (IH (acc * 256 + c)%N Hl).
    rewrite Nat2N.inj_succ, N.pow_succ_r'. unfold is_byte in Hc.
    set (P := (256 ^ N.of_nat (length l))%N) in *. nia.
Qed.

Lemma from_be_cmp : forall a b acc, Forall is_byte a -> Forall is_byte b -> length a = length b ->
  (from_be a acc ?= from_be b acc)%N = bcmp a b.
Proof.
  induction a as [|x a IH]; intros [|y b] acc Ha Hb L; cbn in L; try lia.
  - cbn. apply N.compare_refl.
  - injection L as L. inversion Ha as [|? ? Hx Ha']; inversion Hb as [|? ? Hy Hb']; subst. cbn [from_be bcmp].
    destruct (N.compare_spec x y) as [E|E|E].
    + subst. apply IH; auto.
    + apply N.compare_lt_iff. pose proof (from_be_bound a (acc * 256 + x) Ha'). pose proof (from_be_bound b (acc * 256 + y) Hb').
      rewrite L in *. set (P := (256 ^ N.of_nat (length b))%N) in *. nia.
    + apply N.compare_gt_iff. pose proof (from_be_bound a (acc * 256 + x) Ha'). pose proof (from_be_bound b (acc * 256 + y) Hb').
      rewrite L in *. set (P := (256 ^ N.of_nat (length b))%N) in *. nia.
Qed.

Lemma padn_bytes : forall n v, Forall is_byte v -> Forall is_byte (padn n v).
Proof.
  induction n as [|n IH]; intros [|x v] H; cbn [padn]; auto.
  - constructor; [unfold is_byte; lia|]. apply IH. constructor.
  - inversion H; subst. constructor; auto.
Qed.
Lemma lower_bytes : forall v, Forall is_byte v -> Forall is_byte (map lower v).
Proof.
  induction 1 as [|c l H _ IH]; cbn; constructor; auto. unfold is_byte, lower in *.
  destruct ((65 <=? c) && (c <=? 90))%N eqn:E; lia.
Qed.

Lemma make_array_padn : forall v, make_array v = padn 8 v.
Proof. intros. symmetry. apply padn_firstn. Qed.

(** The cached decision, for keys of up to eight bytes. *)
Lemma pad_decide : forall a b d1 d2 key1 key2, Forall is_byte a -> Forall is_byte b ->
  it_cache key1 = from_be (padn 8 a) 0 -> it_cache key2 = from_be (padn 8 b) 0 ->
  it_complete key1 = d1 -> it_complete key2 = d2 ->
  ~ (d1 = true /\ d2 = true /\ ~ (length a <= 8 /\ length b <= 8)) ->
  ~ nul_ext a b -> ~ nul_ext b a ->
  cache_decide key1 key2 (bcmp a b) = bcmp a b /\
  (d1 = true -> d2 = true -> ((it_cache key1 =? it_cache key2)%N = is_eq (bcmp a b))) /\
  (forall x, d1 = true -> d2 = true -> cache_decide key1 key2 x = bcmp a b).
Proof.
  intros a b d1 d2 key1 key2 Ha Hb E1 E2 D1 D2 HD N1 N2.
  assert (C : (it_cache key1 ?= it_cache key2)%N = bcmp (padn 8 a) (padn 8 b)).
  { rewrite E1, E2. apply from_be_cmp; auto using padn_bytes. rewrite !padn_length. auto. }
  unfold cache_decide. rewrite D1, D2.
  destruct (N.compare_spec (it_cache key1) (it_cache key2)) as [E|E|E]; symmetry in C.
  - rewrite E, N.ltb_irrefl, N.eqb_refl.
    assert (K : d1 = true -> d2 = true -> bcmp a b = Eq).
    { intros T1 T2. destruct (le_dec (length a) 8); [|exfalso; apply HD; tauto].
      destruct (le_dec (length b) 8); [|exfalso; apply HD; tauto].
      apply bcmp_eq in C. destruct (pad_eq 8 a b) as [Q|[(k & K & Q)|(k & K & Q)]]; auto.
      - apply bcmp_eq. auto.
      - exfalso. apply N1. exists k. auto.
      - exfalso. apply N2. exists k. auto. }
    split; [|split].
    + destruct d1, d2; cbn; auto. rewrite K; auto.
    + intros T1 T2. rewrite K; auto.
    + intros x T1 T2. rewrite K, T1, T2; auto.
  - apply N.ltb_lt in E as E'. rewrite E'. apply pad_lt in C. rewrite C. repeat split; auto.
    intros. cbn. lia.
  - replace (it_cache key1 <? it_cache key2)%N with false by lia. apply N.ltb_lt in E as E'. rewrite E'.
    assert (G : bcmp b a = Lt). { apply (pad_lt 8). rewrite bcmp_antisym, C. auto. }
    assert (H : bcmp a b = Gt) by (rewrite bcmp_antisym, G; auto). rewrite H. repeat split; auto.
    intros. cbn. lia.
Qed.

(** The values for which the cached key of a comparator is faithful. *)
Definition good_float (x y : f64) : Prop :=
  valid64 x /\ valid64 y /\ x <> S754_nan /\ y <> S754_nan /\
  ~ (exists s t, x = S754_zero s /\ y = S754_zero t /\ s <> t).

Definition cache_safe (exp10 : Z -> f64) (c : cmpr) (a b : bytes) : Prop :=
  match c with
  | CPlain => Forall is_byte a /\ Forall is_byte b /\ ~ nul_ext a b /\ ~ nul_ext b a
  | CLower => Forall is_byte a /\ Forall is_byte b /\
              ~ nul_ext (caseless a) (caseless b) /\ ~ nul_ext (caseless b) (caseless a)
  | CF64 => good_float (to_f64_lossy exp10 a) (to_f64_lossy exp10 b)
  | CNumeric => (ulp_to_ulong (to_f64_lossy exp10 a) ?= ulp_to_ulong (to_f64_lossy exp10 b))%N = num_cmp_signed a b \/
                ulp_to_ulong (to_f64_lossy exp10 a) = ulp_to_ulong (to_f64_lossy exp10 b)
  | CIP | CEqual | CLen => True
  end.

(** The key settles the comparison without looking at the lines. *)
Definition cache_final (c : cmpr) (a b : bytes) : Prop :=
  match c with
  | CPlain | CLower => length a <= 8 /\ length b <= 8
  | CEqual | CF64 | CLen => True
  | CIP | CNumeric => False
  end.

Lemma cache_decide_compare : forall l r d, it_complete l && it_complete r = true ->
  cache_decide l r d = (it_cache l ?= it_cache r)%N.
Proof.
  intros l r d H. unfold cache_decide. rewrite H.
  destruct (N.compare_spec (it_cache l) (it_cache r)) as [E|E|E].
  - rewrite E, N.ltb_irrefl. auto.
  - apply N.ltb_lt in E. rewrite E. auto.
  - replace (it_cache l <? it_cache r)%N with false by lia. apply N.ltb_lt in E. rewrite E. auto.
Qed.

Lemma cached_comp : forall exp10 c i j a b, cache_safe exp10 c a b ->
  it_complete i = false -> it_complete j = false ->
  let i' := c_fill_cache exp10 c i a in let j' := c_fill_cache exp10 c j b in
  cache_decide i' j' (c_comp exp10 c a b) = c_comp exp10 c a b /\
  (cache_final c a b -> forall d, cache_decide i' j' d = c_comp exp10 c a b) /\
  (it_complete i' && it_complete j' = true -> (it_cache i' =? it_cache j')%N = c_equal exp10 c a b).
Proof.
  intros exp10 c i j a b Hs Fi Fj i' j'.
  destruct (fill_spec exp10 c i a []) as (_ & Ki & Di). destruct (fill_spec exp10 c j b []) as (_ & Kj & Dj).
  fold i' in Ki, Di. fold j' in Kj, Dj. rewrite Fi in Di. rewrite Fj in Dj. rewrite ip_equal.
  destruct c; cbn [cache_safe cache_final c_comp fill_key fill_done] in *.
  - destruct Hs as (Ha & Hb & N1 & N2). rewrite make_array_padn in *.
    destruct (pad_decide a b _ _ i' j' Ha Hb Ki Kj Di Dj) as (P1 & P2 & P3); auto.
    { intros (X & Y & Z). lia. }
    split; auto. split.
    + intros [La Lb] d. apply P3; lia.
    + intros H. apply andb_prop in H as [H1 H2]. apply P2; congruence.
  - destruct Hs as (Ha & Hb & N1 & N2). rewrite make_array_padn, padn_map in * by auto.
    rewrite <- !lower_caseless in *. rewrite cmp_insens_bcmp.
    rewrite <- (map_length lower a) in Di. rewrite <- (map_length lower b) in Dj.
    destruct (pad_decide (map lower a) (map lower b) _ _ i' j' (lower_bytes _ Ha) (lower_bytes _ Hb) Ki Kj Di Dj) as (P1 & P2 & P3); auto.
    { intros (X & Y & Z). lia. }
    split; auto. split.
    + intros [La Lb] d. apply P3; rewrite map_length; lia.
    + intros H. apply andb_prop in H as [H1 H2]. apply P2; congruence.
  - split; [|split; [tauto|rewrite Di; discriminate]].
    unfold cache_decide. rewrite Ki, Kj, Di. auto.
  - split; [|split; [tauto|rewrite Di; discriminate]].
    unfold cache_decide. rewrite Ki, Kj, Di. cbn [andb]. destruct Hs as [Hs|Hs].
    + rewrite <- Hs. destruct (N.compare_spec (ulp_to_ulong (to_f64_lossy exp10 a)) (ulp_to_ulong (to_f64_lossy exp10 b))) as [E|E|E].
      * rewrite E, N.ltb_irrefl. auto.
      * apply N.ltb_lt in E. rewrite E. auto.
      * destruct (N.ltb_spec (ulp_to_ulong (to_f64_lossy exp10 a)) (ulp_to_ulong (to_f64_lossy exp10 b))); [lia|].
        apply N.ltb_lt in E. rewrite E. auto.
    + rewrite Hs, N.ltb_irrefl. auto.
  - assert (K : it_complete i' && it_complete j' = true) by (rewrite Di, Dj; auto).
    rewrite cache_decide_compare by auto. rewrite Ki, Kj. repeat split; auto.
    intros _ d. rewrite cache_decide_compare by auto. rewrite Ki, Kj. auto.
  - assert (K : it_complete i' && it_complete j' = true) by (rewrite Di, Dj; auto).
    destruct Hs as (Va & Vb & Na & Nb & Z0). pose proof (key_compare _ _ Va Vb Na Nb Z0) as KC.
    rewrite cache_decide_compare by auto. rewrite Ki, Kj, KC. repeat split; auto.
    + intros _ d. rewrite cache_decide_compare by auto. rewrite Ki, Kj. auto.
    + intros _. rewrite <- KC.
      destruct (N.compare_spec (ulp_to_ulong (to_f64_lossy exp10 a)) (ulp_to_ulong (to_f64_lossy exp10 b))); cbn; lia.
  - assert (K : it_complete i' && it_complete j' = true) by (rewrite Di, Dj; auto).
    assert (KC : (N.of_nat (length a) ?= N.of_nat (length b))%N = Nat.compare (length a) (length b)).
    { destruct (Nat.compare_spec (length a) (length b)) as [E|E|E].
      - rewrite E. apply N.compare_refl.
      - apply N.compare_lt_iff. lia.
      - apply N.compare_gt_iff. lia. }
    rewrite cache_decide_compare by auto. rewrite Ki, Kj, KC. repeat split; auto.
    + intros _ d. rewrite cache_decide_compare by auto. rewrite Ki, Kj. auto.
    + intros _. rewrite <- KC. destruct (N.compare_spec (N.of_nat (length a)) (N.of_nat (length b))); cbn; lia.
Qed.
