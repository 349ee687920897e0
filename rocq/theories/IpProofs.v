(** The IP comparator on dotted numbers, and the float comparator. *)
From Coq Require Import Decimal DecimalFacts DecimalN List NArith ZArith Bool Arith Lia SpecFloat.
From Coq Require Import ZifyBool ZifyN ZifyNat.
Import ListNotations.
From Verif Require Import Base TextSpec StrModel StrSpec StrProofs FloatModel FloatSpec FloatProofs FloatValid
  CompModel CompSpec OrdProofs CompProofs NumProofs.
From Coq Require Import List.
Close Scope Q_scope.
Close Scope Z_scope.

Definition canonical (l : bytes) : Prop := l <> [] /\ (nozero l \/ l = [48%N]).

Lemma shortlex_canonical : forall a b, Forall digit_byte a -> Forall digit_byte b -> canonical a -> canonical b ->
  shortlex a b = (dval_ a 0 ?= dval_ b 0)%Z.
Proof.
  assert (L : forall a b, Forall digit_byte a -> Forall digit_byte b -> canonical a -> canonical b -> length a < length b ->
    (dval_ a 0 < dval_ b 0)%Z).
  { intros a b Ha Hb [Na _] [Nb Zb] Hl. destruct a as [|x a]; [congruence|]. destruct b as [|y b]; [congruence|].
    destruct Zb as [Zb|Zb]; [|injection Zb as -> ->; cbn in Hl; lia].
    rewrite (dval_cons y). inversion Hb as [|? ? Hy Hb']; subst. cbn in Zb, Hl. unfold digit_byte in Hy.
    pose proof (dval_bound _ Ha) as Ba. pose proof (dval_bound b Hb').
    assert (10 ^ Z.of_nat (length (x :: a)) <= 10 ^ Z.of_nat (length b))%Z by (apply Z.pow_le_mono_r; cbn [length]; lia). nia. }
  intros a b Ha Hb Za Zb. unfold shortlex. destruct (Nat.compare_spec (length a) (length b)) as [E|E|E]; cbn.
  - apply same_len_cmp; auto.
  - symmetry. apply (proj2 (Z.compare_lt_iff _ _)). auto.
  - symmetry. apply (proj2 (Z.compare_gt_iff _ _)). auto.
Qed.

Lemma digits_digit : forall u, Forall digit_byte (digits u).
Proof. induction u; cbn; constructor; auto; unfold digit_byte; lia. Qed.

Lemma digits_dval : forall u acc, dval_ (digits u) (Z.of_N acc) = Z.of_N (uval acc u).
Proof.
  induction u; intros acc; cbn [digits uval]; auto;
    (rewrite <- IHu; unfold dval_; cbn [fold_left]; f_equal; lia).
Qed.

Lemma print_N_val : forall n, dval_ (print_N n) 0 = Z.of_N n.
Proof.
  intros. unfold print_N. change 0%Z with (Z.of_N 0). rewrite digits_dval, uval_of.
  f_equal. apply DecimalN.Unsigned.of_to.
Qed.

Lemma print_N_canonical : forall n, canonical (print_N n).
Proof.
  intros n. split.
  - destruct (print_N_head n) as (c & r & -> & _). discriminate.
  - assert (E : unorm (N.to_uint n) = N.to_uint n).
    { rewrite <- DecimalN.Unsigned.to_of, DecimalN.Unsigned.of_to. auto. }
    unfold print_N. rewrite <- E. unfold unorm. pose proof (nzhead_nonzero (N.to_uint n)) as Z.
    destruct (nzhead (N.to_uint n)) as [|u|u|u|u|u|u|u|u|u|u]; cbn [digits]; auto; try (left; cbn; discriminate).
    exfalso. apply (Z u). auto.
Qed.

Lemma print_N_shortlex : forall n m, shortlex (print_N n) (print_N m) = (n ?= m)%N.
Proof.
  intros. rewrite shortlex_canonical; auto using print_N_canonical; try apply digits_digit.
  rewrite !print_N_val. apply N2Z.inj_compare.
Qed.

Lemma digit_run_app : forall l r, Forall digit_byte l -> match r with c :: _ => is_digit c = false | [] => True end ->
  digit_run (l ++ r) = length l.
Proof.
  induction 1 as [|c l H _ IH]; intros Hr; cbn.
  - destruct r; cbn; auto. rewrite Hr. auto.
  - apply digit_is in H. rewrite H. auto.
Qed.

Lemma segs_dotted : forall ns f, ns <> [] -> length (dotted ns) < f -> segs f (dotted ns) = map print_N ns.
Proof.
  induction ns as [|n ns IH]; intros f Hn Hf; [congruence|]. destruct f as [|f]; [lia|].
  unfold dotted in *. cbn [map join segs] in *. destruct ns as [|m ns].
  - cbn [map] in *.
    assert (D : digit_run (print_N n) = length (print_N n)).
    { rewrite <- (app_nil_r (print_N n)) at 1. apply digit_run_app; auto. apply digits_digit. }
    rewrite D, firstn_all. unfold dot_at.
    assert (N : nth_error (print_N n) (length (print_N n)) = None) by (apply nth_error_None; lia). rewrite N. auto.
  - cbn [map] in *. set (rest := join 46%N (print_N m :: map print_N ns)) in *.
    assert (D : digit_run (print_N n ++ 46%N :: rest) = length (print_N n)).
    { apply digit_run_app; auto. apply digits_digit. }
    rewrite D, firstn_app, firstn_all, Nat.sub_diag. cbn [firstn]. rewrite app_nil_r.
    unfold dot_at. rewrite nth_error_app2 by lia. rewrite Nat.sub_diag. cbn [nth_error].
    change (46 =? 46)%N with true. cbv iota. f_equal.
    rewrite skipn_app, skipn_all2 by lia. replace (length (print_N n) + 1 - length (print_N n)) with 1 by lia.
    cbn [skipn app]. apply IH; [discriminate|].
    rewrite app_length in Hf. cbn [length] in Hf. lia.
Qed.

Lemma trim_dotted : forall ns, trim_left (dotted ns) = dotted ns.
Proof.
  intros [|n ns]; auto. unfold dotted. destruct (print_N_head n) as (c & r & E & D & _).
  assert (32 <? c = true)%N by (unfold is_digit in D; lia).
  cbn [map join]. destruct (map print_N ns); rewrite E; cbn; rewrite H; auto.
Qed.

Lemma lexl_map_print : forall a b, lexl shortlex (map print_N a) (map print_N b) = numbers_cmp a b.
Proof.
  induction a as [|x a IH]; intros [|y b]; cbn; auto. rewrite print_N_shortlex, IH. auto.
Qed.

Theorem ip_dotted : forall a b, a <> [] -> b <> [] -> ip_cmp (dotted a) (dotted b) = numbers_cmp a b.
Proof.
  intros a b Ha Hb. rewrite ip_cmp_key. unfold ip_key. rewrite !trim_dotted, !segs_dotted by (auto; lia).
  apply lexl_map_print.
Qed.

(** Floats. *)
Definition not_nan (x : f64) : Prop := x <> S754_nan.

Lemma fcmp_dval : forall x y, valid64 x -> valid64 y -> not_nan x -> not_nan y ->
  fcmp x y = (dval (f_bits x) ?= dval (f_bits y))%Z.
Proof.
  intros x y Vx Vy Nx Ny.
  destruct (f_bits_roundtrip x Vx Nx) as (Bx & Mx & Rx). destruct (f_bits_roundtrip y Vy Ny) as (By & My & Ry).
  rewrite <- (fcmp_value (f_bits x) (f_bits y)) by auto. rewrite Rx, Ry. auto.
Qed.

Theorem f64_preorder : forall exp10, (forall z, valid64 (exp10 z)) ->
  total_preorder_on (fun v => to_f64_lossy exp10 v <> S754_nan) (c_comp exp10 CF64).
Proof.
  intros exp10 V. apply (preorder_on_key _ (fun v => dval (f_bits (to_f64_lossy exp10 v))) Z.compare).
  - apply Z_preorder.
  - intros x y Hx Hy. cbn [c_comp]. apply fcmp_dval; auto using to_f64_valid.
Qed.

Lemma f_eqb_fcmp : forall x y, f_eqb x y = is_eq (fcmp x y).
Proof. intros. unfold fcmp. destruct (f_eqb x y); auto. destruct (f_ltb y x); auto. Qed.

Lemma ip_equal : forall c exp10 a b, c_equal exp10 c a b = is_eq (c_comp exp10 c a b).
Proof.
  intros c exp10 a b. destruct c; cbn [c_equal c_comp]; auto.
  - apply beq_bcmp.
  - rewrite equal_insens_bcmp, cmp_insens_bcmp. auto.
  - apply f_eqb_fcmp.
  - destruct (Nat.compare_spec (length a) (length b)) as [E|E|E]; cbn.
    + rewrite E. apply Nat.eqb_refl.
    + apply Nat.eqb_neq. lia.
    + apply Nat.eqb_neq. lia.
Qed.

(** A comparator remembering its left value answers like the direct comparison. *)
Definition self_len (c : cmpr) (a b : bytes) : Prop :=
  c = CLen -> (N.of_nat (length a) < 2 ^ 32)%N /\ (N.of_nat (length b) < 2 ^ 32)%N.

Lemma comp_self_comp : forall c exp10 a b, self_len c a b ->
  c_comp_self exp10 c a b = c_comp exp10 c a b /\ c_equal_self exp10 c a b = c_equal exp10 c a b.
Proof.
  intros c exp10 a b H. destruct c; cbn [c_comp_self c_comp c_equal_self c_equal]; auto.
  - split.
    + rewrite cmp_insens_bcmp. apply (insens_quick_bcmp (map lower a) b 0).
    + rewrite !equal_insens_bcmp, map_lower_lower. auto.
  - destruct (H eq_refl) as [Ha Hb]. unfold as_u32. rewrite !N.mod_small by auto. split.
    + destruct (Nat.compare_spec (length a) (length b)) as [E|E|E].
      * rewrite E. apply N.compare_refl.
      * apply N.compare_lt_iff. lia.
      * apply N.compare_gt_iff. lia.
    + destruct (Nat.eqb_spec (length a) (length b)) as [E|E]; lia.
Qed.
