(** C58, C86: decimals with fraction, exponent and unit, and their order. *)
From Coq Require Import String List NArith ZArith QArith Bool Arith Lia SpecFloat Reals Lra.
From Flocq Require Import IEEE754.BinarySingleNaN Core.
Open Scope list_scope.
Import ListNotations.
From Verif Require Import Base StrModel FloatModel FloatValid FloatInt CompModel CompSpec NumText CompProps DecSpec FracErr DecProofs DecOrder.
Close Scope Q_scope. Close Scope R_scope.

(** C58. A decimal of up to 300 digits on either side of the point, with or without exponent and unit, is read as a
    finite double that differs from the number shown by at most (5/2 f + 3 i + 11) units of 2^-53, relatively, where f
    and i are the numbers of digits behind and before the point; reading stops where the number ends. *)
Theorem c58_decimal : forall exp10 d rest, dec_ok d -> dec_end d rest -> List.length (d_int d) <= 300 -> List.length (frac_digits d) <= 300 ->
  (Z.abs (exp_value d) < 2 ^ 31)%Z -> ((exp_value d < -2 \/ 3 < exp_value d)%Z -> good_exp10 exp10 (exp_value d)) ->
  (dec_real d = 0 \/ bpow radix2 (-900) <= Rabs (dec_real d) <= bpow radix2 1000)%R ->
  snd (to_f64 exp10 (dec_text d ++ rest)) = rest /\
  exists r, is_real (fst (to_f64 exp10 (dec_text d ++ rest))) r /\
    (Rabs (r - dec_real d) <= (5 / 2 * INR (List.length (frac_digits d)) + 3 * INR (List.length (d_int d)) + 11) * / 9007199254740992 * Rabs (dec_real d))%R.
Proof.
  intros exp10 d rest O E L1 L2 V G Rg. destruct (read_near exp10 d rest O E L1 L2 V G Rg) as (A & r & B & C). split; auto. exists r. split; auto.
  rewrite !INR_IZR_INZ. exact C.
Qed.

Definition dec_ex : decimal := mkdec SMinus (bs "12") (Some (bs "5")) (Some (101%N, SNone, bs "3")) (Some 107%N).
Example c58_decimal_ex : dec_text dec_ex = bs "-12.5e3k" /\ dec_ok dec_ex /\ dec_end dec_ex (bs " x") /\ exp_value dec_ex = 3%Z /\
  dec_real dec_ex = (-12500000)%R /\ (bpow radix2 (-900) <= Rabs (-12500000) <= bpow radix2 1000)%R /\
  to_f64 ex10 (bs "-12.5e3k x") = (f_of_Z (-12500000), bs " x").
Proof.
  split; [reflexivity|]. split; [unfold dec_ok; cbn; repeat split; try discriminate; auto; repeat constructor; lia|]. split; [exact I|]. split; [reflexivity|].
  split; [unfold dec_real; change (powerRZ 10 (exp_value dec_ex)) with (10 * (10 * (10 * 1)))%R; change (IZR (unit_value dec_ex)) with 1000%R;
    change (signed (d_sign dec_ex) (digits_val (d_int dec_ex ++ frac_digits dec_ex))) with (-125)%Z; cbn [List.length frac_digits d_frac dec_ex bs pow]; cbn; lra|].
  split.
  - rewrite Rabs_left by lra. split; [apply Rle_trans with (bpow radix2 0); [apply bpow_le; lia|cbn; lra]|].
    apply Rle_trans with (bpow radix2 24); [cbn; lra|apply bpow_le; lia].
  - vm_compute. reflexivity.
Qed.

(** C86. Decimals without exponent and unit, all of which fit a grid of K fraction digits and fourteen digits in all,
    are ordered by the float comparison exactly as the fractions they show, whatever text follows them. *)
Theorem c86_order : forall exp10 K a b ra rb, K <= 14 -> few K a -> few K b -> ends_number ra -> ends_number rb ->
  c_comp exp10 CF64 (dec_text a ++ ra) (dec_text b ++ rb) = Qcompare (dec_frac a) (dec_frac b).
Proof. intros exp10 K a b ra rb HK Fa Fb Ea Eb. exact (few_order K HK exp10 a b ra rb Fa Fb Ea Eb). Qed.

Definition price (s : sign) (i f : string) : decimal := mkdec s (bs i) (Some (bs f)) None None.
Ltac few_tac := unfold few, dec_ok; cbn; repeat split; try discriminate; auto; try lia; repeat constructor; lia.
Example c86_order_ex : few 2 (price SNone "999999999999" "99") /\ few 2 (price SMinus "" "5") /\ few 2 (price SNone "0" "30") /\
  dec_text (price SMinus "" "5") = bs "-.5" /\ Qcompare (dec_frac (price SNone "0" "3")) (dec_frac (price SNone "0" "30")) = Eq /\
  c_comp ex10 CF64 (bs "0.3") (bs "0.30") = Eq /\ c_comp ex10 CF64 (bs "999999999999.98") (bs "999999999999.99") = Lt.
Proof. split; [few_tac|]. split; [few_tac|]. split; [few_tac|]. vm_compute. auto. Qed.

(** C86. The same for equality and for the comparison with a set value. *)
Theorem c86_equal : forall exp10 K a b ra rb, K <= 14 -> few K a -> few K b -> ends_number ra -> ends_number rb ->
  (c_equal exp10 CF64 (dec_text a ++ ra) (dec_text b ++ rb) = true <-> dec_frac a == dec_frac b)%Q /\
  c_comp_self exp10 CF64 (dec_text a ++ ra) (dec_text b ++ rb) = Qcompare (dec_frac a) (dec_frac b) /\
  (c_equal_self exp10 CF64 (dec_text a ++ ra) (dec_text b ++ rb) = true <-> dec_frac a == dec_frac b)%Q.
Proof.
  intros exp10 K a b ra rb HK Fa Fb Ea Eb. pose proof (few_order K HK exp10 a b ra rb Fa Fb Ea Eb) as H.
  assert (E : (f_eqb (fst (to_f64 exp10 (dec_text a ++ ra))) (fst (to_f64 exp10 (dec_text b ++ rb))) = true <-> dec_frac a == dec_frac b)%Q).
  { rewrite Qeq_alt, <- H. rewrite IpProofs.f_eqb_fcmp. destruct (fcmp _ _); cbn; split; auto; discriminate. }
  split; [exact E|]. split; [exact H|exact E].
Qed.
Example c86_equal_ex : few 3 (price SNone "007" "25") /\ few 3 (price SNone "7" "250") /\ c_equal ex10 CF64 (bs "007.25") (bs "7.250 EUR") = true /\
  c_equal ex10 CF64 (bs "7.25") (bs "7.251") = false.
Proof. split; [few_tac|]. split; [few_tac|]. vm_compute. auto. Qed.

(** C86. It is false without the bound: with seventeen digits the smaller number may compare as the greater one. *)
Theorem c86_all_refuted : exists a b, dec_ok a /\ dec_ok b /\ d_exp a = None /\ d_exp b = None /\ d_unit a = None /\ d_unit b = None /\
  dec_text a = bs "999999999999990.29" /\ dec_text b = bs "999999999999990.30" /\
  (dec_frac a < dec_frac b)%Q /\ forall exp10, c_comp exp10 CF64 (dec_text a) (dec_text b) = Gt.
Proof.
  exists (price SNone "999999999999990" "29"), (price SNone "999999999999990" "30").
  assert (O : forall i f, forallb (fun c => ((48 <=? c) && (c <=? 57))%N) (bs i ++ bs f) = true -> bs i ++ bs f <> [] -> dec_ok (price SNone i f)).
  { intros i f H N. rewrite forallb_forall in H. unfold dec_ok, price. cbn [d_int d_frac frac_digits d_exp d_unit].
    repeat split; auto; apply Forall_forall; intros x I; specialize (H x ltac:(apply in_app_iff; auto)); unfold digit_byte; apply andb_prop in H as [H1 H2];
    apply N.leb_le in H1; apply N.leb_le in H2; auto. }
  split; [apply O; [vm_compute; auto|discriminate]|]. split; [apply O; [vm_compute; auto|discriminate]|]. repeat split; auto.
Qed.
