(** C29: the sum and the mean of decimals. *)
From Coq Require Import String List NArith ZArith Bool Arith Lia SpecFloat Reals Lra Permutation.
From Flocq Require Import IEEE754.BinarySingleNaN Core.
Open Scope list_scope.
Import ListNotations.
From Verif Require Import Base StrModel FloatModel FloatInt NumText CompModel CompSpec CompProps AggModel AggProofs AggProps DecSpec DecProofs FracErr DecProps SumSpec SumErr.
Close Scope Z_scope. Close Scope R_scope. Open Scope nat_scope.

Section Props.
Variable exp10 : Z -> f64.
Variable decode : bytes -> list N.
Variable is_space is_alnum : N -> bool.
Variable comp_make : bytes -> res comp_t.
Notation adds := (agg_adds exp10 decode is_space is_alnum).
Notation shows := (AggProps.shows exp10 decode is_space is_alnum comp_make).

Lemma sum_adds : forall vs x, adds (GSum x) vs = GSum (fold_left fadd (map (to_f64_lossy exp10) vs) x).
Proof. induction vs as [|v vs IH]; intros x; [reflexivity|]. cbn [agg_adds fold_left agg_add map]. apply IH. Qed.
Lemma mean_adds : forall vs x c m, holds_int c m -> (0 <= m)%Z -> small (m + Z.of_nat (List.length vs)) ->
  exists d, adds (GMean x c) vs = GMean (fold_left fadd (map (to_f64_lossy exp10) vs) x) d /\ holds_int d (m + Z.of_nat (List.length vs)).
Proof.
  induction vs as [|v vs IH]; intros x c m Hc Hm Sm.
  - exists c. split; auto. cbn. rewrite Z.add_0_r. auto.
  - cbn [agg_adds fold_left agg_add map]. cbn [List.length] in *. unfold small in Sm.
    assert (Hd : holds_int (fadd c f_one) (m + 1)) by (apply holds_add; auto using f_one_holds; unfold small; lia).
    destruct (IH (fadd x (to_f64_lossy exp10 v)) _ _ Hd) as (d & E & H); [lia|unfold small; lia|].
    exists d. split; [exact E|]. replace (m + Z.of_nat (S (List.length vs)))%Z with (m + 1 + Z.of_nat (List.length vs))%Z by lia. auto.
Qed.
Lemma reals_map : forall vs xs, Forall2 (fun v x => is_real (to_f64_lossy exp10 v) x) vs xs -> Forall2 is_real (map (to_f64_lossy exp10) vs) xs.
Proof. induction 1; constructor; auto. Qed.

(** C29. Whatever finite numbers the values are read as, and in whatever order, sum shows their sum with an error of at
    most 1.001 n units of 2^-53 of the sum of their sizes, and mean their mean with such an error and that of one
    division; n is the number of values, up to 2^40. *)
Theorem c29_sum_near : forall vs xs, Forall2 (fun v x => is_real (to_f64_lossy exp10 v) x) vs xs ->
  (INR (List.length vs) <= 1099511627776)%R -> (sizes xs <= bpow radix2 1000)%R ->
  (exists y s, shows (bs "sum") vs (ONum y) /\ is_real y s /\
    (Rabs (s - total xs) <= 1001 / 1000 * INR (List.length vs) * / 9007199254740992 * sizes xs)%R) /\
  (vs <> [] -> exists y m, shows (bs "mean") vs (ONum y) /\ is_real y m /\
    (Rabs (m - total xs / INR (List.length vs)) <=
      1001 / 1000 * (INR (List.length vs) + 1) * / 9007199254740992 * (sizes xs / INR (List.length vs)) + bpow radix2 (-1075))%R).
Proof.
  intros vs xs F L B. pose proof (reals_map vs xs F) as F'. destruct (sum_near _ _ F') as (s & Hs & Es); [rewrite map_length; auto|auto|]. rewrite map_length in Es. split.
  - eexists _, s. split; [exists (GSum f_zero); split; [reflexivity|rewrite sum_adds; reflexivity]|]. split; [exact Hs|exact Es].
  - intros N. assert (P : 0 < List.length vs) by (destruct vs; [congruence|cbn; lia]).
    assert (Z40 : (Z.of_nat (List.length vs) <= 1099511627776)%Z) by (apply le_IZR; rewrite <- INR_IZR_INZ; exact L).
    destruct (mean_adds vs f_zero f_zero 0 holds_zero ltac:(lia)) as (d & E & Hd); [unfold small; lia|]. rewrite Z.add_0_l in Hd.
    destruct (mean_near _ s d (List.length vs) xs Hs Hd P L B Es (total_sizes xs)) as (m & Hm & Em).
    eexists _, m. split; [|split; [exact Hm|exact Em]]. exists (GMean f_zero f_zero). split; [reflexivity|]. rewrite E. cbn [agg_result agg_value].
    assert (T : f_ltb f_zero d = true); [|rewrite T; reflexivity]. unfold f_ltb, SFltb. rewrite (holds_cmp _ _ _ _ holds_zero Hd).
    assert (C : (0 ?= Z.of_nat (List.length vs))%Z = Lt) by (apply Z.compare_lt_iff; lia). rewrite C. reflexivity.
Qed.

Lemma dec_reals : forall D vs ds, D <= 300 -> Forall2 (dec_value exp10 D) vs ds -> exists xs, Forall2 (fun v x => is_real (to_f64_lossy exp10 v) x) vs xs /\
  Forall2 (fun x d => (Rabs (x - d) <= (11 / 2 * INR D + 11) * u53 * Rabs d)%R) xs (map dec_real ds).
Proof.
  intros D vs ds HD H. induction H as [|v d vs ds Hv H (xs & X1 & X2)]; [exists []; split; constructor|].
  destruct Hv as (rest & -> & O & E & L1 & L2 & V & G & Rg).
  destruct (c58_decimal exp10 d rest O E ltac:(lia) ltac:(lia) V G Rg) as (_ & r & R1 & R2). exists (r :: xs). split; constructor; auto.
  eapply Rle_trans; [exact R2|]. fold u53. apply Rmult_le_compat_r; [apply Rabs_pos|]. apply Rmult_le_compat_r; [pose proof u53_pos; lra|].
  apply le_INR in L1, L2. lra.
Qed.

(** C29. The sum and the mean of decimals with up to D digits before and D behind the point, D at most 300: the error is at most
    5.5 D + 11 units of 2^-53 for reading and 1.01 (for the mean 1.01 and one more) for each value, of the sum of the sizes. *)
Theorem c29_sum_decimals : forall D vs ds, D <= 300 -> Forall2 (dec_value exp10 D) vs ds ->
  (INR (List.length vs) <= 1099511627776)%R -> (sizes (map dec_real ds) <= bpow radix2 999)%R ->
  (exists y s, shows (bs "sum") vs (ONum y) /\ is_real y s /\
    (Rabs (s - total (map dec_real ds)) <= (11 / 2 * INR D + 11 + 101 / 100 * INR (List.length vs)) * / 9007199254740992 * sizes (map dec_real ds))%R) /\
  (vs <> [] -> exists y m, shows (bs "mean") vs (ONum y) /\ is_real y m /\
    (Rabs (m - total (map dec_real ds) / INR (List.length vs)) <=
      (11 / 2 * INR D + 11 + 101 / 100 * (INR (List.length vs) + 1)) * / 9007199254740992 * (sizes (map dec_real ds) / INR (List.length vs)) + bpow radix2 (-1075))%R).
Proof.
  intros D vs ds HD H L B. destruct (dec_reals D vs ds HD H) as (xs & X1 & X2).
  set (C := ((11 / 2 * INR D + 11) * u53)%R) in *. pose proof u53_pos as U.
  assert (D3 : (INR D <= 300)%R) by (replace 300%R with (INR 300) by (rewrite INR_IZR_INZ; reflexivity); apply le_INR; auto). pose proof (pos_INR D) as D0.
  assert (C0 : (0 <= C)%R) by (unfold C; apply Rmult_le_pos; lra).
  assert (C1 : (C <= / 1000)%R) by (unfold C, u53; lra).
  destruct (near_values C xs (map dec_real ds) C0 X2) as (T & Z). set (T0 := total (map dec_real ds)) in *. set (A := sizes (map dec_real ds)) in *.
  pose proof (sizes_pos (map dec_real ds)) as A0. fold A in A0. pose proof (pos_INR (List.length vs)) as P.
  assert (Bx : (sizes xs <= bpow radix2 1000)%R).
  { change 1000%Z with (1 + 999)%Z. rewrite bpow_plus. change (bpow radix2 1) with 2%R. nra. }
  destruct (c29_sum_near vs xs X1 L Bx) as (Sm & Mn). fold u53 in *. set (n := INR (List.length vs)) in *. split.
  - destruct Sm as (y & s & Y & R & E). exists y, s. split; auto. split; auto.
    replace (s - T0)%R with ((s - total xs) + (total xs - T0))%R by ring. eapply Rle_trans; [apply Rabs_triang|].
    assert ((1001 / 1000 * n * u53 * sizes xs <= 1001 / 1000 * n * u53 * ((1 + / 1000) * A))%R).
    { apply Rmult_le_compat_l; [|nra]. apply Rmult_le_pos; [|lra]. lra. }
    replace ((11 / 2 * INR D + 11 + 101 / 100 * n) * u53 * A)%R with (C * A + 101 / 100 * n * u53 * A)%R by (unfold C; ring).
    assert ((0 <= n * u53 * A)%R) by (apply Rmult_le_pos; auto; apply Rmult_le_pos; lra). lra.
  - intros N. destruct (Mn N) as (y & m & Y & R & E). exists y, m. split; auto. split; auto.
    assert (N1 : (1 <= n)%R) by (unfold n; change 1%R with (INR 1); apply le_INR; destruct vs; [congruence|cbn; lia]).
    assert (I0 : (0 < / n)%R) by (apply Rinv_0_lt_compat; lra). unfold Rdiv at 1 in E. unfold Rdiv at 1.
    replace (m - T0 * / n)%R with ((m - total xs * / n) + (total xs - T0) * / n)%R by ring. eapply Rle_trans; [apply Rabs_triang|].
    rewrite (Rabs_mult _ (/ n)), (Rabs_pos_eq (/ n)) by lra.
    assert (E2 : (Rabs (total xs - T0) * / n <= C * (A / n))%R) by (unfold Rdiv; rewrite <- Rmult_assoc; apply Rmult_le_compat_r; lra).
    assert (E3 : (sizes xs / n <= (1 + / 1000) * (A / n))%R) by (unfold Rdiv; rewrite <- Rmult_assoc; apply Rmult_le_compat_r; [lra|]; nra).
    assert (E4 : (0 <= A / n)%R) by (apply Rmult_le_pos; lra). set (a := (A / n)%R) in *.
    assert ((1001 / 1000 * (n + 1) * u53 * (sizes xs / n) <= 1001 / 1000 * (n + 1) * u53 * ((1 + / 1000) * a))%R).
    { apply Rmult_le_compat_l; [|lra]. apply Rmult_le_pos; lra. }
    replace ((11 / 2 * INR D + 11 + 101 / 100 * (n + 1)) * u53 * a)%R with (C * a + 101 / 100 * (n + 1) * u53 * a)%R by (unfold C; ring).
    assert ((0 <= (n + 1) * u53 * a)%R) by (apply Rmult_le_pos; auto; apply Rmult_le_pos; lra). lra.
Qed.
End Props.

Definition sums_ex : list decimal := [price SNone "12" "5"; price SMinus "" "75"; price SNone "0" "1"].
Lemma sums_ex_real : map dec_real sums_ex = [25 / 2; - (3 / 4); 1 / 10]%R.
Proof.
  assert (A : dec_real (price SNone "12" "5") = (25 / 2)%R).
  { unfold dec_real. change (signed _ _) with 125%Z. change (List.length _) with 1. change (powerRZ 10 _) with 1%R. change (unit_value _) with 1%Z. lra. }
  assert (B : dec_real (price SMinus "" "75") = (- (3 / 4))%R).
  { unfold dec_real. change (signed _ _) with (-75)%Z. change (List.length _) with 2. change (powerRZ 10 _) with 1%R. change (unit_value _) with 1%Z. lra. }
  assert (C : dec_real (price SNone "0" "1") = (1 / 10)%R).
  { unfold dec_real. change (signed _ _) with 1%Z. change (List.length _) with 1. change (powerRZ 10 _) with 1%R. change (unit_value _) with 1%Z. lra. }
  unfold sums_ex. cbn [map]. rewrite A, B, C. reflexivity.
Qed.
Example c29_sum_decimals_ex : Forall2 (dec_value ex10 2) [bs "12.5 EUR"; bs "-.75"; bs "0.1"] sums_ex /\
  (total (map dec_real sums_ex) = 11.85)%R /\ (sizes (map dec_real sums_ex) = 13.35)%R /\ (13.35 <= bpow radix2 999)%R /\
  ex_result "sum" [bs "12.5 EUR"; bs "-.75"; bs "0.1"] = Ok (ONum (S754_finite false 6670956948042547 (-49))) /\
  ex_result "mean" [bs "12.5 EUR"; bs "-.75"; bs "0.1"] = Ok (ONum (S754_finite false 8894609264056729 (-51))).
Proof.
  pose proof sums_ex_real as E. rewrite E.
  assert (B : (16 <= bpow radix2 999)%R) by (change 16%R with (bpow radix2 4); apply bpow_le; lia).
  assert (S : (bpow radix2 (-900) <= / 16)%R) by (change (/ 16)%R with (bpow radix2 (-4)); apply bpow_le; lia).
  assert (B2 : (16 <= bpow radix2 1000)%R) by (change 16%R with (bpow radix2 4); apply bpow_le; lia).
  cbn [map sums_ex] in E. injection E as E1 E2 E3.
  split; [|split; [cbn; lra|split; [cbn; unfold Rabs; repeat destruct Rcase_abs; lra|split; [lra|split; vm_compute; reflexivity]]]].
  repeat constructor; [exists (bs " EUR")|exists []|exists []]; (split; [reflexivity|]); (split; [unfold dec_ok; cbn; repeat split; try discriminate; auto; repeat constructor; lia|]);
    (split; [cbn; repeat split; try discriminate; auto; try lia|]); (split; [cbn; lia|]); (split; [cbn; lia|]); (split; [cbn; lia|]); (split; [cbn; lia|]); right;
    rewrite ?E1, ?E2, ?E3; unfold Rabs; destruct Rcase_abs; lra.
Qed.

Example c29_sum_near_ex : Forall2 (fun v x => is_real (to_f64_lossy ex10 v) x) [bs "12.5x"; bs "-3"] [12.5; -3]%R /\ (sizes [12.5; -3] = 15.5)%R /\ (total [12.5; -3] = 9.5)%R /\
  ex_result "sum" [bs "12.5x"; bs "-3"] = Ok (ONum (S754_finite false 5348024557502464 (-49))) /\
  ex_result "mean" [bs "12.5x"; bs "-3"] = Ok (ONum (S754_finite false 5348024557502464 (-50))).
Proof.
  split; [|split; [cbn; unfold Rabs; repeat destruct Rcase_abs; lra|split; [cbn; lra|split; vm_compute; reflexivity]]].
  constructor; [|constructor; [|constructor]].
  - exists (@B754_finite 53 1024 false 7036874417766400 (-49) eq_refl). split; [vm_compute; reflexivity|]. split; [|reflexivity]. unfold B2R, F2R. cbn. lra.
  - exists (@B754_finite 53 1024 true 6755399441055744 (-51) eq_refl). split; [vm_compute; reflexivity|]. split; [|reflexivity]. unfold B2R, F2R. cbn. lra.
Qed.

(** C29. The sum depends on the order of the values. *)
Theorem c29_sum_order_refuted : exists vs ws y z, Permutation vs ws /\ ex_result "sum" vs = Ok (ONum y) /\ ex_result "sum" ws = Ok (ONum z) /\ y = f_zero /\ z = f_one.
Proof.
  exists [bs "10000000000000000"; bs "1"; bs "-10000000000000000"], [bs "10000000000000000"; bs "-10000000000000000"; bs "1"]. eexists _, _.
  split; [apply perm_skip, perm_swap|]. split; [vm_compute; reflexivity|]. split; [vm_compute; reflexivity|]. split; vm_compute; reflexivity.
Qed.
