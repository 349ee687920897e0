(** C69: the formats of printed numbers. *)
From Coq Require Import String List NArith ZArith Bool Arith Reals Lia Lra SpecFloat.
Open Scope list_scope.
Import ListNotations.
From Verif Require Import Base TextModel StrSpec StrModel StrProofs NumProofs IpProofs MatchText ExprCols GenProofs FloatModel FloatValid FloatInt FmtSpec FmtModel FmtProofs.
Close Scope Z_scope.
Open Scope nat_scope.

(** Full claim: a number printed with power2 or power10 reads as a number close to it. Proved for every finite double, with the standard
    library's printing of a double with no digit and with one digit behind the point as hypothesis (a nearest decimal): a number of less
    than a thousand is printed as the nearest whole number, a larger one as a number with a unit that is within a tenth of it.
    Missing: a better bound does not hold, see c69_tenth. *)
Theorem c69_power_partial : forall disp disp_p expo expo_p,
  (forall q, valid64 q -> finite q -> (0 <= val q)%R -> nearest false (disp_p 0%N q) (val q) /\ nearest true (disp_p 1%N q) (val q)) ->
  forall (two : bool) x, valid64 x -> finite x ->
  let text := fmt_print disp disp_p expo expo_p (if two then NPower2 else NPower10) x in
  exists y, valid64 y /\ finite y /\ (exists n, val y = IZR n) /\ (Rabs (val y - val x) <= 1 / 2)%R /\
    ((Rabs (val y) < 1000)%R -> text = disp y) /\
    ((1000 <= Rabs (val y))%R -> exists r, reads two text r /\ (Rabs (r - val x) <= Rabs (val x) / 10)%R).
Proof.
  intros disp disp_p expo expo_p Hs two x V Fx text. destruct (round_ok x V Fx) as (R1 & R2 & R3 & R4). exists (f_round x).
  assert (T : text = print_power disp disp_p two x) by (unfold text; destruct two; reflexivity). rewrite T.
  repeat split; auto; [apply small_printed; auto|apply power_printed; auto].
Qed.
(** A nearest decimal, for whole quotients only; enough for the examples. *)
Definition ex_dp (p : N) (q : f64) : bytes := (* stands for the standard library's Display with digits, /repo/src/num.rs:195 *)
  match q with S754_finite _ m e => let v := if (0 <=? e)%Z then (Zpos m * 2 ^ e)%Z else (Zpos m / 2 ^ (- e))%Z in print_N (Z.to_N v) ++ (if (p =? 0)%N then [] else bs ".0") | _ => bs "0" end.
Definition ex_d (q : f64) : bytes := ex_dp 0 q. (* stands for the standard library's Display, /repo/src/num.rs:197 *)
Example c69_power_partial_ex :
  fmt_print ex_d ex_dp ex_d ex_dp NPower2 (f_of_Z 2048) = bs "2.0K" /\ fmt_print ex_d ex_dp ex_d ex_dp NPower10 (fneg (f_of_Z 17000000)) = bs "-17m" /\
  fmt_print ex_d ex_dp ex_d ex_dp NPower10 (f_of_Z 999500) = bs "1m" /\ fmt_print ex_d ex_dp ex_d ex_dp NPower2 (f_of_Z 999) = bs "999" /\
  reads false (bs "-17m") (-17000000) /\ valid64 (f_of_Z 17000000) /\ finite (f_of_Z 17000000).
Proof.
  do 4 (split; [vm_compute; reflexivity|]). split; [|split; [vm_compute; reflexivity|exact I]].
  exists true, false, 17%N, 1. split; [lia|]. split; [vm_compute; reflexivity|]. unfold decimal_val, unit_size. cbn [Z.of_N Z.of_nat Pos.of_succ_nat Pos.succ]. change (1000 ^ 2)%Z with 1000000%Z. lra.
Qed.
(** Infinities and not-a-number are printed as the library prints them, in every format without digits. *)
Theorem c69_special : forall disp disp_p expo expo_p x, ~ finite x ->
  fmt_print disp disp_p expo expo_p NPower2 x = disp x /\ fmt_print disp disp_p expo expo_p NPower10 x = disp x /\ fmt_print disp disp_p expo expo_p (NPlain None) x = disp x /\
  fmt_print disp disp_p expo expo_p (NShort None) x = expo x.
Proof. intros disp disp_p expo expo_p [s|s| |s m e] H; try (elim H; exact I); repeat split; reflexivity. Qed.
Example c69_special_ex : ~ finite (S754_infinity true) /\ ~ finite S754_nan.
Proof. split; intros H; exact H. Qed.
(** The bound of c69_power_partial is nearly reached: 1099 is printed as 1k. *)
Theorem c69_tenth : forall disp disp_p expo expo_p, fmt_print disp disp_p expo expo_p NPower10 (f_of_Z 1099) = bs "1k" /\
  fmt_print disp disp_p expo expo_p NPower2 (f_of_Z 1126) = bs "1K".
Proof. intros. split; reflexivity. Qed.
Example c69_tenth_ex : (1099 - 1000 > 9 * 1099 / 100)%R.
Proof. lra. Qed.

(** The units printed are those read: the letter multiplies by the unit. *)
Theorem c69_letters : forall (two : bool) k, k < 8 -> suffix_valf (nth k (unit_letters two) 0%N) = Some (f_of_Z (unit_size two k)).
Proof. intros two k H. do 8 (destruct k as [|k]; [destruct two; vm_compute; reflexivity|]). lia. Qed.
Example c69_letters_ex : suffix_valf 77 = Some (f_of_Z 1048576) /\ suffix_valf 109 = Some (f_of_Z 1000000).
Proof. split; vm_compute; reflexivity. Qed.

(** The names of the formats, in any case, alone or with a number of digits. *)
Theorem c69_new : forall spec w f, map lower spec = bs w ->
  In (w, f) [("plain", NPlain None); ("short", NShort None); ("float", NFloat None); ("power2", NPower2); ("p2", NPower2); ("power10", NPower10); ("p10", NPower10)]%string ->
  fmt_new spec = Ok f.
Proof.
  intros spec w f H I. unfold fmt_new. rewrite H.
  repeat (destruct I as [I|I]; [injection I as <- <-; reflexivity|]). elim I.
Qed.
Example c69_new_ex : map lower (bs "Power2") = bs "power2" /\ fmt_new (bs "Power2") = Ok NPower2.
Proof. split; reflexivity. Qed.
Lemma lower_none a b : ~ In 46%N (bs a) -> map lower b = bs a -> ~ In 46%N b.
Proof. intros N E I. apply N. rewrite <- E. apply in_map_iff. exists 46%N. split; auto. Qed.
Lemma not_word (s w : bytes) : In 46%N s -> ~ In 46%N w -> beq (map lower s) w = false.
Proof.
  intros I N. destruct (beq (map lower s) w) eqn:E; auto. apply beq_eq in E. elim N. rewrite <- E. apply in_map_iff. exists 46%N. split; auto.
Qed.
Theorem c69_new_digits : forall word w f p, map lower word = bs w -> (p < 2 ^ 64)%N ->
  In (w, f) [("plain", NPlain (Some p)); ("short", NShort (Some p)); ("float", NFloat (Some p))]%string ->
  fmt_new (word ++ 46%N :: print_N p) = Ok f.
Proof.
  intros word w f p H Hp I. unfold fmt_new. rewrite !not_word by (try (apply in_or_app; right; left; reflexivity); cbn; intuition discriminate).
  cbn [orb]. rewrite split_once_app.
  - rewrite to_usize_whole_print by auto. cbn [rbind]. rewrite H. repeat (destruct I as [I|I]; [injection I as <- <-; reflexivity|]). elim I.
  - eapply lower_none; [|exact H]. repeat (destruct I as [I|I]; [injection I as <- <-; cbn; intuition discriminate|]). elim I.
Qed.
Example c69_new_digits_ex : fmt_new (bs "FLOAT.12") = Ok (NFloat (Some 12%N)) /\ fmt_new (bs "plain.0") = Ok (NPlain (Some 0%N)).
Proof. split; vm_compute; reflexivity. Qed.
Lemma split_once_some d : forall l a b, split_once d l = Some (a, b) -> l = a ++ d :: b.
Proof.
  induction l as [|c l IH]; intros a b; cbn [split_once]; [discriminate|]. destruct (N.eqb_spec c d) as [->|N]; [intros E; injection E as <- <-; reflexivity|].
  destruct (split_once d l) as [(x, y)|]; [|discriminate]. intros E. injection E as <- <-. cbn [app]. f_equal. auto.
Qed.
(** Nothing else is accepted: a format that is none of the words must be a word, a point and a whole number. *)
Theorem c69_new_only : forall spec f, fmt_new spec = Ok f ->
  In (map lower spec) (map bs ["plain"; "short"; "float"; "power2"; "p2"; "power10"; "p10"]%string) \/
  exists a b p, spec = a ++ 46%N :: b /\ In (map lower a, f) [(bs "plain", NPlain (Some p)); (bs "short", NShort (Some p)); (bs "float", NFloat (Some p))]%string /\ to_usize_whole b = Ok p.
Proof.
  intros spec f H. unfold fmt_new in H.
  destruct (beq (map lower spec) (bs "plain")) eqn:E1; [apply beq_eq in E1; rewrite E1; left; cbn; auto 10|].
  destruct (beq (map lower spec) (bs "short")) eqn:E2; [apply beq_eq in E2; rewrite E2; left; cbn; auto 10|].
  destruct (beq (map lower spec) (bs "float")) eqn:E3; [apply beq_eq in E3; rewrite E3; left; cbn; auto 10|].
  destruct (beq (map lower spec) (bs "power2")) eqn:E4; [apply beq_eq in E4; rewrite E4; left; cbn; auto 10|].
  destruct (beq (map lower spec) (bs "p2")) eqn:E5; [apply beq_eq in E5; rewrite E5; left; cbn; auto 10|].
  destruct (beq (map lower spec) (bs "power10")) eqn:E6; [apply beq_eq in E6; rewrite E6; left; cbn; auto 10|].
  destruct (beq (map lower spec) (bs "p10")) eqn:E7; [apply beq_eq in E7; rewrite E7; left; cbn; auto 10|]. cbn [orb] in H.
  right. destruct (split_once 46 spec) as [(a, b)|] eqn:S; [|discriminate]. destruct (to_usize_whole b) as [p| |] eqn:P; try discriminate. cbn [rbind] in H.
  exists a, b, p. split; [|split; [|exact P]].
  - apply split_once_some in S. exact S.
  - destruct (beq (map lower a) (bs "plain")) eqn:A1; [apply beq_eq in A1; rewrite A1; injection H as <-; cbn; auto|].
    destruct (beq (map lower a) (bs "short")) eqn:A2; [apply beq_eq in A2; rewrite A2; injection H as <-; cbn; auto|].
    destruct (beq (map lower a) (bs "float")) eqn:A3; [apply beq_eq in A3; rewrite A3; injection H as <-; cbn; auto|discriminate].
Qed.
Example c69_new_only_ex : fmt_new (bs "Short.3") = Ok (NShort (Some 3%N)).
Proof. vm_compute. reflexivity. Qed.

(** What is asked for is what is printed: plain and float use the library's two notations, with the digits given or without any. *)
Theorem c69_digits_used : forall disp disp_p expo expo_p word p x, (p < 2 ^ 64)%N ->
  let show spec := rbind (fmt_new spec) (fun f => Ok (fmt_print disp disp_p expo expo_p f x)) in
  (map lower word = bs "plain" -> show word = Ok (disp x) /\ show (word ++ 46%N :: print_N p) = Ok (disp_p p x)) /\
  (map lower word = bs "float" -> show word = Ok (expo x) /\ show (word ++ 46%N :: print_N p) = Ok (expo_p p x)).
Proof.
  intros disp disp_p expo expo_p word p x Hp show. unfold show. split; intros H; (split; [|]).
  - rewrite (c69_new word "plain" (NPlain None) H) by (cbn; auto). reflexivity.
  - rewrite (c69_new_digits word "plain" (NPlain (Some p)) p H Hp) by (cbn; auto). reflexivity.
  - rewrite (c69_new word "float" (NFloat None) H) by (cbn; auto). reflexivity.
  - rewrite (c69_new_digits word "float" (NFloat (Some p)) p H Hp) by (cbn; auto). reflexivity.
Qed.
Example c69_digits_used_ex : rbind (fmt_new (bs "Plain.3")) (fun f => Ok (fmt_print ex_d (fun p _ => print_N p) ex_d ex_dp f f_one)) = Ok (bs "3").
Proof. vm_compute. reflexivity. Qed.

(** short chooses by size: plain from one ten-thousandth up to a thousand, the notation with an exponent elsewhere. *)
Theorem c69_short : forall disp disp_p expo expo_p p x, valid64 x -> finite x ->
  let show f := fmt_print disp disp_p expo expo_p f x in
  ((val (f_ratio 1 10000) <= Rabs (val x) < 1000)%R -> show (NShort p) = show (NPlain p)) /\
  ((Rabs (val x) < val (f_ratio 1 10000) \/ 1000 <= Rabs (val x))%R -> show (NShort p) = show (NFloat p)).
Proof.
  intros disp disp_p expo expo_p p x V Fx show. destruct (fabs_fin _ Fx V) as (A1 & A2). unfold show, fmt_print. cbn [new_format].
  assert (T : val (f_of_Z 1000) = 1000%R).
  { pose proof (at_least_ok (f_of_Z 1000) 1000 1 ltac:(lia) ltac:(vm_compute; reflexivity)). pose proof (at_most_ok (f_of_Z 1000) 1000 1 ltac:(lia) ltac:(vm_compute; reflexivity)). lra. }
  pose proof (leb_val (f_ratio 1 10000) (f_abs x) ltac:(vm_compute; reflexivity) ltac:(vm_compute; exact I) A2 A1) as L1.
  pose proof (ltb_val (f_abs x) (f_of_Z 1000) A2 A1 ltac:(vm_compute; reflexivity) ltac:(vm_compute; exact I)) as L2.
  rewrite val_fabs in L1, L2. rewrite T in L2. split.
  - intros (B1 & B2). apply L1 in B1. apply L2 in B2. rewrite B1, B2. reflexivity.
  - intros B. destruct (f_leb (f_ratio 1 10000) (f_abs x)); [|reflexivity]. destruct (f_ltb (f_abs x) (f_of_Z 1000)); [|reflexivity].
    exfalso. destruct L1 as (L1 & _), L2 as (L2 & _). specialize (L1 eq_refl). specialize (L2 eq_refl). lra.
Qed.
Example c69_short_ex : valid64 (f_of_Z 999) /\ finite (f_of_Z 999) /\ fmt_print ex_d ex_dp (fun _ => bs "x") (fun _ _ => bs "x") (NShort None) (f_of_Z 999) = bs "999" /\
  fmt_print ex_d ex_dp (fun _ => bs "x") (fun _ _ => bs "x") (NShort None) (f_of_Z 1000) = bs "x".
Proof. repeat split; vm_compute; reflexivity. Qed.

(** The documentation of short promises the shorter of the two. It is not: every whole number from a thousand on that does not end in a zero
    is printed longer than it would be by plain. The library's texts of whole numbers are hypotheses. *)
Lemma print_len_ge n : (1000 <= n)%N -> 4 <= List.length (print_N n).
Proof.
  intros H. destruct (le_lt_dec 4 (List.length (print_N n))) as [|L]; auto. exfalso. pose proof (print_digit_bytes n) as D. apply dval_bound in D. rewrite print_N_val in D.
  assert (10 ^ Z.of_nat (List.length (print_N n)) <= 10 ^ 3)%Z by (apply Z.pow_le_mono_r; lia). lia.
Qed.
Lemma sci_len n : (1000 <= n)%N -> (n mod 10 <> 0)%N -> List.length (print_N n) + 3 <= List.length (sci n).
Proof.
  intros H M. pose proof (print_len_ge n H) as L. pose proof (print_N_val n) as V. pose proof (print_digit_bytes n) as D. unfold sci. destruct (print_N n) as [|d ds] eqn:E; [cbn in L; lia|]. rewrite <- E in *.
  assert (DZ : drop_zeros (rev (print_N n)) = rev (print_N n)).
  { destruct (rev (print_N n)) as [|c r] eqn:R; [reflexivity|]. assert (P : print_N n = rev r ++ [c]) by (rewrite <- (rev_involutive (print_N n)), R; reflexivity).
    rewrite P, dval_app in V. cbn [List.length] in V. change (10 ^ Z.of_nat 1)%Z with 10%Z in V. rewrite dval_cons in V. cbn [List.length dval_] in V. change (10 ^ Z.of_nat 0)%Z with 1%Z in V.
    assert (NZ : c <> 48%N). { intros ->. apply M. assert (Q : (Z.of_N n = dval_ (rev r) 0 * 10)%Z) by (change (Z.of_N 48) with 48%Z in V; change (dval_ [] 0) with 0%Z in V; lia).
      apply N2Z.inj. rewrite N2Z.inj_mod. change (Z.of_N 10) with 10%Z. rewrite Q. rewrite Z_mod_mult. reflexivity. }
    cbn [drop_zeros]. destruct c as [|c]; [reflexivity|]. do 6 (destruct c as [c|c|]; try reflexivity). elim NZ. reflexivity. }
  rewrite DZ, rev_involutive. rewrite E. cbn [tl]. rewrite E in L. cbn [List.length] in L. destruct ds as [|d2 ds]; [cbn in L; lia|].
  destruct (print_N_head (N.of_nat (List.length (d :: d2 :: ds) - 1))) as (x & y & -> & _). cbn [List.length app]. rewrite app_length. cbn [List.length]. lia.
Qed.
Theorem c69_short_longer : forall disp disp_p expo expo_p n, (1000 <= n < 2 ^ 53)%N -> (n mod 10 <> 0)%N ->
  disp (f_of_Z (Z.of_N n)) = print_N n -> expo (f_of_Z (Z.of_N n)) = sci n ->
  let show f := fmt_print disp disp_p expo expo_p f (f_of_Z (Z.of_N n)) in
  show (NShort None) = show (NFloat None) /\ List.length (show (NPlain None)) + 3 <= List.length (show (NShort None)).
Proof.
  intros disp disp_p expo expo_p n (H1 & H2) M D X show.
  destruct (holds_of_Z (Z.of_N n)) as (b & B1 & B2 & B3); [unfold small; lia|].
  assert (V : valid64 (f_of_Z (Z.of_N n))) by (rewrite B1; apply BinarySingleNaN.valid_binary_B2SF).
  assert (Fx : finite (f_of_Z (Z.of_N n))) by (rewrite B1; destruct b; cbn in *; auto; discriminate).
  assert (VV : val (f_of_Z (Z.of_N n)) = IZR (Z.of_N n)) by (rewrite B1, <- B2; destruct b; reflexivity).
  destruct (c69_short disp disp_p expo expo_p None _ V Fx) as (_ & S). unfold show. rewrite S.
  - split; [reflexivity|]. unfold fmt_print. cbn [new_format]. rewrite D, X. apply sci_len; auto.
  - right. rewrite VV. rewrite <- abs_IZR. apply IZR_le. lia.
Qed.
Example c69_short_longer_ex : sci 1234 = bs "1.234e3" /\ sci 1000 = bs "1e3" /\ sci 0 = bs "0e0" /\ (1234 mod 10 <> 0)%N.
Proof. repeat split; vm_compute; congruence. Qed.
Theorem c69_short_refuted : exists n, forall disp disp_p expo expo_p, disp (f_of_Z n) = bs "1234" -> expo (f_of_Z n) = bs "1.234e3" ->
  let show f := fmt_print disp disp_p expo expo_p f (f_of_Z n) in List.length (show (NPlain None)) < List.length (show (NShort None)).
Proof. exists 1234%Z. intros disp disp_p expo expo_p D X. unfold fmt_print. change (new_format (NShort None) (f_of_Z 1234)) with (NFloat None). cbn [new_format]. rewrite D, X. cbn. lia. Qed.
(** Zero is printed with an exponent. *)
Theorem c69_zero_refuted : exists x, forall disp disp_p expo expo_p, disp x = bs "0" -> expo x = bs "0e0" ->
  fmt_print disp disp_p expo expo_p fmt_default x = bs "0e0".
Proof. exists f_zero. intros disp disp_p expo expo_p _ X. exact X. Qed.
(** A small negative number is printed by the power formats as the library prints negative zero, with its sign. *)
Theorem c69_negative_zero_refuted : exists x, valid64 x /\ (val x < 0)%R /\ forall disp disp_p expo expo_p,
  fmt_print disp disp_p expo expo_p NPower10 x = disp (S754_zero true) /\ fmt_print disp disp_p expo expo_p NPower10 (fneg x) = disp (S754_zero false).
Proof.
  exists (fneg (f_ratio 4 10)). split; [vm_compute; reflexivity|]. split; [|intros; split; reflexivity].
  rewrite val_fneg. pose proof (at_least_ok (f_ratio 4 10) 39 100 ltac:(lia) ltac:(vm_compute; reflexivity)). lra.
Qed.
