(** Proofs for generated files. *)
From Coq Require Import String List NArith ZArith Bool Arith Lia.
Open Scope list_scope.
Import ListNotations.
From Verif Require Import Base TextSpec TextModel StrSpec StrModel StrProofs HdrProofs JoinProps ColWriteProofs CompSpec NumProofs IpProofs ToolModel TurnSpec GenSpec GenModel.
Close Scope Z_scope.
Open Scope nat_scope.

Lemma read_back_table rows : plain_fields rows -> Forall (fun r => r <> []) rows -> read_back (table rows) = rows.
Proof.
  intros HP HN. assert (G : split_on NL (table rows) = map (join TAB) rows ++ [[]]).
  { unfold table. induction rows as [|r rows IH]; [reflexivity|]. inversion HP as [|? ? P1 P2]; inversion HN as [|? ? N1 N2]; subst.
    cbn [map concat]. rewrite <- app_assoc. cbn [app]. rewrite split_on_sep.
    - rewrite IH by auto. reflexivity.
    - clear - P1. intros H. revert H. induction r as [|f r IH]; [auto|]. inversion P1 as [|? ? (Q1 & Q2) Q3]; subst. cbn [join]. destruct r as [|g r]; [exact Q2|].
      rewrite in_app_iff. intros [H|[H|H]]; [auto|discriminate|]. apply IH in H; auto. }
  unfold read_back. rewrite G, removelast_last, map_map. rewrite <- (map_id rows) at 2. apply map_ext_in. intros r Hr.
  unfold plain_fields in HP. rewrite Forall_forall in HP, HN. apply split_on_join; [apply HN; exact Hr|]. specialize (HP r Hr). rewrite Forall_forall in *. intros f Hf. apply HP in Hf. tauto.
Qed.

Section Write.
Variable dc : dice.
Variable cell : nat -> nat -> bytes.

Lemma cols_ok delim line : forall v col (nd : bool), (forall i g, nth_error v i = Some g -> gen_write dc g line (col + i) = Ok (cell line (col + i))) ->
  cols_write dc v delim line col nd =
    ((match v with [] => [] | _ => if nd then [delim] else [] end) ++ join delim (map (cell line) (seq col (length v))) ++ [NL], Ok tt).
Proof.
  induction v as [|g v IH]; intros col nd H; [reflexivity|]. cbn [cols_write length seq map join].
  pose proof (H 0 g eq_refl) as H0. rewrite Nat.add_0_r in H0. rewrite H0. cbn [need]. rewrite IH.
  - unfold say. cbn [fst snd]. f_equal. f_equal. destruct v as [|g' v]; [reflexivity|]. cbn [length seq map]. rewrite <- !app_assoc. reflexivity.
  - intros i g' Hi. replace (S col + i) with (col + S i) by lia. apply H. exact Hi.
Qed.
Lemma lines_ok v : forall n line, (forall i j g, line < i <= line + n -> nth_error v j = Some g -> gen_write dc g i (S j) = Ok (cell i (S j))) ->
  lines_write dc v line n = (table (map (fun i => map (cell i) (seq 1 (length v))) (seq (S line) n)), Ok tt).
Proof.
  induction n as [|n IH]; intros line H; [reflexivity|]. cbn [lines_write]. unfold list_write. rewrite cols_ok.
  - cbn [need]. rewrite IH by (intros i j g Hi; apply H; lia). unfold say. cbn [fst snd]. unfold table. cbn [seq map concat]. f_equal. f_equal. destruct v; reflexivity.
  - intros i g Hg. apply (H (S line) i g); [lia|exact Hg].
Qed.
End Write.

(** The cells the built-in generators promise. *)
Definition count_cell (start : Z) (line : nat) : bytes := print_Z (start + Z.of_nat line - 1).
Definition grid_cell (line col : nat) : bytes := print_N (N.of_nat line) ++ 95%N :: print_N (N.of_nat col).
Definition dice_ok (dc : dice) : Prop := forall l c w n, (0 < n)%N -> (dc_draw dc l c w n < n)%N.

Lemma count_write dc start line col : (- 2 ^ 63 <= start)%Z -> (start + Z.of_nat line < 2 ^ 63)%Z -> 0 < line ->
  gen_write dc (TCount start) line col = Ok (count_cell start line).
Proof.
  intros H1 H2 H3. cbn [gen_write]. unfold isize_ok, count_cell.
  replace ((- 2 ^ 63 <=? Z.of_nat line + start)%Z && (Z.of_nat line + start <? 2 ^ 63)%Z) with true by (symmetry; apply andb_true_iff; rewrite Z.leb_le, Z.ltb_lt; lia). cbn [rbind].
  replace ((- 2 ^ 63 <=? Z.of_nat line + start - 1)%Z && (Z.of_nat line + start - 1 <? 2 ^ 63)%Z) with true by (symmetry; apply andb_true_iff; rewrite Z.leb_le, Z.ltb_lt; lia). cbn [rbind].
  do 2 f_equal. lia.
Qed.

(** Decimal digits. *)
Lemma print_len n k : 0 < k -> (n < 10 ^ N.of_nat k)%N -> length (print_N n) <= k.
Proof.
  intros Hk Hn. destruct (print_N_canonical n) as (H1 & [H2|H2]); [|rewrite H2; cbn; lia].
  assert (HD : Forall digit_byte (print_N n)) by (unfold print_N; apply digits_digit).
  pose proof (print_N_val n) as HV. destruct (print_N n) as [|c r]; [congruence|]. cbn in H2. inversion HD as [|? ? Hc HD']; subst. unfold digit_byte in Hc.
  rewrite dval_cons in HV. pose proof (dval_bound r HD') as HB.
  destruct (le_lt_dec (length (c :: r)) k) as [L|L]; [exact L|exfalso]. cbn [length] in L.
  assert (P : (10 ^ Z.of_nat k <= 10 ^ Z.of_nat (length r))%Z) by (apply Z.pow_le_mono_r; lia).
  assert (Q : Z.of_N (10 ^ N.of_nat k) = (10 ^ Z.of_nat k)%Z) by (rewrite N2Z.inj_pow, nat_N_Z; reflexivity).
  assert (R : (10 ^ Z.of_nat (length r) <= (Z.of_N c - 48) * 10 ^ Z.of_nat (length r))%Z) by nia. lia.
Qed.
Lemma print_digit_bytes n : Forall digit_byte (print_N n).
Proof. unfold print_N. apply digits_digit. Qed.
Lemma padded_len w n : 0 < w -> (n < 10 ^ N.of_nat w)%N -> length (zero_padded w n) = w /\ Forall digit_byte (zero_padded w n).
Proof.
  intros Hw Hn. pose proof (print_len n w Hw Hn) as L. unfold zero_padded. split; [rewrite app_length, repeat_length; lia|].
  apply Forall_app. split; [|apply print_digit_bytes]. apply Forall_forall. intros x Hx. apply repeat_spec in Hx. subst. unfold digit_byte. lia.
Qed.

(** The shape of a decimal number with at most [a] digits before the point (at least one) and [b] after it. *)
Definition decimal_shape (sign : bool) (a b : nat) (t : bytes) : Prop := exists s ip fp,
  t = s ++ ip ++ (match b with O => [] | _ => 46%N :: fp end) /\ (s = [] \/ (sign = true /\ s = [45%N])) /\
  Forall digit_byte ip /\ Forall digit_byte fp /\ 1 <= length ip <= Nat.max 1 a /\ length fp = b.
Lemma decimal_ok dc sign a b line col : dice_ok dc -> exists t, gen_write dc (TDecimal sign (10 ^ N.of_nat a) b) line col = Ok t /\ decimal_shape sign a b t.
Proof.
  intros Hd. cbn [gen_write]. eexists. split; [reflexivity|]. set (s := if sign && dc_coin dc line col then [45%N] else []).
  assert (HP : (0 < 10 ^ N.of_nat a)%N) by (apply N.neq_0_lt_0, N.pow_nonzero; discriminate).
  pose proof (Hd line col true _ HP) as D1. set (x := dc_draw dc line col true (10 ^ N.of_nat a)) in *.
  assert (HL : 1 <= length (print_N x) <= Nat.max 1 a).
  { split; [destruct (print_N_head x) as (? & ? & -> & _); cbn; lia|]. apply print_len; [lia|]. eapply N.lt_le_trans; [exact D1|]. apply N.pow_le_mono_r; [discriminate|lia]. }
  assert (HS : s = [] \/ (sign = true /\ s = [45%N])) by (unfold s; destruct sign; cbn [andb]; [|auto]; destruct (dc_coin dc line col); auto).
  destruct b as [|b].
  - exists s, (print_N x), []. rewrite app_nil_r. repeat split; auto; try (apply print_digit_bytes); try constructor; lia.
  - assert (HQ : (0 < 10 ^ N.of_nat (S b))%N) by (apply N.neq_0_lt_0, N.pow_nonzero; discriminate).
    pose proof (Hd line col false _ HQ) as D2. destruct (padded_len (S b) _ ltac:(lia) D2) as (P1 & P2).
    exists s, (print_N x), (zero_padded (S b) (dc_draw dc line col false (10 ^ N.of_nat (S b)))). repeat split; auto; try (apply print_digit_bytes); lia.
Qed.
