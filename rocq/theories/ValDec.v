(** Decimals in the key column: they fit, and the lines come out in the order of the numbers. *)
From Coq Require Import String List NArith ZArith QArith Bool Arith Lia SpecFloat Sorting.Permutation Sorting.Sorted.
Open Scope list_scope.
Import ListNotations.
From Verif Require Import Base StrModel FloatModel FloatValid FloatInt CompSpec CompModel NumProofs NumCache NumText ShareProofs DecSpec FracErr DecProofs DecOrder SortSpec KeySpec OrderSpec ValSpec.
Close Scope Z_scope. Close Scope Q_scope. Open Scope nat_scope.

Section Dec.
Variable K : nat.
Hypothesis HK : K <= 14.
Definition plain_zero : decimal := mkdec SNone (bs "0") None None None.
Lemma plain_zero_few : few K plain_zero.
Proof.
  split; [repeat split; cbn; try discriminate; repeat constructor; unfold digit_byte; lia|]. do 2 (split; auto). split; [cbn; lia|]. change (digits_val (d_int plain_zero)) with 0%Z. reflexivity.
Qed.
Lemma int_zeros : forall n, fst (f64_int_loop (repeat 48%N n) f_zero) = f_zero.
Proof. induction n as [|n IH]; [reflexivity|]. cbn [repeat f64_int_loop]. exact IH. Qed.
Lemma frac_zeros : forall n, n <= 14 -> fst (f64_frac_loop (repeat 48%N n) f_zero (f_ratio 1 10)) = f_zero.
Proof. intros n H. do 15 (destruct n as [|n]; [vm_compute; reflexivity|]). lia. Qed.
Lemma value_stages : forall exp10 d rest, few K d -> ends_number rest -> to_f64_lossy exp10 (dec_text d ++ rest) = fmul (sign_f (d_sign d)) (base_of d).
Proof.
  intros exp10 d r (O & X & U & _) E. unfold to_f64_lossy. rewrite read_stages; auto.
  - cbn [fst]. unfold scaled, powered. rewrite U, X. auto.
  - unfold dec_end. rewrite U. auto.
  - unfold exp_value. rewrite X. reflexivity.
Qed.
Lemma dec_fits : forall exp10 d rest, few K d -> ends_number rest -> (d_sign d = SMinus -> ~ (dec_frac d == 0)%Q) -> value_fits exp10 CF64 (dec_text d ++ rest).
Proof.
  intros exp10 d rest F E Z. cbn [value_fits].
  assert (R : exists x r, to_f64_lossy exp10 (dec_text d ++ rest) = x /\ is_real x r).
  { rewrite value_stages by auto. destruct (base_run K HK d F) as (r & B & _). do 2 eexists. split; [reflexivity|]. apply sign_real. exact B. }
  destruct R as (x & r & Ex & (b & Eb & _ & FB)). split.
  - rewrite Ex, Eb. destruct b; discriminate.
  - intros N. destruct (Qeq_dec (dec_frac d) 0) as [Q|Q].
    + assert (S : d_sign d <> SMinus) by (intros S; apply Z; auto).
      assert (V : digits_val (d_int d ++ frac_digits d) = 0%Z).
      { unfold dec_frac, Qeq in Q. cbn [Qnum Qden] in Q. rewrite Z.mul_0_l, Z.mul_1_r in Q. destruct (d_sign d); cbn [signed] in Q; try lia. }
      pose proof F as ((O1 & O2 & _) & _ & _ & L & _).
      rewrite digits_val_is in V by (apply Forall_app; auto). assert (D : Forall digit_byte (d_int d ++ frac_digits d)) by (apply Forall_app; auto).
      pose proof (zeros_back _ D V) as EZ. rewrite app_length, repeat_app in EZ.
      assert (EI : d_int d = repeat 48%N (List.length (d_int d)) /\ frac_digits d = repeat 48%N (List.length (frac_digits d))).
      { assert (G : forall (a t u y : bytes), List.length a = List.length u -> a ++ t = u ++ y -> a = u /\ t = y).
        { induction a as [|c a IHa]; intros t [|e u] y HL HE; cbn in HL; try discriminate; [auto|]. cbn [app] in HE. injection HE as -> HE. destruct (IHa t u y ltac:(lia) HE) as [-> ->]. auto. }
        apply G; [rewrite repeat_length; auto|exact EZ]. }
      rewrite value_stages in N by auto. assert (B : base_of d = f_zero).
      { unfold base_of. rewrite (proj1 EI), int_zeros. unfold frac_digits in EI, L. destruct (d_frac d) as [fs|]; auto. rewrite (proj2 EI). apply frac_zeros. lia. }
      rewrite B in N. destruct (d_sign d); [discriminate N|discriminate N|congruence].
    + pose proof (few_order K HK exp10 d plain_zero rest [] F plain_zero_few E I) as O. fold (to_f64_lossy exp10 (dec_text d ++ rest)) in O. rewrite N in O.
      apply Q. apply Qeq_alt. change (Qcompare (dec_frac d) (dec_frac plain_zero) = Eq). rewrite <- O. reflexivity.
Qed.
Lemma reads_value : forall exp10 v q, reads_as K v q -> value_fits exp10 CF64 v.
Proof. intros exp10 v q (d & rest & F & E & Z & -> & _). apply dec_fits; auto. Qed.
Lemma reads_compare : forall exp10 v u p q, reads_as K v p -> reads_as K u q -> c_comp exp10 CF64 v u = Qcompare p q.
Proof.
  intros exp10 v u p q (d & rest & F & E & Z & -> & P) (d2 & rest2 & F2 & E2 & Z2 & -> & P2). rewrite P, P2. cbn [c_comp]. exact (few_order K HK exp10 d d2 rest rest2 F F2 E E2).
Qed.
Lemma one_key : forall exp10 w a b p q, wk_cmp w = CF64 -> reads_as K (value_of w a) p -> reads_as K (value_of w b) q -> by_fields exp10 [w] a b = directed (wk_rev w) (Qcompare p q).
Proof.
  intros exp10 w a b p q C A B. unfold by_fields. cbn [map first_answer]. unfold answers. rewrite C. fold (value_of w a) (value_of w b). rewrite (reads_compare exp10 _ _ p q A B).
  destruct (directed _ _); auto.
Qed.
Lemma sorted_numbers : forall exp10 w out, wk_cmp w = CF64 -> sorted (by_fields exp10 [w]) out -> StronglySorted (numbers_ok K w) out.
Proof.
  intros exp10 w out C H. unfold sorted in H. induction H as [|x l S IH F]; constructor; auto. eapply Forall_impl; [|exact F]. cbv beta. intros y G p q A B.
  rewrite (one_key exp10 w x y p q C A B) in G. destruct (wk_rev w); cbn [directed] in G.
  - rewrite Qle_alt, <- Qcompare_antisym. destruct (p ?= q)%Q; cbn in *; congruence.
  - rewrite Qle_alt. exact G.
Qed.
End Dec.
