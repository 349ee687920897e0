(** C45: integer keys of doubles. *)
From Coq Require Import List NArith ZArith Bool SpecFloat Lia.
Import ListNotations.
From Verif Require Import Base FloatModel FloatSpec FloatProofs.
Open Scope Z_scope.

(** C45. On bit patterns: a smaller value gets a smaller key, and different doubles get different
    keys; this covers every finite double and the infinities. *)
Theorem c45_monotone : forall x y, (x < 2 ^ 64)%N -> (y < 2 ^ 64)%N ->
  dval x < dval y -> (ulp_key_bits x < ulp_key_bits y)%N.
Proof. exact key_monotone. Qed.

Example c45_monotone_ex : let x := 13830554455654793216%N in let y := 4611686018427387904%N in
  dval x < dval y /\ (ulp_key_bits x < ulp_key_bits y)%N.
Proof. vm_compute. auto. Qed.

Theorem c45_injective : forall x y, (x < 2 ^ 64)%N -> (y < 2 ^ 64)%N ->
  ulp_key_bits x = ulp_key_bits y -> x = y.
Proof. exact key_injective. Qed.

Example c45_injective_ex : ulp_key_bits 5 <> ulp_key_bits 6.
Proof. vm_compute. discriminate. Qed.

(** C45. Keys order doubles exactly as the comparison of doubles does, unless the two are zeros of
    different sign or not numbers. *)
Theorem c45_key_order : forall x y, valid_binary 53 1024 x = true -> valid_binary 53 1024 y = true ->
  x <> S754_nan -> y <> S754_nan ->
  ~ (exists s t, x = S754_zero s /\ y = S754_zero t /\ s <> t) ->
  SFcompare x y = Some (ulp_to_ulong x ?= ulp_to_ulong y)%N.
Proof.
  intros x y Vx Vy Nx Ny Hz. rewrite key_compare by auto.
  destruct (f_bits_roundtrip x Vx Nx) as (Bx & Mx & Rx). destruct (f_bits_roundtrip y Vy Ny) as (By & My & Ry).
  rewrite <- Rx, <- Ry. rewrite sfcompare_value, fcmp_value by auto. auto.
Qed.

Example c45_key_order_ex : let x := f_ratio (-1) 3 in let y := f_ratio 1 10 in
  valid_binary 53 1024 x = true /\ valid_binary 53 1024 y = true /\ x <> S754_nan /\ y <> S754_nan /\
  SFcompare x y = Some Lt /\ (ulp_to_ulong x ?= ulp_to_ulong y)%N = Lt.
Proof. vm_compute. repeat split; discriminate. Qed.

(** C45. fcmp is the order of the values. *)
Theorem c45_fcmp_value : forall x y, (x < 2 ^ 64)%N -> (y < 2 ^ 64)%N -> ~ is_nan_bits x -> ~ is_nan_bits y ->
  fcmp (f_of_bits x) (f_of_bits y) = (dval x ?= dval y).
Proof. exact fcmp_value. Qed.

Example c45_fcmp_value_ex : let x := 4607182418800017408%N in let y := 9218868437227405312%N in
  ~ is_nan_bits x /\ ~ is_nan_bits y /\ fcmp (f_of_bits x) (f_of_bits y) = Lt.
Proof. vm_compute. repeat split; intros [H1 H2]; try discriminate H1; apply H2; reflexivity. Qed.

(** C45. Minus zero and zero are equal numbers with different keys. *)
Theorem c45_zeros_refuted : exists x y, fcmp x y = Eq /\ (ulp_to_ulong x < ulp_to_ulong y)%N.
Proof. exists (S754_zero true), (S754_zero false). vm_compute. auto. Qed.
