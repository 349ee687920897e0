(** The quotient of two whole numbers, rounded once. *)
From Coq Require Import ZArith Reals Lia Lra SpecFloat.
From Flocq Require Import Core BinarySingleNaN.
From Verif Require Import FloatModel FloatValid FloatInt ShareProofs.
Open Scope Z_scope.

Lemma div_whole : forall x y a b, holds_int x a -> holds_int y b -> 1 <= b -> small a -> holds_real (fdiv x y) (IZR a / IZR b).
Proof.
  intros x y a b (bx & -> & Vx & Fx) (by_ & -> & Vy & Fy) Hb S. rewrite fdiv_equiv.
  assert (B1 : (1 <= IZR b)%R) by (apply (IZR_le 1); auto).
  assert (NZ : B2R by_ <> 0%R) by (rewrite Vy; lra).
  pose proof (Bdiv_correct 53 1024 Hprec53 Hmax53 mode_NE bx by_ NZ) as C.
  rewrite Vx, Vy in C. rewrite Rlt_bool_true in C.
  - destruct C as (C1 & C2 & _). eexists. split; [reflexivity|]. rewrite C2. auto.
  - apply Rle_lt_trans with (bpow radix2 53); [|apply bpow_lt; lia].
    apply abs_round_le_generic; [apply fexp_correct; reflexivity|apply valid_rnd_round_mode| |].
    + apply generic_format_bpow. unfold SpecFloat.fexp, emin. lia.
    + unfold small in S. assert (A : (Rabs (IZR a) <= bpow radix2 53)%R).
      { rewrite <- abs_IZR. change (bpow radix2 53) with (IZR (2 ^ 53)). apply IZR_le. lia. }
      unfold Rdiv. rewrite Rabs_mult. rewrite Rabs_inv. rewrite (Rabs_pos_eq (IZR b)) by lra.
      apply Rmult_le_reg_r with (IZR b); [lra|]. rewrite Rmult_assoc, Rinv_l by lra. rewrite Rmult_1_r.
      apply Rle_trans with (bpow radix2 53 * 1)%R; [lra|]. apply Rmult_le_compat_l; [apply bpow_ge_0|auto].
Qed.
