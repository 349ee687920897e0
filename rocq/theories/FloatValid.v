(** Every double the model computes is a canonical 64-bit double. Uses Flocq's proof that rounding
    yields canonical results (standard library axioms of the reals only). *)
From Coq Require Import List NArith ZArith Bool Lia SpecFloat.
From Flocq Require Import IEEE754.BinarySingleNaN Core.
Import ListNotations.
From Verif Require Import Base StrModel FloatModel.
Open Scope Z_scope.

Notation valid64 x := (SpecFloat.valid_binary 53 1024 x = true).

Lemma Hprec53 : FLX.Prec_gt_0 53. Proof. reflexivity. Qed.
Lemma Hmax53 : Prec_lt_emax 53 1024. Proof. reflexivity. Qed.

Lemma rne_equiv : forall s m l, SpecFloat.round_nearest_even m l = choice_mode mode_NE s m l.
Proof.
  intros s m l. case l; [reflexivity|intro c]. case c; [ | reflexivity..].
  now simpl; unfold Round.cond_incr; case Z.even.
Qed.

Lemma bra_equiv : forall sx mx ex lx,
  SpecFloat.binary_round_aux 53 1024 sx mx ex lx = BinarySingleNaN.binary_round_aux 53 1024 mode_NE sx mx ex lx.
Proof.
  intros. unfold SpecFloat.binary_round_aux, BinarySingleNaN.binary_round_aux.
  set (mrse' := shr_fexp _ _ _ _ _). case mrse'; intros mrs' e'; simpl. now rewrite (rne_equiv sx).
Qed.

Lemma br_equiv : forall s m e,
  SpecFloat.binary_round 53 1024 s m e = BinarySingleNaN.binary_round 53 1024 mode_NE s m e.
Proof.
  intros. unfold SpecFloat.binary_round, BinarySingleNaN.binary_round, shl_align_fexp.
  set (mez := SpecFloat.shl_align _ _ _); case mez as [mz ez]. apply bra_equiv.
Qed.

Lemma bn_equiv : forall m e szero,
  SpecFloat.binary_normalize 53 1024 m e szero =
  B2SF (BinarySingleNaN.binary_normalize 53 1024 Hprec53 Hmax53 mode_NE m e szero).
Proof.
  intros. case m as [ | p | p]; [now simpl| |]; simpl; rewrite B2SF_SF2B; apply br_equiv.
Qed.

Lemma normalize_valid : forall m e s, valid64 (SpecFloat.binary_normalize 53 1024 m e s).
Proof. intros. rewrite bn_equiv. apply valid_binary_B2SF. Qed.

Lemma fadd_equiv : forall x y : binary_float 53 1024,
  fadd (B2SF x) (B2SF y) = B2SF (Bplus (prec_gt_0_ := Hprec53) (prec_lt_emax_ := Hmax53) mode_NE x y).
Proof.
  intros x y. unfold fadd.
  case x as [sx|sx| |sx mx ex Bx]; case y as [sy|sy| |sy my ey By];
    [now (trivial || simpl; case Bool.eqb).. | ].
  apply bn_equiv.
Qed.

Lemma fmul_equiv : forall x y : binary_float 53 1024,
  fmul (B2SF x) (B2SF y) = B2SF (Bmult (prec_gt_0_ := Hprec53) (prec_lt_emax_ := Hmax53) mode_NE x y).
Proof.
  intros x y. unfold fmul.
  case x as [sx|sx| |sx mx ex Bx]; case y as [sy|sy| |sy my ey By]; [now trivial.. | ].
  simpl. rewrite B2SF_SF2B. apply bra_equiv.
Qed.

Lemma fdiv_equiv : forall x y : binary_float 53 1024,
  fdiv (B2SF x) (B2SF y) = B2SF (Bdiv (prec_gt_0_ := Hprec53) (prec_lt_emax_ := Hmax53) mode_NE x y).
Proof.
  intros x y. unfold fdiv.
  case x as [sx|sx| |sx mx ex Bx]; case y as [sy|sy| |sy my ey By];
    [now (trivial || simpl; case Bool.eqb).. | ].
  simpl. rewrite B2SF_SF2B. set (melz := SFdiv_core_binary _ _ _ _ _ _).
  case melz as [[mz ez] lz]. apply bra_equiv.
Qed.

Lemma lift_valid : forall x, valid64 x -> exists b : binary_float 53 1024, x = B2SF b.
Proof. intros x V. exists (SF2B x V). now rewrite B2SF_SF2B. Qed.

Lemma fadd_valid : forall x y, valid64 x -> valid64 y -> valid64 (fadd x y).
Proof.
  intros x y Hx Hy. apply lift_valid in Hx as [a ->]. apply lift_valid in Hy as [b ->].
  rewrite fadd_equiv. apply valid_binary_B2SF.
Qed.
Lemma fmul_valid : forall x y, valid64 x -> valid64 y -> valid64 (fmul x y).
Proof.
  intros x y Hx Hy. apply lift_valid in Hx as [a ->]. apply lift_valid in Hy as [b ->].
  rewrite fmul_equiv. apply valid_binary_B2SF.
Qed.
Lemma fdiv_valid : forall x y, valid64 x -> valid64 y -> valid64 (fdiv x y).
Proof.
  intros x y Hx Hy. apply lift_valid in Hx as [a ->]. apply lift_valid in Hy as [b ->].
  rewrite fdiv_equiv. apply valid_binary_B2SF.
Qed.
Lemma fneg_valid : forall x, valid64 x -> valid64 (fneg x).
Proof. intros [s|s| |s m e] H; auto. Qed.
Lemma f_of_Z_valid : forall z, valid64 (f_of_Z z).
Proof. intros. apply normalize_valid. Qed.
Lemma f_ratio_valid : forall p q, valid64 (f_ratio p q).
Proof. intros. apply fdiv_valid; apply f_of_Z_valid. Qed.

Lemma int_loop_valid : forall l r, valid64 r -> valid64 (fst (f64_int_loop l r)).
Proof.
  induction l as [|c l IH]; intros r H; cbn [f64_int_loop]; auto. destruct (is_digit c); auto.
  apply IH. apply fadd_valid; [apply fmul_valid|]; auto using f_of_Z_valid.
Qed.
Lemma frac_loop_valid : forall l r p, valid64 r -> valid64 p -> valid64 (fst (f64_frac_loop l r p)).
Proof.
  induction l as [|c l IH]; intros r p H Hp; cbn [f64_frac_loop]; auto. destruct (is_digit c); auto.
  apply IH; [apply fadd_valid; [|apply fmul_valid]|apply fmul_valid]; auto using f_of_Z_valid, f_ratio_valid.
Qed.

Lemma find_letter_f_valid : forall ch ls vs v, find_letter_f ch ls vs = Some v -> valid64 v.
Proof.
  induction ls as [|l ls IH]; intros [|z vs] v; cbn [find_letter_f]; try congruence.
  destruct (N.eqb l ch). - intros H; injection H as <-. apply f_of_Z_valid. - apply IH.
Qed.
Lemma suffix_valf_valid : forall ch v, suffix_valf ch = Some v -> valid64 v.
Proof.
  intros ch v. unfold suffix_valf. destruct (find_letter_f ch P2_LETTERS P2_VALUES_F) eqn:E.
  - intros H; injection H as <-. eapply find_letter_f_valid; eauto.
  - apply find_letter_f_valid.
Qed.

Theorem to_f64_valid : forall exp10, (forall z, valid64 (exp10 z)) -> forall l, valid64 (to_f64_lossy exp10 l).
Proof.
  intros exp10 He l. unfold to_f64_lossy, to_f64. destruct l as [|c0 r0]; [reflexivity|].
  set (nc := if N.eqb c0 43 then _ else _).
  assert (Hn : valid64 (fst nc)).
  { subst nc. destruct (N.eqb c0 43); [apply f_of_Z_valid|]. destruct (N.eqb c0 45); [apply fneg_valid|]; apply f_of_Z_valid. }
  destruct nc as [neg curr]. cbn [fst] in Hn.
  pose proof (int_loop_valid curr f_zero eq_refl) as H1. destruct (f64_int_loop curr f_zero) as [r1 c1].
  cbn [fst] in H1.
  set (fc := match c1 with [] => _ | _ => _ end).
  assert (H2 : valid64 (fst fc)).
  { subst fc. destruct c1 as [|d r]; auto. destruct (N.eqb d 46); auto. apply frac_loop_valid; auto using f_ratio_valid. }
  destruct fc as [r2 c2]. cbn [fst] in H2.
  set (ec := if is_exp c2 then _ else _).
  assert (H3 : valid64 (fst ec)).
  { subst ec. destruct (is_exp c2); auto. destruct c2 as [|d r]; auto.
    set (se := match r with [] => _ | _ => _ end). destruct se as [ne rr].
    destruct (f64_exp_loop rr 0) as [e r']. cbn [fst].
    repeat match goal with |- valid64 (if ?b then _ else _) => destruct b end; auto;
      apply fmul_valid; auto using f_of_Z_valid, f_ratio_valid. }
  destruct ec as [r3 c3]. cbn [fst] in H3.
  destruct c3 as [|c r]; cbn [fst]; [apply fmul_valid; auto|].
  destruct (suffix_valf c) eqn:E; cbn [fst]; apply fmul_valid; auto.
  apply fmul_valid; auto. eapply suffix_valf_valid; eauto.
Qed.
