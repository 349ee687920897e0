(** Proofs about the built-in functions. *)
From Coq Require Import String List NArith ZArith Bool Arith Lia SpecFloat Reals.
Open Scope list_scope.
From Verif Require Import Base FloatSpec FloatModel FloatProofs FloatInt CompProofs FloatValid IpProofs ShareProofs AggFloat ExprModel ExprSpec.
Import ListNotations.
Close Scope R_scope. Close Scope Z_scope.

Lemma ltb_dval x y : valid64 x -> valid64 y -> not_nan x -> not_nan y -> SFltb x y = (dval (f_bits x) <? dval (f_bits y))%Z.
Proof.
  intros Vx Vy Nx Ny. pose proof (fcmp_dval x y Vx Vy Nx Ny) as A. pose proof (fcmp_dval y x Vy Vx Ny Nx) as B.
  unfold fcmp, f_eqb, f_ltb, SFeqb, SFltb in *.
  destruct (SFcompare x y) as [[]|], (SFcompare y x) as [[]|]; cbn in *;
  destruct (Z.compare_spec (dval (f_bits x)) (dval (f_bits y))), (Z.compare_spec (dval (f_bits y)) (dval (f_bits x))); try discriminate; try lia; symmetry; try apply Z.ltb_lt; try apply Z.ltb_ge; lia.
Qed.
Definition real_number (x : f64) : Prop := valid64 x /\ x <> S754_nan.

Section F.
Variable fpow : f64 -> f64 -> f64.
Variable libm : fop -> list f64 -> f64.
Notation apply_func := (apply_func fpow libm).

Lemma max_loop l : forall a, real_number a -> Forall real_number l ->
  let v := fold_left (fun v x => if SFltb v x then x else v) l a in
  In v (a :: l) /\ real_number v /\ forall x, In x (a :: l) -> (dval (f_bits x) <= dval (f_bits v))%Z.
Proof.
  induction l as [|b l IH]; intros a Ha Hl; cbn [fold_left].
  - repeat split; try apply Ha; [now left|]. intros x [<-|[]]. lia.
  - inversion_clear Hl. assert (Hm : real_number (if SFltb a b then b else a)) by (destruct (SFltb a b); auto).
    destruct (IH _ Hm H0) as (I & R & M). cbv zeta. destruct Ha as [Va Na], H as [Vb Nb].
    pose proof (ltb_dval a b Va Vb Na Nb) as L. destruct (SFltb a b).
    + symmetry in L. apply Z.ltb_lt in L. repeat split; try apply R. { destruct I as [<-|I]; cbn; auto. }
      intros x [<-|[<-|Hx]]; [|apply M; now left|apply M; now right]. specialize (M b (or_introl eq_refl)). lia.
    + symmetry in L. apply Z.ltb_ge in L. repeat split; try apply R. { destruct I as [<-|I]; cbn; auto. }
      intros x [<-|[<-|Hx]]; [apply M; now left| |apply M; now right]. specialize (M a (or_introl eq_refl)). lia.
Qed.
Lemma min_loop l : forall a, real_number a -> Forall real_number l ->
  let v := fold_left (fun v x => if SFltb x v then x else v) l a in
  In v (a :: l) /\ real_number v /\ forall x, In x (a :: l) -> (dval (f_bits v) <= dval (f_bits x))%Z.
Proof.
  induction l as [|b l IH]; intros a Ha Hl; cbn [fold_left].
  - repeat split; try apply Ha; [now left|]. intros x [<-|[]]. lia.
  - inversion_clear Hl. assert (Hm : real_number (if SFltb b a then b else a)) by (destruct (SFltb b a); auto).
    destruct (IH _ Hm H0) as (I & R & M). cbv zeta. destruct Ha as [Va Na], H as [Vb Nb].
    pose proof (ltb_dval b a Vb Va Nb Na) as L. destruct (SFltb b a).
    + symmetry in L. apply Z.ltb_lt in L. repeat split; try apply R. { destruct I as [<-|I]; cbn; auto. }
      intros x [<-|[<-|Hx]]; [|apply M; now left|apply M; now right]. specialize (M b (or_introl eq_refl)). lia.
    + symmetry in L. apply Z.ltb_ge in L. repeat split; try apply R. { destruct I as [<-|I]; cbn; auto. }
      intros x [<-|[<-|Hx]]; [apply M; now left| |apply M; now right]. specialize (M a (or_introl eq_refl)). lia.
Qed.
Lemma max_spec args : args <> [] -> Forall real_number args ->
  exists v, apply_func FMax args = Ok v /\ In v args /\ forall x, In x args -> SFltb v x = false.
Proof.
  destruct args as [|a l]; [congruence|]. intros _ H. inversion_clear H. destruct (max_loop l a H0 H1) as (I & R & M). eexists. split; [reflexivity|]. cbn [hd tl].
  split; auto. intros x Hx. destruct R as [Vr Nr]. assert (real_number x) as [Vx Nx]. { destruct Hx as [<-|Hx]; auto. rewrite Forall_forall in H1. auto. }
  rewrite ltb_dval by auto. apply Z.ltb_ge. auto.
Qed.
Lemma min_spec args : args <> [] -> Forall real_number args ->
  exists v, apply_func FMin args = Ok v /\ In v args /\ forall x, In x args -> SFltb x v = false.
Proof.
  destruct args as [|a l]; [congruence|]. intros _ H. inversion_clear H. destruct (min_loop l a H0 H1) as (I & R & M). eexists. split; [reflexivity|]. cbn [hd tl].
  split; auto. intros x Hx. destruct R as [Vr Nr]. assert (real_number x) as [Vx Nx]. { destruct Hx as [<-|Hx]; auto. rewrite Forall_forall in H1. auto. }
  rewrite ltb_dval by auto. apply Z.ltb_ge. auto.
Qed.

Definition sum_abs (zs : list Z) : Z := fold_right (fun z s => Z.abs z + s)%Z 0%Z zs.
Definition sum (zs : list Z) : Z := fold_right Z.add 0%Z zs.
Lemma sum_loop args zs : Forall2 holds_int args zs -> forall a z, holds_int a z -> small (Z.abs z + sum_abs zs)%Z ->
  holds_int (fold_left fadd args a) (z + sum zs)%Z.
Proof.
  induction 1 as [|x n args zs H _ IH]; intros a z Ha S; cbn [fold_left sum_abs sum fold_right] in *.
  - now rewrite Z.add_0_r.
  - fold (sum zs) in *. fold (sum_abs zs) in *. rewrite Z.add_assoc.
    assert (P : (0 <= sum_abs zs)%Z) by (clear; induction zs; cbn [sum_abs fold_right]; [lia|fold (sum_abs zs); lia]).
    unfold small in *. apply IH; [apply holds_add; auto; unfold small; lia|unfold small; lia].
Qed.
Lemma avg_spec args zs : args <> [] -> Forall2 holds_int args zs -> small (sum_abs zs) -> small (Z.of_nat (List.length args)) ->
  exists v, apply_func FAvg args = Ok v /\ holds_real v (IZR (sum zs) / IZR (Z.of_nat (List.length zs))).
Proof.
  intros NE F S L. eexists. split; [reflexivity|].
  assert (Ln : List.length args = List.length zs) by (clear -F; induction F; cbn; auto).
  apply div_whole.
  - exact (sum_loop args zs F f_zero 0%Z holds_zero ltac:(cbn [Z.abs Z.add]; auto)).
  - rewrite <- Ln. now apply holds_of_Z.
  - rewrite <- Ln. destruct args; [congruence|]. cbn [List.length]. lia.
  - assert (A : (Z.abs (sum zs) <= sum_abs zs)%Z) by (clear; induction zs; cbn [sum sum_abs fold_right]; [lia|fold (sum zs); fold (sum_abs zs); lia]).
    unfold small in *. lia.
Qed.
End F.

(** ** Factorials *)
Fixpoint fact_upto (n : nat) : Z := match n with O => 1 | S m => Z.of_nat n * fact_upto m end%Z.
Definition feq (x y : f64) : bool :=
  match x, y with
  | S754_zero a, S754_zero b => Bool.eqb a b
  | S754_infinity a, S754_infinity b => Bool.eqb a b
  | S754_nan, S754_nan => true
  | S754_finite a m e, S754_finite b n f => Bool.eqb a b && Pos.eqb m n && Z.eqb e f
  | _, _ => false
  end.
Lemma feq_eq x y : feq x y = true -> x = y.
Proof.
  destruct x, y; cbn; try discriminate; auto; intros H; try (apply Bool.eqb_prop in H; congruence).
  apply andb_prop in H. destruct H as [H E]. apply andb_prop in H. destruct H as [A B]. apply Bool.eqb_prop in A. apply Pos.eqb_eq in B. apply Z.eqb_eq in E. congruence.
Qed.
(** [x] is within one part in 2^49 of [n]; the numbers are compared in units of 2^-60. *)
Definition near (x : f64) (n : Z) : Prop :=
  match x with
  | S754_finite false m e => (-60 <= e /\ Z.abs (Z.pos m * 2 ^ (e + 60) - n * 2 ^ 60) * 2 ^ 49 <= n * 2 ^ 60)%Z
  | _ => False
  end.
Definition near_b (x : f64) (n : Z) : bool :=
  match x with
  | S754_finite false m e => ((-60 <=? e) && (Z.abs (Z.pos m * 2 ^ (e + 60) - n * 2 ^ 60) * 2 ^ 49 <=? n * 2 ^ 60))%Z
  | _ => false
  end.
Lemma near_ok x n : near_b x n = true -> near x n.
Proof. destruct x as [| | |[] m e]; cbn; try discriminate. intros H. apply andb_prop in H. destruct H as [A B]. apply Z.leb_le in A, B. auto. Qed.
Lemma factorial_exact n : 1 <= n <= 27 -> factorial (f_of_Z (Z.of_nat n)) = f_of_Z (fact_upto n).
Proof.
  intros H. apply feq_eq. assert (A : forallb (fun n => feq (factorial (f_of_Z (Z.of_nat n))) (f_of_Z (fact_upto n))) (seq 1 27) = true) by (vm_compute; reflexivity).
  rewrite forallb_forall in A. apply A. apply in_seq. lia.
Qed.
Lemma factorial_near n : 1 <= n <= 170 -> near (factorial (f_of_Z (Z.of_nat n))) (fact_upto n).
Proof.
  intros H. apply near_ok. assert (A : forallb (fun n => near_b (factorial (f_of_Z (Z.of_nat n))) (fact_upto n)) (seq 1 170) = true) by (vm_compute; reflexivity).
  rewrite forallb_forall in A. apply A. apply in_seq. lia.
Qed.
