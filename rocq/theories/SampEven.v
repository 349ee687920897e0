(** The lines of a sample are spread over the stream. *)
From Coq Require Import List NArith ZArith Bool Arith Lia SpecFloat Reals Lra.
From Flocq Require Import IEEE754.BinarySingleNaN Core.
Import ListNotations.
From Verif Require Import Base StrModel FloatModel FloatValid FloatInt ShareProofs SampModel SampSpec SampFloat SampProofs.
Open Scope Z_scope.

Lemma rnd_err z : (1 / 2 <= z)%R -> (Rabs (rnd z - z) <= bpow radix2 (-52) * z)%R.
Proof.
  intros H. eapply Rle_trans; [apply (@error_le_half_ulp radix2 (SpecFloat.fexp 53 1024) (fexp_correct 53 1024 eq_refl))|].
  rewrite ulp_neq_0 by lra. unfold cexp.
  assert (M : (0 <= mag radix2 z)%Z). { apply mag_ge_bpow. rewrite Rabs_pos_eq by lra. change (bpow radix2 (0 - 1)) with (/ 2)%R. lra. }
  replace (SpecFloat.fexp 53 1024 (mag radix2 z)) with (mag radix2 z - 1 + (-52))%Z by (unfold SpecFloat.fexp, emin; lia).
  rewrite bpow_plus. pose proof (bpow_mag_le radix2 z ltac:(lra)) as B. rewrite Rabs_pos_eq in B by lra. pose proof (bpow_gt_0 radix2 (-52)). nra.
Qed.
Lemma eps_val : bpow radix2 (-52) = (/ 4503599627370496)%R. Proof. reflexivity. Qed.

Section Gaps.
Variables n m : Z.
Hypothesis N1 : 1 <= n.
Hypothesis NM : n < m.
Hypothesis M52 : m < 2 ^ 50.
Notation q := (IZR m / IZR n)%R.
Notation r := (rnd q).
Lemma prod_err i : 0 <= i -> (Rabs (rnd (IZR i * r) - IZR i * r) <= bpow radix2 (-52) * (IZR i * r))%R.
Proof.
  intros H. destruct (Z.eq_dec i 0) as [->|Z0].
  - rewrite Rmult_0_l, round_0 by apply valid_rnd_round_mode. rewrite Rminus_0_r, Rabs_R0. lra.
  - apply rnd_err. pose proof (r_gt n m N1 NM M52). assert (1 <= IZR i)%R by (apply (IZR_le 1); lia). nra.
Qed.
Lemma r_near : (Rabs (r - q) <= bpow radix2 (-52) * q)%R.
Proof. apply rnd_err. pose proof (q_gt n m N1 NM M52) as Q. rewrite eps_val in Q. lra. Qed.
Lemma nq : (IZR n * q = IZR m)%R.
Proof. pose proof (n_pos n N1). field. lra. Qed.
Lemma pos_last : m - 1 <= at_pos n m n.
Proof.
  unfold at_pos. apply Zfloor_lub. pose proof (prod_err n ltac:(lia)) as E. pose proof r_near as R. apply Rabs_le_inv in E, R. pose proof nq as Q. pose proof (n_pos n N1) as P.
  assert (B : (IZR m <= 1125899906842624)%R) by (apply IZR_le; lia). assert (M0 : (0 <= IZR m)%R) by (apply (IZR_le 0); lia). rewrite eps_val in *.
  assert (NR : (IZR m - / 4503599627370496 * IZR m <= IZR n * r <= IZR m + / 4503599627370496 * IZR m)%R) by (split; nra).
  rewrite minus_IZR. nra.
Qed.
Lemma pos_two i : m = 2 * n -> 0 <= i <= n -> at_pos n m i = 2 * i.
Proof.
  intros E H. unfold at_pos. replace q with 2%R by (rewrite E, mult_IZR; pose proof (n_pos n N1); field; lra).
  change 2%R with (IZR 2). rewrite (small_round 2) by (unfold small; lia). rewrite <- mult_IZR. rewrite small_round by (unfold small; lia). rewrite Zfloor_IZR. lia.
Qed.
Lemma pos_gap i : m <= 2 * n -> n < 2 ^ 24 -> 0 <= i -> i + 1 <= n -> at_pos n m (i + 1) <= at_pos n m i + 2.
Proof.
  intros M2 NB H1 H2. destruct (Z.eq_dec m (2 * n)) as [E|E]; [rewrite !pos_two by lia; lia|].
  assert (X : Zfloor (rnd (IZR (i + 1) * r)) < Zfloor (rnd (IZR i * r)) + 3); [|unfold at_pos; lia].
  apply lt_IZR. eapply Rle_lt_trans; [apply Zfloor_lb|]. rewrite plus_IZR. pose proof (Zfloor_ub (rnd (IZR i * r))) as U.
  pose proof (prod_err i ltac:(lia)) as E1. pose proof (prod_err (i + 1) ltac:(lia)) as E2. pose proof r_near as R. apply Rabs_le_inv in E1, E2, R. pose proof nq as Q. pose proof (n_pos n N1) as P.
  assert (IB : (0 <= IZR i /\ IZR i + 1 <= IZR n)%R) by (split; [apply (IZR_le 0); lia|rewrite <- plus_IZR; apply IZR_le; lia]).
  assert (NB2 : (IZR n <= 16777216)%R) by (apply IZR_le; lia). rewrite !eps_val in *. rewrite plus_IZR in *.
  assert (Q2 : (IZR n * q <= 2 * IZR n - 1)%R). { rewrite Q. rewrite <- mult_IZR, <- minus_IZR. apply IZR_le. lia. }
  assert (Q3 : (q <= 2 - / 16777216)%R). { assert (/ 16777216 * IZR n <= 1)%R by lra. apply Rmult_le_reg_l with (IZR n); lra. }
  assert (R2 : (1 < r)%R) by (apply r_gt; auto). assert (R3 : (r <= 2)%R) by lra.
  assert (I1 : (IZR i * r <= 33554432)%R) by nra. assert (I2 : ((IZR i + 1) * r <= 33554432)%R) by nra. set (a := rnd ((IZR i + 1) * r)) in *. set (b := rnd (IZR i * r)) in *. lra.
Qed.
End Gaps.

Open Scope nat_scope.
Lemma spread_last old new : 3 <= new -> new < old -> (N.of_nat old < 2 ^ 50)%N -> old - 3 <= spread old new (new - 2).
Proof.
  intros H1 H2 H3. assert (E : Z.of_N (2 ^ 50) = (2 ^ 50)%Z) by reflexivity. rewrite (spread_is old new H1 H2 H3) by lia.
  pose proof (pos_last (Z.of_nat (new - 2)) (Z.of_nat (old - 2)) ltac:(lia) ltac:(lia) ltac:(lia)). lia.
Qed.
Lemma spread_two new i : 3 <= new -> (N.of_nat new < 2 ^ 48)%N -> i <= new - 2 -> spread (new * 2 - 2) new i = 2 * i.
Proof.
  intros H1 H2 H3. destruct (Nat.eq_dec new 2) as [|_]; [lia|].
  assert (E : Z.of_N (2 ^ 50) = (2 ^ 50)%Z) by reflexivity. assert (E2 : Z.of_N (2 ^ 48) = (2 ^ 48)%Z) by reflexivity. assert (H4 : (N.of_nat (new * 2 - 2) < 2 ^ 50)%N) by lia.
  rewrite (spread_is (new * 2 - 2) new H1 ltac:(lia) H4) by lia.
  rewrite (pos_two (Z.of_nat (new - 2)) (Z.of_nat (new * 2 - 2 - 2))) by lia. lia.
Qed.
Lemma spread_gap old new i : 3 <= new -> new < old -> old <= new * 2 - 2 -> (N.of_nat new < 2 ^ 24)%N -> S i <= new - 2 -> spread old new (S i) <= spread old new i + 2.
Proof.
  intros H1 H2 H3 H4 H5. assert (E : Z.of_N (2 ^ 50) = (2 ^ 50)%Z) by reflexivity. assert (E2 : Z.of_N (2 ^ 24) = (2 ^ 24)%Z) by reflexivity. assert (H6 : (N.of_nat old < 2 ^ 50)%N) by lia.
  pose proof (spread_ge old new H1 H2 H6 i ltac:(lia)) as G.
  rewrite (spread_is old new H1 H2 H6 (S i)), (spread_is old new H1 H2 H6 i) in * by lia.
  pose proof (pos_gap (Z.of_nat (new - 2)) (Z.of_nat (old - 2)) ltac:(lia) ltac:(lia) ltac:(lia) (Z.of_nat i) ltac:(lia) ltac:(lia) ltac:(lia) ltac:(lia)) as P.
  replace (Z.of_nat i + 1)%Z with (Z.of_nat (S i)) in P by lia. lia.
Qed.

(** ** What thinning out picks *)
Definition pick (old new k : nat) : nat := if k =? 0 then 0 else if k =? new - 1 then old - 1 else spread old new k.  (* the entries that survive, /repo/src/sampler.rs:86-99 *)
Lemma swaps_at old new : 3 <= new -> new < old -> (N.of_nat old < 2 ^ 50)%N -> forall l0, old <= length l0 ->
  exists l1 l2, swaps old new l0 1 (new - 1 - 1) = Ok l1 /\ swap l1 (new - 1) (old - 1) = Ok l2 /\ length l2 = length l0 /\
    forall k, k < new -> nth_error l2 k = nth_error l0 (pick old new k).
Proof.
  intros New Old Small l0 L. destruct (swaps_ok old new New Old Small (new - 1 - 1) l0 l0 1) as (l1 & E1 & Len & A & Z & B); try lia.
  { split; auto. split; [intros; lia|]. split; auto. }
  destruct (swap_ok l1 (new - 1) (old - 1)) as (l2 & E2 & Len2 & N2); try lia.
  exists l1, l2. split; auto. split; auto. split; [lia|]. intros k K. unfold pick.
  assert (P : forall j, 1 <= j -> j < new - 1 -> spread old new j < old - 1).
  { intros j J1 J2. pose proof (spread_le old new New Old Small j ltac:(lia)). lia. }
  rewrite N2. destruct (Nat.eqb_spec k (old - 1)); [lia|]. destruct (Nat.eqb_spec k 0) as [->|].
  { destruct (Nat.eqb_spec 0 (new - 1)); [lia|]. exact Z. }
  destruct (Nat.eqb_spec k (new - 1)) as [->|]; [apply B; [auto|lia]|apply A; lia].
Qed.
Lemma collapse_at s sz : sm_small s = sz -> 3 <= sz -> (N.of_nat sz < 2 ^ 48)%N -> sz < sm_size s -> sm_size s <= length (sm_data s) -> length (sm_data s) = sz * 2 - 2 ->
  exists d, collapse s = Ok (mksm sz (sm_large s) d (sm_jump s) (sm_pos s) sz) /\ length d = length (sm_data s) /\
    forall k, k < sz -> nth_error d k = nth_error (sm_data s) (pick (sm_size s) sz k).
Proof.
  intros E T Sm H L L2. unfold collapse. rewrite E. destruct (Nat.leb_spec (sm_size s) sz); [lia|]. destruct (Nat.eqb_spec sz 2); [lia|].
  assert (Sm2 : (N.of_nat (sm_size s) < 2 ^ 50)%N) by (change (2 ^ 50)%N with (4 * 2 ^ 48)%N; lia).
  destruct (swaps_at (sm_size s) sz T H Sm2 (sm_data s) L) as (l1 & l2 & E1 & E2 & Len & C). rewrite E1. cbn [rbind]. rewrite E2. cbn [rbind]. exists l2. auto.
Qed.

Section Even.
Variable sz : nat.
Hypothesis Three : 3 <= sz.
Hypothesis Small : (N.of_nat sz < 2 ^ 24)%N.
Lemma small48 : (N.of_nat sz < 2 ^ 48)%N.
Proof. change (2 ^ 48)%N with (2 ^ 24 * 2 ^ 24)%N. change (2 ^ 24)%N with 16777216%N in *. lia. Qed.

(** The number of lines the last entry stands for, and how large it may get. *)
Definition room (s : smooth) : N := if sm_size s =? sz * 2 - 2 then (2 * sm_jump s)%N else sm_jump s.
Definition since (s : smooth) : N := if (sm_pos s =? 0)%N then room s else sm_pos s.
Record even (s : smooth) (seen : list bytes) (f : nat -> nat) : Prop := {
  e_small : sm_small s = sz;
  e_large : sm_large s = sz * 2 - 2;
  e_data : length (sm_data s) = sz * 2 - 2;
  e_size : sm_size s <= sz * 2 - 2;
  e_jump : (1 <= sm_jump s)%N;
  e_at : forall k, k < sm_size s -> nth_error (sm_data s) k = nth_error seen (f k) /\ f k < length seen;
  e_first : f 0 = 0;
  e_last : f (sm_size s - 1) = length seen - 1;
  e_one : sm_jump s = 1%N -> sm_pos s = 0%N /\ sm_size s = length seen /\ forall k, k < sm_size s -> f k = k;
  e_more : sm_jump s <> 1%N -> sz < sm_size s /\ (since s <= room s)%N /\ (sm_pos s < room s)%N /\
    (N.of_nat (length seen) = N.of_nat (sm_size s - 2) * sm_jump s + since s)%N /\ N.of_nat (f (sm_size s - 1) - f (sm_size s - 2)) = since s;
  e_gaps : forall k, S k < sm_size s -> f k < f (S k) /\ (S k < sm_size s - 1 -> (N.of_nat (f (S k) - f k) <= sm_jump s)%N) }.

Lemma even_new : even (smooth_new sz) [] (fun k => k).
Proof.
  unfold smooth_new. replace (Nat.max sz 2) with sz by lia. split; cbn -[Nat.mul N.eqb]; try reflexivity; try lia.
  - rewrite repeat_length. reflexivity.
  - auto with zarith.
Qed.

Lemma even_add s seen f x : even s seen f -> exists s' f', smooth_add s x = Ok s' /\ even s' (seen ++ [x]) f'.
Proof.
  pose proof small48 as Small48. intros [e1 e2 e3 e4 e5 e6 e7 e8 e9 e10 e11]. unfold smooth_add.
  assert (At : forall p, p < length seen -> nth_error (seen ++ [x]) p = nth_error seen p) by (intros p P; apply nth_error_app1; auto).
  assert (Atx : nth_error (seen ++ [x]) (length seen) = Some x) by (rewrite nth_error_app2, Nat.sub_diag by lia; reflexivity).
  assert (Ln : length (seen ++ [x]) = S (length seen)) by (rewrite app_length; cbn; lia).
  destruct (N.eqb_spec (sm_pos s) 0) as [P0|P0].
  - rewrite e2. destruct (Nat.leb_spec (sz * 2 - 2) (sm_size s)) as [Full|Room].
    + set (s1 := mksm (sm_small s) (sz * 2 - 2) (sm_data s) (sm_jump s * 2) (sm_pos s) (sm_size s)).
      destruct (collapse_at s1 sz) as (d & E & Ld & C); try (cbn; lia). rewrite E. cbn [rbind].
      cbn [sm_large s1 sm_jump sm_pos sm_data sm_size sm_small] in *.
      assert (FS : sm_size s = sz * 2 - 2) by lia. rewrite FS in *.
      destruct (put_ok d sz x ltac:(lia)) as (d2 & E2 & Ld2 & N2). rewrite E2. cbn [rbind].
      destruct (N.ltb_spec 1 (sm_jump s * 2)) as [J2|]; [|lia].
      set (g := fun k => if k =? sz then length seen else f (pick (sz * 2 - 2) sz k)).
      exists (mksm sz (sz * 2 - 2) d2 (sm_jump s * 2) (sm_pos s + 1) (S sz)), g. split; [reflexivity|].
      assert (PK : forall k, k < sz - 1 -> pick (sz * 2 - 2) sz k = 2 * k).
      { intros k K. unfold pick. destruct (Nat.eqb_spec k 0) as [->|]; [reflexivity|]. destruct (Nat.eqb_spec k (sz - 1)); [lia|]. apply spread_two; auto; lia. }
      assert (PL : pick (sz * 2 - 2) sz (sz - 1) = sz * 2 - 3).
      { unfold pick. destruct (Nat.eqb_spec (sz - 1) 0); [lia|]. rewrite Nat.eqb_refl. lia. }
      (* how many lines there are, and the last gap *)
      assert (Cnt : N.of_nat (length seen) = (N.of_nat (sz * 2 - 2) * sm_jump s)%N /\ (N.of_nat (f (sz * 2 - 3)%nat - f (sz * 2 - 4)%nat) <= 2 * sm_jump s)%N).
      { destruct (N.eq_dec (sm_jump s) 1) as [J|J].
        - destruct (e9 J) as (_ & L & I). rewrite J. split; [lia|]. rewrite !I by lia. lia.
        - destruct (e10 J) as (A1 & A2 & A3 & A4 & A5). unfold since, room in *. rewrite P0, FS, Nat.eqb_refl in *. cbn [N.eqb] in *. split.
          + rewrite A4. replace (N.of_nat (sz * 2 - 2)) with (N.of_nat (sz * 2 - 2 - 2) + 2)%N by lia. lia.
          + replace (sz * 2 - 2 - 1) with (sz * 2 - 3) in A5 by lia. replace (sz * 2 - 2 - 2) with (sz * 2 - 4) in A5 by lia. lia. }
      destruct Cnt as (Cnt & LG).
      split; cbn [sm_small sm_large sm_data sm_size sm_jump sm_pos]; try lia.
      * intros k K. rewrite N2, Ln. unfold g. destruct (Nat.eqb_spec k sz) as [->|NK]; [split; [auto|lia]|].
        rewrite C by lia. assert (PB : pick (sz * 2 - 2) sz k < sz * 2 - 2).
        { destruct (Nat.eq_dec k (sz - 1)) as [->|]; [rewrite PL; lia|rewrite PK by lia; lia]. }
        destruct (e6 _ PB) as (X1 & X2). rewrite X1, At by auto. split; [reflexivity|lia].
      * unfold g. destruct (Nat.eqb_spec 0 sz); [lia|]. exact e7.
      * rewrite Ln. replace (S sz - 1) with sz by lia. unfold g. rewrite Nat.eqb_refl. lia.
      * intros _. assert (SN : since (mksm sz (sz * 2 - 2) d2 (sm_jump s * 2) (sm_pos s + 1) (S sz)) = 1%N) by (unfold since; cbn [sm_pos]; rewrite P0; reflexivity).
        rewrite SN. assert (RM : (2 <= room (mksm sz (sz * 2 - 2) d2 (sm_jump s * 2) (sm_pos s + 1) (S sz)))%N) by (unfold room; cbn [sm_size sm_jump]; destruct (S sz =? sz * 2 - 2); lia).
        split; [lia|]. split; [lia|]. split; [lia|]. split.
        -- rewrite Ln. replace (S sz - 2) with (sz - 1) by lia. rewrite Nat2N.inj_succ, Cnt. replace (N.of_nat (sz * 2 - 2)) with (2 * N.of_nat (sz - 1))%N by lia. lia.
        -- replace (S sz - 1) with sz by lia. replace (S sz - 2) with (sz - 1) by lia. unfold g. rewrite Nat.eqb_refl. destruct (Nat.eqb_spec (sz - 1) sz); [lia|]. rewrite PL.
           replace (sz * 2 - 3) with (sz * 2 - 2 - 1) by lia. rewrite e8. assert (length seen <> 0) by (intros Z0; rewrite Z0 in *; lia). lia.
      * intros k K. unfold g. destruct (Nat.eqb_spec k sz); [lia|]. destruct (Nat.eqb_spec (S k) sz) as [SK|NS].
        { assert (PB : pick (sz * 2 - 2) sz k < sz * 2 - 2) by (replace k with (sz - 1) by lia; rewrite PL; lia). destruct (e6 _ PB) as (_ & X2). split; [lia|]. lia. }
        destruct (Nat.eq_dec (S k) (sz - 1)) as [LK|NLK].
        { rewrite LK, PL. rewrite PK by lia. replace (2 * k) with (sz * 2 - 4) by lia. split; [|intros _; lia].
          destruct (e11 (sz * 2 - 4) ltac:(lia)) as (X & _). replace (S (sz * 2 - 4)) with (sz * 2 - 3) in X by lia. exact X. }
        rewrite !PK by lia. replace (2 * S k) with (S (S (2 * k))) by lia.
        destruct (e11 (2 * k) ltac:(lia)) as (X1 & X2). destruct (e11 (S (2 * k)) ltac:(lia)) as (X3 & X4). split; [lia|]. intros _. specialize (X2 ltac:(lia)). specialize (X4 ltac:(lia)). lia.
    + cbn [rbind]. destruct (put_ok (sm_data s) (sm_size s) x ltac:(lia)) as (d & E & Ld & N2). rewrite E. cbn [rbind].
      set (g := fun k => if k =? sm_size s then length seen else f k).
      eexists _, g. split; [reflexivity|].
      assert (At2 : forall k, k < S (sm_size s) -> nth_error d k = nth_error (seen ++ [x]) (g k) /\ g k < S (length seen)).
      { intros k K. rewrite N2. unfold g. destruct (Nat.eqb_spec k (sm_size s)) as [->|]; [split; [auto|lia]|]. destruct (e6 k ltac:(lia)) as (X1 & X2). rewrite X1, At by auto. split; [reflexivity|lia]. }
      assert (FG : g 0 = 0).
      { unfold g. destruct (Nat.eqb_spec 0 (sm_size s)) as [Z0|]; auto. destruct (N.eq_dec (sm_jump s) 1) as [J|J]; [destruct (e9 J) as (_ & L & _); lia|destruct (e10 J); lia]. }
      destruct (N.eq_dec (sm_jump s) 1) as [J|J].
      * destruct (e9 J) as (Q1 & Q2 & Q3). rewrite J. destruct (N.ltb_spec 1 1) as [|_]; [lia|].
        split; cbn [sm_small sm_large sm_data sm_size sm_jump sm_pos]; try lia; rewrite ?Ln; auto.
        -- replace (S (sm_size s) - 1) with (sm_size s) by lia. unfold g. rewrite Nat.eqb_refl. lia.
        -- intros _. split; auto. split; [lia|]. intros k K. unfold g. destruct (Nat.eqb_spec k (sm_size s)) as [->|]; [auto|apply Q3; lia].
        -- intros k K. unfold g. destruct (Nat.eqb_spec k (sm_size s)); [lia|]. rewrite Q3 by lia. destruct (Nat.eqb_spec (S k) (sm_size s)); [lia|]. rewrite Q3 by lia. lia.
      * destruct (e10 J) as (A1 & A2 & A3 & A4 & A5). destruct (N.ltb_spec 1 (sm_jump s)) as [J1|]; [|lia].
        assert (SR : since s = sm_jump s) by (unfold since, room; rewrite P0; cbn [N.eqb]; destruct (Nat.eqb_spec (sm_size s) (sz * 2 - 2)); [lia|reflexivity]).
        split; cbn [sm_small sm_large sm_data sm_size sm_jump sm_pos]; try lia; rewrite ?Ln; auto.
        -- replace (S (sm_size s) - 1) with (sm_size s) by lia. unfold g. rewrite Nat.eqb_refl. lia.
        -- intros _. set (s' := mksm _ _ _ _ _ _). assert (SN : since s' = 1%N) by (unfold since, s'; cbn [sm_pos]; rewrite P0; reflexivity).
           rewrite SN. assert (RM : (2 <= room s')%N) by (unfold room, s'; cbn [sm_size sm_jump]; destruct (S (sm_size s) =? sz * 2 - 2); lia).
           split; [lia|]. split; [lia|]. split; [rewrite P0; lia|]. split.
           ++ rewrite Nat2N.inj_succ, A4, SR. replace (S (sm_size s) - 2) with (S (sm_size s - 2)) by lia. rewrite Nat2N.inj_succ. lia.
           ++ replace (S (sm_size s) - 1) with (sm_size s) by lia. replace (S (sm_size s) - 2) with (sm_size s - 1) by lia. unfold g. rewrite Nat.eqb_refl. destruct (Nat.eqb_spec (sm_size s - 1) (sm_size s)); [lia|]. rewrite e8. lia.
        -- intros k K. unfold g. destruct (Nat.eqb_spec k (sm_size s)); [lia|]. destruct (Nat.eqb_spec (S k) (sm_size s)) as [SK|NS].
           { destruct (e6 k ltac:(lia)) as (_ & X2). split; lia. }
           destruct (e11 k ltac:(lia)) as (X1 & X2). split; auto. intros K2. destruct (Nat.eq_dec (S k) (sm_size s - 1)) as [LK|]; [|apply X2; lia].
           replace k with (sm_size s - 2) in * by lia. replace (S (sm_size s - 2)) with (sm_size s - 1) by lia. lia.
  - assert (J : sm_jump s <> 1%N) by (intros J; destruct (e9 J); lia). destruct (e10 J) as (A1 & A2 & A3 & A4 & A5).
    destruct (put_ok (sm_data s) (sm_size s - 1) x ltac:(lia)) as (d & E & Ld & N2). rewrite E. cbn [rbind]. cbv zeta.
    rewrite e2. fold (room s). set (g := fun k => if k =? sm_size s - 1 then length seen else f k). eexists _, g. split; [reflexivity|].
    assert (SP : since s = sm_pos s) by (unfold since; destruct (N.eqb_spec (sm_pos s) 0); [lia|reflexivity]).
    set (s' := mksm _ _ _ _ _ _). assert (RR : room s' = room s) by reflexivity.
    assert (SN : since s' = (sm_pos s + 1)%N).
    { unfold since. rewrite RR. unfold s'. cbn [sm_pos]. destruct (N.leb_spec (room s) (sm_pos s + 1)); [|destruct (N.eqb_spec (sm_pos s + 1) 0); lia]. cbn [N.eqb]. lia. }
    split; unfold s'; cbn [sm_small sm_large sm_data sm_size sm_jump sm_pos]; try lia; rewrite ?Ln; auto; fold s'.
    + intros k K. rewrite N2. unfold g. destruct (Nat.eqb_spec k (sm_size s - 1)) as [->|]; [split; [auto|lia]|]. destruct (e6 k ltac:(lia)) as (X1 & X2). rewrite X1, At by auto. split; [reflexivity|lia].
    + unfold g. destruct (Nat.eqb_spec 0 (sm_size s - 1)); [lia|]. auto.
    + unfold g. rewrite Nat.eqb_refl. lia.
    + intros _. rewrite SN, RR. split; [lia|]. split; [lia|]. split; [destruct (N.leb_spec (room s) (sm_pos s + 1)); lia|]. split.
      * rewrite Nat2N.inj_succ, A4, SP. lia.
      * unfold g. rewrite Nat.eqb_refl. destruct (Nat.eqb_spec (sm_size s - 2) (sm_size s - 1)); [lia|]. rewrite e8 in A5. destruct (e6 (sm_size s - 2) ltac:(lia)) as (_ & X2). lia.
    + intros k K. unfold g. destruct (Nat.eqb_spec k (sm_size s - 1)); [lia|]. destruct (e11 k K) as (X1 & X2). destruct (Nat.eqb_spec (S k) (sm_size s - 1)) as [SK|]; [|auto].
      destruct (e6 k ltac:(lia)) as (_ & X3). split; [lia|]. lia.
Qed.
Lemma even_adds : forall ls s seen f, even s seen f -> exists s' f', smooth_adds s ls = Ok s' /\ even s' (seen ++ ls) f'.
Proof.
  induction ls as [|x ls IH]; intros s seen f G; cbn [smooth_adds].
  - rewrite app_nil_r. eauto.
  - destruct (even_add s seen f x G) as (s1 & f1 & E1 & G1). rewrite E1. cbn [rbind]. destruct (IH s1 _ _ G1) as (s2 & f2 & E2 & G2).
    rewrite <- app_assoc in G2. eauto.
Qed.

Lemma sampled_even ls : exists out, sampled sz ls = Ok out /\ length out = Nat.min sz (length ls) /\ evenly sz ls out.
Proof.
  pose proof small48 as Small48. unfold sampled. destruct (even_adds ls _ _ _ even_new) as (s & f & E & G). cbn [app] in G. rewrite E. cbn [rbind].
  unfold smooth_final. destruct G as [e1 e2 e3 e4 e5 e6 e7 e8 e9 e10 e11].
  destruct (Nat.le_gt_cases (sm_size s) sz) as [Few|Many].
  - unfold collapse. rewrite e1. rewrite (proj2 (Nat.leb_le _ _) Few). cbn [rbind].
    destruct (Nat.leb_spec (sm_size s) (length (sm_data s))); [|lia]. eexists. split; [reflexivity|].
    assert (J : sm_jump s = 1%N) by (destruct (N.eq_dec (sm_jump s) 1) as [|J]; auto; destruct (e10 J); lia). destruct (e9 J) as (_ & L & I).
    assert (FL : length (firstn (sm_size s) (sm_data s)) = sm_size s) by (rewrite firstn_length; lia). rewrite FL. split; [lia|].
    exists f. rewrite FL. split; [|split].
    + intros k K. rewrite nth_error_firstn by auto. apply e6; auto.
    + auto.
    + intros k K. rewrite !I by lia. lia.
  - destruct (collapse_at s sz e1 Three Small48 Many ltac:(lia) e3) as (d & E2 & Ld & C). rewrite E2. cbn [rbind sm_size sm_data].
    destruct (Nat.leb_spec sz (length d)); [|lia]. eexists. split; [reflexivity|].
    assert (Sm2 : (N.of_nat (sm_size s) < 2 ^ 50)%N) by (change (2 ^ 50)%N with (4 * 2 ^ 48)%N; lia).
    assert (FL : length (firstn sz d) = sz) by (rewrite firstn_length; lia). rewrite FL.
    assert (Len : sm_size s <= length ls).
    { destruct (N.eq_dec (sm_jump s) 1) as [J|J]; [destruct (e9 J) as (_ & L & _); lia|]. destruct (e10 J) as (A1 & A2 & A3 & A4 & A5).
      assert (SI : (sm_jump s <= since s \/ 1 <= since s)%N) by (unfold since; destruct (N.eqb_spec (sm_pos s) 0); lia).
      assert (2 <= sm_jump s)%N by lia. assert (N.of_nat (sm_size s) <= N.of_nat (length ls))%N; [|lia]. rewrite A4. nia. }
    split; [lia|]. exists (fun k => f (pick (sm_size s) sz k)). rewrite FL.
    assert (P0 : pick (sm_size s) sz 0 = 0) by reflexivity.
    assert (PL : pick (sm_size s) sz (sz - 1) = sm_size s - 1) by (unfold pick; destruct (Nat.eqb_spec (sz - 1) 0); [lia|]; rewrite Nat.eqb_refl; reflexivity).
    assert (PM : forall k, k < sz - 1 -> pick (sm_size s) sz k = spread (sm_size s) sz k).
    { intros k K. unfold pick. destruct (Nat.eqb_spec k 0) as [->|]; [|destruct (Nat.eqb_spec k (sz - 1)); [lia|reflexivity]].
      pose proof (spread_gap (sm_size s) sz 0 Three Many e4 Small ltac:(lia)) as G1. unfold spread. cbn [Z.of_nat]. destruct (fdiv _ _) as [[]| | |[] ? ?]; reflexivity. }
    assert (PB : forall k, k < sz -> pick (sm_size s) sz k < sm_size s).
    { intros k K. destruct (Nat.eq_dec k (sz - 1)) as [->|]; [rewrite PL; lia|]. rewrite PM by lia. pose proof (spread_le (sm_size s) sz Three Many Sm2 k ltac:(lia)). lia. }
    assert (PS : forall k, S k < sz -> pick (sm_size s) sz k < pick (sm_size s) sz (S k) <= pick (sm_size s) sz k + 2).
    { intros k K. destruct (Nat.eq_dec (S k) (sz - 1)) as [SK|].
      - rewrite SK, PL. rewrite PM by lia. pose proof (spread_le (sm_size s) sz Three Many Sm2 k ltac:(lia)). pose proof (spread_last (sm_size s) sz Three Many Sm2). replace (sz - 2) with k in * by lia. lia.
      - rewrite !PM by lia. split; [|apply spread_gap; auto; lia]. destruct k; [|apply spread_step; auto; lia].
        rewrite <- (PM 0) by lia. rewrite P0. pose proof (spread_ge (sm_size s) sz Three Many Sm2 1 ltac:(lia)). lia. }
    split; [|split].
    + intros k K. rewrite nth_error_firstn by auto. rewrite C by auto. apply e6. auto.
    + intros _. rewrite P0, PL. auto.
    + intros k K. destruct (PS k K) as (B1 & B2). pose proof (PB (S k) K) as B3.
      set (p := pick (sm_size s) sz k) in *. set (p' := pick (sm_size s) sz (S k)) in *.
      assert (Mono : f p < f p' /\ (p' = S p \/ p' = S (S p))).
      { destruct (Nat.eq_dec p' (S p)) as [Q|Q]; [rewrite Q in *; split; [apply e11; lia|auto]|]. assert (Q2 : p' = S (S p)) by lia. rewrite Q2 in *.
        destruct (e11 p ltac:(lia)). destruct (e11 (S p) ltac:(lia)). split; [lia|auto]. }
      destruct Mono as (Mono & Two). split; [exact Mono|]. right.
      destruct (N.eq_dec (sm_jump s) 1) as [J|J].
      { destruct (e9 J) as (_ & L & I). rewrite !I by lia. nia. }
      destruct (e10 J) as (A1 & A2 & A3 & A4 & A5).
      assert (SI : (1 <= since s)%N) by (unfold since, room; destruct (N.eqb_spec (sm_pos s) 0); [destruct (sm_size s =? sz * 2 - 2)|]; lia).
      assert (Gap : (N.of_nat (f p' - f p) <= 2 * sm_jump s)%N).
      { destruct (Nat.eq_dec (sm_size s) (sz * 2 - 2)) as [FS|NF].
        - assert (RM : room s = (2 * sm_jump s)%N) by (unfold room; rewrite (proj2 (Nat.eqb_eq _ _) FS); reflexivity).
          destruct (Nat.eq_dec (S k) (sz - 1)) as [SK|NS].
          + assert (EP : p' = sm_size s - 1) by (unfold p'; rewrite SK; exact PL). assert (EQ : p = sm_size s - 2).
            { unfold p. rewrite PM by lia. rewrite FS. rewrite spread_two by (auto; lia). lia. }
            rewrite EP, EQ. lia.
          + assert (EP : p' = 2 * S k) by (unfold p'; rewrite PM by lia; rewrite FS; apply spread_two; auto; lia).
            assert (EQ : p = 2 * k) by (unfold p; rewrite PM by lia; rewrite FS; apply spread_two; auto; lia).
            rewrite EP, EQ. replace (2 * S k) with (S (S (2 * k))) by lia.
            destruct (e11 (2 * k) ltac:(lia)) as (X1 & X2). destruct (e11 (S (2 * k)) ltac:(lia)) as (X3 & X4). specialize (X2 ltac:(lia)). specialize (X4 ltac:(lia)). lia.
        - assert (RM : room s = sm_jump s) by (unfold room; destruct (Nat.eqb_spec (sm_size s) (sz * 2 - 2)); [lia|reflexivity]).
          assert (One : forall j, S j < sm_size s -> (N.of_nat (f (S j) - f j) <= sm_jump s)%N).
          { intros j Hj. destruct (e11 j Hj) as (_ & X). destruct (Nat.eq_dec (S j) (sm_size s - 1)) as [SJ|]; [|apply X; lia].
            replace j with (sm_size s - 2) by lia. replace (S (sm_size s - 2)) with (sm_size s - 1) by lia. lia. }
          destruct Two as [-> | ->]; [pose proof (One p ltac:(lia)); lia|]. pose proof (One p ltac:(lia)). pose proof (One (S p) ltac:(lia)). lia. }
      assert (Cnt : (N.of_nat (sz - 1) * sm_jump s < N.of_nat (length ls))%N) by (rewrite A4; nia).
      assert (N.of_nat (sz - 1) * N.of_nat (f p' - f p) < 2 * N.of_nat (length ls))%N by nia. lia.
Qed.
End Even.
