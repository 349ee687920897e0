(** The sampler keeps the first line, the last one, and as many in between as asked for. *)
From Coq Require Import List NArith ZArith Bool Arith Lia Sorted.
Import ListNotations.
From Verif Require Import Base FloatModel SampModel SampSpec SampFloat.
Open Scope nat_scope.

Lemma put_ok : forall l i x, i < length l -> exists l', put l i x = Ok l' /\ length l' = length l /\
  forall j, nth_error l' j = if j =? i then Some x else nth_error l j.
Proof.
  induction l as [|y l IH]; intros i x H; cbn [length] in H; [lia|]. destruct i as [|i]; cbn [put].
  - eexists. split; [reflexivity|]. split; auto. intros [|j]; reflexivity.
  - destruct (IH i x) as (l' & E & L & N); [lia|]. rewrite E. cbn [rbind]. eexists. split; [reflexivity|]. split; [cbn [length]; lia|].
    intros [|j]; [reflexivity|]. cbn [nth_error Nat.eqb]. apply N.
Qed.
Lemma put_app : forall a y b x, put (a ++ y :: b) (length a) x = Ok (a ++ x :: b).
Proof. induction a as [|z a IH]; intros y b x; cbn [app length put]; auto. rewrite IH. reflexivity. Qed.

Lemma swap_ok : forall l i j, i < length l -> j < length l -> exists l', swap l i j = Ok l' /\ length l' = length l /\
  forall k, nth_error l' k = if k =? j then nth_error l i else if k =? i then nth_error l j else nth_error l k.
Proof.
  intros l i j Hi Hj. unfold swap. destruct (nth_error l i) as [x|] eqn:X; [|apply nth_error_None in X; lia].
  destruct (nth_error l j) as [y|] eqn:Y; [|apply nth_error_None in Y; lia].
  destruct (put_ok l i y Hi) as (l1 & E1 & L1 & N1). rewrite E1. cbn [rbind].
  destruct (put_ok l1 j x) as (l2 & E2 & L2 & N2); [lia|]. rewrite E2. eexists. split; [reflexivity|]. split; [lia|].
  intros k. rewrite N2. destruct (k =? j); auto.
Qed.

Lemma chosen_length : forall A (out l : list A), chosen_from out l -> length out <= length l.
Proof. induction 1; cbn [length]; lia. Qed.
Lemma chosen_refl : forall A (l : list A), chosen_from l l.
Proof. induction l; [apply cf_none|apply cf_take; auto]. Qed.
Lemma chosen_trans : forall A (b c : list A), chosen_from b c -> forall a, chosen_from a b -> chosen_from a c.
Proof.
  induction 1 as [|x o l H IH|x o l H IH]; intros a Ha; auto.
  - apply cf_skip; auto.
  - inversion Ha; subst; [apply cf_skip; auto|apply cf_take; auto].
Qed.
Lemma chosen_app : forall A (o1 l1 o2 l2 : list A), chosen_from o1 l1 -> chosen_from o2 l2 -> chosen_from (o1 ++ o2) (l1 ++ l2).
Proof. induction 1; intros H2; cbn [app]; auto; [apply cf_skip|apply cf_take]; auto. Qed.
Lemma chosen_nil : forall A (l : list A), chosen_from [] l.
Proof. induction l; constructor; auto. Qed.

Lemma chosen_idx : forall A (l : list A) ps out, StronglySorted lt ps -> Forall2 (fun p x => nth_error l p = Some x) ps out -> chosen_from out l.
Proof.
  intros A. induction l as [|x l IH]; intros ps out SS H2.
  - destruct H2 as [|p y ps out E]; [apply cf_none|]. destruct p; discriminate.
  - assert (Shift : forall ps out, Forall (fun p => 1 <= p) ps -> StronglySorted lt ps -> Forall2 (fun p y => nth_error (x :: l) p = Some y) ps out -> chosen_from out l).
    { clear ps out SS H2. intros ps out G SS H2. apply (IH (map pred ps)).
      - clear H2. induction SS as [|p ps S1 IH1 F]; cbn [map]; [constructor|]. inversion G as [|? ? G1 G2]; subst. constructor; auto.
        apply Forall_map. rewrite Forall_forall in *. intros q I. specialize (F q I). specialize (G2 q I). lia.
      - clear SS. induction H2 as [|p y ps out E H2 IH2]; cbn [map]; [constructor|]. inversion G; subst. constructor; auto. destruct p; [lia|]. exact E. }
    destruct H2 as [|p y ps out E H2]; [apply chosen_nil|].
    inversion SS as [|? ? S1 F]; subst.
    destruct p as [|p].
    + cbn [nth_error] in E. injection E as <-. apply cf_take. apply (Shift ps); auto.
    + apply cf_skip. apply (Shift (S p :: ps)); auto. constructor; [lia|]. eapply Forall_impl; [|exact F]. intros a I; cbv beta in I; lia.
Qed.

Lemma nth_error_firstn : forall A n (l : list A) k, k < n -> nth_error (firstn n l) k = nth_error l k.
Proof. induction n as [|n IH]; intros l k H; [lia|]. destruct l, k; cbn; auto. apply IH. lia. Qed.

Lemma forall2_nth : forall A B (R : A -> B -> Prop) (xs : list A) (ys : list B), length xs = length ys ->
  (forall k x y, nth_error xs k = Some x -> nth_error ys k = Some y -> R x y) -> Forall2 R xs ys.
Proof.
  intros A B R. induction xs as [|x xs IH]; intros [|y ys] L H; try discriminate; constructor.
  - apply (H 0); reflexivity.
  - apply IH; [cbn in L; lia|]. intros k a b Ha Hb. apply (H (S k)); auto.
Qed.

Section Collapse.
Variables old new : nat.
Hypothesis New : 3 <= new.
Hypothesis Old : new < old.
Hypothesis Small : (N.of_nat old < 2 ^ 50)%N.
Notation p := (spread old new).

Lemma p_mono : forall i j, 1 <= i -> i < j -> j <= new - 2 -> p i < p j.
Proof.
  intros i j H1 H2. induction H2 as [|j H2 IH]; intros H3.
  - apply spread_step; auto.
  - eapply Nat.lt_trans; [apply IH; lia|]. apply spread_step; auto. lia.
Qed.

(** After some swaps: the entries before [i] come from the chosen positions, those behind the last chosen position are untouched. *)
Definition swapped (l0 l : list bytes) (i : nat) : Prop :=
  length l = length l0 /\ (forall k, 1 <= k -> k < i -> nth_error l k = nth_error l0 (p k)) /\
  nth_error l 0 = nth_error l0 0 /\
  forall k, (forall j, 1 <= j -> j < i -> p j < k) -> i <= k -> nth_error l k = nth_error l0 k.

Lemma swaps_ok : forall n l0 l i, 1 <= i -> i + n = new - 1 -> old <= length l0 -> swapped l0 l i ->
  exists l', swaps old new l i n = Ok l' /\ swapped l0 l' (new - 1).
Proof.
  induction n as [|n IH]; intros l0 l i H1 E L (Len & A & Z & B); cbn [swaps].
  - exists l. split; auto. replace (new - 1) with i by lia. split; auto.
  - pose proof (spread_ge old new New Old Small i ltac:(lia)) as G. pose proof (spread_le old new New Old Small i ltac:(lia)) as U.
    destruct (swap_ok l i (p i)) as (l' & E' & Len' & N'); try lia. rewrite E'. cbn [rbind]. apply (IH l0 l' (S i)); try lia.
    assert (PI : nth_error l (p i) = nth_error l0 (p i)).
    { apply B; [|lia]. intros j J1 J2. apply p_mono; lia. }
    split; [lia|]. split; [|split].
    + intros k K1 K2. rewrite N'. destruct (Nat.eqb_spec k (p i)) as [Ek|Nk].
      * assert (k = i) by lia. subst k. rewrite <- H in *. congruence.
      * destruct (Nat.eqb_spec k i) as [->|Ni]; [exact PI|]. apply A; lia.
    + rewrite N'. destruct (Nat.eqb_spec 0 (p i)); [lia|]. destruct (Nat.eqb_spec 0 i); [lia|]. exact Z.
    + intros k K1 K2. rewrite N'. pose proof (K1 i ltac:(lia) ltac:(lia)).
      destruct (Nat.eqb_spec k (p i)); [lia|]. destruct (Nat.eqb_spec k i); [lia|]. apply B; [|lia]. intros j J1 J2. apply K1; lia.
Qed.

Lemma swaps_sample : forall l0, old <= length l0 ->
  exists l1 l2, swaps old new l0 1 (new - 1 - 1) = Ok l1 /\ swap l1 (new - 1) (old - 1) = Ok l2 /\ length l2 = length l0 /\
    chosen_from (firstn new l2) (firstn old l0) /\ nth_error l2 0 = nth_error l0 0 /\ nth_error l2 (new - 1) = nth_error l0 (old - 1).
Proof.
  intros l0 L. destruct (swaps_ok (new - 1 - 1) l0 l0 1) as (l1 & E1 & Len & A & Z & B); try lia.
  { split; auto. split; [intros; lia|]. split; auto. }
  destruct (swap_ok l1 (new - 1) (old - 1)) as (l2 & E2 & Len2 & N2); try lia.
  exists l1, l2. split; auto. split; auto. split; [lia|].
  assert (P : forall j, 1 <= j -> j < new - 1 -> p j < old - 1).
  { intros j J1 J2. pose proof (spread_le old new New Old Small j ltac:(lia)). lia. }
  assert (LastN : nth_error l2 (new - 1) = nth_error l0 (old - 1)).
  { rewrite N2. destruct (Nat.eqb_spec (new - 1) (old - 1)); [lia|]. rewrite Nat.eqb_refl. apply B; [auto|lia]. }
  assert (First : nth_error l2 0 = nth_error l0 0).
  { rewrite N2. destruct (Nat.eqb_spec 0 (old - 1)); [lia|]. destruct (Nat.eqb_spec 0 (new - 1)); [lia|]. auto. }
  split; auto.
  set (pos := fun k => if k =? 0 then 0 else if k =? new - 1 then old - 1 else p k).
  assert (At : forall k, k < new -> nth_error l2 k = nth_error l0 (pos k)).
  { intros k K. unfold pos. destruct (Nat.eqb_spec k 0) as [->|]; auto. destruct (Nat.eqb_spec k (new - 1)) as [->|]; auto.
    rewrite N2. destruct (Nat.eqb_spec k (old - 1)); [lia|]. destruct (Nat.eqb_spec k (new - 1)); [lia|]. apply A; lia. }
  assert (Mono : forall i j, i < j -> j < new -> pos i < pos j).
  { intros i j H1 H2. unfold pos. destruct (Nat.eqb_spec i 0) as [->|]; destruct (Nat.eqb_spec j 0); try lia; destruct (Nat.eqb_spec j (new - 1)); try lia.
    - pose proof (spread_ge old new New Old Small j ltac:(lia)). lia.
    - destruct (Nat.eqb_spec i (new - 1)); [lia|]. apply P; lia.
    - destruct (Nat.eqb_spec i (new - 1)); [lia|]. apply p_mono; lia. }
  assert (Bound : forall k, k < new -> pos k < old).
  { intros k K. unfold pos. destruct (k =? 0) eqn:K0; [lia|]. destruct (Nat.eqb_spec k (new - 1)); [lia|]. apply Nat.eqb_neq in K0. pose proof (P k ltac:(lia) ltac:(lia)). lia. }
  apply (chosen_idx _ _ (map pos (seq 0 new))).
  - assert (Srt : forall n s, s + n <= new -> StronglySorted lt (map pos (seq s n))).
    { induction n as [|n IHn]; intros s Hs; cbn [seq map]; constructor.
      - apply IHn. lia.
      - apply Forall_map. apply Forall_forall. intros k I. apply in_seq in I. apply Mono; lia. }
    apply Srt. lia.
  - apply forall2_nth; [rewrite map_length, seq_length, firstn_length; lia|].
    intros k x y Hx Hy.
    assert (K : k < new) by (assert (X : nth_error (map pos (seq 0 new)) k <> None) by congruence; apply nth_error_Some in X; rewrite map_length, seq_length in X; lia).
    rewrite nth_error_firstn in Hy by auto. rewrite nth_error_map in Hx.
    assert (Q : nth_error (seq 0 new) k = Some k) by (rewrite (nth_error_nth' _ 0) by (rewrite seq_length; lia); rewrite seq_nth by lia; reflexivity).
    rewrite Q in Hx. cbn [option_map] in Hx. injection Hx as <-. rewrite nth_error_firstn by auto. rewrite <- At by auto. auto.
Qed.
End Collapse.

Lemma last_nth : forall A (l : list A), hd_error (rev l) = nth_error l (length l - 1).
Proof.
  intros A l. destruct (rev l) as [|x r] eqn:E.
  - apply (f_equal (@rev A)) in E. rewrite rev_involutive in E. subst. reflexivity.
  - apply (f_equal (@rev A)) in E. rewrite rev_involutive in E. cbn [rev] in E. subst l. rewrite app_length. cbn [length hd_error].
    replace (length (rev r) + 1 - 1) with (length (rev r)) by lia. rewrite nth_error_app2, Nat.sub_diag; auto.
Qed.
Lemma first_nth : forall A (l : list A), hd_error l = nth_error l 0.
Proof. destruct l; reflexivity. Qed.

(** The lines kept. *)
Definition live (s : smooth) : list bytes := firstn (sm_size s) (sm_data s).

Section Adds.
Variable sz : nat.
Hypothesis Three : 3 <= sz.
Hypothesis Small : (N.of_nat sz < 2 ^ 48)%N.

(** What holds after the lines [seen]. *)
Record good (s : smooth) (seen : list bytes) : Prop := {
  g_small : sm_small s = sz;
  g_large : sm_large s = sz * 2 - 2;
  g_data : length (sm_data s) = sz * 2 - 2;
  g_size : sm_size s <= sz * 2 - 2;
  g_jump : (1 <= sm_jump s)%N;
  g_one : sm_jump s = 1%N -> sm_pos s = 0%N /\ live s = seen;
  g_more : sm_jump s <> 1%N -> sz < sm_size s;
  g_from : chosen_from (live s) seen;
  g_first : hd_error (live s) = hd_error seen;
  g_last : hd_error (rev (live s)) = hd_error (rev seen) }.

Lemma live_len : forall s seen, good s seen -> length (live s) = sm_size s.
Proof. intros s seen G. unfold live. rewrite firstn_length. destruct G. lia. Qed.

Lemma good_new : good (smooth_new sz) [].
Proof.
  unfold smooth_new. replace (Nat.max sz 2) with sz by lia. split; cbn -[Nat.mul N.eqb]; try reflexivity; try lia.
  - rewrite repeat_length. reflexivity.
  - auto.
  - constructor.
Qed.

(** Thinning out keeps a sample. *)
Lemma collapse_ok : forall s, sm_small s = sz -> sz < sm_size s -> sm_size s <= length (sm_data s) -> length (sm_data s) = sz * 2 - 2 ->
  exists d, collapse s = Ok (mksm sz (sm_large s) d (sm_jump s) (sm_pos s) sz) /\ length d = length (sm_data s) /\
    chosen_from (firstn sz d) (live s) /\ hd_error (firstn sz d) = hd_error (live s) /\ hd_error (rev (firstn sz d)) = hd_error (rev (live s)).
Proof.
  intros s E H L L2. unfold collapse. rewrite E. destruct (Nat.leb_spec (sm_size s) sz); [lia|]. destruct (Nat.eqb_spec sz 2); [lia|].
  assert (Sm : (N.of_nat (sm_size s) < 2 ^ 50)%N) by (change (2 ^ 50)%N with (4 * 2 ^ 48)%N; lia).
  destruct (swaps_sample (sm_size s) sz Three H Sm (sm_data s) L) as (l1 & l2 & E1 & E2 & Len & C & F & La).
  rewrite E1. cbn [rbind]. rewrite E2. cbn [rbind]. exists l2. split; auto. split; auto. split; [exact C|]. unfold live. split.
  - rewrite !first_nth, !nth_error_firstn by lia. exact F.
  - rewrite !last_nth, !firstn_length. rewrite (Nat.min_l sz (length l2)) by lia. rewrite (Nat.min_l (sm_size s)) by lia. rewrite (nth_error_firstn _ sz), (nth_error_firstn _ (sm_size s)) by lia. exact La.
Qed.

Lemma push_live : forall s x, sm_size s < length (sm_data s) -> exists d, put (sm_data s) (sm_size s) x = Ok d /\ length d = length (sm_data s) /\
  firstn (S (sm_size s)) d = live s ++ [x].
Proof.
  intros s x H. destruct (nth_error (sm_data s) (sm_size s)) as [y|] eqn:Y; [|apply nth_error_None in Y; lia].
  apply nth_error_split in Y. destruct Y as (a & b & E & La). unfold live. rewrite E, <- La. rewrite put_app. eexists. split; [reflexivity|].
  split; [rewrite !app_length; reflexivity|].
  rewrite !firstn_app. rewrite (firstn_all2 (n := S (length a)) a) by lia. rewrite firstn_all. replace (S (length a) - length a) with 1 by lia. rewrite Nat.sub_diag. cbn [firstn].
  rewrite app_nil_r. reflexivity.
Qed.
Lemma over_live : forall s x, 1 <= sm_size s -> sm_size s <= length (sm_data s) -> exists d, put (sm_data s) (sm_size s - 1) x = Ok d /\ length d = length (sm_data s) /\
  exists a y, live s = a ++ [y] /\ length a = sm_size s - 1 /\ firstn (sm_size s) d = a ++ [x].
Proof.
  intros s x H1 H. destruct (nth_error (sm_data s) (sm_size s - 1)) as [y|] eqn:Y; [|apply nth_error_None in Y; lia].
  apply nth_error_split in Y. destruct Y as (a & b & E & La). unfold live. rewrite E, <- La. rewrite put_app. eexists. split; [reflexivity|].
  split; [rewrite !app_length; reflexivity|]. exists a, y.
  rewrite !firstn_app. rewrite !(firstn_all2 a) by lia. replace (sm_size s - length a) with 1 by lia. auto.
Qed.

Lemma good_add : forall s seen x, good s seen -> exists s', smooth_add s x = Ok s' /\ good s' (seen ++ [x]).
Proof.
  intros s seen x G. pose proof (live_len s seen G) as LL. destruct G as [g1 g2 g3 g4 g5 g6 g7 g8 g9 g10]. unfold smooth_add.
  assert (Lst : forall l : list bytes, hd_error (rev (l ++ [x])) = Some x) by (intros l; rewrite rev_app_distr; reflexivity).
  destruct (N.eqb_spec (sm_pos s) 0) as [P0|P0].
  - rewrite g2. destruct (Nat.leb_spec (sz * 2 - 2) (sm_size s)) as [Full|Room].
    + set (s1 := mksm (sm_small s) (sz * 2 - 2) (sm_data s) (sm_jump s * 2) (sm_pos s) (sm_size s)).
      destruct (collapse_ok s1) as (d & E & Ld & C & F & La); try (cbn; lia). rewrite E. cbn [rbind].
      cbn [sm_large s1 sm_jump sm_pos sm_data sm_size sm_small] in *. change (live s1) with (live s) in *.
      destruct (push_live (mksm sz (sz * 2 - 2) d (sm_jump s * 2) (sm_pos s) sz) x) as (d2 & E2 & Ld2 & F2); [cbn; lia|].
      cbn [sm_data sm_size] in E2, Ld2, F2. rewrite E2. cbn [rbind]. eexists. split; [reflexivity|].
      change (live (mksm sz (sz * 2 - 2) d (sm_jump s * 2) (sm_pos s) sz)) with (firstn sz d) in F2.
      assert (FL : length (firstn sz d) = sz) by (rewrite firstn_length; lia).
      split; cbn [sm_small sm_large sm_data sm_size sm_jump sm_pos]; try lia; unfold live; cbn [sm_data sm_size]; rewrite F2.
      * apply chosen_app; [|apply chosen_refl]. eapply chosen_trans; [exact g8|exact C].
      * destruct (firstn sz d) as [|a r] eqn:Ed; [cbn in FL; lia|]. rewrite g9 in F. destruct seen; [discriminate|]. exact F.
      * rewrite !Lst. reflexivity.
    + cbn [rbind]. destruct (push_live s x) as (d & E & Ld & F); [lia|]. rewrite E. cbn [rbind]. eexists. split; [reflexivity|].
      split; cbn [sm_small sm_large sm_data sm_size sm_jump sm_pos]; try lia; change (live (mksm (sm_small s) (sm_large s) d (sm_jump s) (if (1 <? sm_jump s)%N then (sm_pos s + 1)%N else sm_pos s) (S (sm_size s)))) with (firstn (S (sm_size s)) d); rewrite F.
      * intros J. destruct (g6 J) as [J1 J2]. rewrite J. split; [exact J1|]. rewrite J2. reflexivity.
      * apply chosen_app; [auto|apply chosen_refl].
      * rewrite first_nth in *. destruct (live s) as [|a r] eqn:El; destruct seen as [|b t]; auto; discriminate.
      * rewrite !Lst. reflexivity.
  - assert (J : sm_jump s <> 1%N) by (intros J; destruct (g6 J); lia). specialize (g7 J).
    destruct (over_live s x) as (d & E & Ld & a & y & E1 & La & F); try lia. rewrite E. cbn [rbind]. cbv zeta. eexists. split; [reflexivity|].
    split; cbn [sm_small sm_large sm_data sm_size sm_jump sm_pos]; try lia; unfold live; cbn [sm_data sm_size]; try rewrite F.
    + apply chosen_app; [|apply chosen_refl]. rewrite E1 in g8. eapply chosen_trans; [exact g8|]. rewrite <- (app_nil_r a) at 1. apply chosen_app; [apply chosen_refl|apply chosen_nil].
    + rewrite E1 in g9. destruct a as [|b t]; [cbn [length] in La; lia|]. destruct seen; [discriminate|]. exact g9.
    + rewrite !Lst. reflexivity.
Qed.

Lemma good_adds : forall ls s seen, good s seen -> exists s', smooth_adds s ls = Ok s' /\ good s' (seen ++ ls).
Proof.
  induction ls as [|x ls IH]; intros s seen G; cbn [smooth_adds].
  - rewrite app_nil_r. eauto.
  - destruct (good_add s seen x G) as (s1 & E1 & G1). rewrite E1. cbn [rbind]. destruct (IH s1 _ G1) as (s2 & E2 & G2).
    rewrite <- app_assoc in G2. eauto.
Qed.

Lemma sampled_ok : forall ls, exists out, sampled sz ls = Ok out /\ sample_of sz ls out.
Proof.
  intros ls. unfold sampled. destruct (good_adds ls _ _ good_new) as (s & E & G). cbn [app] in G. rewrite E. cbn [rbind].
  unfold smooth_final. pose proof (live_len s ls G) as LL. destruct G as [g1 g2 g3 g4 g5 g6 g7 g8 g9 g10].
  pose proof (chosen_length _ _ _ g8) as CL.
  destruct (Nat.le_gt_cases (sm_size s) sz) as [Few|Many].
  - unfold collapse. rewrite g1. rewrite (proj2 (Nat.leb_le _ _) Few). cbn [rbind].
    destruct (Nat.leb_spec (sm_size s) (length (sm_data s))); [|lia]. eexists. split; [reflexivity|]. fold (live s).
    assert (J : sm_jump s = 1%N) by (destruct (N.eq_dec (sm_jump s) 1) as [|J]; auto; specialize (g7 J); lia).
    destruct (g6 J) as [_ L]. rewrite L in *. split; [lia|]. auto using chosen_refl.
  - destruct (collapse_ok s g1 Many) as (d & E2 & Ld & C & F & La); try lia. rewrite E2. cbn [rbind sm_size sm_data].
    destruct (Nat.leb_spec sz (length d)); [|lia]. eexists. split; [reflexivity|]. split; [rewrite firstn_length; lia|].
    split; [eapply chosen_trans; eauto|]. split; congruence.
Qed.
End Adds.

(** Samples of at most two lines. *)
Lemma sampled_two : forall sz ls, sz <= 2 -> sampled sz ls = if length ls <=? 2 then Ok ls else Panic.
Proof.
  intros sz ls H. unfold sampled, smooth_new. replace (Nat.max sz 2) with 2 by lia.
  destruct ls as [|a [|b [|c r]]]; reflexivity.
Qed.
