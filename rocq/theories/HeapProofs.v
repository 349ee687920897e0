(** The binary heap is a priority queue. *)
From Coq Require Import List NArith Bool Arith Lia Sorting.Permutation ZifyBool.
Import ListNotations.
From Verif Require Import Base CompSpec ReadModel SortSpec SortModel SortProofs.

Definition par (i : nat) : nat := (i - 1) / 2.
Lemma par_lt : forall i, 0 < i -> par i < i.
Proof. intros i H. unfold par. pose proof (Nat.div_mod (i - 1) 2 ltac:(lia)). lia. Qed.
Lemma par_child : forall i p, 0 < i -> par i = p <-> i = 2 * p + 1 \/ i = 2 * p + 2.
Proof.
  intros i p H. unfold par. pose proof (Nat.div_mod (i - 1) 2 ltac:(lia)). pose proof (Nat.mod_upper_bound (i - 1) 2 ltac:(lia)). lia.
Qed.

Lemma nthset_same : forall (l : list nat) i v, i < length l -> nth i (list_set l i v) 0 = v.
Proof. induction l as [|r l IH]; intros i v H; [cbn in H; lia|]. destruct i; cbn; auto. apply IH. cbn in H. lia. Qed.
Lemma nthset_other : forall (l : list nat) i j v, i <> j -> nth j (list_set l i v) 0 = nth j l 0.
Proof. induction l as [|r l IH]; intros i j v H; auto. destruct i, j; cbn; auto; try congruence. Qed.

Definition swap (h : list nat) (i j : nat) : list nat := list_set (list_set h i (nth j h 0)) j (nth i h 0).
Lemma swap_length : forall h i j, length (swap h i j) = length h.
Proof. intros. unfold swap. rewrite !list_set_length. auto. Qed.
Lemma swap_l : forall h i j, i < length h -> j < length h -> i <> j -> nth i (swap h i j) 0 = nth j h 0.
Proof. intros. unfold swap. rewrite nthset_other by auto. apply nthset_same. auto. Qed.
Lemma swap_r : forall h i j, i < length h -> j < length h -> nth j (swap h i j) 0 = nth i h 0.
Proof. intros. unfold swap. apply nthset_same. rewrite list_set_length. auto. Qed.
Lemma swap_o : forall h i j k, k <> i -> k <> j -> nth k (swap h i j) 0 = nth k h 0.
Proof. intros. unfold swap. rewrite !nthset_other; auto. Qed.

Lemma set_perm : forall (l : list nat) i v, i < length l -> Permutation (nth i l 0 :: list_set l i v) (v :: l).
Proof.
  induction l as [|x l IH]; intros i v H; [cbn in H; lia|]. destruct i; cbn [list_set nth].
  - apply perm_swap.
  - rewrite perm_swap. rewrite (IH i v) by (cbn in H; lia). apply perm_swap.
Qed.
Lemma swap_perm : forall h i j, i < length h -> j < length h -> i <> j -> Permutation (swap h i j) h.
Proof.
  intros h i j Hi Hj N. unfold swap.
  apply (Permutation_cons_inv (a := nth j h 0)).
  pose proof (set_perm (list_set h i (nth j h 0)) j (nth i h 0)) as P1. rewrite list_set_length in P1. specialize (P1 Hj).
  rewrite (nthset_other h i j) in P1 by auto. rewrite P1. apply set_perm. auto.
Qed.

Section H.
Variable c : nat -> nat -> comparison.
Variable P : nat -> Prop.
Hypothesis HP : total_preorder_on P c.
Notation ge a b := (c a b <> Lt).

Lemma ge_total : forall a b, P a -> P b -> c a b = Lt -> ge b a.
Proof. intros a b Pa Pb H. destruct HP as (_ & S & _). rewrite (S a b Pa Pb), H. cbn. congruence. Qed.
Lemma ge_trans : forall a b d, P a -> P b -> P d -> ge a b -> ge b d -> ge a d.
Proof.
  intros a b d Pa Pb Pd H1 H2. destruct HP as (_ & S & T).
  assert (K : c d a <> Gt).
  { apply (T d b a); auto; [rewrite (S b d) by auto; destruct (c b d) eqn:?; cbn; congruence|rewrite (S a b) by auto; destruct (c a b) eqn:?; cbn; congruence]. }
  rewrite (S d a) by auto. destruct (c d a) eqn:?; cbn; congruence.
Qed.
Lemma ge_gt : forall a b, P a -> P b -> is_gt (c a b) = true -> ge a b.
Proof. intros a b _ _ H. destruct (c a b); cbn in H; congruence. Qed.
Lemma ge_ngt : forall a b, P a -> P b -> is_gt (c a b) = false -> ge b a.
Proof. intros a b Pa Pb H. destruct HP as (_ & S & _). rewrite (S a b Pa Pb). destruct (c a b); cbn in *; congruence. Qed.

Definition heap (h : list nat) : Prop := forall i, 0 < i < length h -> ge (nth (par i) h 0) (nth i h 0).
Definition all (h : list nat) : Prop := forall i, i < length h -> P (nth i h 0).
(** A heap except between [pos] and its parent. *)
Definition up_ok (h : list nat) (pos : nat) : Prop :=
  (forall i, 0 < i < length h -> i <> pos -> ge (nth (par i) h 0) (nth i h 0)) /\
  (forall i, 0 < i < length h -> par i = pos -> 0 < pos -> ge (nth (par pos) h 0) (nth i h 0)).
(** A heap except between [pos] and its parent and children. *)
Definition down_ok (h : list nat) (pos : nat) : Prop :=
  (forall i, 0 < i < length h -> i <> pos -> par i <> pos -> ge (nth (par i) h 0) (nth i h 0)) /\
  (forall i, 0 < i < length h -> par i = pos -> 0 < pos -> ge (nth (par pos) h 0) (nth i h 0)).

Lemma all_swap : forall h i j, all h -> i < length h -> j < length h -> i <> j -> all (swap h i j).
Proof.
  intros h i j A Hi Hj N k Hk. rewrite swap_length in Hk. destruct (Nat.eq_dec k i) as [->|]; [rewrite swap_l; auto|].
  destruct (Nat.eq_dec k j) as [->|]; [rewrite swap_r; auto|]. rewrite swap_o; auto.
Qed.

Lemma sift_up_ok : forall fuel h pos, all h -> pos < length h -> pos < fuel -> up_ok h pos ->
  heap (sift_up c fuel h pos) /\ Permutation (sift_up c fuel h pos) h.
Proof.
  induction fuel as [|f IH]; intros h pos A Hp HF [U1 U2]; [lia|]. cbn [sift_up].
  destruct (Nat.eqb_spec pos 0) as [->|N].
  - split; auto. intros i Hi. apply U1; auto. lia.
  - fold (par pos). pose proof (par_lt pos ltac:(lia)) as PL.
    destruct (is_gt (c (nth pos h 0) (nth (par pos) h 0))) eqn:G.
    + change (list_set (list_set h pos (nth (par pos) h 0)) (par pos) (nth pos h 0)) with (swap h pos (par pos)).
      assert (Hq : par pos < length h) by lia.
      destruct (IH (swap h pos (par pos)) (par pos)) as [I1 I2].
      * apply all_swap; auto. lia.
      * rewrite swap_length. auto.
      * lia.
      * assert (Gge : ge (nth pos h 0) (nth (par pos) h 0)) by (apply ge_gt; auto).
        split; rewrite swap_length.
        -- intros i Hi Ni. destruct (Nat.eq_dec i pos) as [->|Nip].
           ++ rewrite swap_r, swap_l by (auto; lia). auto.
           ++ rewrite (swap_o h pos (par pos) i) by auto.
              destruct (Nat.eq_dec (par i) pos) as [E|Np1]; [rewrite E, swap_l by (auto; lia); apply U2; auto; lia|].
              destruct (Nat.eq_dec (par i) (par pos)) as [E|Np2].
              { rewrite E, swap_r by (auto; lia). apply (ge_trans _ (nth (par pos) h 0)); auto; [apply A; lia|]. rewrite <- E. apply U1; auto. }
              rewrite swap_o by auto. apply U1; auto.
        -- intros i Hi Ei Pq. pose proof (par_lt (par pos) Pq) as PL2. rewrite (swap_o h pos (par pos) (par (par pos))) by lia.
           destruct (Nat.eq_dec i pos) as [->|Nip].
           ++ rewrite swap_l by (auto; lia). apply U1; auto; lia.
           ++ pose proof (par_lt i ltac:(lia)). rewrite swap_o by lia. apply (ge_trans _ (nth (par pos) h 0)); auto; try (apply A; lia).
              { apply U1; auto; lia. } rewrite <- Ei. apply U1; auto.
      * split; auto. rewrite I2. apply swap_perm; auto. lia.
    + split; auto. intros i Hi. destruct (Nat.eq_dec i pos) as [->|]; [|apply U1; auto].
      apply ge_ngt; auto. apply A. lia.
Qed.

Lemma heap_push : forall x h, all (h ++ [x]) -> heap h -> heap (bh_push c x h) /\ Permutation (bh_push c x h) (x :: h).
Proof.
  intros x h A H. unfold bh_push. destruct (sift_up_ok (S (length h)) (h ++ [x]) (length h)) as [I1 I2]; auto.
  - rewrite app_length. cbn. lia.
  - split.
    + intros i Hi N. rewrite app_length in Hi. cbn in Hi. pose proof (par_lt i ltac:(lia)). rewrite !app_nth1 by lia. apply H. lia.
    + intros i Hi E Pp. rewrite app_length in Hi. cbn in Hi. pose proof (par_lt i ltac:(lia)). lia.
  - split; auto. rewrite I2. symmetry. apply Permutation_cons_append.
Qed.

Lemma sift_down_ok : forall fuel h pos h2 pos2, sift_down c fuel h pos = (h2, pos2) -> all h -> pos < length h -> length h <= fuel + pos ->
  down_ok h pos -> all h2 /\ length h2 = length h /\ Permutation h2 h /\ pos2 < length h2 /\ up_ok h2 pos2.
Proof.
  induction fuel as [|f IH]; intros h pos h2 pos2 E A Hp HF [D1 D2]; [lia|]. cbn [sift_down] in E.
  assert (STEP : forall child, par child = pos -> 0 < child < length h ->
     (forall i, 0 < i < length h -> par i = pos -> ge (nth child h 0) (nth i h 0)) ->
     all (swap h pos child) /\ down_ok (swap h pos child) child /\ Permutation (swap h pos child) h /\
     (forall i, 0 < i < length h -> i <> child -> par i <> child -> ge (nth (par i) (swap h pos child) 0) (nth i (swap h pos child) 0))).
  { intros ch Ech Hch Best. pose proof (par_lt ch ltac:(lia)) as PL. rewrite Ech in PL.
    assert (K1 : forall i, 0 < i < length h -> i <> ch -> par i <> ch -> ge (nth (par i) (swap h pos ch) 0) (nth i (swap h pos ch) 0)).
    { intros i Hi N1 N2. destruct (Nat.eq_dec i pos) as [->|N3].
      - rewrite swap_l by (auto; lia). pose proof (par_lt pos ltac:(lia)). rewrite swap_o by lia. apply D2; auto; lia.
      - rewrite (swap_o h pos ch i) by auto. destruct (Nat.eq_dec (par i) pos) as [E1|N4].
        + rewrite E1, swap_l by (auto; lia). apply Best; auto.
        + rewrite swap_o by auto. apply D1; auto. }
    split; [apply all_swap; auto; lia|]. split; [|split; [apply swap_perm; auto; lia|auto]].
    split; rewrite swap_length; auto.
    intros i Hi Ei _. rewrite Ech, swap_l by (auto; lia). pose proof (par_lt i ltac:(lia)). rewrite swap_o by lia.
    rewrite <- Ei. apply D1; auto; lia. }
  destruct (Nat.ltb_spec (2 * pos + 1 + 1) (length h)) as [L2|L2].
  - set (ch := if is_gt (c (nth (2 * pos + 1) h 0) (nth (2 * pos + 1 + 1) h 0)) then 2 * pos + 1 else 2 * pos + 1 + 1) in *.
    fold (swap h pos ch) in E.
    assert (Ech : ch = 2 * pos + 1 \/ ch = 2 * pos + 2) by (unfold ch; destruct (is_gt _); lia).
    assert (Pch : par ch = pos) by (apply par_child; lia).
    destruct (STEP ch) as (S1 & S2 & S3 & S4); auto; [lia| |].
    { intros i Hi Ei. apply par_child in Ei; [|lia]. destruct HP as (R & _). unfold ch.
      assert (P1 : P (nth (2 * pos + 1) h 0)) by (apply A; lia). assert (P2 : P (nth (2 * pos + 1 + 1) h 0)) by (apply A; lia).
      replace (2 * pos + 2) with (2 * pos + 1 + 1) in Ei by lia.
      destruct (is_gt _) eqn:G; destruct Ei as [-> | ->]; try (rewrite R by auto; congruence).
      - apply ge_gt; auto.
      - apply ge_ngt; auto. }
    destruct (IH _ _ _ _ E) as (I1 & I2 & I3 & I4 & I5); auto; try (rewrite swap_length; lia).
    rewrite swap_length in I2. split; auto. split; auto. split; [rewrite I3; auto|]. auto.
  - destruct (Nat.ltb_spec (2 * pos + 1) (length h)) as [L1|L1].
    + fold (swap h pos (2 * pos + 1)) in E. injection E as <- <-.
      assert (Pch : par (2 * pos + 1) = pos) by (apply par_child; lia).
      destruct (STEP (2 * pos + 1)) as (S1 & S2 & S3 & S4); auto; [lia| |].
      { intros i Hi Ei. apply par_child in Ei; [|lia]. destruct HP as (R & _). destruct Ei as [->| ->]; [|lia]. rewrite R by (apply A; lia). congruence. }
      split; auto. split; [apply swap_length|]. split; auto. split; [rewrite swap_length; lia|].
      split; rewrite swap_length.
      * intros i Hi N. apply S4; auto. intros Ei. apply par_child in Ei; lia.
      * intros i Hi Ei _. apply par_child in Ei; lia.
    + injection E as <- <-. split; auto. split; auto. split; auto. split; auto. split.
      * intros i Hi N. apply D1; auto. intros Ei. apply par_child in Ei; lia.
      * intros i Hi Ei _. apply par_child in Ei; lia.
Qed.

Lemma heap_top : forall h, all h -> heap h -> forall i, i < length h -> ge (nth 0 h 0) (nth i h 0).
Proof.
  intros h A H i. induction i as [i IH] using lt_wf_ind. intros Hi. destruct i as [|i].
  - destruct HP as (R & _). rewrite R by (apply A; auto). congruence.
  - pose proof (par_lt (S i) ltac:(lia)) as PL. apply (ge_trans _ (nth (par (S i)) h 0)); try (apply A; lia); [apply IH; lia|apply H; lia].
Qed.

Lemma heap_pop : forall h, h <> [] -> all h -> heap h ->
  exists x h', bh_pop c h = Some (x, h') /\ Permutation h (x :: h') /\ heap h' /\ forall y, In y h -> ge x y.
Proof.
  intros h N A H. destruct h as [|x r]; [congruence|].
  assert (TOP : forall y, In y (x :: r) -> ge x y).
  { intros y Hy. apply In_nth with (d := 0) in Hy as (i & Hi & <-). apply (heap_top (x :: r)); auto. }
  destruct r as [|r0 r'] using rev_ind.
  - exists x, []. split; auto. split; auto. split; [intros i Hi; cbn in Hi; lia|auto].
  - clear IHr'. unfold bh_pop.
    assert (RL : removelast (x :: r' ++ [r0]) = x :: r') by (rewrite app_comm_cons; apply removelast_last).
    assert (RV : rev (x :: r' ++ [r0]) = r0 :: rev (x :: r')) by (rewrite app_comm_cons, rev_app_distr; auto).
    rewrite RL, RV.
    destruct (sift_down c (length (x :: r' ++ [r0])) (r0 :: r') 0) as [h2 pos] eqn:E.
    assert (NTH : forall i, 0 < i < length (r0 :: r') -> nth i (r0 :: r') 0 = nth i (x :: r' ++ [r0]) 0).
    { intros i Hi. destruct i; [lia|]. cbn [nth]. rewrite app_nth1; auto. cbn in Hi. lia. }
    assert (LEN : length (x :: r' ++ [r0]) = S (length (r0 :: r'))) by (cbn; rewrite app_length; cbn; lia).
    destruct (sift_down_ok _ _ _ _ _ E) as (I1 & I2 & I3 & I4 & I5).
    { intros i Hi. destruct i.
      - cbn. assert (K : r0 = nth (S (length r')) (x :: r' ++ [r0]) 0) by (cbn [nth]; rewrite nth_middle; auto).
        rewrite K. apply A. rewrite LEN. cbn. lia.
      - rewrite NTH by lia. apply A. lia. }
    { cbn. lia. } { cbn [length app]. rewrite app_length. cbn. lia. }
    { split.
      - intros i Hi _ N2. pose proof (par_lt i ltac:(lia)). rewrite !NTH by lia. apply H. lia.
      - intros. lia. }
    destruct (sift_up_ok (S pos) h2 pos) as [U1 U2]; auto.
    exists x, (sift_up c (S pos) h2 pos). split; auto. split; [|split; auto].
    rewrite U2, I3. cbn [app]. apply perm_skip. symmetry. apply Permutation_cons_append.
Qed.
End H.

Theorem bh_good : good_queue bh_push bh_pop heap.
Proof.
  split; [|split; [|split; [|split]]].
  - intros c i Hi. cbn in Hi. lia.
  - intros c x h T H. eapply heap_push; eauto. intros i Hi. pose proof (nth_In (h ++ [x]) 0 Hi) as K.
    apply in_app_iff in K as [K|[K|[]]]; [right; auto|left; auto].
  - auto.
  - intros c h N T H. destruct (heap_pop c (fun i => In i h) T h N) as (x & h' & K1 & K2 & K3 & K4); auto.
    { intros i Hi. apply nth_In. auto. } exists x, h'. auto.
  - intros c c' h E H i Hi. rewrite <- E; [apply H; auto| |]; apply nth_In; [pose proof (par_lt i)|]; lia.
Qed.
