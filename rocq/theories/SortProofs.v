(** Proofs about in-memory sorting. *)
From Coq Require Import List NArith Bool Arith Lia Sorting.Permutation Sorting.Sorted.
Import ListNotations.
From Verif Require Import Base CompSpec OrdProofs ReadModel SortSpec SortModel.

Lemma subseq_refl : forall {A} (l : list A), subseq l l.
Proof. induction l; [apply sub_nil|apply sub_take; auto]. Qed.
Lemma subseq_nil : forall {A} (l : list A), subseq [] l.
Proof. induction l; [apply sub_nil|apply sub_skip; auto]. Qed.

Lemma skipn_skipn : forall {A} n m (l : list A), skipn n (skipn m l) = skipn (n + m) l.
Proof.
  intros A n m. revert n. induction m as [|m IH]; intros n l; [rewrite Nat.add_0_r; auto|].
  destruct l as [|x l]; [rewrite !skipn_nil; auto|]. rewrite Nat.add_succ_r. cbn. apply IH.
Qed.

Section P.
Context {A : Type}.
Variable cmp : A -> A -> comparison.
Hypothesis Hpre : total_preorder cmp.

Lemma c_refl : forall x, cmp x x = Eq. Proof. apply Hpre. Qed.
Lemma c_sym : forall x y, cmp y x = CompOpp (cmp x y). Proof. apply Hpre. Qed.
Lemma c_trans : forall x y z, cmp x y <> Gt -> cmp y z <> Gt -> cmp x z <> Gt. Proof. apply Hpre. Qed.
Lemma c_eq_sym : forall x y, cmp x y = Eq -> cmp y x = Eq. Proof. intros x y H. rewrite c_sym, H. auto. Qed.
Lemma c_gt : forall x y, cmp x y = Gt -> cmp y x = Lt. Proof. intros x y H. rewrite c_sym, H. auto. Qed.
Lemma c_ngt : forall x y, cmp x y = Gt -> cmp y x <> Gt. Proof. intros x y H. rewrite c_sym, H. cbn. congruence. Qed.
Lemma same_iff : forall x y, same cmp x y = true <-> cmp x y = Eq.
Proof. intros. unfold same. destruct (cmp x y); split; congruence. Qed.
Lemma same_false : forall x y, same cmp x y = false <-> cmp x y <> Eq.
Proof. intros. unfold same. destruct (cmp x y); split; congruence. Qed.
Lemma is_gt_iff : forall c, is_gt c = true <-> c = Gt.
Proof. destruct c; cbn; split; congruence. Qed.
Lemma is_gt_false : forall c, is_gt c = false <-> c <> Gt.
Proof. destruct c; cbn; split; congruence. Qed.

Lemma ss_app : forall (R : A -> A -> Prop) l r, StronglySorted R l -> StronglySorted R r ->
  (forall x y, In x l -> In y r -> R x y) -> StronglySorted R (l ++ r).
Proof.
  intros R l r Hl Hr H. induction Hl; cbn; auto. constructor.
  - apply IHHl. intros. apply H; cbn; auto.
  - apply Forall_app. split; auto. apply Forall_forall. intros y Hy. apply H; cbn; auto.
Qed.

(** The stable sort of a list is unique. *)
Lemma stable_unique : forall inp o1 o2, stable_sort_of cmp inp o1 -> stable_sort_of cmp inp o2 -> o1 = o2.
Proof.
  intros inp o1 o2 (P1 & S1 & T1) (P2 & S2 & T2).
  assert (P : Permutation o1 o2) by (rewrite <- P1; auto).
  assert (T : forall x, filter (same cmp x) o1 = filter (same cmp x) o2) by (intros; rewrite T1, T2; auto).
  clear P1 T1 P2 T2. revert o2 S2 P T. induction S1 as [|x l1 S1 IH F1]; intros o2 S2 P T.
  - apply Permutation_nil in P. auto.
  - destruct o2 as [|y l2]; [symmetry in P; apply Permutation_nil in P; discriminate|].
    apply StronglySorted_inv in S2 as [S2 F2]. rewrite Forall_forall in F1, F2.
    assert (Hxy : cmp x y <> Gt).
    { assert (I : In y (x :: l1)) by (rewrite P; cbn; auto). destruct I as [->|I]; [rewrite c_refl; congruence|auto]. }
    assert (Hyx : cmp y x <> Gt).
    { assert (I : In x (y :: l2)) by (rewrite <- P; cbn; auto). destruct I as [->|I]; [rewrite c_refl; congruence|auto]. }
    assert (E : cmp x y = Eq). { rewrite c_sym in Hyx. destruct (cmp x y); cbn in *; congruence. }
    pose proof (T x) as Tx. cbn [filter] in Tx. rewrite (proj2 (same_iff x x) (c_refl x)), (proj2 (same_iff x y) E) in Tx.
    injection Tx as <- _. f_equal. apply IH; auto.
    + apply Permutation_cons_inv in P. auto.
    + intros z. pose proof (T z) as Tz. cbn [filter] in Tz. destruct (same cmp z x); [injection Tz; auto|auto].
Qed.

(** Left-biased merging. *)
Fixpoint mrg (l : list A) : list A -> list A :=
  fix go (r : list A) : list A :=
    match l, r with
    | [], _ => r
    | _, [] => l
    | x :: l', y :: r' => if is_gt (cmp x y) then y :: go r' else x :: mrg l' r
    end.
Lemma mrg_nil_l : forall r, mrg [] r = r. Proof. destruct r; auto. Qed.
Lemma mrg_nil_r : forall l, mrg l [] = l. Proof. destruct l; auto. Qed.
Lemma mrg_cons : forall x l y r, mrg (x :: l) (y :: r) = if is_gt (cmp x y) then y :: mrg (x :: l) r else x :: mrg l (y :: r).
Proof. reflexivity. Qed.
Lemma mrg_perm : forall l r, Permutation (l ++ r) (mrg l r).
Proof.
  induction l as [|x l IH]; intros r; [rewrite mrg_nil_l; auto|]. induction r as [|y r IHr]; [rewrite mrg_nil_r, app_nil_r; auto|].
  rewrite mrg_cons. destruct (is_gt (cmp x y)).
  - rewrite <- Permutation_middle. constructor. apply IHr.
  - cbn. constructor. apply IH.
Qed.
Lemma mrg_length : forall l r, length (mrg l r) = length l + length r.
Proof. intros. rewrite <- (Permutation_length (mrg_perm l r)), app_length. auto. Qed.
Lemma mrg_sorted : forall l r, sorted cmp l -> sorted cmp r -> sorted cmp (mrg l r).
Proof.
  induction l as [|x l IH]; intros r Hl Hr; [rewrite mrg_nil_l; auto|].
  induction r as [|y r IHr]; [rewrite mrg_nil_r; auto|]. rewrite mrg_cons.
  apply StronglySorted_inv in Hl as [Hl Fl]. apply StronglySorted_inv in Hr as [Hr Fr].
  destruct (is_gt (cmp x y)) eqn:E.
  - apply is_gt_iff in E. constructor; [apply IHr; auto|]. apply Forall_forall. intros z Hz.
    eapply Permutation_in in Hz; [|symmetry; apply mrg_perm]. rewrite Forall_forall in Fl, Fr.
    apply in_app_or in Hz as [[->|Hz]|Hz]; auto using c_ngt. eapply c_trans; [apply c_ngt; eauto|auto].
  - apply is_gt_false in E. constructor; [apply IH; auto; constructor; auto|]. apply Forall_forall. intros z Hz.
    eapply Permutation_in in Hz; [|symmetry; apply mrg_perm]. rewrite Forall_forall in Fl, Fr.
    apply in_app_or in Hz as [Hz|[->|Hz]]; auto. eapply c_trans; eauto.
Qed.
Lemma mrg_ties : forall l r, sorted cmp l -> sorted cmp r -> keeps_ties cmp (l ++ r) (mrg l r).
Proof.
  intros l r Hl Hr z. rewrite filter_app. revert r Hr. induction l as [|x l IH]; intros r Hr; [rewrite mrg_nil_l; auto|].
  induction r as [|y r IHr]; [rewrite mrg_nil_r, app_nil_r; auto|]. rewrite mrg_cons.
  pose proof Hl as Hl0. pose proof Hr as Hr0.
  apply StronglySorted_inv in Hl as [Hl Fl]. apply StronglySorted_inv in Hr as [Hr Fr].
  destruct (is_gt (cmp x y)) eqn:E.
  - apply is_gt_iff in E. cbn [filter]. rewrite IHr by auto. cbn [filter].
    destruct (same cmp z y) eqn:Ey; auto. apply same_iff in Ey.
    (* nothing in x :: l is equal to z *)
    assert (N : filter (same cmp z) (x :: l) = []).
    { cbn. rewrite Forall_forall in Fl.
      assert (K : forall w, cmp x w <> Gt -> same cmp z w = false).
      { intros w Hw. apply same_false. intros Ew.
        assert (cmp y w = Lt) by (eapply preorder_lt_trans; eauto; apply c_gt; auto).
        assert (cmp y w = Eq) by (eapply preorder_eq_trans; eauto; apply c_eq_sym; auto). congruence. }
      rewrite (K x) by (rewrite c_refl; congruence). clear - K Fl. induction l as [|w l IH]; auto. cbn.
      rewrite (K w) by (apply Fl; cbn; auto). apply IH. intros; apply Fl; cbn; auto. }
    cbn [filter] in N. destruct (same cmp z x); [discriminate|]. rewrite N. auto.
  - cbn [filter]. rewrite IH by auto. cbn [filter]. destruct (same cmp z x); auto.
Qed.
Lemma sorted_stable_merge : forall l r l' r', stable_sort_of cmp l l' -> stable_sort_of cmp r r' ->
  stable_sort_of cmp (l ++ r) (mrg l' r').
Proof.
  intros l r l' r' (P1 & S1 & T1) (P2 & S2 & T2). split; [|split].
  - rewrite P1, P2. apply mrg_perm.
  - apply mrg_sorted; auto.
  - intros z. rewrite mrg_ties by auto. rewrite !filter_app, T1, T2. auto.
Qed.

(** The standard sort. *)
Lemma insert_mrg : forall x l, std_insert cmp x l = mrg [x] l.
Proof. intros x l. induction l as [|y l IH]; auto. cbn [std_insert]. rewrite mrg_cons, mrg_nil_l, IH. auto. Qed.
Lemma single_stable : forall x, stable_sort_of cmp [x] [x].
Proof. intros. split; [auto|split; [repeat constructor|intros z; auto]]. Qed.
Lemma std_sort_stable : forall l, stable_sort_of cmp l (std_sort cmp l).
Proof.
  induction l as [|x l IH]; cbn.
  - split; [auto|split; [constructor|intros z; auto]].
  - rewrite insert_mrg. apply (sorted_stable_merge [x]); auto using single_stable.
Qed.

(** In-place merging: [dst] is what is done, a gap as long as [low], the high half, and the rest. *)
Lemma list_set_app : forall (a b : list A) x y, list_set (a ++ x :: b) (length a) y = a ++ y :: b.
Proof. induction a; intros; cbn; auto. rewrite IHa. auto. Qed.
Lemma list_set_length : forall {B} (l : list B) i x, length (list_set l i x) = length l.
Proof. induction l; destruct i; cbn; auto. Qed.
Lemma nth_error_gap : forall (done gap hi : list A) tail y, nth_error (done ++ gap ++ (y :: hi) ++ tail) (length done + length gap) = Some y.
Proof.
  intros. rewrite app_assoc, nth_error_app2 by (rewrite app_length; lia). rewrite app_length, Nat.sub_diag. auto.
Qed.

Lemma firstn_app_exact : forall (a b : list A) n, length a = n -> firstn n (a ++ b) = a.
Proof. intros a b n <-. rewrite firstn_app, Nat.sub_diag, firstn_all. cbn. apply app_nil_r. Qed.
Lemma skipn_app_exact : forall (a b : list A) n, length a = n -> skipn n (a ++ b) = b.
Proof. intros a b n <-. rewrite skipn_app, Nat.sub_diag, skipn_all. auto. Qed.

Lemma merge_lines_ok : forall fuel done low gap hi tail,
  low <> [] -> hi <> [] -> length gap = length low -> length low + length hi <= fuel ->
  merge_lines cmp fuel (done ++ gap ++ hi ++ tail) low (length done + length gap) (length done + length gap + length hi) (length done) =
  Ok (done ++ mrg low hi ++ tail).
Proof.
  induction fuel as [|f IH]; intros done low gap hi tail Hl Hh HG HF; [destruct low; [congruence|cbn in HF; lia]|].
  destruct low as [|x low]; [congruence|]. destruct hi as [|y hi]; [congruence|]. destruct gap as [|g gap]; [discriminate|].
  injection HG as HG. cbn [merge_lines]. rewrite nth_error_gap. rewrite mrg_cons. destruct (is_gt (cmp x y)) eqn:E.
  - cbn [app]. rewrite list_set_app. cbn [length] in *.
    destruct hi as [|y2 hi].
    + rewrite (proj2 (Nat.eqb_eq _ _)) by (cbn; lia). rewrite mrg_nil_r. f_equal.
      assert (E1 : done ++ y :: gap ++ y :: tail = (done ++ [y]) ++ (gap ++ [y]) ++ tail) by (rewrite <- !app_assoc; auto).
      assert (E2 : firstn (length done + 1) (done ++ y :: gap ++ y :: tail) = done ++ [y]).
      { rewrite E1. apply firstn_app_exact. rewrite app_length. auto. }
      assert (E3 : skipn (length done + 1 + S (length low)) (done ++ y :: gap ++ y :: tail) = tail).
      { rewrite E1, app_assoc. apply skipn_app_exact. rewrite !app_length. cbn. lia. }
      cbn [app]; rewrite E2, E3.
      rewrite <- !app_assoc. auto.
    + rewrite (proj2 (Nat.eqb_neq _ _)) by (cbn; lia).
      match goal with |- merge_lines _ _ ?d _ ?a ?b _ = _ =>
        replace d with ((done ++ [y]) ++ (gap ++ [y]) ++ (y2 :: hi) ++ tail) by (rewrite <- !app_assoc; auto);
        replace a with (length (done ++ [y]) + length (gap ++ [y])) by (rewrite !app_length; cbn; lia);
        replace b with (length (done ++ [y]) + length (gap ++ [y]) + length (y2 :: hi)) by (rewrite !app_length; cbn; lia)
      end.
      replace (length done + 1) with (length (done ++ [y])) by (rewrite app_length; auto).
      rewrite IH; try congruence; try (rewrite ?app_length; cbn in *; lia). rewrite <- !app_assoc. auto.
  - cbn [app]. rewrite list_set_app. destruct low as [|x2 low].
    + destruct gap; [|discriminate]. rewrite mrg_nil_l. auto.
    + match goal with |- merge_lines _ _ ?d _ ?a ?b _ = _ =>
        replace d with ((done ++ [x]) ++ gap ++ (y :: hi) ++ tail) by (rewrite <- !app_assoc; auto);
        replace a with (length (done ++ [x]) + length gap) by (rewrite !app_length; cbn; lia);
        replace b with (length (done ++ [x]) + length gap + length (y :: hi)) by (rewrite !app_length; cbn; lia)
      end.
      replace (length done + 1) with (length (done ++ [x])) by (rewrite app_length; auto).
      rewrite IH; try congruence; try (rewrite ?app_length; cbn in *; lia). rewrite <- !app_assoc. auto.
Qed.

(** The merge at the end of both functions. *)
Lemma merge_whole : forall low hi gap tail n, length gap = length low -> length low + length hi = n -> low <> [] -> hi <> [] ->
  merge_lines cmp n (gap ++ hi ++ tail) low (length low) n 0 = Ok (mrg low hi ++ tail).
Proof.
  intros low hi gap tail n H1 H2 H3 H4. pose proof (merge_lines_ok n [] low gap hi tail H3 H4 H1) as K. cbn [length app Nat.add] in K.
  rewrite H1, H2 in K. apply K. lia.
Qed.

Lemma merge_whole_at : forall low hi gap tail n k, length low = k -> length gap = k -> k + length hi = n -> low <> [] -> hi <> [] ->
  merge_lines cmp n (gap ++ hi ++ tail) low k n 0 = Ok (mrg low hi ++ tail).
Proof. intros low hi gap tail n k <- H1 H2 H3 H4. apply merge_whole; auto. Qed.

(** In place: the items become their stable sort; only the first half of temp is touched. Into temp: the
    first [n] entries of temp become the stable sort; the items keep their number. *)
Lemma std_split : forall a b, std_sort cmp (a ++ b) = mrg (std_sort cmp a) (std_sort cmp b).
Proof.
  intros a b. apply (stable_unique (a ++ b)); [apply std_sort_stable|]. apply sorted_stable_merge; apply std_sort_stable.
Qed.
Lemma std_length : forall l, length (std_sort cmp l) = length l.
Proof. intros. symmetry. apply Permutation_length. apply std_sort_stable. Qed.

Lemma std_pair : forall x y, std_sort cmp [x; y] = if is_gt (cmp x y) then [y; x] else [x; y].
Proof. intros. cbn. destruct (is_gt (cmp x y)); auto. Qed.

Lemma sort_lines_ok : forall fuel items temp, 2 <= length items -> length items <= fuel ->
  (length items / 2 <= length temp -> exists t', sort_lines cmp false fuel items temp = Ok (std_sort cmp items, t') /\
     length t' = length temp /\ skipn (length items / 2) t' = skipn (length items / 2) temp) /\
  (length items <= length temp -> exists i', sort_lines cmp true fuel items temp = Ok (i', std_sort cmp items ++ skipn (length items) temp) /\
     length i' = length items).
Proof.
  induction fuel as [|f IH]; intros items temp H2 HF; [lia|].
  destruct items as [|x [|y [|z rest]]]; [cbn in H2; lia|cbn in H2; lia| |].
  - split; intros HT.
    + exists temp. cbn [sort_lines]. rewrite std_pair. auto.
    + destruct temp as [|t1 [|t2 temp]]; [cbn in HT; lia|cbn in HT; lia|]. exists [x; y].
      cbn [sort_lines length]. rewrite std_pair. destruct (is_gt (cmp x y)); auto.
  - set (items := x :: y :: z :: rest) in *.
    assert (U : forall b, sort_lines cmp b (S f) items temp =
      let n := length items in let low := n / 2 in
      if b then
            if length temp <? n then Panic else
            rbind (sort_lines cmp true f (skipn low items) (firstn (n - low) (skipn low temp))) (fun '(hi, tmid) =>
            let items := firstn low items ++ hi in
            let temp := firstn low temp ++ tmid ++ skipn n temp in
            rbind (if 1 <? low
                   then rbind (sort_lines cmp false f (firstn low items) temp) (fun '(lo, temp) => Ok (lo ++ skipn low items, temp))
                   else Ok (items, temp)) (fun '(items, temp) =>
            rbind (merge_lines cmp n temp (firstn low items) low n 0) (fun temp => Ok (items, temp))))
      else
            rbind (sort_lines cmp false f (skipn low items) temp) (fun '(hi, temp) =>
            let items := firstn low items ++ hi in
            rbind (if Nat.eqb low 1
                   then match items, temp with
                        | x :: _, _ :: t => Ok (items, x :: t)
                        | _, _ => Panic
                        end
                   else rbind (sort_lines cmp true f (firstn low items) temp) (fun '(lo, temp) => Ok (lo ++ skipn low items, temp)))
              (fun '(items, temp) =>
            if length temp <? low then Panic else
            rbind (merge_lines cmp n items (firstn low temp) low n 0) (fun items => Ok (items, temp))))) by (intros [|]; reflexivity).
    rewrite !U. clear U. cbv zeta. set (n := length items) in *. set (low := n / 2).
    assert (Hn : 3 <= n) by (unfold n, items; cbn; lia).
    assert (Hlow : 1 <= low /\ low + 2 <= n /\ 2 * low <= n < 2 * low + 2).
    { unfold low. pose proof (Nat.div_mod n 2 ltac:(lia)). pose proof (Nat.mod_upper_bound n 2 ltac:(lia)). lia. }
    assert (Ls : length (skipn low items) = n - low) by (rewrite skipn_length; auto).
    assert (Lf : length (firstn low items) = low) by (rewrite firstn_length; fold n; lia).
    assert (Hd2 : (n - low) / 2 <= low) by (apply Nat.div_le_upper_bound; lia).
    assert (Hl2 : low / 2 <= low) by (apply Nat.div_le_upper_bound; lia).
    assert (Std : std_sort cmp items = mrg (std_sort cmp (firstn low items)) (std_sort cmp (skipn low items))).
    { rewrite <- std_split, firstn_skipn. auto. }
    destruct (IH (skipn low items) temp ltac:(lia) ltac:(lia)) as [IHhi _].
    split; intros HT.
    + rewrite Ls in IHhi. destruct IHhi as (t1 & -> & L1 & K1); [lia|]. cbn [rbind].
      destruct (Nat.eqb_spec low 1) as [E1|E1].
      * rewrite E1 in *. destruct items as [|i0 its] eqn:Ei; [cbn in n; lia|]. cbn [firstn app].
        destruct t1 as [|t0 t1]; [cbn in L1; lia|]. cbn [rbind length Nat.ltb Nat.leb firstn].
        cbn [skipn] in *. pose proof (merge_whole [i0] (std_sort cmp its) [i0] [] n eq_refl) as MW.
        rewrite app_nil_r in MW. cbn [app length] in MW. rewrite MW; try congruence.
        -- cbn [rbind]. rewrite Std. cbn [firstn]. rewrite app_nil_r. exists (i0 :: t1). repeat split; auto.
           assert (n = 3) by lia. assert (E3 : (n - 1) / 2 = 1) by (replace n with 3 by lia; auto). rewrite E3 in K1. apply K1.
        -- rewrite std_length. lia.
        -- intros E. apply (f_equal (@length A)) in E. rewrite std_length, ?Lf, ?Ls in E. cbn [length] in E. lia.
      * rewrite firstn_app_exact by auto.
        destruct (IH (firstn low items) t1 ltac:(lia) ltac:(lia)) as [_ IHlo]. rewrite Lf in IHlo.
        destruct IHlo as (i' & -> & Li'); [lia|]. cbn [rbind]. rewrite skipn_app_exact by auto.
        assert (LB : (length (std_sort cmp (firstn low items) ++ skipn low t1) <? low) = false).
        { apply Nat.ltb_ge. rewrite app_length, std_length. lia. }
        rewrite LB. rewrite firstn_app_exact by (rewrite std_length; auto).
        pose proof (merge_whole (std_sort cmp (firstn low items)) (std_sort cmp (skipn low items)) i' [] n) as MW.
        rewrite !std_length, Lf, Ls, !app_nil_r in MW. rewrite MW; try lia.
        -- cbn [rbind]. rewrite <- Std. exists (std_sort cmp (firstn low items) ++ skipn low t1). split; auto. split.
           ++ rewrite app_length, std_length, skipn_length. lia.
           ++ rewrite skipn_app_exact by (rewrite std_length; auto).
              assert (HH : forall k (a b : list A), k <= low -> skipn k a = skipn k b -> skipn low a = skipn low b).
              { intros k a b Hk E. replace low with ((low - k) + k) by lia. rewrite <- !skipn_skipn, E. auto. }
              apply (HH ((n - low) / 2)); auto.
        -- intros E. apply (f_equal (@length A)) in E. rewrite std_length, ?Lf, ?Ls in E. cbn [length] in E. lia.
        -- intros E. apply (f_equal (@length A)) in E. rewrite std_length, ?Lf, ?Ls in E. cbn [length] in E. lia.
    + assert (LB : (length temp <? n) = false) by (apply Nat.ltb_ge; lia). rewrite LB.
      destruct (IH (skipn low items) (firstn (n - low) (skipn low temp)) ltac:(lia) ltac:(lia)) as [_ IHh].
      assert (Lt1 : length (firstn (n - low) (skipn low temp)) = n - low) by (rewrite firstn_length, skipn_length; lia).
      rewrite Ls, Lt1 in IHh. destruct IHh as (hi & -> & Lhi); [lia|]. cbn [rbind].
      rewrite (skipn_all2 (n := n - low)) by lia. rewrite app_nil_r.
      set (temp2 := firstn low temp ++ std_sort cmp (skipn low items) ++ skipn n temp).
      assert (Lt2 : length temp2 = length temp).
      { unfold temp2. rewrite !app_length, firstn_length, std_length, !skipn_length. fold n. lia. }
      destruct (1 <? low) eqn:E1.
      * apply Nat.ltb_lt in E1. rewrite firstn_app_exact by auto.
        destruct (IH (firstn low items) temp2 ltac:(lia) ltac:(lia)) as [IHl _]. rewrite Lf in IHl.
        destruct IHl as (t3 & -> & L3 & K3); [lia|]. cbn [rbind]. rewrite skipn_app_exact by auto.
        rewrite firstn_app_exact by (rewrite std_length; auto).
        assert (E3 : t3 = firstn low t3 ++ std_sort cmp (skipn low items) ++ skipn n temp).
        { rewrite <- (firstn_skipn low t3) at 1. f_equal.
          replace low with ((low - low / 2) + low / 2) at 1 by lia. rewrite <- skipn_skipn, K3, skipn_skipn.
          replace (low - low / 2 + low / 2) with low by lia. unfold temp2.
          rewrite skipn_app_exact; auto. rewrite firstn_length. lia. }
        rewrite E3. assert (Lfl : length (std_sort cmp (firstn low items)) = low) by (rewrite std_length; auto).
        rewrite merge_whole_at; auto.
        -- cbn [rbind]. rewrite <- Std. eexists. split; [reflexivity|]. rewrite app_length, Lfl. lia.
        -- rewrite firstn_length. lia.
        -- rewrite !std_length. lia.
        -- intros E. apply (f_equal (@length A)) in E. rewrite Lfl in E. cbn [length] in E. lia.
        -- intros E. apply (f_equal (@length A)) in E. rewrite std_length, ?Lf, ?Ls in E. cbn [length] in E. lia.
      * apply Nat.ltb_ge in E1. assert (El : low = 1) by lia. cbn [rbind]. rewrite firstn_app_exact by auto.
        assert (Lfl : length (firstn low items) = low) by auto. unfold temp2.
        rewrite merge_whole_at; auto.
        -- cbn [rbind]. exists (firstn low items ++ hi). split; [|rewrite app_length; lia].
           rewrite Std. do 3 f_equal. rewrite El. destruct items as [|i0 its]; [cbn in n; lia|]. auto.
        -- rewrite firstn_length. lia.
        -- rewrite std_length. lia.
        -- intros E. apply (f_equal (@length A)) in E. rewrite Lfl in E. cbn [length] in E. lia.
        -- intros E. apply (f_equal (@length A)) in E. rewrite std_length, ?Lf, ?Ls in E. cbn [length] in E. lia.
Qed.

Theorem do_sort_lines_std : forall d l, do_sort_lines cmp d l = Ok (std_sort cmp l).
Proof.
  intros d l. unfold do_sort_lines. destruct (Nat.ltb_spec 1 (length l)).
  - destruct (sort_lines_ok (length l) l (repeat d (length l / 2 + 1)) ltac:(lia) ltac:(lia)) as [K _].
    destruct K as (t & -> & _); [rewrite repeat_length; lia|]. auto.
  - destruct l as [|x [|y l]]; cbn in *; auto. lia.
Qed.

(** Removing duplicates. *)
Variable eqv : A -> A -> bool.
Hypothesis Heqv : decides_eq cmp eqv.
Lemma eqv_same : forall x y, eqv x y = same cmp x y.
Proof. intros. destruct (same cmp x y) eqn:E; [apply Heqv, same_iff; auto|]. destruct (eqv x y) eqn:E2; auto. apply Heqv, same_iff in E2. congruence. Qed.
Lemma same_sym : forall x y, same cmp x y = same cmp y x.
Proof. intros. unfold same. rewrite (c_sym y x). destruct (cmp y x); auto. Qed.

Lemma dedup_from_spec : forall l p, sorted cmp (p :: l) ->
  StronglySorted (fun x y => cmp x y = Lt) (p :: dedup_from eqv p l) /\
  forall z, filter (same cmp z) (p :: dedup_from eqv p l) = firstn 1 (filter (same cmp z) (p :: l)).
Proof.
  induction l as [|x l IH]; intros p Hs.
  - cbn. split; [repeat constructor|]. intros z. destruct (same cmp z p); auto.
  - pose proof Hs as Hs0. apply StronglySorted_inv in Hs as [Hs Hp]. inversion Hp as [|? ? Hpx Hp']; subst.
    cbn [dedup_from]. rewrite eqv_same, same_sym. destruct (same cmp p x) eqn:E.
    + destruct (IH p) as [I1 I2].
      { apply StronglySorted_inv in Hs as [Hs _]. constructor; auto. }
      split; auto. intros z. rewrite I2. cbn [filter]. destruct (same cmp z p) eqn:Ez; auto.
      assert (same cmp z x = false).
      { apply same_false. intros Ex. apply same_false in Ez. apply Ez. apply same_iff in E.
        eapply preorder_eq_trans; eauto. apply c_eq_sym. auto. }
      rewrite H. auto.
    + destruct (IH x Hs) as [I1 I2]. apply same_false in E.
      assert (L : cmp p x = Lt) by (destruct (cmp p x); congruence).
      split.
      * constructor; auto. constructor; auto. apply StronglySorted_inv in I1 as [_ I1].
        eapply Forall_impl; [|apply I1]. intros w Hw. eapply preorder_lt_trans; eauto. congruence.
      * intros z. cbn [filter] in *. rewrite I2. destruct (same cmp z p) eqn:Ez; auto.
        assert (N : forall w, In w (x :: l) -> same cmp z w = false).
        { intros w Hw. apply same_false. intros Ew. apply same_iff in Ez.
          assert (cmp p w = Lt).
          { destruct Hw as [<-|Hw]; auto. apply StronglySorted_inv in Hs as [_ Hx]. rewrite Forall_forall in Hx.
            eapply preorder_lt_trans; eauto. }
          assert (cmp p w = Eq) by (eapply preorder_eq_trans; eauto; apply c_eq_sym; auto). congruence. }
        assert (F : filter (same cmp z) (x :: l) = []).
        { clear - N. induction (x :: l) as [|w t IH]; auto. cbn. rewrite N by (cbn; auto). apply IH. intros; apply N; cbn; auto. }
        cbn [filter] in F. rewrite F. auto.
Qed.
Lemma dedup_spec : forall l, sorted cmp l -> first_of_groups cmp l (dedup eqv l).
Proof.
  intros [|x l] H; [split; [constructor|intros; auto]|]. apply dedup_from_spec in H. auto.
Qed.
Lemma first_of_groups_ties : forall inp l out, keeps_ties cmp inp l -> first_of_groups cmp l out -> first_of_groups cmp inp out.
Proof. intros inp l out H [H1 H2]. split; auto. intros x. rewrite H2, H. auto. Qed.
Lemma do_sort_unique : forall l, first_of_groups cmp l (do_sort cmp eqv true l).
Proof.
  intros l. destruct (std_sort_stable l) as (_ & S & T). apply (first_of_groups_ties l (std_sort cmp l)); auto. apply dedup_spec; auto.
Qed.

(** The unique list with the first of every group. *)
Lemma groups_unique : forall inp o1 o2, first_of_groups cmp inp o1 -> first_of_groups cmp inp o2 -> o1 = o2.
Proof.
  intros inp o1 o2 [S1 F1] [S2 F2].
  assert (T : forall x, filter (same cmp x) o1 = filter (same cmp x) o2) by (intros; rewrite F1, F2; auto).
  clear F1 F2. revert o2 S2 T. induction S1 as [|x l1 S1 IH H1]; intros o2 S2 T.
  - destruct o2 as [|y l2]; auto. pose proof (T y) as K. cbn in K. rewrite (proj2 (same_iff y y) (c_refl y)) in K. discriminate.
  - destruct o2 as [|y l2]; [pose proof (T x) as K; cbn in K; rewrite (proj2 (same_iff x x) (c_refl x)) in K; discriminate|].
    apply StronglySorted_inv in S2 as [S2 H2]. rewrite Forall_forall in H1, H2.
    assert (E : cmp x y = Eq).
    { pose proof (T x) as Tx. cbn [filter] in Tx. rewrite (proj2 (same_iff x x) (c_refl x)) in Tx.
      destruct (same cmp x y) eqn:Exy; [apply same_iff; auto|].
      assert (Ix : In x l2). { assert (I : In x (filter (same cmp x) l2)) by (rewrite <- Tx; cbn; auto). apply filter_In in I. tauto. }
      pose proof (T y) as Ty. cbn [filter] in Ty. rewrite (proj2 (same_iff y y) (c_refl y)) in Ty. rewrite same_sym, Exy in Ty.
      assert (Iy : In y l1). { assert (I : In y (filter (same cmp y) l1)) by (rewrite Ty; cbn; auto). apply filter_In in I. tauto. }
      apply H1 in Iy. apply H2 in Ix. rewrite c_sym, Iy in Ix. cbn in Ix. congruence. }
    pose proof (T x) as Tx. cbn [filter] in Tx. rewrite (proj2 (same_iff x x) (c_refl x)), (proj2 (same_iff x y) E) in Tx.
    injection Tx as <- _. f_equal. apply IH; auto. intros z. pose proof (T z) as Tz. cbn [filter] in Tz.
    destruct (same cmp z x); [injection Tz; auto|auto].
Qed.
End P.
