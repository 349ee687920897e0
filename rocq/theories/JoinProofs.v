(** Proofs about the quick join. *)
From Coq Require Import List NArith ZArith Bool Arith Lia Sorting.Sorted.
From Verif Require Import Base FloatModel ReadModel CompModel CompSpec OrdProofs LineSpec LineProofs JoinModel JoinSpec.
Import ListNotations.
Close Scope Z_scope.

Section P.
Variables A B K : Type.
Variable ord : K -> K -> comparison.
Variables (ka : A -> K) (kb : B -> K).
Hypothesis P : total_preorder ord.
Let cmp (a : A) (b : B) := ord (ka a) (kb b).

Lemma ord_lt_le : forall x y z, ord x y = Lt -> ord y z <> Gt -> ord x z = Lt.
Proof.
  destruct P as (R & S & T). intros x y z L G. destruct (ord x z) eqn:E; auto.
  - exfalso. assert (ord z x <> Gt) by (rewrite (S x z), E; discriminate). assert (ord y x <> Gt) by (eapply T; eauto).
    rewrite (S x y), L in H0. auto.
  - exfalso. apply (T x y z); auto. rewrite L. discriminate.
Qed.
Lemma ord_le_lt : forall x y z, ord x y <> Gt -> ord y z = Lt -> ord x z = Lt.
Proof.
  destruct P as (R & S & T). intros x y z L G. destruct (ord x z) eqn:E; auto.
  - exfalso. assert (ord z x <> Gt) by (rewrite (S x z), E; discriminate). assert (ord z y <> Gt) by (eapply T; eauto).
    rewrite (S y z), G in H0. auto.
  - exfalso. apply (T x y z); auto. rewrite G. discriminate.
Qed.
Lemma ord_gt : forall x y, ord x y = Gt -> ord y x = Lt.
Proof. destruct P as (R & S & T). intros x y G. rewrite S, G. auto. Qed.
Lemma ord_eq : forall x y, ord x y = Eq -> ord y x = Eq.
Proof. destruct P as (R & S & T). intros x y G. rewrite S, G. auto. Qed.
Lemma ord_lt : forall x y, ord x y = Lt -> ord y x = Gt.
Proof. destruct P as (R & S & T). intros x y G. rewrite S, G. auto. Qed.

Notation part := (partners ord ka kb).
Lemma part_lt : forall a b, ord (ka a) (kb b) = Lt -> part a b = false.
Proof. intros a b H. unfold partners. rewrite H. auto. Qed.
Lemma part_gt : forall a b, ord (kb b) (ka a) = Lt -> part a b = false.
Proof. intros a b H. unfold partners. rewrite (ord_lt _ _ H). auto. Qed.

Lemma none_existsb : forall T (f : T -> bool) l, Forall (fun x => f x = false) l -> existsb f l = false.
Proof. induction 1; cbn; auto. rewrite H. auto. Qed.
Lemma none_find : forall T (f : T -> bool) l, Forall (fun x => f x = false) l -> find f l = None.
Proof. induction 1; cbn; auto. rewrite H. auto. Qed.
Lemma filter_all : forall T (f : T -> bool) l, Forall (fun x => f x = true) l -> filter f l = l.
Proof. induction 1; cbn; auto. rewrite H. f_equal; auto. Qed.
Lemma flat_map_ext_in : forall T U (f g : T -> list U) l, Forall (fun x => f x = g x) l -> flat_map f l = flat_map g l.
Proof. induction 1; cbn; auto. rewrite H. f_equal; auto. Qed.
Lemma filter_ext_Forall : forall T (f g : T -> bool) l, Forall (fun x => f x = g x) l -> filter f l = filter g l.
Proof. intros. apply filter_ext_in. apply Forall_forall. auto. Qed.

(** Dropping a right line which is below all the left lines. *)
Lemma rows_drop : forall l b r, Forall (fun a => part a b = false) l -> rows_spec ord ka kb l (b :: r) = rows_spec ord ka kb l r.
Proof.
  intros l b r H. unfold rows_spec. apply flat_map_ext_in. eapply Forall_impl; [|apply H]. intros a E. cbn [find]. rewrite E. auto.
Qed.
Lemma left_drop : forall l b r, Forall (fun a => part a b = false) l -> lone_left ord ka kb l (b :: r) = lone_left ord ka kb l r.
Proof.
  intros l b r H. unfold lone_left. apply filter_ext_Forall. eapply Forall_impl; [|apply H]. intros a E. cbn [existsb]. rewrite E. auto.
Qed.
Lemma right_drop : forall a l r, Forall (fun b => part a b = false) r -> lone_right ord ka kb (a :: l) r = lone_right ord ka kb l r.
Proof.
  intros a l r H. unfold lone_right. apply filter_ext_Forall. eapply Forall_impl; [|apply H]. intros b E. cbn [existsb]. rewrite E. auto.
Qed.

(** Rows and unmatched left lines: repeated keys allowed on both sides. *)
Lemma rows_nil : forall l, rows_spec ord ka kb l [] = [].
Proof. induction l; cbn; auto. Qed.
Lemma left_nil : forall l, lone_left ord ka kb l [] = l.
Proof. intros l. unfold lone_left. apply filter_all. apply Forall_forall. auto. Qed.

Lemma all_above : forall b a l, ord (kb b) (ka a) = Lt -> ordered_by ord ka (a :: l) -> Forall (fun a => part a b = false) (a :: l).
Proof.
  intros b a l H O. inversion O; subst. constructor; [apply part_gt; auto|]. eapply Forall_impl; [|apply H3].
  intros y Hy. apply part_gt. eapply ord_lt_le; eauto.
Qed.
Lemma all_below : forall a b r, ord (ka a) (kb b) = Lt -> ordered_by ord kb (b :: r) -> Forall (fun b => part a b = false) (b :: r).
Proof.
  intros a b r H O. inversion O; subst. constructor; [apply part_lt; auto|]. eapply Forall_impl; [|apply H3].
  intros y Hy. apply part_lt. eapply ord_lt_le; eauto.
Qed.
Lemma next_above : forall a b a' l, ord (ka a) (kb b) = Eq -> ordered_by ord ka (a :: a' :: l) -> ord (ka a') (kb b) <> Eq ->
  ord (kb b) (ka a') = Lt.
Proof.
  intros a b a' l E O N. inversion O; subst. inversion H2; subst. destruct (ord (ka a') (kb b)) eqn:Q; [congruence| |].
  - exfalso. assert (ord (ka a) (kb b) = Lt) by (eapply ord_le_lt; eauto). congruence.
  - apply ord_gt. auto.
Qed.

Lemma jq_cons : forall a l b r, join_quick cmp (a :: l) (b :: r) =
  match ord (ka a) (kb b) with
  | Eq => mkj ((a, b) :: j_rows (join_quick cmp l (match l with a' :: _ => if partners ord ka kb a' b then b :: r else r | [] => r end)))
            (j_left (join_quick cmp l (match l with a' :: _ => if partners ord ka kb a' b then b :: r else r | [] => r end)))
            (j_right (join_quick cmp l (match l with a' :: _ => if partners ord ka kb a' b then b :: r else r | [] => r end)))
  | Lt => mkj (j_rows (join_quick cmp l (b :: r))) (a :: j_left (join_quick cmp l (b :: r))) (j_right (join_quick cmp l (b :: r)))
  | Gt => mkj (j_rows (join_quick cmp (a :: l) r)) (j_left (join_quick cmp (a :: l) r)) (b :: j_right (join_quick cmp (a :: l) r))
  end.
Proof.
  intros a l b r. unfold partners. cbn [join_quick]. unfold cmp at 1. destruct (ord (ka a) (kb b)); try reflexivity.
  destruct l as [|a' l']; [reflexivity|]. unfold cmp at 1. destruct (ord (ka a') (kb b)); reflexivity.
Qed.

Lemma join_left_ok : forall l r, ordered_by ord ka l -> ordered_by ord kb r ->
  j_rows (join_quick cmp l r) = rows_spec ord ka kb l r /\ j_left (join_quick cmp l r) = lone_left ord ka kb l r.
Proof.
  induction l as [|a l IH]; intros r OA OB; [split; reflexivity|].
  induction r as [|b r IHr].
  - rewrite rows_nil, left_nil. split; reflexivity.
  - rewrite jq_cons. destruct (ord (ka a) (kb b)) eqn:E.
    + cbn [j_rows j_left].
      assert (PE : part a b = true) by (unfold partners; rewrite E; auto).
      assert (RW : forall x, rows_spec ord ka kb (a :: x) (b :: r) = (a, b) :: rows_spec ord ka kb x (b :: r))
        by (intros; unfold rows_spec; cbn [flat_map find]; rewrite PE; auto).
      assert (LW : forall x, lone_left ord ka kb (a :: x) (b :: r) = lone_left ord ka kb x (b :: r))
        by (intros; unfold lone_left; cbn [filter existsb]; rewrite PE; auto).
      rewrite RW, LW. inversion OA; subst. inversion OB; subst.
      destruct l as [|a' l'].
      * split; reflexivity.
      * destruct (partners ord ka kb a' b) eqn:E2.
        -- destruct (IH (b :: r)) as [I1 I2]; auto. rewrite I1, I2. auto.
        -- assert (L : ord (kb b) (ka a') = Lt) by (eapply next_above; eauto; unfold partners in E2; destruct (ord (ka a') (kb b)); congruence).
           pose proof (all_above b a' l' L H1) as AA. rewrite rows_drop, left_drop by auto.
           destruct (IH r) as [I1 I2]; auto. rewrite I1, I2. auto.
    + pose proof (all_below a b r E OB) as AB. cbn [j_rows j_left]. inversion OA; subst.
      destruct (IH (b :: r)) as [I1 I2]; auto. rewrite I1, I2. unfold rows_spec, lone_left. cbn [flat_map filter].
      rewrite (none_find _ _ _ AB), (none_existsb _ _ _ AB). auto.
    + apply ord_gt in E. pose proof (all_above b a l E OA) as AA. cbn [j_rows j_left].
      rewrite rows_drop, left_drop by auto. inversion OB; subst. apply IHr; auto.
Qed.

Lemma strict_ordered : forall T (k : T -> K) l, strictly_by ord k l -> ordered_by ord k l.
Proof.
  unfold strictly_by, ordered_by. induction 1; constructor; auto. eapply Forall_impl; [|apply H0]. cbn. intros. congruence.
Qed.
Lemma all_after : forall a b r, ord (ka a) (kb b) = Eq -> strictly_by ord kb (b :: r) -> Forall (fun b => part a b = false) r.
Proof.
  intros a b r E O. inversion O; subst. eapply Forall_impl; [|apply H2]. cbn. intros x L. apply part_lt.
  eapply ord_le_lt; [|apply L]. congruence.
Qed.
Lemma right_all : forall r, lone_right ord ka kb [] r = r.
Proof. intros r. unfold lone_right. apply filter_all. apply Forall_forall. auto. Qed.
Lemma lone_right_cons : forall l b r, lone_right ord ka kb l (b :: r) =
  (if existsb (fun a => part a b) l then [] else [b]) ++ lone_right ord ka kb l r.
Proof. intros. unfold lone_right. cbn [filter]. destruct (existsb _ l); auto. Qed.

Lemma join_right_ok : forall l r, ordered_by ord ka l -> strictly_by ord kb r ->
  j_right (join_quick cmp l r) = lone_right ord ka kb l r.
Proof.
  induction l as [|a l IH]; intros r OA OB; [rewrite right_all; reflexivity|].
  induction r as [|b r IHr]; [reflexivity|].
  rewrite jq_cons.
  pose proof (strict_ordered _ _ _ OB) as OB'.
  destruct (ord (ka a) (kb b)) eqn:E.
  - cbn [j_right].
    assert (PE : part a b = true) by (unfold partners; rewrite E; auto).
    pose proof (all_after a b r E OB) as AA. inversion OA; subst. inversion OB; subst.
    rewrite lone_right_cons. cbn [existsb]. rewrite PE. cbn [orb app]. rewrite right_drop by auto.
    destruct l as [|a' l'].
    + rewrite right_all. reflexivity.
    + destruct (partners ord ka kb a' b) eqn:E2.
      * rewrite IH by auto. rewrite lone_right_cons. cbn [existsb]. rewrite E2. reflexivity.
      * apply IH; auto.
  - pose proof (all_below a b r E OB') as AB. cbn [j_right]. inversion OA; subst.
    rewrite right_drop by auto. auto.
  - apply ord_gt in E. pose proof (all_above b a l E OA) as AA. cbn [j_right].
    rewrite lone_right_cons. inversion OB; subst. rewrite IHr by auto.
    rewrite (none_existsb _ (fun x => part x b) (a :: l)) by auto. reflexivity.
Qed.

(** Whatever the order of the input: no line is lost or invented. *)
Lemma join_left_partition : forall l r (f : A -> bool),
  length (filter f (map fst (j_rows (join_quick cmp l r)))) + length (filter f (j_left (join_quick cmp l r))) = length (filter f l).
Proof.
  induction l as [|a l IH]; intros r f; [reflexivity|].
  induction r as [|b r IHr]; [reflexivity|].
  rewrite jq_cons. destruct (ord (ka a) (kb b)) eqn:E.
  - cbn [j_rows j_left map fst filter].
    assert (Q : forall s, length (filter f (map fst (j_rows (join_quick cmp l s)))) + length (filter f (j_left (join_quick cmp l s))) = length (filter f l)) by (intros; apply IH).
    destruct l as [|a' l'].
    + specialize (Q r). destruct (f a); cbn [length]; lia.
    + destruct (partners ord ka kb a' b); [specialize (Q (b :: r))|specialize (Q r)]; destruct (f a); cbn [length]; lia.
  - cbn [j_rows j_left map fst filter]. specialize (IH (b :: r) f). destruct (f a); cbn [length]; lia.
  - cbn [j_rows j_left]. apply IHr.
Qed.

(** Every row pairs two lines with equal keys, even on unordered input. *)
Lemma join_rows_sound : forall l r a b, In (a, b) (j_rows (join_quick cmp l r)) -> In a l /\ In b r /\ cmp a b = Eq.
Proof.
  induction l as [|a l IH]; intros r x y H; [destruct H|].
  induction r as [|b r IHr]; [destruct H|].
  rewrite jq_cons in H. destruct (ord (ka a) (kb b)) eqn:E.
  - cbn [j_rows] in H. destruct H as [H|H].
    + injection H as -> ->. cbn. auto.
    + assert (G : exists s, (s = r \/ s = b :: r) /\ In (x, y) (j_rows (join_quick cmp l s))).
      { eexists; split; [|apply H]. destruct l as [|a' l']; auto. destruct (partners ord ka kb a' b); auto. }
      destruct G as (s & [-> | ->] & G); apply IH in G; cbn; tauto.
  - cbn [j_rows] in H. apply IH in H. cbn in *. tauto.
  - cbn [j_rows] in H. apply IHr in H. cbn in *. tauto.
Qed.
End P.

(** The line comparisons of two files as one order on numbered lines. *)
Definition in_file (exp10 : Z -> f64) (keys : list linecomp) (x y : nat * textline) : comparison :=
  ll_comp_cols_n exp10 keys (snd x) (snd y) (fst x) (fst y).
Lemma in_file_preorder : forall exp10 keys, Forall orderly_key keys -> total_preorder (in_file exp10 keys).
Proof.
  intros e cs H. unfold in_file, ll_comp_cols_n.
  apply (first_diff_preorder cs (fun c (x y : nat * textline) => lc_comp_cols_n e c (snd x) (snd y) (fst x) (fst y))).
  eapply Forall_impl; [|apply H]. intros k O.
  assert (Q : total_preorder (fun x y : nat * textline => l_comp_cols e (lc_cmp k) (snd x) (snd y) (fst x) (fst y))).
  { unfold orderly_key in O. unfold l_comp_cols. destruct (lc_cmp k) as [c|cols c|]; [| |tauto].
    - apply (preorder_key (fun x : nat * textline => tl_text (snd x)) (c_comp e (cp_cmpr c))); [|auto]. apply orderly_preorder; auto.
    - apply (preorder_key (fun x : nat * textline => tl_get (snd x) (cols (fst x))) (c_comp e (cp_cmpr c))); [|auto]. apply orderly_preorder; auto. }
  unfold lc_comp_cols_n, lc_reverse. destruct (lc_rev k); auto.
  apply (preorder_key (fun x => x) (fun x y : nat * textline => CompOpp (l_comp_cols e (lc_cmp k) (snd x) (snd y) (fst x) (fst y)))).
  apply rev_preorder; auto. intros. apply ord_rev_opp.
Qed.
