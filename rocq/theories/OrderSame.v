(** The sorter compares lines in memory by cached keys and merged lines directly: where the two agree, one comparison will do. *)
From Coq Require Import List NArith Bool Arith Lia.
Import ListNotations.
From Verif Require Import Base CompSpec OrdProofs ReadModel HeadModel SortSpec SortModel SortProofs MergeProofs SorterProofs.

Lemma insert_same : forall {A} (f g : A -> A -> comparison) x l, (forall y, In y l -> f x y = g x y) -> std_insert f x l = std_insert g x l.
Proof.
  intros A f g x l. induction l as [|y l IH]; intros H; auto. cbn [std_insert]. rewrite H by (left; auto). rewrite IH; auto. intros z I. apply H. right; auto.
Qed.
Lemma insert_in : forall {A} (f : A -> A -> comparison) x l z, In z (std_insert f x l) -> z = x \/ In z l.
Proof.
  intros A f x l z. induction l as [|y l IH]; cbn [std_insert]; intros H; [destruct H as [<-|[]]; auto|].
  destruct (f x y); cbn [In] in H |- *; (destruct H as [H|H]; [auto|]); auto; destruct (IH H); auto.
Qed.
Lemma std_sort_in : forall {A} (f : A -> A -> comparison) l z, In z (std_sort f l) -> In z l.
Proof.
  intros A f l. induction l as [|x l IH]; intros z H; auto. change (std_sort f (x :: l)) with (std_insert f x (std_sort f l)) in H.
  apply insert_in in H as [->|H]; [left; auto|right; auto].
Qed.
Lemma std_sort_same : forall {A} (f g : A -> A -> comparison) l, (forall x y, In x l -> In y l -> f x y = g x y) -> std_sort f l = std_sort g l.
Proof.
  intros A f g l. induction l as [|x l IH]; intros H; auto.
  change (std_insert f x (std_sort f l) = std_insert g x (std_sort g l)). rewrite IH by (intros; apply H; right; auto).
  apply insert_same. intros y I. apply H; [left; auto|right; eapply std_sort_in; eauto].
Qed.
Lemma dedup_from_same : forall {A} (f g : A -> A -> bool) l p, (forall x y, In x (p :: l) -> In y (p :: l) -> f x y = g x y) -> dedup_from f p l = dedup_from g p l.
Proof.
  intros A f g l. induction l as [|x l IH]; intros p H; auto. cbn [dedup_from]. rewrite (H x p) by (cbn; auto).
  rewrite (IH p), (IH x); auto; intros a b I J; apply H; cbn in *; intuition auto.
Qed.
Lemma do_sort_same : forall {A} (f g : A -> A -> comparison) e h u l, (forall x y, In x l -> In y l -> f x y = g x y /\ e x y = h x y) ->
  do_sort f e u l = do_sort g h u l.
Proof.
  intros A f g e h u l H. unfold do_sort. rewrite (std_sort_same f g l) by (intros; apply H; auto). destruct u; auto.
  assert (K : forall x y, In x (std_sort g l) -> In y (std_sort g l) -> e x y = h x y) by (intros x y I J; apply H; eapply std_sort_in; eauto).
  destruct (std_sort g l) as [|x r]; auto. cbn [dedup]. f_equal. apply dedup_from_same; auto.
Qed.

Section Same.
Variable cmp : bytes -> bytes -> comparison.
Variable eqv : bytes -> bytes -> bool.
Variable icmp : bytes -> bytes -> comparison.
Variable ieqv : bytes -> bytes -> bool.
Variable push : (nat -> nat -> comparison) -> nat -> list nat -> list nat.
Variable pop : (nat -> nat -> comparison) -> list nat -> option (nat * list nat).
Variable cap : nat.
Variable unique : bool.
Variable Q : byte -> Prop.
Definition fits (l : bytes) : Prop := whole_line l /\ Forall Q l /\ length l <= cap.
Hypothesis agree : forall a b, fits a -> fits b -> icmp a b = cmp a b /\ ieqv a b = eqv a b.
Hypothesis nlq : Q NL.
Definition clean (s : sorter) : Prop := Forall Q (so_data s) /\ length (so_data s) <= cap.

Lemma calc_fits : forall l ls rest, Forall Q l -> length l <= cap -> calc l [] = (ls, rest) -> Forall fits ls /\ Forall Q rest /\ length rest <= cap.
Proof.
  intros l ls rest F L E. destruct (calc_spec _ _ _ _ E) as (A & W & _); [auto|]. cbn [rev app] in A. subst l. clear E.
  apply Forall_app in F as [F G]. rewrite app_length in L. split; [|split; [auto|lia]].
  apply Forall_forall. intros x I. rewrite Forall_forall in W. split; [auto|]. apply in_split in I as (a & b & ->). rewrite concat_app in *. cbn [concat] in *.
  apply Forall_app in F as [_ F]. apply Forall_app in F as [F _]. split; auto. rewrite !app_length in L. lia.
Qed.
Lemma sort_fits : forall ls, Forall fits ls -> do_sort icmp ieqv unique ls = do_sort cmp eqv unique ls.
Proof. intros ls F. rewrite Forall_forall in F. apply do_sort_same. intros x y I J. apply agree; auto. Qed.
Lemma spill_same : forall s, clean s -> spill icmp ieqv unique s = spill cmp eqv unique s /\ clean (spill cmp eqv unique s).
Proof.
  intros s [F L]. unfold spill. destruct (calc (so_data s) []) as [ls rest] eqn:E. destruct (calc_fits _ _ _ F L E) as (A & B & C).
  rewrite sort_fits by auto. split; auto. split; auto.
Qed.
Lemma add_same : forall fuel size s r sched, clean s -> Forall Q r ->
  add icmp ieqv cap unique fuel size s r sched = add cmp eqv cap unique fuel size s r sched /\
  (forall s', add cmp eqv cap unique fuel size s r sched = Ok s' -> clean s').
Proof.
  induction fuel as [|fuel IH]; intros size s r sched [F L] G; [split; [auto|discriminate]|]. cbn [add].
  set (sz := prepare cap s size). set (n := Nat.min _ (Nat.min sz (length r))).
  assert (SZ : length (so_data s) + sz <= cap) by (unfold sz, prepare; lia).
  destruct (Nat.eqb n 0).
  - split; auto. intros s' E. destruct (rev (so_data s)) as [|c x]; [injection E as <-; split; auto|].
    destruct (c =? NL)%N; [injection E as <-; split; auto|]. destruct (Nat.eqb_spec sz 0) as [Z|Z]; [discriminate|].
    injection E as <-. split; cbn [so_data]; [apply Forall_app; auto|]. rewrite app_length. cbn [length]. lia.
  - set (s1 := mkso (so_data s ++ firstn n r) (so_tmp s)).
    assert (GF : Forall Q (firstn n r) /\ Forall Q (skipn n r)) by (apply Forall_app; rewrite firstn_skipn; auto).
    assert (C1 : clean s1). { split; unfold s1; cbn [so_data]; [apply Forall_app; tauto|]. rewrite app_length, firstn_length. lia. }
    destruct (spill_same s1 C1) as [-> C2]. destruct (cap <=? length (so_data s1)); apply IH; tauto.
Qed.
Lemma add_file_same : forall size s keep first rest sched, clean s -> Forall Q first -> Forall Q rest ->
  add_file icmp ieqv cap unique size s keep first rest sched = add_file cmp eqv cap unique size s keep first rest sched /\
  (forall w s', add_file cmp eqv cap unique size s keep first rest sched = Ok (w, s') -> clean s').
Proof.
  intros size s keep first rest sched C F G. unfold add_file. destruct first as [|x first]; [split; [auto|]; intros w s' E; injection E as _ <-; auto|].
  set (pre := if keep then _ else _).
  assert (P : forall w s1, pre = Ok (w, s1) -> clean s1).
  { unfold pre. intros w s1 E. destruct keep; [|injection E as _ <-; auto]. destruct (is_cdx _); [injection E as _ <-; auto|].
    unfold add_data in E. destruct (Nat.eqb_spec (prepare cap s (length (x :: first))) (length (x :: first))) as [Z|Z]; [|discriminate].
    cbn [negb rbind] in E. injection E as _ <-. destruct C as [A B]. split; cbn [so_data]; [apply Forall_app; auto|].
    unfold prepare in Z. rewrite app_length. lia. }
  destruct pre as [[w s1]| |]; cbn [rbind]; [|split; [auto|discriminate]|split; [auto|discriminate]].
  destruct (add_same (S (length rest)) size s1 rest sched (P w s1 eq_refl) G) as [-> K]. split; auto.
  intros w' s' E. destruct (add cmp eqv cap unique (S (length rest)) size s1 rest sched) as [s2| |]; [|discriminate|discriminate].
  cbn [rbind] in E. injection E as _ <-. auto.
Qed.
Lemma finalize_same : forall s, clean s -> finalize cmp eqv icmp ieqv push pop unique s = finalize cmp eqv cmp eqv push pop unique s.
Proof.
  intros s C. unfold finalize. destruct (spill_same s C) as [-> _]. destruct C as [F L]. destruct (so_tmp s); auto.
  destruct (calc (so_data s) []) as [ls rest] eqn:E. destruct (calc_fits _ _ _ F L E) as (A & _). cbn [fst]. rewrite sort_fits; auto.
Qed.
Lemma first_line_split : forall f a b, first_line f = (a, b) -> f = a ++ b.
Proof.
  induction f as [|c f IH]; intros a b E; cbn [first_line] in E; [injection E as <- <-; auto|].
  destruct (c =? NL)%N; [injection E as <- <-; auto|]. destruct (first_line f) as [x y]. injection E as <- <-. cbn [app]. f_equal. auto.
Qed.
Theorem sort_files_same : forall utf8 name size fs c s, clean s -> Forall (fun f => Forall Q (fst f)) fs ->
  sort_files cmp eqv icmp ieqv push pop cap unique utf8 name size c s fs = sort_files cmp eqv cmp eqv push pop cap unique utf8 name size c s fs.
Proof.
  intros utf8 name size fs. induction fs as [|[f sched] fs IH]; intros c s C F; cbn [sort_files]; [rewrite finalize_same; auto|].
  inversion F as [|x y F1 F2]; subst. cbn [fst] in F1. destruct (first_line f) as [first rest] eqn:E. apply first_line_split in E.
  subst f. apply Forall_app in F1 as [A B]. destruct first as [|x first]; [apply IH; auto|].
  destruct (check utf8 name MMatch c (x :: first)) as [v c']. destruct v as [keep| |]; auto. cbn [rbind].
  destruct (add_file_same size s keep (x :: first) rest sched C A B) as [-> K].
  destruct (add_file cmp eqv cap unique size s keep (x :: first) rest sched) as [[w s']| |]; auto. cbn [rbind]. rewrite IH; auto. eapply K; eauto.
Qed.
End Same.
