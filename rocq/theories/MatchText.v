(** What the simple text matchers accept. *)
From Coq Require Import String List NArith ZArith Bool Arith Lia.
Open Scope list_scope.
Import ListNotations.
From Verif Require Import Base StrModel FloatModel ReadModel CompModel CompProofs MatchModel MatchSpec MatchProofs.
Close Scope Z_scope.

Lemma same_case_map : forall a b, same_but_case a b <-> map lower a = map lower b.
Proof.
  induction a as [|x a IH]; intros [|y b]; split; intros H; try discriminate; try inversion H; subst; auto; try constructor; auto.
  - cbn [map]. f_equal; auto. apply IH; auto.
  - apply IH; auto.
Qed.
Lemma same_word_iff : forall a b, same_word a b = true <-> same_but_case a b.
Proof. intros a b. unfold same_word. rewrite beq_eq, same_case_map. tauto. Qed.

Lemma ends_with_iff : forall l s, ends_with l s = true <-> finishes s l.
Proof.
  intros l s. unfold ends_with, finishes. rewrite starts_with_app. split; intros [r E].
  - exists (rev r). rewrite <- (rev_involutive l), E, rev_app_distr, rev_involutive. auto.
  - exists (rev r). rewrite E, rev_app_distr. auto.
Qed.
Lemma infix_iff : forall h n, infix h n = true <-> within n h.
Proof.
  unfold within. induction h as [|c h IH]; intros n; cbn [infix]; rewrite orb_true_iff, starts_with_app.
  - split.
    + intros [[r E]|E]; [|discriminate]. exists [], r. auto.
    + intros (q & r & E). left. symmetry in E. apply app_eq_nil in E as [-> E]. exists r. auto.
  - rewrite IH. split.
    + intros [[r E]|(q & r & E)]; [exists [], r; auto|]. exists (c :: q), r. rewrite E. auto.
    + intros ([|x q] & r & E); [left; exists r; auto|]. injection E as -> ->. right. eauto.
Qed.

Lemma map_app_inv : forall (f : N -> N) a u v, map f a = u ++ v -> exists a1 a2, a = a1 ++ a2 /\ map f a1 = u /\ map f a2 = v.
Proof.
  intros f a u. revert a. induction u as [|x u IH]; intros a v H.
  - exists [], a. auto.
  - destruct a as [|y a]; [discriminate|]. injection H as <- H. destruct (IH a v H) as (a1 & a2 & -> & <- & <-).
    exists (y :: a1), a2. auto.
Qed.
Lemma begins_lower : forall p b, begins (map lower p) (map lower b) <-> begins_case p b.
Proof.
  intros p b. unfold begins, begins_case. split.
  - intros [r E]. apply map_app_inv in E as (u & v & -> & E & _). exists u, v. split; auto. apply same_case_map. auto.
  - intros (u & r & -> & E). apply same_case_map in E. exists (map lower r). rewrite map_app, E. auto.
Qed.
Lemma finishes_lower : forall p b, finishes (map lower p) (map lower b) <-> finishes_case p b.
Proof.
  intros p b. unfold finishes, finishes_case. split.
  - intros [r E]. apply map_app_inv in E as (u & v & -> & _ & E). exists v, u. split; auto. apply same_case_map. auto.
  - intros (u & r & -> & E). apply same_case_map in E. exists (map lower r). rewrite map_app, E. auto.
Qed.
Lemma within_lower : forall p b, within (map lower p) (map lower b) <-> within_case p b.
Proof.
  intros p b. unfold within, within_case. split.
  - intros (q & r & E). apply map_app_inv in E as (u & v & -> & _ & E). apply map_app_inv in E as (x & y & -> & E & _).
    exists u, x, y. split; auto. apply same_case_map. auto.
  - intros (q & u & r & -> & E). apply same_case_map in E. exists (map lower q), (map lower r). rewrite !map_app, E. auto.
Qed.
Lemma bcase_suffix_iff : forall b p, p <> [] -> exists v, bcase_suffix b (map lower p) = Ok v /\ (v = true <-> finishes_case p b).
Proof.
  intros b p H. unfold bcase_suffix. rewrite map_length. destruct (Nat.ltb_spec (length b) (length p)) as [L|L].
  - exists false. split; auto. split; [discriminate|]. intros (u & r & -> & E). apply same_case_map in E.
    apply (f_equal (@length N)) in E. rewrite !map_length in E. rewrite app_length in L. lia.
  - destruct p; [congruence|]. cbn [length Nat.eqb]. eexists. split; [reflexivity|]. rewrite ends_with_iff. apply finishes_lower.
Qed.

(** Trimming. *)
Lemma trim_left_split : forall l, exists w, l = w ++ trim_left l /\ Forall blank w.
Proof.
  induction l as [|c l [w [E W]]]; cbn [trim_left]; [exists []; auto|]. destruct (N.ltb_spec 32 c).
  - exists []. auto.
  - exists (c :: w). split; [cbn [app]; rewrite <- E; auto|constructor; auto].
Qed.
Lemma trim_left_head : forall l c r, trim_left l = c :: r -> (32 < c)%N.
Proof.
  induction l as [|x l IH]; intros c r; cbn [trim_left]; [discriminate|]. destruct (N.ltb_spec 32 x); [congruence|]. apply IH.
Qed.
Lemma trim_left_blank : forall w l, Forall blank w -> trim_left (w ++ l) = trim_left l.
Proof.
  induction 1 as [|c w H W IH]; auto. cbn [app trim_left]. unfold blank in H. destruct (N.ltb_spec 32 c); auto. lia.
Qed.
Lemma trim_left_app : forall a c d, (32 < c)%N -> trim_left (a ++ c :: d) = trim_left a ++ c :: d.
Proof.
  induction a as [|x a IH]; intros c d H; cbn [app trim_left].
  - destruct (N.ltb_spec 32 c); auto. lia.
  - destruct (N.ltb_spec 32 x); auto.
Qed.
Lemma trim_nil : forall b, trimw b = [] <-> Forall blank b.
Proof.
  intros b. unfold trimw. destruct (trim_left_split b) as (w & E & W). split.
  - intros H. apply (f_equal (@rev N)) in H. rewrite rev_involutive in H. cbn [rev] in H.
    destruct (trim_left b) as [|c r] eqn:T; [rewrite E, app_nil_r; auto|]. pose proof (trim_left_head _ _ _ T) as C.
    cbn [rev] in H. rewrite trim_left_app in H by auto. destruct (trim_left (rev r)); discriminate.
  - intros H. replace (trim_left b) with (@nil N); auto. rewrite <- (app_nil_r b) at 1. rewrite trim_left_blank; auto.
Qed.
Lemma trim_inside : forall b, exists w v, b = w ++ trimw b ++ v /\ Forall blank w.
Proof.
  intros b. destruct (trim_left_split b) as (w & E & W). destruct (trim_left_split (rev (trim_left b))) as (v & E2 & V).
  exists w, (rev v). split; auto. unfold trimw. rewrite E at 1. f_equal.
  rewrite <- (rev_involutive (trim_left b)) at 1. rewrite E2 at 1. rewrite rev_app_distr. auto.
Qed.
Lemma trim_prefix : forall p b a c z, p = a :: c -> (32 < a)%N -> last p 0%N = z -> (32 < z)%N ->
  starts_with (trimw b) p = true <-> after_blanks p b.
Proof.
  intros p b a c z P A Z HZ. rewrite starts_with_app. split.
  - intros [r E]. destruct (trim_inside b) as (w & v & E2 & W). rewrite E in E2. exists w, (r ++ v). rewrite E2, !app_assoc. auto.
  - intros (w & r & -> & W). unfold trimw. rewrite trim_left_blank by auto.
    assert (T : trim_left (p ++ r) = p ++ r) by (rewrite P; cbn [app trim_left]; destruct (N.ltb_spec 32 a); auto; lia). rewrite T, rev_app_distr.
    destruct (@exists_last _ p) as (p' & z' & E); [rewrite P; discriminate|]. rewrite E, last_last in Z. subst z'.
    rewrite E, rev_app_distr. cbn [rev app]. rewrite trim_left_app by auto. rewrite rev_app_distr. cbn [rev app].
    rewrite rev_involutive. eauto.
Qed.

(** Files of lines. *)
Lemma load_set_sens : forall bodies b, b <> [] ->
  existsb (beq b) (load_set Sens (map (fun x => x ++ [NL]) bodies)) = true <-> In b bodies.
Proof.
  intros bodies b H. unfold load_set. rewrite existsb_exists. split.
  - intros (x & I & E). apply beq_eq in E. subst x. apply in_map_iff in I as (y & E & I). apply filter_In in I as [I _].
    apply in_map_iff in I as (z & <- & I). rewrite removelast_last in E. subst z. auto.
  - intros I. exists b. split; [|apply beq_eq; auto]. apply in_map_iff. exists (b ++ [NL]). rewrite removelast_last. split; auto.
    apply filter_In. split; [apply in_map_iff; eauto|]. rewrite app_length. destruct b; [congruence|]. cbn [length]. apply Nat.ltb_lt. lia.
Qed.
Lemma load_set_insens : forall bodies b, b <> [] ->
  existsb (beq (map lower b)) (load_set Insens (map (fun x => x ++ [NL]) bodies)) = true <-> exists x, In x bodies /\ same_but_case b x.
Proof.
  intros bodies b H. unfold load_set. rewrite existsb_exists. split.
  - intros (x & I & E). apply beq_eq in E. subst x. apply in_map_iff in I as (y & E & I). apply filter_In in I as [I _].
    apply in_map_iff in I as (z & <- & I). rewrite removelast_last in E. exists z. split; auto. apply same_case_map. auto.
  - intros (x & I & E). apply same_case_map in E. exists (map lower x). rewrite E. split; [|apply beq_eq; auto]. apply in_map_iff. exists (x ++ [NL]).
    rewrite removelast_last. split; auto.
    apply filter_In. split; [apply in_map_iff; eauto|]. apply (f_equal (@length N)) in E. rewrite !map_length in E.
    rewrite app_length. destruct b; [congruence|]. cbn [length] in *. apply Nat.ltb_lt. lia.
Qed.

Lemma len_ok_iff : forall mn mx b, len_ok mn mx b = true <->
  (mn <= N.of_nat (length b))%N /\ match mx with None => True | Some m => (N.of_nat (length b) <= m)%N end.
Proof.
  intros mn mx b. unfold len_ok. destruct (N.ltb_spec (N.of_nat (length b)) mn); destruct mx; rewrite ?N.leb_le; intuition (try discriminate; try lia).
Qed.
Lemma split_once_none : forall d l, ~ In d l -> split_once d l = None.
Proof.
  induction l as [|c l IH]; intros H; cbn [split_once]; auto. destruct (N.eqb_spec c d) as [->|N]; [exfalso; apply H; left; auto|].
  rewrite IH; auto. intros I. apply H. right. auto.
Qed.
Lemma split_once_app : forall d a b, ~ In d a -> split_once d (a ++ d :: b) = Some (a, b).
Proof.
  induction a as [|c a IH]; intros b H; cbn [app split_once]; [rewrite N.eqb_refl; auto|].
  destruct (N.eqb_spec c d) as [->|N]; [exfalso; apply H; left; auto|]. rewrite IH; auto. intros I. apply H. right. auto.
Qed.
Lemma length_new_two : forall px py x y, ~ In 44%N px -> ~ In 44%N py -> to_usize_whole px = Ok x -> to_usize_whole py = Ok y ->
  length_new (px ++ 44%N :: py) = Ok (KLen x (Some y)).
Proof.
  intros px py x y Hx Hy Ex Ey. unfold length_new. rewrite split_once_app by auto. rewrite Ex. cbn [rbind].
  assert (E : existsb (N.eqb 44) py = false).
  { apply not_true_is_false. intros E. apply existsb_exists in E as (c & I & E). apply N.eqb_eq in E. subst c. auto. }
  rewrite E, Ey. cbn [rbind]. destruct px; reflexivity.
Qed.
Lemma length_new_one : forall px x, px <> [] -> ~ In 44%N px -> to_usize_whole px = Ok x -> length_new px = Ok (KLen x None).
Proof.
  intros px x H Hx Ex. unfold length_new. rewrite split_once_none by auto. rewrite Ex. destruct px; [congruence|reflexivity].
Qed.

(** The lines cgrep writes. *)
Lemma grep_loop_ok : forall exp10 c l rev lines vs, Forall2 (fun t b => lines_ok exp10 c l t = Ok b) lines vs ->
  grep_loop exp10 c l rev lines = Ok (concat (map tl_line (map fst (filter (fun x => xorb (snd x) rev) (combine lines vs))))).
Proof.
  intros e c l rev lines vs H. induction H as [|t b lines vs E H IH]; [reflexivity|]. cbn [grep_loop combine filter].
  rewrite E. cbn [rbind]. rewrite IH. cbn [rbind snd]. destruct (xorb b rev); reflexivity.
Qed.
