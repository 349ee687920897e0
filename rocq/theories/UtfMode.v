(** Lemmas on the matchers in utf8 mode and on the comparisons of strings. *)
From Coq Require Import List NArith Bool Arith Lia ZArith.
Import ListNotations.
From Verif Require Import Base TextSpec StrModel StrSpec CompModel CompSpec CompProofs GlobProofs MatchModel MatchSpec MatchText UtfSpec UtfModel UtfProofs UtfGlob.
Open Scope list_scope.
Close Scope Z_scope.

Lemma string_app s t : string_of (s ++ t) = string_of s ++ string_of t.
Proof. apply flat_map_app. Qed.
Lemma chars_string s : Forall scalar s -> chars (string_of s) = s.
Proof. intros H. apply text_chars, text_string, H. Qed.
Lemma text_bytes s b : text_of s b -> b = string_of s.
Proof. intros H. apply (text_det s); auto. apply text_string. eapply text_scalar; eauto. Qed.
Lemma enc_long c : scalar c -> 1 <= length (enc c).
Proof. intros H. apply enc_coded in H. destruct (coded_shape _ _ H) as (x & t & -> & _). cbn [length]. lia. Qed.
Lemma chars_begin_iff n : forall h, chars_begin n h = true <-> begins n h.
Proof.
  unfold begins. induction n as [|a n IH]; intros h; cbn [chars_begin].
  - split; auto. intros _. exists h. reflexivity.
  - destruct h as [|b h]. { split; [discriminate|]. intros [r E]. discriminate. }
    destruct (N.eqb_spec a b) as [->|N].
    + rewrite IH. split; intros [r E]; exists r; cbn [app] in *; congruence.
    + split; [discriminate|]. intros [r E]. cbn [app] in E. congruence.
Qed.
Lemma zip_same_iff x : forall y, zip_same x y = true <-> begins x y \/ begins y x.
Proof.
  unfold begins. induction x as [|a x IH]; intros y; cbn [zip_same].
  - split; auto. intros _. left. exists y. reflexivity.
  - destruct y as [|b y]. { split; auto. intros _. right. exists (a :: x). reflexivity. }
    destruct (N.eqb_spec a b) as [->|N].
    + rewrite IH. split; intros [[r E]|[r E]]; [left|right|left|right]; exists r; cbn [app] in *; congruence.
    + split; [discriminate|]. intros [[r E]|[r E]]; cbn [app] in E; congruence.
Qed.
(** Of two texts of the same length one cannot go on after the other. *)
Lemma zip_same_len x y : Forall scalar x -> Forall scalar y ->
  (zip_same x y && Nat.eqb (length (string_of x)) (length (string_of y)) = true <-> x = y).
Proof.
  intros X Y. rewrite andb_true_iff, Nat.eqb_eq, zip_same_iff. split.
  - assert (G : forall a r, Forall scalar (a ++ r) -> length (string_of a) = length (string_of (a ++ r)) -> r = []).
    { intros a r F L. rewrite string_app, app_length in L. destruct r as [|c r]; auto. apply Forall_app in F as [_ F]. inversion F; subst.
      cbn [string_of flat_map] in L. rewrite app_length in L. pose proof (enc_long c H1). fold (string_of r) in L. lia. }
    intros [[[r ->]|[r ->]] L].
    + rewrite (G x r); auto. rewrite app_nil_r. auto.
    + rewrite (G y r); auto. rewrite app_nil_r. auto.
  - intros ->. split; auto. left. exists []. rewrite app_nil_r. auto.
Qed.
Lemma zip_cmp_len x : forall y k, Forall scalar x -> Forall scalar y ->
  zip_cmp x y (k + length (string_of x)) (k + length (string_of y)) = bcmp x y.
Proof.
  induction x as [|a x IH]; intros y k X Y; destruct y as [|b y]; cbn [zip_cmp bcmp].
  - apply Nat.compare_refl.
  - apply Nat.compare_lt_iff. inversion Y; subst. cbn [string_of flat_map length]. rewrite app_length. pose proof (enc_long b H1). lia.
  - apply Nat.compare_gt_iff. inversion X; subst. cbn [string_of flat_map length]. rewrite app_length. pose proof (enc_long a H1). lia.
  - destruct (N.ltb_spec a b) as [L|L]. { destruct (N.compare_spec a b); auto; lia. }
    destruct (N.ltb_spec b a) as [L'|L']. { destruct (N.compare_spec a b); auto; lia. }
    assert (a = b) by lia. subst. rewrite N.compare_refl. inversion X; inversion Y; subst. cbn [string_of flat_map]. rewrite !app_length.
    fold (string_of x). fold (string_of y). rewrite !Nat.add_assoc. apply IH; auto.
Qed.

Section Uni.
Variable lowc : N -> list N.
Variable white cased ignorable : N -> bool.
Hypothesis low_scalar : forall c, scalar c -> Forall scalar (lowc c).
Notation small := (smalls lowc).
Lemma low_small s : low lowc s = small s.
Proof. unfold low, smalls. apply flat_map_concat_map. Qed.
Lemma small_scalar s : Forall scalar s -> Forall scalar (small s).
Proof. induction 1; cbn [smalls map concat]; auto. apply Forall_app. split; auto. Qed.
Lemma lows_low s : forall before, ~ In 931%N s -> lows lowc cased ignorable before s = small s.
Proof.
  induction s as [|c s IH]; intros before N; auto. cbn [lows smalls map concat]. destruct (N.eqb_spec c 931) as [->|E].
  - exfalso. apply N. left; auto.
  - f_equal. apply IH. intros I. apply N. right; auto.
Qed.
Lemma lows_scalar s : forall before, Forall scalar s -> Forall scalar (lows lowc cased ignorable before s).
Proof.
  induction s as [|c s IH]; intros before H; cbn [lows]; auto. inversion H; subst. apply Forall_app. split; auto.
  destruct (c =? 931)%N; auto. repeat constructor. destruct (_ && _); unfold scalar; lia.
Qed.
Lemma lowercase_text s b : text_of s b -> text_of (lows lowc cased ignorable [] s) (to_lowercase lowc cased ignorable b).
Proof. intros H. unfold to_lowercase. rewrite (text_chars _ _ H). apply text_string, lows_scalar. eapply text_scalar; eauto. Qed.
Lemma new_lower_text s b : text_of s b -> text_of (small s) (new_lower lowc b).
Proof. intros H. unfold new_lower. rewrite (text_chars _ _ H), low_small. apply text_string, small_scalar. eapply text_scalar; eauto. Qed.
Lemma prefix_case p q s b : text_of p q -> text_of s b ->
  (scase_prefix lowc b (to_lowercase lowc cased ignorable q) = true <-> begins (lows lowc cased ignorable [] p) (small s)).
Proof.
  intros P S. unfold scase_prefix. rewrite (text_chars _ _ (lowercase_text _ _ P)), (text_chars _ _ S), low_small. apply chars_begin_iff.
Qed.
Lemma suffix_case p q s b : text_of p q -> text_of s b ->
  (scase_suffix lowc b (to_lowercase lowc cased ignorable q) = true <-> finishes (lows lowc cased ignorable [] p) (small s)).
Proof.
  intros P S. unfold scase_suffix. rewrite (text_chars _ _ (lowercase_text _ _ P)), (text_chars _ _ S), low_small.
  set (n := lows _ _ _ _ _). set (h := small s). unfold finishes. destruct (Nat.ltb_spec (length h) (length n)) as [L|L].
  - split; [discriminate|]. intros [r E]. rewrite E, app_length in L. lia.
  - rewrite chars_begin_iff. unfold begins. split; intros [r E].
    + assert (R : r = []). { apply (f_equal (@length N)) in E. rewrite skipn_length, app_length in E. destruct r; auto. cbn [length] in E. lia. }
      subst. rewrite app_nil_r in E. exists (firstn (length h - length n) h). rewrite <- E at 2. symmetry. apply firstn_skipn.
    + exists []. rewrite app_nil_r, E, app_length. replace (length r + length n - length n) with (length r) by lia.
      rewrite skipn_app, skipn_all, Nat.sub_diag. reflexivity.
Qed.
Lemma infix_case p q s b : text_of p q -> text_of s b ->
  (infix (to_lowercase lowc cased ignorable b) (to_lowercase lowc cased ignorable q) = true <->
   within (lows lowc cased ignorable [] p) (lows lowc cased ignorable [] s)).
Proof. intros P S. rewrite infix_iff. apply text_within; apply lowercase_text; auto. Qed.
Lemma exact_case p q s b : (forall c, scalar c -> small (lowc c) = lowc c) -> text_of p q -> text_of s b ->
  (equal_quick_str lowc b (new_lower lowc q) = true <-> s = small p).
Proof.
  intros I P S. unfold equal_quick_str. rewrite (text_chars _ _ S), (text_chars _ _ (new_lower_text _ _ P)), low_small.
  assert (E : small (small p) = small p).
  { clear S. apply text_scalar in P. induction P as [|c p C P IH]; auto. cbn [smalls map concat]. unfold smalls in *. rewrite map_app, concat_app, IH. f_equal. apply I; auto. }
  rewrite E. rewrite (text_bytes _ _ S), (text_bytes _ _ (new_lower_text _ _ P)).
  apply zip_same_len; [eapply text_scalar; eauto|]. apply small_scalar. eapply text_scalar; eauto.
Qed.
(** Texts whose small letters take as many bytes. *)
Definition keeps_width (s : list N) : Prop := Forall (fun c => length (string_of (lowc c)) = length (enc c)) s.
Lemma width_small s : keeps_width s -> length (string_of (small s)) = length (string_of s).
Proof.
  induction 1 as [|c s C H IH]; auto. cbn [smalls map concat]. rewrite string_app, app_length. unfold smalls in IH. rewrite IH, C.
  cbn [string_of flat_map]. rewrite app_length. reflexivity.
Qed.
Lemma compare_str s t a b : text_of s a -> text_of t b -> keeps_width s -> keeps_width t ->
  cmp_insens_str lowc a b = bcmp (small s) (small t) /\ (equal_insens_str lowc a b = true <-> small s = small t) /\
  cmp_quick_str lowc (new_lower lowc a) b = bcmp (small s) (small t) /\ (equal_quick_str lowc (new_lower lowc a) b = true <-> small s = small t).
Proof.
  intros S T K L. pose proof (small_scalar _ (text_scalar _ _ S)) as X. pose proof (small_scalar _ (text_scalar _ _ T)) as Y.
  unfold cmp_insens_str, equal_insens_str, cmp_quick_str, equal_quick_str.
  rewrite (text_chars _ _ S), (text_chars _ _ T), (text_chars _ _ (new_lower_text _ _ S)), !low_small.
  rewrite (text_bytes _ _ (new_lower_text _ _ S)), (text_bytes _ _ S), (text_bytes _ _ T).
  rewrite <- (width_small s K), <- (width_small t L). repeat split; try (apply zip_same_len; auto); try apply (zip_cmp_len _ _ 0); auto.
Qed.
(** Trimming. *)
Lemma drop_white_spec l : exists u, l = u ++ drop_white white l /\ Forall (fun c => white c = true) u /\
  match drop_white white l with [] => True | x :: _ => white x = false end.
Proof.
  induction l as [|c l (u & E & U & M)]; cbn [drop_white]. { exists []. auto. }
  destruct (white c) eqn:W.
  - exists (c :: u). split; [cbn [app]; congruence|]. split; auto.
  - exists []. auto.
Qed.
Lemma last_rev {A} (l : list A) d : last (rev l) d = hd d l.
Proof. destruct l as [|x l]; auto. cbn [rev hd]. apply last_last. Qed.
Lemma trim_spec s : stripped white s (rev (drop_white white (rev (drop_white white s)))).
Proof.
  destruct (drop_white_spec s) as (u & E & U & M). set (t := drop_white white s) in *.
  destruct (drop_white_spec (rev t)) as (v & E' & V & M'). set (w := drop_white white (rev t)) in *.
  exists u, (rev v). assert (T : t = rev w ++ rev v) by (rewrite <- rev_app_distr, <- E', rev_involutive; auto).
  split; [congruence|]. split; auto. split; [apply Forall_rev; auto|]. destruct (rev w) as [|x r] eqn:R; auto.
  rewrite T in M. cbn [app] in M. split; auto. rewrite <- R, last_rev. destruct w as [|y w]; [discriminate|]. exact M'.
Qed.
Lemma stripped_det s t t' : stripped white s t -> stripped white s t' -> t = t'.
Proof.
  assert (A : forall u u' (x x' : list N), u ++ x = u' ++ x' -> Forall (fun c => white c = true) u -> Forall (fun c => white c = true) u' ->
    match x with [] => True | c :: _ => white c = false end -> match x' with [] => True | c :: _ => white c = false end -> x = [] \/ x' = [] \/ x = x').
  { induction u as [|a u IH]; intros u' x x' E U U' X X'.
    - cbn [app] in E. destruct u' as [|b u']; [auto|]. subst. inversion U'; subst. cbn in X. congruence.
    - destruct u' as [|b u']. { cbn [app] in E. subst. inversion U; subst. cbn in X'. congruence. }
      cbn [app] in E. injection E as <- E. inversion U; inversion U'; subst. eapply IH; eauto. }
  intros (u & v & E & U & V & M) (u' & v' & E' & U' & V' & M').
  assert (AllW : forall (a : list N) x y, Forall (fun c => white c = true) x -> Forall (fun c => white c = true) y -> forall z w t, x ++ y = z ++ t ++ w ->
    match t with [] => True | c :: _ => white c = false /\ white (last t 0%N) = false end -> t = []).
  { intros _ x y X Y z w t0 EQ T. destruct t0 as [|c t0]; auto. destruct T as [T _].
    assert (I : In c (x ++ y)) by (rewrite EQ; apply in_or_app; right; left; auto).
    assert (F : Forall (fun c => white c = true) (x ++ y)) by (apply Forall_app; auto). rewrite Forall_forall in F. rewrite (F c I) in T. discriminate. }
  destruct t as [|c t]. { symmetry. cbn [app] in E. apply (AllW [] u v U V u' v' t'); congruence. }
  destruct t' as [|c' t']. { cbn [app] in E'. apply (AllW [] u' v' U' V' u v (c :: t)); congruence. }
  destruct M as [M1 M2]. destruct M' as [M1' M2']. rewrite E in E'.
  destruct (A u u' ((c :: t) ++ v) ((c' :: t') ++ v') E' U U' M1 M1') as [X|[X|X]]; try discriminate.
  apply (f_equal (@rev N)) in X. rewrite !rev_app_distr in X.
  assert (L : forall l : list N, l <> [] -> white (last l 0%N) = false -> match rev l with [] => True | x :: _ => white x = false end).
  { intros l N W. rewrite <- (rev_involutive l), last_rev in W. destruct (rev l); auto. }
  destruct (A (rev v) (rev v') (rev (c :: t)) (rev (c' :: t')) X) as [Y|[Y|Y]]; auto using Forall_rev.
  - apply L; auto. discriminate.
  - apply L; auto. discriminate.
  - apply (f_equal (@rev N)) in Y. rewrite rev_involutive in Y. discriminate.
  - apply (f_equal (@rev N)) in Y. rewrite rev_involutive in Y. discriminate.
  - apply (f_equal (@rev N)) in Y. rewrite !rev_involutive in Y. auto.
Qed.
Lemma trim_text s b : text_of s b -> exists t, stripped white s t /\ text_of t (u_trim white b).
Proof.
  intros H. unfold u_trim. rewrite (text_chars _ _ H). exists (rev (drop_white white (rev (drop_white white s)))). split; [apply trim_spec|].
  apply text_string. apply text_scalar in H. destruct (trim_spec s) as (u & v & E & _). rewrite E in H at 1.
  apply Forall_app in H as [_ H]. apply Forall_app in H as [H _]. exact H.
Qed.
End Uni.
