(** Proofs about matchers. *)
From Coq Require Import String List NArith ZArith Bool Arith Lia.
Open Scope list_scope.
Import ListNotations.
From Verif Require Import Base StrModel FloatModel ReadModel CompModel MatchModel MatchSpec.
Close Scope Z_scope.

(** Early decisions. *)
Lemma mid_final : forall d yes no y n,
  (match_mid d yes no = TYes -> match_final d (yes + y) (no + n) = true) /\
  (match_mid d yes no = TNo -> match_final d (yes + y) (no + n) = false).
Proof.
  intros d yes no y n.
  destruct d as [ | | | | | |t|t|t|t|t|t]; try destruct t as [c|f];
    unfold match_mid, match_final, at_most_mid, at_least_mid, at_most_final, at_least_final, exactly_t, yes_if, no_if;
    repeat match goal with
    | |- context [N.ltb ?a ?b] => destruct (N.ltb_spec a b)
    | |- context [N.leb ?a ?b] => destruct (N.leb_spec a b)
    | |- context [N.eqb ?a ?b] => destruct (N.eqb_spec a b)
    end; cbn [andb orb]; split; intros; try congruence; try lia.
Qed.

Lemma hits_cons : forall b l, hits (b :: l) = ((if b then 1 else 0) + hits l)%N.
Proof. intros [] l; unfold hits; cbn [count_occ]; destruct (bool_dec _ _) as [E|E]; try congruence; lia. Qed.
Lemma misses_cons : forall b l, misses (b :: l) = ((if b then 0 else 1) + misses l)%N.
Proof. intros [] l; unfold misses; cbn [count_occ]; destruct (bool_dec _ _) as [E|E]; try congruence; lia. Qed.

Lemma count_loop_final : forall {A} (f : A -> res bool) d cols vs yes no,
  Forall2 (fun x b => f x = Ok b) cols vs ->
  count_loop f d cols yes no = Ok (match_final d (yes + hits vs) (no + misses vs)).
Proof.
  intros A f d cols vs yes no H. revert yes no. induction H as [|x b cols vs E H IH]; intros yes no.
  - cbn [count_loop]. unfold hits, misses. cbn [count_occ]. rewrite !N.add_0_r. reflexivity.
  - cbn [count_loop]. rewrite E. cbn [rbind]. rewrite hits_cons, misses_cons.
    assert (E1 : (yes + ((if b then 1 else 0) + hits vs) = (if b then yes + 1 else yes) + hits vs)%N) by (destruct b; lia).
    assert (E2 : (no + ((if b then 0 else 1) + misses vs) = (if b then no else no + 1) + misses vs)%N) by (destruct b; lia).
    rewrite E1, E2. destruct (mid_final d (if b then yes + 1 else yes)%N (if b then no else no + 1)%N (hits vs) (misses vs)) as [Y N].
    destruct (match_mid _ _ _); [rewrite Y by auto|rewrite N by auto|rewrite IH]; reflexivity.
Qed.

Lemma hits_zero : forall l, hits l = 0%N <-> ~ In true l.
Proof. intros l. unfold hits. rewrite (count_occ_not_In bool_dec). lia. Qed.
Lemma misses_zero : forall l, misses l = 0%N <-> ~ In false l.
Proof. intros l. unfold misses. rewrite (count_occ_not_In bool_dec). lia. Qed.
Lemma hits_pos : forall l, (0 < hits l)%N <-> In true l.
Proof. intros l. unfold hits. rewrite (count_occ_In bool_dec). lia. Qed.
Lemma misses_pos : forall l, (0 < misses l)%N <-> In false l.
Proof. intros l. unfold misses. rewrite (count_occ_In bool_dec). lia. Qed.
Lemma all_eq_not_in : forall b l, Forall (eq b) l <-> ~ In (negb b) l.
Proof.
  intros b l. split.
  - intros H I. rewrite Forall_forall in H. apply H in I. destruct b; discriminate.
  - intros H. rewrite Forall_forall. intros x I. destruct b, x; auto; exfalso; auto.
Qed.

Lemma final_holds : forall d vs, counting d -> match_final d (hits vs) (misses vs) = true <-> holds_on d vs.
Proof.
  intros d vs C. destruct d as [ | | | | | |t|t|t|t|t|t]; try (destruct t as [c|f]; [|contradiction]);
    cbn [match_final at_most_final at_least_final exactly_t];
    rewrite ?orb_true_iff, ?andb_true_iff, ?N.ltb_lt, ?N.eqb_eq, ?N.leb_le, ?hits_zero, ?misses_zero, ?hits_pos, ?misses_pos;
    (split; [intros H; try (constructor; tauto)|intros H; inversion H; subst; auto; try tauto]).
  - constructor. apply all_eq_not_in. auto.
  - apply (all_eq_not_in true). auto.
  - destruct H as [H|H]; [apply (h_uniform _ false)|apply (h_uniform _ true)]; apply all_eq_not_in; auto.
  - destruct b; [right|left]; [apply (all_eq_not_in true)|apply (all_eq_not_in false)]; auto.
Qed.

(** Lists. *)
Lemma all_match_true : forall {A} (f : A -> res bool) l, all_match f l = Ok true <-> Forall (fun x => f x = Ok true) l.
Proof.
  induction l as [|x l IH]; cbn [all_match]; [split; auto|]. split.
  - intros H. destruct (f x) as [[]| | ] eqn:E; cbn [rbind] in H; try discriminate. constructor; auto. apply IH; auto.
  - intros H. inversion H as [|? ? E F]; subst. rewrite E. cbn [rbind]. apply IH; auto.
Qed.
Lemma some_match_false : forall {A} (f : A -> res bool) l, some_match f l = Ok false <-> Forall (fun x => f x = Ok false) l.
Proof.
  induction l as [|x l IH]; cbn [some_match]; [split; auto|]. split.
  - intros H. destruct (f x) as [[]| | ] eqn:E; cbn [rbind] in H; try discriminate. constructor; auto. apply IH; auto.
  - intros H. inversion H as [|? ? E F]; subst. rewrite E. cbn [rbind]. apply IH; auto.
Qed.
Lemma all_match_total : forall {A} (f : A -> res bool) l, Forall (fun x => exists b, f x = Ok b) l -> exists b, all_match f l = Ok b.
Proof.
  induction 1 as [|x l [b E] H IH]; cbn [all_match]; eauto. rewrite E. cbn [rbind]. destruct b; eauto.
Qed.
Lemma some_match_total : forall {A} (f : A -> res bool) l, Forall (fun x => exists b, f x = Ok b) l -> exists b, some_match f l = Ok b.
Proof.
  induction 1 as [|x l [b E] H IH]; cbn [some_match]; eauto. rewrite E. cbn [rbind]. destruct b; eauto.
Qed.
Lemma some_match_true : forall {A} (f : A -> res bool) l, Forall (fun x => exists b, f x = Ok b) l ->
  some_match f l = Ok true <-> Exists (fun x => f x = Ok true) l.
Proof.
  induction 1 as [|x l [b E] H IH]; cbn [some_match]; [split; [discriminate|inversion 1]|].
  rewrite E. cbn [rbind]. destruct b.
  - split; auto.
  - rewrite IH. split; auto. intros X. inversion X as [? ? Y|]; subst; auto. congruence.
Qed.

Lemma verbose_same : forall exp10 m t, lm_ok_verbose exp10 m t = lm_ok exp10 m t.
Proof. intros e [m|c m|d cols m|tg op d cols c|n|ev] t; try reflexivity. cbn. destruct (f_eqb (ev t) f_zero); reflexivity. Qed.
Lemma verbose_and_spec : forall exp10 l t ret, Forall (fun m => exists b, lm_ok exp10 m t = Ok b) l ->
  exists b, all_match (fun m => lm_ok exp10 m t) l = Ok b /\ verbose_and exp10 l t ret = Ok (ret && b).
Proof.
  intros e l t ret H. revert ret. induction H as [|x l [b E] H IH]; intros ret.
  - exists true. cbn. rewrite andb_true_r. auto.
  - cbn [all_match verbose_and]. rewrite verbose_same, E. cbn [rbind]. destruct b.
    + apply IH.
    + exists false. split; auto. destruct (IH false) as (b & _ & E2). rewrite E2, andb_false_r. reflexivity.
Qed.
Lemma lines_verbose : forall exp10 c l t, Forall (fun m => exists b, lm_ok exp10 m t = Ok b) l ->
  lines_ok_verbose exp10 c l t = lines_ok exp10 c l t.
Proof.
  intros e [|] l t H; cbn [lines_ok_verbose lines_ok tagged]; auto.
  unfold lines_ok. cbn [tagged]. destruct (verbose_and_spec e l t true H) as (b & E1 & E2). rewrite E1, E2. reflexivity.
Qed.

(** Negation. *)
Definition set_negate (n : bool) (m : matcher) : matcher := mkm (m_string m) n (m_trim m) (m_empty m) (m_body m).
Lemma match_set_negate : forall exp10 n m b, m_match exp10 (set_negate n m) b = m_match exp10 m b.
Proof. reflexivity. Qed.

Definition flag_negate (f : flags) : flags :=
  mkf (f_ctype f) (f_string f) (f_case f) true (f_trim f) (f_empty f) (f_multi f).
Lemma add_part_negate : forall x f, add_part (flag_negate f) x = flag_negate (add_part f x).
Proof.
  intros x [t s c n tr e mu]. unfold flag_negate. cbn [add_part f_ctype f_string f_case f_negate f_trim f_empty f_multi].
  repeat match goal with |- context [if same_word x ?y then _ else _] => destruct (same_word x y); [reflexivity|] end. reflexivity.
Qed.
Lemma fold_negate : forall xs f, fold_left add_part xs (flag_negate f) = flag_negate (fold_left add_part xs f).
Proof. induction xs as [|x xs IH]; intros f; cbn [fold_left]; auto. rewrite add_part_negate. apply IH. Qed.
Lemma split_str_app : forall d a b, ~ In d a -> split_str d (a ++ d :: b) = a :: split_str d b.
Proof.
  induction a as [|c a IH]; intros b H; cbn [app split_str].
  - rewrite N.eqb_refl. reflexivity.
  - destruct (N.eqb_spec c d) as [->|N]; [exfalso; apply H; left; auto|]. rewrite IH by (intros I; apply H; right; auto). reflexivity.
Qed.
Lemma method_not : forall m, m <> [] -> method_flags (bs "not." ++ m) = flag_negate (method_flags m).
Proof.
  intros m H. destruct m as [|c m]; [congruence|].
  assert (E : forall x, x <> [] -> method_flags x =
    let f := fold_left add_part (split_str 46 x) flags_default in
    mkf (resolve_alias (f_ctype f)) (f_string f) (f_case f) (f_negate f) (f_trim f) (f_empty f) (f_multi f)).
  { intros [|? ?] X; [congruence|reflexivity]. }
  rewrite !E by discriminate.
  change (bs "not." ++ c :: m) with (bs "not" ++ 46%N :: (c :: m)).
  rewrite (split_str_app 46 (bs "not") (c :: m)) by (vm_compute; intuition discriminate).
  cbn [fold_left]. change (add_part flags_default (bs "not")) with (flag_negate flags_default). rewrite fold_negate. reflexivity.
Qed.
Section Make.
Variable regex : bytes -> case -> res (bytes -> bool).
Variable mk_comp : bytes -> res cmpr.
Variable file_lines : bytes -> res (list bytes).
Notation make2 := (make2 regex mk_comp file_lines).

(** A list of members made under two sets of flags that differ in the negation. *)
Lemma make_members_negate : forall f ps, make_members regex mk_comp file_lines (flag_negate f) ps =
  rbind (make_members regex mk_comp file_lines f ps) (fun l => Ok (map (fun s => mks (s_string s) true (s_trim s) (s_empty s) (s_kind s)) l)).
Proof.
  intros [t s c n tr e mu] ps. induction ps as [|p ps IH]; [reflexivity|]. cbn [make_members].
  unfold flag_negate in *. cbn [f_ctype f_string f_case f_negate f_trim f_empty f_multi] in *. rewrite IH.
  destruct (make_kind _ _ _ _ _ _) as [x| | ]; cbn [rbind]; auto.
  clear IH. destruct (make_members _ _ _ (mkf t s c n tr e mu) ps) as [l| | ]; reflexivity.
Qed.
(** The negation of the members is never looked at. *)
Lemma list_umatch_negate : forall exp10 c l b,
  list_umatch exp10 c (map (fun s => mks (s_string s) true (s_trim s) (s_empty s) (s_kind s)) l) b = list_umatch exp10 c l b.
Proof.
  intros e c l b. unfold list_umatch. destruct c; cbn [tagged]; induction l as [|x l IH]; cbn [map all_match some_match]; auto;
    unfold single_umatch at 1; cbn [s_trim s_empty s_kind]; fold (single_umatch e x b);
    destruct (single_umatch e x b) as [[]| | ]; cbn [rbind]; auto.
Qed.
Lemma list_smatch_negate : forall exp10 c l b,
  list_smatch exp10 c (map (fun s => mks (s_string s) true (s_trim s) (s_empty s) (s_kind s)) l) b = list_smatch exp10 c l b.
Proof.
  intros e c l b. unfold list_smatch. destruct c; cbn [tagged]; induction l as [|x l IH]; cbn [map all_match some_match]; auto;
    unfold single_smatch at 1; cbn [s_trim s_empty s_kind]; fold (single_smatch e x b);
    destruct (single_smatch e x b) as [[]| | ]; cbn [rbind]; auto.
Qed.
Lemma make2_not : forall m p x, m <> [] -> make2 m p = Ok x ->
  exists x', make2 (bs "not." ++ m) p = Ok x' /\ m_negate x' = true /\ forall exp10 b, m_match exp10 x' b = m_match exp10 x b.
Proof.
  intros m p x H E. unfold MatchModel.make2 in *. rewrite method_not by auto. destruct (method_flags m) as [t s c n tr e mu].
  unfold flag_negate in *. cbn [f_ctype f_string f_case f_negate f_trim f_empty f_multi] in *.
  destruct mu as [co|].
  - destruct p as [|d r]; [discriminate|].
    pose proof (make_members_negate (mkf t s c n tr e (Some co)) (split_str d r)) as N. unfold flag_negate in N.
    cbn [f_ctype f_string f_case f_negate f_trim f_empty f_multi] in N. rewrite N.
    destruct (make_members _ _ _ _ _) as [l| | ]; cbn [rbind] in *; try discriminate. injection E as <-.
    eexists. split; [reflexivity|]. split; [reflexivity|]. intros e10 b. unfold m_match, m_smatch, m_umatch.
    cbn [m_string m_trim m_empty m_body]. rewrite list_smatch_negate, list_umatch_negate. reflexivity.
  - destruct (make_kind _ _ _ _ _ _) as [k| | ]; cbn [rbind] in *; try discriminate. injection E as <-.
    eexists. split; [reflexivity|]. split; reflexivity.
Qed.
End Make.
