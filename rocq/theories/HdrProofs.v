(** Proofs about column headers. *)
From Coq Require Import String List NArith ZArith Bool Arith Lia.
Open Scope list_scope.
Import ListNotations.
From Verif Require Import Base TextSpec TextModel TextProofs StrSpec StrModel StrProofs MatchModel MatchProofs ReadModel TransProofs IpProofs HdrModel HdrSpec.
Close Scope Z_scope.

Lemma contains_in : forall cols n, contains cols n = true <-> In n cols.
Proof.
  intros. unfold contains. rewrite existsb_exists. split.
  - intros (x & H & E). apply beq_eq in E. subst. auto.
  - intros H. exists n. split; auto. apply beq_refl.
Qed.
Lemma contains_out : forall cols n, contains cols n = false <-> ~ In n cols.
Proof. intros. rewrite <- contains_in. destruct (contains cols n); split; congruence. Qed.
Lemma beq_neq : forall a b, beq a b = false <-> a <> b.
Proof.
  intros a b. split.
  - intros H ->. rewrite beq_refl in H. discriminate.
  - intros H. destruct (beq a b) eqn:E; auto. apply beq_eq in E. congruence.
Qed.

Lemma take_rename_some : forall l n a t b, take_rename l n = Some (a, t, b) -> first_rename l n a t b.
Proof.
  unfold first_rename. induction l as [|[f g] l IH]; intros n a t b H; cbn [take_rename fst snd] in H; [discriminate|].
  destruct (beq f n) eqn:E.
  - injection H as <- <- <-. apply beq_eq in E. subst. split; auto.
  - destruct (take_rename l n) as [[[a' t'] b']|] eqn:F; [|discriminate]. injection H as <- <- <-.
    destruct (IH _ _ _ _ F) as [-> G]. split; auto. cbn. apply beq_neq in E. intuition.
Qed.
Lemma take_rename_none : forall l n, take_rename l n = None -> ~ In n (map fst l).
Proof.
  induction l as [|[f g] l IH]; intros n H; cbn in *; auto.
  destruct (beq f n) eqn:E; [discriminate|]. destruct (take_rename l n) as [[[? ?] ?]|] eqn:F; [discriminate|].
  apply beq_neq in E. specialize (IH _ F). intuition.
Qed.

Lemma numeric_loop_spec : forall f x n cols,
  (exists k, (x <= k < x + N.of_nat f)%N /\ ~ In (n ++ print_N k) cols /\ (forall j, (x <= j < k)%N -> In (n ++ print_N j) cols) /\
     numeric_loop f x n cols = cols ++ [n ++ print_N k]) \/
  ((forall j, (x <= j < x + N.of_nat f)%N -> In (n ++ print_N j) cols) /\ numeric_loop f x n cols = cols).
Proof.
  induction f as [|f IH]; intros x n cols; cbn [numeric_loop].
  - right. split; auto. intros; lia.
  - destruct (contains cols (n ++ print_N x)) eqn:E.
    + apply contains_in in E. destruct (IH (x + 1)%N n cols) as [(k & A & B & C & D)|[A B]].
      * left. exists k. repeat split; auto; try lia. intros j J. destruct (N.eq_dec j x) as [->|]; auto. apply C. lia.
      * right. split; auto. intros j J. destruct (N.eq_dec j x) as [->|]; auto. apply A. lia.
    + left. exists x. apply contains_out in E. repeat split; auto; try lia; intros; lia.
Qed.

Section Chars.
Variable uni_alpha uni_alnum : N -> bool.
Notation push := (push uni_alpha uni_alnum).
Notation is_valid := (is_valid uni_alpha uni_alnum).
Notation letter := (alphabetic uni_alpha).
Notation alnum := (alphanumeric uni_alnum).
Notation well_named := (well_named letter alnum).

Lemma name_rest_all : forall l, name_rest uni_alnum l = List.length l <-> Forall (fun c => alnum c = true \/ c = 95%N) l.
Proof.
  induction l as [|c l IH]; cbn [name_rest List.length]; [split; auto|].
  destruct (alnum c) eqn:E; cbn [orb].
  - split; intros H; [constructor; auto; apply IH; lia|]. inversion H; subst. f_equal. apply IH; auto.
  - destruct (N.eqb_spec c 95).
    + split; intros H; [constructor; auto; apply IH; lia|]. inversion H; subst. f_equal. apply IH; auto.
    + split; intros H; [lia|]. inversion H; subst. destruct H2; congruence.
Qed.
Lemma is_valid_iff : forall n, is_valid n = true <-> well_named n.
Proof.
  intros [|c r]; unfold HdrModel.is_valid, HdrSpec.well_named, get_col_name.
  - split; auto.
  - destruct (letter c) eqn:E; rewrite Nat.eqb_eq.
    + cbn [List.length]. split; intros H.
      * split; auto. apply name_rest_all. lia.
      * f_equal. apply name_rest_all. tauto.
    + split; [cbn; lia|]. intros [H _]. discriminate.
Qed.

Lemma push_cases : forall h n h' ok, push h n = (h', ok) ->
  (ok = false /\ h' = h /\ rejected letter alnum (h_cols h) (h_dups h) (h_rename h) n) \/
  (ok = true /\ h_dups h' = h_dups h /\ h_sloppy h' = h_sloppy h /\ well_named n /\
   ((exists x, h_cols h' = h_cols h ++ [x] /\ entry (h_cols h) (h_dups h) (h_rename h) n x (h_rename h')) \/
    (h' = h /\ In n (h_cols h) /\ ~ In n (map fst (h_rename h)) /\ h_dups h = DNumeric /\ forall k, (1 <= k < 10000)%N -> In (n ++ print_N k) (h_cols h)))).
Proof.
  intros h n h' ok H. unfold HdrModel.push in H. remember (N.to_nat 9999) as lim eqn:Elim.
  destruct (is_valid n) eqn:V; cbn [negb] in H.
  2:{ injection H as <- <-. left. split; auto. split; auto. left. intros W. apply is_valid_iff in W. congruence. }
  pose proof V as W. apply is_valid_iff in W.
  destruct (contains (h_cols h) n) eqn:C.
  - apply contains_in in C. destruct (take_rename (h_rename h) n) as [[[a t] b]|] eqn:T.
    + apply take_rename_some in T. destruct (contains (h_cols h) t) eqn:D.
      * injection H as <- <-. apply contains_in in D. left. split; auto. split; auto. right. split; auto. left. exists a, t, b. auto.
      * injection H as <- <-. apply contains_out in D. right. cbn. repeat split; auto. left. exists t. split; auto.
        eapply e_rename; eauto.
    + apply take_rename_none in T. destruct (h_dups h) eqn:M; injection H as <- <-.
      * left. split; auto. split; auto. right. split; auto.
      * right. cbn. repeat split; auto. left. exists n. split; auto. apply e_allow; auto.
      * right. cbn [h_dups h_sloppy h_cols h_rename]. repeat split; auto.
        destruct (numeric_loop_spec lim 1 n (h_cols h)) as [(k & A & B & D & E)|[A B]]; rewrite Elim, N2Nat.id in A.
        -- left. exists (n ++ print_N k). split; auto. apply e_numeric; auto; lia.
        -- right. rewrite B. clear Elim. split; [destruct h; cbn in *; subst; auto|]. repeat split; auto.
  - injection H as <- <-. apply contains_out in C. right. cbn. repeat split; auto. left. exists n. split; auto. apply e_new; auto.
Qed.

Lemma entry_fresh : forall cols m rn n x rn', m <> DAllow -> entry cols m rn n x rn' -> ~ In x cols.
Proof. intros cols m rn n x rn' M H. destruct H; auto; congruence. Qed.
Lemma nodup_snoc : forall A (l : list A) x, NoDup l -> ~ In x l -> NoDup (l ++ [x]).
Proof.
  induction l as [|y l IH]; intros x H Hx; cbn; [repeat constructor; auto|]. inversion H; subst. constructor.
  - rewrite in_app_iff. cbn. cbn in Hx. intuition.
  - apply IH; auto. cbn in Hx. tauto.
Qed.

Lemma pushes_unique : forall names h, h_dups h <> DAllow -> NoDup (h_cols h) ->
  NoDup (h_cols (fold_left (fun h n => fst (push h n)) names h)) /\
  exists more, h_cols (fold_left (fun h n => fst (push h n)) names h) = h_cols h ++ more.
Proof.
  induction names as [|n names IH]; intros h M D; cbn [fold_left].
  - split; auto. exists []. rewrite app_nil_r. auto.
  - destruct (push h n) as [h' ok] eqn:E. cbn [fst]. apply push_cases in E as [(_ & -> & _)|(_ & M' & _ & _ & [(x & C & En)|(-> & _)])]; try (apply IH; auto; fail).
    destruct (IH h') as [A (more & B)].
    + rewrite M'. auto.
    + rewrite C. apply nodup_snoc; auto. eapply entry_fresh; eauto.
    + split; auto. exists ([x] ++ more). rewrite app_assoc. rewrite <- C. auto.
Qed.

(** Fresh names are simply appended. *)
Lemma push_fresh : forall h n, well_named n -> ~ In n (h_cols h) ->
  push h n = (mkhdr (h_cols h ++ [n]) (h_dups h) (h_rename h) (h_sloppy h), true).
Proof.
  intros h n W F. unfold HdrModel.push. apply is_valid_iff in W. rewrite W. cbn [negb]. apply contains_out in F. rewrite F. auto.
Qed.
Lemma push_all_fresh : forall names h, Forall well_named names -> NoDup names -> (forall n, In n names -> ~ In n (h_cols h)) ->
  push_all uni_alpha uni_alnum h names = (mkhdr (h_cols h ++ names) (h_dups h) (h_rename h) (h_sloppy h), true).
Proof.
  induction names as [|n names IH]; intros h W D F; cbn [push_all].
  - rewrite app_nil_r. destruct h; auto.
  - inversion W; subst. inversion D; subst. rewrite push_fresh by (auto; apply F; left; auto). rewrite IH; auto; cbn [h_cols h_dups h_rename h_sloppy].
    + rewrite <- app_assoc. auto.
    + intros x X. rewrite in_app_iff. cbn. intros [Y|[->|[]]]; auto. apply (F x); auto. right. auto.
Qed.
Lemma push_full : forall h n, h_dups h = DNumeric -> well_named n -> In n (h_cols h) -> h_rename h = [] ->
  (forall k, (1 <= k < 10000)%N -> In (n ++ print_N k) (h_cols h)) -> push h n = (h, true).
Proof.
  intros h n D W I R A. unfold HdrModel.push. apply is_valid_iff in W. rewrite W. cbn [negb]. apply contains_in in I. rewrite I, R, D.
  cbn [take_rename]. remember (N.to_nat 9999) as lim eqn:Elim.
  destruct (numeric_loop_spec lim 1 n (h_cols h)) as [(k & K & F & _)|[_ ->]].
  - exfalso. apply F. apply A. rewrite Elim, N2Nat.id in K. lia.
  - destruct h; cbn in *; subst; auto.
Qed.
End Chars.

Lemma print_N_inj : forall a b, print_N a = print_N b -> a = b.
Proof. intros a b H. pose proof (print_N_val a) as A. pose proof (print_N_val b) as B. rewrite H in A. lia. Qed.

(** UTF-8. *)
Lemma utf8_char_high : forall c b, In b (utf8_char c) -> (c < 128)%N /\ b = c \/ (128 <= c)%N /\ (128 <= b)%N.
Proof.
  intros c b. unfold utf8_char.
  destruct (N.ltb_spec c 128); [intros [<-|[]]; auto|].
  destruct (N.ltb_spec c 2048); [|destruct (N.ltb_spec c 65536)]; cbn [In]; intros I; right; split; auto;
    repeat (destruct I as [<-|I]; [lia|]); destruct I.
Qed.
Lemma utf8_app : forall a b, utf8 (a ++ b) = utf8 a ++ utf8 b.
Proof. intros. apply flat_map_app. Qed.
Lemma utf8_cons : forall c b, utf8 (c :: b) = utf8_char c ++ utf8 b.
Proof. reflexivity. Qed.
Lemma utf8_in : forall s d, (d < 128)%N -> In d (utf8 s) <-> In d s.
Proof.
  intros s d D. unfold utf8. rewrite in_flat_map. split.
  - intros (c & H & I). apply utf8_char_high in I as [[_ ->]|[_ ?]]; auto. lia.
  - intros H. exists d. split; auto. unfold utf8_char. apply N.ltb_lt in D. rewrite D. left. auto.
Qed.
Lemma utf8_ascii : forall c, (c < 128)%N -> utf8_char c = [c].
Proof. intros c H. unfold utf8_char. apply N.ltb_lt in H. rewrite H. auto. Qed.

(** Header text. *)
Lemma add_head_join : forall cols d, add_head cols d = join d cols.
Proof.
  intros [|c r] d; auto. revert c. induction r as [|x r IH]; intros c; cbn [add_head flat_map].
  - rewrite app_nil_r. auto.
  - rewrite join_cons by discriminate. f_equal. rewrite <- (IH x). auto.
Qed.
Lemma utf8_join : forall cols d, (d < 128)%N -> utf8 (join d cols) = join d (map utf8 cols).
Proof.
  induction cols as [|c [|x r] IH]; intros d D; auto.
  - cbn [map]. rewrite !join_cons by discriminate. rewrite utf8_app, utf8_cons, utf8_ascii by auto. rewrite IH by auto. auto.
Qed.
Lemma split_on_split_str : forall d l, split_on d l = split_str d l.
Proof. reflexivity. Qed.
Lemma split_on_join : forall d ss, ss <> [] -> Forall (fun f => ~ In d f) ss -> split_on d (join d ss) = ss.
Proof. intros. rewrite split_on_split_str. apply split_str_join; auto. Qed.

Lemma removelast_app1 : forall A (l : list A) x, removelast (l ++ [x]) = l.
Proof. intros. apply removelast_last. Qed.
Lemma fake_join : forall n s, flat_map (fun i => bs "c" ++ print_N (N.of_nat i) ++ [TAB]) (seq s (S n)) =
  join TAB (map (fun i => bs "c" ++ print_N (N.of_nat i)) (seq s (S n))) ++ [TAB].
Proof.
  induction n as [|n IH]; intros s.
  - cbn [seq flat_map map join]. rewrite app_nil_r. rewrite app_assoc. auto.
  - change (seq s (S (S n))) with (s :: seq (S s) (S n)). cbn [flat_map map]. rewrite IH. rewrite join_cons by (cbn; discriminate).
    rewrite <- !app_assoc. auto.
Qed.
Lemma fake_text : forall n, 0 < n -> removelast (flat_map (fun i => bs "c" ++ print_N (N.of_nat i) ++ [TAB]) (seq 1 n)) =
  join TAB (map (fun i => bs "c" ++ print_N (N.of_nat i)) (seq 1 n)).
Proof. intros [|n] H; [lia|]. rewrite fake_join. apply removelast_app1. Qed.
Lemma print_no : forall c n, ~ (48 <= c <= 57)%N -> ~ In c (print_N n).
Proof. intros c n H. unfold print_N. apply digits_no; auto. Qed.
Lemma fake_no : forall d i, ~ (48 <= d <= 57)%N -> d <> 99%N -> ~ In d (bs "c" ++ print_N i).
Proof. intros d i H1 H2. cbn. intros [H|H]; [congruence|]. exact (print_no d i H1 H). Qed.
Lemma split_on_none : forall d l, ~ In d l -> split_on d l = [l].
Proof. intros. rewrite split_on_split_str. apply split_str_none; auto. Qed.
Lemma in_join : forall d c fs, In c (join d fs) -> c = d \/ exists f, In f fs /\ In c f.
Proof.
  induction fs as [|f [|g r] IH]; intros H.
  - destruct H.
  - right. exists f. split; auto. left. auto.
  - rewrite join_cons in H by discriminate. apply in_app_or in H as [H|[H|H]]; auto.
    + right. exists f. split; auto. left. auto.
    + destruct (IH H) as [->|(x & X & Y)]; auto. right. exists x. split; auto. right. auto.
Qed.

Lemma make_header_cdx : forall X, make_header (bs " CDX" ++ TAB :: X ++ [NL]) = Ok (split_on TAB X).
Proof.
  intros X. unfold make_header. replace (starts_with _ CDX) with true by reflexivity. cbv iota.
  replace (List.length _ <? 5) with false by (symmetry; apply Nat.ltb_ge; cbn; lia).
  change (skipn 5 (bs " CDX" ++ TAB :: X ++ [NL])) with (X ++ [NL]). cbv zeta. rewrite split_plain_nl by discriminate. auto.
Qed.
Lemma head_names_cdx : forall X, head_names TAB (bs " CDX" ++ TAB :: X ++ [NL]) = split_on TAB X.
Proof.
  intros X. unfold head_names. replace (starts_with _ CDX) with true by reflexivity. cbv iota.
  change (bs " CDX" ++ TAB :: X ++ [NL]) with ((bs " CDX" ++ TAB :: X) ++ [NL]). rewrite split_plain_nl by discriminate.
  rewrite !split_on_split_str, split_str_app; [reflexivity|cbn; intuition discriminate].
Qed.
