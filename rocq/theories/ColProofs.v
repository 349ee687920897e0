(** Lemmas on column sets, writers, scoped values and composite columns. *)
From Coq Require Import String List NArith ZArith Bool Arith Lia.
Open Scope list_scope.
Import ListNotations.
From Verif Require Import Base TextSpec TextModel StrSpec StrModel StrProofs MatchModel MatchProofs ReadModel HdrModel HdrSpec HdrProofs IpProofs TransProofs ColModel ColSpec.
Close Scope Z_scope.

(** * Characters *)
Definition special (c : N) : bool := existsb (N.eqb c) [44; 58; 45; 40; 126; 43; 94; 123; 125; 41]%N.

Lemma lookup_col_at : forall (names : list bytes) (s : bytes) k i, nth_error names k = Some s -> (forall j, j < k -> nth_error names j <> Some s) ->
  lookup_col names s i = Ok (i + N.of_nat k)%N.
Proof.
  induction names as [|x names IH]; intros s k i H U; [destruct k; discriminate|]. cbn [lookup_col].
  destruct k as [|k].
  - injection H as ->. rewrite beq_refl. f_equal. lia.
  - destruct (beq x s) eqn:E.
    + apply beq_eq in E. subst. exfalso. apply (U 0); [lia|reflexivity].
    + rewrite (IH s k); auto.
      * f_equal. lia.
      * intros j J. apply (U (S j)). lia.
Qed.
Lemma lookup_col_none : forall names s i, ~ In s names -> lookup_col names s i = Err.
Proof.
  induction names as [|x names IH]; intros s i H; auto. cbn [lookup_col]. destruct (beq x s) eqn:E.
  - apply beq_eq in E. subst. exfalso. apply H. left; auto.
  - apply IH. intros I. apply H. right; auto.
Qed.
Lemma first_index : forall (names : list bytes) (s : bytes), In s names -> exists k, k < List.length names /\ nth_error names k = Some s /\
  forall j, j < k -> nth_error names j <> Some s.
Proof.
  induction names as [|x names IH]; intros s H; [destruct H|]. destruct (beq x s) eqn:E.
  - apply beq_eq in E. subst. exists 0. cbn. repeat split; auto; try lia.
  - destruct H as [->|H]; [rewrite beq_refl in E; discriminate|]. destruct (IH s H) as (k & L & N & U).
    exists (S k). cbn. repeat split; auto; try lia. intros [|j] J.
    + cbn. intros [=->]. rewrite beq_refl in E. discriminate.
    + cbn. apply U. lia.
Qed.
Lemma print_N_nonzero : forall n, (1 <= n)%N -> exists c r, print_N n = c :: r /\ is_digit c = true /\ c <> 48%N /\ c <> 43%N.
Proof.
  intros n H. destruct (print_N_head n) as (c & r & E & D & P & _). exists c, r. repeat split; auto. intros ->.
  destruct (print_N_canonical n) as [_ [C|C]]; rewrite E in C; [cbn in C; congruence|]. injection C as ->.
  pose proof (print_N_val n) as V. rewrite E in V. cbn in V. lia.
Qed.


Section Col.
Variable uni_alpha uni_alnum : N -> bool.
Variable T : Type.
Variable trans_make : bytes -> res T.
Variable trans_run : T -> bytes -> res bytes.
Variable match_make : bytes -> res (bytes -> bool).
Notation letter := (alphabetic uni_alpha).
Notation alnum := (alphanumeric uni_alnum).

Lemma special_low : forall c, special c = true -> (c < 128)%N /\ ascii_letter c = false /\ is_digit c = false.
Proof.
  intros c H. unfold special in H. cbn [existsb] in H. rewrite !orb_true_iff in H.
  repeat (destruct H as [H|H]; [apply N.eqb_eq in H; subst; vm_compute; auto|]). discriminate.
Qed.
Lemma letter_plain : forall c, letter c = true -> special c = false /\ is_digit c = false.
Proof.
  intros c H. destruct (special c) eqn:E.
  - apply special_low in E as (L & A & _). unfold alphabetic in H. apply N.ltb_lt in L. rewrite L in H. congruence.
  - split; auto. unfold alphabetic in H. destruct (c <? 128)%N eqn:L.
    + unfold ascii_letter in H. unfold is_digit. rewrite orb_true_iff, !andb_true_iff, !N.leb_le in H. apply andb_false_iff. rewrite !N.leb_gt. lia.
    + apply N.ltb_ge in L. unfold is_digit. apply andb_false_iff. rewrite !N.leb_gt. lia.
Qed.
Lemma alnum_plain : forall c, alnum c = true \/ c = 95%N -> special c = false.
Proof.
  intros c [H|H]; [|subst; reflexivity]. destruct (special c) eqn:E; auto.
  apply special_low in E as (L & A & D). unfold alphanumeric in H. apply N.ltb_lt in L. rewrite L, A, D in H. discriminate.
Qed.
Lemma digit_plain : forall c, (48 <= c <= 57)%N -> special c = false.
Proof.
  intros c H. destruct (special c) eqn:E; auto. apply special_low in E as (_ & _ & D). unfold is_digit in D.
  apply andb_false_iff in D. rewrite !N.leb_gt in D. lia.
Qed.
Lemma named_plain : forall s, well_named letter alnum s -> Forall (fun c => special c = false) s.
Proof.
  intros [|c r]; cbn; auto. intros [L F]. constructor; [apply letter_plain; auto|].
  eapply Forall_impl; [|exact F]. intros. apply alnum_plain; auto.
Qed.
Lemma print_plain : forall n, Forall (fun c => special c = false) (print_N n).
Proof.
  intros. unfold print_N. eapply Forall_impl; [|apply digits_digit]. intros c H. apply digit_plain. exact H.
Qed.
Lemma plain_not_in : forall d l, special d = true -> Forall (fun c => special c = false) l -> ~ In d l.
Proof. intros d l S F I. rewrite Forall_forall in F. rewrite (F _ I) in S. discriminate. Qed.

(** * Places *)
Lemma place_chars : forall p, place_ok letter alnum p ->
  exists t, Forall (fun c => special c = false) t /\ t <> [] /\ (place_text p = t \/ exists n, p = PEnd n /\ place_text p = 43%N :: t).
Proof.
  intros [n|n|s] H; cbn in *.
  - exists (print_N n). repeat split; auto using print_plain. destruct (print_N_head n) as (c & r & -> & _). discriminate.
  - exists (print_N n). repeat split; eauto using print_plain. destruct (print_N_head n) as (c & r & -> & _). discriminate.
  - destruct H. exists s. repeat split; auto. eapply named_plain; eauto.
Qed.
Lemma place_not_in : forall p d, place_ok letter alnum p -> special d = true -> d <> 43%N -> ~ In d (place_text p).
Proof.
  intros p d H S D. destruct (place_chars p H) as (t & F & _ & [-> | (n & _ & ->)]).
  - apply plain_not_in; auto.
  - intros [I|I]; [congruence|]. revert I. apply plain_not_in; auto.
Qed.
Lemma place_ne : forall p, place_ok letter alnum p -> place_text p <> [].
Proof. intros p H. destruct (place_chars p H) as (t & F & E & [-> | (n & _ & ->)]); auto. discriminate. Qed.

Section Names.
Variable names : list bytes.
Hypothesis fits : (N.of_nat (List.length names) < 2 ^ 64)%N.
Let len := List.length names.

Lemma single_at : forall p k, place_ok letter alnum p -> place_at names p k -> single names (place_text p) = Ok (N.of_nat k).
Proof.
  intros [n|n|s] k H [L A]; cbn [place_text place_ok] in *.
  - destruct (print_N_nonzero n) as (c & r & E & D & Z & P); [lia|]. unfold single. rewrite E.
    apply N.eqb_neq in Z, P. rewrite Z, P, D. cbn [andb negb]. rewrite <- E, to_usize_whole_print by lia. cbn [rbind].
    replace (n <? 1)%N with false by (symmetry; apply N.ltb_ge; lia). f_equal. lia.
  - unfold single. rewrite N.eqb_refl, to_usize_whole_print by lia. cbn [rbind].
    replace (_ <? n)%N with false by (symmetry; apply N.ltb_ge; lia). f_equal. lia.
  - destruct H as [NE W]. destruct s as [|c s]; [congruence|]. destruct A as [A U]. destruct W as [Lc F].
    destruct (letter_plain c Lc) as [S D]. unfold single. assert (c =? 43 = false)%N as P.
    { apply N.eqb_neq. intros ->. discriminate. } rewrite P, D. cbn [andb].
    rewrite (lookup_col_at names (c :: s) k); auto.
Qed.
Lemma single_not : forall p, place_ok letter alnum p -> place_within len p -> (forall k, ~ place_at names p k) ->
  single names (place_text p) = Err.
Proof.
  intros [n|n|s] H W A; cbn [place_text place_ok place_within] in *.
  - exfalso. apply (A (N.to_nat (n - 1))). unfold place_at. unfold len in W. split; lia.
  - unfold single. rewrite N.eqb_refl, to_usize_whole_print by lia. cbn [rbind].
    destruct (N.of_nat (List.length names) <? n)%N eqn:E; auto. apply N.ltb_ge in E. exfalso.
    apply (A (List.length names - N.to_nat n)). unfold place_at. split; lia.
  - destruct H as [NE Wn]. destruct s as [|c s]; [congruence|]. destruct Wn as [Lc F].
    destruct (letter_plain c Lc) as [S D]. unfold single. assert (c =? 43 = false)%N as P.
    { apply N.eqb_neq. intros ->. discriminate. } rewrite P, D. cbn [andb].
    apply lookup_col_none. intros I. destruct (first_index _ _ I) as (k & L & N & U). apply (A k). split; auto.
Qed.
Lemma place_dec : forall p, place_ok letter alnum p -> place_within len p ->
  (exists k, place_at names p k) \/ (forall k, ~ place_at names p k).
Proof.
  intros p H W. destruct (single names (place_text p)) as [k| |] eqn:E.
  - destruct p as [n|n|s]; cbn [place_text place_ok place_within] in *.
    + left. exists (N.to_nat (n - 1)). unfold place_at. unfold len in W. split; lia.
    + destruct (N.leb_spec n (N.of_nat (List.length names))).
      * left. exists (List.length names - N.to_nat n). unfold place_at. split; lia.
      * right. intros k' [L A]. lia.
    + destruct (in_dec (list_eq_dec N.eq_dec) s names) as [I|I].
      * left. destruct (first_index _ _ I) as (k' & L & N & U). exists k'. split; auto.
      * right. intros k' [L [N U]]. apply I. eapply nth_error_In; eauto.
  - right. intros k A. rewrite (single_at p k H A) in E. discriminate.
  - right. intros k A. rewrite (single_at p k H A) in E. discriminate.
Qed.
Lemma place_unique : forall p k k', place_at names p k -> place_at names p k' -> k = k'.
Proof.
  intros [n|n|s] k k' [L A] [L' A']; cbn in *; try lia. destruct A as [A U], A' as [A' U'].
  destruct (Nat.lt_trichotomy k k') as [X|[X|X]]; auto; exfalso; [apply (U' k)|apply (U k')]; auto.
Qed.

(** * Ranges *)
Definition oc (l : bytes) (k : nat) : outcol := mkoc (N.of_nat k) l None.
Definition dashes (name : bytes) (parts : list bytes) : res (list outcol) :=
  match parts with
  | [a] => rbind (single names (match a with [] => bs "1" | _ => a end)) (fun k => Ok [mkoc k name None])
  | [a; b] =>
      rbind (single names (match a with [] => bs "1" | _ => a end)) (fun s =>
      rbind (single names (match b with [] => bs "+1" | _ => b end)) (fun e =>
      if (e <? s)%N then Err else Ok (map (fun n => mkoc n name None) (upto s e))))
  | _ => Err
  end.
Lemma range_body : forall l c b, well_named letter alnum l -> ~ In 58%N (c :: b) -> c <> 40%N ->
  range match_make names (label_text l ++ c :: b) = dashes l (split_str 45 (c :: b)).
Proof.
  intros l c b W N P. unfold range, dashes. apply N.eqb_neq in P. destruct l as [|x l]; cbn [label_text app].
  - rewrite (split_once_none 58 (c :: b) N), P. reflexivity.
  - rewrite <- app_assoc. cbn [app]. change (x :: l ++ 58%N :: c :: b) with ((x :: l) ++ 58%N :: c :: b). rewrite split_once_app, P; [reflexivity|].
    apply plain_not_in; [reflexivity|]. eapply named_plain; eauto.
Qed.
Lemma item_body : forall i, item_ok letter alnum i -> exists c b, item_text i = c :: b /\ ~ In 58%N (c :: b) /\ ~ In 44%N (c :: b) /\ c <> 40%N /\ c <> 126%N.
Proof.
  assert (X : forall p r, place_ok letter alnum p -> exists c b, place_text p ++ r = c :: b /\ c <> 40%N /\ c <> 126%N).
  { intros p r H. pose proof (place_ne p H). destruct (place_text p) as [|c b] eqn:E; [congruence|]. exists c, (b ++ r). split; auto.
    pose proof (place_not_in p 40%N H eq_refl). pose proof (place_not_in p 126%N H eq_refl). rewrite E in *.
    split; intros ->; [apply H1|apply H2]; try discriminate; left; auto. }
  intros [p|a b] H; cbn [item_text item_ok] in *.
  - destruct (X p [] H) as (c & b & E & P & Q). rewrite app_nil_r in E. exists c, b. rewrite <- E. repeat split; auto; apply place_not_in; auto; discriminate.
  - destruct H as [Ha Hb]. 
    assert (F : forall d o, end_ok letter alnum o -> special d = true -> d <> 43%N -> ~ In d (end_text o)).
    { intros d [q|] Hq S D; cbn; [apply place_not_in; auto|tauto]. }
    assert (G : forall d, special d = true -> d <> 43%N -> d <> 45%N -> ~ In d (end_text a ++ 45%N :: end_text b)).
    { intros d S D D' I. apply in_app_or in I as [I|[I|I]]; [|congruence|]; revert I; apply F; auto. }
    destruct a as [p|].
    + destruct (X p (45%N :: end_text b) Ha) as (c & b' & E & P & Q). exists c, b'. cbn [end_text] in *. rewrite <- E.
      repeat split; auto; apply G; auto; discriminate.
    + exists 45%N, (end_text b). cbn [end_text app]. change (45%N :: end_text b) with (end_text None ++ 45%N :: end_text b).
      repeat split; try (apply G; auto); discriminate.
Qed.
Lemma seq_plus : forall n i z, map (fun k => i + k) (seq z n) = seq (i + z) n.
Proof. induction n; intros; cbn; auto. f_equal. rewrite IHn. f_equal. lia. Qed.
Lemma upto_seq : forall i j, i <= j -> upto (N.of_nat i) (N.of_nat j) = map N.of_nat (seq i (j - i + 1)).
Proof.
  intros i j H. unfold upto. rewrite <- Nnat.Nat2N.inj_sub, Nnat.Nat2N.id.
  replace (seq i (j - i + 1)) with (map (fun k => i + k) (seq 0 (j - i + 1))).
  - rewrite map_map. apply map_ext. intros. lia.
  - rewrite seq_plus, Nat.add_0_r. reflexivity.
Qed.
Lemma single_first : forall o i, end_ok letter alnum o -> first_at names o i ->
  single names (match end_text o with [] => bs "1" | _ => end_text o end) = Ok (N.of_nat i).
Proof.
  intros [p|] i H A; cbn [end_text first_at end_ok] in *.
  - pose proof (place_ne p H). rewrite <- (single_at p i H A). destruct (place_text p); congruence.
  - subst. reflexivity.
Qed.
Lemma single_last : forall o j, end_ok letter alnum o -> last_at names o j ->
  single names (match end_text o with [] => bs "+1" | _ => end_text o end) = Ok (N.of_nat j).
Proof.
  intros [p|] i H A; cbn [end_text last_at end_ok] in *.
  - pose proof (place_ne p H). rewrite <- (single_at p i H A). destruct (place_text p); congruence.
  - change (bs "+1") with (place_text (PEnd 1)). apply single_at; [cbn; lia|]. unfold place_at. lia.
Qed.
Lemma end_split : forall a b, end_ok letter alnum a -> end_ok letter alnum b ->
  split_str 45 (end_text a ++ 45%N :: end_text b) = [end_text a; end_text b].
Proof.
  intros a b Ha Hb. assert (F : forall o, end_ok letter alnum o -> ~ In 45%N (end_text o)).
  { intros [q|] Hq; cbn; [apply place_not_in; auto; discriminate|tauto]. }
  rewrite split_str_app by auto. rewrite split_str_none by auto. reflexivity.
Qed.
Lemma range_item : forall l i ks, well_named letter alnum l -> item_ok letter alnum i -> item_cols names i ks ->
  range match_make names (label_text l ++ item_text i) = Ok (map (oc l) ks).
Proof.
  intros l i ks W H C. destruct (item_body i H) as (c & b & E & N & _ & P & _). rewrite E, range_body by auto. rewrite <- E.
  destruct i as [p|x y]; cbn [item_text item_ok item_cols] in *.
  - destruct C as (k & A & ->). rewrite split_str_none by (apply place_not_in; auto; discriminate). cbn [dashes].
    pose proof (place_ne p H). pose proof (single_at p k H A) as S. destruct (place_text p); [congruence|]. rewrite S. reflexivity.
  - destruct C as (i & j & A & B & L & ->). destruct H as [Hx Hy]. rewrite end_split by auto. cbn [dashes].
    rewrite (single_first x i) by auto. cbn [rbind]. rewrite (single_last y j) by auto. cbn [rbind].
    replace (_ <? _)%N with false by (symmetry; apply N.ltb_ge; lia). rewrite upto_seq by auto. rewrite map_map. reflexivity.
Qed.
Lemma range_item_err : forall l i, well_named letter alnum l -> item_ok letter alnum i -> item_within len i ->
  (forall ks, ~ item_cols names i ks) -> range match_make names (label_text l ++ item_text i) = Err.
Proof.
  intros l i W H In C. destruct (item_body i H) as (c & b & E & N & _ & P & _). rewrite E, range_body by auto. rewrite <- E.
  destruct i as [p|x y]; cbn [item_text item_ok item_cols item_within] in *.
  - rewrite split_str_none by (apply place_not_in; auto; discriminate). cbn [dashes].
    pose proof (place_ne p H). assert (S : single names (place_text p) = Err).
    { apply single_not; auto. intros k A. apply (C [k]). eauto. }
    destruct (place_text p); [congruence|]. rewrite S. reflexivity.
  - destruct H as [Hx Hy]. destruct In as [Ix Iy]. rewrite end_split by auto. cbn [dashes].
    assert (X : (exists i, first_at names x i) \/ single names (match end_text x with [] => bs "1" | _ => end_text x end) = Err).
    { destruct x as [p|]; [|left; exists 0; reflexivity]. cbn [end_text end_ok end_within first_at] in *. destruct (place_dec p Hx Ix) as [|A]; auto.
      right. rewrite <- (single_not p Hx Ix A). pose proof (place_ne p Hx). destruct (place_text p); congruence. }
    assert (Y : (exists j, last_at names y j) \/ single names (match end_text y with [] => bs "+1" | _ => end_text y end) = Err).
    { destruct y as [p|]; cbn [end_text end_ok end_within last_at] in *.
      - destruct (place_dec p Hy Iy) as [|A]; auto.
        right. rewrite <- (single_not p Hy Iy A). pose proof (place_ne p Hy). destruct (place_text p); congruence.
      - destruct (Nat.eq_dec (List.length names) 0) as [Z|Z].
        + right. apply length_zero_iff_nil in Z. rewrite Z. reflexivity.
        + left. exists (List.length names - 1). lia. }
    destruct X as [(i & A)|X]; [|rewrite X; reflexivity]. rewrite (single_first x i) by auto. cbn [rbind].
    destruct Y as [(j & B)|Y]; [|rewrite Y; reflexivity]. rewrite (single_last y j) by auto. cbn [rbind].
    destruct (N.of_nat j <? N.of_nat i)%N eqn:L; auto. apply N.ltb_ge in L. exfalso.
    apply (C (seq i (j - i + 1))). exists i, j. repeat split; auto. lia.
Qed.
Lemma match_all_filter : forall f l i pre, names = pre ++ l -> i = List.length pre ->
  match_all f l (N.of_nat i) = map N.of_nat (filter (fun k => f (nth k names [])) (seq i (List.length l))).
Proof.
  induction l as [|x l IH]; intros i pre E L; cbn [match_all List.length seq filter map]; auto.
  assert (X : nth i names [] = x). { rewrite E, L, app_nth2, Nat.sub_diag by lia. reflexivity. } rewrite X.
  replace (N.of_nat i + 1)%N with (N.of_nat (S i)) by lia. specialize (IH (S i) (pre ++ [x])).
  rewrite <- app_assoc in IH. cbn [app] in IH. rewrite app_length in IH. cbn [List.length] in IH.
  destruct (f x); cbn [map]; rewrite IH by (auto; lia); auto.
Qed.
Lemma removelast_snoc : forall A (l : list A) x, removelast (l ++ [x]) = l.
Proof. intros. rewrite removelast_app by discriminate. cbn. apply app_nil_r. Qed.
Lemma range_group : forall g, ~ In 58%N g ->
  range match_make names (40%N :: g ++ [41%N]) =
  rbind (match_make g) (fun f => Ok (map (oc []) (filter (fun k => f (nth k names [])) (seq 0 len)))).
Proof.
  intros g N. unfold range. rewrite split_once_none.
  2:{ intros [I|I]; [discriminate|]. apply in_app_or in I as [I|[I|[]]]; [auto|discriminate]. }
  cbn [N.eqb Pos.eqb]. destruct (g ++ [41%N]) as [|c r] eqn:E; [destruct g; discriminate|]. rewrite <- E, last_last, removelast_snoc.
  cbn [N.ltb N.compare Pos.compare Pos.compare_cont]. destruct (match_make g) as [f| |]; auto. cbn [rbind]. f_equal.
  change 0%N with (N.of_nat 0). rewrite (match_all_filter f names 0 []) by auto. rewrite map_map. reflexivity.
Qed.

Lemma item_dec : forall i, item_ok letter alnum i -> item_within len i -> (exists ks, item_cols names i ks) \/ (forall ks, ~ item_cols names i ks).
Proof.
  intros i H W. assert (X := fun l => range_item_err [] i l H W). cbn [label_text app] in X. 
  destruct i as [p|x y]; cbn [item_ok item_within item_cols] in *.
  - destruct (place_dec p H W) as [(k & A)|A]; [left; eauto|right; intros ks (k & B & _); eapply A; eauto].
  - destruct H as [Hx Hy], W as [Wx Wy].
    assert (DX : (exists i, first_at names x i) \/ (forall i, ~ first_at names x i)).
    { destruct x as [p|]; cbn in *; [apply place_dec; auto|left; eauto]. }
    assert (DY : (exists i, last_at names y i) \/ (forall i, ~ last_at names y i)).
    { destruct y as [p|]; cbn in *; [apply place_dec; auto|]. destruct (Nat.eq_dec (List.length names) 0); [right; intros; lia|].
      left. exists (List.length names - 1). lia. }
    destruct DX as [(i & A)|A]; [|right; intros ks (i & j & B & _); eapply A; eauto].
    destruct DY as [(j & B)|B]; [|right; intros ks (i' & j & _ & B' & _); eapply B; eauto].
    destruct (le_gt_dec i j) as [L|L]; [left; eauto 10|]. right. intros ks (i' & j' & A' & B' & L' & _).
    assert (i = i') by (destruct x as [p|]; cbn in *; [eapply place_unique; eauto|congruence]).
    assert (j = j') by (destruct y as [p|]; cbn in *; [eapply place_unique; eauto|lia]). lia.
Qed.
End Names.

(** * Adding specifications *)
Definition part_val (q : part_) : bytes :=
  match q_what q with WItem i => label_text (q_label q) ++ item_text i | WGroup g => 40%N :: g ++ [41%N] end.
Definition put_parts (c : colset T) (qs : list part_) (tr : option nat) : colset T :=
  mkset (cs_pos c ++ map (fun q => mkpart (part_val q) tr) (filter (fun q => negb (q_not q)) qs))
        (cs_neg c ++ map (fun q => mkpart (part_val q) tr) (filter q_not qs)) (cs_cols c) (cs_done c) (cs_trans c).
Lemma put_parts_cons : forall c q qs tr, put_parts c (q :: qs) tr = put_parts (put_parts c [q] tr) qs tr.
Proof. intros. unfold put_parts. cbn [cs_pos cs_neg cs_cols cs_done cs_trans filter]. destruct (q_not q); cbn [negb map]; rewrite <- ?app_assoc, ?app_nil_r; reflexivity. Qed.
Lemma body_head : forall l i, well_named letter alnum l -> item_ok letter alnum i ->
  exists c b, label_text l ++ item_text i = c :: b /\ ~ In 44%N (c :: b) /\ c <> 126%N /\ c <> 40%N.
Proof.
  intros l i W H. destruct (item_body i H) as (c & b & E & _ & N & P & Q). rewrite E. destruct l as [|x l]; cbn [label_text app].
  - eauto 10.
  - pose proof (named_plain _ W) as F. exists x, ((l ++ [58%N]) ++ c :: b). split; auto. inversion F; subst.
    assert (x <> 126%N /\ x <> 40%N) by (split; intros ->; discriminate). split; [|tauto].
    intros [I|I]; [subst; discriminate|]. rewrite <- app_assoc in I. apply in_app_or in I as [I|[I|I]]; [|discriminate|auto].
    revert I. apply plain_not_in; auto.
Qed.
Lemma add_one_term : forall c t flip tr, term_ok letter alnum t ->
  add_one c (term_text t) flip tr = put_parts c [mkp (xorb flip (t_not t)) (t_label t) (WItem (t_item t)) None] tr.
Proof.
  intros c [n l i] flip tr [W H]. cbn [t_label t_item] in *. unfold term_text, put_parts, part_val. cbn [t_not t_label t_item q_not q_what q_label filter].
  destruct (body_head l i W H) as (x & b & E & _ & P & _). rewrite E. destruct n; cbn [app add_one].
  - rewrite N.eqb_refl. destruct flip; cbn [xorb negb map q_what q_label]; rewrite ?app_nil_r, ?E; reflexivity.
  - apply N.eqb_neq in P. rewrite P. destruct flip; cbn [xorb negb map q_what q_label]; rewrite ?app_nil_r, ?E; reflexivity.
Qed.
Lemma term_head : forall t, term_ok letter alnum t -> exists c b, term_text t = c :: b /\ ~ In 44%N (c :: b) /\ c <> 40%N.
Proof.
  intros [n l i] [W H]. cbn [t_label t_item] in *. unfold term_text. cbn [t_not t_label t_item].
  destruct (body_head l i W H) as (x & b & E & N & P & Q). rewrite E. destruct n; cbn [app]; [|eauto].
  exists 126%N, (x :: b). split; auto. split; [|discriminate]. intros [I|I]; [discriminate|auto].
Qed.
Definition group_texts (o : option bytes) : list bytes := match o with None => [] | Some g => [40%N :: g ++ [41%N]] end.
Lemma add_loop_spec : forall flip tr g ts c fuel, Forall (term_ok letter alnum) ts -> ts <> [] \/ g <> None ->
  (forall p, g = Some p -> balanced 40 41 p) -> List.length (map term_text ts ++ group_texts g) <= fuel ->
  add_loop fuel c (join 44 (map term_text ts ++ group_texts g)) flip tr = Ok (put_parts c (parts_of flip (mkspec ts g None)) tr).
Proof.
  intros flip tr g. induction ts as [|t ts IH]; intros c fuel F NE B L.
  - destruct g as [p|]; [|destruct NE; congruence]. cbn [map app group_texts join List.length] in *. destruct fuel as [|fuel]; [lia|].
    cbn [add_loop]. rewrite N.eqb_refl. change (40%N :: p ++ [41%N]) with (40%N :: p ++ 41%N :: []).
    rewrite find_close_hit by (auto; left; reflexivity). cbn [rbind].
    assert (E : List.length p + 2 = List.length (40%N :: p ++ [41%N])) by (cbn [List.length]; rewrite app_length; cbn; lia).
    rewrite E, firstn_all, skipn_all. unfold parts_of, put_parts, part_val. cbn [s_terms s_group s_trans map app filter q_not].
    cbn [add_one N.eqb Pos.eqb]. destruct flip; cbn [negb map q_what]; rewrite ?app_nil_r; reflexivity.
  - inversion F as [|? ? Ht Fs]; subst. destruct (term_head t Ht) as (x & b & E & N & P). cbn [map app] in *. destruct fuel as [|fuel]; [cbn in L; lia|].
    apply N.eqb_neq in P. unfold parts_of. cbn [s_terms s_group s_trans map app].
    destruct (map term_text ts ++ group_texts g) as [|y ys] eqn:R.
    + cbn [join]. rewrite E. cbn [add_loop]. rewrite P, split_once_none by auto. rewrite <- E, add_one_term by auto.
      assert (ts = [] /\ g = None) as [-> ->]. { destruct ts; [|discriminate]. destruct g; [discriminate|]. auto. } reflexivity.
    + rewrite join_cons by discriminate. rewrite <- R, put_parts_cons.
      cbn [add_loop]. rewrite E. cbn [app]. rewrite P. change (x :: b ++ 44%N :: join 44 (map term_text ts ++ group_texts g)) with ((x :: b) ++ 44%N :: join 44 (map term_text ts ++ group_texts g)).
      rewrite split_once_app by auto. rewrite <- E, add_one_term by auto. rewrite R, IH; auto.
      * destruct ts; [|left; discriminate]. destruct g; [right; discriminate|discriminate].
      * cbn in L |- *. lia.
Qed.

(** ** Transforms *)
Inductive calm : bytes -> Prop :=
| calm_nil : calm []
| calm_char c l : c <> 43%N -> calm l -> calm (c :: l)
| calm_plus c l : letter c = false -> calm l -> calm (43%N :: c :: l).
Lemma calm_app : forall a b, calm a -> calm b -> calm (a ++ b).
Proof. induction 1; intros; cbn [app]; auto; [apply calm_char|apply calm_plus]; auto. Qed.
Lemma calm_no : forall a, ~ In 43%N a -> calm a.
Proof. induction a as [|c a IH]; intros H; constructor. - intros ->. apply H. left; auto. - apply IH. intros I. apply H. right; auto. Qed.
Lemma calm_plain : forall a, Forall (fun c => special c = false) a -> calm a.
Proof. intros a F. apply calm_no. apply plain_not_in; auto. Qed.
Lemma digit_not_letter : forall c, is_digit c = true -> letter c = false.
Proof. intros c H. destruct (letter c) eqn:E; auto. apply letter_plain in E as [_ E]. congruence. Qed.
Lemma calm_place : forall p, place_ok letter alnum p -> calm (place_text p).
Proof.
  intros [n|n|s] H; cbn [place_text place_ok] in *.
  - apply calm_plain, print_plain.
  - pose proof (print_plain n) as F. destruct (print_N_head n) as (c & r & E & D & _). rewrite E in *. inversion F; subst.
    apply calm_plus; [apply digit_not_letter; auto|apply calm_plain; auto].
  - apply calm_plain. apply named_plain; tauto.
Qed.
Lemma calm_end : forall o, end_ok letter alnum o -> calm (end_text o).
Proof. intros [p|] H; cbn; [apply calm_place; auto|constructor]. Qed.
Lemma calm_item : forall i, item_ok letter alnum i -> calm (item_text i).
Proof.
  intros [p|a b] H; cbn in *; [apply calm_place; auto|]. destruct H. apply calm_app; [apply calm_end; auto|].
  constructor; [discriminate|apply calm_end; auto].
Qed.
Lemma calm_term : forall t, term_ok letter alnum t -> calm (term_text t).
Proof.
  intros [n l i] [W H]. unfold term_text. cbn [t_not t_label t_item] in *. apply calm_app; [destruct n; repeat constructor; discriminate|].
  apply calm_app; [|apply calm_item; auto]. destruct l as [|c l]; [constructor|]. cbn [label_text].
  apply calm_app; [apply calm_plain, named_plain; auto|constructor; [discriminate|constructor]].
Qed.
Lemma calm_join : forall l, Forall calm l -> calm (join 44 l).
Proof.
  induction 1 as [|x l H F IH]; [constructor|]. destruct l; [exact H|]. rewrite join_cons by discriminate.
  apply calm_app; auto. constructor; [discriminate|auto].
Qed.
Lemma find_trans_calm : forall a, calm a -> forall rest seen, find_trans_loop uni_alpha (a ++ rest) seen false = find_trans_loop uni_alpha rest (rev a ++ seen) false.
Proof.
  induction 1 as [|c l N C IH|c l N C IH]; intros rest seen; auto.
  - cbn [app find_trans_loop rev]. apply N.eqb_neq in N. rewrite N, IH, <- app_assoc. reflexivity.
  - cbn [app find_trans_loop rev]. cbn [N.eqb Pos.eqb]. rewrite N, IH. rewrite <- !app_assoc. reflexivity.
Qed.
Lemma join_long : forall d l, List.length l <= S (List.length (join d l)).
Proof.
  induction l as [|x l IH]; cbn [List.length]; [lia|]. destruct l; [cbn; lia|]. rewrite join_cons by discriminate. rewrite app_length.
  cbn [List.length] in *. lia.
Qed.
Lemma add_spec : forall c s flip, spec_ok letter alnum s ->
  add uni_alpha trans_make c (spec_text s) flip =
  match s_trans s with
  | None => Ok (put_parts c (parts_of flip s) None)
  | Some t => rbind (trans_make t) (fun t =>
      Ok (put_parts (mkset (cs_pos c) (cs_neg c) (cs_cols c) (cs_done c) (cs_trans c ++ [t])) (parts_of flip s) (Some (List.length (cs_trans c)))))
  end.
Proof.
  intros c [ts g tr] flip (F & NE & G & Tr). cbn [s_terms s_group s_trans] in *. unfold add, spec_text, find_trans. cbn [s_terms s_group s_trans].
  change (match g with None => [] | Some g => [40%N :: g ++ [41%N]] end) with (group_texts g).
  set (text := join 44 (map term_text ts ++ group_texts g)).
  assert (C : calm text).
  { apply calm_join. apply Forall_app. split.
    - rewrite Forall_map. eapply Forall_impl; [|exact F]. intros; apply calm_term; auto.
    - destruct g as [p|]; constructor; auto. apply calm_no. destruct (G p eq_refl) as (_ & N & _). intros [I|I]; [discriminate|].
      apply in_app_or in I as [I|[I|[]]]; [auto|discriminate]. }
  assert (P : forall tr0, map (fun q => mkp (q_not q) (q_label q) (q_what q) None) (parts_of flip (mkspec ts g tr0)) = parts_of flip (mkspec ts g None)).
  { intros. unfold parts_of. cbn [s_terms s_group s_trans]. rewrite map_app, map_map. f_equal. destruct g; reflexivity. }
  assert (Q : forall c tr0 i, put_parts c (parts_of flip (mkspec ts g None)) i = put_parts c (parts_of flip (mkspec ts g tr0)) i).
  { intros c0 tr0 i. rewrite <- (P tr0). unfold put_parts. f_equal; f_equal; generalize (parts_of flip (mkspec ts g tr0)); induction l as [|q l IH]; cbn [map filter]; auto; cbn [q_not]; destruct (q_not q); cbn [negb map]; rewrite ?IH; reflexivity. }
  rewrite find_trans_calm by auto. rewrite app_nil_r. destruct tr as [t|].
  - destruct (Tr t eq_refl) as (x & r & -> & L). cbn [find_trans_loop N.eqb Pos.eqb]. rewrite L, rev_involutive.
    destruct (trans_make (x :: r)) as [t| |]; auto. cbn [rbind]. unfold text. rewrite add_loop_spec; auto using join_long.
    + f_equal. apply Q.
    + intros p E. apply (G p E).
  - cbn [find_trans_loop]. rewrite app_nil_r. unfold text. rewrite add_loop_spec; auto using join_long.
    intros p E. apply (G p E).
Qed.

(** * Looking up *)
Definition tr_rel (trs : list T) (p : option nat) (t : option bytes) : Prop :=
  match t with None => p = None | Some t => exists i x, p = Some i /\ nth_error trs i = Some x /\ trans_make t = Ok x end.
Definition part_rel (trs : list T) (p : part) (q : part_) : Prop := p_val p = part_val q /\ tr_rel trs (p_trans p) (q_trans q).
Definition out_rel (trs : list T) (o : outcol) (w : nat * (bytes * option bytes)) : Prop :=
  oc_num o = N.of_nat (fst w) /\ oc_name o = fst (snd w) /\ tr_rel trs (oc_trans o) (snd (snd w)).
Lemma tr_rel_more : forall a b p t, tr_rel a p t -> tr_rel (a ++ b) p t.
Proof.
  intros a b p [t|] H; auto. destruct H as (i & x & E & N & M). exists i, x. repeat split; auto. rewrite nth_error_app1; auto.
  apply nth_error_Some. congruence.
Qed.
Lemma part_rel_more : forall a b ps qs, Forall2 (part_rel a) ps qs -> Forall2 (part_rel (a ++ b)) ps qs.
Proof. induction 1 as [|p q ps qs [V R] F IH]; constructor; auto. split; auto. apply tr_rel_more; auto. Qed.

Definition all_parts (calls : list (bool * cspec)) : list part_ := flat_map (fun '(f, s) => parts_of f s) calls.
Definition call_texts (calls : list (bool * cspec)) : list (bool * bytes) := map (fun '(f, s) => (f, spec_text s)) calls.
Definition trans_ok (s : cspec) : Prop := forall t, s_trans s = Some t -> exists x, trans_make t = Ok x.
Definition set_rel (c : colset T) (qs : list part_) : Prop :=
  Forall2 (part_rel (cs_trans c)) (cs_pos c) (filter (fun q => negb (q_not q)) qs) /\
  Forall2 (part_rel (cs_trans c)) (cs_neg c) (filter q_not qs).

Lemma part_rel_map : forall trs i qs, (forall q, In q qs -> tr_rel trs i (q_trans q)) ->
  Forall2 (part_rel trs) (map (fun q => mkpart (part_val q) i) qs) qs.
Proof. induction qs as [|q qs IH]; intros H; cbn; constructor; [split; cbn; auto; apply H; left; auto|apply IH; intros; apply H; right; auto]. Qed.
Lemma parts_of_trans : forall f s q, In q (parts_of f s) -> q_trans q = s_trans s.
Proof.
  intros f s q I. unfold parts_of in I. apply in_app_or in I as [I|I].
  - apply in_map_iff in I as (t & <- & _). reflexivity.
  - destruct (s_group s); [|destruct I]. destruct I as [<-|[]]. reflexivity.
Qed.
Lemma adds_spec : forall calls c qs, set_rel c qs -> Forall (fun fs => spec_ok letter alnum (snd fs) /\ trans_ok (snd fs)) calls ->
  exists c', adds uni_alpha trans_make c (call_texts calls) = Ok c' /\ set_rel c' (qs ++ all_parts calls) /\ cs_done c' = cs_done c.
Proof.
  induction calls as [|[f s] calls IH]; intros c qs R F.
  - exists c. rewrite app_nil_r. auto.
  - inversion F as [|? ? [Hs Ht] Fs]; subst. cbn [snd] in *. cbn [call_texts map adds all_parts flat_map]. rewrite add_spec by auto.
    destruct R as [RP RN].
    assert (X : exists c1, match s_trans s with
      | None => Ok (put_parts c (parts_of f s) None)
      | Some t => rbind (trans_make t) (fun t => Ok (put_parts (mkset (cs_pos c) (cs_neg c) (cs_cols c) (cs_done c) (cs_trans c ++ [t])) (parts_of f s) (Some (List.length (cs_trans c)))))
      end = Ok c1 /\ set_rel c1 (qs ++ parts_of f s) /\ cs_done c1 = cs_done c).
    { destruct (s_trans s) as [t|] eqn:E.
      - destruct (Ht t E) as [x M]. rewrite M. cbn [rbind]. eexists. split; [reflexivity|]. split; [|reflexivity]. unfold set_rel, put_parts. cbn [cs_pos cs_neg cs_trans].
        assert (TR : forall q, In q (parts_of f s) -> tr_rel (cs_trans c ++ [x]) (Some (List.length (cs_trans c))) (q_trans q)).
        { intros q I. rewrite (parts_of_trans _ _ _ I), E. exists (List.length (cs_trans c)), x. repeat split; auto.
          rewrite nth_error_app2, Nat.sub_diag by lia. reflexivity. }
        rewrite !filter_app. split; apply Forall2_app; auto using part_rel_more; apply part_rel_map; intros q I; apply filter_In in I as [I _]; auto.
      - eexists. split; [reflexivity|]. split; [|reflexivity]. unfold set_rel, put_parts. cbn [cs_pos cs_neg cs_trans].
        assert (TR : forall q, In q (parts_of f s) -> tr_rel (cs_trans c) None (q_trans q)).
        { intros q I. rewrite (parts_of_trans _ _ _ I), E. reflexivity. }
        rewrite !filter_app. split; apply Forall2_app; auto; apply part_rel_map; intros q I; apply filter_In in I as [I _]; auto. }
    destruct X as (c1 & E1 & R1 & D1). rewrite E1. cbn [rbind]. destruct (IH c1 (qs ++ parts_of f s) R1 Fs) as (c' & E' & R' & D').
    exists c'. rewrite <- D1. rewrite <- app_assoc in R'. auto.
Qed.

Definition pat (g : bytes) : option (bytes -> bool) := match match_make g with Ok f => Some f | _ => None end.
Definition part_ok (q : part_) : Prop :=
  match q_what q with WItem i => well_named letter alnum (q_label q) /\ item_ok letter alnum i | WGroup g => q_label q = [] /\ ~ In 58%N g end.
Lemma parts_ok : forall f s, spec_ok letter alnum s -> Forall part_ok (parts_of f s).
Proof.
  intros f s (F & _ & G & _). unfold parts_of. apply Forall_app. split.
  - rewrite Forall_map. eapply Forall_impl; [|exact F]. intros t [W H]. split; auto.
  - destruct (s_group s) as [g|]; constructor; auto. split; auto. apply (G g eq_refl).
Qed.
Section Lookup.
Variable names : list bytes.
Hypothesis fits : (N.of_nat (List.length names) < 2 ^ 64)%N.
Lemma range_part : forall q ks, part_ok q -> part_cols pat names q ks ->
  range match_make names (part_val q) = Ok (map (oc (q_label q)) ks).
Proof.
  intros q ks K C. unfold part_ok, part_cols, part_val in *. destruct (q_what q) as [i|g].
  - destruct K. apply range_item; auto.
  - destruct K as [L N]. destruct C as (f & M & ->). rewrite range_group by auto. unfold pat in M. destruct (match_make g); try discriminate.
    injection M as ->. rewrite L. reflexivity.
Qed.
Lemma range_part_err : forall q, part_ok q -> part_within (List.length names) q -> (forall ks, ~ part_cols pat names q ks) ->
  (forall g, match_make g <> Panic) -> range match_make names (part_val q) = Err.
Proof.
  intros q K W C NP. unfold part_ok, part_cols, part_val, part_within in *. destruct (q_what q) as [i|g].
  - destruct K. apply range_item_err; auto.
  - destruct K as [L N]. rewrite range_group by auto. unfold pat in C. specialize (NP g). destruct (match_make g) as [f| |]; try congruence; auto.
    exfalso. eapply C. eauto.
Qed.
Lemma part_dec : forall q, part_ok q -> part_within (List.length names) q ->
  (exists ks, part_cols pat names q ks) \/ (forall ks, ~ part_cols pat names q ks).
Proof.
  intros q K W. unfold part_ok, part_cols, part_within in *. destruct (q_what q) as [i|g].
  - destruct K. apply item_dec; auto.
  - destruct (pat g) as [f|]; [left; eauto|right; intros ks (f & E & _); discriminate].
Qed.
Definition asked (qks : list (part_ * list nat)) : list (nat * (bytes * option bytes)) :=
  flat_map (fun '(q, ks) => map (fun k => (k, (q_label q, q_trans q))) ks) qks.
Lemma ranges_spec : forall trs ps qks, Forall2 (fun p qk => part_rel trs p (fst qk)) ps qks ->
  Forall (fun qk => part_ok (fst qk) /\ part_cols pat names (fst qk) (snd qk)) qks ->
  exists l, ranges match_make names ps = Ok l /\ Forall2 (out_rel trs) l (asked qks).
Proof.
  induction 1 as [|p [q ks] ps qks [V R] F IH]; intros K.
  - exists []. split; constructor.
  - inversion K as [|? ? [Kq C] Ks]; subst. cbn [fst snd] in *. destruct (IH Ks) as (l & E & Fl). cbn [ranges]. rewrite V, (range_part q ks) by auto. cbn [rbind].
    rewrite E. cbn [rbind]. eexists. split; [reflexivity|]. cbn [asked flat_map]. apply Forall2_app; auto.
    rewrite map_map. clear - R. induction ks as [|k ks IH]; cbn [map]; constructor; auto. repeat split; auto.
Qed.
Lemma ranges_err : forall ps qs trs, Forall2 (part_rel trs) ps qs -> Forall part_ok qs -> Forall (part_within (List.length names)) qs ->
  (forall g, match_make g <> Panic) -> 
  ranges match_make names ps <> Panic /\ ((exists q, In q qs /\ forall ks, ~ part_cols pat names q ks) -> ranges match_make names ps = Err).
Proof.
  induction 1 as [|p q ps qs [V R] F IH]; intros K W NP.
  - split; [discriminate|]. intros (q & [] & _).
  - inversion K as [|? ? Kq Ks]; inversion W as [|? ? Wq Ws]; subst. destruct (IH Ks Ws NP) as [P E]. cbn [ranges]. rewrite V.
    destruct (part_dec q Kq Wq) as [(ks & C)|C].
    + rewrite (range_part q ks) by auto. cbn [rbind]. split.
      * destruct (ranges match_make names ps); [discriminate|discriminate|congruence].
      * intros (q' & [->|I] & C'); [exfalso; eapply C'; eauto|]. rewrite E by eauto. reflexivity.
    + rewrite range_part_err by auto. split; [discriminate|]. reflexivity.
Qed.
Lemma forall2_len : forall A B (R : A -> B -> Prop) l m, Forall2 R l m -> List.length l = List.length m.
Proof. induction 1; cbn; auto. Qed.
Lemma filter_combine : forall (f : part_ -> bool) qs (kss : list (list nat)), List.length qs = List.length kss ->
  map fst (filter (fun qk => f (fst qk)) (combine qs kss)) = filter f qs.
Proof.
  induction qs as [|q qs IH]; intros [|ks kss] L; cbn in *; try discriminate; auto.
  destruct (f q); cbn [map fst]; rewrite IH by lia; auto.
Qed.
Lemma forall2_map_r : forall A B C (R : A -> C -> Prop) (g : B -> C) l m, Forall2 R l (map g m) -> Forall2 (fun a b => R a (g b)) l m.
Proof. intros A B C R g l m. revert l. induction m as [|y m IH]; intros l H; inversion H; subst; constructor; auto. Qed.
Lemma forall2_filter : forall A B (R : A -> B -> Prop) f g l m, (forall a b, R a b -> f a = g b) -> Forall2 R l m -> Forall2 R (filter f l) (filter g m).
Proof. intros A B R f g l m E. induction 1 as [|a b l m H F IH]; cbn; [constructor|]. rewrite (E _ _ H). destruct (g b); auto. Qed.
Lemma picks_asked : forall qks, flat_map (fun '(q, ks) => if q_not q then [] else map (fun k : nat => (k, (q_label q, q_trans q))) ks) qks =
  asked (filter (fun qk => negb (q_not (fst qk))) qks).
Proof. induction qks as [|[q ks] qks IH]; auto. cbn [flat_map filter fst]. destruct (q_not q); cbn [negb app asked flat_map]; rewrite IH; auto. Qed.
Lemma drops_asked : forall qks, flat_map (fun '(q, ks) => if q_not q then ks else []) qks =
  map fst (asked (filter (fun qk => q_not (fst qk)) qks)).
Proof.
  induction qks as [|[q ks] qks IH]; auto. cbn [flat_map filter fst]. destruct (q_not q); cbn [app asked flat_map]; rewrite IH; auto.
  rewrite map_app, map_map. cbn [fst]. rewrite map_id. reflexivity.
Qed.
Lemma lookup_spec : forall c qs kss, set_rel c qs -> Forall part_ok qs -> Forall2 (part_cols pat names) qs kss ->
  exists c', lookup match_make c names = Ok c' /\ cs_done c' = true /\ cs_trans c' = cs_trans c /\
    Forall2 (out_rel (cs_trans c)) (cs_cols c') (wanted (List.length names) qs kss).
Proof.
  intros c qs kss [RP RN] K C. assert (L : List.length qs = List.length kss) by (eapply forall2_len; eauto).
  set (qks := combine qs kss). assert (Q : Forall (fun qk => part_ok (fst qk) /\ part_cols pat names (fst qk) (snd qk)) qks).
  { unfold qks. clear - K C. revert K. induction C; intros K; cbn; constructor; inversion K; subst; auto. }
  assert (QF : forall f, Forall (fun qk => part_ok (fst qk) /\ part_cols pat names (fst qk) (snd qk)) (filter f qks)).
  { intros f. apply Forall_forall. intros x I. apply filter_In in I as [I _]. rewrite Forall_forall in Q. auto. }
  rewrite <- (filter_combine (fun q => negb (q_not q)) qs kss L) in RP. rewrite <- (filter_combine q_not qs kss L) in RN.
  apply forall2_map_r in RP, RN. fold qks in RP, RN. cbv beta in RP, RN.
  destruct (ranges_spec _ _ _ RP (QF _)) as (lp & EP & FP). destruct (ranges_spec _ _ _ RN (QF _)) as (ln & EN & FN).
  unfold lookup. rewrite EN. cbn [rbind].
  assert (KE : forall k, existsb (fun x => (oc_num x =? N.of_nat k)%N) ln = existsb (Nat.eqb k) (drops qs kss)).
  { intros k. unfold drops. fold qks. rewrite drops_asked. clear - FN. induction FN as [|o w l m [E _] F IH]; cbn [existsb map]; auto. rewrite IH. f_equal.
    rewrite E. destruct (Nat.eqb_spec k (fst w)); [subst; apply N.eqb_refl|]. apply N.eqb_neq. lia. }
  destruct (cs_pos c) as [|p0 ps0] eqn:Ep.
  - cbn [rbind]. eexists. split; [reflexivity|]. cbn [cs_done cs_trans cs_cols]. split; auto. split; auto.
    unfold wanted. assert (A : forallb q_not qs = true).
    { pose proof (forall2_len _ _ _ _ _ RP) as E. cbn [List.length] in E. symmetry in E. apply length_zero_iff_nil in E. rewrite forallb_forall. intros q I. destruct (q_not q) eqn:N; auto. exfalso.
      assert (X : In q (filter (fun q => negb (q_not q)) qs)) by (apply filter_In; rewrite N; auto).
      rewrite <- (filter_combine _ qs kss L) in X. fold qks in X. rewrite E in X. destruct X. }
    rewrite A. rewrite (filter_ext _ (fun k => negb (existsb (Nat.eqb k) (drops qs kss)))) by (intros; rewrite KE; auto).
    generalize (filter (fun k => negb (existsb (Nat.eqb k) (drops qs kss))) (seq 0 (List.length names))). induction l; cbn; constructor; auto. repeat split; auto.
  - rewrite <- Ep in *. rewrite EP. cbn [rbind]. eexists. split; [reflexivity|]. cbn [cs_done cs_trans cs_cols]. split; auto. split; auto.
    unfold wanted. assert (A : forallb q_not qs = false).
    { apply not_true_iff_false. intros A. rewrite forallb_forall in A. rewrite Ep in RP. inversion RP as [|? qk ? ? _ _ E E']. 
      assert (X : In qk (filter (fun qk => negb (q_not (fst qk))) qks)) by (rewrite <- E'; left; auto).
      apply filter_In in X as [X N]. unfold qks in X. destruct qk as [q0 ks0]. apply in_combine_l in X. cbn [fst] in N. rewrite (A _ X) in N. discriminate. }
    rewrite A. unfold picks. fold qks. rewrite picks_asked. apply forall2_filter; auto. intros o w [E _]. rewrite E, KE. reflexivity.
Qed.
Lemma lookup_err : forall c qs, set_rel c qs -> Forall part_ok qs -> Forall (part_within (List.length names)) qs ->
  (forall g, match_make g <> Panic) -> (exists q, In q qs /\ forall ks, ~ part_cols pat names q ks) -> lookup match_make c names = Err.
Proof.
  intros c qs [RP RN] K W NP (q & I & C).
  assert (KF : forall f, Forall part_ok (filter f qs)) by (intros f; apply Forall_forall; intros x J; apply filter_In in J as [J _]; rewrite Forall_forall in K; auto).
  assert (WF : forall f, Forall (part_within (List.length names)) (filter f qs)) by (intros f; apply Forall_forall; intros x J; apply filter_In in J as [J _]; rewrite Forall_forall in W; auto).
  destruct (ranges_err _ _ _ RN (KF _) (WF _) NP) as [PN EN]. destruct (ranges_err _ _ _ RP (KF _) (WF _) NP) as [PP EP]. unfold lookup.
  destruct (q_not q) eqn:N.
  - rewrite EN; auto. exists q. split; auto. apply filter_In. auto.
  - assert (X : ranges match_make names (cs_pos c) = Err). { apply EP. exists q. split; auto. apply filter_In. rewrite N. auto. }
    destruct (ranges match_make names (cs_neg c)) as [no| |]; auto; [|congruence]. cbn [rbind]. destruct (cs_pos c); [discriminate|]. rewrite X. reflexivity.
Qed.
End Lookup.
End Col.
