(** Proofs about the merge aggregator. *)
From Coq Require Import String List NArith ZArith Bool Arith Lia SpecFloat.
Open Scope list_scope.
Import ListNotations.
From Verif Require Import Base TextSpec TextModel TextProofs StrSpec StrModel StrProofs FloatModel CompModel CompSpec SortModel SortSpec SortProofs MatchModel TransProofs RegModel HdrProofs AggModel AggSpec AggProofs.
Close Scope Z_scope.

Definition nonempty (v : bytes) : bool := match v with [] => false | _ => true end.

Lemma split_on_app_d : forall d a b, split_on d (a ++ d :: b) = split_on d a ++ split_on d b.
Proof.
  intros d. induction a as [|c a IH]; intros b.
  - cbn [app split_on]. rewrite N.eqb_refl. auto.
  - cbn [app split_on]. destruct (c =? d)%N; [rewrite IH; auto|]. rewrite IH.
    destruct (split_on d a) eqn:E; [|reflexivity]. exfalso. destruct a as [|x a]; cbn in E; [discriminate|].
    destruct (x =? d)%N; [discriminate|]. destruct (split_on d a); discriminate.
Qed.
Lemma split_on_join_all : forall d fs, fs <> [] -> split_on d (join d fs) = flat_map (split_on d) fs.
Proof.
  intros d. induction fs as [|f fs IH]; intros H; [congruence|]. destruct fs as [|g fs]; [cbn; rewrite app_nil_r; auto|].
  rewrite join_cons by discriminate. rewrite split_on_app_d, IH by discriminate. reflexivity.
Qed.
Lemma split_on_last : forall d l, l <> [] -> last l 0%N <> d -> last (split_on d l) [] <> [].
Proof.
  intros d l. induction l as [|c l IH]; intros H L; [congruence|]. cbn [split_on]. destruct l as [|x l].
  - cbn in L. cbn [split_on]. destruct (c =? d)%N eqn:E; [apply N.eqb_eq in E; congruence|]. cbn. discriminate.
  - assert (L2 : last (x :: l) 0%N <> d) by (exact L). specialize (IH ltac:(discriminate) L2).
    destruct (split_on d (x :: l)) as [|f fs] eqn:E; [cbn in IH; congruence|]. destruct (c =? d)%N.
    + cbn [last]. exact IH.
    + destruct fs; [cbn; discriminate|exact IH].
Qed.
Lemma drop_noop : forall fs, last fs [0%N] <> [] -> drop_last_empty fs = fs.
Proof.
  intros fs H. unfold drop_last_empty. destruct (rev fs) as [|x r] eqn:E; auto. destruct x; auto. exfalso. apply H.
  apply (f_equal (@rev bytes)) in E. rewrite rev_involutive in E. rewrite E. cbn. apply last_last.
Qed.
Lemma last_default : forall {A} (l : list A) x y, l <> [] -> last l x = last l y.
Proof. induction l as [|a l IH]; intros x y H; [congruence|]. destruct l; auto. apply (IH x y). discriminate. Qed.
Lemma last_app_ne : forall {A} (a b : list A) x, b <> [] -> last (a ++ b) x = last b x.
Proof.
  induction a as [|c a IH]; intros b x H; auto. cbn [app]. destruct (a ++ b) eqn:E.
  - destruct a, b; try discriminate; congruence.
  - rewrite <- E in *. cbn [last]. rewrite E. rewrite <- E. apply IH. auto.
Qed.
Lemma join_last : forall d fs, fs <> [] -> Forall (fun f => f <> []) fs -> last (join d fs) 0%N = last (last fs []) 0%N /\ join d fs <> [].
Proof.
  intros d. induction fs as [|f fs IH]; intros H F; [congruence|]. inversion F; subst. destruct fs as [|g fs]; [cbn; auto|].
  rewrite join_cons by discriminate. destruct (IH ltac:(discriminate)) as [A B]; auto. split; [|destruct f; discriminate].
  change (f ++ d :: join d (g :: fs)) with (f ++ [d] ++ join d (g :: fs)). rewrite app_assoc, last_app_ne by auto. rewrite A. auto.
Qed.

(** The pieces of the values, and when none of them is lost. *)
Definition pieces (d : N) (vs : list bytes) : list bytes := flat_map (split_on d) (filter nonempty vs).
Definition clean_end (d : N) (vs : list bytes) : Prop :=
  let l := last (filter nonempty vs) [] in last l 0%N <> NL /\ (l = [] \/ last l 0%N <> d).

Section Merge.
Variable exp10 : Z -> f64.
Variable decode : bytes -> list N.
Variable is_space is_alnum : N -> bool.
Variable comp_make : bytes -> res comp_t.
Notation adds := (agg_adds exp10 decode is_space is_alnum).

Lemma join_snoc : forall d fs x, fs <> [] -> join d (fs ++ [x]) = join d fs ++ d :: x.
Proof.
  intros d. induction fs as [|f fs IH]; intros x H; [congruence|]. destruct fs as [|g fs]; [reflexivity|].
  cbn [app]. rewrite join_cons by discriminate. change (g :: fs ++ [x]) with ((g :: fs) ++ [x]). rewrite IH by discriminate.
  rewrite (join_cons d f (g :: fs)) by discriminate. rewrite <- app_assoc. reflexivity.
Qed.
Lemma merge_data : forall o vs fs, Forall (fun f => f <> []) fs ->
  adds (GMerge o (join (m_delim o) fs)) vs = GMerge o (join (m_delim o) (fs ++ filter nonempty vs)).
Proof.
  intros o. induction vs as [|v vs IH]; intros fs F; [cbn; rewrite app_nil_r; auto|].
  cbn [adds agg_adds fold_left filter]. cbn [agg_add]. unfold agg_adds in IH. destruct v as [|c v]; [apply IH; auto|]. cbn [nonempty].
  replace (fs ++ (c :: v) :: filter nonempty vs) with ((fs ++ [c :: v]) ++ filter nonempty vs) by (rewrite <- app_assoc; auto).
  rewrite <- IH by (apply Forall_app; split; auto; constructor; auto; discriminate). f_equal. f_equal.
  destruct fs as [|f fs]; [reflexivity|]. destruct (join_last (m_delim o) (f :: fs) ltac:(discriminate) F) as [_ N].
  rewrite join_snoc by discriminate. destruct (join (m_delim o) (f :: fs)); congruence.
Qed.
Lemma filter_ne : forall vs, Forall (fun f => f <> []) (filter nonempty vs).
Proof. intros vs. apply Forall_forall. intros x Hx. apply filter_In in Hx as [_ H]. destruct x; [discriminate|discriminate]. Qed.
Lemma merge_pieces : forall d vs, clean_end d vs ->
  let data := join d (filter nonempty vs) in map (get_part data) (split_plain data d) = pieces d vs.
Proof.
  intros d vs [H1 H2] data. unfold pieces. pose proof (filter_ne vs) as F. subst data.
  destruct (filter nonempty vs) as [|f fs] eqn:E; [reflexivity|]. destruct (join_last d (f :: fs) ltac:(discriminate) F) as [A B].
  rewrite split_plain_raw by (rewrite A; auto). rewrite drop_noop; [apply split_on_join_all; discriminate|].
  assert (S : split_on d (join d (f :: fs)) <> []) by (rewrite split_on_join_all by discriminate; destruct f; cbn; [discriminate|];
    destruct (n =? d)%N; [discriminate|]; destruct (split_on d f); discriminate).
  rewrite (last_default _ [0%N] []) by auto. apply split_on_last; auto. rewrite A. destruct H2 as [H2|H2]; auto.
  exfalso. rewrite Forall_forall in F. apply (F (last (f :: fs) [])); auto. destruct (exists_last (l := f :: fs) ltac:(discriminate)) as (a & x & ->).
  rewrite last_last. rewrite in_app_iff. cbn. auto.
Qed.

Lemma merge_write_later : forall o u w, (1 <= w)%N ->
  merge_write o w u = flat_map (fun x => m_out o :: x)
    (firstn (N.to_nat (N.max 1 (m_parts o - w))) (filter (fun x => (m_min o <=? N.of_nat (List.length x))%N && (N.of_nat (List.length x) <=? m_max o)%N) u)).
Proof.
  intros o. induction u as [|x u IH]; intros w Hw; [cbn [merge_write filter]; rewrite firstn_nil; auto|].
  cbn [merge_write filter]. destruct (_ && _); [|apply IH; auto].
  replace (0 <? w)%N with true by (symmetry; apply N.ltb_lt; lia). destruct (m_parts o <=? w + 1)%N eqn:E.
  - apply N.leb_le in E. replace (N.max 1 (m_parts o - w)) with 1%N by lia. change (N.to_nat 1) with 1. cbn [firstn flat_map app]. rewrite !app_nil_r. auto.
  - apply N.leb_gt in E. rewrite IH by lia. replace (N.to_nat (N.max 1 (m_parts o - w))) with (S (N.to_nat (N.max 1 (m_parts o - (w + 1))))) by lia.
    cbn [firstn flat_map app]. auto.
Qed.
Lemma join_flat_head : forall d x xs, join d (x :: xs) = x ++ flat_map (fun y => d :: y) xs.
Proof.
  intros d x xs. revert x. induction xs as [|y ys IH]; intros x; [cbn; rewrite app_nil_r; auto|].
  rewrite join_cons by discriminate. rewrite IH. auto.
Qed.
Lemma merge_write_join : forall o u,
  merge_write o 0 u = join (m_out o)
    (firstn (N.to_nat (N.max 1 (m_parts o))) (filter (fun x => (m_min o <=? N.of_nat (List.length x))%N && (N.of_nat (List.length x) <=? m_max o)%N) u)).
Proof.
  intros o. induction u as [|x u IH]; [cbn [merge_write filter]; rewrite firstn_nil; auto|].
  cbn [merge_write filter]. destruct (_ && _); [|apply IH]. change (0 <? 0)%N with false. cbn [app].
  destruct (m_parts o <=? 0 + 1)%N eqn:E.
  - apply N.leb_le in E. replace (N.max 1 (m_parts o)) with 1%N by lia. change (N.to_nat 1) with 1. cbn [firstn join]. rewrite ?app_nil_r. auto.
  - apply N.leb_gt in E. rewrite merge_write_later by lia.
    replace (N.to_nat (N.max 1 (m_parts o))) with (S (N.to_nat (N.max 1 (m_parts o - (0 + 1))))) by lia.
    cbn [firstn]. rewrite join_flat_head. auto.
Qed.

Lemma dedup_squeezed : forall {A} (eqv : A -> A -> bool) l, squeezed (fun y x => eqv y x = true) l (dedup eqv l).
Proof.
  intros A eqv [|x l]; [constructor|]. cbn [dedup].
  assert (G : forall l x, exists run rest, l = run ++ rest /\ (forall y, In y run -> eqv y x = true) /\
     (match rest with [] => True | y :: _ => ~ eqv y x = true end) /\ dedup_from eqv x l = dedup eqv rest).
  { clear. induction l as [|y l IH]; intros x.
    - exists [], []. repeat split; auto; try easy.
    - cbn [dedup_from]. destruct (eqv y x) eqn:E.
      + destruct (IH x) as (run & rest & -> & H1 & H2 & H3). exists (y :: run), rest. repeat split; auto. intros z [<-|Hz]; auto.
      + exists [], (y :: l). repeat split; auto; try easy. rewrite E. discriminate. }
  assert (K : forall n l x, List.length l <= n -> squeezed (fun y x => eqv y x = true) (x :: l) (x :: dedup_from eqv x l)).
  { clear - G. induction n as [|n IH]; intros l x L.
    - destruct l; [|cbn in L; lia]. apply (sq_run _ x [] [] []); auto; constructor.
    - destruct (G l x) as (run & rest & -> & H1 & H2 & H3). rewrite H3. apply sq_run; auto. destruct rest as [|z rest]; [constructor|].
      cbn [dedup]. apply IH. rewrite app_length in L. cbn in L. lia. }
  eapply K. apply le_n.
Qed.

(** Options. *)
Inductive mopt := MSort | MUniq | MCount | MMin (n : N) | MMax (n : N) | MParts (n : N).
Definition opt_text (o : mopt) : bytes :=
  match o with
  | MSort => bs "sort" | MUniq => bs "uniq" | MCount => bs "count"
  | MMin n => bs "min_len:" ++ print_N n | MMax n => bs "max_len:" ++ print_N n | MParts n => bs "max_parts:" ++ print_N n
  end.
Definition opt_fits (o : mopt) : Prop := match o with MMin n | MMax n | MParts n => (n < 2 ^ 64)%N | _ => True end.
Definition opt_set (o : mopt) (m : merge) : merge :=
  match o with
  | MSort => mkmerge (m_delim m) (m_out m) (m_parts m) (m_comp m) true (m_uniq m) (m_min m) (m_max m) (m_count m)
  | MUniq => mkmerge (m_delim m) (m_out m) (m_parts m) (m_comp m) (m_sort m) true (m_min m) (m_max m) (m_count m)
  | MCount => mkmerge (m_delim m) (m_out m) (m_parts m) (m_comp m) (m_sort m) (m_uniq m) (m_min m) (m_max m) true
  | MMin n => mkmerge (m_delim m) (m_out m) (m_parts m) (m_comp m) (m_sort m) (m_uniq m) n (m_max m) (m_count m)
  | MMax n => mkmerge (m_delim m) (m_out m) (m_parts m) (m_comp m) (m_sort m) (m_uniq m) (m_min m) n (m_count m)
  | MParts n => mkmerge (m_delim m) (m_out m) n (m_comp m) (m_sort m) (m_uniq m) (m_min m) (m_max m) (m_count m)
  end.
Definition comp_set_m (c : comp_t) (m : merge) : merge :=
  mkmerge (m_delim m) (m_out m) (m_parts m) c (m_sort m) (m_uniq m) (m_min m) (m_max m) (m_count m).

Lemma add_one_opt : forall o m, opt_fits o -> merge_add_one comp_make m (opt_text o) = Ok (opt_set o m).
Proof.
  intros o m F. destruct o; try reflexivity.
  all: cbn -[print_N to_usize_whole]; rewrite to_usize_whole_print by exact F; reflexivity.
Qed.

Lemma comp_set_one : forall c m t, comp_make t = Ok c -> merge_add_one comp_make m (bs "comp:" ++ t) = Ok (comp_set_m c m).
Proof. intros c m t H. cbn. rewrite H. reflexivity. Qed.
Lemma delim_one : forall m x y, merge_add_one comp_make m [68; x; y]%N =
  Ok (mkmerge x y (m_parts m) (m_comp m) (m_sort m) (m_uniq m) (m_min m) (m_max m) (m_count m)).
Proof. reflexivity. Qed.

(** The text of options, ending in an optional comparator. *)
Definition comp_item (c : option bytes) : list bytes := match c with Some t => [bs "comp:" ++ t] | None => [] end.
Definition opts_text (os : list mopt) (c : option bytes) : bytes := join 46 (map opt_text os ++ comp_item c).
Definition comp_fits (c : option bytes) (k : comp_t) : Prop := match c with Some t => comp_make t = Ok k | None => True end.
Definition comp_apply (c : option bytes) (k : comp_t) (m : merge) : merge := match c with Some _ => comp_set_m k m | None => m end.

Lemma opt_no_dot : forall o, ~ In 46%N (opt_text o).
Proof.
  intros o H. destruct o; cbn [opt_text] in H; try (cbn in H; intuition discriminate).
  all: apply in_app_iff in H as [H|H]; [cbn in H; intuition discriminate|]; revert H; apply digits_no; lia.
Qed.
Lemma opt_head : forall o t, exists c r, opt_text o ++ t = c :: r /\ (c =? 68)%N = false /\ strip_prefix (bs "comp:") (opt_text o ++ t) = None.
Proof. intros o t. destruct o; cbn -[print_N]; eexists; eexists; repeat split. Qed.

Lemma opts_loop : forall os c k, comp_fits c k -> forall m f, Forall opt_fits os -> os <> [] \/ c <> None ->
  List.length (opts_text os c) < f -> merge_loop comp_make f m (opts_text os c) = Ok (comp_apply c k (fold_left (fun m o => opt_set o m) os m)).
Proof.
  intros os c k C. induction os as [|o os IH]; intros m f F H L.
  - destruct c as [t|]; [|destruct H; congruence]. destruct f as [|f]; [lia|]. unfold opts_text. cbn [map comp_item app join].
    cbn [merge_loop]. change (match bs "comp:" ++ t with [] => Ok m | c :: _ => match strip_prefix (bs "comp:") (bs "comp:" ++ t) with
        Some _ => merge_add_one comp_make m (bs "comp:" ++ t) | None => Err end end = Ok (comp_set_m k m)).
    change (merge_add_one comp_make m (bs "comp:" ++ t) = Ok (comp_set_m k m)). apply comp_set_one. exact C.
  - destruct f as [|f]; [lia|]. inversion F as [|? ? Fo Fs]; subst.
    assert (E : opts_text (o :: os) c = opt_text o ++ match map opt_text os ++ comp_item c with [] => [] | _ => 46%N :: opts_text os c end).
    { unfold opts_text. cbn [map app]. destruct (map opt_text os ++ comp_item c) eqn:E; [cbn; rewrite app_nil_r; auto|].
      rewrite join_cons by discriminate. auto. }
    rewrite E in L |- *. set (t := match map opt_text os ++ comp_item c with [] => [] | _ => _ end) in *.
    destruct (opt_head o t) as (ch & r & E1 & E2 & E3).
    cbn [merge_loop]. rewrite E3. rewrite E1 at 1. rewrite E2. unfold merge_step.
    destruct (map opt_text os ++ comp_item c) as [|it its] eqn:Eit.
    + subst t. rewrite app_nil_r. rewrite split_once_none by apply opt_no_dot. rewrite add_one_opt by auto.
      destruct os; [|discriminate]. destruct c; [discriminate|]. reflexivity.
    + subst t. rewrite split_once_app by apply opt_no_dot. rewrite add_one_opt by auto. cbn [rbind fold_left].
      apply IH; auto.
      * destruct os; [|left; discriminate]. right. destruct c; [discriminate|discriminate].
      * rewrite app_length in L. cbn in L. lia.
Qed.
Lemma options_ok : forall os c k, comp_fits c k -> Forall opt_fits os -> os <> [] \/ c <> None ->
  merge_new comp_make (opts_text os c) = Ok (comp_apply c k (fold_left (fun m o => opt_set o m) os merge_default)).
Proof. intros os c k C F H. unfold merge_new. apply opts_loop; auto. Qed.
Lemma options_delim_ok : forall x y os c k, comp_fits c k -> Forall opt_fits os -> os <> [] ->
  merge_new comp_make (68%N :: x :: y :: 46%N :: opts_text os c) =
  Ok (comp_apply c k (fold_left (fun m o => opt_set o m) os
        (mkmerge x y (2 ^ 64 - 1) (CompModel.mkcomp false CPlain) false false 0 (2 ^ 64 - 1) false))).
Proof.
  intros x y os c k C F H. unfold merge_new. destruct os as [|o os]; [congruence|].
  cbn [List.length]. set (f := S (S (S (List.length (opts_text (o :: os) c))))).
  assert (Lf : List.length (opts_text (o :: os) c) < f) by (unfold f; lia). clearbody f.
  pose proof (opts_loop (o :: os) c k C (mkmerge x y (2 ^ 64 - 1) (CompModel.mkcomp false CPlain) false false 0 (2 ^ 64 - 1) false) (S (S f)) F (or_introl H)
    ltac:(lia)) as G.
  cbn [merge_loop]. change (strip_prefix (bs "comp:") (68%N :: x :: y :: 46%N :: opts_text (o :: os) c)) with (@None bytes).
  change (68 =? 68)%N with true. cbv iota. rewrite delim_one. cbn [rbind]. change (46 =? 46)%N with true. cbv iota.
  cbn [m_parts m_comp m_sort m_uniq m_min m_max m_count merge_default].
  cbn [merge_loop] in G. revert G.
  assert (E : exists t, opts_text (o :: os) c = opt_text o ++ t).
  { unfold opts_text. cbn [map app]. destruct (map opt_text os ++ comp_item c) eqn:E; [exists []; cbn; rewrite app_nil_r; auto|].
    rewrite join_cons by discriminate. eauto. }
  destruct E as [t E]. rewrite E. destruct (opt_head o t) as (ch & r & E1 & E2 & E3).
  rewrite E3. rewrite E1 at 1. rewrite E2. auto.
Qed.
End Merge.
