(** Proofs about rows of aggregates. *)
From Coq Require Import String List NArith ZArith Bool Arith Lia SpecFloat.
Open Scope list_scope.
Import ListNotations.
From Verif Require Import Base TextSpec TextModel StrSpec StrModel FloatModel CompModel HdrModel HdrSpec ColModel ColSpec ColProofs ColCompProofs AggModel AggSpec AggProofs.
Close Scope Z_scope.

Lemma positions_shift : forall f v i, positions f v (S i) = map S (positions f v i).
Proof. induction v as [|x v IH]; intros i; auto. cbn [positions]. rewrite !IH. destruct (f x); auto. Qed.
Lemma positions_nth : forall f v, map (nth_error v) (positions f v 0) = map Some (filter f v).
Proof.
  induction v as [|x v IH]; auto. cbn [positions filter]. rewrite positions_shift. assert (E : map (nth_error (x :: v)) (map S (positions f v 0)) = map Some (filter f v)) by (rewrite map_map; exact IH).
  destruct (f x); cbn [map]; rewrite E; auto.
Qed.
Lemma positions_find : forall f v, match positions f v 0 with k :: _ => exists x, nth_error v k = Some x /\ find f v = Some x | [] => find f v = None end.
Proof.
  intros f v. pose proof (positions_nth f v) as H. assert (F : match filter f v with x :: _ => find f v = Some x | [] => find f v = None end).
  { clear. induction v as [|x v IH]; [reflexivity|]. cbn. destruct (f x); auto. }
  destruct (positions f v 0) as [|k ks]; destruct (filter f v) as [|y ys]; try discriminate; auto. injection H as H _. eauto.
Qed.
Lemma all_ok_app : forall {A B} (f : A -> res B) l1 l2 r1 r2, all_ok f l1 = Ok r1 -> all_ok f l2 = Ok r2 -> all_ok f (l1 ++ l2) = Ok (r1 ++ r2).
Proof.
  intros A B f. induction l1 as [|x l1 IH]; intros l2 r1 r2 H1 H2; cbn in H1; [injection H1 as <-; auto|]. cbn.
  destruct (f x); cbn [rbind] in *; try discriminate. destruct (all_ok f l1) eqn:E; cbn [rbind] in *; try discriminate.
  injection H1 as <-. rewrite (IH _ _ _ eq_refl H2). auto.
Qed.
Lemma all_ok_map : forall {A B C} (f : A -> res B) (g : C -> A) (h : C -> B) l, (forall x, In x l -> f (g x) = Ok (h x)) -> all_ok f (map g l) = Ok (map h l).
Proof.
  intros A B C f g h. induction l as [|x l IH]; intros H; auto. cbn. rewrite H by (cbn; auto). cbn [rbind]. rewrite IH by (intros; apply H; cbn; auto). auto.
Qed.

Section Row.
Variable exp10 : Z -> f64.
Variable decode : bytes -> list N.
Variable is_space is_alnum : N -> bool.
Variable uni_alpha uni_alnum : N -> bool.
Variable print_num : f64 -> bytes.
Notation from := (nc_from uni_alpha uni_alnum).
Notation proper x := (x <> [] /\ well_named (alphabetic uni_alpha) (alphanumeric uni_alnum) x).

(** What one aggregator shows for a group of lines: its aggregate over the values of its column in those lines. *)
Definition summary (added : list (list bytes)) (x : lineagger) : bytes :=
  match la_agg x with
  | LAgg src a => out_text print_num (agg_result exp10
      (agg_adds exp10 decode is_space is_alnum (agg_reset a) (map (fun fields => nth (N.to_nat (nc_num src)) fields []) added)))
  | LExprAgg ev start _ => print_num (fold_left ev added start)
  end.

Lemma from_name : forall x, proper x -> from x = Ok (mknc x 0 0).
Proof.
  intros x [N W]. unfold nc_from. pose proof (parse_name uni_alpha uni_alnum x []) as P. rewrite app_nil_r in P. rewrite P; auto; try exact I; reflexivity.
Qed.

Definition replaces (i : nat) (x : lineagger) : bool := is_replace (la_out x) && is_col (la_agg x) i.
Fixpoint slots (num : nat -> N) (v : list lineagger) (head : list bytes) (i : nat) : list ocol :=
  match head with
  | [] => []
  | x :: r => (match positions (replaces i) v 0 with k :: _ => OAgg k | [] => OSingle (mknc x (num i) 0) end) :: slots num v r (S i)
  end.
Lemma fill_slots : forall v head i, Forall (fun x => proper x) head -> fill_head uni_alpha uni_alnum v head i = Ok (slots (fun _ => 0%N) v head i).
Proof.
  intros v. induction head as [|x head IH]; intros i F; auto. inversion F; subst. cbn [fill_head slots]. fold (replaces i).
  change (fun y : lineagger => is_replace (la_out y) && is_col (la_agg y) i) with (replaces i).
  destruct (positions (replaces i) v 0); cbn [rbind]; [rewrite from_name by auto; cbn [rbind]|]; rewrite IH by auto; reflexivity.
Qed.
Lemma lookup_oaggs : forall ks names os os', ocols_lookup os names = Ok os' -> ocols_lookup (map OAgg ks ++ os) names = Ok (map OAgg ks ++ os').
Proof. induction ks as [|k ks IH]; intros names os os' H; auto. cbn. rewrite (IH _ _ _ H). auto. Qed.
Lemma lookup_slots : forall v head names i os os', Forall (fun x => x <> []) head ->
  (forall j x, nth_error head j = Some x -> lookup_col names x 0 = Ok (N.of_nat (i + j))) -> ocols_lookup os names = Ok os' ->
  ocols_lookup (slots (fun _ => 0%N) v head i ++ os) names = Ok (slots N.of_nat v head i ++ os').
Proof.
  intros v. induction head as [|x head IH]; intros names i os os' F H E; auto. inversion F; subst. cbn [slots app].
  assert (R : ocols_lookup (slots (fun _ => 0%N) v head (S i) ++ os) names = Ok (slots N.of_nat v head (S i) ++ os')).
  { apply IH; auto. intros j y Hj. specialize (H (S j) y Hj). rewrite H. f_equal. lia. }
  destruct (positions (replaces i) v 0).
  - cbn [ocols_lookup]. unfold nc_lookup. cbn [nc_name nc_end]. destruct x as [|c x]; [congruence|]. rewrite (H 0 (c :: x) eq_refl).
    cbn [rbind]. rewrite R. cbn [rbind]. rewrite Nat.add_0_r. auto.
  - cbn [ocols_lookup]. rewrite R. auto.
Qed.

Lemma find_at : forall names (x : bytes) j, NoDup names -> nth_error names j = Some x -> lookup_col names x 0 = Ok (N.of_nat j).
Proof.
  intros names x j D H. rewrite (lookup_col_at names x j 0); auto. intros k L E. rewrite NoDup_nth_error in D.
  assert (k = j) by (apply D; [apply nth_error_Some; congruence|congruence]). lia.
Qed.

Lemma setup_ok : forall v names v', lookup_all v names = Ok v' -> Forall (fun x => proper x) names -> NoDup names ->
  setup uni_alpha uni_alnum v names = Ok (v', map OAgg (positions (fun x => is_prefix (la_out x)) v' 0) ++ slots N.of_nat v' names 0 ++
    map OAgg (positions (fun x => is_append (la_out x)) v' 0)).
Proof.
  intros v names v' L F D. unfold setup. rewrite L. cbn [rbind]. unfold fill. rewrite fill_slots by auto. cbn [rbind].
  rewrite (lookup_oaggs _ names _ (slots N.of_nat v' names 0 ++ map OAgg (positions (fun x => is_append (la_out x)) v' 0))); auto.
  apply lookup_slots.
  - eapply Forall_impl; [|exact F]. cbn. intros ? [? ?]; auto.
  - intros j x H. apply find_at; auto.
  - pose proof (lookup_oaggs (positions (fun x => is_append (la_out x)) v' 0) names [] [] eq_refl) as E. rewrite !app_nil_r in E. auto.
Qed.

Lemma added_all : forall added v, fold_left (list_add exp10 decode is_space is_alnum) added v =
  map (la_map (fun l => fold_left (fun l fields => line_add exp10 decode is_space is_alnum fields l) added l)) v.
Proof.
  induction added as [|f added IH]; intros v; cbn [fold_left].
  - symmetry. erewrite map_ext; [apply map_id|]. intros [o l]. auto.
  - rewrite IH. unfold list_add. rewrite map_map. apply map_ext. intros [o l]. reflexivity.
Qed.
Lemma line_added : forall added l, line_result exp10 print_num (fold_left (fun l fields => line_add exp10 decode is_space is_alnum fields l) added (line_reset l)) =
  summary added (mkla Replace l).
Proof.
  intros added l. unfold summary. cbn [la_agg]. destruct l as [src a|ev start val]; cbn [line_reset].
  - generalize (agg_reset a). induction added as [|f added IH]; intros g; [reflexivity|]. cbn [fold_left map line_add]. rewrite IH. reflexivity.
  - set (s := start) at 2 3. clearbody s. revert s. induction added as [|f added IH]; intros s; [reflexivity|]. cbn [fold_left line_add]. apply IH.
Qed.
Lemma summary_out : forall added x, summary added x = summary added (mkla Replace (la_agg x)).
Proof. reflexivity. Qed.

Definition group_state (v : list lineagger) (added : list (list bytes)) : list lineagger :=
  fold_left (list_add exp10 decode is_space is_alnum) added (list_reset v).
Lemma state_nth : forall v added k x, nth_error v k = Some x -> exists y, nth_error (group_state v added) k = Some y /\ la_out y = la_out x /\
  line_result exp10 print_num (la_agg y) = summary added x.
Proof.
  intros v added k x H. unfold group_state. rewrite added_all. unfold list_reset. rewrite map_map. eexists. split; [erewrite map_nth_error; eauto|].
  cbn [la_map la_out la_agg]. split; auto. rewrite line_added. reflexivity.
Qed.

Lemma value_aggs : forall v added t kept f, all_ok (ocol_value exp10 print_num (group_state v added) t kept) (map OAgg (positions f v 0)) =
  Ok (map (summary added) (filter f v)).
Proof.
  intros v added t kept f. pose proof (positions_nth f v) as P. revert P. generalize (positions f v 0) (filter f v).
  induction l as [|k ks IH]; intros [|x xs] P; try discriminate; auto. cbn [map] in P. injection P as P1 P2.
  cbn [map all_ok ocol_value]. destruct (state_nth v added k x P1) as (y & E & _ & R). rewrite E. cbn [rbind]. rewrite (IH xs P2). cbn [rbind]. rewrite R. auto.
Qed.
Lemma value_slots : forall v added t kept head i, i + List.length head <= List.length kept ->
  all_ok (ocol_value exp10 print_num (group_state v added) t kept) (slots N.of_nat v head i) =
  Ok (map (fun i => match find (replaces i) v with Some x => summary added x | None => fst (text_write t (nth i kept [])) end) (seq i (List.length head))).
Proof.
  intros v added t kept. induction head as [|n head IH]; intros i L; auto. cbn [List.length] in L. cbn [slots all_ok List.length seq map].
  pose proof (positions_find (replaces i) v) as P. rewrite IH by lia. destruct (positions (replaces i) v 0) as [|k ks].
  - rewrite P. cbn [ocol_value nc_num]. rewrite Nat2N.id. destruct (nth_error kept i) eqn:E; [|apply nth_error_None in E; lia].
    rewrite (nth_error_nth _ _ [] E). reflexivity.
  - destruct P as (x & P & F). rewrite F. cbn [ocol_value]. destruct (state_nth v added k x P) as (y & E & _ & R). rewrite E. cbn [rbind]. rewrite R. auto.
Qed.

Lemma row_ok : forall v added t kept names, List.length names <= List.length kept ->
  group_row exp10 decode is_space is_alnum print_num v (map OAgg (positions (fun x => is_prefix (la_out x)) v 0) ++ slots N.of_nat v names 0 ++
    map OAgg (positions (fun x => is_append (la_out x)) v 0)) t kept added =
  Ok (map (summary added) (filter (fun x => is_prefix (la_out x)) v) ++
      map (fun i => match find (replaces i) v with Some x => summary added x | None => fst (text_write t (nth i kept [])) end) (seq 0 (List.length names)) ++
      map (summary added) (filter (fun x => is_append (la_out x)) v)).
Proof.
  intros. unfold group_row. fold (group_state v added). apply all_ok_app; [apply value_aggs|]. apply all_ok_app; [apply value_slots; auto|apply value_aggs].
Qed.

Definition title (x : lineagger) : bytes := match la_out x with Replace => [] | Prefix n => n | Append n => n end.
Lemma name_aggs : forall v names f, (forall x, In x v -> f x = true -> is_replace (la_out x) = false) ->
  all_ok (ocol_name v names) (map OAgg (positions f v 0)) = Ok (map title (filter f v)).
Proof.
  intros v names f D. pose proof (positions_nth f v) as P.
  assert (I : Forall (fun x => is_replace (la_out x) = false) (filter f v)) by (apply Forall_forall; intros x Hx; apply filter_In in Hx as [? ?]; auto).
  revert P I. generalize (positions f v 0) (filter f v). clear D.
  induction l as [|k ks IH]; intros [|x xs] P I; try discriminate; auto. inversion I; subst. cbn [map] in P. injection P as P1 P2.
  cbn [map all_ok]. rewrite (IH xs) by auto. assert (T : ocol_name v names (OAgg k) = Ok (title x)); [|rewrite T; reflexivity]. unfold ocol_name, title. rewrite P1. destruct (la_out x); [discriminate|reflexivity|reflexivity].
Qed.
Lemma name_slots : forall v names head i, (forall j x, nth_error head j = Some x -> nth_error names (i + j) = Some x) ->
  all_ok (ocol_name v names) (slots N.of_nat v head i) = Ok head.
Proof.
  intros v names. induction head as [|n head IH]; intros i H; auto. cbn [slots all_ok].
  assert (R : all_ok (ocol_name v names) (slots N.of_nat v head (S i)) = Ok head).
  { apply IH. intros j x Hj. specialize (H (S j) x Hj). rewrite <- H. f_equal. lia. }
  rewrite R. pose proof (positions_find (replaces i) v) as P. pose proof (H 0 n eq_refl) as H0. rewrite Nat.add_0_r in H0.
  destruct (positions (replaces i) v 0) as [|k ks].
  - cbn [ocol_name nc_num]. rewrite Nat2N.id. rewrite H0. reflexivity.
  - destruct P as (x & P & F). unfold ocol_name. rewrite P. apply find_some in F as [_ F]. unfold replaces in F.
    apply andb_true_iff in F as [F1 F2]. destruct (la_out x); try discriminate. cbn [rbind].
    unfold is_col in F2. destruct (la_agg x) as [src a|]; try discriminate. apply N.eqb_eq in F2.
    rewrite F2. unfold get_or_empty. rewrite Nat2N.id. rewrite (nth_error_nth _ _ [] H0). reflexivity.
Qed.
Lemma names_ok : forall v names,
  all_ok (ocol_name v names) (map OAgg (positions (fun x => is_prefix (la_out x)) v 0) ++ slots N.of_nat v names 0 ++
    map OAgg (positions (fun x => is_append (la_out x)) v 0)) =
  Ok (map title (filter (fun x => is_prefix (la_out x)) v) ++ names ++ map title (filter (fun x => is_append (la_out x)) v)).
Proof.
  intros. apply all_ok_app; [apply name_aggs; intros x _; destruct (la_out x); auto; discriminate|].
  apply all_ok_app; [apply name_slots; auto|apply name_aggs; intros x _; destruct (la_out x); auto; discriminate].
Qed.
End Row.
