(** Proofs about the command line. *)
From Coq Require Import String List NArith Bool Arith Lia Sorting.Permutation Sorting.Sorted.
Open Scope list_scope.
Import ListNotations.
From Verif Require Import Base TextModel ReadModel FormModel CompSpec SortModel SortSpec SortProofs CliModel.
Open Scope nat_scope.

(** What clap promises: the occurrences are numbered in the order of the command line, and those of an option without value have none. *)
Definition clap_like (sp : list spec) (m : list occ) : Prop :=
  StronglySorted (fun a b => (oc_index a < oc_index b)%N) m /\
  (forall o x, In o m -> In x sp -> oc_name o = o_name x -> o_value x = [] -> oc_value o = []).
(** The occurrences of a tool's own options. *)
Definition own (sp : list spec) (o : occ) : bool := existsb (fun x => beq (oc_name o) (o_name x)) sp.

Lemma beq_sym a b : beq a b = beq b a.
Proof. destruct (beq a b) eqn:E, (beq b a) eqn:F; auto; [apply beq_eq in E; subst; rewrite beq_refl in F|apply beq_eq in F; subst; rewrite beq_refl in E]; congruence. Qed.
Lemma get_arg_named sp m x : clap_like sp m -> In x sp -> get_arg m x = named (o_name x) m.
Proof.
  intros (_ & F) Hx. unfold get_arg, named.
  assert (G : forall l, (forall o, In o l -> In o m) ->
    (o_value x = [] -> map (fun o => mkocc (o_name x) [] (oc_index o)) (filter (fun o => beq (oc_name o) (o_name x)) l) = filter (fun o => beq (oc_name o) (o_name x)) l) /\
    map (fun o => mkocc (o_name x) (oc_value o) (oc_index o)) (filter (fun o => beq (oc_name o) (o_name x)) l) = filter (fun o => beq (oc_name o) (o_name x)) l).
  { induction l as [|o l IH]; intros H; [split; reflexivity|]. destruct IH as (IH1 & IH2); [intros; apply H; right; auto|]. cbn [filter].
    destruct (beq (oc_name o) (o_name x)) eqn:E; [|split; auto]. apply beq_eq in E. cbn [map]. split; [intros V|].
    - rewrite IH1 by exact V. f_equal. assert (W : oc_value o = []) by (apply (F o x); auto; apply H; left; auto). destruct o as [n v i]. cbn in *. rewrite <- E, W. reflexivity.
    - rewrite IH2. f_equal. destruct o as [n v i]. cbn in *. rewrite <- E. reflexivity. }
  destruct (G m (fun o H => H)) as (G1 & G2). destruct (o_value x) eqn:V; auto.
Qed.
Lemma flat_named sp m : clap_like sp m -> forall l, incl l sp -> flat_map (get_arg m) l = flat_map (fun x => named (o_name x) m) l.
Proof. intros C. induction l as [|x l IH]; intros I; [reflexivity|]. cbn [flat_map]. rewrite (get_arg_named sp), IH; auto; [intros y Hy; apply I; right; auto|apply I; left; auto]. Qed.

Lemma filter_split {A} (p q : A -> bool) l : (forall x, In x l -> p x = true -> q x = false) -> Permutation (filter p l ++ filter q l) (filter (fun x => p x || q x) l).
Proof.
  induction l as [|x l IH]; intros H; [constructor|]. cbn [filter]. assert (IH' := IH (fun y Hy => H y (or_intror Hy))). destruct (p x) eqn:P; cbn [orb].
  - rewrite (H x) by (auto; left; auto). cbn [app]. constructor. exact IH'.
  - destruct (q x); [|exact IH']. rewrite <- IH'. symmetry. apply Permutation_middle.
Qed.
Lemma own_perm m : forall sp, NoDup (map o_name sp) -> Permutation (flat_map (fun x => named (o_name x) m) sp) (filter (own sp) m).
Proof.
  induction sp as [|x sp IH]; intros N.
  - cbn. replace (filter (own []) m) with (@nil occ); [constructor|]. induction m; auto.
  - cbn [flat_map map] in *. inversion N as [|a b N1 N2]; subst. rewrite IH by exact N2. unfold named. rewrite filter_split; [reflexivity|].
    intros o _ E. apply beq_eq in E. unfold own. apply not_true_is_false. rewrite existsb_exists. intros (y & Hy & E2). apply beq_eq in E2. apply N1. rewrite <- E, E2. apply in_map. exact Hy.
Qed.
Lemma ordered_unique : forall b a : list occ, Permutation a b -> StronglySorted (fun x y => by_index x y <> Gt) a -> StronglySorted (fun x y => (oc_index x < oc_index y)%N) b -> a = b.
Proof.
  induction b as [|y b IH]; intros a P Sa Sb; [apply Permutation_nil; symmetry; exact P|].
  destruct a as [|x a]; [apply Permutation_nil in P; discriminate|].
  inversion Sa as [|? ? Sa1 Fa]; subst. inversion Sb as [|? ? Sb1 Fb]; subst.
  assert (E : x = y).
  { assert (Ix : In x (y :: b)) by (apply (Permutation_in x P); left; auto). assert (Iy : In y (x :: a)) by (apply (Permutation_in y (Permutation_sym P)); left; auto).
    destruct Ix as [E|Ix]; [congruence|]. destruct Iy as [E|Iy]; [congruence|]. rewrite Forall_forall in Fa, Fb. specialize (Fa _ Iy). specialize (Fb _ Ix).
    exfalso. apply Fa. unfold by_index. rewrite N.compare_gt_iff. exact Fb. }
  subst y. f_equal. apply IH; auto. eapply Permutation_cons_inv. exact P.
Qed.
Lemma sorted_filter (p : occ -> bool) m : StronglySorted (fun x y => (oc_index x < oc_index y)%N) m -> StronglySorted (fun x y => (oc_index x < oc_index y)%N) (filter p m).
Proof.
  induction m as [|x m IH]; intros H; [constructor|]. inversion H as [|? ? H1 F]; subst. cbn [filter]. destruct (p x); auto. constructor; auto.
  rewrite Forall_forall in *. intros y Hy. apply filter_In in Hy. apply F, Hy.
Qed.
Lemma index_order : total_preorder by_index.
Proof.
  unfold by_index. repeat split.
  - intros x. apply N.compare_refl.
  - intros x y. apply N.compare_antisym.
  - intros x y z. rewrite !N.compare_le_iff. lia.
Qed.
Lemma options_in_order sp m : NoDup (map o_name sp) -> clap_like sp m -> std_sort by_index (flat_map (get_arg m) sp) = filter (own sp) m.
Proof.
  intros N C. rewrite (flat_named sp m C sp (incl_refl sp)). destruct (std_sort_stable by_index index_order (flat_map (fun x => named (o_name x) m) sp)) as (P & So & _).
  apply ordered_unique; [|exact So|apply sorted_filter; apply C]. rewrite <- P. apply own_perm. exact N.
Qed.

(** The last value given for a name. *)
Definition last_of (n : bytes) (m : list occ) : option bytes := match rev (named n m) with [] => None | o :: _ => Some (oc_value o) end.
Lemma form_new_res v d : form_new_with v d <> Panic.
Proof.
  unfold form_new_with, take, head_char, quote_char. repeat match goal with |- context [match ?l with [] => _ | _ => _ end] => destruct l; cbn [rbind] | |- context [if ?b then _ else _] => destruct b; cbn [rbind] end; discriminate.
Qed.
Definition fine (m : list occ) (n : bytes) : Prop := forall o, In o m -> oc_name o = n -> exists f, form_new (oc_value o) = Ok f.
Lemma consume_app s a b : consume s (a ++ b) = obind (consume s a) (fun s => consume s b).
Proof. revert s. induction a as [|x a IH]; intros s; [reflexivity|]. cbn [app consume]. destruct (consume1 s x); cbn [obind]; auto. Qed.
Lemma consume_in s l : Forall (fun o => oc_name o = bs "text-in") l -> Forall (fun o => exists f, form_new (oc_value o) = Ok f) l ->
  exists f, consume s l = Good (mkset f (se_out s)) /\ match rev l with [] => f = se_in s | o :: _ => form_new (oc_value o) = Ok f end.
Proof.
  induction l as [|x l IH] using rev_ind; intros N F; [exists (se_in s); destruct s; split; reflexivity|].
  apply Forall_app in N, F. destruct N as (N1 & N2), F as (F1 & F2). inversion N2; subst. inversion F2 as [|? ? (g & Hg) _]; subst. destruct (IH N1 F1) as (f & E & _).
  exists g. rewrite consume_app, E, rev_app_distr. cbn [obind consume rev app]. unfold consume1. rewrite H1. cbn [of_res]. rewrite Hg. split; reflexivity.
Qed.
Lemma consume_out s l : Forall (fun o => oc_name o = bs "text-out") l -> Forall (fun o => exists f, form_new (oc_value o) = Ok f) l ->
  exists f, consume s l = Good (mkset (se_in s) f) /\ match rev l with [] => f = se_out s | o :: _ => exists g, f = Some g /\ form_new (oc_value o) = Ok g end.
Proof.
  induction l as [|x l IH] using rev_ind; intros N F; [exists (se_out s); destruct s; split; reflexivity|].
  apply Forall_app in N, F. destruct N as (N1 & N2), F as (F1 & F2). inversion N2; subst. inversion F2 as [|? ? (g & Hg) _]; subst. destruct (IH N1 F1) as (f & E & _).
  exists (Some g). rewrite consume_app, E, rev_app_distr. cbn [obind consume rev app]. unfold consume1. rewrite H1. cbn [of_res]. rewrite Hg. split; [reflexivity|exists g; split; reflexivity].
Qed.
Lemma named_names n m : Forall (fun o => oc_name o = n) (named n m).
Proof. apply Forall_forall. intros o H. apply filter_In in H. apply beq_eq. apply H. Qed.
Lemma named_none n m : (forall o, In o m -> oc_name o <> n) -> named n m = [].
Proof. intros H. unfold named. induction m as [|o m IH]; auto. cbn [filter]. destruct (beq (oc_name o) n) eqn:E; [apply beq_eq in E; exfalso; apply (H o); [left; auto|exact E]|]. apply IH. intros p Hp. apply H. right. auto. Qed.
Lemma globals_get m : clap_like global_args m -> flat_map (get_arg m) global_args = named (bs "text-in") m ++ named (bs "text-out") m ++ flat_map (fun n => named n m) shows.
Proof. intros C. rewrite (flat_named global_args m C global_args (incl_refl _)). unfold global_args, shows. cbn [flat_map map o_name opt]. reflexivity. Qed.
Lemma fine_named m n : fine m n -> Forall (fun o => exists f, form_new (oc_value o) = Ok f) (named n m).
Proof. intros H. apply Forall_forall. intros o I. apply filter_In in I. apply H; [apply I|]. apply beq_eq. apply I. Qed.
Lemma consume_formats m s : fine m (bs "text-in") -> fine m (bs "text-out") ->
  exists s', consume s (named (bs "text-in") m ++ named (bs "text-out") m) = Good s' /\
    match last_of (bs "text-in") m with None => se_in s' = se_in s | Some v => form_new v = Ok (se_in s') end /\
    match last_of (bs "text-out") m with None => se_out s' = se_out s | Some v => exists f, se_out s' = Some f /\ form_new v = Ok f end.
Proof.
  intros F1 F2. destruct (consume_in s _ (named_names (bs "text-in") m) (fine_named m _ F1)) as (f & E1 & L1).
  destruct (consume_out (mkset f (se_out s)) _ (named_names (bs "text-out") m) (fine_named m _ F2)) as (g & E2 & L2). cbn [se_in se_out] in *.
  exists (mkset f g). rewrite consume_app, E1. cbn [obind]. split; [exact E2|]. unfold last_of. cbn [se_in se_out]. split; [destruct (rev (named (bs "text-in") m)); auto|destruct (rev (named (bs "text-out") m)); auto].
Qed.
Lemma parse_ok c sp m s : NoDup (map o_name sp) -> clap_like sp m -> clap_like global_args m ->
  (forall o, In o m -> ~ In (oc_name o) (bs "std-help" :: shows)) -> fine m (bs "text-in") -> fine m (bs "text-out") ->
  exists s', parse c sp m s = Good (s', filter (own sp) m,
      match c, named (bs "input_files") m with FZero, _ => [] | _, [] => [bs "-"] | _, l => map oc_value l end) /\
    match last_of (bs "text-in") m with None => se_in s' = se_in s | Some v => form_new v = Ok (se_in s') end /\
    match last_of (bs "text-out") m with None => se_out s' = se_out s | Some v => exists f, se_out s' = Some f /\ form_new v = Ok f end.
Proof.
  intros N C CG H F1 F2. destruct (consume_formats m s F1 F2) as (s' & E & L). exists s'. split; [|exact L].
  unfold parse. rewrite named_none by (intros o Ho X; apply (H o Ho); left; auto). cbn [List.length Nat.eqb negb]. rewrite globals_get by exact CG.
  rewrite app_assoc, consume_app, E. cbn [obind].
  replace (flat_map (fun n => named n m) shows) with (@nil occ).
  - cbn [consume obind]. rewrite options_in_order by assumption. destruct c; [reflexivity| |]; (destruct (named (bs "input_files") m); reflexivity).
  - symmetry. assert (G : forall l, incl l shows -> flat_map (fun n => named n m) l = []).
    { induction l as [|n l IH]; intros I; [reflexivity|]. cbn [flat_map]. rewrite IH by (intros x Hx; apply I; right; auto). rewrite named_none; [reflexivity|]. intros o Ho X. apply (H o Ho). right. rewrite X. apply I. left. auto. }
    apply G. apply incl_refl.
Qed.
(** Once parsed, the options are those of the command line, whatever the settings. *)
Lemma parse_order c sp m s s' args files : NoDup (map o_name sp) -> clap_like sp m -> parse c sp m s = Good (s', args, files) ->
  args = filter (own sp) m /\ files = match c, named (bs "input_files") m with FZero, _ => [] | _, [] => [bs "-"] | _, l => map oc_value l end.
Proof.
  intros N C. unfold parse. generalize (named (bs "input_files") m). intros nm. destruct (negb _); [discriminate|]. destruct (consume s _); cbn [obind]; try discriminate.
  rewrite options_in_order by assumption. intros E. assert (A : args = filter (own sp) m) by congruence. split; [exact A|]. destruct c; [congruence| |]; (destruct nm; cbn [map] in *; congruence).
Qed.
Lemma parse_help c sp m s : (exists o, In o m /\ oc_name o = bs "std-help") -> parse c sp m s = Stop NoError.
Proof.
  intros (o & I & E). unfold parse. assert (J : In o (named (bs "std-help") m)) by (apply filter_In; split; [exact I|apply beq_eq; exact E]).
  destruct (named (bs "std-help") m); [contradiction|reflexivity].
Qed.
Lemma consume_shows s : forall l, Forall (fun o => In (oc_name o) shows) l -> l <> [] -> consume s l = Stop NoError.
Proof.
  intros [|o l] F H; [congruence|]. inversion F as [|? ? I _]; subst. cbn [consume]. unfold consume1.
  destruct (existsb (beq (oc_name o)) shows) eqn:X; [|apply not_true_iff_false in X; exfalso; apply X; apply existsb_exists; exists (oc_name o); split; [exact I|apply beq_refl]].
  replace (beq (oc_name o) (bs "text-in")) with false; [replace (beq (oc_name o) (bs "text-out")) with false; [reflexivity|]|]; symmetry; apply not_true_is_false; rewrite beq_eq; intros Q; rewrite Q in I; cbv in I; intuition discriminate.
Qed.
Lemma parse_shows c sp m s : clap_like global_args m -> (forall o, In o m -> oc_name o <> bs "std-help") -> fine m (bs "text-in") -> fine m (bs "text-out") ->
  (exists o, In o m /\ In (oc_name o) shows) -> parse c sp m s = Stop NoError.
Proof.
  intros CG H F1 F2 (o & I & J). destruct (consume_formats m s F1 F2) as (s' & E & _). unfold parse. rewrite named_none by exact H. cbn [List.length Nat.eqb negb].
  rewrite globals_get by exact CG. rewrite app_assoc, consume_app, E. cbn [obind]. rewrite consume_shows; [reflexivity| |].
  - apply Forall_forall. intros p Hp. apply in_flat_map in Hp. destruct Hp as (n & Hn & Hp). apply filter_In in Hp. destruct Hp as (_ & Q). apply beq_eq in Q. congruence.
  - intros Z. assert (K : In o (flat_map (fun n => named n m) shows)) by (apply in_flat_map; exists (oc_name o); split; [exact J|apply filter_In; split; [exact I|apply beq_refl]]). rewrite Z in K. contradiction.
Qed.
Lemma consume_bad s l r n : n = bs "text-in" \/ n = bs "text-out" -> Forall (fun o => oc_name o = n) l -> (exists o, In o l /\ form_new (oc_value o) = Err) -> consume s (l ++ r) = Stop Other.
Proof.
  intros Hn N. revert s. induction l as [|x l IH]; intros s (o & I & E); [contradiction|]. inversion N; subst. cbn [app consume].
  assert (C : consume1 s x = match form_new (oc_value x) with Ok f => Good (if beq (oc_name x) (bs "text-in") then mkset f (se_out s) else mkset (se_in s) (Some f)) | Err => Stop Other | Panic => Crash end).
  { unfold consume1. destruct Hn as [Q|Q]; rewrite Q; cbn [beq bs]; unfold of_res; destruct (form_new (oc_value x)); reflexivity. }
  rewrite C. destruct (form_new (oc_value x)) eqn:X; cbn [obind]; [|reflexivity|exfalso; eapply form_new_res; exact X].
  destruct I as [->|I]; [congruence|]. apply IH; auto. exists o; auto.
Qed.
Lemma bad_named m n o : In o m -> oc_name o = n -> form_new (oc_value o) = Err -> exists p, In p (named n m) /\ form_new (oc_value p) = Err.
Proof. intros I E F. exists o. split; [apply filter_In; split; [exact I|apply beq_eq; exact E]|exact F]. Qed.
Lemma all_or_bad l : Forall (fun o => exists f, form_new (oc_value o) = Ok f) l \/ exists o, In o l /\ form_new (oc_value o) = Err.
Proof.
  induction l as [|x l [IH|(o & I & E)]]; [left; constructor| |right; exists o; split; [right|]; auto].
  destruct (form_new (oc_value x)) eqn:E; [left; constructor; eauto|right; exists x; split; [left|]; auto|exfalso; eapply form_new_res; exact E].
Qed.
Lemma parse_bad c sp m s o : clap_like global_args m -> (forall o, In o m -> oc_name o <> bs "std-help") ->
  In o m -> oc_name o = bs "text-in" \/ oc_name o = bs "text-out" -> form_new (oc_value o) = Err -> parse c sp m s = Stop Other.
Proof.
  intros CG H I D E. unfold parse. rewrite named_none by exact H. cbn [List.length Nat.eqb negb]. rewrite globals_get by exact CG.
  destruct D as [D|D].
  - erewrite consume_bad; [reflexivity|left; reflexivity|apply named_names|eapply bad_named; eauto].
  - destruct (all_or_bad (named (bs "text-in") m)) as [A|A].
    + destruct (consume_in s _ (named_names (bs "text-in") m) A) as (f & E1 & _). rewrite consume_app, E1. cbn [obind].
      erewrite consume_bad; [reflexivity|right; reflexivity|apply named_names|eapply bad_named; eauto].
    + erewrite consume_bad; [reflexivity|left; reflexivity|apply named_names|exact A].
Qed.

(** The loop over the options does not end in a panic when it knows all names. *)
Lemma handle_known {S} known (arm : bytes -> bytes -> S -> out S) : (forall n v s, In n known -> arm n v s <> Crash) ->
  forall args s, Forall (fun o => In (oc_name o) known) args -> handle known arm s args <> Crash.
Proof.
  intros A. induction args as [|x r IH]; intros s F; [discriminate|]. inversion F as [|? ? I F']; subst. cbn [handle].
  destruct (existsb (beq (oc_name x)) known) eqn:X; [|apply not_true_iff_false in X; exfalso; apply X; apply existsb_exists; exists (oc_name x); split; [exact I|apply beq_refl]].
  specialize (A (oc_name x) (oc_value x) s I). destruct (arm (oc_name x) (oc_value x) s); cbn [obind]; auto; discriminate.
Qed.
