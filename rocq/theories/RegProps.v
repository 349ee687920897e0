(** C44: registries of named makers. *)
From Coq Require Import String List NArith ZArith Bool Arith Lia.
Open Scope list_scope.
Import ListNotations.
From Verif Require Import Base StrModel MatchModel MatchText TransProofs RegModel.
Close Scope Z_scope.

(** The value last recorded for [k] in a record, oldest first. *)
Inductive latest {B} (k : bytes) : list (bytes * B) -> option B -> Prop :=
  | l_none : latest k [] None
  | l_new l v : latest k (l ++ [(k, v)]) (Some v)
  | l_other l k' v r : k' <> k -> latest k l r -> latest k (l ++ [(k', v)]) r.
(** What a history of calls asks to record: names that are not reserved. *)
Definition pushes {A} (st : style) (ops : list (op A)) : list (bytes * A) :=
  flat_map (fun o => match o with Push t m => if existsb (beq t) (mods st) then [] else [(t, m)] | Alias _ _ => [] end) ops.
Definition renames {A} (st : style) (ops : list (op A)) : list (bytes * bytes) :=
  flat_map (fun o => match o with Alias old new => if existsb (beq new) (mods st) then [] else [(new, old)] | Push _ _ => [] end) ops.
Definition empty_reg {A} : registry A := mkreg [] [].

Lemma put_keys : forall B k (v : B) l, NoDup (map fst l) -> NoDup (map fst (put k v l)) /\ forall x, In x (map fst (put k v l)) <-> x = k \/ In x (map fst l).
Proof.
  induction l as [|[a b] l IH]; intros H.
  - split; [repeat constructor; auto|]. intros x. cbn. intuition auto.
  - cbn [put]. inversion H; subst. destruct (IH H3) as [N I]. cbn [fst]. destruct (beq a k) eqn:E.
    + apply beq_eq in E. subst. split; [cbn; constructor; auto|]. intros x. cbn. intuition.
    + cbn [map fst]. split.
      * constructor; auto. rewrite I. intros [-> | F]; auto. rewrite beq_refl in E. discriminate.
      * intros x. cbn [In]. rewrite I. intuition.
Qed.
Lemma put_find : forall B k (v : B) l n, find (fun x => beq (fst x) n) (put k v l) =
  if beq k n then Some (k, v) else find (fun x => beq (fst x) n) l.
Proof.
  induction l as [|[a b] l IH]; intros n; cbn [put].
  - cbn. destruct (beq k n); auto.
  - cbn [fst]. destruct (beq a k) eqn:E.
    + apply beq_eq in E. subst. cbn [find fst]. destruct (beq k n); auto.
    + cbn [find fst]. rewrite IH. destruct (beq a n) eqn:F; auto. destruct (beq k n) eqn:G; auto.
      apply beq_eq in F. apply beq_eq in G. subst. rewrite beq_refl in E. discriminate.
Qed.
Lemma history_snoc : forall A st (ops : list (op A)) o r, history st (ops ++ [o]) r = match step st (history st ops r) o with Ok r' => r' | _ => history st ops r end.
Proof. intros. unfold history. rewrite fold_left_app. reflexivity. Qed.
Lemma flat_map_snoc : forall A B (f : A -> list B) l x, flat_map f (l ++ [x]) = flat_map f l ++ f x.
Proof. intros. rewrite flat_map_app. cbn. rewrite app_nil_r. auto. Qed.

Lemma history_tables : forall A st (ops : list (op A)), let r := history st ops empty_reg in
  NoDup (map fst (items r)) /\ NoDup (map fst (aliases r)) /\
  (forall k, latest k (pushes st ops) (option_map snd (find (fun x => beq (fst x) k) (items r)))) /\
  (forall k, latest k (renames st ops) (option_map snd (find (fun x => beq (fst x) k) (aliases r)))).
Proof.
  intros A st ops. induction ops as [|o ops IH] using rev_ind.
  - repeat split; try constructor; intros; apply l_none.
  - cbv zeta in *. destruct IH as (N1 & N2 & P1 & P2). rewrite history_snoc. unfold pushes, renames in *. rewrite !flat_map_snoc.
    destruct o as [t m|old new]; cbn [step]; unfold reserved.
    + destruct (existsb (beq t) (mods st)) eqn:E.
      * rewrite !app_nil_r. auto.
      * cbn [items aliases]. rewrite app_nil_r. split; [apply put_keys; auto|]. split; auto. split; auto. intros k. rewrite put_find.
        destruct (beq t k) eqn:F.
        -- apply beq_eq in F. subst. apply l_new.
        -- apply l_other; auto. intros ->. rewrite beq_refl in F. discriminate.
    + destruct (existsb (beq new) (mods st)) eqn:E.
      * rewrite !app_nil_r. auto.
      * cbn [items aliases]. rewrite app_nil_r. split; auto. split; [apply put_keys; auto|]. split; auto. intros k. rewrite put_find.
        destruct (beq new k) eqn:F.
        -- apply beq_eq in F. subst. apply l_new.
        -- apply l_other; auto. intros ->. rewrite beq_refl in F. discriminate.
Qed.

(** C44. After any sequence of registrations, accepted or not, no two makers and no two aliases have the same name. *)
Theorem c44_unique : forall A st (ops : list (op A)),
  NoDup (map fst (items (history st ops empty_reg))) /\ NoDup (map fst (aliases (history st ops empty_reg))).
Proof. intros. destruct (history_tables A st ops) as (H1 & H2 & _). auto. Qed.
Definition some_calls : list (op N) :=
  [Push (bs "lower") 1; Alias (bs "lower") (bs "small"); Push (bs "utf8") 2; Push (bs "upper") 3; Push (bs "lower") 4;
   Alias (bs "upper") (bs "small"); Alias (bs "lower") (bs "utf8")]%N.
Example c44_unique_ex : history trans_style some_calls empty_reg =
  mkreg [(bs "lower", 4); (bs "upper", 3)]%N [(bs "small", bs "upper")].
Proof. reflexivity. Qed.

(** C44. A maker or alias name that is reserved for a modifier is rejected and changes nothing; every other one is accepted. *)
Theorem c44_reserved : forall A st (r : registry A) o, let k := match o with Push t _ => t | Alias _ n => n end in
  (In k (mods st) -> step st r o = Err) /\ (~ In k (mods st) -> exists r', step st r o = Ok r').
Proof.
  intros A st r o k. assert (E : existsb (beq k) (mods st) = true <-> In k (mods st)).
  { rewrite existsb_exists. split; [intros (x & H & F); apply beq_eq in F; subst; auto|]. intros H. exists k. split; auto. apply beq_refl. }
  subst k. destruct o; cbn [step]; unfold reserved; destruct (existsb _ (mods st)); split; intros H; eauto.
  - destruct E as [E _]. destruct H; auto.
  - destruct E as [_ E]. specialize (E H). discriminate.
  - destruct E as [E _]. destruct H; auto.
  - destruct E as [_ E]. specialize (E H). discriminate.
Qed.
Example c44_reserved_ex : step match_style (empty_reg (A := N)) (Push (bs "not") 5%N) = Err /\
  step match_style (empty_reg (A := N)) (Push (bs "nor") 5%N) = Ok (mkreg [(bs "nor", 5%N)] []).
Proof. split; reflexivity. Qed.

(** C44. In the registries that compare names exactly, looking up a name finds the latest accepted registration of that name,
    and an alias stands for the name it was last given, whatever was registered before, after and in between. *)
Theorem c44_latest : forall A st (ops : list (op A)) k, exact st = true ->
  latest k (pushes st ops) (lookup st (history st ops empty_reg) k) /\
  exists o, latest k (renames st ops) o /\ resolve (history st ops empty_reg) k = match o with Some x => x | None => k end.
Proof.
  intros A st ops k E. destruct (history_tables A st ops) as (_ & _ & P1 & P2). split.
  - specialize (P1 k). unfold lookup. rewrite E. destruct (find _ _); exact P1.
  - eexists. split; [apply (P2 k)|]. unfold resolve. destruct (find _ _); reflexivity.
Qed.
Example c44_latest_ex : lookup trans_style (history trans_style some_calls empty_reg) (bs "lower") = Some 4%N /\
  lookup trans_style (history trans_style some_calls empty_reg) (bs "utf8") = None /\
  resolve (history trans_style some_calls empty_reg) (bs "small") = bs "upper" /\ latest (bs "lower") (pushes trans_style some_calls) (Some 4%N).
Proof.
  repeat split. change (pushes trans_style some_calls) with ([(bs "lower", 1%N); (bs "upper", 3%N)] ++ [(bs "lower", 4%N)]). apply l_new.
Qed.

(** C44. From a name to its maker: a name without a dot that is no alias and no modifier in any case gets the maker last
    registered under it. *)
Theorem c44_made_partial : forall A st (ops : list (op A)) k, exact st = true -> k <> [] -> ~ In 46%N k ->
  (forall m, In m (skipped st) -> same_word k m = false) -> (forall old, ~ In (Alias old k) ops) ->
  latest k (pushes st ops) (made st (history st ops empty_reg) k).
Proof.
  intros A st ops k E Hk Hd Hm Ha. destruct (c44_latest A st ops k E) as [P (o & Q & R)].
  unfold made. destruct k as [|c k]; [congruence|]. unfold last_part. rewrite split_str_none by auto. cbn [fold_left].
  replace (existsb (same_word (c :: k)) (skipped st)) with false.
  2:{ symmetry. destruct (existsb _ _) eqn:X; auto. apply existsb_exists in X as (m & X & Y). rewrite Hm in Y by auto. discriminate. }
  rewrite R. assert (o = None) as ->; auto.
  assert (NA : forall v, ~ In (c :: k, v) (renames st ops)).
  { intros v H. unfold renames in H. apply in_flat_map in H as (x & H1 & H2). destruct x as [t m|old new]; [destruct H2|].
    destruct (existsb _ _); [destruct H2|]. destruct H2 as [H2|[]]. inversion H2; subst. exact (Ha _ H1). }
  clear R. induction Q; auto.
  - exfalso. apply (NA v). apply in_or_app. right. left. auto.
  - apply IHQ. intros v' H'. apply (NA v'). apply in_or_app. auto.
Qed.
Example c44_made_partial_ex : made trans_style (history trans_style some_calls empty_reg) (bs "upper") = Some 3%N /\
  made trans_style (history trans_style some_calls empty_reg) (bs "UTF8.small") = Some 3%N.
Proof. split; reflexivity. Qed.

(** C44 is false of a maker registered under the name of an alias: the alias keeps hiding it. *)
Theorem c44_alias_hides_refuted : exists (ops : list (op N)) k v, latest k (pushes trans_style ops) (Some v) /\
  ~ In k (mods trans_style) /\ made trans_style (history trans_style ops empty_reg) k <> Some v.
Proof.
  exists [Push (bs "lower") 1; Alias (bs "lower") (bs "lowercase"); Push (bs "lowercase") 2]%N, (bs "lowercase"), 2%N. split; [|split].
  - exact (l_new (bs "lowercase") [(bs "lower", 1%N)] 2%N).
  - cbn. intuition discriminate.
  - vm_compute. discriminate.
Qed.
(** C44 is false of names that equal a modifier but for their case: they are accepted, and then taken for the modifier. *)
Theorem c44_modifier_case_refuted : exists (ops : list (op N)) k v, latest k (pushes trans_style ops) (Some v) /\
  lookup trans_style (history trans_style ops empty_reg) k = Some v /\ made trans_style (history trans_style ops empty_reg) k = None.
Proof. exists [Push (bs "UTF8") 1%N], (bs "UTF8"), 1%N. split; [exact (l_new (bs "UTF8") [] 1%N)|]. split; reflexivity. Qed.
(** C44 is false of comparators: names are registered with their case but looked up without, so a later registration that differs
    in case is never found. *)
Theorem c44_comp_case_refuted : exists (ops : list (op N)) k v, latest k (pushes comp_style ops) (Some v) /\
  made comp_style (history comp_style ops empty_reg) k <> Some v.
Proof.
  exists [Push (bs "plain") 1; Push (bs "Plain") 2]%N, (bs "Plain"), 2%N. split; [exact (l_new (bs "Plain") [(bs "plain", 1%N)] 2%N)|].
  vm_compute. discriminate.
Qed.
(** C44 is false of counters: the name of their one modifier is not reserved. *)
Theorem c44_counter_utf8_refuted : exists (ops : list (op N)) k v, latest k (pushes counter_style ops) (Some v) /\
  made counter_style (history counter_style ops empty_reg) k = None.
Proof. exists [Push (bs "utf8") 1%N], (bs "utf8"), 1%N. split; [exact (l_new (bs "utf8") [] 1%N)|reflexivity]. Qed.
