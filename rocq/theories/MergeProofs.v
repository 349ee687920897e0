(** Proofs about merging. *)
From Coq Require Import List NArith Bool Arith Lia Sorting.Permutation Sorting.Sorted.
Import ListNotations.
From Verif Require Import Base CompSpec OrdProofs ReadModel SortSpec SortModel SortProofs.

Section G.
Context {A : Type}.

Lemma nth_set_same : forall (rs : list (list A)) i v, i < length rs -> nth i (list_set rs i v) [] = v.
Proof. induction rs as [|r rs IH]; intros i v H; [cbn in H; lia|]. destruct i; cbn; auto. apply IH. cbn in H. lia. Qed.
Lemma nth_set_other : forall (rs : list (list A)) i j v, i <> j -> nth j (list_set rs i v) [] = nth j rs [].
Proof. induction rs as [|r rs IH]; intros i j v H; auto. destruct i, j; cbn; auto; try congruence. Qed.
Lemma nth_nonempty : forall (rs : list (list A)) i x l, nth i rs [] = x :: l -> i < length rs.
Proof. intros rs i x l H. destruct (Nat.lt_ge_cases i (length rs)); auto. rewrite nth_overflow in H by auto. discriminate. Qed.
Lemma perm_next : forall (rs : list (list A)) i x l, nth i rs [] = x :: l -> Permutation (concat rs) (x :: concat (list_set rs i l)).
Proof.
  induction rs as [|r rs IH]; intros i x l H; [destruct i; discriminate|]. destruct i; cbn in *.
  - subst. auto.
  - rewrite (IH _ _ _ H). symmetry. apply Permutation_middle.
Qed.
Lemma concat_nth : forall (rs : list (list A)), concat (map (fun i => nth i rs []) (seq 0 (length rs))) = concat rs.
Proof.
  intros rs. f_equal. induction rs as [|r rs IH]; auto. cbn. f_equal. rewrite <- seq_shift, map_map. apply IH.
Qed.
Lemma concat_nil : forall (rs : list (list A)), (forall i, nth i rs [] = []) -> concat rs = [].
Proof. induction rs as [|r rs IH]; intros H; auto. cbn. pose proof (H 0) as H0. cbn in H0. subst. apply IH. intros i. apply (H (S i)). Qed.
Lemma in_concat_nth : forall (rs : list (list A)) y, In y (concat rs) -> exists i, In y (nth i rs []).
Proof.
  induction rs as [|r rs IH]; intros y H; [destruct H|]. cbn in H. apply in_app_or in H as [H|H]; [exists 0; auto|].
  apply IH in H as [i H]. exists (S i). auto.
Qed.

Variable cmp : A -> A -> comparison.
Hypothesis Hpre : total_preorder cmp.
Variable eqv : A -> A -> bool.
Hypothesis Heqv : decides_eq cmp eqv.
Notation readers := (@readers A).

(** Tree merge. *)
Fixpoint files (t : tree) : list nat := match t with Leaf f _ => [f] | Node l r _ _ => files l ++ files r end.
Definition opt (o : option nat) (rs : readers) : list A := match o with None => [] | Some f => firstn 1 (nth f rs []) end.
Fixpoint rest (t : tree) (rs : readers) : list A :=
  match t with
  | Leaf f first => if first then nth f rs [] else tl (nth f rs [])
  | Node l r ld rd => mrg cmp (opt ld rs ++ rest l rs) (opt rd rs ++ rest r rs)
  end.
Definition opt_ok (o : option nat) (fs : list nat) (rs : readers) : Prop :=
  match o with None => True | Some f => In f fs /\ nth f rs [] <> [] end.
Fixpoint wf (t : tree) (rs : readers) : Prop :=
  match t with
  | Leaf f _ => f < length rs
  | Node l r ld rd => wf l rs /\ wf r rs /\ opt_ok ld (files l) rs /\ opt_ok rd (files r) rs
  end.
Definition agree (fs : list nat) (rs rs' : readers) : Prop := length rs = length rs' /\ forall f, In f fs -> nth f rs [] = nth f rs' [].

Lemma opt_agree : forall o fs rs rs', opt_ok o fs rs -> agree fs rs rs' -> opt o rs' = opt o rs /\ opt_ok o fs rs'.
Proof. intros [f|] fs rs rs' H [_ E]; cbn in *; auto. destruct H as [H1 H2]. rewrite <- (E f H1). split; auto. Qed.
Lemma rest_agree : forall t rs rs', wf t rs -> agree (files t) rs rs' -> rest t rs' = rest t rs /\ wf t rs'.
Proof.
  induction t as [f first|l IHl r IHr ld rd]; intros rs rs' W E.
  - cbn in *. destruct E as [El E]. rewrite <- (E f (or_introl eq_refl)). split; [auto|lia].
  - cbn in *. destruct W as (W1 & W2 & W3 & W4).
    assert (E1 : agree (files l) rs rs') by (split; [apply E|intros; apply E, in_or_app; auto]).
    assert (E2 : agree (files r) rs rs') by (split; [apply E|intros; apply E, in_or_app; auto]).
    destruct (IHl _ _ W1 E1) as [-> ?]. destruct (IHr _ _ W2 E2) as [-> ?].
    destruct (opt_agree _ _ _ _ W3 E1) as [-> ?]. destruct (opt_agree _ _ _ _ W4 E2) as [-> ?]. auto 6.
Qed.

Definition next_ok (t : tree) (rs : readers) (o : option nat) (t' : tree) (rs' : readers) : Prop :=
  files t' = files t /\ wf t' rs' /\ length rs = length rs' /\
  (forall f, ~ In f (files t) -> nth f rs [] = nth f rs' []) /\
  match o with
  | None => rest t rs = [] /\ rest t' rs' = []
  | Some f => In f (files t) /\ exists x l, nth f rs' [] = x :: l /\ rest t rs = x :: rest t' rs'
  end.

Lemma rd_done_iff : forall (rs : readers) f, rd_done rs f = true <-> nth f rs [] = [].
Proof. intros. unfold rd_done. destruct (nth f rs []); split; congruence. Qed.
Lemma opt_some : forall f rs x l, nth f rs [] = x :: l -> opt (Some f) rs = [x].
Proof. intros f rs x l H. cbn. rewrite H. auto. Qed.

Lemma nodup_app_in : forall (a b : list nat) x, NoDup (a ++ b) -> In x a -> In x b -> False.
Proof.
  induction a as [|y a IH]; intros b x H Ha Hb; [destruct Ha|]. inversion H; subst. destruct Ha as [->|Ha].
  - apply H2. apply in_or_app. auto.
  - eapply IH; eauto.
Qed.
Lemma nodup_app : forall (a b : list nat), NoDup (a ++ b) -> NoDup a /\ NoDup b.
Proof.
  induction a as [|y a IH]; intros b H; [split; [constructor|auto]|]. inversion H; subst. apply IH in H3 as [? ?].
  split; auto. constructor; auto. intros I. apply H2. apply in_or_app. auto.
Qed.

(** One side of a node: after filling the slot. *)
Lemma fill_slot : forall t rs o (IH : forall rs, wf t rs -> let '(o, t', rs') := next cmp t rs in next_ok t rs o t' rs'),
  wf t rs -> opt_ok o (files t) rs ->
  let '(o', t', rs') := match o with None => next cmp t rs | Some x => (Some x, t, rs) end in
  files t' = files t /\ wf t' rs' /\ opt_ok o' (files t) rs' /\ length rs = length rs' /\
  (forall f, ~ In f (files t) -> nth f rs [] = nth f rs' []) /\
  opt o rs ++ rest t rs = opt o' rs' ++ rest t' rs' /\
  match o' with None => opt o rs ++ rest t rs = [] | Some f => exists x l, nth f rs' [] = x :: l end.
Proof.
  intros t rs [x|] IH W O.
  - cbn in O. destruct O as [O1 O2]. repeat split; auto. destruct (nth x rs []); [congruence|eauto].
  - specialize (IH rs W). destruct (next cmp t rs) as [[o' t'] rs']. destruct IH as (H1 & H2 & H3 & H4 & H5).
    repeat split; auto; destruct o' as [f|]; cbn [opt_ok]; auto.
    + destruct H5 as (? & x & l & E & ?). split; auto. congruence.
    + destruct H5 as (? & x & l & E & R). rewrite (opt_some _ _ _ _ E). cbn. auto.
    + destruct H5 as [-> ->]. auto.
    + destruct H5 as (? & x & l & E & R). eauto.
    + destruct H5 as [-> _]. auto.
Qed.

Lemma next_spec : forall t rs, NoDup (files t) -> wf t rs -> let '(o, t', rs') := next cmp t rs in next_ok t rs o t' rs'.
Proof.
  induction t as [f first|l IHl r IHr ld rd]; intros rs ND W.
  - cbn [next]. destruct (rd_done rs f) eqn:D.
    + apply rd_done_iff in D. unfold next_ok. cbn. rewrite D. repeat split; auto; destruct first; auto.
    + assert (D' : nth f rs [] <> []) by (intros E; apply rd_done_iff in E; congruence).
      destruct first.
      * unfold next_ok. cbn. repeat split; auto. destruct (nth f rs []) as [|x l] eqn:E; [congruence|]. eauto 6.
      * destruct (nth f rs []) as [|x l] eqn:E; [congruence|].
        assert (Hs : nth f (rd_next rs f) [] = l) by (unfold rd_next; rewrite nth_set_same, E; auto).
        assert (Ho : forall g, g <> f -> nth g rs [] = nth g (rd_next rs f) []) by (intros; unfold rd_next; rewrite nth_set_other; auto).
        assert (Hl : length rs = length (rd_next rs f)) by (unfold rd_next; rewrite list_set_length; auto).
        destruct (rd_done (rd_next rs f) f) eqn:D2.
        -- apply rd_done_iff in D2. unfold next_ok. cbn in *. rewrite E. rewrite ?Hs in *. subst l.
           split; [auto|split; [lia|split; [auto|split; [intros g Hg; apply Ho; intuition|]]]]. rewrite !D2; auto.
        -- unfold next_ok. cbn in *. rewrite E, Hs. destruct l as [|y l].
           { rewrite (proj2 (rd_done_iff _ _)) in D2 by auto. discriminate. }
           split; [auto|split; [lia|split; [auto|split; [intros g Hg; apply Ho; intuition|split; [auto|]]]]]. exists y, l. auto.
  - cbn [files] in ND. destruct (nodup_app _ _ ND) as [N1 N2]. cbn in W. destruct W as (W1 & W2 & W3 & W4).
    cbn [next].
    pose proof (fill_slot l rs ld (fun rs W => IHl rs N1 W) W1 W3) as FL.
    destruct (match ld with None => next cmp l rs | Some x => (Some x, l, rs) end) as [[ld' l'] rs1].
    destruct FL as (L1 & L2 & L3 & L4 & L5 & L6 & L7).
    assert (AR : agree (files r) rs rs1) by (split; [auto|intros f Hf; apply L5; intros I; eapply nodup_app_in; eauto]).
    destruct (rest_agree r rs rs1 W2 AR) as [RR WR]. destruct (opt_agree rd _ _ _ W4 AR) as [OR OOR].
    pose proof (fill_slot r rs1 rd (fun rs W => IHr rs N2 W) WR OOR) as FR.
    destruct (match rd with None => next cmp r rs1 | Some x => (Some x, r, rs1) end) as [[rd' r'] rs2].
    destruct FR as (R1 & R2 & R3 & R4 & R5 & R6 & R7).
    assert (AL : agree (files l') rs1 rs2).
    { split; [auto|]. rewrite L1. intros f Hf. apply R5. intros I. eapply nodup_app_in; eauto. }
    destruct (rest_agree l' rs1 rs2 L2 AL) as [RL WL].
    assert (L3' : opt_ok ld' (files l') rs1) by (rewrite L1; auto).
    destruct (opt_agree ld' _ _ _ L3' AL) as [OL OOL].
    rewrite RR, OR in R6, R7.
    assert (EL : opt ld rs ++ rest l rs = opt ld' rs2 ++ rest l' rs2) by (rewrite L6, OL, RL; auto).
    assert (L7' : match ld' with None => opt ld rs ++ rest l rs = [] | Some f => exists x t, nth f rs2 [] = x :: t end).
    { destruct ld' as [f|]; auto. destruct L7 as (x & t & E). destruct L3 as [I _].
      assert (nth f rs1 [] = nth f rs2 []) by (apply AL; rewrite L1; auto). exists x, t. congruence. }
    assert (FS : files l' ++ files r' = files l ++ files r) by congruence.
    assert (LEN : length rs = length rs2) by congruence.
    assert (OUT : forall f, ~ In f (files l ++ files r) -> nth f rs [] = nth f rs2 []).
    { intros f Hf. rewrite L5 by (intros I; apply Hf, in_or_app; auto). apply R5. intros I; apply Hf, in_or_app; auto. }
    assert (R3' : opt_ok rd' (files r') rs2) by (rewrite R1; auto).
    unfold next_ok.
    destruct ld' as [a|], rd' as [b|].
    + destruct L7' as (x & tx & Ex). destruct R7 as (y & ty & Ey).
      rewrite (opt_some _ _ _ _ Ex) in EL. rewrite (opt_some _ _ _ _ Ey) in R6.
      assert (Ec : rd_cmp cmp rs2 a b = cmp x y) by (unfold rd_cmp; rewrite Ex, Ey; auto). rewrite Ec.
      assert (ER : rest (Node l r ld rd) rs = mrg cmp (x :: rest l' rs2) (y :: rest r' rs2)) by (cbn [rest]; rewrite EL, R6; auto).
      rewrite ER, mrg_cons. destruct (is_gt (cmp x y)); (split; [exact FS|]; split; [cbn [wf]; split; [exact WL|]; split; [exact R2|]; split; first [exact I|assumption]|]; split; [exact LEN|]; split; [exact OUT|]); split.
      * apply in_or_app. right. apply R3.
      * exists y, ty. split; auto. cbn [rest]. rewrite (opt_some _ _ _ _ Ex). cbn [opt app]. auto.
      * apply in_or_app. left. apply L3.
      * exists x, tx. split; auto. cbn [rest]. rewrite (opt_some _ _ _ _ Ey). cbn [opt app]. auto.
    + destruct L7' as (x & tx & Ex). rewrite (opt_some _ _ _ _ Ex) in EL.
      (split; [exact FS|]; split; [cbn [wf]; split; [exact WL|]; split; [exact R2|]; split; first [exact I|assumption]|]; split; [exact LEN|]; split; [exact OUT|]). split; [apply in_or_app; left; apply L3|]. exists x, tx. split; auto. cbn [rest opt app] in *.
      rewrite EL, R6 in *. rewrite R7. rewrite !mrg_nil_r. auto.
    + destruct R7 as (y & ty & Ey). rewrite (opt_some _ _ _ _ Ey) in R6.
      (split; [exact FS|]; split; [cbn [wf]; split; [exact WL|]; split; [exact R2|]; split; first [exact I|assumption]|]; split; [exact LEN|]; split; [exact OUT|]). split; [apply in_or_app; right; apply R3|]. exists y, ty. split; auto. cbn [rest opt app] in *.
      rewrite R6. rewrite EL in *. rewrite L7'. rewrite !mrg_nil_l. auto.
    + (split; [exact FS|]; split; [cbn [wf]; split; [exact WL|]; split; [exact R2|]; split; first [exact I|assumption]|]; split; [exact LEN|]; split; [exact OUT|]). cbn [rest opt app] in *. rewrite <- EL, <- R6, L7', R7. auto.
Qed.

Lemma tree_loop_spec : forall fuel t rs, NoDup (files t) -> wf t rs -> length (rest t rs) < fuel ->
  tree_loop cmp fuel t rs = Some (rest t rs).
Proof.
  induction fuel as [|f IH]; intros t rs ND W HF; [lia|]. cbn [tree_loop].
  pose proof (next_spec t rs ND W) as S. destruct (next cmp t rs) as [[o t'] rs']. destruct S as (S1 & S2 & S3 & S4 & S5).
  destruct o as [x|].
  - destruct S5 as (_ & y & l & E & R). rewrite E. rewrite IH.
    + rewrite R. auto.
    + rewrite S1. auto.
    + auto.
    + rewrite R in HF. cbn in HF. lia.
  - destruct S5 as [-> _]. auto.
Qed.

Fixpoint uded (prev : A) (l : list A) : list A :=
  match l with [] => [] | x :: r => if eqv prev x then uded x r else x :: uded x r end.
Lemma tree_uloop_spec : forall fuel prev t rs, NoDup (files t) -> wf t rs -> length (rest t rs) < fuel ->
  tree_uloop cmp eqv fuel prev t rs = Some (uded prev (rest t rs)).
Proof.
  induction fuel as [|f IH]; intros prev t rs ND W HF; [lia|]. cbn [tree_uloop].
  pose proof (next_spec t rs ND W) as S. destruct (next cmp t rs) as [[o t'] rs']. destruct S as (S1 & S2 & S3 & S4 & S5).
  destruct o as [x|].
  - destruct S5 as (_ & y & l & E & R). rewrite E. rewrite IH.
    + rewrite R. cbn [uded]. destruct (eqv prev y); auto.
    + rewrite S1. auto.
    + auto.
    + rewrite R in HF. cbn in HF. lia.
  - destruct S5 as [-> _]. auto.
Qed.
Lemma uded_dedup : forall l p q, cmp p q = Eq -> uded p l = dedup_from eqv q l.
Proof.
  induction l as [|x l IH]; intros p q H; auto. cbn. rewrite !(eqv_same cmp eqv Heqv).
  assert (E : same cmp p x = same cmp x q).
  { destruct (same cmp x q) eqn:E1; unfold same in *.
    - assert (cmp x q = Eq) by (destruct (cmp x q); congruence).
      rewrite (preorder_eq_trans cmp Hpre p q x); auto. apply c_eq_sym; auto.
    - destruct (cmp p x) eqn:E2; auto. assert (cmp x q = Eq). { eapply preorder_eq_trans; eauto. apply c_eq_sym; auto. }
      rewrite H0 in E1. discriminate. }
  rewrite E. destruct (same cmp x q) eqn:E1.
  - apply IH. unfold same in E1. destruct (cmp x q); congruence.
  - f_equal. apply IH. apply c_refl. auto.
Qed.

Lemma new_tree_spec : forall fuel nums, nums <> [] -> length nums <= fuel -> NoDup nums ->
  exists t, new_tree fuel nums = Ok t /\ files t = nums /\
    forall rs, (forall f, In f nums -> f < length rs) -> Forall (sorted cmp) rs ->
      wf t rs /\ stable_sort_of cmp (concat (map (fun i => nth i rs []) nums)) (rest t rs).
Proof.
  induction fuel as [|f IH]; intros nums Hn HF ND; [destruct nums; [congruence|cbn in HF; lia]|].
  destruct nums as [|x [|y nums]]; [congruence| |].
  - exists (Leaf x true). cbn. repeat split; auto; try apply H; auto; rewrite ?app_nil_r; auto.
    + rewrite Forall_forall in H0. apply H0. apply nth_In. apply H. auto.
    + intros z. auto.
  - set (l := x :: y :: nums) in *. cbn [new_tree]. unfold l at 1. cbv zeta. fold l.
    set (mid := length l / 2).
    assert (Hmid : 1 <= mid /\ mid + 1 <= length l).
    { unfold mid. assert (2 <= length l) by (unfold l; cbn; lia).
      pose proof (Nat.div_mod (length l) 2 ltac:(lia)). pose proof (Nat.mod_upper_bound (length l) 2 ltac:(lia)). lia. }
    assert (Hl1 : length (firstn mid l) = mid) by (rewrite firstn_length; lia).
    assert (Hl2 : length (skipn mid l) = length l - mid) by (rewrite skipn_length; lia).
    rewrite <- (firstn_skipn mid l) in ND. destruct (nodup_app _ _ ND) as [N1 N2].
    destruct (IH (firstn mid l)) as (t1 & -> & F1 & K1); auto; try lia. { intros E. rewrite E in Hl1. cbn [length] in Hl1. lia. }
    destruct (IH (skipn mid l)) as (t2 & -> & F2 & K2); auto; try lia. { intros E. rewrite E in Hl2. cbn [length] in Hl2. lia. }
    cbn [rbind]. eexists. split; [reflexivity|]. cbn [files]. split; [rewrite F1, F2; apply firstn_skipn|].
    intros rs HR HS. destruct (K1 rs) as [W1 S1]; auto. { intros g Hg. apply HR. rewrite <- (firstn_skipn mid l). apply in_or_app; auto. }
    destruct (K2 rs) as [W2 S2]; auto. { intros g Hg. apply HR. rewrite <- (firstn_skipn mid l). apply in_or_app; auto. }
    split; [cbn; auto|]. cbn [rest opt app]. rewrite <- (firstn_skipn mid l) at 1. rewrite map_app, concat_app.
    apply sorted_stable_merge; auto.
Qed.

Theorem merge_t1_spec : forall u rs, Forall (sorted cmp) rs ->
  merge_t1 cmp eqv u rs = Some (do_sort cmp eqv u (concat rs)).
Proof.
  intros u rs HS. unfold merge_t1, do_sort. destruct rs as [|r rs]; [destruct u; auto|].
  set (R := r :: rs) in *.
  destruct (new_tree_spec (length R) (seq 0 (length R))) as (t & -> & F & K); try (rewrite seq_length; auto).
  { unfold R. cbn. congruence. } { apply seq_NoDup. }
  destruct (K R) as [W SS]; auto. { intros f Hf. apply in_seq in Hf. lia. }
  rewrite concat_nth in SS.
  assert (E : rest t R = std_sort cmp (concat R)) by (eapply stable_unique; eauto; apply std_sort_stable; auto).
  assert (ND : NoDup (files t)) by (rewrite F; apply seq_NoDup).
  destruct u.
  - pose proof (next_spec t R ND W) as N. destruct (next cmp t R) as [[o t'] rs']. destruct N as (N1 & N2 & N3 & N4 & N5).
    rewrite <- E. destruct o as [x|].
    + destruct N5 as (_ & y & l & E2 & RE). rewrite E2, RE. rewrite tree_uloop_spec; auto; [|rewrite N1; auto|].
      * cbn [dedup]. rewrite (uded_dedup _ y y); auto. apply c_refl. auto.
      * rewrite E in RE. assert (L : length (std_sort cmp (concat R)) = S (length (rest t' rs'))) by (rewrite RE; auto).
        rewrite std_length in L by auto. unfold total. lia.
    + destruct N5 as [-> _]. auto.
  - rewrite tree_loop_spec; auto; [rewrite E; auto|]. rewrite E. unfold total. rewrite std_length; auto.
Qed.

(** Heap merge, for any priority queue. *)
Variable push : (nat -> nat -> comparison) -> nat -> list nat -> list nat.
Variable pop : (nat -> nat -> comparison) -> list nat -> option (nat * list nat).
Variable inv : (nat -> nat -> comparison) -> list nat -> Prop.
Hypothesis HQ : good_queue push pop inv.

Lemma hcmp_pre : forall (rs : readers) (P : nat -> Prop), (forall i, P i -> nth i rs [] <> []) -> total_preorder_on P (hcmp cmp rs).
Proof.
  intros rs P H. unfold hcmp, rd_cmp. split; [|split].
  - intros x Px. specialize (H x Px). destruct (nth x rs []); [congruence|]. rewrite (c_refl cmp Hpre). auto.
  - intros x y Px Py. pose proof (H x Px). pose proof (H y Py). destruct (nth x rs []), (nth y rs []); try congruence.
    f_equal. apply c_sym; auto.
  - intros x y z Px Py Pz. pose proof (H x Px). pose proof (H y Py). pose proof (H z Pz).
    destruct (nth x rs []) as [|a ?], (nth y rs []) as [|b ?], (nth z rs []) as [|c ?]; try congruence.
    rewrite <- !(c_sym cmp Hpre). intros H3 H4. eapply c_trans; eauto.
Qed.

(** The heap holds exactly the readers that have lines, each once. *)
Definition hstate (h : list nat) (rs : readers) : Prop :=
  inv (hcmp cmp rs) h /\ NoDup h /\ forall i, In i h <-> nth i rs [] <> [].

Lemma hcmp_ext : forall (rs rs' : readers) h, (forall i, In i h -> nth i rs [] = nth i rs' []) ->
  forall x y, In x h -> In y h -> hcmp cmp rs x y = hcmp cmp rs' x y.
Proof. intros rs rs' h H x y Hx Hy. unfold hcmp, rd_cmp. rewrite (H x Hx), (H y Hy). auto. Qed.

Lemma heap_init_state : forall rs, hstate (heap_init cmp push rs) rs.
Proof.
  intros rs. destruct HQ as (Q1 & Q2 & Q3 & Q4 & Q5). unfold heap_init.
  assert (G : forall n, n <= length rs ->
    let h := fold_left (fun h i => if rd_done rs i then h else push (hcmp cmp rs) i h) (seq 0 n) [] in
    inv (hcmp cmp rs) h /\ NoDup h /\ forall i, In i h <-> i < n /\ nth i rs [] <> []).
  { induction n as [|n IH]; intros Hn; [cbn; repeat split; auto; try constructor; intros; try tauto; lia|].
    destruct IH as (I1 & I2 & I3); [lia|]. cbv zeta in *. rewrite seq_S, fold_left_app. cbn [fold_left Nat.add].
    set (h := fold_left _ (seq 0 n) []) in *. destruct (rd_done rs n) eqn:D.
    - apply rd_done_iff in D. split; [auto|]. split; [auto|]. intros i. rewrite I3. split; intros [? ?]; split; auto; try lia.
      destruct (Nat.eq_dec i n); [subst; congruence|lia].
    - assert (D' : nth n rs [] <> []) by (intros E; apply rd_done_iff in E; congruence).
      destruct (Q2 (hcmp cmp rs) n h) as [K1 K2]; auto.
      { apply hcmp_pre. intros i [<-|Hi]; auto. apply I3 in Hi. tauto. }
      split; [auto|]. split.
      + eapply Permutation_NoDup; [symmetry; apply K2|]. constructor; auto. intros Hi. apply I3 in Hi. lia.
      + intros i. split.
        * intros Hi. eapply Permutation_in in Hi; [|apply K2]. destruct Hi as [<-|Hi]; [split; auto|]. apply I3 in Hi. split; [lia|tauto].
        * intros [H1 H2]. eapply Permutation_in; [symmetry; apply K2|]. destruct (Nat.eq_dec i n); [left; auto|right].
          apply I3. split; auto. lia. }
  destruct (G (length rs)) as (I1 & I2 & I3); auto. split; [auto|]. split; [auto|].
  intros i. rewrite I3. split; [tauto|]. intros H. split; auto.
  destruct (Nat.lt_ge_cases i (length rs)); auto. rewrite nth_overflow in H; auto. congruence.
Qed.

Lemma list_set_forall : forall (P : list A -> Prop) (rs : readers) i v, Forall P rs -> P v -> Forall P (list_set rs i v).
Proof.
  induction rs as [|r rs IH]; intros i v H Hv; [constructor|]. inversion H; subst. destruct i; cbn; constructor; auto.
Qed.

Lemma heap_step : forall h rs, hstate h rs -> Forall (sorted cmp) rs ->
  (pop (hcmp cmp rs) h = None /\ concat rs = []) \/
  (exists x h' line l, pop (hcmp cmp rs) h = Some (x, h') /\ nth x rs [] = line :: l /\
     (forall y, In y (concat rs) -> cmp line y <> Gt) /\
     let '(h2, rs2) := heap_back cmp push rs h' x in
     rs2 = list_set rs x l /\ hstate h2 rs2 /\ Forall (sorted cmp) rs2).
Proof.
  intros h rs (I1 & I2 & I3) HS. destruct HQ as (Q1 & Q2 & Q3 & Q4 & Q5).
  assert (PRE : total_preorder_on (fun i => In i h) (hcmp cmp rs)) by (apply hcmp_pre; intros i Hi; apply I3; auto).
  destruct h as [|a h0]; [left|right].
  - split; auto. apply concat_nil. intros i. destruct (nth i rs []) eqn:E; auto. exfalso. destruct (I3 i) as [_ K].
    apply K. congruence.
  - set (h := a :: h0) in *. destruct (Q4 (hcmp cmp rs) h) as (x & h' & Ep & Perm & Inv' & Max); auto. { unfold h. congruence. }
    assert (Hx : In x h) by (eapply Permutation_in; [symmetry; apply Perm|left; auto]).
    assert (Ex : nth x rs [] <> []) by (apply I3; auto). destruct (nth x rs []) as [|line l] eqn:El; [congruence|].
    exists x, h', line, l. split; auto. split; auto. split.
    + intros y Hy. apply in_concat_nth in Hy as [i Hi]. destruct (nth i rs []) as [|z zs] eqn:Ei; [destruct Hi|].
      assert (Ii : In i h) by (apply I3; congruence).
      pose proof (Max i Ii) as M. unfold hcmp, rd_cmp in M. rewrite El, Ei in M.
      assert (LE : cmp line z <> Gt) by (destruct (cmp line z); cbn in M; congruence).
      destruct Hi as [<-|Hi]; auto. eapply c_trans; eauto.
      rewrite Forall_forall in HS. specialize (HS (nth i rs [])). rewrite Ei in HS.
      assert (S0 : sorted cmp (z :: zs)). { apply HS. rewrite <- Ei. apply nth_In. eapply nth_nonempty; eauto. }
      apply StronglySorted_inv in S0 as [_ S0]. rewrite Forall_forall in S0. auto.
    + assert (Hlen : x < length rs) by (eapply nth_nonempty; eauto).
      assert (NDx : NoDup (x :: h')) by (eapply Permutation_NoDup; eauto). inversion NDx as [|? ? NI ND']; subst.
      assert (Ers : rd_next rs x = list_set rs x l) by (unfold rd_next; rewrite El; auto).
      unfold heap_back. rewrite Ers. set (rs2 := list_set rs x l).
      assert (Nx : nth x rs2 [] = l) by (apply nth_set_same; auto).
      assert (No : forall i, i <> x -> nth i rs2 [] = nth i rs []) by (intros; apply nth_set_other; auto).
      assert (Inv2 : inv (hcmp cmp rs2) h').
      { eapply Q5; [|apply Inv']. apply hcmp_ext. intros i Hi. symmetry. apply No. congruence. }
      assert (I3' : forall i, In i h' <-> i <> x /\ nth i rs [] <> []).
      { intros i. split.
        - intros Hi. split; [congruence|]. apply I3. eapply Permutation_in; [symmetry; apply Perm|right; auto].
        - intros [H1 H2]. apply I3 in H2. eapply Permutation_in in H2; [|apply Perm]. destruct H2; [congruence|auto]. }
      assert (S2 : Forall (sorted cmp) rs2).
      { apply list_set_forall; auto. rewrite Forall_forall in HS. assert (S0 : sorted cmp (line :: l)).
        { rewrite <- El. apply HS. apply nth_In. auto. } apply StronglySorted_inv in S0. tauto. }
      split; [auto|]. split; [|auto]. destruct (rd_done rs2 x) eqn:D.
      * apply rd_done_iff in D. split; [auto|]. split; [auto|]. intros i. rewrite I3'. split.
        -- intros [H1 H2]. rewrite No; auto.
        -- intros H. assert (i <> x) by congruence. rewrite No in H; auto.
      * assert (D' : nth x rs2 [] <> []) by (intros E; apply rd_done_iff in E; congruence).
        destruct (Q2 (hcmp cmp rs2) x h') as [K1 K2]; auto.
        { apply hcmp_pre. intros i [<-|Hi]; auto. apply I3' in Hi. destruct Hi. rewrite No; auto. }
        split; [auto|]. split; [eapply Permutation_NoDup; [symmetry; apply K2|]; auto|].
        intros i. split.
        -- intros Hi. eapply Permutation_in in Hi; [|apply K2]. destruct Hi as [<-|Hi]; auto. apply I3' in Hi. destruct Hi. rewrite No; auto.
        -- intros H. eapply Permutation_in; [symmetry; apply K2|]. destruct (Nat.eq_dec i x); [left; auto|right].
           apply I3'. rewrite <- No; auto.
Qed.

Definition merged (rs : readers) (out : list A) : Prop :=
  sort_of cmp (concat rs) out /\ forall i, subseq (nth i rs []) out.

Lemma merged_nil : forall rs, concat rs = [] -> merged rs [].
Proof.
  intros rs E. split; [rewrite E; split; [auto|constructor]|]. intros i.
  destruct (nth i rs []) as [|x l] eqn:Ei; [constructor|]. exfalso.
  assert (H : In x (concat rs)). { apply in_concat. exists (nth i rs []). split; [|rewrite Ei; left; auto]. apply nth_In. eapply nth_nonempty; eauto. }
  rewrite E in H. destruct H.
Qed.
Lemma merged_cons : forall (rs : readers) x line l out, nth x rs [] = line :: l -> (forall y, In y (concat rs) -> cmp line y <> Gt) ->
  merged (list_set rs x l) out -> merged rs (line :: out).
Proof.
  intros rs x line l out E M [[P S] F]. pose proof (perm_next rs x line l E) as PN. split; [split|].
  - rewrite PN. auto.
  - constructor; auto. rewrite Forall_forall. intros y Hy. apply M. eapply Permutation_in; [symmetry; apply PN|]. right.
    eapply Permutation_in; [symmetry; apply P|]. auto.
  - intros i. specialize (F i). destruct (Nat.eq_dec i x) as [->|N].
    + rewrite nth_set_same in F by (eapply nth_nonempty; eauto). rewrite E. apply sub_take. auto.
    + rewrite nth_set_other in F by auto. apply sub_skip. auto.
Qed.

Lemma heap_loop_spec : forall fuel h rs, hstate h rs -> Forall (sorted cmp) rs -> length (concat rs) < fuel ->
  exists out, heap_loop cmp push pop fuel h rs = Some out /\ merged rs out.
Proof.
  induction fuel as [|f IH]; intros h rs H HS HF; [lia|]. cbn [heap_loop].
  destruct (heap_step h rs H HS) as [[-> E]|(x & h' & line & l & -> & Ex & M & K)].
  - exists []. split; auto. apply merged_nil. auto.
  - rewrite Ex. destruct (heap_back cmp push rs h' x) as [h2 rs2]. destruct K as (-> & K1 & K2).
    pose proof (perm_next rs x line l Ex) as PN. apply Permutation_length in PN. cbn in PN.
    destruct (IH h2 (list_set rs x l)) as (out & -> & O); auto; [lia|].
    exists (line :: out). split; auto. eapply merged_cons; eauto.
Qed.

(** The unique loop gives the plain output without the repeats. *)
Lemma heap_uloop_spec : forall fuel prev h rs, hstate h rs -> Forall (sorted cmp) rs -> length (concat rs) < fuel ->
  exists out, heap_loop cmp push pop fuel h rs = Some out /\ merged rs out /\
    heap_uloop cmp eqv push pop fuel prev h rs = Some (dedup_from eqv prev out).
Proof.
  induction fuel as [|f IH]; intros prev h rs H HS HF; [lia|]. cbn [heap_loop heap_uloop].
  destruct (heap_step h rs H HS) as [[-> E]|(x & h' & line & l & -> & Ex & M & K)].
  - exists []. split; auto. split; auto. apply merged_nil. auto.
  - rewrite Ex. destruct (heap_back cmp push rs h' x) as [h2 rs2]. destruct K as (-> & K1 & K2).
    pose proof (perm_next rs x line l Ex) as PN. apply Permutation_length in PN. cbn in PN.
    destruct (IH (if eqv prev line then prev else line) h2 (list_set rs x l)) as (out & -> & O & ->); auto; [lia|].
    exists (line :: out). split; auto. split; [eapply merged_cons; eauto|].
    cbn [dedup_from]. rewrite !(eqv_same cmp eqv Heqv), (same_sym cmp Hpre line prev). destruct (same cmp prev line); auto.
Qed.

Theorem merge_t2_spec : forall rs, Forall (sorted cmp) rs ->
  exists out, merge_t2 cmp eqv push pop false rs = Some out /\ merge_t2 cmp eqv push pop true rs = Some (dedup eqv out) /\ merged rs out.
Proof.
  intros rs HS. unfold merge_t2. set (h := heap_init cmp push rs). pose proof (heap_init_state rs) as H. fold h in H.
  cbn [heap_loop]. destruct (heap_step h rs H HS) as [[-> E]|(x & h' & line & l & -> & Ex & M & K)].
  - exists []. split; auto. split; auto. apply merged_nil. auto.
  - rewrite Ex. destruct (heap_back cmp push rs h' x) as [h2 rs2]. destruct K as (-> & K1 & K2).
    pose proof (perm_next rs x line l Ex) as PN. apply Permutation_length in PN. cbn [length] in PN. fold (total rs) in PN.
    destruct (heap_uloop_spec (total rs) line h2 (list_set rs x l)) as (out & O1 & O & _); auto; [lia|].
    destruct (heap_uloop_spec (S (total rs)) line h2 (list_set rs x l)) as (out' & O1' & _ & O2'); auto; [lia|].
    assert (out' = out).
    { assert (MONO : forall fuel h rs o, heap_loop cmp push pop fuel h rs = Some o -> heap_loop cmp push pop (S fuel) h rs = Some o).
      { clear. induction fuel as [|f IH]; intros h rs o H; [discriminate|]. cbn [heap_loop] in H |- *.
        destruct (pop (hcmp cmp rs) h) as [[x h']|]; auto. destruct (nth x rs []) as [|line l]; auto.
        destruct (heap_back cmp push rs h' x) as [h2 rs2]. destruct (heap_loop cmp push pop f h2 rs2) eqn:E; [|discriminate].
        apply IH in E. cbn [heap_loop] in E. rewrite E. auto. }
      apply MONO in O1. congruence. }
    subst out'. exists (line :: out). rewrite O1, O2'. split; auto. split; auto. eapply merged_cons; eauto.
Qed.

Lemma dedup_in : forall l p y, In y (dedup_from eqv p l) -> In y l.
Proof. induction l as [|x l IH]; intros p y H; auto. cbn in H. destruct (eqv x p); [right; eauto|]. destruct H; [left; auto|right; eauto]. Qed.
Lemma one_of_groups_dedup : forall inp out, sort_of cmp inp out -> one_of_groups cmp inp (dedup eqv out).
Proof.
  intros inp out [P S]. destruct (dedup_spec cmp Hpre eqv Heqv out S) as [D1 D2]. split; auto. split.
  - intros y Hy. eapply Permutation_in; [symmetry; apply P|]. destruct out as [|x l]; auto. destruct Hy as [->|Hy]; [left; auto|right]. eapply dedup_in; eauto.
  - intros x Hx. assert (Hx' : In x out) by (eapply Permutation_in; eauto).
    assert (F : In x (filter (same cmp x) out)). { apply filter_In. split; auto. apply same_iff. apply c_refl. auto. }
    specialize (D2 x). destruct (filter (same cmp x) out) as [|z zs]; [destruct F|]. cbn in D2.
    exists z. assert (I : In z (filter (same cmp x) (dedup eqv out))) by (rewrite D2; left; auto).
    apply filter_In in I as [I1 I2]. split; auto. apply same_iff in I2. auto.
Qed.

(** When only identical items compare equal there is a single sorted arrangement. *)
Lemma sort_of_unique : (forall x y, cmp x y = Eq -> x = y) -> forall inp o1 o2, sort_of cmp inp o1 -> sort_of cmp inp o2 -> o1 = o2.
Proof.
  intros AS inp o1 o2 [P1 S1] [P2 S2]. assert (P : Permutation o1 o2) by (transitivity inp; [symmetry|]; auto).
  clear inp P1 P2. revert o2 S2 P. induction S1 as [|x l S IH F]; intros o2 S2 P.
  - apply Permutation_nil in P. auto.
  - destruct o2 as [|y o2]; [symmetry in P; apply Permutation_nil in P; discriminate|].
    assert (x = y).
    { assert (Iy : In y (x :: l)) by (eapply Permutation_in; [symmetry; apply P|left; auto]).
      assert (Ix : In x (y :: o2)) by (eapply Permutation_in; [apply P|left; auto]).
      destruct Iy as [|Iy]; auto. destruct Ix as [|Ix]; auto. rewrite Forall_forall in F. specialize (F y Iy).
      apply StronglySorted_inv in S2 as [_ F2]. rewrite Forall_forall in F2. specialize (F2 x Ix).
      apply AS. destruct (cmp x y) eqn:E; try congruence. rewrite (c_sym cmp Hpre), E in F2. cbn in F2. congruence. }
    subst y. f_equal. apply IH.
    + apply StronglySorted_inv in S2. tauto.
    + apply Permutation_cons_inv in P. auto.
Qed.
End G.
