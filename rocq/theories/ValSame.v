(** Sorting lines all of which satisfy a condition: two comparisons that agree on such lines give the same result. *)
From Coq Require Import List NArith Bool Arith Lia.
Import ListNotations.
From Verif Require Import Base CompSpec OrdProofs ReadModel HeadModel SortSpec SortModel SortProofs MergeProofs SorterProofs OrderSame.

Lemma sift_up_ext : forall (c d : nat -> nat -> comparison), (forall a b, c a b = d a b) -> forall fuel h pos, sift_up c fuel h pos = sift_up d fuel h pos.
Proof. intros c d E. induction fuel as [|f IH]; intros h pos; cbn [sift_up]; auto. destruct (Nat.eqb pos 0); auto. cbv zeta. rewrite E. destruct (is_gt _); auto. Qed.
Lemma sift_down_ext : forall (c d : nat -> nat -> comparison), (forall a b, c a b = d a b) -> forall fuel h pos, sift_down c fuel h pos = sift_down d fuel h pos.
Proof. intros c d E. induction fuel as [|f IH]; intros h pos; cbn [sift_down]; auto. cbv zeta. rewrite E, IH. auto. Qed.
Lemma bh_push_ext : forall (c d : nat -> nat -> comparison), (forall a b, c a b = d a b) -> forall x h, bh_push c x h = bh_push d x h.
Proof. intros c d E x h. unfold bh_push. apply sift_up_ext; auto. Qed.
Lemma bh_pop_ext : forall (c d : nat -> nat -> comparison), (forall a b, c a b = d a b) -> forall h, bh_pop c h = bh_pop d h.
Proof.
  intros c d E h. unfold bh_pop. destruct h as [|x h]; auto. destruct (rev (x :: h)) as [|y r]; auto. destruct (removelast (x :: h)) as [|z t]; auto.
  rewrite (sift_down_ext c d E). destruct (sift_down d _ _ _) as [h2 pos]. rewrite (sift_up_ext c d E). auto.
Qed.

Lemma nth_all : forall {A} (P : A -> Prop) (rs : list (list A)) i, Forall (Forall P) rs -> Forall P (nth i rs []).
Proof. intros A P rs i F. destruct (Nat.lt_ge_cases i (length rs)) as [H|H]; [rewrite Forall_forall in F; apply F, nth_In; auto|rewrite nth_overflow; auto]. Qed.

Section Merge.
Context {A : Type}.
Variable P : A -> Prop.
Variable cmp cmp' : A -> A -> comparison.
Variable eqv eqv' : A -> A -> bool.
Hypothesis agree : forall a b, P a -> P b -> cmp a b = cmp' a b /\ eqv a b = eqv' a b.
Notation all := (Forall (Forall P)).
Lemma rd_cmp_same : forall rs, all rs -> forall a b, rd_cmp cmp rs a b = rd_cmp cmp' rs a b.
Proof.
  intros rs F a b. unfold rd_cmp. pose proof (nth_all P rs a F) as Ha. pose proof (nth_all P rs b F) as Hb. destruct (nth a rs []) as [|x l]; auto. destruct (nth b rs []) as [|y m]; auto.
  inversion Ha; inversion Hb; subst. apply agree; auto.
Qed.
Lemma hcmp_same : forall rs, all rs -> forall a b, hcmp cmp rs a b = hcmp cmp' rs a b.
Proof. intros rs F a b. unfold hcmp. rewrite rd_cmp_same; auto. Qed.
Lemma rd_next_all : forall rs f, all rs -> all (rd_next rs f).
Proof. intros rs f F. unfold rd_next. apply list_set_forall; auto. pose proof (nth_all P rs f F) as H. destruct (nth f rs []); auto. inversion H; auto. Qed.
Lemma next_same : forall t rs, all rs -> next cmp t rs = next cmp' t rs /\ all (snd (next cmp' t rs)).
Proof.
  induction t as [f first|l IHl r IHr ld rd]; intros rs F; cbn [next].
  - split; auto. destruct (rd_done rs f); auto. destruct first; auto. destruct (rd_done (rd_next rs f) f); cbn [snd]; apply rd_next_all; auto.
  - destruct ld as [a0|]; [|destruct (IHl rs F) as [-> X1]; destruct (next cmp' l rs) as [[ld1 l1] rs1]; cbn [snd] in X1; clear F; rename X1 into F; rename rs into rs9; rename rs1 into rs];
    (destruct rd as [b0|]; [|destruct (IHr rs F) as [-> X2]; destruct (next cmp' r rs) as [[rd1 r1] rs2]; cbn [snd] in X2]).
    all: repeat match goal with |- context [match ?x with Some _ => _ | None => _ end] => is_var x; destruct x end; cbn [snd]; auto.
    all: rewrite rd_cmp_same by auto; split; auto; destruct (is_gt _); auto.
Qed.
Lemma tree_loop_same : forall fuel t rs, all rs -> tree_loop cmp fuel t rs = tree_loop cmp' fuel t rs.
Proof.
  induction fuel as [|f IH]; intros t rs F; cbn [tree_loop]; auto. destruct (next_same t rs F) as [-> G]. destruct (next cmp' t rs) as [[[x|] t'] rs']; auto. cbn [snd] in G.
  destruct (nth x rs' []); auto. rewrite IH; auto.
Qed.
Lemma tree_uloop_same : forall fuel prev t rs, P prev -> all rs -> tree_uloop cmp eqv fuel prev t rs = tree_uloop cmp' eqv' fuel prev t rs.
Proof.
  induction fuel as [|f IH]; intros prev t rs Hp F; cbn [tree_uloop]; auto. destruct (next_same t rs F) as [-> G]. destruct (next cmp' t rs) as [[[x|] t'] rs']; auto. cbn [snd] in G.
  pose proof (nth_all P rs' x G) as H. destruct (nth x rs' []) as [|line l]; auto. inversion H; subst. rewrite IH by auto. destruct (agree prev line) as [_ ->]; auto.
Qed.
Lemma merge_t1_same : forall u rs, all rs -> merge_t1 cmp eqv u rs = merge_t1 cmp' eqv' u rs.
Proof.
  intros u rs F. unfold merge_t1. destruct rs as [|r0 rs0]; auto. set (rs := r0 :: rs0) in *. destruct (new_tree _ _) as [t| |]; auto.
  destruct u; [|apply tree_loop_same; auto]. destruct (next_same t rs F) as [-> G]. destruct (next cmp' t rs) as [[[x|] t'] rs']; auto. cbn [snd] in G.
  pose proof (nth_all P rs' x G) as H. destruct (nth x rs' []) as [|line l]; auto. inversion H; subst. rewrite tree_uloop_same; auto.
Qed.
Lemma heap_init_same : forall rs, all rs -> heap_init cmp bh_push rs = heap_init cmp' bh_push rs.
Proof.
  intros rs F. unfold heap_init. generalize (@nil nat) as h. generalize (seq 0 (length rs)) as l. induction l as [|i l IH]; intros h; cbn [fold_left]; auto.
  rewrite (bh_push_ext (hcmp cmp rs) (hcmp cmp' rs)) by (apply hcmp_same; auto). apply IH.
Qed.
Lemma heap_back_same : forall rs h x, all rs -> heap_back cmp bh_push rs h x = heap_back cmp' bh_push rs h x /\ all (snd (heap_back cmp' bh_push rs h x)).
Proof.
  intros rs h x F. unfold heap_back. cbv zeta. pose proof (rd_next_all rs x F) as G. rewrite (bh_push_ext (hcmp cmp (rd_next rs x)) (hcmp cmp' (rd_next rs x))) by (apply hcmp_same; auto). auto.
Qed.
Lemma heap_loop_same : forall fuel h rs, all rs -> heap_loop cmp bh_push bh_pop fuel h rs = heap_loop cmp' bh_push bh_pop fuel h rs.
Proof.
  induction fuel as [|f IH]; intros h rs F; cbn [heap_loop]; auto. rewrite (bh_pop_ext (hcmp cmp rs) (hcmp cmp' rs)) by (apply hcmp_same; auto).
  destruct (bh_pop (hcmp cmp' rs) h) as [[x h']|]; auto. destruct (nth x rs []) as [|line l]; auto. destruct (heap_back_same rs h' x F) as [-> G].
  destruct (heap_back cmp' bh_push rs h' x) as [h2 rs2]. cbn [snd] in G. rewrite IH; auto.
Qed.
Lemma heap_uloop_same : forall fuel prev h rs, P prev -> all rs -> heap_uloop cmp eqv bh_push bh_pop fuel prev h rs = heap_uloop cmp' eqv' bh_push bh_pop fuel prev h rs.
Proof.
  induction fuel as [|f IH]; intros prev h rs Hp F; cbn [heap_uloop]; auto. rewrite (bh_pop_ext (hcmp cmp rs) (hcmp cmp' rs)) by (apply hcmp_same; auto).
  destruct (bh_pop (hcmp cmp' rs) h) as [[x h']|]; auto. pose proof (nth_all P rs x F) as H. destruct (nth x rs []) as [|line l]; auto. inversion H; subst. cbv zeta.
  destruct (agree prev line) as [_ ->]; auto. destruct (heap_back_same rs h' x F) as [-> G].
  destruct (heap_back cmp' bh_push rs h' x) as [h2 rs2]. cbn [snd] in G. rewrite IH; auto. destruct (eqv' prev line); auto.
Qed.
Lemma merge_t2_same : forall u rs, all rs -> merge_t2 cmp eqv bh_push bh_pop u rs = merge_t2 cmp' eqv' bh_push bh_pop u rs.
Proof.
  intros u rs F. unfold merge_t2. cbv zeta. rewrite heap_init_same by auto. destruct u; [|apply heap_loop_same; auto].
  rewrite (bh_pop_ext (hcmp cmp rs) (hcmp cmp' rs)) by (apply hcmp_same; auto).
  destruct (bh_pop (hcmp cmp' rs) _) as [[x h']|]; auto. pose proof (nth_all P rs x F) as H. destruct (nth x rs []) as [|line l]; auto. inversion H; subst.
  destruct (heap_back_same rs h' x F) as [-> G]. destruct (heap_back cmp' bh_push rs h' x) as [h2 rs2]. cbn [snd] in G. rewrite heap_uloop_same; auto.
Qed.
Lemma do_sort_all : forall u l, Forall P l -> do_sort cmp eqv u l = do_sort cmp' eqv' u l /\ Forall P (do_sort cmp' eqv' u l).
Proof.
  intros u l F. rewrite Forall_forall in F. split; [apply do_sort_same; intros; apply agree; auto|].
  assert (D : forall r p y, In y (dedup_from eqv' p r) -> In y r). { clear. induction r as [|x r IH]; intros p y I; auto. cbn [dedup_from] in I. destruct (eqv' x p); cbn in *; [right; eauto|destruct I; eauto]. }
  apply Forall_forall. intros y I. apply F. apply (std_sort_in cmp'). unfold do_sort in I. destruct u; auto. destruct (std_sort cmp' l) as [|x r]; auto. cbn [dedup] in I. destruct I as [->|I]; [left; auto|right; eapply D; eauto].
Qed.
End Merge.

Section Files.
Variable P : bytes -> Prop.
Variable cmp icmp cmp' : bytes -> bytes -> comparison.
Variable eqv ieqv eqv' : bytes -> bytes -> bool.
Hypothesis agree : forall a b, P a -> P b -> cmp a b = cmp' a b /\ eqv a b = eqv' a b.
Hypothesis iagree : forall a b, P a -> P b -> icmp a b = cmp' a b /\ ieqv a b = eqv' a b.
Hypothesis whole : forall l, P l -> whole_line l.
Variable cap : nat.
Variable unique : bool.
(** Text made of such lines, the last of which may lack its newline; and with it. *)
Definition full (t : bytes) : Prop := exists ls, Forall P ls /\ concat ls = t.
Definition good (t : bytes) : Prop := exists ls, Forall P ls /\ (concat ls = t \/ concat ls = t ++ [NL]).
Lemma wholes : forall ls, Forall P ls -> Forall whole_line ls.
Proof. intros ls F. eapply Forall_impl; [|exact F]. auto. Qed.
Lemma full_good : forall t, full t -> good t.
Proof. intros t (ls & F & E). exists ls. auto. Qed.
Lemma good_nil : good [].
Proof. exists []. auto. Qed.
Lemma full_app : forall a b, full a -> good b -> good (a ++ b).
Proof. intros a b (la & Fa & <-) (lb & Fb & E). exists (la ++ lb). rewrite concat_app. split; [apply Forall_app; auto|]. rewrite <- app_assoc. destruct E as [->| ->]; auto. Qed.
Lemma good_split : forall ls z, Forall whole_line ls -> good (concat ls ++ z) -> Forall P ls /\ good z.
Proof.
  intros ls z W (l & F & E). assert (X : exists y, concat l = concat ls ++ y /\ (y = z \/ y = z ++ [NL])) by (destruct E as [E|E]; [exists z|exists (z ++ [NL])]; rewrite E, <- ?app_assoc; auto).
  destruct X as (y & E1 & E2). destruct (lines_prefix ls l y W (wholes _ F) E1) as (l2 & -> & E3). apply Forall_app in F as [F1 F2]. split; auto. exists l2. split; auto. destruct E2; subst; auto.
Qed.
Lemma calc_good : forall d r ls rest, good (d ++ r) -> calc d [] = (ls, rest) -> Forall P ls /\ good (rest ++ r).
Proof.
  intros d r ls rest G E. destruct (calc_spec _ _ _ _ E) as (A & W & _); [auto|]. cbn [rev app] in A. subst d. rewrite <- app_assoc in G. apply good_split; auto.
Qed.
Lemma calc_full : forall d, full d -> Forall P (fst (calc d [])).
Proof. intros d (ls & F & <-). rewrite calc_lines by (apply wholes; auto). auto. Qed.
Notation spill1 := (spill icmp ieqv unique). Notation spill2 := (spill cmp' eqv' unique).
Lemma spill_good : forall s r, good (so_data s ++ r) -> Forall full (so_tmp s) -> spill1 s = spill2 s /\ good (so_data (spill2 s) ++ r) /\ Forall full (so_tmp (spill2 s)).
Proof.
  intros s r G T. unfold spill. destruct (calc (so_data s) []) as [ls rest] eqn:E. destruct (calc_good _ _ _ _ G E) as [F1 F2].
  destruct (do_sort_all P icmp cmp' ieqv eqv' iagree unique ls F1) as [-> F3]. split; auto. split; auto. cbn [so_tmp]. apply Forall_app. split; auto. constructor; [|constructor]. eexists. eauto.
Qed.
Lemma nl_ends : forall b c, whole_line b -> last b c = NL.
Proof. intros b c (x & -> & _). apply last_last. Qed.
(** Data at the end of a line is a number of whole lines. *)
Lemma good_full : forall d r x, good (d ++ r) -> rev d = NL :: x -> full d.
Proof.
  intros d r x G E. destruct (calc d []) as [ls rest] eqn:C. destruct (calc_good _ _ _ _ G C) as [F _]. destruct (calc_spec _ _ _ _ C) as (A & W & N); [auto|]. cbn [rev app] in A.
  exists ls. split; auto. destruct rest as [|c rest _] using rev_ind; [rewrite app_nil_r in A; auto|]. exfalso. subst d. rewrite app_assoc, rev_app_distr in E. cbn [rev app] in E. injection E as -> _. apply N. apply in_app_iff. right. left. auto.
Qed.
Lemma good_end : forall d c x, good d -> rev d = c :: x -> c <> NL -> full (d ++ [NL]).
Proof.
  intros d c x (ls & F & [E|E]) R N; [|exists ls; auto]. exfalso. destruct ls as [|l ls _] using rev_ind; [subst d; discriminate R|]. rewrite concat_app in E. cbn [concat] in E. rewrite app_nil_r in E.
  apply Forall_app in F as [_ F]. inversion F as [|? ? Hl _]; subst. destruct (whole _ Hl) as (b & -> & _). rewrite app_assoc, rev_app_distr in R. cbn in R. injection R as <- _. auto.
Qed.
Definition neat (s : sorter) : Prop := full (so_data s) /\ Forall full (so_tmp s).
Lemma add_same_good : forall fuel size s r sched, good (so_data s ++ r) -> Forall full (so_tmp s) ->
  add icmp ieqv cap unique fuel size s r sched = add cmp' eqv' cap unique fuel size s r sched /\
  (forall s', add cmp' eqv' cap unique fuel size s r sched = Ok s' -> neat s').
Proof.
  induction fuel as [|fuel IH]; intros size s r sched G T; [split; [auto|discriminate]|]. cbn [add].
  set (sz := prepare cap s size). set (want := match sched with [] => sz | w :: _ => Nat.max 1 w end). set (n := Nat.min want (Nat.min sz (length r))).
  destruct (Nat.eqb_spec n 0) as [Z|Z].
  - split; auto. intros s' E. destruct (rev (so_data s)) as [|c x] eqn:R.
    + injection E as <-. split; auto. assert (so_data s = []) by (rewrite <- (rev_involutive (so_data s)), R; auto). rewrite H. exists []. auto.
    + destruct (N.eqb_spec c NL) as [->|NE]; [injection E as <-; split; auto; eapply good_full; eauto|]. destruct (Nat.eqb_spec sz 0) as [Y|Y]; [discriminate|].
      assert (r = []). { destruct r; auto. exfalso. unfold n in Z. assert (0 < want) by (unfold want; destruct sched; lia). cbn [length] in Z. lia. }
      subst r. rewrite app_nil_r in G. injection E as <-. split; auto. cbn [so_data]. eapply good_end; eauto.
  - set (s1 := mkso (so_data s ++ firstn n r) (so_tmp s)). assert (G1 : good (so_data s1 ++ skipn n r)). { unfold s1. cbn [so_data]. rewrite <- app_assoc, firstn_skipn. auto. }
    assert (T1 : Forall full (so_tmp s1)) by exact T. destruct (spill_good s1 _ G1 T1) as (-> & G2 & T2). destruct (cap <=? length (so_data s1)); apply IH; auto.
Qed.
(** A file: such lines, perhaps after a header line. *)
Definition file_ok (f : bytes) : Prop := good f \/ exists h t, f = h ++ t /\ whole_line h /\ is_cdx h = true /\ good t.
Lemma add_file_good : forall size s keep first rest sched, neat s -> file_ok (first ++ rest) -> first_line (first ++ rest) = (first, rest) ->
  add_file icmp ieqv cap unique size s keep first rest sched = add_file cmp' eqv' cap unique size s keep first rest sched /\
  (forall w s', add_file cmp' eqv' cap unique size s keep first rest sched = Ok (w, s') -> neat s').
Proof.
  intros size s keep first rest sched [D T] FO FL. unfold add_file. destruct first as [|x0 first0]; [split; [auto|]; intros w s' E; injection E as _ <-; split; auto|]. set (first := x0 :: first0) in *.
  destruct (first_line_spec _ _ _ FL) as [_ WF].
  assert (GR : good rest). { destruct FO as [G|(h & t & E & Wh & _ & G)].
    - destruct WF as [W|[-> _]]; [|apply good_nil]. apply (good_split [first] rest); [constructor; auto|cbn [concat]; rewrite app_nil_r; auto].
    - rewrite E, first_line_whole in FL by auto. injection FL as <- <-. auto. }
  set (pre := if keep then _ else _).
  assert (PR : forall w s1, pre = Ok (w, s1) -> good (so_data s1 ++ rest) /\ Forall full (so_tmp s1)).
  { unfold pre. intros w s1 E. destruct keep; [|injection E as _ <-; split; auto; apply full_app; auto]. destruct (is_cdx first) eqn:C; [injection E as _ <-; split; auto; apply full_app; auto|].
    unfold add_data in E. destruct (Nat.eqb _ _); [|discriminate]. cbn [negb rbind] in E. injection E as _ <-. cbn [so_data so_tmp]. split; auto. rewrite <- app_assoc. apply full_app; auto.
    destruct FO as [G|(h & t & E & Wh & Ch & G)]; auto. rewrite E, first_line_whole in FL by auto. injection FL as H _. subst h. congruence. }
  destruct pre as [[w s1]| |]; cbn [rbind]; [|split; [auto|discriminate]|split; [auto|discriminate]]. destruct (PR w s1 eq_refl) as [P1 P2].
  destruct (add_same_good (S (length rest)) size s1 rest sched P1 P2) as [-> K]. split; auto.
  intros w' s' E. destruct (add cmp' eqv' cap unique (S (length rest)) size s1 rest sched) as [s2| |]; [|discriminate|discriminate].
  cbn [rbind] in E. injection E as _ <-. auto.
Qed.
Lemma open_full : forall t, full t -> Forall P (snd (open_tmp t)).
Proof.
  intros t (ls & F & <-). unfold open_tmp. rewrite file_lines_concat by (apply wholes; auto). destruct (starts_with _ _); [|exact F]. destruct ls; [constructor|]. cbn [snd]. inversion F; auto.
Qed.
Lemma merge_files_opened : forall alt fs, Forall (fun f => Forall P (snd (open_tmp f))) fs ->
  merge_files cmp eqv bh_push bh_pop unique alt fs = merge_files cmp' eqv' bh_push bh_pop unique alt fs.
Proof.
  intros alt fs F. unfold merge_files. destruct fs as [|f fs]; auto. destruct (_ && _)%bool; auto. cbv zeta.
  assert (G : Forall (Forall P) (map (fun x => snd (open_tmp x)) (f :: fs))) by (apply Forall_map; auto).
  rewrite (merge_t1_same P cmp cmp' eqv eqv' agree), (merge_t2_same P cmp cmp' eqv eqv' agree) by auto. auto.
Qed.
Lemma finalize_good : forall s, neat s -> finalize cmp eqv icmp ieqv bh_push bh_pop unique s = finalize cmp' eqv' cmp' eqv' bh_push bh_pop unique s.
Proof.
  intros s [D T]. unfold finalize. destruct (do_sort_all P icmp cmp' ieqv eqv' iagree unique _ (calc_full _ D)) as [-> _].
  destruct (spill_good s [] ltac:(rewrite app_nil_r; apply full_good; auto) T) as (-> & _ & T2). destruct (so_tmp s); auto. apply merge_files_opened.
  eapply Forall_impl; [|exact T2]. apply open_full.
Qed.
Theorem sort_files_good : forall utf8 name size fs c s, neat s -> Forall (fun f => file_ok (fst f)) fs ->
  sort_files cmp eqv icmp ieqv bh_push bh_pop cap unique utf8 name size c s fs = sort_files cmp' eqv' cmp' eqv' bh_push bh_pop cap unique utf8 name size c s fs.
Proof.
  intros utf8 name size fs. induction fs as [|[f sched] fs IH]; intros c s C F; cbn [sort_files]; [rewrite finalize_good; auto|].
  inversion F as [|x y F1 F2]; subst. cbn [fst] in F1. destruct (first_line f) as [first rest] eqn:E. pose proof (first_line_spec _ _ _ E) as [-> _].
  destruct first as [|x first]; [apply IH; auto|]. destruct (check utf8 name MMatch c (x :: first)) as [v c']. destruct v as [keep| |]; auto. cbn [rbind].
  destruct (add_file_good size s keep (x :: first) rest sched C F1 E) as [-> K].
  destruct (add_file cmp' eqv' cap unique size s keep (x :: first) rest sched) as [[w s']| |]; auto. cbn [rbind]. rewrite IH; auto. eapply K; eauto.
Qed.
End Files.
