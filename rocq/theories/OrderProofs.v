(** Proofs about the sort tool. *)
From Coq Require Import String List NArith ZArith Bool Arith Lia Sorting.Permutation Sorting.Sorted.
Open Scope list_scope.
Import ListNotations.
From Verif Require Import Base TextModel TextSpec StrModel FloatModel ReadModel ReadSpec HeadModel HdrModel HdrProofs CompSpec LineSpec CompModel OrdProofs CompProofs CacheProofs LineProofs
  RawSplitProofs SortSpec SortModel SortProofs HeapProofs MergeProofs SorterProofs SortProps CompProps ReadProofs ToolModel ToolOpen PasteSpec PasteProofs TurnProofs NumbProofs KeyModel KeySpec KeyProofs OrderModel OrderSpec OrderSame.
Close Scope Z_scope. Open Scope nat_scope.

(** * Cached keys and keys of lines read back *)
Definition first_safe (k : linecomp) : Prop :=
  lc_rev k = false /\ match lc_cmp k with LCol _ _ => True | LWhole c => cp_cmpr c <> CLen | LExpr _ _ => False end.
Lemma nul_free : forall a b, Forall text_byte b -> ~ nul_ext a b.
Proof.
  intros a b F (k & K & E & _). subst b. apply Forall_app in F as [_ F]. destruct k; [lia|]. cbn [repeat] in F. inversion F as [|? ? Z _]; subst. unfold text_byte in Z. lia.
Qed.
Lemma text_caseless : forall a, Forall text_byte a -> Forall text_byte (caseless a).
Proof.
  intros a F. unfold caseless. apply Forall_map. eapply Forall_impl; [|exact F]. intros c (A & B). unfold text_byte. destruct ((65 <=? c) && (c <=? 90))%N eqn:E; [|lia].
  apply andb_prop in E as [_ E]. apply N.leb_le in E. lia.
Qed.
Lemma text_is_byte : forall a, Forall text_byte a -> Forall is_byte a.
Proof. intros a F. eapply Forall_impl; [|exact F]. intros c (A & B). exact B. Qed.
Lemma split_on_forall : forall (P : byte -> Prop) d l f, Forall P l -> In f (split_on d l) -> Forall P f.
Proof.
  intros P d. induction l as [|c l IH]; intros f F I; cbn [split_on] in I; [destruct I as [<-|[]]; constructor|]. inversion F; subst.
  destruct (c =? d)%N; [destruct I as [<-|I]; [constructor|auto]|]. destruct (split_on d l) as [|h t] eqn:E; [destruct I as [<-|[]]; auto|].
  destruct I as [<-|I]; [constructor; auto; apply IH; auto; left; auto|apply IH; auto; right; auto].
Qed.
Lemma nth_forall : forall {A} (P : list A -> Prop) l n, P [] -> Forall P l -> P (nth n l []).
Proof. intros A P l n E F. destruct (Nat.lt_ge_cases n (List.length l)) as [H|H]; [rewrite Forall_forall in F; apply F, nth_In; auto|rewrite nth_overflow; auto]. Qed.
Lemma get_col_text : forall l n, Forall text_byte l -> ~ In NL l -> Forall text_byte (get_col (l ++ [NL]) n TAB).
Proof.
  intros l n F N. rewrite get_col_is by (auto; discriminate). apply nth_forall; [constructor|]. apply Forall_forall. intros f I. eapply split_on_forall; eauto.
Qed.

Section Items.
Variable exp10 : Z -> f64.
Lemma get_first : forall a b, (N.of_nat (List.length a) < 2 ^ 31)%N -> it_get (mkitem 0 (N.of_nat (List.length a)) 0) (side_by_side a b) = a.
Proof.
  intros a b L. unfold it_get, it_size, side_by_side. cbn [it_plus it_off]. rewrite N.mod_small by auto. rewrite Nat2N.id. cbn [N.to_nat skipn].
  rewrite firstn_app, Nat.sub_diag, firstn_all. cbn [firstn]. apply app_nil_r.
Qed.
Lemma get_second : forall a b, (N.of_nat (List.length b) < 2 ^ 31)%N -> it_get (mkitem (N.of_nat (List.length a)) (N.of_nat (List.length b)) 0) (side_by_side a b) = b.
Proof.
  intros a b L. unfold it_get, it_size, side_by_side. cbn [it_plus it_off]. rewrite N.mod_small by auto. rewrite !Nat2N.id.
  rewrite skipn_app, skipn_all, Nat.sub_diag. cbn [skipn app]. rewrite firstn_app, Nat.sub_diag, firstn_all. cbn [firstn]. apply app_nil_r.
Qed.
Lemma not_complete : forall o n, (N.of_nat n < 2 ^ 31)%N -> it_complete (mkitem o (N.of_nat n) 0) = false.
Proof. intros o n L. unfold it_complete. cbn [it_plus]. destruct (N.eq_dec (N.of_nat n) 0) as [->|Z]; [reflexivity|]. apply N.bits_above_log2. apply N.log2_lt_pow2; lia. Qed.

Variable cap : nat.
Hypothesis cap_small : (N.of_nat cap < 2 ^ 31)%N.
Lemma items_agree : forall k ks a b, Forall (by_column TAB) (k :: ks) -> Forall orderly_key (k :: ks) -> first_safe k ->
  fits cap text_byte a -> fits cap text_byte b ->
  item_cmp exp10 (k :: ks) a b = merge_cmp exp10 (k :: ks) a b /\ item_eq exp10 (k :: ks) a b = merge_eq exp10 (k :: ks) a b.
Proof.
  intros k ks a b C O [R S] ((x & -> & Nx) & Fa & La) ((y & -> & Ny) & Fb & Lb). apply Forall_app in Fa as [Fa _]. apply Forall_app in Fb as [Fb _].
  unfold item_cmp, item_eq, line_item. set (a := x ++ [NL]) in *. set (b := y ++ [NL]) in *.
  assert (Ba : (N.of_nat (List.length a) < 2 ^ 31)%N) by lia. assert (Bb : (N.of_nat (List.length b) < 2 ^ 31)%N) by lia.
  destruct (comp_items_lines_list exp10 k ks (side_by_side a b) (mkitem (N.of_nat 0) (N.of_nat (List.length a)) 0) (mkitem (N.of_nat (List.length a)) (N.of_nat (List.length b)) 0)) as [E1 E2].
  - apply not_complete; auto.
  - apply not_complete; auto.
  - rewrite get_first, get_second by auto. unfold key_safe. inversion O as [|? ? O1 _]; subst. unfold orderly_key in O1. inversion C as [|? ? [C1 _] _]; subst. rewrite C1.
    destruct (lc_cmp k) as [c|cols c|]; [| |tauto].
    + assert (8 < List.length (side_by_side a b)). { unfold side_by_side. rewrite !app_length, repeat_length. lia. } destruct O1 as [E|[E|[E|[E|E]]]]; rewrite E in *; auto.
    + set (ca := get_col a (cols 0) TAB). set (cb := get_col b (cols 0) TAB).
      assert (Ta : Forall text_byte ca) by (apply get_col_text; auto). assert (Tb : Forall text_byte cb) by (apply get_col_text; auto).
      destruct O1 as [E|[E|[E|[E|E]]]]; rewrite E; cbn [cache_safe]; auto; repeat split; try apply text_is_byte; auto; apply nul_free; auto; apply text_caseless; auto.
  - left. auto.
  - cbv zeta in E1, E2. rewrite E1, E2, get_first, get_second by auto.
    destruct (lines_cols_agree exp10 TAB (k :: ks) x y 0 0 ltac:(discriminate) Nx Ny C) as [A B]. split; [exact A|exact B].
Qed.
Lemma merge_pre : forall cs, Forall orderly_key cs -> total_preorder (merge_cmp exp10 cs).
Proof. intros cs O. apply (preorder_key (fun l => read_as l) (fun a b => ll_comp_cols_n exp10 cs a b 0 0)); [apply c17_preorder_cols; auto|auto]. Qed.
Lemma cols_equal_eq : forall k a b, lc_equal_cols_n exp10 k a b 0 0 = is_eq (lc_comp_cols_n exp10 k a b 0 0).
Proof.
  intros k a b. assert (R : forall c, is_eq (lc_reverse k c) = is_eq c). { intros c. unfold lc_reverse. destruct (lc_rev k), c; auto. }
  unfold lc_equal_cols_n, lc_comp_cols_n. rewrite R. unfold l_equal_cols, l_comp_cols, cp_equal, cp_comp.
  destruct (lc_cmp k); auto using IpProofs.ip_equal, IpProofs.f_eqb_fcmp.
Qed.
Lemma merge_eq_ok : forall cs, decides_eq (merge_cmp exp10 cs) (merge_eq exp10 cs).
Proof.
  intros cs a b. unfold merge_cmp, merge_eq, ll_equal_cols_n, ll_comp_cols_n. induction cs as [|k cs IH]; cbn [all_equal first_diff]; [tauto|].
  rewrite cols_equal_eq. destruct (lc_comp_cols_n exp10 k (read_as a) (read_as b) 0 0); cbn [is_eq]; [exact IH| |]; split; discriminate.
Qed.
End Items.

(** * One order for all purposes *)
Lemma result_change : forall (c1 c2 : bytes -> bytes -> comparison) ls (u : bool) out, (forall a b, In a ls -> In b ls -> c1 a b = c2 a b) ->
  (if u then one_of_groups c1 ls out else sort_of c1 ls out) -> if u then one_of_groups c2 ls out else sort_of c2 ls out.
Proof.
  intros c1 c2 ls u out H. assert (SS : forall (R1 R2 : bytes -> bytes -> Prop) l, (forall a b, In a l -> In b l -> R1 a b -> R2 a b) -> StronglySorted R1 l -> StronglySorted R2 l).
  { intros R1 R2 l. induction l as [|x l IH]; intros K S; [constructor|]. apply StronglySorted_inv in S as [S F]. constructor.
    - apply IH; auto. intros; apply K; cbn; auto.
    - rewrite Forall_forall in *. intros y I. apply K; cbn; auto. }
  destruct u.
  - intros (A & B & C). split; [|split; auto].
    + unfold strictly_sorted in *. eapply SS; [|exact A]. intros a b I J. cbv beta. rewrite H; auto.
    + intros x I. destruct (C x I) as (y & Y1 & Y2). exists y. split; auto. rewrite <- H; auto.
  - intros (A & B). split; auto. unfold sorted in *. eapply SS; [|exact B]. intros a b I J. cbv beta.
    rewrite H; auto; eapply Permutation_in; try apply Permutation_sym; eauto.
Qed.
Lemma filter_none : forall {A} (f : A -> bool) l, (forall x, In x l -> f x = false) -> filter f l = [].
Proof. intros A f l H. induction l as [|x l IH]; auto. cbn [filter]. rewrite H by (left; auto). apply IH. intros; apply H; right; auto. Qed.
Lemma same_class : forall (c : bytes -> bytes -> comparison) x y l, total_preorder c -> c x y = Eq -> filter (same c x) l = filter (same c y) l.
Proof.
  intros c x y l (R & S & T) E. apply filter_ext. intros z. unfold same. assert (E2 : c y x = Eq) by (rewrite S, E; auto).
  destruct (c x z) eqn:A, (c y z) eqn:B; auto; exfalso.
  - assert (c z y <> Gt) by (apply (T z x y); [rewrite S, A; discriminate|congruence]). rewrite S, B in H. cbn in H. congruence.
  - assert (c y z <> Gt) by (apply (T y x z); congruence). congruence.
  - assert (c z x <> Gt) by (apply (T z y x); [rewrite S, B; discriminate|congruence]). rewrite S, A in H. cbn in H. congruence.
  - assert (c x z <> Gt) by (apply (T x y z); congruence). congruence.
Qed.
Lemma ties_within : forall (c : bytes -> bytes -> comparison) inp out (k : list bytes -> list bytes), total_preorder c -> k [] = [] -> (forall y, In y out -> In y inp) ->
  (forall y, In y inp -> filter (same c y) out = k (filter (same c y) inp)) -> forall x, filter (same c x) out = k (filter (same c x) inp).
Proof.
  intros c inp out k P K I H x. destruct (existsb (same c x) inp) eqn:E.
  - apply existsb_exists in E as (y & Iy & E). unfold same in E. destruct (c x y) eqn:C; try discriminate. rewrite !(same_class c x y _ P C). apply H; auto.
  - assert (N : forall y, In y inp -> same c x y = false). { intros y Iy. destruct (same c x y) eqn:S; auto. exfalso. assert (existsb (same c x) inp = true) by (apply existsb_exists; eauto). congruence. }
    rewrite (filter_none _ inp) by auto. rewrite filter_none, K; auto.
Qed.
Lemma filter_agree : forall (f g : bytes -> bool) l, (forall x, In x l -> f x = g x) -> filter f l = filter g l.
Proof. intros f g l H. induction l as [|x l IH]; auto. cbn [filter]. rewrite H by (left; auto). rewrite IH; auto. intros; apply H; right; auto. Qed.
Lemma exact_change : forall (c1 c2 : bytes -> bytes -> comparison) ls (u : bool) out, total_preorder c1 -> total_preorder c2 -> (forall a b, In a ls -> In b ls -> c1 a b = c2 a b) ->
  (if u then first_of_groups c1 ls out else stable_sort_of c1 ls out) -> if u then first_of_groups c2 ls out else stable_sort_of c2 ls out.
Proof.
  intros c1 c2 ls u out P1 P2 H X.
  assert (K : forall k : list bytes -> list bytes, k [] = [] -> (forall y, In y out -> In y ls) -> (forall x, filter (same c1 x) out = k (filter (same c1 x) ls)) ->
    forall x, filter (same c2 x) out = k (filter (same c2 x) ls)).
  { intros k K I F. apply ties_within; auto. intros y Iy. specialize (F y). rewrite (filter_agree (same c2 y) (same c1 y) out), (filter_agree (same c2 y) (same c1 y) ls); auto;
      intros z Iz; unfold same; rewrite H; auto. }
  destruct u.
  - destruct X as (A & B). assert (I : forall y, In y out -> In y ls).
    { intros y J. assert (Z : In y (filter (same c1 y) out)). { apply filter_In. split; auto. unfold same. rewrite (proj1 P1). auto. }
      rewrite B in Z. assert (Z2 : In y (filter (same c1 y) ls)) by (rewrite <- (firstn_skipn 1); apply in_app_iff; auto). apply filter_In in Z2. tauto. }
    assert (O : one_of_groups c1 ls out).
    { split; auto. split; auto. intros x Ix. specialize (B x). assert (Z : In x (filter (same c1 x) ls)). { apply filter_In. split; auto. unfold same. rewrite (proj1 P1). auto. }
      destruct (filter (same c1 x) ls) as [|y r]; [destruct Z|]. cbn [firstn] in B. assert (Y : In y (filter (same c1 x) out)) by (rewrite B; left; auto). apply filter_In in Y as [Y1 Y2].
      exists y. split; auto. unfold same in Y2. destruct (c1 x y); auto; discriminate. }
    destruct (result_change c1 c2 ls true out H O) as (O1 & _). split; [exact O1|]. apply (K (firstn 1)); auto.
  - destruct X as (A & B & C). assert (I : forall y, In y out -> In y ls) by (intros y J; eapply Permutation_in; [apply Permutation_sym|]; eauto).
    destruct (result_change c1 c2 ls false out H (conj A B)) as (_ & S). split; auto. split; auto. intros x. apply (K (fun l => l)); auto.
Qed.

(** * Options *)
Lemma given_cons : forall n m v args, given n ((m, v) :: args) <-> m = n \/ given n args.
Proof. intros n m v args. unfold given. cbn [In]. split; [intros (x & [E|I]); [injection E; auto|eauto]|intros [->|(x & I)]; eauto]. Qed.

Section Args.
Variable uni_alpha uni_alnum : N -> bool.
Variable expr : Type.
Variable expr_new : bytes -> res expr.
Notation add_keys := (add_keys uni_alpha uni_alnum expr expr_new).
Notation sort_args := (sort_args uni_alpha uni_alnum expr expr_new).
Lemma args_read : forall args ts, values (bs "key") args ts -> forall ks o, known args -> add_keys ts = Ok ks ->
  (forall v, In (bs "Check", v) args -> exists n, to_usize_whole v = Ok n) ->
  exists o', sort_args o args = Ok o' /\ so_keys o' = so_keys o ++ ks /\ (so_unique o' = true <-> so_unique o = true \/ given (bs "unique") args) /\
    (so_merge o' = true <-> so_merge o = true \/ given (bs "merge") args) /\
    (so_check o' = true <-> so_check o = true \/ given (bs "check") args \/ given (bs "Check") args) /\
    (so_alt_merge o' = true <-> so_alt_merge o = true \/ given (bs "alt-merge") args) /\
    (~ given (bs "check") args -> ~ given (bs "Check") args -> so_num o' = so_num o).
Proof.
  assert (NG : forall n, ~ given n []) by (intros n (v & [])).
  induction 1 as [|v args vs V IH|m v args vs M V IH]; intros ks o K A N.
  - cbn in A. injection A as <-. exists o. cbn [OrderModel.sort_args]. rewrite app_nil_r. pose proof (NG (bs "unique")). pose proof (NG (bs "merge")). pose proof (NG (bs "check")).
    pose proof (NG (bs "Check")). pose proof (NG (bs "alt-merge")). repeat split; tauto.
  - inversion K as [|? ? _ K2]; subst. cbn [KeyModel.add_keys] in A. destruct (make_line_comp uni_alpha uni_alnum expr expr_new v) as [k| |] eqn:E; try discriminate. cbn [rbind] in A.
    destruct (add_keys vs) as [ks2| |] eqn:E2; try discriminate. injection A as <-.
    destruct (IH ks2 (mksopts (so_keys o ++ [k]) (so_unique o) (so_merge o) (so_check o) (so_num o) (so_alt_sort o) (so_alt_merge o)) K2 eq_refl) as (o' & R & P1 & P2 & P3 & P4 & P5 & P6).
    { intros x I. apply N. right; auto. }
    exists o'. cbn [OrderModel.sort_args]. unfold sort_arg at 1. rewrite beq_refl, E. cbn [rbind]. split; [exact R|]. cbn [so_keys so_unique so_merge so_check so_num so_alt_merge] in *.
    rewrite !given_cons. rewrite <- app_assoc in P1. split; [exact P1|]. repeat split; try tauto; intuition (try discriminate).
  - inversion K as [|? ? K1 K2]; subst. cbn [fst] in K1.
    assert (N2 : forall x, In (bs "Check", x) args -> exists n, to_usize_whole x = Ok n) by (intros x I; apply N; right; auto).
    cbn [OrderModel.sort_args]. unfold sort_arg at 1. destruct (beq m (bs "key")) eqn:B; [apply beq_eq in B; congruence|]. clear B.
    unfold option_names in K1. cbn [In] in K1.
    destruct K1 as [E|[E|[E|[E|[E|[E|[E|[]]]]]]]]; subst m; [congruence| | | | | | ];
      match goal with |- context [beq ?a ?b] => idtac end.
    all: repeat match goal with |- context [beq ?a ?b] => let x := eval vm_compute in (beq a b) in change (beq a b) with x end; cbv iota.
    1,2,3,4,6: cbn [rbind]; match goal with |- exists o', OrderModel.sort_args _ _ _ _ ?o1 _ = _ /\ _ => destruct (IH ks o1 K2 A N2) as (o' & R & P1 & P2 & P3 & P4 & P5 & P6) end;
      exists o'; split; [exact R|]; cbn [so_keys so_unique so_merge so_check so_num so_alt_merge] in *; rewrite !given_cons;
      split; [exact P1|]; repeat split; intuition (try discriminate).
    destruct (N v (or_introl eq_refl)) as (n & E). rewrite E. cbn [rbind].
    match goal with |- exists o', OrderModel.sort_args _ _ _ _ ?o1 _ = _ /\ _ => destruct (IH ks o1 K2 A N2) as (o' & R & P1 & P2 & P3 & P4 & P5 & P6) end.
    exists o'. split; [exact R|]. cbn [so_keys so_unique so_merge so_check so_num so_alt_merge] in *. rewrite !given_cons.
    split; [exact P1|]. repeat split; intuition (try discriminate).
Qed.
End Args.

(** * Keys *)
Lemma decides_first : forall l c, decides l c -> c = first_answer l.
Proof.
  intros l c [[-> F] | (N & a & b & -> & F)].
  - induction F as [|x l E F IH]; [reflexivity|]. subst x. exact IH.
  - induction F as [|x a E F IH]; [destruct c; [congruence|reflexivity|reflexivity]|]. subst x. exact IH.
Qed.
Lemma fields_line : forall l, fields (l ++ [NL]) = split_on TAB l.
Proof. intros l. unfold fields. rewrite removelast_last. reflexivity. Qed.
Lemma plain_orderly : forall c, plain_kind c -> orderly c.
Proof. intros c H. unfold plain_kind in H. cbn [In] in H. unfold orderly. intuition auto. Qed.
Definition shape (w : wanted) (c : linecomp) : Prop := exists cols, c = mklc (wk_rev w) TAB (LCol cols (mkcomp (wk_rev w) (wk_cmp w))).
Lemma shape_columns : forall ws cs, Forall2 shape ws cs -> Forall (by_column TAB) cs.
Proof. induction 1 as [|w c ws cs (cols & ->) F IH]; constructor; auto. split; auto. cbn. auto. Qed.
Lemma shape_orderly : forall ws cs, Forall2 shape ws cs -> Forall (fun w => plain_kind (wk_cmp w)) ws -> Forall orderly_key cs.
Proof. induction 1 as [|w c ws cs (cols & ->) F IH]; intros K; constructor; inversion K; subst; auto. apply plain_orderly. auto. Qed.
Lemma shape_first : forall ws cs, Forall2 shape ws cs -> first_forward ws -> exists k ks, cs = k :: ks /\ first_safe k.
Proof. intros ws cs [|w c ws' cs' (cols & ->) F] K; [destruct K|]. do 2 eexists. split; [reflexivity|]. split; cbn; auto. Qed.

(** The order of the keys is a proper order. *)
Lemma first_answer_preorder : forall (exp10 : Z -> f64) ws, Forall (fun w => plain_kind (wk_cmp w)) ws ->
  total_preorder (fun l r : list bytes => first_answer (map (answers exp10 0 0 l r) ws)).
Proof.
  intros exp10 ws F. assert (E : forall l r, first_answer (map (answers exp10 0 0 l r) ws) = first_diff (fun w => answers exp10 0 0 l r w) ws).
  { intros l r. clear F. induction ws as [|w ws IH]; cbn [map first_answer first_diff]; auto. destruct (answers exp10 0 0 l r w); auto. }
  assert (A : Forall (fun w => total_preorder (fun l r => answers exp10 0 0 l r w)) ws).
  { eapply Forall_impl; [|exact F]. intros w K. cbv beta. apply plain_orderly in K. pose proof (orderly_preorder exp10 _ K) as P.
    assert (Q : total_preorder (fun l r : list bytes => c_comp exp10 (wk_cmp w) (nth (N.to_nat (wk_pos w 0)) l []) (nth (N.to_nat (wk_pos w 0)) r []))).
    { apply (preorder_key (fun l : list bytes => nth (N.to_nat (wk_pos w 0)) l []) (c_comp exp10 (wk_cmp w))); auto. }
    unfold answers. destruct (wk_rev w); cbn [directed]; [|exact Q]. destruct Q as (Q1 & Q2 & Q3). split; [|split].
    - intros x. rewrite Q1. reflexivity.
    - intros x y. rewrite Q2. reflexivity.
    - intros x y z H1 H2. rewrite <- Q2 in *. apply Q3 with y; auto. }
  clear F. induction A as [|w ws P A IH]; [split; [|split]; intros; cbn; auto; discriminate|].
  assert (IH2 : total_preorder (fun l r : list bytes => first_answer (map (answers exp10 0 0 l r) ws))) by (apply IH; intros l r; clear; induction ws as [|w ws IH]; cbn [map first_answer first_diff]; auto; destruct (answers exp10 0 0 l r w); auto).
  clear IH E A. destruct P as (P1 & P2 & P3), IH2 as (Q1 & Q2 & Q3). cbn [map first_answer]. split; [|split].
  - intros x. rewrite P1. apply Q1.
  - intros x y. rewrite (P2 x y). destruct (answers exp10 0 0 x y w); cbn [CompOpp]; auto.
  - intros x y z H1 H2.
    assert (A : answers exp10 0 0 x y w <> Gt) by (destruct (answers exp10 0 0 x y w); congruence).
    assert (B : answers exp10 0 0 y z w <> Gt) by (destruct (answers exp10 0 0 y z w); congruence).
    pose proof (P3 x y z A B) as C. destruct (answers exp10 0 0 x z w) eqn:E; [|discriminate|congruence].
    assert (E1 : answers exp10 0 0 x y w = Eq).
    { destruct (answers exp10 0 0 x y w) eqn:X; auto; [|congruence]. exfalso. assert (Y : answers exp10 0 0 y x w <> Gt). { apply (P3 y z x B). rewrite P2, E. discriminate. }
      rewrite P2, X in Y. cbn in Y. congruence. }
    assert (E2 : answers exp10 0 0 y z w = Eq).
    { destruct (answers exp10 0 0 y z w) eqn:X; auto; [|congruence]. exfalso. assert (Y : answers exp10 0 0 z y w <> Gt). { apply (P3 z x y); [rewrite P2, E; discriminate|rewrite E1; discriminate]. }
      rewrite P2, X in Y. cbn in Y. congruence. }
    rewrite E1 in H1. rewrite E2 in H2. apply (Q3 x y z); auto.
Qed.
Lemma by_fields_preorder : forall exp10 ws, Forall (fun w => plain_kind (wk_cmp w)) ws -> total_preorder (by_fields exp10 ws).
Proof. intros exp10 ws F. apply (preorder_key fields (fun l r => first_answer (map (answers exp10 0 0 l r) ws))); [apply first_answer_preorder; auto|auto]. Qed.

Section Keys.
Variable uni_alpha uni_alnum : N -> bool.
Variable expr : Type.
Variable expr_new : bytes -> res expr.
Variable expr_lookup : expr -> list bytes -> res expr.
Variable expr_eval : expr -> textline -> f64.
Variable expr_eval_line : expr -> bytes -> byte -> f64.
Variable expr_none : f64.
Variable exp10 : Z -> f64.
Notation add_keys := (add_keys uni_alpha uni_alnum expr expr_new).
Notation looked := (keys_lookup expr expr_new expr_lookup).
Notation as_lines := (key_lines expr expr_eval expr_eval_line expr_none).
Notation wanted_ok := (wanted_ok (alphabetic uni_alpha) (alphanumeric uni_alnum)).
Lemma keys_shape : forall ws files ks, Forall (wanted_ok files) ws -> add_keys (map text_of_key ws) = Ok ks ->
  Forall2 (fun w k => exists cs, k = mkkey (wk_rev w) (KCol cs (MCmp (wk_cmp w)))) ws ks.
Proof.
  intros ws files ks F. revert ks. induction F as [|w ws H F IH]; intros ks E; cbn [map KeyModel.add_keys] in E; [injection E as <-; constructor|].
  destruct H as (H1 & H2 & H3 & H4 & H5 & H6 & H7). destruct (reads uni_alpha uni_alnum expr expr_new _ _ _ _ H2 H3 H4 H5) as (rev & R1 & R2).
  unfold text_of_key at 1 in E. rewrite R2 in E. cbn [rbind] in E. destruct (add_keys (map text_of_key ws)) as [r| |]; try discriminate. cbn [rbind] in E. injection E as <-.
  rewrite (iff_bool rev (wk_rev w) _ R1 H6) in *. constructor; auto. destruct (wk_cols w) as [|c cols]; [congruence|]. eexists. reflexivity.
Qed.
Lemma looked_shape : forall (ws : list wanted) ks names n ks', Forall2 (fun w k => exists cs, k = mkkey (wk_rev w) (KCol cs (MCmp (wk_cmp w)))) ws ks -> looked ks names n = Ok ks' ->
  Forall2 (fun w k => exists cs, k = mkkey (wk_rev w) (KCol cs (MCmp (wk_cmp w)))) ws ks'.
Proof.
  intros ws ks names n ks' F. revert ks'. induction F as [|w k ws ks (cs & ->) F IH]; intros ks' E; cbn [KeyModel.keys_lookup] in E; [injection E as <-; constructor|].
  unfold key_lookup at 1 in E. cbn [k_cmp k_rev] in E. destruct (ColModel.nc_lookup _ names) as [c| |]; try discriminate. cbn [rbind] in E.
  destruct (looked ks names n) as [r| |]; try discriminate. cbn [rbind] in E. injection E as <-. constructor; auto. eexists. reflexivity.
Qed.
Lemma lines_shape : forall (ws : list wanted) ks cs, Forall2 (fun w k => exists cs, k = mkkey (wk_rev w) (KCol cs (MCmp (wk_cmp w)))) ws ks -> as_lines ks = Some cs -> Forall2 shape ws cs.
Proof.
  intros ws ks cs F. revert cs. induction F as [|w k ws ks (l & ->) F IH]; intros cs E; cbn [KeyModel.key_lines] in E; [injection E as <-; constructor|].
  unfold key_line at 1 in E. cbn [k_cmp k_rev] in E. destruct (as_lines ks) as [r|]; try discriminate. injection E as <-. constructor; auto. eexists. reflexivity.
Qed.
Lemma keys_for : forall ws names, Forall (wanted_ok [names]) ws ->
  exists ks ks' cs, add_keys (map text_of_key ws) = Ok ks /\ looked ks names 0 = Ok ks' /\ as_lines ks' = Some cs /\ Forall2 shape ws cs /\
    (forall a b, whole_line a -> whole_line b -> merge_cmp exp10 cs a b = by_fields exp10 ws a b) /\
    (forall l r, ll_comp_cols_n exp10 cs l r 0 0 = first_answer (map (answers exp10 0 0 (tl_cols l) (tl_cols r)) ws)).
Proof.
  intros ws names F. destruct (keys_compare uni_alpha uni_alnum expr expr_new expr_lookup expr_eval expr_eval_line expr_none exp10 ws [names] F) as (ks & ks' & cs & A & B & C & D & E).
  change (map (fun w => key_text (wk_cols w) (wk_tail w)) ws) with (map text_of_key ws) in A. exists ks, ks', cs.
  cbn [list_lookups] in B. destruct (looked ks names 0) as [k1| |] eqn:L; try discriminate. cbn [rbind] in B. injection B as ->.
  split; auto. split; auto. split; auto.
  assert (SH : Forall2 shape ws cs). { eapply lines_shape; [|exact C]. eapply looked_shape; [|exact L]. eapply keys_shape; eauto. }
  split; auto. split.
  - intros a b (x & -> & Nx) (y & -> & Ny). specialize (D 0 0 x y ltac:(cbn; lia) ltac:(cbn; lia) Nx Ny). apply decides_first in D.
    unfold by_fields. rewrite !fields_line, <- D. unfold merge_cmp, read_as.
    destruct (lines_cols_agree exp10 TAB cs x y 0 0 ltac:(discriminate) Nx Ny (shape_columns _ _ SH)) as [X _]. symmetry. exact X.
  - intros l r. apply decides_first. apply E; cbn; lia.
Qed.
(** Keys by number need no lookup. *)
Lemma unlooked : forall ws ks, Forall (wanted_ok [[]]) ws -> add_keys (map text_of_key ws) = Ok ks -> forall names, looked ks names 0 = Ok ks.
Proof.
  intros ws ks F E names. revert ks E. induction F as [|w ws H F IH]; intros ks E; cbn [map KeyModel.add_keys] in E; [injection E as <-; reflexivity|].
  destruct H as (H1 & H2 & H3 & H4 & H5 & H6 & H7). destruct (reads uni_alpha uni_alnum expr expr_new _ _ _ _ H2 H3 H4 H5) as (rev & R1 & R2).
  unfold text_of_key at 1 in E. rewrite R2 in E. cbn [rbind] in E. destruct (add_keys (map text_of_key ws)) as [r| |]; try discriminate. cbn [rbind] in E. injection E as <-.
  cbn [KeyModel.keys_lookup]. specialize (H7 0 [] eq_refl). destruct (wk_cols w) as [|c cols]; [congruence|]. unfold for_file in H7. cbn [List.length Nat.min nth] in H7.
  destruct c as [s|n]; [destruct H7 as [H7 _]; destruct (N.to_nat (wk_pos w 0)); discriminate|]. cbn [key_of]. 
  unfold key_lookup at 1. cbn [k_cmp k_rev map col_of].
  assert (G : forall {A} (x : A) l d, grow (x :: l) d 0 = x :: l). { intros A x l d. unfold grow. cbn [List.length]. rewrite Nat.sub_succ, Nat.sub_0_l. cbn [repeat]. apply app_nil_r. }
  rewrite G. cbn [nth]. unfold ColModel.nc_lookup at 1. cbn [ColModel.nc_name ColModel.nc_end rbind]. rewrite (IH r eq_refl). reflexivity.
Qed.
Lemma numbered_any : forall ws names, Forall (wanted_ok [[]]) ws -> Forall (wanted_ok [names]) ws.
Proof.
  intros ws names F. eapply Forall_impl; [|exact F]. intros w (H1 & H2 & H3 & H4 & H5 & H6 & H7). repeat split; auto; try apply H6. intros f ns E.
  destruct f as [|f]; [|destruct f; discriminate]. injection E as <-. specialize (H7 0 [] eq_refl). destruct (for_file (wk_cols w) 0) as [s|n]; auto.
  destruct H7 as [H7 _]. destruct (N.to_nat (wk_pos w 0)); discriminate.
Qed.
End Keys.

(** * The tool *)
Lemma cdx_start : forall l, firstn 4 l <> bs " CDX" -> is_cdx l = false.
Proof. intros l H. unfold is_cdx. destruct (starts_with l CDX) eqn:E; auto. apply Base.starts_with_app in E as [r ->]. destruct H. reflexivity. Qed.
Lemma headline_text : forall u n names, names_fit u n names -> whole_line (headline names) /\ is_valid_cdx u n MMatch (headline names) = Ok true /\ Forall text_byte (headline names) /\
  is_cdx (headline names) = true /\ make_header (headline names) = Ok names.
Proof.
  intros u n names (NE & U & F). assert (J : forall (P : byte -> Prop), P TAB -> Forall (Forall P) names -> Forall P (join TAB names)).
  { intros P PT G. apply Forall_forall. intros c I. apply in_join in I as [->|(f & I1 & I2)]; auto. rewrite Forall_forall in G. specialize (G f I1). rewrite Forall_forall in G. auto. }
  split; [|split; [|split; [|split]]].
  - exists (bs " CDX" ++ TAB :: join TAB names). unfold headline. rewrite <- app_assoc. split; [reflexivity|]. intros I. apply in_app_iff in I as [I|[I|I]]; [|discriminate I|].
    + cbn in I. repeat (destruct I as [I|I]; [discriminate I|]). exact I.
    + apply in_join in I as [I|(f & I1 & I2)]; [discriminate I|]. rewrite Forall_forall in F. destruct (F f I1) as (_ & _ & N & _). auto.
  - apply head_valid; auto. eapply Forall_impl; [|exact F]. cbn. tauto.
  - unfold headline. apply Forall_app. split; [repeat constructor; reflexivity|]. constructor; [split; reflexivity|]. apply Forall_app. split; [|repeat constructor; reflexivity].
    apply J; [split; reflexivity|]. eapply Forall_impl; [|exact F]. cbn. tauto.
  - reflexivity.
  - unfold headline. rewrite make_header_cdx. f_equal. apply split_on_join; auto. eapply Forall_impl; [|exact F]. cbn. tauto.
Qed.

Section Files.
Variable utf8_ok : bytes -> bool.
Variable name_ok : bytes -> bool.
Variable exp10 : Z -> f64.
Variable cap size : nat.
Lemma sorted_exact : forall cs (u : bool) ls, Forall orderly_key cs ->
  if u then first_of_groups (merge_cmp exp10 cs) ls (do_sort (merge_cmp exp10 cs) (merge_eq exp10 cs) u ls)
  else stable_sort_of (merge_cmp exp10 cs) ls (do_sort (merge_cmp exp10 cs) (merge_eq exp10 cs) u ls).
Proof.
  intros cs u ls O. pose proof (merge_pre exp10 cs O) as P. destruct u; [apply do_sort_unique; auto; apply merge_eq_ok|apply std_sort_stable; auto].
Qed.
Lemma files_headed : forall cs names (fs : list (src * list nat)) bodies u, (N.of_nat cap < 2 ^ 31)%N -> 0 < cap -> 0 < size -> Forall (by_column TAB) cs -> Forall orderly_key cs ->
  (exists k ks, cs = k :: ks /\ first_safe k) -> names_fit utf8_ok name_ok names -> fs <> [] ->
  Forall2 (fun f b => content (fst f) = headline names ++ concat b) fs bodies -> lines_fit cap (concat bodies) ->
  exists out, sort_files (merge_cmp exp10 cs) (merge_eq exp10 cs) (item_cmp exp10 cs) (item_eq exp10 cs) bh_push bh_pop cap u utf8_ok name_ok size ck_new (mkso [] [])
      (map (fun f => (content (fst f), snd f)) fs) = Ok (headline names ++ concat out) /\
    (if u then one_of_groups (merge_cmp exp10 cs) (concat bodies) out else sort_of (merge_cmp exp10 cs) (concat bodies) out) /\
    (List.length (concat (concat bodies)) < cap ->
     if u then first_of_groups (merge_cmp exp10 cs) (concat bodies) out else stable_sort_of (merge_cmp exp10 cs) (concat bodies) out).
Proof.
  intros cs names fs bodies u Hc Hc0 Hs C O (k & ks & -> & S) NF NE F L. destruct (headline_text _ _ _ NF) as (W & V & T & _).
  rewrite sort_files_same with (Q := text_byte).
  - set (gs := combine bodies (map snd fs)).
    assert (EG : map (fun f => (content (fst f), snd f)) fs = map (fun '(l, sched) => (headline names ++ concat l, sched)) gs /\ map fst gs = bodies /\ (fs <> [] -> gs <> [])).
    { unfold gs. clear NE L gs. induction F as [|f b fs bodies E F (IH1 & IH2 & _)]; [auto|]. cbn [map combine fst snd]. rewrite E, IH1, IH2. repeat split; auto. discriminate. }
    destruct EG as (-> & EB & EN). unfold lines_fit in L. rewrite <- EB in L |- *.
    destruct (c20_header_files (merge_cmp exp10 (k :: ks)) (merge_eq exp10 (k :: ks)) u cap size utf8_ok name_ok (headline names) gs (merge_pre exp10 _ O) (merge_eq_ok exp10 _) Hs W V) as (out & R1 & R2 & R3); auto.
    + eapply Forall_impl; [|exact L]. cbn. tauto.
    + eapply Forall_impl; [|exact L]. cbn. tauto.
    + eapply Forall_impl; [|exact L]. cbn. intros l (_ & _ & _ & H). apply cdx_start; auto.
    + exists out. split; auto. split; auto. intros H. rewrite (R3 H). apply sorted_exact; auto.
  - intros a b Fa Fb. apply (items_agree exp10 cap Hc); auto.
  - split; reflexivity.
  - split; [constructor|cbn; lia].
  - clear NE. induction F as [|f b fs bodies E F IH]; [constructor|]. cbn [concat] in L. apply Forall_app in L as [L1 L2]. constructor; auto. cbn [fst]. rewrite E.
    apply Forall_app. split; auto. apply Forall_concat. eapply Forall_impl; [|exact L1]. cbn. tauto.
Qed.
Lemma files_plain : forall cs ls text (s : src) (sched : list nat) u, (N.of_nat cap < 2 ^ 31)%N -> 0 < size -> Forall (by_column TAB) cs -> Forall orderly_key cs ->
  (exists k ks, cs = k :: ks /\ first_safe k) -> content s = text -> text_of ls text -> lines_fit cap ls ->
  exists out, sort_files (merge_cmp exp10 cs) (merge_eq exp10 cs) (item_cmp exp10 cs) (item_eq exp10 cs) bh_push bh_pop cap u utf8_ok name_ok size ck_new (mkso [] [])
      [(content s, sched)] = Ok (concat out) /\
    (if u then one_of_groups (merge_cmp exp10 cs) ls out else sort_of (merge_cmp exp10 cs) ls out) /\
    (List.length (concat ls) < cap ->
     if u then first_of_groups (merge_cmp exp10 cs) ls out else stable_sort_of (merge_cmp exp10 cs) ls out).
Proof.
  intros cs ls text s sched u Hc Hs C O (k & ks & -> & S) ET T L. rewrite ET. rewrite sort_files_same with (Q := text_byte).
  - destruct (c20_one_file (merge_cmp exp10 (k :: ks)) (merge_eq exp10 (k :: ks)) u cap size utf8_ok name_ok ls text sched (merge_pre exp10 _ O) (merge_eq_ok exp10 _) Hs T) as (out & R1 & R2 & R3).
    + eapply Forall_impl; [|exact L]. cbn. tauto.
    + eapply Forall_impl; [|exact L]. cbn. intros l (_ & _ & _ & H). apply cdx_start; auto.
    + exists out. split; auto. split; auto. intros H. rewrite (R3 H). apply sorted_exact; auto.
  - intros a b Fa Fb. apply (items_agree exp10 cap Hc); auto.
  - split; reflexivity.
  - split; [constructor|cbn; lia].
  - constructor; [|constructor]. cbn [fst]. assert (G : Forall text_byte (concat ls)). { apply Forall_concat. eapply Forall_impl; [|exact L]. cbn. tauto. }
    destruct T as [_ [<-|[E _]]]; auto. rewrite E in G. apply Forall_app in G. tauto.
Qed.
End Files.

Section Tool.
Variable utf8_ok : bytes -> bool.
Variable name_ok : bytes -> bool.
Variable uni_alpha uni_alnum : N -> bool.
Variable expr : Type.
Variable expr_new : bytes -> res expr.
Variable expr_lookup : expr -> list bytes -> res expr.
Variable expr_eval : expr -> textline -> f64.
Variable expr_eval_line : expr -> bytes -> byte -> f64.
Variable expr_none : f64.
Variable exp10 : Z -> f64.
Variable cap size : nat.
Notation wanted_ok := (wanted_ok (alphabetic uni_alpha) (alphanumeric uni_alnum)).
Notation add_keys := (add_keys uni_alpha uni_alnum expr expr_new).
Notation looked := (keys_lookup expr expr_new expr_lookup).
Notation as_lines := (key_lines expr expr_eval expr_eval_line expr_none).
Notation main := (sort_main utf8_ok name_ok uni_alpha uni_alnum expr expr_new expr_lookup expr_eval expr_eval_line expr_none exp10 bh_push bh_pop cap size).
Notation sort_args := (sort_args uni_alpha uni_alnum expr expr_new).

(** From the flag to the option, and from one comparison to another. *)
Lemma result_given : forall c1 c2 (u : bool) (P : Prop) ls out, (u = true <-> P) -> (forall a b, In a ls -> In b ls -> c1 a b = c2 a b) ->
  (if u then one_of_groups c1 ls out else sort_of c1 ls out) -> result_of c2 P ls out.
Proof.
  intros c1 c2 u P ls out U E H. apply (result_change c1 c2) in H; auto. split; intros X; destruct u; auto; [exfalso; intuition discriminate|exfalso; intuition].
Qed.
Lemma exact_given : forall c1 c2 (u : bool) (P : Prop) ls out, (u = true <-> P) -> total_preorder c1 -> total_preorder c2 -> (forall a b, In a ls -> In b ls -> c1 a b = c2 a b) ->
  (if u then first_of_groups c1 ls out else stable_sort_of c1 ls out) -> exact_of c2 P ls out.
Proof.
  intros c1 c2 u P ls out U P1 P2 E H. apply (exact_change c1 c2) in H; auto. split; intros X; destruct u; auto; [exfalso; intuition discriminate|exfalso; intuition].
Qed.
Lemma lookup_headed : forall names (fs : list (src * list nat)) bodies ks, names_fit utf8_ok name_ok names -> fs <> [] ->
  Forall2 (fun f b => content (fst f) = headline names ++ concat b) fs bodies ->
  sort_lookup expr expr_new expr_lookup ks true (map (fun f => content (fst f)) fs) = looked ks names 0.
Proof.
  intros names fs bodies ks NF NE F. destruct (headline_text _ _ _ NF) as (W & _ & _ & X & M). assert (H : forall z, exists c h, headline names = c :: h /\ first_line (headline names ++ z) = (c :: h, z)).
  { intros z. do 2 eexists. split; [reflexivity|]. rewrite first_line_whole by auto. reflexivity. }
  assert (REST : forall (fs : list (src * list nat)) bodies ks, Forall2 (fun f b => content (fst f) = headline names ++ concat b) fs bodies -> sort_lookup expr expr_new expr_lookup ks false (map (fun f => content (fst f)) fs) = Ok ks).
  { clear - H X. induction 1 as [|f b fs bodies E F IH]; [reflexivity|]. cbn [map sort_lookup]. rewrite E. destruct (H (concat b)) as (c & h & EH & ->). cbn [fst]. rewrite <- EH, X. cbn [negb orb]. exact IH. }
  destruct F as [|f b fs bodies E F]; [congruence|]. cbn [map sort_lookup]. rewrite E. destruct (H (concat b)) as (c & h & EH & ->). cbn [fst]. rewrite <- EH. cbn [orb]. rewrite M. cbn [rbind].
  destruct (looked ks names 0) as [ks'| |]; cbn [rbind]; auto. eapply REST; eauto.
Qed.

(** Sorting files with a header by keys. *)
Lemma sorts_headed : forall md args ws names fs bodies, known args -> ~ given (bs "merge") args -> ~ given (bs "check") args -> ~ given (bs "Check") args ->
  values (bs "key") args (map text_of_key ws) -> Forall (wanted_ok [names]) ws -> Forall (fun w => plain_kind (wk_cmp w)) ws -> first_forward ws ->
  (N.of_nat cap < 2 ^ 31)%N -> 0 < cap -> 0 < size -> names_fit utf8_ok name_ok names -> fs <> [] ->
  Forall2 (fun f b => content (fst f) = headline names ++ concat b) fs bodies -> lines_fit cap (concat bodies) ->
  exists out, main md args fs = (headline names ++ concat out, Ok tt) /\ result_of (by_fields exp10 ws) (given (bs "unique") args) (concat bodies) out /\
    (List.length (concat (concat bodies)) < cap -> exact_of (by_fields exp10 ws) (given (bs "unique") args) (concat bodies) out).
Proof.
  intros md args ws names fs bodies K NM NC NC2 V WO WK WF Hc Hc0 Hs NF NE F L.
  destruct (keys_for uni_alpha uni_alnum expr expr_new expr_lookup expr_eval expr_eval_line expr_none exp10 ws names WO) as (ks & ks' & cs & A & B & C & SH & D & _).
  destruct (args_read uni_alpha uni_alnum expr expr_new args _ V ks (sopts_new expr) K A) as (o & R & P1 & P2 & P3 & P4 & P5 & P6). { intros v I. exfalso. apply NC2. exists v. auto. }
  cbn [sopts_new so_keys so_unique so_merge so_check so_num so_alt_merge app] in *.
  assert (CH : so_check o = false). { destruct (so_check o); auto. exfalso. intuition discriminate. }
  assert (MG : so_merge o = false). { destruct (so_merge o); auto. exfalso. intuition discriminate. }
  assert (U : so_unique o = true <-> given (bs "unique") args) by intuition discriminate.
  assert (NK : exists k0 kr, ks = k0 :: kr).
  { destruct ws as [|w ws]; [destruct WF|]. cbn [map KeyModel.add_keys] in A. destruct (make_line_comp uni_alpha uni_alnum expr expr_new (text_of_key w)); try discriminate. cbn [rbind] in A.
    destruct (add_keys (map text_of_key ws)); try discriminate. injection A as <-. eauto. }
  destruct NK as (k0 & kr & EK). unfold sort_main. unfold need at 1. rewrite R, CH, MG, P1. cbn [andb]. unfold need at 1. rewrite EK. rewrite <- EK.
  unfold need at 1. rewrite (lookup_headed names fs bodies ks NF NE F), B, C.
  destruct (files_headed utf8_ok name_ok exp10 cap size cs names fs bodies (so_unique o) Hc Hc0 Hs (shape_columns _ _ SH) (shape_orderly _ _ SH WK) (shape_first _ _ SH WF) NF NE F L) as (out & E & S1 & S2).
  rewrite E. exists out. split; auto.
  assert (AG : forall a b, In a (concat bodies) -> In b (concat bodies) -> merge_cmp exp10 cs a b = by_fields exp10 ws a b).
  { intros a b Ia Ib. unfold lines_fit in L. rewrite Forall_forall in L. apply D; apply L; auto. }
  split; [eapply result_given; eauto|]. intros H. apply (exact_given (merge_cmp exp10 cs) (by_fields exp10 ws) (so_unique o)); auto; [apply merge_pre; eapply shape_orderly; eauto|apply by_fields_preorder; auto|exact (S2 H)].
Qed.

(** ** What the options set *)
Lemma options_set : forall args ts ks, known args -> values (bs "key") args ts -> add_keys ts = Ok ks ->
  (forall v, In (bs "Check", v) args -> exists n, to_usize_whole v = Ok n) ->
  exists o, sort_args (sopts_new expr) args = Ok o /\ so_keys o = ks /\ (so_unique o = true <-> given (bs "unique") args) /\
    (so_merge o = true <-> given (bs "merge") args) /\ (so_check o = true <-> given (bs "check") args \/ given (bs "Check") args) /\
    (so_alt_merge o = true <-> given (bs "alt-merge") args).
Proof.
  intros args ts ks K V A N. destruct (args_read uni_alpha uni_alnum expr expr_new args ts V ks (sopts_new expr) K A N) as (o & R & P1 & P2 & P3 & P4 & P5 & _).
  cbn [sopts_new so_keys so_unique so_merge so_check so_num so_alt_merge app] in *. exists o. repeat split; auto; intuition discriminate.
Qed.
Lemma flag_off : forall (b : bool) (P : Prop), (b = true <-> P) -> ~ P -> b = false.
Proof. intros [|] P H N; auto. destruct N. apply H; auto. Qed.
Definition whole_key : key expr := mkkey false (KWhole (MCmp CPlain)).
Lemma keys_some : forall w ws ks, add_keys (map text_of_key (w :: ws)) = Ok ks -> exists k r, ks = k :: r.
Proof.
  intros w ws ks A. cbn [map KeyModel.add_keys] in A. destruct (make_line_comp uni_alpha uni_alnum expr expr_new (text_of_key w)); try discriminate. cbn [rbind] in A.
  destruct (add_keys (map text_of_key ws)); try discriminate. injection A as <-. eauto.
Qed.
Definition whole_comp : list linecomp := [mklc false TAB (LWhole (mkcomp false CPlain))].
Lemma whole_lines : as_lines [whole_key] = Some whole_comp.
Proof. reflexivity. Qed.
Lemma whole_looked : forall names, looked [whole_key] names 0 = Ok [whole_key].
Proof. reflexivity. Qed.
Lemma whole_order : forall a b, merge_cmp exp10 whole_comp a b = bcmp a b.
Proof. intros a b. unfold merge_cmp, ll_comp_cols_n, whole_comp. cbn [first_diff]. unfold lc_comp_cols_n, lc_reverse. cbn. destruct (bcmp a b); reflexivity. Qed.

Notation cols_of md := (fun l => mode_columns (tm_quote md) l (tm_delim md)).
Lemma proc_text : forall md l, tl_text (proc md l) = l.
Proof. intros md l. unfold proc, process, tl_split, tl_text. cbn. destruct (tm_quote md); cbn; destruct l; auto. Qed.
Lemma line_order_pre : forall ws, Forall (fun w => plain_kind (wk_cmp w)) ws -> total_preorder (line_order exp10 ws).
Proof.
  intros ws F. unfold line_order. destruct ws; [|apply by_fields_preorder; auto].
  pose proof (merge_pre exp10 whole_comp ltac:(repeat constructor)) as (A & B & C). assert (E : forall a b, c_comp exp10 CPlain a b = merge_cmp exp10 whole_comp a b) by (intros; symmetry; apply whole_order).
  split; [|split]; intros; rewrite ?E in *; eauto.
Qed.
(** Keys by number, or none: what the tool works with. *)
Lemma numbered_keys : forall args ws, known args -> values (bs "key") args (map text_of_key ws) -> Forall (wanted_ok [[]]) ws ->
  (forall v, In (bs "Check", v) args -> exists n, to_usize_whole v = Ok n) ->
  exists o ks cs, sort_args (sopts_new expr) args = Ok o /\
    match so_keys o with [] => rbind (make_line_comp uni_alpha uni_alnum expr expr_new []) (fun k => Ok [k]) | ks => Ok ks end = Ok ks /\
    (so_unique o = true <-> given (bs "unique") args) /\
    (so_merge o = true <-> given (bs "merge") args) /\ (so_check o = true <-> given (bs "check") args \/ given (bs "Check") args) /\
    (so_alt_merge o = true <-> given (bs "alt-merge") args) /\
    (forall names, looked ks names 0 = Ok ks) /\ as_lines ks = Some cs /\ Forall (by_column TAB) cs /\
    (Forall (fun w => plain_kind (wk_cmp w)) ws -> Forall orderly_key cs) /\ (starts_forward ws -> exists k r, cs = k :: r /\ first_safe k) /\
    (forall a b, whole_line a -> whole_line b -> merge_cmp exp10 cs a b = line_order exp10 ws a b) /\
    (forall md a b, ll_comp_cols_n exp10 cs (proc md a) (proc md b) 0 0 = shown_order exp10 (cols_of md) ws a b).
Proof.
  intros args ws K V WO N. destruct ws as [|w ws].
  - destruct (options_set args [] [] K V eq_refl N) as (o & R & P1 & P2 & P3 & P4 & P5). exists o, [whole_key], whole_comp. rewrite P1.
    split; auto. split; [reflexivity|]. do 4 (split; auto). split; [exact whole_looked|]. split; [exact whole_lines|]. split; [repeat constructor|].
    split; [intros _; repeat constructor|]. split. { intros _. do 2 eexists. split; [reflexivity|]. split; [reflexivity|]. discriminate. }
    split. { intros a b _ _. rewrite whole_order. reflexivity. }
    intros md a b. unfold ll_comp_cols_n, whole_comp. cbn [first_diff]. unfold lc_comp_cols_n, lc_reverse. cbn [lc_rev lc_cmp l_comp_cols]. rewrite !proc_text.
    cbn. destruct (bcmp a b); reflexivity.
  - destruct (keys_for uni_alpha uni_alnum expr expr_new expr_lookup expr_eval expr_eval_line expr_none exp10 (w :: ws) [] WO) as (ks & ks' & cs & A & B & C & SH & D & E).
    pose proof (unlooked uni_alpha uni_alnum expr expr_new expr_lookup _ _ WO A) as UL. rewrite UL in B. injection B as <-.
    destruct (options_set args _ ks K V A N) as (o & R & P1 & P2 & P3 & P4 & P5). exists o, ks, cs. rewrite P1.
    split; auto. split. { destruct (keys_some _ _ _ A) as (k & r & ->). reflexivity. }
    do 4 (split; auto). split; auto. split; auto. split; [eapply shape_columns; eauto|]. split; [intros; eapply shape_orderly; eauto|].
    split; [intros; eapply shape_first; eauto|]. split; auto.
    intros md a b. rewrite E. unfold proc. rewrite !process_cols. reflexivity.
Qed.
End Tool.
