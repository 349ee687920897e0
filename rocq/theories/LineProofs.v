(** Line comparison: cached keys, several keys, sortedness check. *)
From Coq Require Import List NArith ZArith Bool Arith Lia SpecFloat.
From Coq Require Import ZifyBool ZifyN ZifyNat.
Import ListNotations.
From Verif Require Import Base ReadModel StrModel FloatModel FloatSpec FloatProofs FloatValid
  CompModel CompSpec LineSpec OrdProofs CompProofs NumProofs IpProofs CacheProofs.
Close Scope Q_scope.
Close Scope Z_scope.

Lemma ord_rev_opp : forall c, ord_rev c = CompOpp c.
Proof. destruct c; auto. Qed.
Lemma ord_rev_rev : forall c, ord_rev (ord_rev c) = c.
Proof. destruct c; auto. Qed.

(** The value a key looks at, and its comparison without direction. *)
Section Keys.
Variable exp10 : Z -> f64.

Definition key_safe (k : linecomp) (base la lb : bytes) : Prop :=
  match lc_cmp k with
  | LCol cols c => cache_safe exp10 (cp_cmpr c) (get_col la (cols 0) (lc_delim k)) (get_col lb (cols 0) (lc_delim k))
  | LExpr _ evl => good_float (evl 0 la (lc_delim k)) (evl 0 lb (lc_delim k))
  | LWhole c => match cp_cmpr c with
                | CPlain | CLower => 8 < length base
                | CIP | CNumeric | CEqual => True
                | CLen | CF64 => False
                end
  end.
Definition key_final (k : linecomp) (la lb : bytes) : Prop :=
  match lc_cmp k with
  | LCol cols c => cache_final (cp_cmpr c) (get_col la (cols 0) (lc_delim k)) (get_col lb (cols 0) (lc_delim k))
  | LExpr _ _ => True
  | LWhole c => cp_cmpr c = CEqual
  end.

Lemma key_items : forall k base i j,
  it_complete i = false -> it_complete j = false ->
  key_safe k base (it_get i base) (it_get j base) ->
  let d := l_comp_lines exp10 (lc_cmp k) (it_get i base) (it_get j base) (lc_delim k) 0 0 in
  let i' := lc_fill_cache_line exp10 k i base in let j' := lc_fill_cache_line exp10 k j base in
  it_get i' base = it_get i base /\ it_get j' base = it_get j base /\
  cache_decide i' j' d = d /\
  (key_final k (it_get i base) (it_get j base) -> forall x, cache_decide i' j' x = d) /\
  (it_complete i' && it_complete j' = true -> (it_cache i' =? it_cache j')%N =
     l_equal_lines exp10 (lc_cmp k) (it_get i base) (it_get j base) (lc_delim k) 0 0).
Proof.
  intros k base i j Fi Fj. unfold key_safe, key_final, lc_fill_cache_line, l_fill_cache_line, l_comp_lines, l_equal_lines.
  destruct (lc_cmp k) as [c|cols c|ev evl]; intros Hs.
  - unfold cp_fill, cp_comp, cp_equal.
    destruct (fill_spec exp10 (cp_cmpr c) i base base) as (Gi & Ki & Di).
    destruct (fill_spec exp10 (cp_cmpr c) j base base) as (Gj & Kj & Dj).
    cbn zeta. split; auto. split; auto. unfold cache_decide. rewrite Ki, Kj, Di, Dj, Fi, Fj, N.ltb_irrefl.
    rewrite N.eqb_refl, ip_equal.
    destruct (cp_cmpr c); cbn [fill_done c_comp] in *; try tauto;
      try (replace (Nat.leb (length base) 8) with false by (symmetry; apply Nat.leb_gt; auto));
      cbn [andb]; repeat split; auto; intros; discriminate.
  - cbn zeta. unfold cp_fill, cp_comp, cp_equal.
    set (a := get_col (it_get i base) (cols 0) (lc_delim k)) in *. set (b := get_col (it_get j base) (cols 0) (lc_delim k)) in *.
    destruct (fill_spec exp10 (cp_cmpr c) i a base) as (Gi & _ & _).
    destruct (fill_spec exp10 (cp_cmpr c) j b base) as (Gj & _ & _).
    destruct (cached_comp exp10 (cp_cmpr c) i j a b Hs Fi Fj) as (P1 & P2 & P3). auto.
  - cbn zeta. set (x := evl 0 (it_get i base) (lc_delim k)) in *. set (y := evl 0 (it_get j base) (lc_delim k)) in *.
    destruct (set_complete_spec (set_cache i (ulp_to_ulong x))) as (A1 & A2 & A3 & A4).
    destruct (set_complete_spec (set_cache j (ulp_to_ulong y))) as (B1 & B2 & B3 & B4).
    destruct Hs as (Va & Vb & Na & Nb & Z0). pose proof (key_compare _ _ Va Vb Na Nb Z0) as KC.
    assert (KD : forall d, cache_decide (set_complete (set_cache i (ulp_to_ulong x))) (set_complete (set_cache j (ulp_to_ulong y))) d = fcmp x y).
    { intros d. rewrite cache_decide_compare by (rewrite A1, B1; auto). rewrite A4, B4. cbn [it_cache set_cache]. auto. }
    split; [unfold it_get; rewrite A2, A3; auto|]. split; [unfold it_get; rewrite B2, B3; auto|].
    split; auto. split; auto. intros _. rewrite A4, B4, f_eqb_fcmp, <- KC. cbn [it_cache set_cache].
    destruct (N.compare_spec (ulp_to_ulong x) (ulp_to_ulong y)); cbn; lia.
Qed.

Theorem comp_items_lines : forall k base i j,
  it_complete i = false -> it_complete j = false ->
  key_safe k base (it_get i base) (it_get j base) ->
  (lc_rev k = false \/ key_final k (it_get i base) (it_get j base)) ->
  lc_comp_items exp10 k base (lc_fill_cache_line exp10 k i base) (lc_fill_cache_line exp10 k j base) =
  lc_comp_lines_n exp10 k (it_get i base) (it_get j base) 0 0.
Proof.
  intros k base i j Fi Fj Hs Hr. destruct (key_items k base i j Fi Fj Hs) as (Gi & Gj & P1 & P2 & P3).
  unfold lc_comp_items, lc_comp_lines_n. rewrite Gi, Gj. unfold lc_reverse.
  destruct (lc_rev k).
  - destruct Hr as [Hr|Hr]; [discriminate|]. rewrite P2; auto.
  - rewrite P1. auto.
Qed.

Theorem equal_items_lines : forall k base i j,
  it_complete i = false -> it_complete j = false ->
  key_safe k base (it_get i base) (it_get j base) ->
  lc_equal_items exp10 k base (lc_fill_cache_line exp10 k i base) (lc_fill_cache_line exp10 k j base) =
  lc_equal_lines_n exp10 k (it_get i base) (it_get j base) 0 0.
Proof.
  intros k base i j Fi Fj Hs. destruct (key_items k base i j Fi Fj Hs) as (Gi & Gj & P1 & P2 & P3).
  unfold lc_equal_items, lc_equal_lines_n. rewrite Gi, Gj. destruct (_ && _); auto.
Qed.

(** Lists of keys. *)
Theorem comp_items_lines_list : forall k ks base i j,
  it_complete i = false -> it_complete j = false ->
  key_safe k base (it_get i base) (it_get j base) ->
  (lc_rev k = false \/ key_final k (it_get i base) (it_get j base)) ->
  let cs := k :: ks in
  ll_comp_items exp10 cs base (ll_fill_cache_line exp10 cs i base) (ll_fill_cache_line exp10 cs j base) =
  ll_comp_lines_n exp10 cs (it_get i base) (it_get j base) 0 0 /\
  ll_equal_items exp10 cs base (ll_fill_cache_line exp10 cs i base) (ll_fill_cache_line exp10 cs j base) =
  ll_equal_lines_n exp10 cs (it_get i base) (it_get j base) 0 0.
Proof.
  intros k ks base i j Fi Fj Hs Hr cs. unfold cs, ll_comp_items, ll_equal_items, ll_fill_cache_line.
  rewrite comp_items_lines, equal_items_lines by auto.
  destruct (key_items k base i j Fi Fj Hs) as (-> & -> & _). split; reflexivity.
Qed.

(** A whole-line length or float key never tells two lines apart. *)
Theorem whole_blind : forall k c base i j, lc_cmp k = LWhole c -> cp_cmpr c = CLen \/ cp_cmpr c = CF64 ->
  lc_comp_items exp10 k base (lc_fill_cache_line exp10 k i base) (lc_fill_cache_line exp10 k j base) = Eq.
Proof.
  intros k c base i j Hk Hc. unfold lc_comp_items, lc_fill_cache_line, l_fill_cache_line. rewrite Hk.
  unfold cp_fill.
  destruct (fill_spec exp10 (cp_cmpr c) i base base) as (Gi & Ki & Di).
  destruct (fill_spec exp10 (cp_cmpr c) j base base) as (Gj & Kj & Dj).
  unfold cache_decide. rewrite Ki, Kj, Di, Dj, N.ltb_irrefl.
  destruct Hc as [-> | ->]; cbn; unfold lc_reverse; destruct (lc_rev k); auto.
Qed.

(** First difference. *)
Lemma first_diff_spec : forall {A} (ks : list A) (f : A -> comparison) (B : Type) (x y : B) (g : A -> B -> B -> comparison),
  (forall k, f k = g k x y) -> first_key (map g ks) x y (first_diff f ks).
Proof.
  intros A ks f B x y g E. induction ks as [|k ks IH]; cbn [first_diff map].
  - left. auto.
  - destruct (f k) eqn:F.
    + destruct IH as [[H1 H2]|(before & k' & after & H1 & H2 & H3 & H4)].
      * left. split; auto. constructor; auto. rewrite <- E. auto.
      * right. exists (g k :: before), k', after. rewrite H1. split; [auto|]. split; [constructor; auto; rewrite <- E; auto|auto].
    + right. exists [], (g k), (map g ks). split; [auto|]. split; [constructor|]. split; [rewrite <- E; auto|congruence].
    + right. exists [], (g k), (map g ks). split; [auto|]. split; [constructor|]. split; [rewrite <- E; auto|congruence].
Qed.

Lemma first_diff_preorder : forall {A B} (ks : list A) (g : A -> B -> B -> comparison),
  Forall (fun k => total_preorder (g k)) ks -> total_preorder (fun x y => first_diff (fun k => g k x y) ks).
Proof.
  intros A B ks g H. induction H as [|k ks Hk _ IH].
  - apply const_preorder.
  - apply (preorder_key (fun x => x) (fun x y => thenc (g k x y) (first_diff (fun k => g k x y) ks))).
    + apply (thenc_preorder (g k) (fun x y => first_diff (fun k => g k x y) ks)); auto.
    + intros x y. cbn [first_diff]. unfold thenc. destruct (g k x y); auto.
Qed.

Lemma all_equal_spec : forall {A} (f : A -> bool) l, all_equal f l = true <-> Forall (fun x => f x = true) l.
Proof.
  intros A f l. induction l as [|x l IH]; cbn; [split; auto|]. destruct (f x) eqn:E; cbn.
  - rewrite IH. split; intros H; [constructor; auto|inversion H; auto].
  - split; [discriminate|]. intros H; inversion H; congruence.
Qed.

Theorem lines_first_key : forall cs a b,
  first_key (map (fun k x y => lc_comp_lines_n exp10 k x y 0 0) cs) a b (ll_comp_lines_n exp10 cs a b 0 0).
Proof. intros. unfold ll_comp_lines_n. apply first_diff_spec. auto. Qed.
Theorem cols_first_key : forall cs a b,
  first_key (map (fun k x y => lc_comp_cols_n exp10 k x y 0 0) cs) a b (ll_comp_cols_n exp10 cs a b 0 0).
Proof. intros. unfold ll_comp_cols_n. apply first_diff_spec. auto. Qed.

Theorem lines_preorder : forall cs,
  Forall (fun k => total_preorder (fun x y => l_comp_lines exp10 (lc_cmp k) x y (lc_delim k) 0 0)) cs ->
  total_preorder (fun a b => ll_comp_lines_n exp10 cs a b 0 0).
Proof.
  intros cs H. unfold ll_comp_lines_n. apply first_diff_preorder.
  eapply Forall_impl; [|apply H]. intros k P. unfold lc_comp_lines_n, lc_reverse. destruct (lc_rev k); auto.
  apply (preorder_key (fun x => x) (fun x y => CompOpp (l_comp_lines exp10 (lc_cmp k) x y (lc_delim k) 0 0))).
  apply rev_preorder; auto. intros. apply ord_rev_opp.
Qed.
Theorem cols_preorder : forall cs,
  Forall (fun k => total_preorder (fun x y => l_comp_cols exp10 (lc_cmp k) x y 0 0)) cs ->
  total_preorder (fun a b => ll_comp_cols_n exp10 cs a b 0 0).
Proof.
  intros cs H. unfold ll_comp_cols_n. apply first_diff_preorder.
  eapply Forall_impl; [|apply H]. intros k P. unfold lc_comp_cols_n, lc_reverse. destruct (lc_rev k); auto.
  apply (preorder_key (fun x => x) (fun x y => CompOpp (l_comp_cols exp10 (lc_cmp k) x y 0 0))).
  apply rev_preorder; auto. intros. apply ord_rev_opp.
Qed.

(** The comparators that are total preorders on all texts. *)
Definition orderly (c : cmpr) : Prop := c = CPlain \/ c = CLower \/ c = CIP \/ c = CEqual \/ c = CLen.
Theorem orderly_preorder : forall c, orderly c -> total_preorder (c_comp exp10 c).
Proof.
  intros c [->|[->|[->|[->| ->]]]]; cbn [c_comp].
  - apply bcmp_preorder.
  - apply (preorder_key (map lower) bcmp); [apply bcmp_preorder|]. apply cmp_insens_bcmp.
  - apply ip_preorder.
  - apply const_preorder.
  - apply (preorder_key (@length N) Nat.compare); [apply nat_preorder|auto].
Qed.
Definition orderly_key (k : linecomp) : Prop :=
  match lc_cmp k with LWhole c | LCol _ c => orderly (cp_cmpr c) | LExpr _ _ => False end.
Lemma orderly_line : forall k, orderly_key k -> total_preorder (fun x y => l_comp_lines exp10 (lc_cmp k) x y (lc_delim k) 0 0).
Proof.
  intros k H. unfold orderly_key in H. destruct (lc_cmp k) as [c|cols c|]; [| |tauto].
  - apply (orderly_preorder _ H).
  - apply (preorder_key (fun l => get_col l (cols 0) (lc_delim k)) (c_comp exp10 (cp_cmpr c))); [apply orderly_preorder; auto|auto].
Qed.
Lemma orderly_cols : forall k, orderly_key k -> total_preorder (fun x y => l_comp_cols exp10 (lc_cmp k) x y 0 0).
Proof.
  intros k H. unfold orderly_key in H. destruct (lc_cmp k) as [c|cols c|]; [| |tauto].
  - apply (preorder_key tl_text (c_comp exp10 (cp_cmpr c))); [apply orderly_preorder; auto|auto].
  - apply (preorder_key (fun l => tl_get l (cols 0)) (c_comp exp10 (cp_cmpr c))); [apply orderly_preorder; auto|auto].
Qed.

(** Equality answers agree with comparison answers. *)
Lemma lc_equal_is_eq : forall k a b, lc_equal_lines_n exp10 k a b 0 0 = is_eq (lc_comp_lines_n exp10 k a b 0 0).
Proof.
  intros k a b. assert (R : forall c, is_eq (lc_reverse k c) = is_eq c).
  { intros c. unfold lc_reverse. destruct (lc_rev k), c; auto. }
  unfold lc_equal_lines_n, lc_comp_lines_n. rewrite R. unfold l_equal_lines, l_comp_lines, cp_equal, cp_comp.
  destruct (lc_cmp k); auto using ip_equal, f_eqb_fcmp.
Qed.
Theorem ll_equal_is_eq : forall cs a b, ll_equal_lines_n exp10 cs a b 0 0 = is_eq (ll_comp_lines_n exp10 cs a b 0 0).
Proof.
  intros cs a b. unfold ll_equal_lines_n, ll_comp_lines_n. induction cs as [|k cs IH]; auto.
  cbn [all_equal first_diff]. rewrite lc_equal_is_eq. destruct (lc_comp_lines_n exp10 k a b 0 0); cbn; auto.
Qed.

(** Remembered values. *)
Definition remembered (k : linecomp) (l : textline) (v : bytes) : Prop :=
  match lc_cmp k with
  | LWhole c => v = tl_text l
  | LCol cols c => v = tl_get l (cols 0)
  | LExpr ev _ => to_f64_lossy exp10 v = ev 0 l
  end.
Definition short_enough (k : linecomp) (l r : textline) : Prop :=
  match lc_cmp k with
  | LWhole c => self_len (cp_cmpr c) (tl_text l) (tl_text r)
  | LCol cols c => self_len (cp_cmpr c) (tl_get l (cols 0)) (tl_get r (cols 0))
  | LExpr _ _ => True
  end.
Theorem self_cols : forall cs vs l r, Forall2 (fun k v => remembered k l v) cs vs ->
  Forall (fun k => short_enough k l r) cs ->
  ll_comp_self_cols exp10 cs vs r = ll_comp_cols_n exp10 cs l r 0 0 /\
  ll_equal_self_cols exp10 cs vs r = ll_equal_cols_n exp10 cs l r 0 0.
Proof.
  intros cs vs l r H. induction H as [|k v cs vs Hk _ IH]; intros Hl; auto.
  inversion Hl as [|? ? Hk' Hl']; subst. destruct (IH Hl') as [I1 I2].
  unfold ll_comp_self_cols, ll_comp_cols_n, ll_equal_self_cols, ll_equal_cols_n in *.
  cbn [combine first_diff all_equal fst snd]. rewrite I1, I2.
  assert (E : lc_comp_self_cols exp10 k v r = lc_comp_cols_n exp10 k l r 0 0 /\
              lc_equal_self_cols exp10 k v r = lc_equal_cols_n exp10 k l r 0 0).
  { unfold lc_comp_self_cols, lc_comp_cols_n, lc_equal_self_cols, lc_equal_cols_n, l_comp_self_cols, l_comp_cols,
      l_equal_self_cols, l_equal_cols, cp_comp_self, cp_comp, cp_equal_self, cp_equal.
    unfold remembered in Hk. unfold short_enough in Hk'. destruct (lc_cmp k) as [c|cols c|ev evl].
    - subst v. destruct (comp_self_comp (cp_cmpr c) exp10 _ _ Hk') as [-> ->]. auto.
    - subst v. destruct (comp_self_comp (cp_cmpr c) exp10 _ _ Hk') as [-> ->]. auto.
    - rewrite Hk. auto. }
  destruct E as [-> ->]. auto.
Qed.

(** Sortedness check. *)
Lemma comp_check_ok : forall cs u a b,
  comp_check exp10 cs u a b = false <-> in_order u (fun x y => ll_comp_cols_n exp10 cs x y 0 0) a b.
Proof.
  intros. unfold comp_check, in_order. destruct (ll_comp_cols_n exp10 cs a b 0 0).
  - split; [intros ->; auto|intros [H|[H _]]; congruence].
  - split; auto.
  - split; [congruence|intros [H|[_ H]]; congruence].
Qed.

Lemma sort_check_file_mono : forall cs u n prev rest rep, rep <= sort_check_file exp10 cs u n prev rest rep.
Proof.
  intros cs u n prev rest. revert prev. induction rest as [|c r IH]; intros prev rep; cbn [sort_check_file]; auto.
  destruct (comp_check exp10 cs u prev c); auto.
  destruct (Nat.leb n (rep + 1)); [lia|]. specialize (IH c (rep + 1)). lia.
Qed.

Lemma adjacent_cons : forall {A} s (cmp : A -> A -> comparison) x y l,
  adjacent_ok s cmp (x :: y :: l) <-> in_order s cmp x y /\ adjacent_ok s cmp (y :: l).
Proof.
  intros A s cmp x y l. split.
  - intros H. split; [apply (H [] x y l); auto|].
    intros p a b q E. apply (H (x :: p) a b q). rewrite E. auto.
  - intros [H1 H2] p a b q E. destruct p as [|z p]; cbn in E.
    + injection E as -> -> ->. auto.
    + injection E as _ E. apply (H2 p a b q). auto.
Qed.
Lemma adjacent_single : forall {A} s (cmp : A -> A -> comparison) x, adjacent_ok s cmp [x].
Proof. intros A s cmp x p a b q E. destruct p as [|z [|w p]]; cbn in E; discriminate. Qed.

Lemma sort_check_file_zero : forall cs u n prev rest,
  sort_check_file exp10 cs u n prev rest 0 = 0 <->
  adjacent_ok u (fun x y => ll_comp_cols_n exp10 cs x y 0 0) (prev :: rest).
Proof.
  intros cs u n prev rest. revert prev. induction rest as [|c r IH]; intros prev; cbn [sort_check_file].
  - split; auto. intros _. apply adjacent_single.
  - rewrite adjacent_cons, <- comp_check_ok. destruct (comp_check exp10 cs u prev c) eqn:E.
    + split; [|intros [? _]; discriminate]. intros H. exfalso. cbn [Nat.add] in H. destruct (Nat.leb n 1); [lia|].
      pose proof (sort_check_file_mono cs u n c r 1). lia.
    + rewrite IH. tauto.
Qed.

Lemma sort_check_pos : forall cs u n files rep, 0 < rep -> sort_check exp10 cs u n files rep = false.
Proof.
  intros cs u n files. induction files as [|[|l ls] fs IH]; intros rep H; cbn [sort_check].
  - destruct (Nat.ltb_spec 0 rep); [auto|lia].
  - auto.
  - apply IH. pose proof (sort_check_file_mono cs u n l ls rep). lia.
Qed.

Theorem sort_check_exact : forall cs u n files,
  sort_check exp10 cs u n files 0 = true <->
  Forall (adjacent_ok u (fun x y => ll_comp_cols_n exp10 cs x y 0 0)) files.
Proof.
  intros cs u n files. induction files as [|[|l ls] fs IH]; cbn [sort_check].
  - split; auto.
  - rewrite IH. split; [intros H; constructor; auto|intros H; inversion H; auto].
    intros p a b q E. destruct p; discriminate.
  - destruct (sort_check_file exp10 cs u n l ls 0) eqn:E.
    + rewrite IH. apply sort_check_file_zero in E. split; [intros H; constructor; auto|intros H; inversion H; auto].
    + rewrite sort_check_pos by lia. split; [discriminate|]. intros H. inversion H as [|? ? H1 H2]; subst.
      apply (sort_check_file_zero cs u n) in H1. congruence.
Qed.
End Keys.

(** With a total preorder, order of neighbours is order everywhere. *)
Theorem adjacent_global : forall {A} s (cmp : A -> A -> comparison) l, total_preorder cmp ->
  (adjacent_ok s cmp l <-> globally_sorted s cmp l).
Proof.
  intros A s cmp l P. split.
  - intros H. assert (G : forall m x y q, adjacent_ok s cmp (x :: m ++ y :: q) -> in_order s cmp x y).
    { induction m as [|z m IH]; intros x y q Ha.
      - apply adjacent_cons in Ha as [Ha _]. auto.
      - cbn in Ha. apply adjacent_cons in Ha as [H1 H2]. apply IH in H2.
        unfold in_order in *. destruct H1 as [H1|[S1 H1]].
        + left. apply (preorder_lt_trans cmp P x z y); auto. destruct H2 as [H2|[_ H2]]; congruence.
        + destruct H2 as [H2|[_ H2]].
          * left. apply (preorder_le_lt_trans cmp P x z y); congruence.
          * right. split; auto. apply (preorder_eq_trans cmp P x z y); auto. }
    intros p x m y q E. subst l. apply (G m x y q).
    intros p' a b q' E'. apply (H (p ++ p') a b q'). rewrite <- app_assoc, E'. auto.
  - intros H p x y q E. apply (H p x [] y q). auto.
Qed.
