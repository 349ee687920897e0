(** C29, C30 and C65: aggregators, merging, and rows of aggregates. *)
From Coq Require Import String List NArith ZArith Bool Arith Lia SpecFloat Permutation.
Open Scope list_scope.
Import ListNotations.
From Verif Require Import Base TextSpec TextModel StrSpec StrModel StrProofs FloatModel FloatInt NumText CompModel CompSpec CompProofs OrdProofs CompProps SortModel SortSpec SortProofs HdrModel HdrSpec ColModel ColSpec ColProofs ColCompProofs TransProofs AggModel AggSpec AggProofs AggMerge AggRow AggFloat ShareProofs.
From Coq Require Import Reals.
Close Scope Z_scope.

Lemma laid_out_iff : forall (p q : N -> Prop) l ws, (forall c, p c <-> q c) -> laid_out p l ws -> laid_out q l ws.
Proof.
  intros p q l ws H. induction 1 as [gap G|gap w rest ws G N W R L IH].
  - constructor. intros c I Q. apply (G c I). apply H. auto.
  - constructor; auto.
    + intros c I Q. apply (G c I). apply H. auto.
    + intros c I. apply H. auto.
    + destruct rest as [|c rest]; auto. rewrite <- H. auto.
Qed.

Section Props.
Variable exp10 : Z -> f64.
Variable decode : bytes -> list N.
Variable is_space is_alnum : N -> bool.
Variable comp_make : bytes -> res comp_t.
Notation adds := (agg_adds exp10 decode is_space is_alnum).
Notation result := (agg_result exp10).
Notation things := (count_things decode is_space is_alnum).

(** The aggregator made from [spec] shows [o] after the values [vs]. *)
Definition shows (spec : bytes) (vs : list bytes) (o : out) : Prop :=
  exists a, agg_make comp_make spec = Ok a /\ result (adds a vs) = o.

(** C29. count shows its start, 0 if none is given, plus the number of values. *)
Theorem c29_count : forall v vs, (- 2 ^ 63 <= v)%Z -> (v + Z.of_nat (List.length vs) < 2 ^ 63)%Z ->
  shows (bs "count," ++ print_Z v) vs (ONum (f_of_Z (v + Z.of_nat (List.length vs)))) /\
  (Z.of_nat (List.length vs) < 2 ^ 63 -> shows (bs "count") vs (ONum (f_of_Z (Z.of_nat (List.length vs)))))%Z.
Proof.
  intros v vs L U. split; [exists (GCount v v)|intros B; exists (GCount 0 0)]; split.
  - transitivity (match print_Z v with [] => Ok (GCount 0 0) | _ => rbind (to_isize_whole (print_Z v)) (fun v => Ok (GCount v v)) end); [reflexivity|].
    pose proof (to_isize_print v [] ltac:(lia) I) as E. rewrite app_nil_r in E.
    destruct (print_Z v) eqn:P; [exfalso|]; [|unfold to_isize_whole; rewrite E; reflexivity].
    unfold print_Z in P. destruct (v <? 0)%Z; [discriminate|]. pose proof (print_N_head (Z.to_N v)) as (c & r & H & _). congruence.
  - rewrite count_run by auto. reflexivity.
  - reflexivity.
  - rewrite count_run by (cbn; lia). reflexivity.
Qed.

(** C29. min shows the first of the smallest values. *)
Theorem c29_min_partial : forall P p c vs, comp_make p = Ok c -> total_preorder_on P (cp_comp exp10 c) -> Forall P vs -> vs <> [] ->
  exists r, shows (bs "min," ++ p) vs (OText r) /\ first_min (cp_comp exp10 c) r vs.
Proof.
  intros P p c vs E O F N. destruct (min_ok exp10 decode is_space is_alnum P c O vs F N) as (r & R & M). exists r. split; auto.
  exists (GMin c [] true). split; auto. transitivity (rbind (comp_make p) (fun c => Ok (GMin c [] true))); [reflexivity|]. rewrite E. reflexivity.
Qed.

(** C29. max shows the first of the largest values if some value is larger than the empty text. *)
Theorem c29_max_partial : forall P p c vs, comp_make p = Ok c -> total_preorder_on P (cp_comp exp10 c) -> P [] -> Forall P vs ->
  (exists v, In v vs /\ cp_comp exp10 c [] v = Lt) ->
  exists r, shows (bs "max," ++ p) vs (OText r) /\ first_max (cp_comp exp10 c) r vs.
Proof.
  intros P p c vs E O Z F N. destruct (max_ok exp10 decode is_space is_alnum P c O vs Z F N) as (r & R & M). exists r. split; auto.
  exists (GMax c []). split; auto. transitivity (rbind (comp_make p) (fun c => Ok (GMax c []))); [reflexivity|]. rewrite E. reflexivity.
Qed.
Lemma empty_least : forall c v, c = CPlain \/ c = CLower \/ c = CLen -> c_comp exp10 c [] v = Lt \/ v = [].
Proof. intros c [|x v]; auto. left. destruct H as [-> | [-> | ->]]; reflexivity. Qed.
(** C29. Compared as text, with or without case, or by length, max shows the first of the largest values of any list. *)
Theorem c29_max_text : forall p c vs, comp_make p = Ok c -> cp_cmpr c = CPlain \/ cp_cmpr c = CLower \/ cp_cmpr c = CLen -> vs <> [] ->
  exists r, shows (bs "max," ++ p) vs (OText r) /\ first_max (cp_comp exp10 c) r vs.
Proof.
  intros p c vs E K N. assert (O : total_preorder (cp_comp exp10 c)) by (apply c14_preorder; tauto).
  assert (D : (exists v, In v vs /\ cp_comp exp10 c [] v = Lt) \/ forall v, In v vs -> v = []).
  { clear N. induction vs as [|v vs IH]; [right; easy|]. destruct (empty_least (cp_cmpr c) v K) as [L| ->]; [left; exists v; cbn; auto|].
    destruct IH as [(w & I & L)|A]; [left; exists w; cbn; auto|right]. intros w [<- |I]; auto. }
  destruct D as [D|A].
  - apply (c29_max_partial (fun _ => True)); auto. destruct O as (A & B & C). repeat split; eauto. apply Forall_forall; auto.
  - exists []. split.
    + exists (GMax c []). split; [transitivity (rbind (comp_make p) (fun c => Ok (GMax c []))); [reflexivity|rewrite E; reflexivity]|].
      assert (X : adds (GMax c []) vs = GMax c []); [|rewrite X; reflexivity].
      clear -A O. induction vs as [|v vs IH]; auto. cbn [agg_adds fold_left]. rewrite (A v) by (cbn; auto). cbn [agg_add].
      destruct O as (R & _). rewrite R. apply IH. intros; apply A; cbn; auto.
    + destruct vs as [|v vs]; [congruence|]. exists [], vs. rewrite (A v) by (cbn; auto). split; auto. split; [easy|].
      intros w I. rewrite (A w) by (cbn; auto). destruct O as (R & _). rewrite R. discriminate.
Qed.

(** C29. prefix and suffix show the longest text that begins, or ends, all values. *)
Theorem c29_prefix : forall vs, vs <> [] -> exists p, shows (bs "prefix") vs (OText p) /\ longest_common begins p vs.
Proof. intros vs N. destruct (prefix_ok exp10 decode is_space is_alnum vs N) as (p & R & L). exists p. split; auto. exists (GPrefix [] true). split; auto. Qed.
Theorem c29_suffix : forall vs, vs <> [] -> exists p, shows (bs "suffix") vs (OText p) /\ longest_common ends p vs.
Proof. intros vs N. destruct (suffix_ok exp10 decode is_space is_alnum vs N) as (p & R & L). exists p. split; auto. exists (GSuffix [] true). split; auto. Qed.

(** C29. The counters count characters, runs of non-blank characters and runs of letters and digits, over bytes or characters. *)
Theorem c29_counters : forall v,
  things (Chars false) v = N.of_nat (List.length v) /\ things (Chars true) v = N.of_nat (List.length (decode v)) /\
  (exists ws, laid_out (fun c => (32 < c)%N) v ws /\ things (Swords false) v = N.of_nat (List.length ws)) /\
  (exists ws, laid_out (fun c => is_space c = false) (decode v) ws /\ things (Swords true) v = N.of_nat (List.length ws)) /\
  (exists ws, laid_out (fun c => (48 <= c <= 57 \/ 65 <= c <= 90 \/ 97 <= c <= 122)%N) v ws /\ things (Awords false) v = N.of_nat (List.length ws)) /\
  (exists ws, laid_out (fun c => is_alnum c = true) (decode v) ws /\ things (Awords true) v = N.of_nat (List.length ws)).
Proof.
  intros v. split; [reflexivity|]. split; [reflexivity|].
  assert (W : forall (p : N -> bool) (q : N -> Prop) l, (forall c, p c = true <-> q c) -> exists ws, laid_out q l ws /\ words_loop p true 0 l = N.of_nat (List.length ws)).
  { intros p q l H. destruct (laid_out_exists p l) as (ws & L). exists ws. split; [apply (laid_out_iff (fun c => p c = true)); auto|].
    rewrite (words_ok (fun b => b) p p p l ws L true 0) by auto. apply N.add_0_l. }
  split; [apply (W (fun c => 32 <? c)%N); intros; apply N.ltb_lt|].
  split; [apply (W (fun c => negb (is_space c))); intros c; destruct (is_space c); cbn; split; congruence|].
  split; [apply (W byte_alnum)|apply (W is_alnum); tauto].
  intros c. unfold byte_alnum, ascii_letter, is_digit. rewrite !orb_true_iff, !andb_true_iff, !N.leb_le. tauto.
Qed.

(** C29. asum, amin and amax show the sum, smallest and largest of the counts; the counter's name takes utf8 as a modifier. *)
Theorem c29_counted : forall p k vs, counter_make p = Ok k -> 
  ((total (map (things k) vs) < 2 ^ 64)%N -> shows (bs "asum," ++ p) vs (ONum (f_of_Z (Z.of_N (total (map (things k) vs)))))) /\
  (vs <> [] -> (forall v, In v vs -> (things k v < 2 ^ 64)%N) ->
    exists n, shows (bs "amin," ++ p) vs (ONum (f_of_Z (Z.of_N n))) /\ is_min n (map (things k) vs)) /\
  (vs <> [] -> exists n, shows (bs "amax," ++ p) vs (ONum (f_of_Z (Z.of_N n))) /\ is_max n (map (things k) vs)).
Proof.
  intros p k vs E. split; [|split].
  - intros B. exists (GASum k 0). split; [transitivity (rbind (counter_make p) (fun k => Ok (GASum k 0))); [reflexivity|rewrite E; reflexivity]|].
    rewrite asum_run by (rewrite N.add_0_l; auto). rewrite N.add_0_l. reflexivity.
  - intros N B. destruct (amin_ok exp10 decode is_space is_alnum k vs N B) as (n & R & M). exists n. split; auto.
    exists (GAMin k (2 ^ 64 - 1)). split; auto. transitivity (rbind (counter_make p) (fun k => Ok (GAMin k (2 ^ 64 - 1)))); [reflexivity|rewrite E; reflexivity].
  - intros N. destruct (amax_ok exp10 decode is_space is_alnum k vs N) as (n & R & M). exists n. split; auto.
    exists (GAMax k 0). split; auto. transitivity (rbind (counter_make p) (fun k => Ok (GAMax k 0))); [reflexivity|rewrite E; reflexivity].
Qed.
Theorem c29_counter_names : forall u,
  let pre := if u : bool then bs "utf8." else [] in
  counter_make (pre ++ bs "chars") = Ok (Chars u) /\ counter_make (pre ++ bs "swords") = Ok (Swords u) /\ counter_make (pre ++ bs "awords") = Ok (Awords u).
Proof. intros [|]; repeat split; vm_compute; reflexivity. Qed.

(** C29. The second names of min, max, mean and amean make the same aggregator, with or without a pattern. *)
Theorem c29_alias : forall a n, In (a, n) [(bs "minimum", bs "min"); (bs "maximum", bs "max"); (bs "avg", bs "mean"); (bs "aavg", bs "amean")] ->
  agg_make comp_make a = agg_make comp_make n /\ forall p, agg_make comp_make (a ++ 44%N :: p) = agg_make comp_make (n ++ 44%N :: p).
Proof.
  intros a n H. cbn [In] in H. repeat destruct H as [H|H]; try contradiction; injection H as <- <-; (split; [reflexivity|intros p; reflexivity]).
Qed.

(** C29. The mean of counts has the right value when an expression asks for it, but its result prints the sum. *)
Theorem c29_amean_refuted : forall v, things (Chars false) v <> 0%N -> (N.of_nat (List.length v) < 2 ^ 52)%N ->
  exists vs, shows (bs "amean,chars") vs (ONum (f_of_Z (Z.of_N (2 * N.of_nat (List.length v))))) /\ vs = [v; v] /\
    exists a, agg_make comp_make (bs "amean,chars") = Ok a /\ agg_value exp10 (adds a vs) = fdiv (f_of_Z (Z.of_N (2 * N.of_nat (List.length v)))) (f_of_Z 2).
Proof.
  intros v H B. exists [v; v]. assert (M : agg_make comp_make (bs "amean,chars") = Ok (GAMean (Chars false) 0 0)) by reflexivity.
  assert (R : adds (GAMean (Chars false) 0 0) [v; v] = GAMean (Chars false) (2 * N.of_nat (List.length v)) 2).
  { rewrite amean_run; [|cbn -[N.mul N.pow]; lia|vm_compute; reflexivity]. cbn -[N.mul]. f_equal. lia. }
  split; [exists (GAMean (Chars false) 0 0); split; [exact M|rewrite R; reflexivity]|]. split; auto.
  exists (GAMean (Chars false) 0 0). split; [exact M|]. rewrite R. reflexivity.
Qed.

(** A text that begins with the whole number [n] and has no fraction, exponent or unit. *)
Definition whole_text (v : bytes) (n : Z) : Prop :=
  exists s ds rest, v = sign_text s ++ ds ++ rest /\ Forall digit_byte ds /\ ds <> [] /\ (digits_val ds < 2 ^ 53)%Z /\ ends_number rest /\ n = signed s (digits_val ds).
Lemma whole_holds_int : forall vs ns, Forall2 whole_text vs ns -> Forall2 (fun v n => holds_int (to_f64_lossy exp10 v) n) vs ns.
Proof.
  induction 1 as [|v n vs ns (s & ds & rest & -> & D & N & B & E & ->)]; constructor; auto. apply whole_read; auto.
Qed.
(** C29. sum shows the exact sum of whole numbers and mean the quotient, rounded once, of that sum and the number of values, if no
    partial sum reaches 2^53. *)
Theorem c29_sum_mean_partial : forall vs ns, Forall2 whole_text vs ns -> (forall k, small (totalZ (firstn k ns))) ->
  (exists y, shows (bs "sum") vs (ONum y) /\ holds_int y (totalZ ns)) /\
  (vs <> [] -> small (Z.of_nat (List.length vs)) ->
    exists y, shows (bs "mean") vs (ONum y) /\ holds_real y (IZR (totalZ ns) / IZR (Z.of_nat (List.length vs)))).
Proof.
  intros vs ns F S. apply whole_holds_int in F. split.
  - destruct (sum_run exp10 decode is_space is_alnum vs ns F f_zero 0 holds_zero) as (y & R & H); [intros; apply S|].
    exists y. split; auto. exists (GSum f_zero). split; [reflexivity|rewrite R; reflexivity].
  - intros N B. destruct (mean_run exp10 decode is_space is_alnum vs ns F f_zero 0 f_zero 0 holds_zero) as (y & d & R & H & D); [intros; apply S|exact holds_zero|lia|exact B|].
    rewrite Z.add_0_l in D. assert (L : (1 <= Z.of_nat (List.length vs))%Z) by (destruct vs; [congruence|cbn [List.length]; lia]).
    assert (T : small (totalZ ns)) by (specialize (S (List.length ns)); rewrite firstn_all in S; exact S).
    exists (fdiv y d). split; [|apply div_whole; auto]. exists (GMean f_zero f_zero). split; [reflexivity|]. rewrite R. cbn [agg_result agg_value].
    assert (P : f_ltb f_zero d = true); [|rewrite P; reflexivity]. unfold f_ltb, SFltb. rewrite (holds_cmp _ _ _ _ holds_zero D).
    assert (C : (0 ?= Z.of_nat (List.length vs))%Z = Lt) by (apply Z.compare_lt_iff; lia). rewrite C. reflexivity.
Qed.

(** C29. Reset makes an aggregator what it was when made. *)
Theorem c29_reset : forall spec a vs, agg_make comp_make spec = Ok a -> agg_reset (adds a vs) = a.
Proof. intros spec a vs M. rewrite reset_adds. apply (made_fresh comp_make spec). auto. Qed.

(** C29. min and max never apply the reversal of their comparator. *)
Theorem c29_reverse_refuted : forall p, comp_make p = Ok (CompModel.mkcomp true CPlain) ->
  shows (bs "min," ++ p) [bs "a"; bs "b"] (OText (bs "a")) /\ shows (bs "max," ++ p) [bs "a"; bs "b"] (OText (bs "b")).
Proof.
  intros p E. split.
  - exists (GMin (CompModel.mkcomp true CPlain) [] true). split; [|reflexivity].
    transitivity (rbind (comp_make p) (fun c => Ok (GMin c [] true))); [reflexivity|rewrite E; reflexivity].
  - exists (GMax (CompModel.mkcomp true CPlain) []). split; [|reflexivity].
    transitivity (rbind (comp_make p) (fun c => Ok (GMax c []))); [reflexivity|rewrite E; reflexivity].
Qed.

(** C30. The parts of the values, sorted stably and stripped of repeats if asked, within the limits on length and number, joined. *)
Notation fits o := (fun x : bytes => (m_min o <=? N.of_nat (List.length x))%N && (N.of_nat (List.length x) <=? m_max o)%N).
Lemma merge_list_ok : forall o vs, total_preorder (cp_comp exp10 (m_comp o)) -> clean_end (m_delim o) vs ->
  exists s, (if m_sort o then stable_sort_of (cp_comp exp10 (m_comp o)) (pieces (m_delim o) vs) s else s = pieces (m_delim o) vs) /\
    merge_list exp10 o (join (m_delim o) (filter nonempty vs)) = if m_uniq o then dedup (cp_equal exp10 (m_comp o)) s else s.
Proof.
  intros o vs O C. unfold merge_list. cbv zeta. pose proof (merge_pieces _ _ C) as P. cbv zeta in P. rewrite P.
  exists (if m_sort o then std_sort (cp_comp exp10 (m_comp o)) (pieces (m_delim o) vs) else pieces (m_delim o) vs).
  split; [destruct (m_sort o); auto; apply std_sort_stable; auto|auto].
Qed.
Lemma merge_made : forall p o, merge_new comp_make p = Ok o -> agg_make comp_make (bs "merge," ++ p) = Ok (GMerge o []).
Proof. intros p o E. transitivity (rbind (merge_new comp_make p) (fun o => Ok (GMerge o []))); [reflexivity|rewrite E; reflexivity]. Qed.
Lemma merge_added : forall o vs, adds (GMerge o []) vs = GMerge o (join (m_delim o) (filter nonempty vs)).
Proof. intros o vs. exact (merge_data exp10 decode is_space is_alnum o vs [] (Forall_nil _)). Qed.
Lemma decides : forall c, decides_eq (cp_comp exp10 c) (cp_equal exp10 c).
Proof. intros c x y. apply c14_equal_agrees. Qed.

Theorem c30_merge_partial : forall p o vs, merge_new comp_make p = Ok o -> total_preorder (cp_comp exp10 (m_comp o)) ->
  clean_end (m_delim o) vs -> m_count o = false -> (1 <= m_parts o)%N ->
  exists s u, (if m_sort o then stable_sort_of (cp_comp exp10 (m_comp o)) (pieces (m_delim o) vs) s else s = pieces (m_delim o) vs) /\
    (if m_uniq o then squeezed (fun y x => cp_comp exp10 (m_comp o) y x = Eq) s u else u = s) /\
    shows (bs "merge," ++ p) vs (OText (join (m_out o) (firstn (N.to_nat (m_parts o)) (filter (fits o) u)))).
Proof.
  intros p o vs M O C K L. destruct (merge_list_ok o vs O C) as (s & S & E).
  exists s, (if m_uniq o then dedup (cp_equal exp10 (m_comp o)) s else s). split; [auto|]. split.
  - destruct (m_uniq o); auto. pose proof (dedup_squeezed (cp_equal exp10 (m_comp o)) s) as Q.
    revert Q. generalize (dedup (cp_equal exp10 (m_comp o)) s). clear. induction 1 as [|x run rest out R N Q IH]; constructor; auto.
    + intros y I. apply decides. auto.
    + destruct rest; auto. rewrite <- (decides (m_comp o) _ _). auto.
  - exists (GMerge o []). split; [apply merge_made; auto|]. rewrite merge_added. cbn [agg_result]. unfold merge_result. rewrite K, E.
    rewrite (merge_write_join exp10 decode is_space is_alnum comp_make). rewrite N.max_r by auto. reflexivity.
Qed.
(** C30. Sorting and removing repeats keeps exactly the first of every group of equal parts, in order. *)
Theorem c30_distinct : forall p o vs, merge_new comp_make p = Ok o -> total_preorder (cp_comp exp10 (m_comp o)) ->
  clean_end (m_delim o) vs -> m_count o = false -> (1 <= m_parts o)%N -> m_sort o = true -> m_uniq o = true ->
  exists u, first_of_groups (cp_comp exp10 (m_comp o)) (pieces (m_delim o) vs) u /\
    shows (bs "merge," ++ p) vs (OText (join (m_out o) (firstn (N.to_nat (m_parts o)) (filter (fits o) u)))).
Proof.
  intros p o vs M O C K L HS HU. destruct (merge_list_ok o vs O C) as (s & S & E). rewrite HS in S. rewrite HU in E.
  exists (dedup (cp_equal exp10 (m_comp o)) s). split.
  - destruct S as (_ & S & T). pose proof (dedup_spec (cp_comp exp10 (m_comp o)) O (cp_equal exp10 (m_comp o)) (decides _) s S) as [A B].
    split; auto. intros x. rewrite B. rewrite T. auto.
  - exists (GMerge o []). split; [apply merge_made; auto|]. rewrite merge_added. cbn [agg_result]. unfold merge_result. rewrite K, E.
    rewrite (merge_write_join exp10 decode is_space is_alnum comp_make). rewrite N.max_r by auto. reflexivity.
Qed.
(** C30. With count, the number of parts is shown. *)
Theorem c30_count_partial : forall p o vs, merge_new comp_make p = Ok o -> total_preorder (cp_comp exp10 (m_comp o)) ->
  clean_end (m_delim o) vs -> m_count o = true ->
  exists s u, (if m_sort o then stable_sort_of (cp_comp exp10 (m_comp o)) (pieces (m_delim o) vs) s else s = pieces (m_delim o) vs) /\
    (if m_uniq o then squeezed (fun y x => cp_comp exp10 (m_comp o) y x = Eq) s u else u = s) /\
    shows (bs "merge," ++ p) vs (ONum (f_of_Z (Z.of_nat (List.length u)))).
Proof.
  intros p o vs M O C K. destruct (merge_list_ok o vs O C) as (s & S & E).
  exists s, (if m_uniq o then dedup (cp_equal exp10 (m_comp o)) s else s). split; [auto|]. split.
  - destruct (m_uniq o); auto. pose proof (dedup_squeezed (cp_equal exp10 (m_comp o)) s) as Q.
    revert Q. generalize (dedup (cp_equal exp10 (m_comp o)) s). clear. induction 1 as [|x run rest out R N Q IH]; constructor; auto.
    + intros y I. apply decides. auto.
    + destruct rest; auto. rewrite <- (decides (m_comp o) _ _). auto.
  - exists (GMerge o []). split; [apply merge_made; auto|]. rewrite merge_added. cbn [agg_result]. unfold merge_result. rewrite K, E.
    unfold f_of_N. rewrite nat_N_Z. reflexivity.
Qed.
(** C30. The parts of values without delimiters are the values that are not empty. *)
Theorem c30_values : forall d vs, (forall v, In v vs -> ~ In d v /\ ~ In NL v) -> pieces d vs = filter nonempty vs /\ clean_end d vs.
Proof.
  intros d vs H. split.
  - unfold pieces. induction vs as [|v vs IH]; auto. cbn [filter]. assert (E : filter nonempty vs = filter nonempty vs) by auto.
    destruct (nonempty v); [|apply IH; intros; apply H; cbn; auto]. cbn [flat_map]. rewrite IH by (intros; apply H; cbn; auto).
    assert (S : split_on d v = [v]); [|rewrite S; auto]. destruct (H v) as [N _]; [cbn; auto|]. clear -N. induction v as [|c v IH]; auto.
    cbn [split_on]. assert (c =? d = false)%N as -> by (apply N.eqb_neq; intros ->; apply N; cbn; auto).
    rewrite IH; auto. intros I. apply N. cbn. auto.
  - unfold clean_end. cbv zeta. destruct (filter nonempty vs) as [|w ws] eqn:E; [cbn; split; [discriminate|auto]|].
    assert (I : In (last (w :: ws) []) vs).
    { assert (X : In (last (w :: ws) []) (filter nonempty vs)). { rewrite E. destruct (exists_last (l := w :: ws)) as (a & b & Q); [discriminate|]. rewrite Q, last_last. rewrite in_app_iff; cbn; auto. }
      apply filter_In in X. tauto. }
    assert (J : In (last (w :: ws) []) (filter nonempty vs)). { rewrite E. destruct (exists_last (l := w :: ws)) as (a & b & Q); [discriminate|]. rewrite Q, last_last. rewrite in_app_iff; cbn; auto. }
    apply filter_In in J as [_ J]. destruct (H _ I) as [A B]. destruct (exists_last (l := last (w :: ws) [])) as (a & b & Q).
    { intros Z. rewrite Z in J. discriminate. }
    rewrite Q in *. rewrite last_last. rewrite in_app_iff in A, B. cbn in A, B. split; [|right]; intros ->; tauto.
Qed.
(** C30. Options separated by dots, the comparator last, set what they name, over the defaults; a change of delimiters comes first. *)
Theorem c30_options : forall os c k, comp_fits comp_make c k -> Forall opt_fits os -> os <> [] \/ c <> None ->
  merge_new comp_make (opts_text os c) = Ok (comp_apply c k (fold_left (fun m o => opt_set o m) os merge_default)).
Proof. exact (options_ok decode is_space is_alnum comp_make). Qed.
Theorem c30_options_delim : forall x y os c k, comp_fits comp_make c k -> Forall opt_fits os -> os <> [] ->
  merge_new comp_make (68%N :: x :: y :: 46%N :: opts_text os c) = Ok (comp_apply c k (fold_left (fun m o => opt_set o m) os
    (mkmerge x y (2 ^ 64 - 1) (CompModel.mkcomp false CPlain) false false 0 (2 ^ 64 - 1) false))).
Proof. exact (options_delim_ok decode is_space is_alnum comp_make). Qed.

(** C30. A limit of no parts still shows one. *)
Theorem c30_no_parts_refuted : shows (bs "merge,max_parts:0") [bs "a"; bs "b"] (OText (bs "a")).
Proof. eexists. split; [apply merge_made; reflexivity|reflexivity]. Qed.
(** C30. The count takes no notice of the limits. *)
Theorem c30_count_refuted : shows (bs "merge,min_len:3.max_parts:1.count") [bs "a"; bs "b"] (ONum (f_of_Z 2)).
Proof. eexists. split; [apply merge_made; reflexivity|reflexivity]. Qed.
(** C30. New delimiters cannot be the only option, nor be followed by just a comparator with modifiers. *)
Theorem c30_delim_refuted : merge_new comp_make (bs "D;-") = Err /\ forall o, merge_new comp_make (bs "D;-.comp:lower.rev") <> Ok o.
Proof.
  split; [reflexivity|]. intros o.
  change (rbind (rbind (comp_make (bs "lower")) (fun c => Ok (mkmerge 59 45 (2 ^ 64 - 1) c false false 0 (2 ^ 64 - 1) false)))
    (fun m => merge_loop comp_make 18 m (bs "rev")) <> Ok o).
  destruct (comp_make (bs "lower")); discriminate.
Qed.
(** C30. A part that ends in the delimiter or a newline loses it if nothing follows. *)
Theorem c30_end_refuted : shows (bs "merge,sort") [bs "b"; bs "a,"] (OText (bs "a,b")) /\ shows (bs "merge,sort") [bs "b"; bs "a" ++ [NL]] (OText (bs "a,b")) /\
  pieces 44 [bs "b"; bs "a,"] = [bs "b"; bs "a"; []].
Proof. split; [|split]; [eexists; split; [apply merge_made; reflexivity|reflexivity]|eexists; split; [apply merge_made; reflexivity|reflexivity]|reflexivity]. Qed.
(** C30. A reversed comparator sorts upwards. *)
Theorem c30_reverse_refuted : forall p, comp_make p = Ok (CompModel.mkcomp true CPlain) ->
  exists o, merge_new comp_make (bs "sort.comp:" ++ p) = Ok o /\ shows (bs "merge,sort.comp:" ++ p) [bs "a"; bs "b"] (OText (bs "a,b")).
Proof.
  intros p E. assert (M : merge_new comp_make (bs "sort.comp:" ++ p) = Ok (comp_set_m (CompModel.mkcomp true CPlain) (opt_set MSort merge_default))).
  { apply (c30_options [MSort] (Some p)); [exact E|repeat constructor|left; discriminate]. }
  eexists. split; [exact M|]. eexists. split; [apply (merge_made (bs "sort.comp:" ++ p)); exact M|reflexivity].
Qed.

(** C29. max starts from the empty text, so it shows nothing for negative numbers. *)
Theorem c29_max_refuted : forall p, comp_make p = Ok (CompModel.mkcomp false CF64) -> shows (bs "max," ++ p) [bs "-5"; bs "-3"] (OText []).
Proof.
  intros p E. exists (GMax (CompModel.mkcomp false CF64) []). split; [|vm_compute; reflexivity].
  transitivity (rbind (comp_make p) (fun c => Ok (GMax c []))); [reflexivity|rewrite E; reflexivity].
Qed.

(** C65. Rows of aggregates. *)
Variable uni_alpha uni_alnum : N -> bool.
Variable expr_make : bytes -> res lineagg.
Variable print_num : f64 -> bytes.
Notation proper x := (x <> [] /\ well_named (alphabetic uni_alpha) (alphanumeric uni_alnum) x).
Notation shown := (summary exp10 decode is_space is_alnum print_num).
(** [x] replaces column number [i]. *)
Notation replacing i := (fun x => is_replace (la_out x) && is_col (la_agg x) i).

Theorem c65_row_partial : forall v names v', lookup_all v names = Ok v' -> Forall (fun x => proper x) names -> NoDup names ->
  exists os, setup uni_alpha uni_alnum v names = Ok (v', os) /\
    all_ok (ocol_name v' names) os = Ok (map title (filter (fun x => is_prefix (la_out x)) v') ++ names ++ map title (filter (fun x => is_append (la_out x)) v')) /\
    forall t kept added, List.length names <= List.length kept ->
      group_row exp10 decode is_space is_alnum print_num v' os t kept added =
      Ok (map (shown added) (filter (fun x => is_prefix (la_out x)) v') ++
          map (fun i => match find (replacing i) v' with Some x => shown added x | None => fst (text_write t (nth i kept [])) end) (seq 0 (List.length names)) ++
          map (shown added) (filter (fun x => is_append (la_out x)) v')).
Proof.
  intros v names v' L F D. eexists. split; [apply (setup_ok decode); eauto|]. split; [apply (names_ok decode)|].
  intros t kept added B. apply row_ok. auto.
Qed.

(** A column given by its name, or by its number from 1 on. *)
Inductive colref := ByName (n : bytes) | ByNum (k : N).
Definition colref_text (c : colref) : bytes := match c with ByName n => n | ByNum k => print_N k end.
Definition colref_ok (c : colref) : Prop := match c with ByName n => proper n /\ n <> bs "expr" | ByNum k => (1 <= k < 2 ^ 64)%N end.
(** Column [i], counted from 0, of the file is the one meant. *)
Definition refers (names : list bytes) (c : colref) (i : N) : Prop :=
  match c with
  | ByName n => nth_error names (N.to_nat i) = Some n /\ forall j, j < N.to_nat i -> nth_error names j <> Some n
  | ByNum k => (k = i + 1)%N
  end.
Definition colref_nc (c : colref) : named_col := match c with ByName n => mknc n 0 0 | ByNum k => mknc [] (k - 1) 0 end.
Lemma name_comma : forall n, proper n -> ~ In 44%N n.
Proof.
  intros n [_ W] I. pose proof (named_plain uni_alpha uni_alnum n W) as F. rewrite Forall_forall in F. apply F in I. discriminate.
Qed.
Lemma colref_line : forall c g a, colref_ok c -> agg_make comp_make g = Ok a ->
  make_line comp_make uni_alpha uni_alnum expr_make (colref_text c ++ 44%N :: g) = Ok (LAgg (colref_nc c) a).
Proof.
  intros c g a K M. unfold make_line. destruct c as [n|k]; cbn [colref_text colref_ok] in *.
  - destruct K as [P E]. rewrite split_once_app by (apply name_comma; auto).
    assert (B : beq n (bs "expr") = false) by (destruct (beq n (bs "expr")) eqn:Q; auto; apply beq_eq in Q; congruence).
    rewrite B. rewrite from_name by auto. cbn [rbind]. rewrite M. reflexivity.
  - rewrite split_once_app by (apply digits_no; lia).
    assert (B : beq (print_N k) (bs "expr") = false).
    { destruct (beq (print_N k) (bs "expr")) eqn:Q; auto. apply beq_eq in Q. destruct (print_N_head k) as (c & r & H & D & _). rewrite Q in H. injection H as <- _. discriminate. }
    rewrite B. unfold nc_from. pose proof (parse_num uni_alpha uni_alnum k [] K I) as Q. rewrite app_nil_r in Q. rewrite Q. cbn [rbind]. rewrite M. reflexivity.
Qed.

(** C65. An aggregate is asked for by column and aggregator, after the title of the new column if there is one. *)
Theorem c65_spec : forall c g a title, colref_ok c -> agg_make comp_make g = Ok a -> ~ In 44%N title ->
  let spec := colref_text c ++ 44%N :: g in
  let line := LAgg (colref_nc c) a in
  new_replace comp_make uni_alpha uni_alnum expr_make spec = Ok (mkla Replace line) /\
  new_prefix comp_make uni_alpha uni_alnum expr_make (title ++ 44%N :: spec) = Ok (mkla (Prefix title) line) /\
  new_append comp_make uni_alpha uni_alnum expr_make (title ++ 44%N :: spec) = Ok (mkla (Append title) line) /\
  la_new comp_make uni_alpha uni_alnum expr_make (bs "replace," ++ spec) = Ok (mkla Replace line).
Proof.
  intros c g a tt K M C spec line. pose proof (colref_line c g a K M) as L. fold spec line in L.
  assert (R : new_replace comp_make uni_alpha uni_alnum expr_make spec = Ok (mkla Replace line)) by (unfold new_replace, la_new2; rewrite L; reflexivity).
  split; auto. unfold new_prefix, new_append, la_new2. rewrite split_once_app by auto. rewrite L. split; [reflexivity|]. split; [reflexivity|].
  unfold la_new. change (bs "replace," ++ spec) with (bs "replace" ++ 44%N :: spec). rewrite split_once_app by (cbn; intuition discriminate). exact R.
Qed.

(** C65. Looking the columns up in a header leaves the aggregates in their places, each bound to the column it refers to. *)
Theorem c65_lookup : forall names (reqs : list (place * colref * agg)) is,
  Forall2 (fun q i => colref_ok (snd (fst q)) /\ refers names (snd (fst q)) i) reqs is ->
  exists v', lookup_all (map (fun q => mkla (fst (fst q)) (LAgg (colref_nc (snd (fst q))) (snd q))) reqs) names = Ok v' /\
    Forall2 (fun q p => la_out p = fst (fst q) /\ exists src, la_agg p = LAgg src (snd q)) reqs v' /\
    Forall2 (fun i p => forall j, is_col (la_agg p) j = true <-> j = N.to_nat i) is v'.
Proof.
  intros names reqs is. induction 1 as [|[[p c] a] i reqs is [K R] F IH].
  - exists []. repeat split; constructor.
  - destruct IH as (v' & E & A & B). cbn [fst snd] in *.
    assert (L : exists src, nc_lookup (colref_nc c) names = Ok src /\ nc_num src = i).
    { destruct c as [n|k]; cbn [colref_nc colref_ok refers] in *.
      - destruct R as [R U]. destruct K as [[K _] _]. unfold nc_lookup. cbn [nc_name nc_end]. rewrite (lookup_col_at names n (N.to_nat i) 0 R U).
        destruct n as [|x n]; [congruence|]. eexists. split; [reflexivity|]. cbn [nc_num]. lia.
      - eexists. split; [reflexivity|]. cbn [nc_num]. lia. }
    destruct L as (src & L & X). exists (mkla p (LAgg src a) :: v'). cbn [map lookup_all fst snd la_agg line_lookup la_out]. rewrite L. cbn [rbind]. rewrite E. cbn [rbind].
    split; auto. split; constructor; auto; cbn [fst snd la_out la_agg]; eauto.
    intros j. cbn [is_col]. rewrite X, N.eqb_eq. lia.
Qed.

(** C65. The general form of the request fails for prefixes and suffixes: their name is taken for the title. *)
Theorem c65_general_refuted : forall a, la_new comp_make uni_alpha uni_alnum expr_make (bs "append,n,1,count") <> Ok a /\
  la_new comp_make uni_alpha uni_alnum expr_make (bs "prefix,n,1,count") <> Ok a.
Proof. intros a. split; intros E; cbn in E; discriminate. Qed.
(** C65. With repeated column names the later column shows the earlier one's value. *)
Theorem c65_repeat_refuted : exists os, setup uni_alpha uni_alnum [] [bs "a"; bs "a"] = Ok ([], os) /\
  group_row exp10 decode is_space is_alnum print_num [] os (mktm QPlain TAB NL 32) [bs "1"; bs "2"] [] = Ok [bs "1"; bs "1"].
Proof. eexists. split; reflexivity. Qed.
(** C65. A column whose name is no proper name makes the whole setup panic. *)
Theorem c65_name_refuted : setup uni_alpha uni_alnum [] [bs "a"; bs "-"] = Panic.
Proof. reflexivity. Qed.
(** C65. A second replacement of a column is not shown, and no expression ever replaces a column. *)
Theorem c65_second_refuted : forall ev, exists v os,
  setup uni_alpha uni_alnum [mkla Replace (LAgg (mknc (bs "a") 0 0) (GCount 0 0)); mkla Replace (LAgg (mknc (bs "a") 0 0) (GPrefix [] true)); mkla Replace (LExprAgg ev f_zero f_zero)] [bs "a"] = Ok (v, os) /\
  group_row exp10 decode is_space is_alnum print_num v os (mktm QPlain TAB NL 32) [bs "x"] [[bs "x"]] = Ok [print_num (f_of_Z 1)].
Proof. intros ev. eexists. eexists. split; reflexivity. Qed.
End Props.

(** Samples for the examples: ASCII text, two comparators. *)
Definition ex_comp (p : bytes) : res comp_t := (* stands for CompMaker::make_comp, /repo/src/comp.rs:1034 *)
  if beq p (bs "float") then Ok (CompModel.mkcomp false CF64) else if beq p (bs "rev") then Ok (CompModel.mkcomp true CPlain) else Ok (CompModel.mkcomp false CPlain).
Definition ex_space (c : N) : bool := (c <=? 32)%N. (* stands for char::is_whitespace, /repo/src/agg.rs:276 *)
Notation ex_result spec vs := (match agg_make ex_comp (bs spec) with Ok a => Ok (agg_result ex10 (agg_adds ex10 (fun b => b) ex_space byte_alnum a vs)) | _ => Err end).

Example c29_count_ex : ex_result "count,-2" [bs "x"; bs "y"; bs "z"] = Ok (ONum (f_of_Z 1)) /\ ex_result "count" [bs "x"; bs "y"] = Ok (ONum (f_of_Z 2)).
Proof. split; reflexivity. Qed.
Example c29_min_partial_ex : ex_result "min,plain" [bs "b"; bs "a"; bs "c"] = Ok (OText (bs "a")) /\ total_preorder (cp_comp ex10 (CompModel.mkcomp false CPlain)) /\
  first_min (cp_comp ex10 (CompModel.mkcomp false CPlain)) (bs "a") [bs "b"; bs "a"; bs "c"].
Proof.
  split; [reflexivity|]. split; [apply c14_preorder; auto|]. exists [bs "b"], [bs "c"]. split; [reflexivity|]. split; intros v [<- |[]]; [reflexivity|discriminate].
Qed.
Example c29_max_partial_ex : ex_result "max,float" [bs "9"; bs "10"; bs "-1"] = Ok (OText (bs "10")) /\ cp_comp ex10 (CompModel.mkcomp false CF64) [] (bs "9") = Lt.
Proof. split; vm_compute; reflexivity. Qed.
Example c29_max_text_ex : ex_result "maximum,plain" [bs "b"; bs "c"; bs "a"] = Ok (OText (bs "c")).
Proof. reflexivity. Qed.
Example c29_prefix_ex : ex_result "prefix" [bs "abcd"; bs "abx"; bs "abc"] = Ok (OText (bs "ab")).
Proof. reflexivity. Qed.
Example c29_suffix_ex : ex_result "suffix" [bs "one.txt"; bs "three.txt"] = Ok (OText (bs "e.txt")).
Proof. reflexivity. Qed.
Example c29_counters_ex : count_things (fun b => b) ex_space byte_alnum (Swords false) (bs " two  words ") = 2%N /\
  count_things (fun b => b) ex_space byte_alnum (Awords true) (bs "a-b c") = 3%N /\ laid_out (fun c => (32 < c)%N) (bs "ab c") [bs "ab"; bs "c"].
Proof.
  split; [reflexivity|]. split; [reflexivity|]. apply (lo_word _ [] (bs "ab") (bs " c") [bs "c"]); try easy.
  - intros c [<- |[<- |[]]]; reflexivity.
  - apply (lo_word _ [32%N] (bs "c") [] []); try easy; [intros c [<- |[]] H; discriminate H|intros c [<- |[]]; reflexivity|apply lo_end; easy].
Qed.
Example c29_counted_ex : counter_make (bs "swords") = Ok (Swords false) /\ ex_result "asum,swords" [bs "a b"; bs "c"] = Ok (ONum (f_of_Z 3)) /\
  ex_result "amin,swords" [bs "a b"; bs "c"] = Ok (ONum (f_of_Z 1)) /\ ex_result "amax,utf8.chars" [bs "a b"; bs "c"] = Ok (ONum (f_of_Z 3)).
Proof. repeat split; vm_compute; reflexivity. Qed.
Example c29_counter_names_ex : counter_make (bs "utf8.awords") = Ok (Awords true).
Proof. reflexivity. Qed.
Example c29_alias_ex : In (bs "maximum", bs "max") [(bs "minimum", bs "min"); (bs "maximum", bs "max"); (bs "avg", bs "mean"); (bs "aavg", bs "amean")] /\
  ex_result "maximum,plain" [bs "a"; bs "c"; bs "b"] = Ok (OText (bs "c")).
Proof. split; [cbn [In]; auto|vm_compute; reflexivity]. Qed.
Example c29_amean_refuted_ex : ex_result "amean,chars" [bs "abc"; bs "abc"] = Ok (ONum (f_of_Z 6)).
Proof. reflexivity. Qed.
Example c29_sum_mean_partial_ex : whole_text (bs "-12 kg") (-12) /\ ex_result "sum" [bs "10"; bs "-12 kg"; bs "+5"] = Ok (ONum (f_of_Z 3)) /\
  ex_result "mean" [bs "10"; bs "-12 kg"; bs "+5"] = Ok (ONum (f_of_Z 1)) /\ forall k, small (totalZ (firstn k [10; -12; 5]%Z)).
Proof.
  split; [exists SMinus, [49; 50]%N, (bs " kg"); split; [reflexivity|]; split; [apply Forall_forall; intros c [<- |[<- |[]]]; unfold digit_byte; lia|]; split; [discriminate|]; split; [reflexivity|]; split; [cbn; lia|reflexivity]|].
  split; [vm_compute; reflexivity|]. split; [vm_compute; reflexivity|]. intros [|[|[|[|k]]]]; cbn; unfold small; cbn; lia.
Qed.
Example c29_reset_ex : agg_make ex_comp (bs "count,7") = Ok (GCount 7 7) /\ agg_reset (agg_adds ex10 (fun b => b) ex_space byte_alnum (GCount 7 7) [bs "x"]) = GCount 7 7.
Proof. split; reflexivity. Qed.
Example c29_reverse_refuted_ex : ex_comp (bs "rev") = Ok (CompModel.mkcomp true CPlain) /\ ex_result "max,rev" [bs "a"; bs "b"] = Ok (OText (bs "b")).
Proof. split; reflexivity. Qed.
Example c29_max_refuted_ex : ex_comp (bs "float") = Ok (CompModel.mkcomp false CF64) /\ ex_result "max,float" [bs "-5"; bs "-3"] = Ok (OText []).
Proof. split; vm_compute; reflexivity. Qed.

Example c30_merge_partial_ex : ex_result "merge,uniq.min_len:2.max_parts:2" [bs "bb,a"; []; bs "aa"; bs "aa"; bs "cc"] = Ok (OText (bs "bb,aa")) /\
  clean_end 44 [bs "bb,a"; []; bs "aa"; bs "aa"; bs "cc"].
Proof. split; [reflexivity|]. split; [discriminate|right; discriminate]. Qed.
Example c30_distinct_ex : ex_result "merge,D;-.sort.uniq" [bs "b;a"; bs "b"; bs "a"; bs "c"] = Ok (OText (bs "a-b-c")).
Proof. reflexivity. Qed.
Example c30_count_partial_ex : ex_result "merge,sort.uniq.count" [bs "b"; bs "a"; bs "b,a"] = Ok (ONum (f_of_Z 2)).
Proof. reflexivity. Qed.
Example c30_values_ex : (forall v, In v [bs "x;y"; []; bs "z"] -> ~ In 44%N v /\ ~ In NL v) /\ pieces 44 [bs "x;y"; []; bs "z"] = [bs "x;y"; bs "z"].
Proof. split; [|reflexivity]. intros v [<- |[<- |[<- |[]]]]; split; cbn; intuition discriminate. Qed.
Example c30_options_ex : opts_text [MSort; MMax 12] (Some (bs "lower")) = bs "sort.max_len:12.comp:lower" /\
  merge_new ex_comp (bs "sort.max_len:12.comp:lower") = Ok (mkmerge 44 44 (2 ^ 64 - 1) (CompModel.mkcomp false CPlain) true false 0 12 false).
Proof. split; reflexivity. Qed.
Example c30_options_delim_ex : merge_new ex_comp (bs "D|/.uniq") = Ok (mkmerge 124 47 (2 ^ 64 - 1) (CompModel.mkcomp false CPlain) false true 0 (2 ^ 64 - 1) false).
Proof. reflexivity. Qed.
Example c30_reverse_refuted_ex : ex_comp (bs "rev") = Ok (CompModel.mkcomp true CPlain) /\ ex_result "merge,sort.comp:rev" [bs "b"; bs "a"] = Ok (OText (bs "a,b")).
Proof. split; reflexivity. Qed.

(** A printer of small whole numbers, for the examples. *)
Definition ex_print (x : f64) : bytes := if f_eqb x (f_of_Z 2) then bs "2" else bs "?". (* stands for NumFormat::print, /repo/src/num.rs:186 *)
Example c65_row_partial_ex :
  let no := fun _ : N => false in
  let v := [mkla (Append (bs "n")) (LAgg (mknc [] 0 0) (GCount 0 0)); mkla Replace (LAgg (mknc (bs "b") 0 0) (GPrefix [] true))] in
  Forall (fun x => x <> [] /\ well_named (alphabetic no) (alphanumeric no) x) [bs "a"; bs "b"] /\
  match setup no no v [bs "a"; bs "b"] with
  | Ok (v', os) => group_row ex10 (fun b => b) ex_space byte_alnum ex_print v' os (mktm QPlain TAB NL 32) [bs "k"; bs "xy"] [[bs "k"; bs "xy"]; [bs "k"; bs "xz"]] = Ok [bs "k"; bs "x"; bs "2"] /\
                   all_ok (ocol_name v' [bs "a"; bs "b"]) os = Ok [bs "a"; bs "b"; bs "n"]
  | _ => False end.
Proof. cbv zeta. split; [repeat constructor; discriminate|]. vm_compute. auto. Qed.
Example c65_spec_ex : new_append ex_comp (fun _ => false) (fun _ => false) (fun _ => Err) (bs "total,price,sum") = Ok (mkla (Append (bs "total")) (LAgg (mknc (bs "price") 0 0) (GSum f_zero))) /\
  new_prefix ex_comp (fun _ => false) (fun _ => false) (fun _ => Err) (bs "n,3,count") = Ok (mkla (Prefix (bs "n")) (LAgg (mknc [] 2 0) (GCount 0 0))).
Proof. split; reflexivity. Qed.
Example c65_lookup_ex : lookup_all [mkla Replace (LAgg (mknc (bs "b") 0 0) (GCount 0 0))] [bs "a"; bs "b"] = Ok [mkla Replace (LAgg (mknc (bs "b") 1 0) (GCount 0 0))] /\
  refers [bs "a"; bs "b"] (ByName (bs "b")) 1.
Proof. split; [reflexivity|]. split; [reflexivity|]. intros [|j] H; [discriminate|]. exfalso. change (N.to_nat 1) with 1 in H. lia. Qed.
