(** Properties C18, C19 and C20: sorting and merging. *)
From Coq Require Import String List NArith ZArith Bool Arith Lia Sorting.Permutation Sorting.Sorted.
Open Scope list_scope.
Import ListNotations.
From Verif Require Import Base TextSpec StrSpec StrModel FloatModel ReadModel HeadModel CompSpec CompModel OrdProofs CompProofs CacheProofs LineProofs
  CompProps SortSpec SortModel SortProofs MergeProofs HeapProofs SorterProofs.

(** Comparison of lines by a list of keys, as the sorter uses it. *)
Definition by_keys (cs : list linecomp) (a b : bytes) : comparison := ll_comp_lines_n ex10 cs a b 0 0.
Definition eq_keys (cs : list linecomp) (a b : bytes) : bool := ll_equal_lines_n ex10 cs a b 0 0.
Definition first_col : list linecomp := [col_key CPlain 0 TAB].
Definition ln (a b : string) : bytes := bs a ++ [TAB] ++ bs b ++ [NL].
Lemma first_col_pre : total_preorder (by_keys first_col).
Proof. apply c17_preorder_cols. repeat constructor. Qed.
Lemma first_col_eq : decides_eq (by_keys first_col) (eq_keys first_col).
Proof. intros a b. apply c17_equal_agrees. Qed.

(** C18. Both ways of sorting give the stable sort of the lines: the alternative one never fails and
    returns exactly what the standard one does. *)
Theorem c18_stable : forall {A} (cmp : A -> A -> comparison) eqv d l, total_preorder cmp ->
  exists out, do_sort cmp eqv false l = out /\ do_sort_lines cmp d l = Ok out /\ stable_sort_of cmp l out.
Proof.
  intros A cmp eqv d l H. exists (std_sort cmp l). split; [auto|]. split; [apply do_sort_lines_std; auto|apply std_sort_stable; auto].
Qed.

Definition ex_lines : list bytes := [ln "b" "1"; ln "a" "2"; ln "b" "0"; ln "c" "5"; ln "a" "1"; ln "b" "7"; ln "a" "3"].
Example c18_stable_ex : total_preorder (by_keys first_col) /\
  do_sort_lines (by_keys first_col) [] ex_lines =
  Ok [ln "a" "2"; ln "a" "1"; ln "a" "3"; ln "b" "1"; ln "b" "0"; ln "b" "7"; ln "c" "5"].
Proof. split; [apply first_col_pre|vm_compute; auto]. Qed.

(** C18. There is only one stable sort. *)
Theorem c18_determined : forall {A} (cmp : A -> A -> comparison) l o1 o2, total_preorder cmp ->
  stable_sort_of cmp l o1 -> stable_sort_of cmp l o2 -> o1 = o2.
Proof. intros A cmp l o1 o2 H. apply stable_unique; auto. Qed.

Example c18_determined_ex : stable_sort_of (by_keys first_col) ex_lines (std_sort (by_keys first_col) ex_lines).
Proof. apply std_sort_stable. apply first_col_pre. Qed.

(** C18. With unique, exactly the first line of every group of equal lines, in increasing order. *)
Theorem c18_unique : forall {A} (cmp : A -> A -> comparison) eqv l, total_preorder cmp -> decides_eq cmp eqv ->
  first_of_groups cmp l (do_sort cmp eqv true l).
Proof. intros A cmp eqv l H E. apply do_sort_unique; auto. Qed.

Example c18_unique_ex : decides_eq (by_keys first_col) (eq_keys first_col) /\
  do_sort (by_keys first_col) (eq_keys first_col) true ex_lines = [ln "a" "2"; ln "b" "1"; ln "c" "5"].
Proof. split; [apply first_col_eq|vm_compute; auto]. Qed.

Lemma fill_get : forall exp10 cs i base, it_get (ll_fill_cache_line exp10 cs i base) base = it_get i base.
Proof.
  intros exp10 [|k ks] i base; auto. cbn [ll_fill_cache_line]. unfold lc_fill_cache_line, l_fill_cache_line, cp_fill.
  destruct (lc_cmp k) as [c|cols c|ev evl]; try apply fill_spec.
  generalize (ulp_to_ulong (evl 0 (it_get i base) (lc_delim k))). intros z.
  destruct (set_complete_spec (set_cache i z)) as (A & B & C & D).
  unfold it_get. rewrite B, C. auto.
Qed.
(** C18. The sorter works on items with precomputed keys. When the keys are safe (see C16) the lines come
    out as if compared directly. *)
Theorem c18_cached_partial : forall exp10 k ks base items, lc_rev k = false ->
  Forall (fun i => it_complete i = false) items ->
  (forall i j, In i items -> In j items -> key_safe exp10 k base (it_get i base) (it_get j base)) ->
  let cs := k :: ks in
  map (fun i => it_get i base) (std_sort (ll_comp_items exp10 cs base) (map (fun i => ll_fill_cache_line exp10 cs i base) items)) =
  std_sort (fun a b => ll_comp_lines_n exp10 cs a b 0 0) (map (fun i => it_get i base) items).
Proof.
  intros exp10 k ks base items Hr Hc Hs cs.
  assert (G : forall i, it_get (ll_fill_cache_line exp10 cs i base) base = it_get i base) by (intros; apply fill_get).
  rewrite (std_sort_map (fun i => it_get i base) (ll_comp_items exp10 cs base) (fun a b => ll_comp_lines_n exp10 cs a b 0 0)).
  - rewrite map_map. f_equal. apply map_ext. intros i. apply G.
  - intros x y Hx Hy. apply in_map_iff in Hx as (i & <- & Hi). apply in_map_iff in Hy as (j & <- & Hj).
    rewrite !G. rewrite Forall_forall in Hc. apply (c16_list_partial exp10 k ks base i j); auto.
Qed.

Definition ex_buf : bytes := concat ex_lines.
Definition ex_items : list item := map (fun n => mkitem (N.of_nat (4 * n)) 4 0) (seq 0 7).
Example c18_cached_partial_ex : map (fun i => it_get i ex_buf) ex_items = ex_lines /\ Forall (fun i => it_complete i = false) ex_items /\
  (forall i j, In i ex_items -> In j ex_items -> key_safe ex10 (col_key CIP 0 TAB) ex_buf (it_get i ex_buf) (it_get j ex_buf)).
Proof. split; [reflexivity|]. split; [repeat constructor|]. intros. exact I. Qed.

(** C18. Numeric keys are not transitive (C15), and the alternative sort then leaves lines out of order. *)
Theorem c18_numeric_refuted : exists l out, do_sort_lines (by_keys [col_key CNumeric 0 TAB]) [] l = Ok out /\
  ~ sorted (by_keys [col_key CNumeric 0 TAB]) out.
Proof.
  exists [bs "1.5" ++ [NL]; bs "1" ++ [NL]; bs "1.2" ++ [NL]]. eexists. split; [vm_compute; reflexivity|].
  intros S. apply StronglySorted_inv in S as [S F]. rewrite Forall_forall in F.
  apply (F (bs "1.2" ++ [NL])); [vm_compute; auto|vm_compute; auto].
Qed.

(** C19. The tree merge of sorted files is the stable sort of all their lines, files in order. *)
Theorem c19_tree : forall {A} (cmp : A -> A -> comparison) eqv rs, total_preorder cmp -> decides_eq cmp eqv -> Forall (sorted cmp) rs ->
  exists out, merge_t1 cmp eqv false rs = Some out /\ stable_sort_of cmp (concat rs) out.
Proof.
  intros A cmp eqv rs H E S. exists (std_sort cmp (concat rs)). split; [apply (merge_t1_spec cmp H eqv E false); auto|apply std_sort_stable; auto].
Qed.

Definition ex_runs : list (list bytes) := [[ln "a" "1"; ln "c" "1"]; []; [ln "a" "2"; ln "a" "3"; ln "b" "2"]; [ln "c" "4"]; [ln "a" "5"]].
Lemma ex_runs_sorted : Forall (sorted (by_keys first_col)) ex_runs.
Proof. unfold ex_runs. repeat constructor; vm_compute; discriminate. Qed.
Example c19_tree_ex : Forall (sorted (by_keys first_col)) ex_runs /\ merge_t1 (by_keys first_col) (eq_keys first_col) false ex_runs =
  Some [ln "a" "1"; ln "a" "2"; ln "a" "3"; ln "a" "5"; ln "b" "2"; ln "c" "1"; ln "c" "4"].
Proof. split; [apply ex_runs_sorted|vm_compute; auto]. Qed.

(** C19. With unique it keeps exactly the first line of each group. *)
Theorem c19_tree_unique : forall {A} (cmp : A -> A -> comparison) eqv rs, total_preorder cmp -> decides_eq cmp eqv -> Forall (sorted cmp) rs ->
  exists out, merge_t1 cmp eqv true rs = Some out /\ first_of_groups cmp (concat rs) out.
Proof.
  intros A cmp eqv rs H E S. exists (do_sort cmp eqv true (concat rs)). split; [apply merge_t1_spec; auto|apply do_sort_unique; auto].
Qed.

Example c19_tree_unique_ex : merge_t1 (by_keys first_col) (eq_keys first_col) true ex_runs = Some [ln "a" "1"; ln "b" "2"; ln "c" "1"].
Proof. vm_compute. auto. Qed.

(** C19. The heap merge, for any priority queue: a sort of all the lines in which the lines of each file
    keep their order; with unique, one line of each group, in increasing order. *)
Theorem c19_heap_partial : forall {A} (cmp : A -> A -> comparison) eqv push pop inv rs, total_preorder cmp -> decides_eq cmp eqv ->
  good_queue push pop inv -> Forall (sorted cmp) rs ->
  exists out uout, merge_t2 cmp eqv push pop false rs = Some out /\ merge_t2 cmp eqv push pop true rs = Some uout /\
    sort_of cmp (concat rs) out /\ Forall (fun f => subseq f out) rs /\
    one_of_groups cmp (concat rs) uout /\ first_of_groups cmp out uout.
Proof.
  intros A cmp eqv push pop inv rs H E Q S. destruct (merge_t2_spec cmp H eqv E push pop inv Q rs S) as (out & M1 & M2 & M3 & M4).
  exists out, (dedup eqv out). split; auto. split; auto. split; auto. split.
  - rewrite Forall_forall. intros f Hf. apply In_nth with (d := []) in Hf as (i & _ & <-). auto.
  - split; [apply one_of_groups_dedup; auto|]. apply dedup_spec; auto. apply M3.
Qed.

(** C19. The binary heap in use is such a queue. *)
Theorem c19_heap_queue : good_queue bh_push bh_pop heap.
Proof. exact bh_good. Qed.

Example c19_heap_partial_ex : merge_t2 (by_keys first_col) (eq_keys first_col) bh_push bh_pop true ex_runs = Some [ln "a" "1"; ln "b" "2"; ln "c" "4"] /\
  merge_t2 (by_keys first_col) (eq_keys first_col) bh_push bh_pop false ex_runs =
  Some [ln "a" "1"; ln "a" "2"; ln "a" "5"; ln "a" "3"; ln "b" "2"; ln "c" "4"; ln "c" "1"].
Proof. vm_compute. auto. Qed.

(** C19. When only identical lines compare equal, the two merges agree, with or without unique. *)
Theorem c19_agree : forall {A} (cmp : A -> A -> comparison) eqv unique rs, total_preorder cmp -> decides_eq cmp eqv ->
  (forall x y, cmp x y = Eq -> x = y) -> Forall (sorted cmp) rs ->
  merge_t1 cmp eqv unique rs = merge_t2 cmp eqv bh_push bh_pop unique rs.
Proof.
  intros A cmp eqv u rs H E AS S. rewrite merge_t1_spec by auto.
  destruct (merge_t2_spec cmp H eqv E bh_push bh_pop heap bh_good rs S) as (out & M1 & M2 & M3 & M4).
  assert (EQ : std_sort cmp (concat rs) = out).
  { apply (sort_of_unique cmp H AS (concat rs)); auto. destruct (std_sort_stable cmp H (concat rs)) as (P1 & P2 & _). split; auto. }
  unfold do_sort. rewrite EQ. destruct u; auto.
Qed.

Definition whole : list linecomp := [mklc false TAB (LWhole (mkcomp false CPlain))].
Lemma whole_pre : total_preorder (by_keys whole).
Proof. apply c17_preorder_cols. repeat constructor. Qed.
Lemma whole_eq : forall x y, by_keys whole x y = Eq -> x = y.
Proof.
  intros x y H. apply (proj2 (c14_plain ex10 x y)).
  unfold by_keys, whole, ll_comp_lines_n, first_diff, lc_comp_lines_n, lc_reverse, l_comp_lines in H. cbn [lc_rev lc_cmp] in H.
  unfold cp_comp in H. cbn [cp_cmpr] in H. destruct (c_comp ex10 CPlain x y); congruence.
Qed.
Example c19_agree_ex : total_preorder (by_keys whole) /\ (forall x y, by_keys whole x y = Eq -> x = y) /\
  merge_t1 (by_keys whole) (eq_keys whole) true [[ln "a" "1"; ln "a" "1"; ln "b" "2"]; [ln "a" "1"; ln "a" "2"]] =
  Some [ln "a" "1"; ln "a" "2"; ln "b" "2"].
Proof. split; [apply whole_pre|]. split; [apply whole_eq|]. vm_compute. auto. Qed.

(** C19. The heap merge is not stable: equal lines of the first file come after those of the second. *)
Theorem c19_heap_stable_refuted : exists rs out, Forall (sorted (by_keys first_col)) rs /\
  merge_t2 (by_keys first_col) (eq_keys first_col) bh_push bh_pop false rs = Some out /\ ~ keeps_ties (by_keys first_col) (concat rs) out.
Proof.
  exists [[ln "a" "1"; ln "a" "2"]; [ln "a" "3"]]. eexists. split; [repeat constructor; vm_compute; discriminate|].
  split; [vm_compute; reflexivity|]. intros K. specialize (K (ln "a" "1")). vm_compute in K. discriminate.
Qed.

Lemma std_sort_sorted : forall {A} (cmp : A -> A -> comparison) l, sorted cmp l -> std_sort cmp l = l.
Proof.
  intros A cmp l. induction l as [|x l IH]; intros S; auto. inversion S as [|? ? S' F]; subst.
  change (std_insert cmp x (std_sort cmp l) = x :: l). rewrite IH by auto. destruct l as [|y l]; auto.
  cbn [std_insert]. inversion F as [|? ? K _]; subst. destruct (cmp x y) eqn:E; auto. congruence.
Qed.

(** C19. Merging files: with the same header on each, the header once and then the merged lines. *)
Theorem c19_files : forall cmp eqv unique alt h bodies, total_preorder cmp -> decides_eq cmp eqv ->
  whole_line h -> is_cdx h = true -> bodies <> [] -> Forall (Forall whole_line) bodies -> Forall (sorted cmp) bodies ->
  exists out, merge_files cmp eqv bh_push bh_pop unique alt (map (fun b => h ++ concat b) bodies) = Some (h ++ concat out) /\
    sorts cmp unique (concat bodies) out /\
    (alt = true -> if unique then first_of_groups cmp (concat bodies) out else stable_sort_of cmp (concat bodies) out).
Proof.
  intros cmp eqv u alt h bodies H E Wh Ch L W S.
  assert (O : forall b, In b bodies -> open_tmp (h ++ concat b) = (Some h, b)).
  { intros b Hb. rewrite Forall_forall in W. specialize (W b Hb). unfold open_tmp.
    change (h ++ concat b) with (concat (h :: b)). rewrite file_lines_concat by (constructor; auto).
    cbn [concat]. unfold is_cdx in Ch. rewrite starts_with_app; auto. }
  assert (EM : map (fun x => snd (open_tmp x)) (map (fun b => h ++ concat b) bodies) = bodies).
  { rewrite map_map. rewrite <- (map_id bodies) at 2. apply map_ext_in. intros b Hb. rewrite O; auto. }
  destruct (merge_t2_spec cmp H eqv E bh_push bh_pop heap bh_good bodies S) as (out & M1 & M2 & M3 & M4).
  destruct (match bodies with [_] => negb u | _ => false end) eqn:ONE.
  { destruct bodies as [|b0 [|b1 bodies]]; try discriminate. destruct u; [discriminate|].
    exists b0. cbn [map merge_files andb negb concat]. rewrite app_nil_r. inversion S as [|? ? S0 _]; subst.
    pose proof (std_sort_stable cmp H b0) as T. rewrite std_sort_sorted in T by auto.
    split; [reflexivity|split; auto]. destruct T as (T1 & T2 & _). split; auto. }
  exists (if alt then do_sort cmp eqv u (concat bodies) else if u then dedup eqv out else out).
  split; [|split].
  - unfold merge_files. rewrite EM. destruct bodies as [|b0 bodies]; [congruence|]. cbn [map].
    replace (match map (fun b => h ++ concat b) bodies with [] => true | _ :: _ => false end && negb u)%bool with false
      by (destruct bodies, u; auto; discriminate).
    rewrite O by (left; auto). cbn [fst].
    destruct alt; [rewrite merge_t1_spec by auto; auto|]. destruct u; rewrite ?M1, ?M2; auto.
  - destruct alt; [apply sorts_do_sort; auto|]. unfold sorts. destruct u; auto. apply one_of_groups_dedup; auto.
  - intros ->. destruct u; [apply do_sort_unique; auto|apply std_sort_stable; auto].
Qed.

Definition ex_head : bytes := bs " CDX" ++ [TAB] ++ bs "key" ++ [TAB] ++ bs "num" ++ [NL].
Lemma no_nl : forall b, forallb (fun c => negb (c =? NL)%N) b = true -> ~ In NL b.
Proof. intros b H I. rewrite forallb_forall in H. specialize (H NL I). discriminate. Qed.
Lemma whole_dec : forall l, (last l 0%N =? NL)%N && forallb (fun c => negb (c =? NL)%N) (removelast l) && negb (Nat.eqb (List.length l) 0) = true -> whole_line l.
Proof.
  intros l H. apply andb_prop in H as [H H3]. apply andb_prop in H as [H1 H2]. exists (removelast l). split; [|apply no_nl; auto].
  apply N.eqb_eq in H1. rewrite <- H1. apply app_removelast_last. destruct l; [discriminate|congruence].
Qed.
Example c19_files_ex : whole_line ex_head /\ is_cdx ex_head = true /\ Forall (Forall whole_line) ex_runs /\
  merge_files (by_keys first_col) (eq_keys first_col) bh_push bh_pop true true (map (fun b => ex_head ++ concat b) ex_runs) =
  Some (ex_head ++ ln "a" "1" ++ ln "b" "2" ++ ln "c" "1").
Proof.
  split; [apply whole_dec; reflexivity|]. split; [reflexivity|]. split; [|vm_compute; reflexivity].
  unfold ex_runs. repeat constructor; apply whole_dec; reflexivity.
Qed.

(** C20. A file without header, however it is read and however small the buffer as long as every line
    is shorter: the output is a sort of the lines; if the whole fits, it is the in-memory result. *)
Theorem c20_one_file : forall cmp eqv unique cap size utf8 name ls text sched, total_preorder cmp -> decides_eq cmp eqv -> 0 < size ->
  text_of ls text -> Forall (fun l => List.length l < cap) ls -> Forall (fun l => is_cdx l = false) ls ->
  exists out, sort_files cmp eqv cmp eqv bh_push bh_pop cap unique utf8 name size ck_new (mkso [] []) [(text, sched)] = Ok (concat out) /\
    (if unique then one_of_groups cmp ls out else sort_of cmp ls out) /\
    (List.length (concat ls) < cap -> out = do_sort cmp eqv unique ls).
Proof.
  intros cmp eqv u cap size utf8 name ls text sched H E Hs T L C.
  exact (sort_plain_file cmp H eqv E bh_push bh_pop heap bh_good cap u utf8 name size Hs ls text sched T L C).
Qed.

Definition yes (b : bytes) : bool := true.
Definition ex_text : bytes := removelast (concat ex_lines).
Example c20_one_file_ex : text_of ex_lines ex_text /\ Forall (fun l => List.length l < 9) ex_lines /\
  sort_files (by_keys whole) (eq_keys whole) (by_keys whole) (eq_keys whole) bh_push bh_pop 9 false yes yes 6 ck_new (mkso [] []) [(ex_text, [1; 5; 2])] =
  Ok (concat [ln "a" "1"; ln "a" "2"; ln "a" "3"; ln "b" "0"; ln "b" "1"; ln "b" "7"; ln "c" "5"]) /\
  sort_files (by_keys first_col) (eq_keys first_col) (by_keys first_col) (eq_keys first_col) bh_push bh_pop 9 true yes yes 6 ck_new (mkso [] []) [(ex_text, [1; 5; 2])] =
  Ok (concat [ln "a" "2"; ln "b" "0"; ln "c" "5"]).
Proof.
  split; [|split; [|vm_compute; auto]].
  - split; [unfold ex_lines; repeat constructor; apply whole_dec; reflexivity|]. right. split; [reflexivity|].
    exists (removelast ex_text), 51%N. split; [reflexivity|discriminate].
  - unfold ex_lines. repeat constructor; vm_compute; lia.
Qed.

(** C20. Any number of files with the same valid header and complete lines: the header once, then a sort
    of all the lines. *)
Theorem c20_header_files : forall cmp eqv unique cap size utf8 name h fs, total_preorder cmp -> decides_eq cmp eqv -> 0 < size ->
  whole_line h -> is_valid_cdx utf8 name MMatch h = Ok true -> fs <> [] -> 0 < cap ->
  let ls := concat (map fst fs) in
  Forall whole_line ls -> Forall (fun l => List.length l < cap) ls -> Forall (fun l => is_cdx l = false) ls ->
  exists out, sort_files cmp eqv cmp eqv bh_push bh_pop cap unique utf8 name size ck_new (mkso [] []) (map (fun '(l, sched) => (h ++ concat l, sched)) fs)
      = Ok (h ++ concat out) /\
    (if unique then one_of_groups cmp ls out else sort_of cmp ls out) /\
    (List.length (concat ls) < cap -> out = do_sort cmp eqv unique ls).
Proof.
  intros cmp eqv u cap size utf8 name h fs H E Hs Wh Vh N Hc ls W L C.
  exact (sort_header_files cmp H eqv E bh_push bh_pop heap bh_good cap u utf8 name size Hs h Wh Vh fs N Hc W L C).
Qed.

Example c20_header_files_ex : is_valid_cdx yes yes MMatch ex_head = Ok true /\
  sort_files (by_keys whole) (eq_keys whole) (by_keys whole) (eq_keys whole) bh_push bh_pop 9 true yes yes 6 ck_new (mkso [] [])
    (map (fun '(l, sched) => (ex_head ++ concat l, sched)) [(ex_lines, [3]); ([], []); ([ln "b" "0"; ln "a" "0"], [2; 2; 2])]) =
  Ok (ex_head ++ concat [ln "a" "0"; ln "a" "1"; ln "a" "2"; ln "a" "3"; ln "b" "0"; ln "b" "1"; ln "b" "7"; ln "c" "5"]).
Proof. vm_compute. auto. Qed.

(** C20. An empty file changes nothing, wherever it stands. *)
Theorem c20_empty_file : forall cmp eqv unique cap size utf8 name sched fs1 fs2 c s,
  let run := sort_files cmp eqv cmp eqv bh_push bh_pop cap unique utf8 name size in
  run c s (fs1 ++ ([], sched) :: fs2) = run c s (fs1 ++ fs2).
Proof.
  intros cmp eqv u cap size utf8 name sched fs1 fs2 c s run. unfold run. clear run. revert c s.
  induction fs1 as [|[f sc] fs1 IH]; intros c s; [reflexivity|]. cbn [app sort_files].
  destruct (first_line f) as [[|x first] rest]; auto.
  destruct (check utf8 name MMatch c (x :: first)) as [v c']. destruct v as [keep| |]; auto. cbn [rbind].
  destruct (add_file cmp eqv cap u size s keep (x :: first) rest sc) as [[w s']| |]; auto. cbn [rbind].
  rewrite IH. auto.
Qed.

Example c20_empty_file_ex :
  sort_files (by_keys whole) (eq_keys whole) (by_keys whole) (eq_keys whole) bh_push bh_pop 9 false yes yes 6 ck_new (mkso [] [])
    [(ex_head ++ ln "b" "1", [3]); ([], []); (ex_head ++ ln "a" "0", [])] = Ok (ex_head ++ ln "a" "0" ++ ln "b" "1").
Proof. vm_compute. auto. Qed.

(** C20. When only identical lines compare equal, the result is the same for every buffer and schedule of
    reads, namely that of the in-memory sort. *)
Theorem c20_buffer_independent : forall cmp eqv unique cap cap' size size' utf8 name ls text sched sched', total_preorder cmp -> decides_eq cmp eqv ->
  (forall x y, cmp x y = Eq -> x = y) -> 0 < size -> 0 < size' ->
  text_of ls text -> Forall (fun l => List.length l < cap) ls -> Forall (fun l => List.length l < cap') ls -> Forall (fun l => is_cdx l = false) ls ->
  sort_files cmp eqv cmp eqv bh_push bh_pop cap unique utf8 name size ck_new (mkso [] []) [(text, sched)] = Ok (concat (do_sort cmp eqv unique ls)) /\
  sort_files cmp eqv cmp eqv bh_push bh_pop cap unique utf8 name size ck_new (mkso [] []) [(text, sched)] =
  sort_files cmp eqv cmp eqv bh_push bh_pop cap' unique utf8 name size' ck_new (mkso [] []) [(text, sched')].
Proof.
  intros cmp eqv u cap cap' size size' utf8 name ls text sched sched' H E AS Hs Hs' T L L' C.
  assert (K : forall cap size sched, 0 < size -> Forall (fun l => List.length l < cap) ls ->
    sort_files cmp eqv cmp eqv bh_push bh_pop cap u utf8 name size ck_new (mkso [] []) [(text, sched)] = Ok (concat (do_sort cmp eqv u ls))).
  { intros cap0 size0 sched0 Hz HL.
    destruct (sort_plain_file cmp H eqv E bh_push bh_pop heap bh_good cap0 u utf8 name size0 Hz ls text sched0 T HL C) as (out & -> & S & _).
    do 2 f_equal. eapply sorts_unique; eauto. apply sorts_do_sort; auto. }
  rewrite !K; auto.
Qed.

Example c20_buffer_independent_ex :
  sort_files (by_keys whole) (eq_keys whole) (by_keys whole) (eq_keys whole) bh_push bh_pop 5 true yes yes 6 ck_new (mkso [] []) [(ex_text, [1; 5; 2])] =
  sort_files (by_keys whole) (eq_keys whole) (by_keys whole) (eq_keys whole) bh_push bh_pop 500 true yes yes 7 ck_new (mkso [] []) [(ex_text, [])].
Proof. vm_compute. auto. Qed.

(** C20. A first line that exactly fills the buffer ends the file: the rest is lost. *)
Theorem c20_exact_fill_refuted : exists text cap, text_of [bs "aaa" ++ [NL]; bs "b" ++ [NL]] text /\ cap = List.length (bs "aaa" ++ [NL]) /\
  sort_files (by_keys whole) (eq_keys whole) (by_keys whole) (eq_keys whole) bh_push bh_pop cap false yes yes 100 ck_new (mkso [] []) [(text, [])] = Ok (bs "aaa" ++ [NL]).
Proof.
  exists (bs "aaa" ++ [NL] ++ bs "b" ++ [NL]), 4. split; [|split; [reflexivity|vm_compute; auto]].
  split; [repeat constructor; apply whole_dec; reflexivity|left; reflexivity].
Qed.

(** C20. Several files without header: the first line of a later file must fit in what is left of the
    buffer, else the sort fails although every line is short. *)
Theorem c20_plain_files_refuted : exists f1 f2 cap, f1 = bs "ab" ++ [NL] ++ bs "cd" ++ [NL] /\ f2 = bs "ef" ++ [NL] /\ cap = 8 /\
  sort_files (by_keys whole) (eq_keys whole) (by_keys whole) (eq_keys whole) bh_push bh_pop cap false yes yes 100 ck_new (mkso [] []) [(f1, []); (f2, [])] = Err.
Proof. do 3 eexists. split; [reflexivity|]. split; [reflexivity|]. split; [reflexivity|]. vm_compute. auto. Qed.

(** C20. A line longer than the buffer: panic. *)
Theorem c20_long_line_refuted : exists text cap, text = bs "a" ++ [NL] ++ bs "bbbbbbbb" ++ [NL] /\ cap = 5 /\
  sort_files (by_keys whole) (eq_keys whole) (by_keys whole) (eq_keys whole) bh_push bh_pop cap false yes yes 100 ck_new (mkso [] []) [(text, [])] = Panic.
Proof. do 2 eexists. split; [reflexivity|]. split; [reflexivity|]. vm_compute. auto. Qed.

(** C20. A data line that looks like a header disappears when it comes first in a temporary file. *)
Theorem c20_header_line_refuted : exists ls text cap, ls = [bs "x" ++ [NL]; bs " CDX" ++ [TAB] ++ bs "z" ++ [NL]; bs "y" ++ [NL]] /\
  text_of ls text /\ Forall (fun l => List.length l < cap) ls /\
  sort_files (by_keys whole) (eq_keys whole) (by_keys whole) (eq_keys whole) bh_push bh_pop cap false yes yes 100 ck_new (mkso [] []) [(text, [])] =
  Ok (bs "x" ++ [NL] ++ bs "y" ++ [NL]).
Proof.
  do 3 eexists. split; [reflexivity|]. split; [split; [repeat constructor; apply whole_dec; reflexivity|left; reflexivity]|].
  split; [instantiate (1 := 8); repeat constructor; vm_compute; lia|]. vm_compute. auto.
Qed.

(** C20. With temporary files the sort is not stable. *)
Theorem c20_stable_refuted : exists ls text cap, text_of ls text /\ Forall (fun l => List.length l < cap) ls /\
  exists out, sort_files (by_keys first_col) (eq_keys first_col) (by_keys first_col) (eq_keys first_col) bh_push bh_pop cap false yes yes 100 ck_new (mkso [] []) [(text, [])] = Ok (concat out) /\
  Forall whole_line out /\ ~ keeps_ties (by_keys first_col) ls out.
Proof.
  exists [ln "a" "1"; ln "a" "2"; ln "a" "3"], (concat [ln "a" "1"; ln "a" "2"; ln "a" "3"]), 9.
  split; [split; [repeat constructor; apply whole_dec; reflexivity|left; reflexivity]|].
  split; [repeat constructor; vm_compute; lia|].
  exists [ln "a" "1"; ln "a" "3"; ln "a" "2"]. split; [vm_compute; reflexivity|]. split; [repeat constructor; apply whole_dec; reflexivity|].
  intros K. specialize (K (ln "a" "1")). vm_compute in K. discriminate.
Qed.

(** C20. With temporary files unique need not keep the first of equal lines. *)
Theorem c20_unique_refuted : exists ls text cap, text_of ls text /\ Forall (fun l => List.length l < cap) ls /\
  exists out, sort_files (by_keys first_col) (eq_keys first_col) (by_keys first_col) (eq_keys first_col) bh_push bh_pop cap true yes yes 6 ck_new (mkso [] []) [(text, [1; 5; 2])] = Ok (concat out) /\
  Forall whole_line out /\ ~ first_of_groups (by_keys first_col) ls out.
Proof.
  exists ex_lines, ex_text, 9. split; [apply c20_one_file_ex|]. split; [apply c20_one_file_ex|].
  exists [ln "a" "2"; ln "b" "0"; ln "c" "5"]. split; [apply c20_one_file_ex|]. split; [repeat constructor; apply whole_dec; reflexivity|].
  intros [_ K]. specialize (K (ln "b" "1")). vm_compute in K. discriminate.
Qed.
