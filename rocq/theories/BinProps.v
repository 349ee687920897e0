(** C21: binary search. *)
From Coq Require Import String List NArith ZArith Bool Arith Lia Sorting.Sorted.
Open Scope list_scope.
Import ListNotations.
From Verif Require Import Base FloatModel CompModel CompSpec OrdProofs BinModel BinSpec BinProofs SortSpec CompProps.
Close Scope Z_scope.

(** Searching for a key with the comparators of CompModel. *)
Definition seek (exp10 : Z -> f64) (k : linecomp) (v : bytes) : bytes -> comparison := ll_comp_self_line exp10 [k] [v].
Definition ex_data : bytes := bs "aaa" ++ [NL] ++ bs "bbb" ++ [TAB] ++ bs "1" ++ [NL] ++ bs "bbb" ++ [TAB] ++ bs "2" ++ [NL] ++ bs "ccc".
Definition ex_seek : bytes -> comparison := seek ex10 (col_key CPlain 0 TAB) (bs "bbb").

(** The hypotheses can be decided. *)
Definition in_orderb (c : bytes -> comparison) (ls : list bytes) : bool :=
  (fix go l := match l with [] => true | x :: r => forallb (fun y => rank (c x) <=? rank (c y)) r && go r end) ls.
Lemma in_orderb_ok : forall c ls, in_orderb c ls = true -> in_order c ls.
Proof.
  intros c. induction ls as [|x ls IH]; intros H; [constructor|]. cbn in H. apply andb_prop in H as [H1 H2].
  constructor; [apply IH; auto|]. rewrite forallb_forall in H1. apply Forall_forall. intros y Hy. apply Nat.leb_le. auto.
Qed.

(** C21. Lower bound: the search ends, at the first line not less than the value; if that line is equal to the
    value it is returned, otherwise nothing. *)
Theorem c21_lower : forall c data fuel, let ls := cut_lines data in
  in_order c ls -> blanks_ok c ls -> 2 * List.length ls + 1 <= fuel ->
  let p := List.length (concat (filter (above c) ls)) in
  lower_bound_n c data fuel = Some (Ok (p, p + List.length (hd [] (filter (matches c) ls)))).
Proof.
  intros c data fuel ls O B F p. pose proof (lower_bound_ok c ls (cut_ok data) O B fuel F) as K.
  unfold ls in K. rewrite cut_concat in K. exact K.
Qed.

Example c21_lower_ex : in_order ex_seek (cut_lines ex_data) /\ blanks_ok ex_seek (cut_lines ex_data) /\
  lower_bound_n ex_seek ex_data 20 = Some (Ok (4, 10)).
Proof.
  split; [apply in_orderb_ok; vm_compute; reflexivity|]. split; [|vm_compute; reflexivity].
  intros I. vm_compute in I. repeat destruct I as [I|I]; try discriminate. contradiction.
Qed.

(** C21. Upper bound: the start of the first line greater than the value. *)
Theorem c21_upper : forall c data fuel, let ls := cut_lines data in
  in_order c ls -> blanks_ok c ls -> List.length ls <= fuel ->
  upper_bound_n c data fuel =
    Some (Ok (List.length (concat (filter (above c) ls)) + List.length (concat (filter (matches c) ls)))).
Proof.
  intros c data fuel ls O B F. pose proof (upper_bound_ok c ls (cut_ok data) O B fuel F) as K.
  unfold ls in K. rewrite cut_concat in K. exact K.
Qed.

Example c21_upper_ex : upper_bound_n ex_seek ex_data 20 = Some (Ok 16).
Proof. vm_compute. reflexivity. Qed.

(** C21. The equal range: exactly the lines equal to the value. *)
Theorem c21_equal_range : forall c data fuel, let ls := cut_lines data in
  in_order c ls -> blanks_ok c ls -> 2 * List.length ls + 1 <= fuel ->
  exists a b, equal_range_n c data fuel = Some (Ok (a, b)) /\ bslice data a b = concat (filter (matches c) ls) /\
    a = List.length (concat (filter (above c) ls)).
Proof.
  intros c data fuel ls O B F. destruct (equal_range_ok c ls (cut_ok data) O B fuel F) as [K1 K2].
  unfold ls in K1, K2. rewrite cut_concat in K1, K2. eexists. eexists. split; [exact K1|split; [exact K2|reflexivity]].
Qed.

Example c21_equal_range_ex : equal_range_n ex_seek ex_data 20 = Some (Ok (4, 16)) /\
  bslice ex_data 4 16 = bs "bbb" ++ [TAB] ++ bs "1" ++ [NL] ++ bs "bbb" ++ [TAB] ++ bs "2" ++ [NL].
Proof. vm_compute. auto. Qed.

(** C21. The order needed is what sorting gives: lines sorted by any total preorder are in order for every
    value. *)
Theorem c21_sorted : forall cmp v ls, total_preorder cmp -> sorted cmp ls -> in_order (cmp v) ls.
Proof.
  intros cmp v ls (H1 & H2 & H3) S. induction S as [|x ls S IH F]; constructor; auto.
  eapply Forall_impl; [|exact F]. cbn. intros y Hxy.
  pose proof (H3 v x y) as T1. pose proof (H3 x y v Hxy) as T2. rewrite (H2 v x), (H2 v y) in T2.
  destruct (cmp v x) eqn:E1, (cmp v y) eqn:E2; cbn in *; auto; exfalso.
  - apply T1; congruence.
  - apply T2; congruence.
  - apply T1; congruence.
Qed.

Example c21_sorted_ex : sorted (fun x y => ll_comp_lines_n ex10 [col_key CPlain 0 TAB] x y 0 0) (cut_lines ex_data).
Proof. repeat constructor; vm_compute; discriminate. Qed.

(** C21. What the command writes: the matching lines with the wanted number of lines before and after them, each
    with the file name in front when asked, and a newline added at the end if there is none. *)
Theorem c21_output_partial : forall c ctx name data fuel, let ls := cut_lines data in
  in_order c ls -> blanks_ok c ls -> 2 * List.length ls + 1 <= fuel ->
  (filter (fun l => negb (above c l)) ls <> [] \/ (exists q, data = q ++ [NL]) \/ before_non ctx = 0) ->
  let m := filter (matches c) ls in
  let lo := filter (above c) ls in
  let hi := skipn (List.length lo + List.length m) ls in
  let '(b, a) := match m with [] => (before_non ctx, after_non ctx) | _ => (before_match ctx, after_match ctx) end in
  search_main c fuel ctx name data = Some (Ok (shown name (skipn (List.length lo - b) lo ++ m ++ firstn a hi))).
Proof. exact search_main_ok. Qed.

Example c21_output_partial_ex :
  search_main ex_seek 20 (mkctx 1 0 1 0) None ex_data = Some (Ok (ex_data ++ [NL])) /\
  search_main ex_seek 20 (mkctx 0 0 1 0) (Some (bs "f")) ex_data = Some (Ok (
    bs "f" ++ [TAB] ++ bs "bbb" ++ [TAB] ++ bs "1" ++ [NL] ++ bs "f" ++ [TAB] ++ bs "bbb" ++ [TAB] ++ bs "2" ++ [NL] ++
    bs "f" ++ [TAB] ++ bs "ccc" ++ [NL])).
Proof. vm_compute. auto. Qed.

(** C21. A blank line judged greater than the value makes the search run for ever: looking for -1 by number in a
    file of one blank line, which counts as zero. *)
Theorem c21_blank_refuted : exists data v, forall exp10 fuel, let c := seek exp10 (col_key CNumeric 0 TAB) v in
  in_order c (cut_lines data) /\ lower_bound_n c data fuel = None /\ upper_bound_n c data fuel = None.
Proof.
  exists [NL], (bs "-1"). intros exp10 fuel c. split; [repeat constructor|].
  unfold lower_bound_n, upper_bound_n. cbn [List.length].
  assert (P : probe [NL] false 0 1 = Ok (1, 1)) by reflexivity.
  assert (C : c (bslice [NL] 1 1) = Lt) by reflexivity.
  split.
  - induction fuel as [|fuel IH]; [reflexivity|]. cbn [lower_loop]. change (0 <? 1) with true. cbv iota. rewrite P, C. exact IH.
  - induction fuel as [|fuel IH]; [reflexivity|]. cbn [upper_loop]. change (0 <? 1) with true. cbv iota. rewrite P, C. exact IH.
Qed.

(** C21. The header takes part in the search, so a line of a sorted file can be missed. *)
Theorem c21_header_refuted : exists head data v, forall exp10, let c := seek exp10 (col_key CPlain 1 TAB) v in
  starts_with head (bs " CDX") = true /\ in_order c (cut_lines data) /\ filter (matches c) (cut_lines data) <> [] /\
  equal_range_n c (head ++ data) 10 = Some (Ok (0, 0)).
Proof.
  exists (bs " CDX" ++ [TAB] ++ bs "id" ++ [TAB] ++ bs "name" ++ [NL]), (bs "1" ++ [TAB] ++ bs "abc" ++ [NL]), (bs "abc").
  intros exp10 c. split; [reflexivity|]. split; [repeat constructor|]. split; [|reflexivity].
  intros E. cbv in E. discriminate.
Qed.

(** C21. Asking for lines before a value that is beyond the last line fails when the file does not end in a
    newline. *)
Theorem c21_context_refuted : exists data v, forall exp10, let c := seek exp10 (col_key CPlain 0 TAB) v in
  in_order c (cut_lines data) /\ search_main c 10 (mkctx 1 1 1 1) None data = Some Panic.
Proof. exists (bs "aa"), (bs "b"). intros exp10 c. split; [repeat constructor|reflexivity]. Qed.
