(** C87: the sort tool with keys that compare numbers. *)
From Coq Require Import String List NArith ZArith QArith Bool Arith Lia SpecFloat Sorting.Permutation Sorting.Sorted.
Open Scope list_scope.
Import ListNotations.
From Verif Require Import Base TextModel TextSpec StrModel FloatModel FloatValid MatchModel MatchSpec MatchText ReadModel ReadSpec HeadModel HdrModel HdrProofs CompSpec LineSpec CompModel CompProofs LineProofs
  SortSpec SortModel SortProofs HeapProofs CompProps ReadProofs ToolModel ToolOpen PasteSpec PasteProofs TurnProofs KeyModel KeySpec KeyProofs KeyProps
  OrderModel OrderSpec OrderSame OrderProofs OrderTool OrderProps NumText DecSpec DecProps ValSpec ValSame ValProofs ValDec.
Close Scope Z_scope. Close Scope Q_scope. Open Scope nat_scope.

(** Several files with the same header and any keys, where the values of the keys fit: the header once, then the lines in the order of the keys, of every group one
    with unique. If all lines fit into the buffer, ties keep their order and unique keeps the first. *)
Theorem c87_named : forall exp10 (exp10_ok : forall z, valid64 (exp10 z)) utf8_ok name_ok uni_alpha uni_alnum expr expr_new expr_lookup expr_eval expr_eval_line expr_none cap size md args ws names fs bodies,
  known args -> ~ given (bs "merge") args -> ~ given (bs "check") args -> ~ given (bs "Check") args ->
  values (bs "key") args (map text_of_key ws) -> Forall (wanted_ok (alphabetic uni_alpha) (alphanumeric uni_alnum) [names]) ws -> first_sound ws ->
  (N.of_nat cap < 2 ^ 31)%N -> 0 < cap -> 0 < size -> names_fit utf8_ok name_ok names -> fs <> [] ->
  Forall2 (fun f b => content (fst f) = headline names ++ concat b) fs bodies -> lines_fit cap (concat bodies) -> Forall (line_fits exp10 ws) (concat bodies) ->
  exists out, sort_main utf8_ok name_ok uni_alpha uni_alnum expr expr_new expr_lookup expr_eval expr_eval_line expr_none exp10 bh_push bh_pop cap size md args fs =
      (headline names ++ concat out, Ok tt) /\
    result_of (by_fields exp10 ws) (given (bs "unique") args) (concat bodies) out /\
    (List.length (concat (concat bodies)) < cap -> exact_among (by_fields exp10 ws) (given (bs "unique") args) (concat bodies) out).
Proof. exact val_named. Qed.
Definition by_amount (rev : bool) : wanted := mkw_key [ByName (bs "id")] (Method (if rev then [bs "float"; bs "rev"] else [bs "float"])) (bs "float") CF64 rev (fun _ => 0%N).
Definition by_count : wanted := mkw_key [ByName (bs "id")] (Method [bs "numeric"]) (bs "numeric") CNumeric false (fun _ => 0%N).
Definition by_amount_no (rev : bool) : wanted := mkw_key [ByNum 1] (Method (if rev then [bs "float"; bs "rev"] else [bs "float"])) (bs "float") CF64 rev (fun _ => 0%N).
Definition plain_key (c : keycol) (names : list bytes) : Prop := keycol_ok (alphabetic none) (alphanumeric none) c /\ stands c names 0.
Lemma key_ready : forall c names kind cmp (rev : bool), plain_key c names -> In (kind, cmp) kind_names -> word_ok kind -> existsb (same_word kind) modifiers = false ->
  same_word kind (bs "rev") = false ->
  wanted_ok (alphabetic none) (alphanumeric none) [names] (mkw_key [c] (Method (if rev then [kind; bs "rev"] else [kind])) kind cmp rev (fun _ => 0%N)).
Proof.
  intros c names kind cmp rev [C S] I W M R. unfold wanted_ok. cbn [wk_cols wk_tail wk_kind wk_cmp wk_rev wk_pos]. split; [discriminate|]. split; [constructor; auto|].
  assert (WR : word_ok (bs "rev")) by (vm_compute; intuition discriminate).
  split; [split; [destruct rev; discriminate|destruct rev; repeat constructor; auto; apply WR || apply W]|].
  split; [left; exists [], (if rev then [bs "rev"] else []); split; [destruct rev; reflexivity|split; [apply not_mod; auto|destruct rev; repeat constructor; apply is_mod; reflexivity]]|].
  split; [left; exists kind; split; auto; apply same_refl|]. split; [split|].
  - intros ->. exists (bs "rev"). split; [cbn; auto|apply same_refl].
  - destruct rev; auto. intros (w & [<-|[]] & H). apply same_word_iff in H. congruence.
  - intros f ns E. destruct f as [|f]; [|destruct f; discriminate E]. injection E as <-. exact S.
Qed.
Lemma id_ready : plain_key (ByName (bs "id")) ex_names.
Proof. split; [repeat constructor; try discriminate; vm_compute; auto|split; [reflexivity|intros [|j] L; lia]]. Qed.
Lemma one_ready : plain_key (ByNum 1) [].
Proof. split; [cbn; lia|reflexivity]. Qed.
Lemma by_amount_ok : forall rev, wanted_ok (alphabetic none) (alphanumeric none) [ex_names] (by_amount rev).
Proof. intros rev. apply key_ready; [exact id_ready|cbn; auto 10|vm_compute; intuition discriminate|reflexivity|reflexivity]. Qed.
Lemma by_amount_no_ok : forall rev, wanted_ok (alphabetic none) (alphanumeric none) [[]] (by_amount_no rev).
Proof. intros rev. apply key_ready; [exact one_ready|cbn; auto 10|vm_compute; intuition discriminate|reflexivity|reflexivity]. Qed.
Lemma by_count_ok : wanted_ok (alphabetic none) (alphanumeric none) [ex_names] by_count.
Proof. apply (key_ready _ _ (bs "numeric") CNumeric false); [exact id_ready|cbn; auto 10|vm_compute; intuition discriminate|reflexivity|reflexivity]. Qed.
Definition amounts : list (list bytes) := [[ln "10.5" "a"; ln "9" "b"]; [ln "-2.5" "c"; ln "9.0" "d"; ln "1e2" "e"]].
Lemma floats_fit : forall w ls, wk_cmp w = CF64 ->
  forallb (fun l => match to_f64_lossy exp_ex (value_of w l) with S754_nan | S754_zero true => false | _ => true end) ls = true -> Forall (line_fits exp_ex [w]) ls.
Proof.
  intros w ls C H. apply Forall_forall. intros l I. rewrite forallb_forall in H. specialize (H l I). constructor; [|constructor]. rewrite C. cbn [value_fits].
  split; intros X; rewrite X in H; discriminate H.
Qed.
Definition amount_args : list (bytes * bytes) := [(bs "key", bs "id,float.rev")].
(** Numbers from the largest to the smallest: 9 and 9.0 tie; with a buffer of 20 bytes the lines go through temporary files. *)
Example c87_named_ex : known amount_args /\ values (bs "key") amount_args (map text_of_key [by_amount true]) /\ first_sound [by_amount true] /\ (forall z, valid64 (exp_ex z)) /\
  Forall2 (fun f b => content (fst f) = headline ex_names ++ concat b) (map ex_file amounts) amounts /\ lines_fit 20 (concat amounts) /\ Forall (line_fits exp_ex [by_amount true]) (concat amounts) /\
  ex_main 20 ex_mode amount_args (map ex_file amounts) =
    (headline ex_names ++ ln "1e2" "e" ++ ln "10.5" "a" ++ ln "9.0" "d" ++ ln "9" "b" ++ ln "-2.5" "c", Ok tt) /\
  ex_main 99 ex_mode amount_args (map ex_file amounts) =
    (headline ex_names ++ ln "1e2" "e" ++ ln "10.5" "a" ++ ln "9" "b" ++ ln "9.0" "d" ++ ln "-2.5" "c", Ok tt) /\
  ex_main 99 ex_mode ((bs "unique", []) :: amount_args) (map ex_file amounts) = (headline ex_names ++ ln "1e2" "e" ++ ln "10.5" "a" ++ ln "9" "b" ++ ln "-2.5" "c", Ok tt).
Proof.
  split; [repeat (constructor; [cbn; auto 10|]); constructor|]. split; [apply (val_this (bs "key") (bs "id,float.rev")); constructor|]. split; [right; cbn; auto|]. split; [exact ex10_valid|].
  split; [repeat constructor|]. split; [apply fit_dec; reflexivity|]. split; [apply floats_fit; [reflexivity|vm_compute; reflexivity]|]. split; [vm_compute; reflexivity|]. split; vm_compute; reflexivity.
Qed.
(** Whole numbers: 9 before 10 before 100. *)
Definition counts : list bytes := [ln "100" "x"; ln "9" "y"; ln "-7" "z"; ln "10" "w"].
Example c87_named_ex2 : Forall (line_fits exp_ex [by_count]) counts /\ first_sound [by_count] /\
  ex_main 20 ex_mode [(bs "key", bs "id,numeric")] [ex_file counts] = (headline ex_names ++ ln "-7" "z" ++ ln "9" "y" ++ ln "10" "w" ++ ln "100" "x", Ok tt).
Proof.
  assert (W : forall neg i l, value_of by_count l = (if neg : bool then [45%N] else []) ++ i -> forallb (fun c => (48 <=? c) && (c <=? 57))%N i = true -> ((0 <? digits_val i) && (digits_val i <? 2 ^ 53))%Z = true -> line_fits exp_ex [by_count] l).
  { intros neg i l E D L. apply andb_prop in L as [L1 L2]. apply Z.ltb_lt in L1, L2. constructor; [|constructor]. exists (mknum [] neg i None). split.
    - split; auto. split; [|split; [auto|split; [exact L2|intros _; cbn [n_int]; lia]]]. apply Forall_forall. intros c J. rewrite forallb_forall in D. specialize (D c J). apply andb_prop in D as [X Y]. apply N.leb_le in X, Y. split; auto.
    - rewrite E. unfold numeral_text. cbn [n_blanks n_neg n_int n_frac app]. rewrite app_nil_r. auto. }
  split; [|split; [left; reflexivity|vm_compute; reflexivity]].
  unfold counts. constructor; [apply (W false (bs "100")); reflexivity|]. constructor; [apply (W false (bs "9")); reflexivity|].
  constructor; [apply (W true (bs "7")); reflexivity|]. constructor; [apply (W false (bs "10")); reflexivity|constructor].
Qed.

(** One file without header, its last newline perhaps missing, and keys by number: the same. *)
Theorem c87_plain : forall exp10 (exp10_ok : forall z, valid64 (exp10 z)) utf8_ok name_ok uni_alpha uni_alnum expr expr_new expr_lookup expr_eval expr_eval_line expr_none cap size md args ws s sched ls,
  known args -> ~ given (bs "merge") args -> ~ given (bs "check") args -> ~ given (bs "Check") args ->
  values (bs "key") args (map text_of_key ws) -> Forall (wanted_ok (alphabetic uni_alpha) (alphanumeric uni_alnum) [[]]) ws -> first_sound ws ->
  (N.of_nat cap < 2 ^ 31)%N -> 0 < size -> text_of ls (content s) -> lines_fit cap ls -> Forall (line_fits exp10 ws) ls ->
  exists out, sort_main utf8_ok name_ok uni_alpha uni_alnum expr expr_new expr_lookup expr_eval expr_eval_line expr_none exp10 bh_push bh_pop cap size md args [(s, sched)] =
      (concat out, Ok tt) /\
    result_of (by_fields exp10 ws) (given (bs "unique") args) ls out /\
    (List.length (concat ls) < cap -> exact_among (by_fields exp10 ws) (given (bs "unique") args) ls out).
Proof. exact val_alone. Qed.
Example c87_plain_ex : Forall (line_fits exp_ex [by_amount_no false]) (concat amounts) /\ first_sound [by_amount_no false] /\ values (bs "key") [(bs "key", bs "1,float")] (map text_of_key [by_amount_no false]) /\
  text_of (concat amounts) (concat (concat amounts)) /\
  ex_main 15 ex_mode [(bs "key", bs "1,float")] [(mksrc [] [concat (concat amounts)], [2; 9])] = (ln "-2.5" "c" ++ ln "9" "b" ++ ln "9.0" "d" ++ ln "10.5" "a" ++ ln "1e2" "e", Ok tt).
Proof.
  split; [apply floats_fit; [reflexivity|vm_compute; reflexivity]|]. split; [left; reflexivity|]. split; [apply (val_this (bs "key") (bs "1,float")); constructor|]. split; [|vm_compute; reflexivity].
  split; [|left; reflexivity]. assert (F : lines_fit 20 (concat amounts)) by (apply fit_dec; reflexivity). eapply Forall_impl; [|exact F]. cbn. tauto.
Qed.

(** Merging files that are sorted by such keys. *)
Theorem c87_merge : forall exp10 (exp10_ok : forall z, valid64 (exp10 z)) utf8_ok name_ok uni_alpha uni_alnum expr expr_new expr_lookup expr_eval expr_eval_line expr_none cap size md args ws names fs bodies,
  known args -> given (bs "merge") args -> ~ given (bs "check") args -> ~ given (bs "Check") args ->
  values (bs "key") args (map text_of_key ws) -> Forall (wanted_ok (alphabetic uni_alpha) (alphanumeric uni_alnum) [[]]) ws -> ws <> [] ->
  names_fit utf8_ok name_ok names -> fs <> [] -> Forall2 (fun f b => content (fst f) = headline names ++ concat b) fs bodies ->
  Forall (Forall whole_line) bodies -> Forall (Forall (line_fits exp10 ws)) bodies -> Forall (sorted (by_fields exp10 ws)) bodies ->
  exists out, sort_main utf8_ok name_ok uni_alpha uni_alnum expr expr_new expr_lookup expr_eval expr_eval_line expr_none exp10 bh_push bh_pop cap size md args fs =
      (headline names ++ concat out, Ok tt) /\
    result_of (by_fields exp10 ws) (given (bs "unique") args) (concat bodies) out /\
    (given (bs "alt-merge") args -> exact_among (by_fields exp10 ws) (given (bs "unique") args) (concat bodies) out).
Proof. exact val_merge. Qed.
Fixpoint in_order (cmp : bytes -> bytes -> comparison) (l : list bytes) : bool :=
  match l with x :: r => forallb (fun y => match cmp x y with Gt => false | _ => true end) r && in_order cmp r | [] => true end.
Lemma sorted_dec : forall cmp l, in_order cmp l = true -> sorted cmp l.
Proof.
  intros cmp. unfold sorted. induction l as [|x l IH]; intros H; [constructor|]. cbn [in_order] in H. apply andb_prop in H as [H1 H2]. constructor; auto.
  apply Forall_forall. intros y I. rewrite forallb_forall in H1. specialize (H1 y I). destruct (cmp x y); congruence.
Qed.
Definition sorted_amounts : list (list bytes) := [[ln "10.5" "a"; ln "9" "b"]; [ln "1e2" "e"; ln "9.0" "d"; ln "-2.5" "c"]].
Definition amount_merge : list (bytes * bytes) := [(bs "key", bs "1,float.rev"); (bs "merge", [])].
Example c87_merge_ex : known amount_merge /\ given (bs "merge") amount_merge /\ values (bs "key") amount_merge (map text_of_key [by_amount_no true]) /\
  Forall (Forall (line_fits exp_ex [by_amount_no true])) sorted_amounts /\ Forall (sorted (by_fields exp_ex [by_amount_no true])) sorted_amounts /\
  ex_main 9 ex_mode amount_merge (map ex_file sorted_amounts) = (headline ex_names ++ ln "1e2" "e" ++ ln "10.5" "a" ++ ln "9.0" "d" ++ ln "9" "b" ++ ln "-2.5" "c", Ok tt) /\
  ex_main 9 ex_mode ((bs "alt-merge", []) :: amount_merge) (map ex_file sorted_amounts) = (headline ex_names ++ ln "1e2" "e" ++ ln "10.5" "a" ++ ln "9" "b" ++ ln "9.0" "d" ++ ln "-2.5" "c", Ok tt) /\
  ex_main 9 ex_mode ((bs "alt-merge", []) :: (bs "unique", []) :: amount_merge) (map ex_file sorted_amounts) = (headline ex_names ++ ln "1e2" "e" ++ ln "10.5" "a" ++ ln "9" "b" ++ ln "-2.5" "c", Ok tt).
Proof.
  split; [repeat (constructor; [cbn; auto 10|]); constructor|]. split; [exists []; cbn; auto|]. split; [apply (val_this (bs "key") (bs "1,float.rev")); constructor; [discriminate|constructor]|].
  split; [constructor; [|constructor; [|constructor]]; (apply floats_fit; [reflexivity|vm_compute; reflexivity])|].
  split; [constructor; [|constructor; [|constructor]]; apply sorted_dec; vm_compute; reflexivity|].
  split; [vm_compute; reflexivity|]. split; vm_compute; reflexivity.
Qed.

(** A column of decimals of few digits, sorted as numbers: the lines come out in the order of the numbers, or with rev in the opposite one; with unique one line for
    every number. *)
Theorem c87_decimals : forall exp10 (exp10_ok : forall z, valid64 (exp10 z)) utf8_ok name_ok uni_alpha uni_alnum expr expr_new expr_lookup expr_eval expr_eval_line expr_none cap size md args w K names fs bodies,
  known args -> ~ given (bs "merge") args -> ~ given (bs "check") args -> ~ given (bs "Check") args ->
  values (bs "key") args [text_of_key w] -> wanted_ok (alphabetic uni_alpha) (alphanumeric uni_alnum) [names] w -> wk_cmp w = CF64 ->
  (N.of_nat cap < 2 ^ 31)%N -> 0 < cap -> 0 < size -> names_fit utf8_ok name_ok names -> fs <> [] ->
  Forall2 (fun f b => content (fst f) = headline names ++ concat b) fs bodies -> lines_fit cap (concat bodies) ->
  K <= 14 -> (forall l, In l (concat bodies) -> exists q, reads_as K (value_of w l) q) ->
  exists out, sort_main utf8_ok name_ok uni_alpha uni_alnum expr expr_new expr_lookup expr_eval expr_eval_line expr_none exp10 bh_push bh_pop cap size md args fs =
      (headline names ++ concat out, Ok tt) /\
    (~ given (bs "unique") args -> Permutation (concat bodies) out) /\ StronglySorted (numbers_ok K w) out /\
    (given (bs "unique") args -> (forall y, In y out -> In y (concat bodies)) /\
       StronglySorted (fun a b => forall p q, reads_as K (value_of w a) p -> reads_as K (value_of w b) q -> ~ (p == q)%Q) out /\
       forall x p, In x (concat bodies) -> reads_as K (value_of w x) p -> exists y, In y out /\ reads_as K (value_of w y) p).
Proof.
  intros exp10 X10 utf8_ok name_ok ua un expr en el ee eel eno cap size md args w K names fs bodies H1 H2 H3 H4 H5 H6 H7 H8 H9 H10 H11 H12 H13 H14 HK R.
  destruct (c87_named exp10 X10 utf8_ok name_ok ua un expr en el ee eel eno cap size md args [w] names fs bodies) as (out & E & [A B] & _); auto.
  - right. rewrite H7. cbn. auto.
  - apply Forall_forall. intros l I. destruct (R l I) as (q & Q). constructor; [|constructor]. rewrite H7. eapply reads_value; eauto.
  - exists out. split; [exact E|]. assert (UD : given (bs "unique") args \/ ~ given (bs "unique") args).
    { clear. induction args as [|[n v] args IH]; [right; intros (v & [])|]. destruct (list_eq_dec N.eq_dec n (bs "unique")) as [->|N]; [left; exists v; left; reflexivity|].
      destruct IH as [(u & I)|IH]; [left; exists u; right; auto|right; intros (u & [E|I]); [congruence|apply IH; exists u; auto]]. }
    destruct UD as [U|U].
    + destruct (A U) as (S & I & G). split; [tauto|]. split; [|intros _; split; [auto|split]].
      * apply (sorted_numbers K HK exp10); auto. unfold sorted, strictly_sorted in *. clear - S. induction S as [|x l S IH F]; constructor; auto. eapply Forall_impl; [|exact F]. cbv beta. congruence.
      * unfold strictly_sorted in S. clear - S HK H7. induction S as [|x l S IH F]; constructor; auto. eapply Forall_impl; [|exact F]. cbv beta. intros y L p q Rp Rq Q.
        rewrite (one_key K HK exp10 w x y p q H7 Rp Rq) in L. apply Qeq_alt in Q. rewrite Q in L. destruct (wk_rev w); discriminate L.
      * intros x p Ix Rx. destruct (G x Ix) as (y & Iy & Exy). exists y. split; auto. destruct (R y (I y Iy)) as (q & Ry). rewrite (one_key K HK exp10 w x y p q H7 Rx Ry) in Exy.
        assert (Q : (p == q)%Q) by (apply Qeq_alt; destruct (wk_rev w), (p ?= q)%Q; cbn in Exy; congruence). destruct Ry as (d & rest & D1 & D2 & D3 & D4 & D5). exists d, rest. do 4 (split; [assumption|]). apply (Qeq_trans _ q); assumption.
    + destruct (B U) as (P & S). split; auto. split; [apply (sorted_numbers K HK exp10); auto|tauto].
Qed.

Definition prices : list (list bytes) := [[ln "10.50" "a"; ln "9" "b"]; [ln "-2.5" "c"; ln "9.00" "d"; ln "0.3" "e"]; [ln "0" "f"; ln ".30 Euro" "g"]].
Lemma price_reads : forall d rest, few 2 d -> ends_number rest -> (d_sign d = SMinus -> ~ (dec_frac d == 0)%Q) -> exists q, reads_as 2 (dec_text d ++ rest) q.
Proof. intros d rest F E Z. exists (dec_frac d), d, rest. do 3 (split; [assumption|]). split; [reflexivity|apply Qeq_refl]. Qed.
Example c87_decimals_ex : (forall l, In l (concat prices) -> exists q, reads_as 2 (value_of (by_amount false) l) q) /\ lines_fit 20 (concat prices) /\
  values (bs "key") [(bs "key", bs "id,float")] [text_of_key (by_amount false)] /\
  ex_main 20 ex_mode [(bs "key", bs "id,float")] (map ex_file prices) =
    (headline ex_names ++ ln "-2.5" "c" ++ ln "0" "f" ++ ln ".30 Euro" "g" ++ ln "0.3" "e" ++ ln "9" "b" ++ ln "9.00" "d" ++ ln "10.50" "a", Ok tt).
Proof.
  split; [|split; [apply fit_dec; reflexivity|split; [apply (val_this (bs "key") (bs "id,float")); constructor|vm_compute; reflexivity]]].
  intros l I. cbn [prices concat app In] in I. destruct I as [<-|[<-|[<-|[<-|[<-|[<-|[<-|[]]]]]]]].
  - apply (price_reads (price SNone "10" "50") []); [few_tac|exact I|discriminate].
  - apply (price_reads (mkdec SNone (bs "9") None None None) []); [few_tac|exact I|discriminate].
  - apply (price_reads (price SMinus "2" "5") []); [few_tac|exact I|intros _; discriminate].
  - apply (price_reads (price SNone "9" "00") []); [few_tac|exact I|discriminate].
  - apply (price_reads (price SNone "0" "3") []); [few_tac|exact I|discriminate].
  - apply (price_reads (mkdec SNone (bs "0") None None None) []); [few_tac|exact I|discriminate].
  - apply (price_reads (price SNone "" "30") (bs " Euro")); [few_tac|cbn; lia|discriminate].
Qed.

(** A minus zero: the key compares it equal to zero, but sorting keeps both under unique. Merging the same lines keeps one. *)
Theorem c87_zero_refuted : exists ls out, lines_fit 99 ls /\ by_fields exp_ex [by_amount_no false] (nth 0 ls []) (nth 1 ls []) = Eq /\
  ex_main 99 ex_mode [(bs "key", bs "1,float"); (bs "unique", [])] [(mksrc [] [concat ls], [])] = (concat out, Ok tt) /\ Forall whole_line out /\
  ~ one_of_groups (by_fields exp_ex [by_amount_no false]) ls out /\
  ex_main 99 ex_mode [(bs "key", bs "1,float"); (bs "unique", []); (bs "merge", [])] (map (fun l => ex_file [l]) ls) = (headline ex_names ++ concat (firstn 1 ls), Ok tt).
Proof.
  exists [ln "-0" "a"; ln "0" "b"], [ln "-0" "a"; ln "0" "b"]. assert (F : lines_fit 99 [ln "-0" "a"; ln "0" "b"]) by (apply fit_dec; reflexivity).
  split; auto. split; [vm_compute; reflexivity|]. split; [vm_compute; reflexivity|]. split; [eapply Forall_impl; [|exact F]; cbn; tauto|]. split; [|vm_compute; reflexivity].
  intros (S & _). inversion S as [|? ? ? G]; subst. inversion G as [|? ? L]; subst. revert L. vm_compute. discriminate.
Qed.
