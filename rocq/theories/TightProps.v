(** C74 and C75, further: keys that are expressions, the number of reports, empty files. *)
From Coq Require Import String List NArith ZArith Bool Arith Lia.
Open Scope list_scope.
Import ListNotations.
From Verif Require Import Base TextSpec TextModel StrModel StrSpec FloatModel ReadModel ReadSpec HeadModel HdrModel HdrProofs MatchModel MatchSpec CompModel SortModel ToolModel KeyModel KeySpec KeyProofs KeyProps
  OrderModel OrderSpec OrderProofs.
From Verif Require OrderProps StrProofs.
Close Scope Z_scope. Open Scope nat_scope.

(** * Expressions *)
Section Files.
Variables (uni_alpha uni_alnum : N -> bool) (expr : Type) (expr_new : bytes -> res expr) (expr_lookup : expr -> list bytes -> res expr).
Lemma list_set_same {A} (l : list A) n x : n < List.length l -> nth_error (list_set l n x) n = Some x.
Proof. revert n. induction l as [|a l IH]; intros [|n] L; cbn in *; try lia; auto. apply IH. lia. Qed.
Lemma list_set_other {A} (l : list A) n m x : n <> m -> nth_error (list_set l n x) m = nth_error l m.
Proof. revert n m. induction l as [|a l IH]; intros [|n] [|m] L; cbn in *; auto; try lia. Qed.
Lemma list_set_len {A} (l : list A) n x : List.length (list_set l n x) = List.length l.
Proof. revert n. induction l as [|a l IH]; intros [|n]; cbn; auto. Qed.
(** Looking up the files from number [n] on: the entries before stay, those of the files are looked up from the expression as it was read. *)
Lemma expr_lookups rev t e : expr_new t = Ok e -> forall files found n es, Forall2 (fun names x => expr_lookup e names = Ok x) files found ->
  (forall i x, n <= i -> nth_error es i = Some x -> x = e) ->
  exists es', key_lookups expr expr_new expr_lookup (mkkey rev (KExpr t es)) files n = Ok (mkkey rev (KExpr t es')) /\
    (forall i, i < n -> i < List.length es -> nth_error es' i = nth_error es i) /\ forall i x, nth_error found i = Some x -> nth_error es' (n + i) = Some x.
Proof.
  intros E. induction files as [|f files IH]; intros found n es F H; inversion F as [|? x ? found' X F']; subst.
  - exists es. split; [reflexivity|]. split; [auto|]. intros [|i] x D; discriminate.
  - cbn [key_lookups]. unfold key_lookup. cbn [k_cmp k_rev].
    set (es1 := if List.length es <=? n then grow es e n else es).
    assert (E1 : (if List.length es <=? n then rbind (expr_new t) (fun e0 => Ok (grow es e0 n)) else Ok es) = Ok es1) by (unfold es1; destruct (List.length es <=? n); [rewrite E|]; reflexivity).
    rewrite E1. cbn [rbind]. assert (L1 : n < List.length es1).
    { unfold es1. destruct (Nat.leb_spec (List.length es) n); [|auto]. unfold grow. rewrite app_length, repeat_length. lia. }
    assert (A1 : forall i y, n <= i -> nth_error es1 i = Some y -> y = e).
    { intros i y Li D. unfold es1 in D. destruct (Nat.leb_spec (List.length es) n); [|eauto]. unfold grow in D. rewrite nth_error_app2 in D by lia. apply nth_error_In, repeat_spec in D. auto. }
    assert (B1 : forall i, i < n -> i < List.length es -> nth_error es1 i = nth_error es i).
    { intros i Li Le. unfold es1. destruct (List.length es <=? n); [|reflexivity]. unfold grow. apply nth_error_app1. auto. }
    destruct (nth_error es1 n) as [y|] eqn:D; [|apply nth_error_None in D; lia]. rewrite (A1 n y (Nat.le_refl n) D), X. cbn [rbind].
    destruct (IH found' (Datatypes.S n) (list_set es1 n x) F') as (es' & G1 & G2 & G3).
    { intros i z Li D'. rewrite list_set_other in D' by lia. apply (A1 i); [lia|auto]. }
    exists es'. split; [exact G1|]. split.
    + intros i Li Le. assert (Le1 : i < List.length es1) by (apply nth_error_Some; rewrite B1 by auto; apply nth_error_Some; auto). rewrite G2; [|lia|rewrite list_set_len; auto]. rewrite list_set_other by lia. auto.
    + intros [|i] z D'; [|rewrite <- Nat.add_succ_comm; apply G3; auto]. injection D' as <-. rewrite Nat.add_0_r. rewrite G2; [|lia|rewrite list_set_len; auto]. apply list_set_same. auto.
Qed.
End Files.
(** A key that is an expression: lines are compared by its values as numbers, each by the expression looked up in the names of its own file. *)
Theorem c74_expr_files : forall uni_alpha uni_alnum expr expr_new expr_lookup expr_eval expr_eval_line expr_none exp10 cols t k e files found,
  ~ In 44%N cols -> tail_ok t -> picks (tail_words t) k -> same_but_case k (bs "expr") -> expr_new (tail_pattern t) = Ok e ->
  Forall2 (fun names x => expr_lookup e names = Ok x) files found ->
  exists key key' lc rev, make_line_comp uni_alpha uni_alnum expr expr_new (cols ++ tail_text t) = Ok key /\
    key_lookups expr expr_new expr_lookup key files 0 = Ok key' /\ key_line expr expr_eval expr_eval_line expr_none key' = Some lc /\
    (rev = true <-> turned (tail_words t)) /\
    (forall f g x y l r, nth_error found f = Some x -> nth_error found g = Some y -> lc_comp_cols_n exp10 lc l r f g = directed rev (fcmp (expr_eval x l) (expr_eval y r))) /\
    (forall f g x y l r, nth_error found f = Some x -> nth_error found g = Some y -> lc_comp_lines_n exp10 lc l r f g = directed rev (fcmp (expr_eval_line x l TAB) (expr_eval_line y r TAB))).
Proof.
  intros ua un expr en el ee eel eno e10 cols t k e files found NC T P K E F. destruct (c74_expression ua un expr en cols t k NC T P K) as (rev & R & M). rewrite E in M. cbn [rbind] in M.
  destruct (expr_lookups expr en el rev (tail_pattern t) e E files found 0 [e] F) as (es & L & _ & D).
  { intros [|[|i]] x _ H; try discriminate. injection H as <-. reflexivity. }
  exists (mkkey rev (KExpr (tail_pattern t) [e])), (mkkey rev (KExpr (tail_pattern t) es)). eexists. exists rev. split; [exact M|]. split; [exact L|]. split; [reflexivity|]. split; [exact R|].
  cbn [Nat.add] in D. split; intros f g x y l r X Y; cbn [lc_comp_cols_n lc_comp_lines_n]; unfold lc_comp_cols_n, lc_comp_lines_n; cbn; rewrite (D f x X), (D g y Y); destruct rev; reflexivity.
Qed.
Example c74_expr_files_ex : exists key key' lc, make_line_comp none none (bytes * nat) (fun t => Ok (t, 0)) (bs ",expr.rev,a,b") = Ok key /\
  key_lookups (bytes * nat) (fun t => Ok (t, 0)) (fun e names => match names with [] => Err | _ => Ok (fst e, List.length names) end) key [[bs "a"]; [bs "b"; bs "c"]] 0 = Ok key' /\
  k_cmp key' = KExpr (bs "a,b") [(bs "a,b", 1); (bs "a,b", 2)] /\
  key_line (bytes * nat) (fun e _ => f_of_Z (Z.of_nat (snd e))) (fun e _ _ => f_of_Z (Z.of_nat (snd e))) f_zero key' = Some lc /\ lc_comp_lines_n exp_ex lc [] [] 0 1 = Gt.
Proof. do 3 eexists. split; [reflexivity|]. split; [reflexivity|]. split; [reflexivity|]. split; [reflexivity|]. vm_compute. reflexivity. Qed.

(** * Reports *)
(** How many reports the options of sort ask for: one with check, so many with Check, the last counts. *)
Inductive reports_asked : list (bytes * bytes) -> N -> Prop :=
| ra_none : reports_asked [] 1
| ra_check v args : reports_asked (args ++ [(bs "check", v)]) 1
| ra_number n args : (n < 2 ^ 64)%N -> reports_asked (args ++ [(bs "Check", print_N n)]) n
| ra_other m v args n : m <> bs "check" -> m <> bs "Check" -> reports_asked args n -> reports_asked (args ++ [(m, v)]) n.
Theorem c75_reports_asked : forall uni_alpha uni_alnum expr expr_new args n o,
  reports_asked args n -> sort_args uni_alpha uni_alnum expr expr_new (sopts_new expr) args = Ok o -> so_num o = n.
Proof.
  intros ua un expr en args n o R. assert (SN : forall o args a, sort_args ua un expr en o (args ++ [a]) = rbind (sort_args ua un expr en o args) (fun o => sort_arg ua un expr en o a)).
  { clear. intros o args a. revert o. induction args as [|b args IH]; intros o; cbn [app sort_args].
    - cbn [rbind]. destruct (sort_arg ua un expr en o a); reflexivity.
    - destruct (sort_arg ua un expr en o b); cbn [rbind]; auto. }
  revert o. induction R as [|v args|n args L|m v args n N1 N2 R IH]; intros o H.
  - injection H as <-. reflexivity.
  - rewrite SN in H. destruct (sort_args ua un expr en (sopts_new expr) args) as [o1| |]; try discriminate. cbn in H. injection H as <-. reflexivity.
  - rewrite SN in H. destruct (sort_args ua un expr en (sopts_new expr) args) as [o1| |]; try discriminate. cbn [rbind] in H. unfold sort_arg in H. cbv [beq bs] in H. cbn [String.list_ascii_of_string map] in H.
    change (rbind (to_usize_whole (print_N n)) (fun n0 => Ok (mksopts (so_keys o1) (so_unique o1) (so_merge o1) true n0 (so_alt_sort o1) (so_alt_merge o1))) = Ok o) in H.
    rewrite StrProofs.to_usize_whole_print in H by auto. injection H as <-. reflexivity.
  - rewrite SN in H. destruct (sort_args ua un expr en (sopts_new expr) args) as [o1| |]; try discriminate. cbn [rbind] in H. specialize (IH o1 eq_refl). unfold sort_arg in H.
    assert (B : forall x, m <> x -> beq m x = false) by (intros x D; destruct (beq m x) eqn:Q; auto; apply beq_eq in Q; contradiction).
    rewrite (B (bs "check") N1), (B (bs "Check") N2) in H.
    destruct (beq m (bs "key")). { destruct (make_line_comp ua un expr en v); try discriminate. injection H as <-. exact IH. }
    destruct (beq m (bs "alt-merge")). { injection H as <-. exact IH. } destruct (beq m (bs "alt-sort")). { injection H as <-. exact IH. }
    destruct (beq m (bs "merge")). { injection H as <-. exact IH. } destruct (beq m (bs "unique")); [injection H as <-; exact IH|discriminate].
Qed.
Example c75_reports_asked_ex : reports_asked [(bs "check", []); (bs "Check", bs "12"); (bs "unique", [])] 12 /\
  exists o, sort_args none none unit no_expr (sopts_new unit) [(bs "check", []); (bs "Check", bs "12"); (bs "unique", [])] = Ok o.
Proof.
  split; [|eexists; vm_compute; reflexivity]. apply (ra_other (bs "unique") [] [(bs "check", []); (bs "Check", bs "12")]); try discriminate. apply (ra_number 12 [(bs "check", [])]). reflexivity.
Qed.

(** * Empty files *)
(** Without check and merge, an empty file among the others makes no difference, wherever it is. *)
Theorem c75_empty_file : forall utf8_ok name_ok uni_alpha uni_alnum expr expr_new expr_lookup expr_eval expr_eval_line expr_none exp10 push pop cap size md args before f after,
  content (fst f) = [] -> ~ given (bs "merge") args -> ~ given (bs "check") args -> ~ given (bs "Check") args ->
  let sorting := sort_main utf8_ok name_ok uni_alpha uni_alnum expr expr_new expr_lookup expr_eval expr_eval_line expr_none exp10 push pop cap size md args in
  sorting (before ++ f :: after) = sorting (before ++ after).
Proof.
  intros u no ua un expr en el ee eel eno e10 push pop cap size md args before f after C NM N1 N2 sorting. unfold sorting, sort_main.
  assert (OP : forall l o, sort_args ua un expr en o l = sort_args ua un expr en o l) by reflexivity.
  assert (G : forall l o o', ~ given (bs "merge") l -> ~ given (bs "check") l -> ~ given (bs "Check") l -> sort_args ua un expr en o l = Ok o' -> so_check o' = so_check o /\ so_merge o' = so_merge o).
  { clear. induction l as [|[m v] l IH]; intros o o' A1 A2 A3 H; [injection H as <-; auto|]. cbn [sort_args] in H. destruct (sort_arg ua un expr en o (m, v)) as [o1| |] eqn:E; try discriminate. cbn [rbind] in H.
    assert (A4 : ~ given (bs "merge") l) by (intros (w & I); apply A1; exists w; right; auto). assert (A5 : ~ given (bs "check") l) by (intros (w & I); apply A2; exists w; right; auto).
    assert (A6 : ~ given (bs "Check") l) by (intros (w & I); apply A3; exists w; right; auto). destruct (IH o1 o' A4 A5 A6 H) as [-> ->]. unfold sort_arg in E.
    assert (B : forall x, ~ given x ((m, v) :: l) -> beq m x = false) by (intros x D; destruct (beq m x) eqn:Q; auto; apply beq_eq in Q; subst; exfalso; apply D; exists v; left; auto).
    rewrite (B _ A1), (B _ A2), (B _ A3) in E.
    destruct (beq m (bs "key")). { destruct (make_line_comp ua un expr en v); try discriminate. injection E as <-. auto. }
    destruct (beq m (bs "alt-merge")). { injection E as <-. auto. } destruct (beq m (bs "alt-sort")). { injection E as <-. auto. }
    destruct (beq m (bs "unique")); [injection E as <-; auto|discriminate]. }
  destruct (sort_args ua un expr en (sopts_new expr) args) as [o| |] eqn:E; cbn [need]; auto. destruct (G args (sopts_new expr) o NM N1 N2 E) as [-> ->]. cbn [sopts_new so_check so_merge andb].
  match goal with |- need ?x _ = _ => destruct x as [ks| |] end; cbn [need]; auto.
  assert (SL : forall b ks first, sort_lookup expr en el ks first (map (fun f0 => content (fst f0)) (b ++ f :: after)) = sort_lookup expr en el ks first (map (fun f0 => content (fst f0)) (b ++ after))).
  { clear - C. induction b as [|x b IH]; intros ks first; cbn [app map sort_lookup].
    - rewrite C. cbn [first_line]. reflexivity.
    - destruct (fst (first_line (content (fst x)))) as [|c l] eqn:EQ; auto. destruct (first || negb (is_cdx (c :: l))); auto. destruct (make_header (c :: l)) as [hd| |]; cbn [rbind]; auto. destruct (keys_lookup expr en el ks hd 0); cbn [rbind]; auto. }
  rewrite SL. match goal with |- need ?x _ = _ => destruct x as [ks'| |] end; cbn [need]; auto.
  destruct (key_lines expr ee eel eno ks') as [cs|]; auto.
  match goal with |- context [sort_files ?a ?b ?c ?d _ _ _ ?e _ _ _ _ _ _] =>
    assert (SF : forall bf ck so, sort_files a b c d push pop cap e u no size ck so (map (fun f0 => (content (fst f0), snd f0)) (bf ++ f :: after)) = sort_files a b c d push pop cap e u no size ck so (map (fun f0 => (content (fst f0), snd f0)) (bf ++ after))) end.
  { clear - C. induction bf as [|x bf IH]; intros ck so; cbn [app map sort_files].
    - rewrite C. reflexivity.
    - destruct (first_line (content (fst x))) as [[|c l] rest]; auto. destruct (check u no MMatch ck (c :: l)) as [v ck']. destruct v as [keep| |]; cbn [rbind]; auto.
      match goal with |- rbind ?y _ = _ => destruct y as [[w so']| |] end; cbn [rbind]; auto. rewrite IH. reflexivity. }
  rewrite SF. reflexivity.
Qed.
Example c75_empty_file_ex : let fs := map OrderProps.ex_file OrderProps.ex_bodies in content (fst (mksrc [] [], [1])) = [] /\
  OrderProps.ex_main 200 OrderProps.ex_mode [(bs "key", bs "name,lower")] ((mksrc [] [], [1]) :: fs) = OrderProps.ex_main 200 OrderProps.ex_mode [(bs "key", bs "name,lower")] fs.
Proof. split; [reflexivity|vm_compute; reflexivity]. Qed.
