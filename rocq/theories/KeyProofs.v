(** Lemmas on the texts of sort keys. *)
From Coq Require Import String List NArith ZArith Bool Arith Lia.
Open Scope list_scope.
Import ListNotations.
From Verif Require Import Base TextSpec TextModel TextProofs StrSpec StrModel StrProofs FloatModel ReadModel MatchModel MatchSpec MatchText MatchProofs
  HdrModel HdrSpec HdrProofs IpProofs CompModel RegModel LineProofs KeyModel KeySpec.
From Verif Require ColModel ColSpec ColProofs ColCompProofs TurnProofs RawSplitProofs CompProps.
Close Scope Z_scope. Open Scope nat_scope.

Lemma same_word_false : forall a b, same_word a b = false <-> ~ same_but_case a b.
Proof. intros. rewrite <- same_word_iff. destruct (same_word a b); intuition congruence. Qed.
Lemma same_case_sym : forall a b, same_but_case a b -> same_but_case b a.
Proof. intros a b. rewrite !same_case_map. auto. Qed.
Lemma same_case_trans : forall a b c, same_but_case a b -> same_but_case b c -> same_but_case a c.
Proof. intros a b c. rewrite !same_case_map. congruence. Qed.

Lemma modifier_dec : forall w, modifier w \/ ~ modifier w.
Proof.
  intros w. unfold modifier, modifiers.
  destruct (existsb (same_word w) modifiers) eqn:E.
  - left. apply existsb_exists in E as (m & I & E). exists m. split; auto. apply same_word_iff; auto.
  - right. intros (m & I & S). apply same_word_iff in S. assert (existsb (same_word w) modifiers = true) by (apply existsb_exists; eauto). congruence.
Qed.
Lemma add_modifier : forall w x, modifier x -> w_type (add_word w x) = w_type w.
Proof.
  intros w x (m & I & S). apply same_word_iff in S. unfold add_word. destruct (same_word x (bs "rev")) eqn:A; auto. destruct (same_word x (bs "strict")) eqn:B; auto.
  destruct (same_word x (bs "trail")) eqn:C; auto. destruct (same_word x (bs "low")) eqn:D; auto.
  unfold modifiers in I. cbn [In] in I. destruct I as [<-|[<-|[<-|[<-|[]]]]]; congruence.
Qed.
Lemma add_kind : forall w x, ~ modifier x -> w_type (add_word w x) = x.
Proof.
  intros w x N. unfold add_word. assert (H : forall m, In m modifiers -> same_word x m = false).
  { intros m I. apply same_word_false. intros S. apply N. exists m; auto. }
  unfold modifiers in H. rewrite !H by (cbn [In]; auto). reflexivity.
Qed.
Lemma fold_kind : forall ws k w, picks ws k -> (Forall modifier ws -> w_type w = []) -> w_type (fold_left add_word ws w) = k.
Proof.
  intros ws k w P. revert w. destruct P as [(a & b & -> & N & F) | [F ->]].
  - intros w _. rewrite fold_left_app. cbn [fold_left]. remember (add_word (fold_left add_word a w) k) as v. assert (E : w_type v = k) by (subst v; apply add_kind; auto). clear Heqv.
    revert v E. induction F as [|x b H F IH]; intros v E; cbn [fold_left]; auto. apply IH. rewrite add_modifier by auto. auto.
  - intros w E. specialize (E F). revert w E. induction F as [|x ws H F IH]; intros w E; cbn [fold_left]; auto. apply IH. rewrite add_modifier; auto.
Qed.
Lemma add_rev : forall w x, w_rev (add_word w x) = w_rev w || same_word x (bs "rev").
Proof. intros w x. unfold add_word. destruct (same_word x (bs "rev")); [cbn; rewrite orb_true_r; auto|]. rewrite orb_false_r. repeat match goal with |- context [if ?b then _ else _] => destruct b end; reflexivity. Qed.
Lemma fold_rev : forall ws w, w_rev (fold_left add_word ws w) = w_rev w || existsb (fun x => same_word x (bs "rev")) ws.
Proof. induction ws as [|x ws IH]; intros w; cbn [fold_left existsb]; [rewrite orb_false_r; auto|]. rewrite IH, add_rev, orb_assoc. reflexivity. Qed.
Lemma turned_iff : forall ws, existsb (fun x => same_word x (bs "rev")) ws = true <-> turned ws.
Proof.
  intros ws. rewrite existsb_exists. unfold turned. split; intros (w & I & H); exists w; split; auto; apply same_word_iff; auto.
Qed.
Lemma not_modifier_nil : ~ modifier [].
Proof. intros (m & I & S). inversion S; subst. unfold modifiers in I. cbn [In] in I. destruct I as [E|[E|[E|[E|[]]]]]; discriminate E. Qed.

(** Reading a method back from its words. *)
Lemma read_words_join : forall ws, ws <> [] -> Forall word_ok ws -> forall k, picks ws k ->
  w_type (read_words (join 46 ws)) = k /\ (w_rev (read_words (join 46 ws)) = true <-> turned ws).
Proof.
  intros ws NE F k P. unfold read_words. destruct (join 46 ws) as [|c r] eqn:E.
  - assert (W : ws = [[]]). { destruct ws as [|w [|v ws]]; [congruence|cbn in E; subst; auto|]. cbn [join] in E. destruct w; discriminate. }
    subst ws. split.
    + destruct P as [(a & b & E2 & N & G) | [G ->]]; [|reflexivity]. destruct a as [|x a]; [injection E2 as <- <-; reflexivity|]. injection E2 as _ E2. destruct a; discriminate.
    + cbn [words_new w_rev]. split; [discriminate|]. intros (w & [<-|[]] & S). inversion S.
  - rewrite <- E. rewrite <- split_on_split_str, split_on_join; auto.
    + split; [apply fold_kind; auto|]. rewrite fold_rev. cbn [words_new w_rev orb]. apply turned_iff.
    + revert F. apply Forall_impl. intros w H. apply H.
Qed.
Lemma read_tail : forall t k, tail_ok t -> picks (tail_words t) k ->
  exists m, (tail_text t = [] /\ m = [] \/ tail_text t = 44%N :: m /\ tail_pattern t = [] /\ ~ In 44%N m \/ tail_text t = 44%N :: m ++ 44%N :: tail_pattern t /\ ~ In 44%N m) /\
    w_type (read_words m) = k /\ (w_rev (read_words m) = true <-> turned (tail_words t)).
Proof.
  intros t k O P. destruct t as [|ws|ws pat]; cbn [tail_words tail_text tail_pattern tail_ok] in *.
  - exists []. split; [left; auto|]. split.
    + destruct P as [(a & b & E & _) | [_ ->]]; [destruct a; discriminate|reflexivity].
    + split; [discriminate|]. intros (w & [] & _).
  - destruct O as [NE F]. exists (join 46 ws). split; [right; left; split; auto; split; auto|apply read_words_join; auto].
    intros I. apply in_join in I as [E | (f & I & I2)]; [discriminate|]. rewrite Forall_forall in F. destruct (F f I); auto.
  - destruct O as [NE F]. exists (join 46 ws). split; [right; right; split; auto|apply read_words_join; auto].
    intros I. apply in_join in I as [E | (f & I & I2)]; [discriminate|]. rewrite Forall_forall in F. destruct (F f I); auto.
Qed.

(** From a kind to its comparator. *)
Lemma map_lower_bs : forall a b, same_but_case a b -> map lower a = map lower b.
Proof. intros a b. apply same_case_map. Qed.
Definition reg_names : list (bytes * method) :=
  [(bs "length", MCmp CLen); (bs "random", MRandom); (bs "ip", MCmp CIP); (bs "plain", MCmp CPlain);
   (bs "lower", MCmp CLower); (bs "float", MCmp CF64); (bs "numeric", MCmp CNumeric); (bs "equal", MCmp CEqual)].
Lemma comp_reg_is : items comp_reg = reg_names /\ aliases comp_reg = [(bs "num", bs "numeric"); (bs "len", bs "length"); ([], bs "plain")].
Proof. split; reflexivity. Qed.
Lemma line_reg_is : items line_reg = [(bs "expr", MExpr)].
Proof. reflexivity. Qed.
Lemma resolve_long : forall k n, same_but_case k n -> ~ In (List.length n) [0; 3] -> resolve comp_reg k = k.
Proof.
  intros k n S L. unfold resolve. rewrite (proj2 comp_reg_is). assert (E : List.length k = List.length n). { clear L. induction S; cbn; auto. }
  cbn [find fst]. assert (H : forall x, In (List.length x) [0; 3] -> beq x k = false).
  { intros x I. destruct (beq x k) eqn:B; auto. apply beq_eq in B. subst x. rewrite E in I. contradiction. }
  rewrite !H; auto; vm_compute; auto.
Qed.
Lemma lookup_names : forall k n m, In (n, m) reg_names -> same_but_case k n -> lookup comp_style comp_reg k = Some m.
Proof.
  intros k n m I S. apply same_case_map in S. unfold lookup. rewrite (proj1 comp_reg_is). change (exact comp_style) with false. cbv iota.
  assert (W : forall x, same_word k x = beq (map lower n) (map lower x)).
  { intros x. destruct (beq (map lower n) (map lower x)) eqn:B.
    - apply beq_eq in B. apply same_word_iff, same_case_map. congruence.
    - apply same_word_false. rewrite same_case_map. rewrite S. intros E. rewrite E, beq_refl in B. discriminate. }
  unfold reg_names in *. cbn [find fst snd]. rewrite !W. cbn [In] in I.
  repeat (destruct I as [I|I]; [injection I as <- <-; reflexivity|]). destruct I.
Qed.
Lemma line_names : forall k, ~ same_but_case k (bs "expr") -> lookup comp_style line_reg k = None.
Proof. intros k N. unfold lookup. rewrite line_reg_is. change (exact comp_style) with false. cbv iota. cbn [find fst]. apply same_word_false in N. rewrite N. reflexivity. Qed.
Lemma kind_found : forall k c, kind_of k c -> comp_method k = Some (MCmp c) /\ line_method k = None.
Proof.
  intros k c [(n & I & S) | I]; unfold comp_method, line_method.
  - assert (L : ~ In (List.length n) [0; 3] \/ n = bs "ip"). { unfold kind_names in I. cbn [In] in I. repeat (destruct I as [I|I]; [injection I as <- <-; vm_compute; intuition discriminate|]). destruct I. }
    assert (R : resolve comp_reg k = k).
    { destruct L as [L | ->]; [eapply resolve_long; eauto|]. apply resolve_long with (n := bs "ip"); auto. vm_compute. intuition discriminate. }
    rewrite R. split.
    + apply lookup_names with n; auto. unfold kind_names in I. cbn [In] in I. unfold reg_names. cbn [In].
      repeat (destruct I as [I|I]; [injection I as <- <-; auto 12|]). destruct I.
    + apply line_names. intros E. assert (E2 : map lower n = map lower (bs "expr")). { apply same_case_map in S, E. congruence. }
      unfold kind_names in I. cbn [In] in I. repeat (destruct I as [I|I]; [injection I as <- <-; discriminate E2|]). destruct I.
  - unfold short_names in I. cbn [In] in I. repeat (destruct I as [I|I]; [injection I as <- <-; split; reflexivity|]). destruct I.
Qed.
Lemma kind_missing : forall k, no_kind k -> comp_method k = None /\ line_method k = None.
Proof.
  intros k [A B]. unfold comp_method, line_method. assert (R : resolve comp_reg k = k).
  { unfold resolve. rewrite (proj2 comp_reg_is). cbn [find fst]. assert (H : forall x, In x (map fst short_names) -> beq x k = false).
    { intros x I. destruct (beq x k) eqn:E; auto. apply beq_eq in E. subst. contradiction. }
    rewrite !H by (unfold short_names; cbn [map fst In]; auto). reflexivity. }
  rewrite R. assert (H : forall n, In n (bs "expr" :: bs "random" :: map fst kind_names) -> same_word k n = false). { intros n I. apply same_word_false. auto. }
  split; [|apply line_names, B; left; auto]. unfold lookup. rewrite (proj1 comp_reg_is). change (exact comp_style) with false. cbv iota. unfold reg_names. cbn [find fst].
  rewrite !H by (unfold kind_names; cbn [map fst In]; auto 12). reflexivity.
Qed.
Lemma expr_found : forall k, same_but_case k (bs "expr") -> line_method k = Some MExpr.
Proof.
  intros k S. unfold line_method. rewrite (resolve_long k (bs "expr")); auto; [|vm_compute; intuition discriminate].
  unfold lookup. rewrite line_reg_is. change (exact comp_style) with false. cbv iota. cbn [find fst]. apply same_word_iff in S. rewrite S. reflexivity.
Qed.

Section Key.
Variable uni_alpha uni_alnum : N -> bool.
Notation letter := (alphabetic uni_alpha).
Notation alnum := (alphanumeric uni_alnum).
Variable expr : Type.
Variable expr_new : bytes -> res expr.
Variable expr_lookup : expr -> list bytes -> res expr.
Notation read := (make_line_comp uni_alpha uni_alnum expr expr_new).
Notation parts := (make_line_parts uni_alpha uni_alnum expr expr_new).
Notation col_ok := (keycol_ok letter alnum).

Lemma read_text : forall cols t k, ~ In 44%N cols -> tail_ok t -> picks (tail_words t) k ->
  exists m, read (cols ++ tail_text t) = parts cols m (tail_pattern t) /\ w_type (read_words m) = k /\ (w_rev (read_words m) = true <-> turned (tail_words t)).
Proof.
  intros cols t k N O P. destruct (read_tail t k O P) as (m & F & W). exists m. split; auto. unfold make_line_comp.
  destruct F as [[E ->] | [(E & EP & M) | [E M]]]; rewrite E.
  - rewrite app_nil_r, split_once_none by auto. destruct t; [reflexivity|discriminate|discriminate].
  - rewrite split_once_app, split_once_none, EP by auto. reflexivity.
  - rewrite split_once_app, split_once_app by auto. reflexivity.
Qed.

Definition col_of (c : keycol) : named_col := match c with ByName s => mknc s 0 0 | ByNum n => mknc [] (n - 1) 0 end.
Lemma key_col_ok : forall c, col_ok c -> key_col uni_alpha uni_alnum (keycol_text c) = Ok (col_of c).
Proof.
  intros c H. unfold key_col. destruct c as [s|n]; cbn [keycol_text col_of] in *.
  - destruct H as [NE W]. rewrite <- (app_nil_r s) at 1. rewrite ColCompProofs.parse_name by (auto; cbn; auto). reflexivity.
  - rewrite <- (app_nil_r (print_N n)). rewrite ColCompProofs.parse_num by (auto; cbn; auto). reflexivity.
Qed.
Lemma key_cols_ok : forall cols, Forall col_ok cols -> key_cols uni_alpha uni_alnum (map keycol_text cols) = Ok (map col_of cols).
Proof. induction 1 as [|c cols H F IH]; cbn [map key_cols]; auto. rewrite key_col_ok by auto. cbn [rbind]. rewrite IH. reflexivity. Qed.
Lemma named_chars : forall s x, well_named letter alnum s -> In x s -> letter x = true \/ alnum x = true \/ x = 95%N.
Proof. intros [|c r] x W I; [destruct I|]. destruct W as [L F], I as [<-|I]; auto. rewrite Forall_forall in F. right. apply F; auto. Qed.
Lemma col_plain : forall c, col_ok c -> keycol_text c <> [] /\ ~ In 46%N (keycol_text c) /\ ~ In 44%N (keycol_text c).
Proof.
  intros [s|n] H; cbn [keycol_text keycol_ok] in *.
  - destruct H as [NE W]. split; auto. split; intros I; destruct (named_chars s _ W I) as [E|[E|E]]; discriminate E.
  - split; [destruct (print_N_head n) as (c & r & E2 & _); congruence|]. split; apply print_no; lia.
Qed.
Lemma cols_plain : forall cols, Forall col_ok cols -> ~ In 44%N (join 46 (map keycol_text cols)) /\
  (cols <> [] -> join 46 (map keycol_text cols) <> [] /\ split_str 46 (join 46 (map keycol_text cols)) = map keycol_text cols).
Proof.
  intros cols F. split.
  - intros I. apply in_join in I as [E | (f & I & I2)]; [discriminate|]. apply in_map_iff in I as (c & <- & I). rewrite Forall_forall in F.
    destruct (col_plain c (F c I)) as (_ & _ & N). auto.
  - intros NE. split.
    + destruct F as [|c cols H F]; [congruence|]. destruct (col_plain c H) as (N & _). cbn [map join]. destruct cols; cbn [map]; auto.
      destruct (keycol_text c); [congruence|discriminate].
    + rewrite <- split_on_split_str. apply split_on_join; [destruct cols; [congruence|discriminate]|].
      apply Forall_forall. intros x I. apply in_map_iff in I as (c & <- & I). rewrite Forall_forall in F. apply col_plain; auto.
Qed.
Definition key_of (cols : list keycol) (m : method) : key_cmp expr := match cols with [] => KWhole m | _ => KCol (map col_of cols) m end.
Lemma reads_gen : forall cols t k, Forall col_ok cols -> tail_ok t -> picks (tail_words t) k -> line_method k = None ->
  exists rev, (rev = true <-> turned (tail_words t)) /\
    read (key_text cols t) = match comp_method k with Some m => Ok (mkkey rev (key_of cols m)) | None => Err end.
Proof.
  intros cols t k F O P L. destruct (cols_plain cols F) as [N S]. destruct (read_text _ t k N O P) as (m & R & W & T). exists (w_rev (read_words m)). split; auto.
  unfold key_text. rewrite R. unfold make_line_parts. rewrite W, L. destruct (comp_method k) as [x|]; auto. destruct cols as [|c cols]; [reflexivity|].
  destruct (S ltac:(discriminate)) as [NE SP]. destruct (join 46 (map keycol_text (c :: cols))) eqn:J; [congruence|]. rewrite SP, key_cols_ok by auto. reflexivity.
Qed.
Lemma reads : forall cols t k c, Forall col_ok cols -> tail_ok t -> picks (tail_words t) k -> kind_of k c ->
  exists rev, (rev = true <-> turned (tail_words t)) /\ read (key_text cols t) = Ok (mkkey rev (key_of cols (MCmp c))).
Proof.
  intros cols t k c F O P K. destruct (kind_found k c K) as [A B]. destruct (reads_gen cols t k F O P B) as (rev & T & R). rewrite A in R. eauto.
Qed.
Lemma unknown_key : forall cols t k, ~ In 44%N cols -> tail_ok t -> picks (tail_words t) k -> no_kind k -> read (cols ++ tail_text t) = Err.
Proof.
  intros cols t k N O P K. destruct (kind_missing k K) as [A B]. destruct (read_text _ t k N O P) as (m & R & W & T). rewrite R.
  unfold make_line_parts. rewrite W, A, B. reflexivity.
Qed.
Lemma expr_key : forall cols t k, ~ In 44%N cols -> tail_ok t -> picks (tail_words t) k -> same_but_case k (bs "expr") ->
  exists rev, (rev = true <-> turned (tail_words t)) /\
  read (cols ++ tail_text t) = rbind (expr_new (tail_pattern t)) (fun e => Ok (mkkey rev (KExpr (tail_pattern t) [e]))).
Proof.
  intros cols t k N O P K. destruct (read_text _ t k N O P) as (m & R & W & T). exists (w_rev (read_words m)). split; auto. rewrite R.
  unfold make_line_parts. rewrite W, expr_found by auto. reflexivity.
Qed.

(** Looking the columns up. *)
Definition of_col (c : keycol) (x : named_col) : Prop :=
  match c with ByName s => s <> [] /\ ColModel.nc_name x = s /\ ColModel.nc_end x = 0%N | ByNum n => x = mknc [] (n - 1) 0 end.
Lemma of_col_of : forall c, col_ok c -> of_col c (col_of c).
Proof. intros [s|n] H; cbn in *; auto. destruct H; auto. Qed.
Lemma lookup_of : forall c x names i, of_col c x -> stands c names i -> exists y, nc_lookup x names = Ok y /\ of_col c y /\ nc_num y = i.
Proof.
  intros [s|n] x names i H T; cbn [of_col stands] in *; unfold ColModel.nc_lookup.
  - destruct H as (NE & E & Z). destruct T as [A B]. rewrite E. destruct s as [|a s]; [congruence|]. rewrite (ColProofs.lookup_col_at names (a :: s) (N.to_nat i) 0) by auto.
    rewrite N2Nat.id. cbn [rbind]. eexists. split; [reflexivity|]. cbn [of_col ColModel.nc_name ColModel.nc_end ColModel.nc_num]. split; [split; auto|lia].
  - subst. cbn [ColModel.nc_name ColModel.nc_end]. eexists. split; [reflexivity|]. split; reflexivity.
Qed.
Section Look.
Variable cols : list keycol.
Hypothesis some : cols <> [].
Variable pos : nat -> N.
Definition placed (cs : list named_col) (n : nat) : Prop :=
  List.length cs = Nat.max (List.length cols) n /\ forall i, i < List.length cs -> of_col (for_file cols i) (nth i cs nc_new) /\ (i < n -> nc_num (nth i cs nc_new) = pos i).
Lemma placed_start : Forall col_ok cols -> placed (map col_of cols) 0.
Proof.
  intros F. split; [rewrite map_length; lia|]. rewrite map_length. intros i L. split; [|lia]. unfold for_file. rewrite Nat.min_l by lia.
  rewrite (nth_indep _ nc_new (col_of (ByNum 1))) by (rewrite map_length; auto). rewrite map_nth. apply of_col_of. rewrite Forall_forall in F. apply F, nth_In; auto.
Qed.
Lemma nth_list_set : forall {A} (l : list A) i j x d, i < List.length l -> nth j (list_set l i x) d = if Nat.eqb i j then x else nth j l d.
Proof.
  intros A l i j x d L. destruct (Nat.eqb_spec i j) as [->|N].
  - apply nth_error_nth, ReadProofs.list_set_eq; auto.
  - rewrite <- !nth_default_eq. unfold nth_default. rewrite ReadProofs.list_set_neq; auto.
Qed.
Lemma last_nth : forall {A} (l : list A) d, last l d = nth (List.length l - 1) l d.
Proof. induction l as [|x [|y l] IH]; intros d; auto. change (last (x :: y :: l) d) with (last (y :: l) d). rewrite IH. cbn [List.length]. replace (S (S (List.length l)) - 1) with (S (S (List.length l) - 1)) by lia. reflexivity. Qed.
Lemma placed_step : forall cs n names rev m, placed cs n -> stands (for_file cols n) names (pos n) ->
  exists cs', key_lookup expr expr_new expr_lookup (mkkey rev (KCol cs m)) names n = Ok (mkkey rev (KCol cs' m)) /\ placed cs' (S n).
Proof.
  intros cs n names rev m [L P] T. assert (L0 : 1 <= List.length cols) by (destruct cols; [congruence|cbn; lia]).
  set (g := grow cs (last cs nc_new) n). assert (LG : List.length g = Nat.max (List.length cols) (S n)). { unfold g, grow. rewrite app_length, repeat_length. lia. }
  assert (G : forall i, i < List.length g -> of_col (for_file cols i) (nth i g nc_new) /\ (i < n -> nc_num (nth i g nc_new) = pos i)).
  { intros i H. unfold g, grow. destruct (Nat.lt_ge_cases i (List.length cs)) as [B|B]; [rewrite app_nth1 by auto; apply P; auto|].
    rewrite app_nth2 by auto. assert (i = n /\ n = List.length cs) as [-> E] by lia. split; [|lia].
    replace (nth (n - List.length cs) (repeat (last cs nc_new) (S n - List.length cs)) nc_new) with (last cs nc_new).
    - rewrite last_nth. assert (F : for_file cols n = for_file cols (List.length cs - 1)) by (unfold for_file; f_equal; lia). rewrite F. apply P. lia.
    - replace (S n - List.length cs) with 1 by lia. replace (n - List.length cs) with 0 by lia. reflexivity. }
  destruct (G n) as [G1 _]; [lia|]. destruct (lookup_of _ _ names (pos n) G1 T) as (y & Y1 & Y2 & Y3).
  exists (list_set g n y). split.
  - unfold key_lookup. cbn [k_cmp k_rev]. fold g. rewrite Y1. reflexivity.
  - split; [rewrite ReadProofs.list_set_length; auto|]. rewrite ReadProofs.list_set_length. intros i H. rewrite nth_list_set by lia.
    destruct (Nat.eqb_spec n i) as [<-|N]; [auto|]. destruct (G i H). split; auto. intros. apply H1. lia.
Qed.
Lemma placed_all : forall files cs n rev m, placed cs n ->
  (forall f names, nth_error files f = Some names -> stands (for_file cols (n + f)) names (pos (n + f))) ->
  exists cs', key_lookups expr expr_new expr_lookup (mkkey rev (KCol cs m)) files n = Ok (mkkey rev (KCol cs' m)) /\ placed cs' (n + List.length files).
Proof.
  induction files as [|names files IH]; intros cs n rev m P T; cbn [key_lookups].
  - exists cs. rewrite Nat.add_0_r. auto.
  - destruct (placed_step cs n names rev m P) as (c1 & E1 & P1). { specialize (T 0 names eq_refl). rewrite Nat.add_0_r in T. exact T. }
    rewrite E1. cbn [rbind]. destruct (IH c1 (S n) rev m P1) as (c2 & E2 & P2). { intros f ns Hf. specialize (T (S f) ns Hf). rewrite <- Nat.add_succ_comm in T. exact T. }
    exists c2. split; auto. cbn [List.length]. rewrite <- Nat.add_succ_comm. exact P2.
Qed.
End Look.

(** Columns that are none. *)
Lemma key_col_bad : forall x, no_col letter alnum x -> key_col uni_alpha uni_alnum x = Err.
Proof.
  intros [|ch r] H; [reflexivity|]. unfold key_col. destruct H as [[L D] | (L & s & j & y & E & NE & W & J1 & J2)].
  - unfold ColModel.nc_parse. destruct (is_digit ch && negb (ch =? 48)%N) eqn:B.
    + exfalso. apply andb_true_iff in B as [B1 B2]. unfold is_digit in B1. apply andb_true_iff in B1 as [B1 B3]. apply N.leb_le in B1, B3. apply negb_true_iff, N.eqb_neq in B2. lia.
    + rewrite L. reflexivity.
  - rewrite E. rewrite ColCompProofs.parse_name by (auto; cbn; auto). reflexivity.
Qed.
Lemma key_cols_bad : forall a x b, Forall col_ok a -> no_col letter alnum x -> key_cols uni_alpha uni_alnum (map keycol_text a ++ x :: b) = Err.
Proof.
  intros a x b F H. induction F as [|c a C F IH]; cbn [map app key_cols].
  - rewrite key_col_bad by auto. reflexivity.
  - rewrite key_col_ok by auto. cbn [rbind]. rewrite IH. reflexivity.
Qed.
Lemma bad_column : forall a x b t k c, Forall col_ok a -> no_col letter alnum x -> Forall word_ok (x :: b) -> (a <> [] \/ x <> [] \/ b <> []) ->
  tail_ok t -> picks (tail_words t) k -> kind_of k c -> read (join 46 (map keycol_text a ++ x :: b) ++ tail_text t) = Err.
Proof.
  intros a x b t k c F H W NE O P K. assert (W2 : Forall word_ok (map keycol_text a ++ x :: b)).
  { apply Forall_app. split; auto. apply Forall_forall. intros y I. apply in_map_iff in I as (z & <- & I). rewrite Forall_forall in F. apply col_plain; auto. }
  assert (N : ~ In 44%N (join 46 (map keycol_text a ++ x :: b))).
  { intros I. apply in_join in I as [E | (f & I & I2)]; [discriminate|]. rewrite Forall_forall in W2. destruct (W2 f I); auto. }
  destruct (read_text _ t k N O P) as (m & R & W3 & T). rewrite R. unfold make_line_parts. rewrite W3. destruct (kind_found k c K) as [A B]. rewrite A, B.
  destruct (join 46 (map keycol_text a ++ x :: b)) eqn:J.
  - exfalso. destruct a as [|y a]; cbn [map app] in J.
    + destruct b as [|z b]; cbn [join] in J; [subst; intuition congruence|]. destruct x; discriminate.
    + inversion F; subst. destruct (col_plain y H2) as (Y & _). destruct (map keycol_text a ++ x :: b) eqn:Q; [destruct a; discriminate|].
      cbn [join] in J. destruct (keycol_text y); [congruence|discriminate].
  - rewrite <- J, <- split_on_split_str, split_on_join, key_cols_bad by (auto; try (destruct a; discriminate); revert W2; apply Forall_impl; intros ? X; apply X). reflexivity.
Qed.

(** A name the file lacks. *)
Lemma missing : forall cols t k c files f names s, cols <> [] -> Forall col_ok cols -> tail_ok t -> picks (tail_words t) k -> kind_of k c ->
  nth_error files f = Some names -> for_file cols f = ByName s -> ~ In s names ->
  (forall g ns, g < f -> nth_error files g = Some ns -> exists i, stands (for_file cols g) ns i) ->
  exists key, read (key_text cols t) = Ok key /\ key_lookups expr expr_new expr_lookup key files 0 = Err.
Proof.
  intros cols t k c files f names s NE F O P K HF C M G. destruct (reads cols t k c F O P K) as (rev & R1 & R2).
  assert (KO : key_of cols (MCmp c) = KCol (map col_of cols) (MCmp c)) by (destruct cols; [congruence|reflexivity]). rewrite KO in R2.
  eexists. split; [exact R2|]. set (pos := fun g : nat => match nc_lookup (col_of (for_file cols g)) (nth g files []) with Ok x => nc_num x | _ => 0%N end).
  pose proof (placed_start cols pos F) as P0. revert P0. replace files with (firstn f files ++ names :: skipn (S f) files).
  2:{ clear -HF. revert f HF. induction files as [|x files IH]; intros [|f] H; [discriminate|discriminate|injection H as ->; reflexivity|]. cbn [firstn skipn app]. f_equal. apply IH; auto. }
  intros P0. assert (LF : List.length (firstn f files) = f). { apply firstn_length_le. apply Nat.lt_le_incl, nth_error_Some. congruence. }
  assert (SPLIT : forall a b key n, key_lookups expr expr_new expr_lookup key (a ++ b) n = rbind (key_lookups expr expr_new expr_lookup key a n) (fun k2 => key_lookups expr expr_new expr_lookup k2 b (n + List.length a))).
  { induction a as [|x a IH]; intros b key n; cbn [app key_lookups List.length]; [rewrite Nat.add_0_r; reflexivity|]. destruct (key_lookup _ _ _ key x n); cbn [rbind]; auto. rewrite IH.
    destruct (key_lookups _ _ _ a0 a (S n)); cbn [rbind]; auto. f_equal. lia. }
  rewrite SPLIT, LF. destruct (placed_all cols NE pos (firstn f files) (map col_of cols) 0 rev (MCmp c) P0) as (cs & E & PL & PP).
  { intros g ns H. cbn [Nat.add]. assert (g < f). { rewrite <- LF. apply nth_error_Some. congruence. }
    assert (H2 : nth_error files g = Some ns). { rewrite <- H. clear -H0. revert f g H0. induction files as [|x files IH]; intros [|f] [|g] H; try lia; auto; cbn; try apply IH; lia. }
    destruct (G g ns H0 H2) as (i & S). enough (pos g = i) by congruence. unfold pos. rewrite (nth_error_nth _ _ _ H2).
    assert (OK : col_ok (for_file cols g)). { rewrite Forall_forall in F. apply F, nth_In. destruct cols; [congruence|cbn; lia]. }
    destruct (lookup_of _ _ ns i (of_col_of _ OK) S) as (y & -> & _ & Y). exact Y. }
  rewrite E. cbn [rbind key_lookups Nat.add]. rewrite LF in *. clear SPLIT E.
  (* the lookup that fails *)
  unfold key_lookup at 1. cbn [k_cmp k_rev].
  assert (L0 : 1 <= List.length cols) by (destruct cols; [congruence|cbn; lia]).
  assert (G1 : of_col (for_file cols f) (nth f (grow cs (last cs nc_new) f) nc_new)).
  { unfold grow. cbn [Nat.add] in *. destruct (Nat.lt_ge_cases f (List.length cs)) as [B|B]; [rewrite app_nth1 by auto; apply PP; auto|].
    assert (f = List.length cs) by lia. rewrite app_nth2 by auto. replace (f - List.length cs) with 0 by lia. replace (S f - List.length cs) with 1 by lia. cbn [repeat nth].
    rewrite last_nth. assert (X : for_file cols f = for_file cols (List.length cs - 1)) by (unfold for_file; f_equal; lia). rewrite X. apply PP. lia. }
  rewrite C in G1. destruct G1 as (N1 & N2 & _). unfold ColModel.nc_lookup at 1. rewrite N2. destruct s as [|a s]; [congruence|]. rewrite ColProofs.lookup_col_none by auto. reflexivity.
Qed.

Variable expr_eval : expr -> textline -> f64.
Variable expr_eval_line : expr -> bytes -> byte -> f64.
Variable expr_none : f64.
Notation as_line := (key_line expr expr_eval expr_eval_line expr_none).
Variable exp10 : Z -> f64.
Lemma directed_rev : forall (b : bool) c, (if b then ord_rev c else c) = directed b c.
Proof. intros [] []; reflexivity. Qed.
Lemma compares : forall cols t k c files pos, cols <> [] -> Forall col_ok cols -> tail_ok t -> picks (tail_words t) k -> kind_of k c ->
  (forall f names, nth_error files f = Some names -> stands (for_file cols f) names (pos f)) ->
  exists key key' lc rev, read (key_text cols t) = Ok key /\ key_lookups expr expr_new expr_lookup key files 0 = Ok key' /\ as_line key' = Some lc /\
    (rev = true <-> turned (tail_words t)) /\
    (forall f g l r, f < List.length files -> g < List.length files -> ~ In NL l -> ~ In NL r ->
       lc_comp_lines_n exp10 lc (l ++ [NL]) (r ++ [NL]) f g =
       directed rev (c_comp exp10 c (nth (N.to_nat (pos f)) (split_on TAB l) []) (nth (N.to_nat (pos g)) (split_on TAB r) []))) /\
    (forall f g l r, f < List.length files -> g < List.length files ->
       lc_comp_cols_n exp10 lc l r f g = directed rev (c_comp exp10 c (nth (N.to_nat (pos f)) (tl_cols l) []) (nth (N.to_nat (pos g)) (tl_cols r) []))).
Proof.
  intros cols t k c files pos NE F O P K T. destruct (reads cols t k c F O P K) as (rev & R1 & R2).
  assert (KO : key_of cols (MCmp c) = KCol (map col_of cols) (MCmp c)) by (destruct cols; [congruence|reflexivity]). rewrite KO in R2.
  destruct (placed_all cols NE pos files (map col_of cols) 0 rev (MCmp c) (placed_start cols pos F) T) as (cs & E & PL & PP).
  do 4 eexists. split; [exact R2|]. split; [exact E|]. split; [reflexivity|]. split; [exact R1|].
  assert (Q : forall f, f < List.length files -> nc_num (nth f cs nc_new) = pos f). { intros f H. apply PP; lia. }
  split; intros f g l r Hf Hg.
  - intros Nl Nr. unfold lc_comp_lines_n, lc_reverse. cbn [lc_rev lc_cmp l_comp_lines lc_delim k_rev]. rewrite !Q by auto. rewrite !RawSplitProofs.get_col_is by (auto; discriminate).
    apply directed_rev.
  - unfold lc_comp_cols_n, lc_reverse. cbn [lc_rev lc_cmp l_comp_cols k_rev]. rewrite !Q by auto. rewrite !TurnProofs.get_cols. apply directed_rev.
Qed.
(** Whole lines. *)
Lemma compares_whole : forall t k c files, tail_ok t -> picks (tail_words t) k -> kind_of k c ->
  exists key lc rev, read (tail_text t) = Ok key /\ key_lookups expr expr_new expr_lookup key files 0 = Ok key /\ as_line key = Some lc /\
    (rev = true <-> turned (tail_words t)) /\
    (forall f g l r, lc_comp_lines_n exp10 lc l r f g = directed rev (c_comp exp10 c l r)) /\
    (forall f g l r, lc_comp_cols_n exp10 lc l r f g = directed rev (c_comp exp10 c (tl_text l) (tl_text r))).
Proof.
  intros t k c files O P K. destruct (reads [] t k c ltac:(constructor) O P K) as (rev & R1 & R2). do 3 eexists. split; [exact R2|]. split.
  - generalize 0. induction files as [|n files IH]; intros m; cbn [key_lookups]; auto. apply IH.
  - split; [reflexivity|]. split; [exact R1|]. split; intros; apply directed_rev.
Qed.
(** Several keys. *)
Lemma iff_bool : forall a b P, (a = true <-> P) -> (b = true <-> P) -> a = b.
Proof. intros [] [] P A B; intuition congruence. Qed.
Lemma first_diff_decides : forall {A} (f : A -> comparison) l, decides (map f l) (first_diff f l).
Proof.
  intros A f. induction l as [|x l IH]; cbn [map first_diff]; [left; auto|]. destruct (f x) eqn:E.
  - destruct IH as [[A1 A2] | (A1 & a & b & A2 & A3)]; [left; split; auto|right]. split; auto. exists (Eq :: a), b. rewrite A2. auto.
  - right. split; [discriminate|]. exists [], (map f l). auto.
  - right. split; [discriminate|]. exists [], (map f l). auto.
Qed.
Lemma lists_look : forall files ks ks' n, Forall2 (fun k k' => key_lookups expr expr_new expr_lookup k files n = Ok k') ks ks' ->
  list_lookups expr expr_new expr_lookup ks files n = Ok ks'.
Proof.
  induction files as [|f files IH]; intros ks ks' n F; cbn [list_lookups].
  - f_equal. induction F as [|k k' ks ks' E F IH2]; auto. cbn in E. congruence.
  - cbn [key_lookups] in F. assert (M : exists mid, keys_lookup expr expr_new expr_lookup ks f n = Ok mid /\ Forall2 (fun k k' => key_lookups expr expr_new expr_lookup k files (S n) = Ok k') mid ks').
    { induction F as [|k k' ks ks' E F (mid & IH1 & IH2)]; cbn [keys_lookup]; [exists []; auto|]. destruct (key_lookup expr expr_new expr_lookup k f n) as [m| |]; try discriminate.
      cbn [rbind] in *. rewrite IH1. exists (m :: mid). auto. }
    destruct M as (mid & -> & M). cbn [rbind]. apply IH; auto.
Qed.
Lemma keys_compare : forall ws files, Forall (wanted_ok letter alnum files) ws ->
  exists ks ks' cs, add_keys uni_alpha uni_alnum expr expr_new (map (fun w => key_text (wk_cols w) (wk_tail w)) ws) = Ok ks /\
    list_lookups expr expr_new expr_lookup ks files 0 = Ok ks' /\ key_lines expr expr_eval expr_eval_line expr_none ks' = Some cs /\
    (forall f g l r, f < List.length files -> g < List.length files -> ~ In NL l -> ~ In NL r ->
       decides (map (answers exp10 f g (split_on TAB l) (split_on TAB r)) ws) (ll_comp_lines_n exp10 cs (l ++ [NL]) (r ++ [NL]) f g)) /\
    (forall f g l r, f < List.length files -> g < List.length files ->
       decides (map (answers exp10 f g (tl_cols l) (tl_cols r)) ws) (ll_comp_cols_n exp10 cs l r f g)).
Proof.
  intros ws files F. assert (M : exists ks ks' cs, add_keys uni_alpha uni_alnum expr expr_new (map (fun w => key_text (wk_cols w) (wk_tail w)) ws) = Ok ks /\
    Forall2 (fun k k' => key_lookups expr expr_new expr_lookup k files 0 = Ok k') ks ks' /\ key_lines expr expr_eval expr_eval_line expr_none ks' = Some cs /\
    (forall f g l r, f < List.length files -> g < List.length files -> ~ In NL l -> ~ In NL r ->
       map (answers exp10 f g (split_on TAB l) (split_on TAB r)) ws = map (fun c => lc_comp_lines_n exp10 c (l ++ [NL]) (r ++ [NL]) f g) cs) /\
    (forall f g l r, f < List.length files -> g < List.length files ->
       map (answers exp10 f g (tl_cols l) (tl_cols r)) ws = map (fun c => lc_comp_cols_n exp10 c l r f g) cs)).
  { induction F as [|w ws H F (ks & ks' & cs & A & B & C & D & E)]; [exists [], [], []; repeat split; auto|].
    destruct H as (H1 & H2 & H3 & H4 & H5 & H6 & H7). destruct (compares _ _ _ _ files (wk_pos w) H1 H2 H3 H4 H5 H7) as (key & key' & lc & rev & K1 & K2 & K3 & K4 & K5 & K6).
    rewrite (iff_bool rev (wk_rev w) _ K4 H6) in *. exists (key :: ks), (key' :: ks'), (lc :: cs). cbn [map add_keys]. rewrite K1. cbn [rbind]. rewrite A.
    split; [reflexivity|]. split; [auto|]. cbn [key_lines]. rewrite K3, C. split; [reflexivity|]. split; intros f g l r Hf Hg; [intros Nl Nr|]; cbn [map]; f_equal; auto.
    - unfold answers. rewrite K5; auto.
    - unfold answers. rewrite K6; auto. }
  destruct M as (ks & ks' & cs & A & B & C & D & E). exists ks, ks', cs. split; auto. split; [apply lists_look; auto|]. split; auto. split.
  - intros. rewrite D by auto. apply first_diff_decides.
  - intros. rewrite E by auto. apply first_diff_decides.
Qed.
End Key.

(** make_comp: the words, and perhaps a pattern that is not used. *)
Lemma comp_words : forall ws p k, ws <> [] -> Forall word_ok ws -> picks ws k -> exists rev, (rev = true <-> turned ws) /\
  make_comp (comp_text ws p) = match comp_method k with Some m => Ok (rev, m) | None => Err end.
Proof.
  intros ws p k NE F P. destruct (read_words_join ws NE F k P) as [A B]. eexists. split; [exact B|]. unfold make_comp, comp_text.
  assert (N : ~ In 44%N (join 46 ws)). { intros I. apply in_join in I as [E | (f & I & I2)]; [discriminate|]. rewrite Forall_forall in F. destruct (F f I); auto. }
  destruct p as [x|]; [rewrite split_once_app by auto|rewrite app_nil_r, split_once_none by auto]; rewrite A; reflexivity.
Qed.
Lemma comp_reads : forall ws p k c, ws <> [] -> Forall word_ok ws -> picks ws k -> kind_of k c ->
  exists rev, (rev = true <-> turned ws) /\ make_comp (comp_text ws p) = Ok (rev, MCmp c).
Proof. intros ws p k c NE F P K. destruct (comp_words ws p k NE F P) as (rev & R & M). rewrite (proj1 (kind_found k c K)) in M. eauto. Qed.
Lemma comp_unknown : forall ws p k, ws <> [] -> Forall word_ok ws -> picks ws k -> no_kind k -> make_comp (comp_text ws p) = Err.
Proof. intros ws p k NE F P K. destruct (comp_words ws p k NE F P) as (rev & R & M). rewrite (proj1 (kind_missing k K)) in M. auto. Qed.
Lemma picks_one : forall ws, exists k, picks ws k.
Proof.
  intros ws. induction ws as [|w ws IH] using rev_ind; [exists []; right; auto|]. destruct (modifier_dec w) as [M|M].
  - destruct IH as (k & [(a & b & -> & N & F) | [F ->]]).
    + exists k. left. exists a, (b ++ [w]). rewrite <- app_assoc. split; [reflexivity|]. split; auto. apply Forall_app; auto.
    + exists []. right. split; auto. apply Forall_app; auto.
  - exists w. left. exists ws, []. auto.
Qed.
Lemma picks_unique : forall ws k1 k2, picks ws k1 -> picks ws k2 -> k1 = k2.
Proof.
  intros ws k1 k2 A B. rewrite <- (fold_kind ws k1 words_new A) by reflexivity. apply fold_kind; auto.
Qed.
