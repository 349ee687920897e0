(** The join tool from its options and files to its outputs. *)
From Coq Require Import String List NArith ZArith Bool Arith Lia Sorting.Sorted.
Open Scope list_scope.
Import ListNotations.
From Verif Require Import Base TextSpec TextModel TextProofs StrSpec StrModel StrProofs FloatModel ReadSpec ReadModel ReadProofs HdrModel HdrProofs CompModel CompSpec OrdProofs LineSpec LineProofs
  ColModel ColSpec ColProofs ColProps MatchModel SortSpec KeySpec KeyModel KeyProofs ToolModel ToolOpen TurnSpec TurnProofs PasteSpec PasteProofs OrderSpec OrderProofs OrderTool
  JoinSpec JoinProofs JoinMain JoinMainSpec JoinMainProofs.
From Verif Require JoinModel JoinProps.
Close Scope Z_scope. Open Scope nat_scope.

(** * Renaming the lines of a join *)
Section Renamed.
Variables A B : Type.
Variable g : A -> B.
Variables K1 K2 : Type.
Variable o1 : K1 -> K1 -> comparison.
Variable o2 : K2 -> K2 -> comparison.
Variables (ka kb : A -> K1) (ka' kb' : B -> K2).
Lemma sorted_renamed : forall (R : A -> A -> Prop) (Q : B -> B -> Prop) l, (forall x y, In x l -> In y l -> R x y -> Q (g x) (g y)) -> StronglySorted R l -> StronglySorted Q (map g l).
Proof.
  intros R Q l H SS. induction SS as [|x l SS IH F]; [constructor|]. cbn [map]. constructor.
  - apply IH. intros a b I J. apply H; right; auto.
  - rewrite Forall_map. rewrite Forall_forall in *. intros y I. apply H; [left; auto|right; auto|auto].
Qed.
Lemma part_renamed : forall a b, o2 (ka' (g a)) (kb' (g b)) = o1 (ka a) (kb b) -> partners o2 ka' kb' (g a) (g b) = partners o1 ka kb a b.
Proof. intros a b E. unfold partners. rewrite E. reflexivity. Qed.
Lemma find_renamed : forall (p : A -> bool) (q : B -> bool) r, (forall b, In b r -> q (g b) = p b) -> find q (map g r) = option_map g (find p r).
Proof. induction r as [|b r IH]; intros H; [reflexivity|]. cbn [map find]. rewrite H by (left; auto). destruct (p b); [reflexivity|]. apply IH. intros; apply H; right; auto. Qed.
Lemma existsb_renamed : forall (p : A -> bool) (q : B -> bool) r, (forall b, In b r -> q (g b) = p b) -> existsb q (map g r) = existsb p r.
Proof. induction r as [|b r IH]; intros H; [reflexivity|]. cbn [map existsb]. rewrite H by (left; auto). rewrite IH; auto. intros; apply H; right; auto. Qed.
Lemma filter_renamed : forall (p : A -> bool) (q : B -> bool) r, (forall b, In b r -> q (g b) = p b) -> filter q (map g r) = map g (filter p r).
Proof.
  induction r as [|b r IH]; intros H; [reflexivity|]. cbn [map filter]. rewrite H by (left; auto). rewrite IH by (intros; apply H; right; auto). destruct (p b); reflexivity.
Qed.
Lemma rows_renamed : forall l r, (forall a b, In a l -> In b r -> o2 (ka' (g a)) (kb' (g b)) = o1 (ka a) (kb b)) ->
  rows_spec o2 ka' kb' (map g l) (map g r) = map (fun p => (g (fst p), g (snd p))) (rows_spec o1 ka kb l r) /\
  lone_left o2 ka' kb' (map g l) (map g r) = map g (lone_left o1 ka kb l r) /\
  lone_right o2 ka' kb' (map g l) (map g r) = map g (lone_right o1 ka kb l r).
Proof.
  intros l r H. split; [|split].
  - induction l as [|a l IH]; [reflexivity|]. unfold rows_spec in *. cbn [map flat_map]. rewrite map_app. rewrite IH by (intros; apply H; [right; auto|auto]). f_equal.
    rewrite (find_renamed (partners o1 ka kb a)) by (intros b I; apply part_renamed; apply H; [left; auto|auto]). destruct (find (partners o1 ka kb a) r); reflexivity.
  - unfold lone_left. apply filter_renamed. intros a I. f_equal. apply existsb_renamed. intros b J. apply part_renamed, H; auto.
  - unfold lone_right. apply filter_renamed. intros b J. f_equal. apply existsb_renamed. intros a I. apply part_renamed, H; auto.
Qed.
End Renamed.

(** The joiner only compares lines of the first file with lines of the second. *)
Lemma quick_same : forall {A B} (c d : A -> B -> comparison) l r, (forall a b, In a l -> In b r -> c a b = d a b) -> JoinModel.join_quick c l r = JoinModel.join_quick d l r.
Proof.
  intros A B c d. induction l as [|a l IH]; intros r H; [reflexivity|]. induction r as [|b r IHr]; [reflexivity|].
  cbn [JoinModel.join_quick]. rewrite (H a b) by (left; auto). destruct (d a b).
  - f_equal. destruct l as [|a' l']; [apply IH; intros x y I J; apply H; right; auto|]. rewrite (H a' b) by (cbn; auto).
    destruct (d a' b); apply IH; intros x y I J; apply H; auto; right; auto.
  - f_equal. apply IH. intros x y I J. apply H; auto. right. auto.
  - f_equal. apply IHr. intros x y I J. apply H; auto. right. auto.
Qed.
Lemma joined_by : forall exp10 cs delim cols l r K (ord : K -> K -> comparison) k0 k1, total_preorder ord ->
  (forall a b, In a l -> In b r -> in_file exp10 cs (0, a) (1, b) = ord (k0 a) (k1 b)) -> ordered_by ord k0 l -> strictly_by ord k1 r ->
  JoinModel.join_files exp10 cs delim cols l r [] =
  (map (fun p => JoinModel.write_row delim (map (JoinModel.oc_value [fst p; snd p]) cols)) (rows_spec ord k0 k1 l r), map tl_line (lone_left ord k0 k1 l r), map tl_line (lone_right ord k0 k1 l r)).
Proof.
  intros e cs d cols l r K ord k0 k1 P H SL UR. unfold JoinModel.join_files. rewrite (quick_same _ (fun a b => ord (k0 a) (k1 b))) by exact H.
  destruct (join_left_ok _ _ _ ord k0 k1 P l r SL (strict_ordered _ _ _ _ _ UR)) as [-> ->]. rewrite (join_right_ok _ _ _ ord k0 k1 P l r SL UR). reflexivity.
Qed.

Section Tool.
Variable utf8_ok : bytes -> bool.
Variable uni_alpha uni_alnum : N -> bool.
Variable T : Type.
Variable trans_make : bytes -> res T.
Variable match_make : bytes -> res (bytes -> bool).
Variable expr : Type.
Variable expr_new : bytes -> res expr.
Variable expr_lookup : expr -> list bytes -> res expr.
Variable expr_eval : expr -> textline -> f64.
Variable expr_eval_line : expr -> bytes -> byte -> f64.
Variable expr_none : f64.
Variable exp10 : Z -> f64.
Variable expr_used : expr -> list nat.
Notation letter := (alphabetic uni_alpha).
Notation alnum := (alphanumeric uni_alnum).
Notation add_keys := (add_keys uni_alpha uni_alnum expr expr_new).
Notation lookups := (list_lookups expr expr_new expr_lookup).
Notation as_lines := (key_lines expr expr_eval expr_eval_line expr_none).
Notation join_main := (join_main utf8_ok uni_alpha uni_alnum T trans_make match_make expr expr_new expr_lookup expr_eval expr_eval_line expr_none exp10 expr_used).

Lemma keys_used : forall ws files, Forall (wanted_ok letter alnum files) ws ->
  exists ks ks' cs, add_keys (map text_of_key ws) = Ok ks /\ lookups ks files 0 = Ok ks' /\ as_lines ks' = Some cs /\ Forall2 shape ws cs /\
    (forall f, f < List.length files -> used_cols expr expr_used ks' f = map (fun w => N.to_nat (wk_pos w f)) ws) /\
    (forall f g l r, f < List.length files -> g < List.length files ->
       ll_comp_cols_n exp10 cs l r f g = first_answer (map (answers exp10 f g (tl_cols l) (tl_cols r)) ws)).
Proof.
  intros ws files F.
  destruct (keys_compare uni_alpha uni_alnum expr expr_new expr_lookup expr_eval expr_eval_line expr_none exp10 ws files F) as (ks & ks' & cs & A & B & C & _ & E).
  change (map (fun w => key_text (wk_cols w) (wk_tail w)) ws) with (map text_of_key ws) in A. exists ks, ks', cs. split; auto. split; auto. split; auto.
  assert (Q : exists k2, Forall2 (fun k k' => key_lookups expr expr_new expr_lookup k files 0 = Ok k') ks k2 /\
    Forall2 (fun w k => exists cs, k = mkkey (wk_rev w) (KCol cs (MCmp (wk_cmp w))) /\ forall f, f < List.length files -> nc_num (nth f cs nc_new) = wk_pos w f) ws k2).
  { clear B C E. revert ks A. induction F as [|w ws (H1 & H2 & H3 & H4 & H5 & H6 & H7) F IH]; intros ks A; cbn [map KeyModel.add_keys] in A; [injection A as <-; exists []; split; constructor|].
    destruct (reads uni_alpha uni_alnum expr expr_new _ _ _ _ H2 H3 H4 H5) as (rev & R1 & R2). unfold text_of_key at 1 in A. rewrite R2 in A. cbn [rbind] in A.
    destruct (add_keys (map text_of_key ws)) as [r| |]; try discriminate. cbn [rbind] in A. injection A as <-. destruct (IH r eq_refl) as (k2 & I1 & I2).
    rewrite (iff_bool rev (wk_rev w) _ R1 H6) in *. 
    replace (KeyProofs.key_of expr (wk_cols w) (MCmp (wk_cmp w))) with (@KCol expr (map col_of (wk_cols w)) (MCmp (wk_cmp w))) by (destruct (wk_cols w); [congruence|reflexivity]).
    destruct (placed_all uni_alpha uni_alnum expr expr_new expr_lookup (wk_cols w) H1 (wk_pos w) files (map col_of (wk_cols w)) 0 (wk_rev w) (MCmp (wk_cmp w))
      (placed_start uni_alpha uni_alnum (wk_cols w) (wk_pos w) H2) H7) as (c2 & E2 & PL & PP).
    eexists (_ :: k2). split; constructor; eauto. exists c2. split; auto. intros f Hf. cbn [Nat.add] in PL, PP. apply PP; lia. }
  destruct Q as (k2 & Q1 & Q2). rewrite (lists_look expr expr_new expr_lookup files ks k2 0 Q1) in B. injection B as <-.
  split; [eapply lines_shape; [|exact C]; clear - Q2; induction Q2 as [|w k ws ks (cs & -> & _) Q IH]; constructor; eauto|]. split.
  - intros f Hf. unfold used_cols. clear - Q2 Hf. induction Q2 as [|w k ws ks (cs & -> & P) Q IH]; [reflexivity|]. cbn [flat_map map k_cmp app]. rewrite P by auto. rewrite IH. reflexivity.
  - intros f g l r Hf Hg. apply decides_first. auto.
Qed.

Lemma default_same : forall ks ws files, (forall f, f < List.length files -> used_cols expr expr_used ks f = map (fun w => N.to_nat (wk_pos w f)) ws) ->
  JoinModel.default_cols (used_cols expr expr_used ks) (map (@List.length bytes) files) = map (fun p => JoinModel.mkoc (fst p) (snd p)) (default_columns ws files).
Proof.
  intros ks ws files U. unfold JoinModel.default_cols, default_columns. rewrite map_length, !flat_map_concat_map, concat_map, map_map. f_equal. apply map_ext_in.
  intros f I. apply in_seq in I. rewrite map_map. cbn [fst snd]. rewrite U by lia.
  rewrite (nth_indep _ 0 (List.length (@nil bytes))) by (rewrite map_length; lia). rewrite (map_nth (@List.length bytes)). f_equal. apply filter_ext. intros c. f_equal. f_equal. clear U.
  induction ws as [|w ws IH]; [reflexivity|]. cbn [map existsb]. f_equal; [|auto].
  destruct (Nat.eqb_spec c (N.to_nat (wk_pos w f))), (N.eqb_spec (N.of_nat c) (wk_pos w f)); auto; lia.
Qed.

Lemma rest_lines_ok : forall rest fuel r l hist, at_line join_mode r (proc join_mode l :: hist) rest -> S (List.length rest) < fuel ->
  rest_lines fuel r = Ok (map (proc join_mode) (l :: rest)).
Proof.
  induction rest as [|l' rest IH]; intros fuel r l hist HA Hf; (destruct fuel as [|k]; [lia|]); cbn [rest_lines];
    replace (r_done r) with false by (symmetry; apply HA); rewrite (ring_curr _ _ _ (proj1 HA)); cbn [rbind].
  - destruct (next_nil _ _ _ HA) as (r' & H1 & H2 & _). rewrite H1. cbn [rbind]. destruct k as [|k]; [cbn in Hf; lia|]. cbn [rest_lines]. rewrite H2. reflexivity.
  - destruct (next_cons _ _ _ _ _ HA) as (r' & H1 & H2 & _). rewrite H1. cbn [rbind]. cbn [List.length] in Hf. rewrite (IH k r' l' (proc join_mode l :: hist) H2) by lia. reflexivity.
Qed.
Lemma lines_shown : forall t f, opened join_mode t f -> lines_of t = Ok (map (proc join_mode) (sh_lines f)).
Proof.
  intros t f (_ & _ & H). unfold lines_of. destruct (sh_lines f) as [|l rest].
  - cbn [rest_lines]. rewrite H. reflexivity.
  - apply (rest_lines_ok rest _ _ l []); auto. apply at_line_turns in H; [lia|discriminate].
Qed.

Lemma write_row_join : forall vs, vs <> [] -> JoinModel.write_row TAB vs = join TAB vs ++ [NL].
Proof.
  intros [|v vs] NE; [congruence|]. unfold JoinModel.write_row. rewrite app_assoc. f_equal. clear NE. revert v. induction vs as [|x vs IH]; intros v; [cbn; apply app_nil_r|].
  cbn [map concat]. rewrite join_cons by discriminate. rewrite <- IH. reflexivity.
Qed.
Lemma write_head_line : forall files cols, cols <> [] ->
  JoinModel.write_head TAB files (map (fun p => JoinModel.mkoc (fst p) (snd p)) cols) = headline (names_of cols files).
Proof.
  intros files cols NE. unfold JoinModel.write_head, headline, names_of. change [32; 67; 68; 88]%N with (bs " CDX"). f_equal. rewrite app_comm_cons. f_equal.
  rewrite map_map. cbn [JoinModel.oc_file JoinModel.oc_col]. destruct cols as [|[f c] cols]; [congruence|]. clear NE. cbn [map concat app fst snd]. f_equal.
  revert f c. induction cols as [|[f2 c2] cols IH]; intros f c; [cbn; apply app_nil_r|]. cbn [map concat fst snd]. rewrite join_cons by discriminate. f_equal. cbn [app]. f_equal. apply IH.
Qed.

Lemma also_fine : forall n l seen, Forall (fun a => 1 <= fst a <= N.of_nat n)%N l -> NoDup (map fst l) -> (forall a, In a (map fst l) -> ~ In a seen) -> also_ok n l seen = true.
Proof.
  induction l as [|[a b] l IH]; intros seen F D NI; [reflexivity|]. inversion F as [|? ? A F2]; subst. inversion D as [|? ? D1 D2]; subst. cbn [fst map] in *. cbn [also_ok].
  rewrite IH; auto.
  - rewrite andb_true_r. apply andb_true_intro. split; [apply andb_true_intro; split; apply N.leb_le; lia|]. apply negb_true_iff. destruct (existsb (N.eqb a) seen) eqn:E; auto.
    apply existsb_exists in E as (x & I & Q). apply N.eqb_eq in Q. subst x. exfalso. apply (NI a); [left; auto|auto].
  - intros x I [<-|J]; [contradiction|]. apply (NI x); [right; auto|auto].
Qed.

(** The keys: the first column if none is given. *)
Definition first_key_of : wanted := mkw_key [ByNum 1] JustCols [] CPlain false (fun _ => 0%N).
Definition keys_or (ws : list KeySpec.wanted) : list KeySpec.wanted := match ws with [] => [first_key_of] | _ => ws end.
Lemma first_wanted : forall files, wanted_ok letter alnum files first_key_of.
Proof.
  intros files. unfold wanted_ok, first_key_of. cbn [wk_cols wk_tail wk_kind wk_cmp wk_rev wk_pos]. split; [discriminate|]. split; [constructor; [cbn; lia|constructor]|]. split; [exact I|].
  split; [right; split; [constructor|reflexivity]|]. split; [right; cbn; auto|]. split; [split; [discriminate|intros (w & [] & _)]|].
  intros f names _. unfold for_file. cbn [List.length]. rewrite Nat.min_0_r. reflexivity.
Qed.

Definition line_in (f0 f1 : shown) (x : nat * bytes) : Prop := (fst x = 0 /\ In (snd x) (sh_lines f0)) \/ (fst x = 1 /\ In (snd x) (sh_lines f1)).
Lemma joins_by : forall args ws askss alsos outs s0 s1 f0 f1 cols,
  join_known args -> values (bs "key") args (map text_of_key ws) -> values (bs "output") args (map output_text askss) ->
  values (bs "file") args outs -> values (bs "also") args (map also_text alsos) ->
  Forall (wanted_ok letter alnum [sh_names f0; sh_names f1]) ws ->
  Forall (fun a => a <> [] /\ Forall (ask_ok letter alnum) a) askss ->
  (N.of_nat (List.length (sh_names f0)) < 2 ^ 64)%N -> (N.of_nat (List.length (sh_names f1)) < 2 ^ 64)%N ->
  out_columns (maker match_make) (keys_or ws) [sh_names f0; sh_names f1] (concat askss) cols -> cols <> [] ->
  Forall (fun a => fst a = 1%N \/ fst a = 2%N) alsos -> NoDup (map fst alsos) ->
  shows utf8_ok join_mode s0 f0 -> shows utf8_ok join_mode s1 f1 ->
  (forall a, In a alsos -> let f := if (fst a =? 1)%N then f0 else f1 in sh_head f <> [] \/ sh_lines f = []) ->
  let ord := keyed exp10 (keys_or ws) in
  (exists ord', total_preorder ord' /\ forall x y, line_in f0 f1 x -> line_in f0 f1 y -> ord x y = ord' x y) ->
  ordered_by ord (of_file 0) (sh_lines f0) -> strictly_by ord (of_file 1) (sh_lines f1) ->
  join_main args [s0; s1] =
  Ok ((last outs (bs "-"),
       match sh_head f0 with [] => [] | _ => headline (names_of cols [sh_names f0; sh_names f1]) end ++
       concat (map (fun p => row_text cols [fst p; snd p]) (rows_spec ord (of_file 0) (of_file 1) (sh_lines f0) (sh_lines f1)))) ::
      map (fun a => (snd a, if (fst a =? 1)%N then sh_head f0 ++ concat (lone_left ord (of_file 0) (of_file 1) (sh_lines f0) (sh_lines f1))
                            else sh_head f1 ++ concat (lone_right ord (of_file 0) (of_file 1) (sh_lines f0) (sh_lines f1)))) alsos).
Proof.
  intros args ws askss alsos outs s0 s1 f0 f1 cols K VK VO VF VA W AO B0 B1 OC CN AS AD S0 S1 AH ord (ord2 & PRE & AG) SL UR.
  unfold JoinMain.join_main. rewrite (options_read uni_alpha uni_alnum T trans_make args _ outs K VK askss alsos (jconf_new T) VO AO VF VA).
  2:{ eapply Forall_impl; [|exact AS]. intros a [E|E]; rewrite E; reflexivity. }
  cbn [rbind jconf_new jc_keys jc_cols jc_out jc_also app List.length Nat.ltb Nat.leb].
  assert (FS : Forall2 (shows utf8_ok join_mode) [s0; s1] [f0; f1]) by (constructor; [auto|]; constructor; [auto|constructor]). destruct (open_files_shows utf8_ok join_mode [s0; s1] [f0; f1] FS) as (ts & O1 & O2). rewrite O1. cbn [rbind].
  inversion O2 as [|t0 ? ts1 ? Q0 O3]; subst. inversion O3 as [|t1 ? ts2 ? Q1 O4]; subst. inversion O4; subst. clear O2 O3 O4.
  rewrite also_fine; auto.
  2:{ cbn [List.length]. eapply Forall_impl; [|exact AS]. intros a [E|E]; rewrite E; cbn; lia. }
  cbn [negb map]. replace (tf_names t0) with (sh_names f0) by (symmetry; apply Q0). replace (tf_names t1) with (sh_names f1) by (symmetry; apply Q1).
  set (files := [sh_names f0; sh_names f1]) in *.
  assert (W2 : Forall (wanted_ok letter alnum files) (keys_or ws)) by (unfold keys_or; destruct ws; [constructor; [apply first_wanted|constructor]|auto]).
  destruct (keys_used (keys_or ws) files W2) as (ks & ks' & cs & A1 & A2 & A3 & A4 & A5 & A6).
  replace (match map text_of_key ws with [] => [bs "1"] | l => l end) with (map text_of_key (keys_or ws)) by (destruct ws; reflexivity).
  rewrite A1. cbn [rbind]. rewrite A2. cbn [rbind].
  assert (JC : join_cols T match_make expr expr_used (map (parsed T) (concat askss)) ks' files = Ok (map (fun p => JoinModel.mkoc (fst p) (snd p)) cols)).
  { unfold join_cols. destruct (concat askss) as [|a l] eqn:EA.
    - cbn [map]. cbn [out_columns] in OC. rewrite OC. rewrite (default_same ks' (keys_or ws)); auto.
    - rewrite <- EA in *. assert (exists each, Forall2 (asked (maker match_make) files) (concat askss) each /\ cols = concat each) as (each & E1 & E2) by (rewrite EA in *; exact OC).
      replace (match map (parsed T) (concat askss) with [] => Ok (JoinModel.default_cols (used_cols expr expr_used ks') (map (@List.length bytes) files)) | _ :: _ => asked_cols T match_make (map (parsed T) (concat askss)) files end)
        with (asked_cols T match_make (map (parsed T) (concat askss)) files) by (rewrite EA; reflexivity).
      rewrite E2. apply (asked_ok uni_alpha uni_alnum T trans_make); auto.
      + apply Forall_concat. eapply Forall_impl; [|exact AO]. cbn. tauto.
      + repeat constructor; auto. }
  rewrite JC. cbn [rbind]. destruct (map (fun p => JoinModel.mkoc (fst p) (snd p)) cols) as [|o0 ol] eqn:EC; [apply map_eq_nil in EC; congruence|]. rewrite <- EC. clear JC o0 ol EC.
  rewrite A3. rewrite (lines_shown _ _ Q0), (lines_shown _ _ Q1). cbn [rbind firsts].
  assert (L0 : Forall whole_line (sh_lines f0)) by (apply (shows_lines utf8_ok join_mode s0 f0 eq_refl S0)).
  assert (L1 : Forall whole_line (sh_lines f1)) by (apply (shows_lines utf8_ok join_mode s1 f1 eq_refl S1)).
  assert (PC : forall l, whole_line l -> tl_cols (proc join_mode l) = fields l).
  { intros l H. unfold proc. rewrite process_cols. cbn [join_mode tm_quote tm_delim]. apply plain_cols; auto. }
  assert (SO : forall f g a b, f < 2 -> g < 2 -> whole_line a -> whole_line b -> in_file exp10 cs (f, proc join_mode a) (g, proc join_mode b) = ord (f, a) (g, b)).
  { intros f g a b Hf Hg Ha Hb. unfold in_file, ord, keyed. cbn [fst snd]. rewrite A6 by (cbn; lia). rewrite !PC by auto. reflexivity. }
  rewrite Forall_forall in L0, L1.
  assert (TP : forall l, tl_line (proc join_mode l) = l) by reflexivity.
  rewrite (joined_by exp10 cs TAB _ _ _ _ ord2 (fun t => (0, tl_line t)) (fun t => (1, tl_line t)) PRE).
  2:{ intros a b I J. apply in_map_iff in I as (a0 & <- & I). apply in_map_iff in J as (b0 & <- & J). rewrite SO by auto. rewrite !TP. apply AG; [left|right]; auto. }
  2:{ unfold ordered_by. apply (sorted_renamed _ _ _ (fun x y => ord (of_file 0 x) (of_file 0 y) <> Gt)); auto.
      intros x y I J H. rewrite !TP, <- AG by (left; auto). exact H. }
  2:{ unfold strictly_by. apply (sorted_renamed _ _ _ (fun x y => ord (of_file 1 x) (of_file 1 y) = Lt)); auto.
      intros x y I J H. rewrite !TP, <- AG by (right; auto). exact H. }
  destruct (rows_renamed _ _ (proc join_mode) _ _ ord ord2 (of_file 0) (of_file 1) (fun t => (0, tl_line t)) (fun t => (1, tl_line t)) (sh_lines f0) (sh_lines f1)) as (R1 & R2 & R3).
  { intros a b I J. rewrite !TP. symmetry. apply AG; [left|right]; auto. }
  rewrite R1, R2, R3. f_equal. f_equal.
  - f_equal. replace (tf_head t0) with (match sh_head f0 with [] => None | h => Some h end) by (symmetry; apply Q0). f_equal.
    + destruct (sh_head f0); auto. apply write_head_line; auto.
    + f_equal. rewrite map_map. apply map_ext_in. intros [a b] I. cbn [fst snd].
      assert (IA : In a (sh_lines f0) /\ In b (sh_lines f1)).
      { unfold rows_spec in I. apply in_flat_map in I as (x & X1 & X2). destruct (find _ _) as [y|] eqn:E; [|destruct X2]. destruct X2 as [X2|[]]. injection X2 as -> ->. apply find_some in E. tauto. }
      rewrite write_row_join by (destruct cols; [congruence|discriminate]). unfold row_text. f_equal. f_equal. rewrite map_map. apply map_ext. intros [f c]. cbn [fst snd].
      unfold JoinModel.oc_value. cbn [JoinModel.oc_file JoinModel.oc_col]. rewrite get_cols.
      destruct f as [|[|f]]; cbn [nth]; [rewrite PC by (apply L0, IA); reflexivity|rewrite PC by (apply L1, IA); reflexivity|].
      replace (match f with 0 | _ => tl_new end) with tl_new by (destruct f; reflexivity). replace (match f with 0 | _ => @nil N end) with (@nil N) by (destruct f; reflexivity).
      destruct c as [|[|c]]; reflexivity.
  - apply map_ext_in. intros [n nm] I. cbn [fst snd]. f_equal. rewrite Forall_forall in AS. specialize (AS _ I). specialize (AH _ I). cbn [fst] in AS, AH.
    assert (HT : forall t f, opened join_mode t f -> sh_names f = sh_names f -> sh_head f <> [] \/ sh_lines f = [] -> (sh_head f = [] -> sh_names f = []) -> header_text t = sh_head f).
    { intros t f (H1 & H2 & _) _ _ HN. unfold header_text. rewrite H1, H2. destruct (sh_head f); auto. rewrite HN; auto. }
    assert (HS : forall s f, shows utf8_ok join_mode s f -> sh_head f <> [] \/ sh_lines f = [] -> sh_head f = [] -> sh_names f = []).
    { intros s f (_ & [(_ & E)|(hd & s2 & _ & _ & E & _)]) [D|D] H; try congruence. rewrite E, H, D. reflexivity. }
    assert (TL : forall l, concat (map tl_line (map (proc join_mode) l)) = concat l) by (intros l; f_equal; rewrite map_map; apply map_id).
    destruct AS as [-> | ->]; cbn [N.eqb Pos.eqb] in *; cbn [N.to_nat Pos.to_nat Pos.iter_op Nat.add Nat.sub nth_error].
    + change (nth_error [t0; t1] _) with (Some t0). cbn iota. rewrite (HT t0 f0); auto; [|apply (HS s0); auto]. f_equal. apply TL.
    + change (nth_error [t0; t1] _) with (Some t1). cbn iota. rewrite (HT t1 f1); auto; [|apply (HS s1); auto]. f_equal. apply TL.
Qed.
Lemma plain_keyed : forall ws, Forall (fun w => plain_kind (wk_cmp w)) ws -> total_preorder (keyed exp10 ws).
Proof.
  intros ws F. unfold keyed.
  assert (E : forall x y : nat * bytes, first_answer (map (answers exp10 (fst x) (fst y) (fields (snd x)) (fields (snd y))) ws) = first_diff (fun w => answers exp10 (fst x) (fst y) (fields (snd x)) (fields (snd y)) w) ws).
  { intros x y. clear. induction ws as [|w ws IH]; [reflexivity|]. cbn [map first_answer first_diff]. destruct (answers _ _ _ _ _ w); auto. }
  apply (preorder_key (fun x => x) (fun x y : nat * bytes => first_diff (fun w => answers exp10 (fst x) (fst y) (fields (snd x)) (fields (snd y)) w) ws)); [|auto].
  apply (first_diff_preorder ws (fun w (x y : nat * bytes) => answers exp10 (fst x) (fst y) (fields (snd x)) (fields (snd y)) w)). eapply Forall_impl; [|exact F]. intros w O. unfold answers.
  assert (Q : total_preorder (fun x y : nat * bytes => c_comp exp10 (wk_cmp w) (nth (N.to_nat (wk_pos w (fst x))) (fields (snd x)) []) (nth (N.to_nat (wk_pos w (fst y))) (fields (snd y)) []))).
  { apply (preorder_key (fun x : nat * bytes => nth (N.to_nat (wk_pos w (fst x))) (fields (snd x)) []) (c_comp exp10 (wk_cmp w))); [|auto]. apply orderly_preorder, plain_orderly, O. }
  destruct (wk_rev w); cbn [directed]; [apply rev_preorder; exact Q|exact Q].
Qed.
Lemma joins : forall args ws askss alsos outs s0 s1 f0 f1 cols,
  join_known args -> values (bs "key") args (map text_of_key ws) -> values (bs "output") args (map output_text askss) ->
  values (bs "file") args outs -> values (bs "also") args (map also_text alsos) ->
  Forall (wanted_ok letter alnum [sh_names f0; sh_names f1]) ws -> Forall (fun w => plain_kind (wk_cmp w)) ws ->
  Forall (fun a => a <> [] /\ Forall (ask_ok letter alnum) a) askss ->
  (N.of_nat (List.length (sh_names f0)) < 2 ^ 64)%N -> (N.of_nat (List.length (sh_names f1)) < 2 ^ 64)%N ->
  out_columns (maker match_make) (keys_or ws) [sh_names f0; sh_names f1] (concat askss) cols -> cols <> [] ->
  Forall (fun a => fst a = 1%N \/ fst a = 2%N) alsos -> NoDup (map fst alsos) ->
  shows utf8_ok join_mode s0 f0 -> shows utf8_ok join_mode s1 f1 ->
  (forall a, In a alsos -> let f := if (fst a =? 1)%N then f0 else f1 in sh_head f <> [] \/ sh_lines f = []) ->
  let ord := keyed exp10 (keys_or ws) in
  ordered_by ord (of_file 0) (sh_lines f0) -> strictly_by ord (of_file 1) (sh_lines f1) ->
  join_main args [s0; s1] =
  Ok ((last outs (bs "-"),
       match sh_head f0 with [] => [] | _ => headline (names_of cols [sh_names f0; sh_names f1]) end ++
       concat (map (fun p => row_text cols [fst p; snd p]) (rows_spec ord (of_file 0) (of_file 1) (sh_lines f0) (sh_lines f1)))) ::
      map (fun a => (snd a, if (fst a =? 1)%N then sh_head f0 ++ concat (lone_left ord (of_file 0) (of_file 1) (sh_lines f0) (sh_lines f1))
                            else sh_head f1 ++ concat (lone_right ord (of_file 0) (of_file 1) (sh_lines f0) (sh_lines f1)))) alsos).
Proof.
  intros args ws askss alsos outs s0 s1 f0 f1 cols K VK VO VF VA W PK AO B0 B1 OC CN AS AD S0 S1 AH ord SL UR. apply (joins_by args ws askss alsos outs s0 s1 f0 f1 cols); auto.
  exists ord. split; [|auto]. apply plain_keyed. unfold keys_or. destruct ws; [constructor; [left; reflexivity|constructor]|auto].
Qed.
End Tool.
