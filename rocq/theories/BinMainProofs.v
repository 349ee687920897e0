(** Proofs on the binsearch tool. *)
From Coq Require Import String List NArith ZArith Bool Arith Lia Sorting.Sorted.
Open Scope list_scope.
Import ListNotations.
From Verif Require Import Base TextModel TextSpec TextProofs StrModel StrSpec StrProofs StrProps FloatModel ReadModel HdrModel HdrSpec HdrProofs HeadModel MatchModel MatchText CompModel CompSpec OrdProofs LineProofs IpProofs RawSplitProofs
  ToolModel KeyModel KeySpec KeyProofs OrderSpec OrderProofs UniqMainProofs BinModel BinSpec BinProofs BinMain BinMainSpec.
From Verif Require JoinProps.
Close Scope Z_scope. Open Scope nat_scope.

(** * Options *)
Lemma do_set_ok p : piece_small p -> do_set (piece_text p) = Ok (N.to_nat (piece_yes p), N.to_nat (piece_no p)).
Proof.
  destruct p as [n|y n]; cbn [piece_small piece_text piece_yes piece_no]; unfold do_set.
  - intros H. rewrite split_on_none by (apply print_no; lia). rewrite to_usize_whole_print by auto. reflexivity.
  - intros [H1 H2]. rewrite JoinProps.split_on_sep by (apply print_no; lia). rewrite split_on_none by (apply print_no; lia). rewrite !to_usize_whole_print by auto. reflexivity.
Qed.
Lemma no_comma p : ~ In 44%N (piece_text p).
Proof.
  destruct p as [n|y n]; cbn [piece_text]; [apply print_no; lia|]. intros I. apply in_app_iff in I as [I|[I|I]]; [|discriminate|]; revert I; apply print_no; lia.
Qed.
Definition ctx_of (c : ctx_spec) : context :=
  mkctx (N.to_nat (piece_yes (ctx_before c))) (N.to_nat (piece_no (ctx_before c))) (N.to_nat (piece_yes (ctx_after c))) (N.to_nat (piece_no (ctx_after c))).
Lemma ctx_set_ok c : ctx_small c -> ctx_set (ctx_text c) = Ok (ctx_of c).
Proof.
  destruct c as [p|p q]; cbn [ctx_small ctx_text]; unfold ctx_set.
  - intros H. rewrite split_on_none by apply no_comma. rewrite do_set_ok by auto. reflexivity.
  - intros [H1 H2]. rewrite JoinProps.split_on_sep by apply no_comma. rewrite split_on_none by apply no_comma. rewrite !do_set_ok by auto. reflexivity.
Qed.
Definition fn_of (f : fname_spec) : fncol := mkfn (fname_col f) (fname_parts f).
Lemma fn_set_ok f : fname_fit f -> fn_set (fname_text f) = Ok (fn_of f).
Proof.
  destruct f as [s n|n|s]; cbn [fname_fit fname_text]; unfold fn_of; cbn [fname_col fname_parts]; unfold fn_set.
  - intros [H1 H2]. rewrite split_once_app by auto. rewrite to_usize_whole_print by auto. cbn [rbind]. destruct s; reflexivity.
  - intros H. rewrite split_once_none by (apply print_no; lia). rewrite to_usize_whole_print by auto. destruct (print_N_head n) as (c & r & E & D & _). rewrite E, D. reflexivity.
  - intros [H1 H2]. destruct s as [|ch s]; [reflexivity|]. rewrite split_once_none by auto. unfold is_digit.
    destruct (N.leb_spec 48 ch); cbn [andb]; [|reflexivity]. destruct (N.leb_spec ch 57); [lia|reflexivity].
Qed.

(** * Lines *)
Lemma bare_whole t : bare (t ++ [NL]) = t.
Proof. unfold bare. rewrite last_last, N.eqb_refl. apply removelast_last. Qed.
Lemma bare_none t : ~ In NL t -> bare t = t.
Proof.
  intros N. unfold bare. destruct (N.eqb_spec (last t 0%N) NL) as [E|]; auto. destruct t as [|c t]; [discriminate|]. exfalso. apply N. rewrite <- E.
  destruct (exists_last (l := c :: t)) as (a & x & ->); [discriminate|]. rewrite last_last. apply in_app_iff. cbn; auto.
Qed.
Definition a_line (l : bytes) : Prop := whole l \/ ~ In NL l.
Lemma get_col_line l i : a_line l -> get_col l i TAB = nth i (line_cols l) [].
Proof.
  intros [(t & -> & N)|N]; unfold line_cols.
  - rewrite bare_whole. apply get_col_is; auto. discriminate.
  - rewrite bare_none by auto. unfold get_col. rewrite bsplit_split_on. destruct (nth_error (split_on TAB l) i) as [s|] eqn:E.
    + rewrite (nth_error_nth _ _ _ E). change (cut_nl s = s). apply cut_nl_none. apply nth_error_In in E.
      assert (F : Forall (fun c => c <> NL) s). { apply (split_on_forall _ TAB l); auto. apply Forall_forall. intros c I ->. auto. }
      intros I. rewrite Forall_forall in F. exact (F NL I eq_refl).
    + apply nth_error_None in E. rewrite nth_overflow by auto. reflexivity.
Qed.
Lemma split_on_len d : forall l f, In f (split_on d l) -> List.length f <= List.length l.
Proof.
  intros l f I. rewrite <- (join_split d l). clear -I. induction (split_on d l) as [|x xs IH]; [destruct I|]. destruct I as [->|I].
  - destruct xs; [cbn [join]; lia|]. rewrite join_cons by discriminate. rewrite app_length. lia.
  - specialize (IH I). destruct xs; [destruct I|]. rewrite join_cons by discriminate. rewrite app_length. cbn [List.length]. lia.
Qed.
Lemma bare_len l : List.length (bare l) <= List.length l.
Proof. unfold bare. destruct (last l 0 =? NL)%N; auto. rewrite removelast_firstn_len, firstn_length. lia. Qed.
Lemma col_len l i : List.length (nth i (line_cols l) []) <= List.length l.
Proof.
  destruct (nth_in_or_default i (line_cols l) []) as [I|E]; [|rewrite E; cbn; lia]. unfold line_cols in *. apply split_on_len in I. pose proof (bare_len l). lia.
Qed.
Lemma cut_lines_are data l : In l (cut_lines data) -> a_line l /\ l <> [] /\ List.length l <= List.length data.
Proof.
  intros I. pose proof (cut_ok data) as OK. split; [|split; [apply (line_nonempty _ _ OK I)|]].
  - clear -I OK. induction OK as [|x [N1 N2]|x ls W OK IH]; [destruct I|destruct I as [<-|[]]; right; auto|]. destruct I as [<-|I]; [left; auto|auto].
  - rewrite <- (cut_concat data). clear -I. induction (cut_lines data) as [|x xs IH]; [destruct I|]. cbn [concat]. rewrite app_length. destruct I as [->|I]; [lia|]. specialize (IH I). lia.
Qed.

Section Tool.
Variable utf8_ok name_ok : bytes -> bool.
Variable uni_alpha uni_alnum : N -> bool.
Notation letter := (alphabetic uni_alpha).
Notation alnum := (alphanumeric uni_alnum).
Variable expr : Type.
Variable expr_new : bytes -> res expr.
Variable expr_lookup : expr -> list bytes -> res expr.
Variable expr_eval : expr -> textline -> f64.
Variable expr_eval_line : expr -> bytes -> byte -> f64.
Variable expr_none : f64.
Variable exp10 : Z -> f64.

(** * Keys *)
Definition seek_key (w : wanted) (k : key expr) : Prop :=
  exists x r, k = mkkey (wk_rev w) (KCol (x :: r) (MCmp (wk_cmp w))) /\ of_col (for_file (wk_cols w) 0) x.
Lemma key_made w : wanted_ok letter alnum [] w -> exists k, make_line_comp uni_alpha uni_alnum expr expr_new (text_of_key w) = Ok k /\ seek_key w k.
Proof.
  intros (H1 & H2 & H3 & H4 & H5 & H6 & _). destruct (reads uni_alpha uni_alnum expr expr_new (wk_cols w) (wk_tail w) _ _ H2 H3 H4 H5) as (rev & R1 & R2).
  rewrite (iff_bool rev (wk_rev w) _ R1 H6) in R2. unfold text_of_key. rewrite R2. eexists. split; [reflexivity|]. unfold seek_key, key_of.
  destruct (wk_cols w) as [|c cols]; [congruence|]. cbn [map]. do 2 eexists. split; [reflexivity|]. unfold for_file. cbn [List.length Nat.min nth]. apply of_col_of with (uni_alpha := uni_alpha) (uni_alnum := uni_alnum). inversion H2; auto.
Qed.
Lemma keys_made ws : Forall (wanted_ok letter alnum []) ws -> exists ks, Forall2 (fun w k => make_line_comp uni_alpha uni_alnum expr expr_new (text_of_key w) = Ok k) ws ks /\ Forall2 seek_key ws ks.
Proof.
  induction 1 as [|w ws H F (ks & A & B)]; [exists []; auto|]. destruct (key_made w H) as (k & K1 & K2). exists (k :: ks). auto.
Qed.
Definition seek_line (w : wanted) (i : N) (c : linecomp) : Prop :=
  exists cols, c = mklc (wk_rev w) TAB (LCol cols (mkcomp (wk_rev w) (wk_cmp w))) /\ cols 0 = N.to_nat i.
Lemma key_looks w k names i : seek_key w k -> stands (for_file (wk_cols w) 0) names i ->
  exists k' c, key_lookup expr expr_new expr_lookup k names 0 = Ok k' /\ seek_key w k' /\ key_line expr expr_eval expr_eval_line expr_none k' = Some c /\ seek_line w i c.
Proof.
  intros (x & r & -> & O) S. destruct (lookup_of uni_alpha uni_alnum expr expr_new expr_lookup _ x names i O S) as (y & Y1 & Y2 & Y3). unfold key_lookup. cbn [k_cmp k_rev].
  assert (G : grow (x :: r) (last (x :: r) ColModel.nc_new) 0 = x :: r) by (unfold grow; cbn [List.length Nat.sub repeat]; apply app_nil_r). rewrite G. cbn [nth]. rewrite Y1. cbn [rbind list_set].
  do 2 eexists. split; [reflexivity|]. split; [do 2 eexists; split; [reflexivity|auto]|]. split; [reflexivity|]. eexists. split; [reflexivity|]. cbn [nth]. rewrite Y3. reflexivity.
Qed.
Lemma keys_look ws ks names f : Forall2 seek_key ws ks -> Forall (fun w => stands (for_file (wk_cols w) 0) names (wk_pos w f)) ws ->
  exists ks' cs, keys_lookup expr expr_new expr_lookup ks names 0 = Ok ks' /\ Forall2 seek_key ws ks' /\ key_lines expr expr_eval expr_eval_line expr_none ks' = Some cs /\
    Forall2 (fun w c => seek_line w (wk_pos w f) c) ws cs.
Proof.
  induction 1 as [|w k ws ks K F IH]; intros S; [exists [], []; auto|]. inversion S as [|? ? S1 S2]; subst. destruct (key_looks w k names _ K S1) as (k' & c & A1 & A2 & A3 & A4).
  destruct (IH S2) as (ks' & cs & B1 & B2 & B3 & B4). exists (k' :: ks'), (c :: cs). cbn [keys_lookup key_lines]. rewrite A1. cbn [rbind]. rewrite B1, A3, B3. auto.
Qed.
(** The value against a line. *)
Lemma self_line w i c v l : seek_line w i c -> a_line l -> self_len (wk_cmp w) v (nth (N.to_nat i) (line_cols l) []) ->
  lc_comp_self_line exp10 c v l = directed (wk_rev w) (c_comp exp10 (wk_cmp w) v (nth (N.to_nat i) (line_cols l) [])).
Proof.
  intros (cols & -> & E) A L. unfold lc_comp_self_line, lc_reverse. cbn [lc_rev lc_cmp lc_delim l_comp_self_line]. rewrite E, get_col_line by auto.
  unfold cp_comp_self. cbn [cp_cmpr]. destruct (comp_self_comp (wk_cmp w) exp10 _ _ L) as [-> _]. apply directed_rev.
Qed.
Lemma self_lines f ws cs : Forall2 (fun w c => seek_line w (wk_pos w f) c) ws cs -> forall vs l, a_line l ->
  (Exists (fun w => wk_cmp w = CLen) ws -> (N.of_nat (List.length l) < 2 ^ 32)%N /\ Forall (fun v => N.of_nat (List.length v) < 2 ^ 32)%N vs) ->
  ll_comp_self_line exp10 cs vs l = value_order exp10 f ws vs l.
Proof.
  intros F. unfold ll_comp_self_line, value_order. induction F as [|w c ws cs K F IH]; intros vs l A L; [reflexivity|]. destruct vs as [|v vs]; [reflexivity|].
  cbn [combine map first_diff fst snd first_answer]. rewrite (self_line w (wk_pos w f) c v l K A).
  - rewrite IH; [destruct (directed _ _); reflexivity|auto|]. intros E. destruct L as [L1 L2]; [apply Exists_cons_tl; auto|]. inversion L2; auto.
  - intros E. destruct L as [L1 L2]; [apply Exists_cons_hd; auto|]. inversion L2; subst. split; auto. pose proof (col_len l (N.to_nat (wk_pos w f))). lia.
Qed.

(** * Files *)
Lemma first_line data : firstn (find_end data 0) data = hd [] (cut_lines data).
Proof.
  pose proof (cut_ok data) as OK. pose proof (cut_concat data) as E. destruct (cut_lines data) as [|x r]; [cbn in E; subst; reflexivity|]. cbn [hd].
  assert (X : x <> []) by (apply (line_nonempty _ x OK); left; auto).
  pose proof (find_end_in [] x r 0 OK) as F. cbn [app len concat List.length Nat.add] in F. unfold len in F. cbn [concat List.length Nat.add] in F.
  cbn [concat] in E. rewrite E in F. rewrite F by (destruct x; [congruence|cbn; lia]). rewrite <- E, firstn_app, Nat.sub_diag, firstn_all. apply app_nil_r.
Qed.
Lemma cut_head x r : whole x -> cut_lines (x ++ r) = x :: cut_lines r.
Proof.
  intros (t & -> & N). induction t as [|c t IH]; [reflexivity|]. rewrite <- !app_comm_cons. cbn [cut_lines]. destruct (N.eqb_spec c NL) as [->|H]; [exfalso; apply N; left; auto|].
  rewrite IH by (intros I; apply N; right; auto). reflexivity.
Qed.
Lemma split_nl t : List.length (split_on TAB (t ++ [NL])) = List.length (split_on TAB t).
Proof. destruct (split_on_snoc TAB t NL) as (Y & z & E1 & E2). rewrite E1. cbn in E2. rewrite E2, !app_length. reflexivity. Qed.
Lemma count_cols l : a_line l -> List.length (split_on TAB l) = List.length (line_cols l).
Proof. intros [(t & -> & N)|N]; unfold line_cols; [rewrite bare_whole; apply split_nl|rewrite bare_none; auto]. Qed.
Lemma join_flat d (f : nat -> bytes) : forall l x, join d (x :: map f l) = x ++ flat_map (fun i => d :: f i) l.
Proof.
  induction l as [|i l IH]; intros x; [cbn; rewrite app_nil_r; reflexivity|]. cbn [map flat_map]. rewrite join_cons by discriminate. rewrite IH. reflexivity.
Qed.
Lemma made_up_names n : map (get_part (fake_cdx n TAB)) (split_plain (fake_cdx n TAB) TAB) = CDX :: made_up n.
Proof.
  unfold fake_cdx. rewrite app_assoc, <- (join_flat TAB (fun i => bs "c" ++ print_N (N.of_nat i))). rewrite split_plain_nl by discriminate.
  apply split_on_join; [discriminate|]. constructor; [vm_compute; intuition discriminate|]. apply Forall_map, Forall_forall. intros i _ I. apply in_app_iff in I as [I|I].
  - vm_compute in I. intuition discriminate.
  - revert I. apply print_no. vm_compute. intuition discriminate.
Qed.
Lemma mm_new_ok b : bfile_ok utf8_ok b -> exists m, mm_new utf8_ok (bf_data b) = Ok m /\ mm_data m = bf_data b /\ mm_names m = bf_names b /\
  mm_has m = bf_head b /\ (bf_head b = true -> mm_head m = headline (bf_names b)).
Proof.
  destruct b as [path h names data]. unfold bfile_ok. cbn [bf_path bf_head bf_names bf_data]. intros [_ K]. destruct h.
  - destruct K as ((body & ->) & U & NE & F). 
    assert (W : whole (headline names)).
    { exists (bs " CDX" ++ TAB :: join TAB names). unfold headline. rewrite <- app_assoc. split; [reflexivity|]. intros I. apply in_app_iff in I as [I|[I|I]]; [vm_compute in I; intuition discriminate|discriminate I|].
      apply in_join in I as [I|(f & I1 & I2)]; [discriminate|]. rewrite Forall_forall in F. apply (F f I1). auto. }
    unfold mm_new. rewrite first_line, cut_head by auto. cbn [hd]. change (is_cdx (headline names ++ body)) with true. cbn iota.
    change (nth_error (headline names ++ body) 4) with (Some TAB). rewrite U.
    assert (L : find_end (headline names ++ body) 0 <> 0).
    { intros E. pose proof (first_line (headline names ++ body)) as X. rewrite cut_head, E in X by auto. discriminate X. }
    assert (N : map (get_part (headline names)) (split_plain (headline names) TAB) = CDX :: names).
    { replace (headline names) with ((CDX ++ TAB :: join TAB names) ++ [NL]) by (unfold headline; rewrite <- app_assoc; reflexivity). rewrite split_plain_nl by discriminate.
      change (CDX ++ TAB :: join TAB names) with (CDX ++ [TAB] ++ join TAB names).
      replace (CDX ++ [TAB] ++ join TAB names) with (join TAB (CDX :: names)) by (rewrite join_cons by auto; reflexivity).
      apply split_on_join; [discriminate|]. constructor; [vm_compute; intuition discriminate|]. eapply Forall_impl; [|exact F]. cbn. tauto. }
    rewrite N. eexists. split; [reflexivity|]. unfold mm_has. cbn [mm_data mm_names mm_len mm_head]. split; [reflexivity|]. split; [reflexivity|]. split; [apply Nat.ltb_lt; lia|reflexivity].
  - destruct K as (C & ->). unfold mm_new. replace (is_cdx data) with false.
    + rewrite first_line, made_up_names. eexists. split; [reflexivity|]. cbn [mm_data mm_names mm_len mm_head]. split; auto. split; [|split; [reflexivity|discriminate]].
      destruct (cut_lines data) as [|x r] eqn:E; [reflexivity|]. cbn [hd]. rewrite count_cols; auto. apply (cut_lines_are data). rewrite E. left; auto.
    + symmetry. unfold is_cdx. destruct (starts_with data CDX) eqn:E; auto. apply Base.starts_with_app in E as (r & ->). exfalso. apply C. reflexivity.
Qed.
Lemma bin_head_ok fs b m : mm_has m = bf_head b -> (bf_head b = true -> mm_head m = headline (bf_names b)) ->
  bf_names b <> [] \/ bf_head b = false -> bin_head (option_map fn_of fs) m = new_headline fs b.
Proof.
  intros H1 H2 NE. unfold bin_head, new_headline. rewrite H1. destruct (bf_head b); auto. rewrite (H2 eq_refl). destruct fs as [f|]; cbn [option_map]; auto.
  destruct NE as [NE|]; [|discriminate]. cbn [fn_of fn_name]. change (skipn 4 (headline (bf_names b))) with (TAB :: join TAB (bf_names b) ++ [NL]).
  unfold headline. rewrite join_cons by auto. rewrite <- app_assoc. reflexivity.
Qed.

(** The search in one file. *)
Lemma rank_order c lo m hi : Forall (fun l : bytes => c l = Gt) lo -> Forall (fun l => c l = Eq) m -> Forall (fun l => c l = Lt) hi -> in_order c (lo ++ m ++ hi).
Proof.
  intros A B C. unfold in_order. induction A as [|x lo E A IH].
  - cbn [app]. induction B as [|x m E B IH].
    + cbn [app]. induction C as [|x hi E C IH]; constructor; auto. rewrite E. eapply Forall_impl; [|exact C]. cbn. intros y ->. auto.
    + cbn [app]. constructor; auto. rewrite E. apply Forall_app. split; [eapply Forall_impl; [|exact B]|eapply Forall_impl; [|exact C]]; cbn; intros y ->; cbn; auto.
  - cbn [app]. constructor; auto. rewrite E. apply Forall_forall. intros y _. cbn. lia.
Qed.
Lemma search_ok ctx ws vs f b out cs name : search_of exp10 utf8_ok ctx ws vs f b out -> Forall2 (fun w c => seek_line w (wk_pos w f) c) ws cs ->
  search_main (ll_comp_self_line exp10 cs vs) (S (2 * List.length (bf_data b))) (ctx_of ctx) name (bf_data b) = Some (Ok (shown name out)).
Proof.
  intros (_ & _ & (S1 & S2 & S3) & (lo & m & hi & E & A & B & C & ->)) K. set (c := ll_comp_self_line exp10 cs vs). set (data := bf_data b) in *.
  assert (AG : forall l, In l (cut_lines data) -> c l = value_order exp10 f ws vs l).
  { intros l I. destruct (cut_lines_are data l I) as (L1 & L2 & L3). apply self_lines; auto. intros X. destruct (S1 X) as [X1 X2]. split; auto. lia. }
  assert (AB : c [] = value_order exp10 f ws vs []) by (apply self_lines; [auto|right; auto|intros X; destruct (S1 X) as [X1 X2]; split; auto; cbn; lia]).
  assert (A' : Forall (fun l => c l = Gt) lo). { apply Forall_forall. intros l I. rewrite AG by (rewrite E, !in_app_iff; auto). rewrite Forall_forall in A. auto. }
  assert (B' : Forall (fun l => c l = Eq) m). { apply Forall_forall. intros l I. rewrite AG by (rewrite E, !in_app_iff; auto). rewrite Forall_forall in B. auto. }
  assert (C' : Forall (fun l => c l = Lt) hi). { apply Forall_forall. intros l I. rewrite AG by (rewrite E, !in_app_iff; auto). rewrite Forall_forall in C. auto. }
  assert (O : in_order c (cut_lines data)) by (rewrite E; apply rank_order; auto).
  assert (BL : blanks_ok c (cut_lines data)). { intros I. rewrite (AG _ I), AB. split; [reflexivity|auto]. }
  assert (FU : 2 * List.length (cut_lines data) + 1 <= S (2 * List.length data)).
  { pose proof (lines_le_len (cut_lines data) (fun x => line_nonempty _ x (cut_ok data))) as X. unfold len in X. rewrite cut_concat in X. lia. }
  assert (FM : filter (matches c) (cut_lines data) = m) by (rewrite E; apply filter_matches; auto).
  assert (NG : forall l, In l (m ++ hi) -> c l <> Gt). { rewrite Forall_forall in B', C'. intros l I. apply in_app_iff in I as [I|I]; [rewrite B' by auto|rewrite C' by auto]; discriminate. }
  assert (FL : filter (above c) (cut_lines data) = lo) by (rewrite E; apply filter_above; auto; apply Forall_forall; auto).
  pose proof (search_main_ok c (ctx_of ctx) name data _ O BL FU) as SM. cbv zeta in SM. rewrite FM, FL in SM.
  assert (HI : skipn (List.length lo + List.length m) (cut_lines data) = hi) by (rewrite E, app_assoc, skipn_app_at; auto; rewrite app_length; auto). rewrite HI in SM.
  assert (ND : filter (fun l => negb (above c l)) (cut_lines data) <> [] \/ (exists q, data = q ++ [NL]) \/ before_non (ctx_of ctx) = 0).
  { destruct S3 as [X|[X|X]].
    - left. apply Exists_exists in X as (l & I & X). intros N. assert (J : In l (filter (fun l => negb (above c l)) (cut_lines data))).
      { apply filter_In. split; auto. unfold above. rewrite AG by auto. destruct (value_order exp10 f ws vs l); [auto|auto|congruence]. }
      rewrite N in J. destruct J.
    - right. left. destruct data as [|x d]; [discriminate|]. destruct (exists_last (l := x :: d)) as (q & y & Y); [discriminate|]. rewrite Y, last_last in X. subst y. eauto.
    - right. right. cbn [ctx_of before_non]. rewrite X. reflexivity. }
  specialize (SM ND). unfold lines_before, lines_after, lastn. destruct m as [|x m]; cbn [ctx_of before_non after_non before_match after_match] in SM; exact SM.
Qed.

(** * The options together *)
Notation args_from := (bin_args uni_alpha uni_alnum expr expr_new).
Lemma args_read : forall args, Forall (fun a => In (fst a) bin_options) args -> forall ws ks fts cs ps (c : bconf expr),
  values (bs "key") args (map text_of_key ws) -> Forall2 (fun w k => make_line_comp uni_alpha uni_alnum expr expr_new (text_of_key w) = Ok k) ws ks ->
  values (bs "filename") args (map fname_text fts) -> Forall fname_fit fts -> (bc_file c = None /\ List.length fts <= 1) \/ fts = [] ->
  values (bs "context") args (map ctx_text cs) -> Forall ctx_small cs -> values (bs "pattern") args ps ->
  bin_args uni_alpha uni_alnum expr expr_new c args = Ok (mkbc (bc_keys c ++ ks) (match fts with [] => bc_file c | f :: _ => Some (fn_of f) end)
    (last (map ctx_of cs) (bc_ctx c)) (bc_sub c) (last (map Some ps) (bc_pat c))).
Proof.
  induction args as [|[n v] args IH]; intros KN ws ks fts cs ps c V1 K V2 FF FO V3 CS V4.
  - apply val_none in V1, V2, V3, V4. destruct ws; [|discriminate]. destruct fts; [|discriminate]. destruct cs; [|discriminate]. subst ps. inversion K; subst.
    cbn [bin_args map last]. rewrite app_nil_r. destruct c; reflexivity.
  - inversion KN as [|? ? K1 K2]; subst. cbn [fst] in K1. unfold bin_options in K1. cbn [In] in K1. cbn [bin_args].
    destruct K1 as [<-|[<-|[<-|[<-|[]]]]].
    + apply val_take in V1 as (r & E & V1). apply val_skip in V2; [|discriminate]. apply val_skip in V3; [|discriminate]. apply val_skip in V4; [|discriminate].
      destruct ws as [|w ws]; [discriminate|]. cbn [map] in E. injection E as <- <-. inversion K as [|? k ? ks' Kw Ks]; subst.
      unfold bin_arg. change (beq (bs "key") (bs "key")) with true. cbn iota. rewrite Kw. cbn [rbind].
      rewrite (IH K2 ws ks' fts cs ps _ V1 Ks V2 FF) by auto. cbn [bc_keys bc_file bc_ctx bc_sub bc_pat]. rewrite <- app_assoc. reflexivity.
    + apply val_skip in V1; [|discriminate]. apply val_take in V2 as (r & E & V2). apply val_skip in V3; [|discriminate]. apply val_skip in V4; [|discriminate].
      destruct fts as [|f fts]; [discriminate|]. cbn [map] in E. injection E as <- <-. inversion FF as [|? ? F1 F2]; subst. destruct FO as [[FN FL]|]; [|discriminate].
      destruct fts; [|cbn in FL; lia]. unfold bin_arg. change (beq (bs "filename") (bs "key")) with false. change (beq (bs "filename") (bs "filename")) with true. cbn iota.
      rewrite FN, fn_set_ok by auto. cbn [rbind]. rewrite (IH K2 ws ks [] cs ps _ V1 K V2) by auto. reflexivity.
    + apply val_skip in V1; [|discriminate]. apply val_skip in V2; [|discriminate]. apply val_take in V3 as (r & E & V3). apply val_skip in V4; [|discriminate].
      destruct cs as [|x cs]; [discriminate|]. cbn [map] in E. injection E as <- <-. inversion CS as [|? ? C1 C2]; subst.
      unfold bin_arg. change (beq (bs "context") (bs "key")) with false. change (beq (bs "context") (bs "filename")) with false. change (beq (bs "context") (bs "context")) with true. cbn iota.
      rewrite ctx_set_ok by auto. cbn [rbind]. rewrite (IH K2 ws ks fts cs ps _ V1 K V2 FF) by auto. cbn [bc_keys bc_file bc_ctx bc_sub bc_pat map]. rewrite last_cons2. reflexivity.
    + apply val_skip in V1; [|discriminate]. apply val_skip in V2; [|discriminate]. apply val_skip in V3; [|discriminate]. apply val_take in V4 as (r & -> & V4).
      unfold bin_arg. change (beq (bs "pattern") (bs "key")) with false. change (beq (bs "pattern") (bs "filename")) with false. change (beq (bs "pattern") (bs "context")) with false.
      change (beq (bs "pattern") (bs "subdelim")) with false. change (beq (bs "pattern") (bs "pattern")) with true. cbn iota. cbn [rbind].
      rewrite (IH K2 ws ks fts cs r _ V1 K V2 FF) by auto. cbn [bc_keys bc_file bc_ctx bc_sub bc_pat map]. rewrite last_cons2. reflexivity.
Qed.
Lemma values_read ws (ks : list (key expr)) pat vs : ws <> [] -> List.length ks = List.length ws -> values_of ws pat vs -> key_values expr ks pat 44 = Ok vs.
Proof.
  intros NE L [E V]. unfold key_values, ll_values. rewrite map_length, L. destruct ws as [|w [|w2 ws]]; [congruence|subst; reflexivity|]. cbn [List.length Nat.eqb].
  destruct V as (N & -> & F). rewrite bsplit_split_on, split_on_join, E by auto. cbn [List.length]. rewrite Nat.eqb_refl. reflexivity.
Qed.

(** * The loop *)
Notation files_from := (bin_files utf8_ok name_ok expr expr_new expr_lookup expr_eval expr_eval_line expr_none exp10).
Definition texts_with (fs : option fname_spec) (flags : list bool) (bfs : list bfile) (outs : list (list bytes)) : bytes :=
  concat (map (fun x : bool * (bfile * list bytes) => (if fst x then new_headline fs (fst (snd x)) else []) ++ shown (in_front fs (bf_path (fst (snd x)))) (snd (snd x))) (combine flags (combine bfs outs))).
Lemma files_ok md fs ctx ws vs (c : bconf expr) : bc_file c = option_map fn_of fs -> bc_ctx c = ctx_of ctx ->
  forall bfs n outs, each (search_of exp10 utf8_ok ctx ws vs) n bfs outs -> forall ks ck flags, Forall2 seek_key ws ks ->
  check_all utf8_ok name_ok md ck (map (new_headline fs) bfs) = Ok flags ->
  files_from md c ks vs ck (map (fun b => (bf_path b, bf_data b)) bfs) = (texts_with fs flags bfs outs, Ok tt).
Proof.
  intros CF CX bfs n outs E. induction E as [n|n b bfs o outs S E IH]; intros ks ck flags K C.
  - cbn [map check_all] in C. injection C as <-. reflexivity.
  - cbn [map check_all bin_files] in *. pose proof S as (B & P & _).
    destruct (mm_new_ok b B) as (m & -> & M1 & M2 & M3 & M4). cbn [need]. rewrite CF, CX.
    rewrite (bin_head_ok fs b m M3 M4); [|destruct B as [_ B]; destruct (bf_head b); [left; apply B|right; reflexivity]].
    destruct (check utf8_ok name_ok md ck (new_headline fs b)) as [r ck'] eqn:CK. destruct r as [fl| |]; try discriminate. cbn [rbind] in C.
    destruct (check_all utf8_ok name_ok md ck' (map (new_headline fs) bfs)) as [fls| |] eqn:CA; try discriminate. injection C as <-. cbn [need].
    rewrite M2. destruct (keys_look ws ks (bf_names b) n K P) as (ks' & cs & L1 & L2 & L3 & L4). rewrite L1. cbn [need]. rewrite L3, M1.
    assert (PF : match option_map fn_of fs with Some f => Some (tail_path_u8 (bf_path b) (fn_tail f) 47) | None => None end = in_front fs (bf_path b)).
    { destruct fs as [f|]; [|reflexivity]. cbn [option_map in_front]. f_equal. cbn [fn_of fn_tail]. apply c11_tail_path_file, B. }
    rewrite PF, (search_ok ctx ws vs n b o cs _ S L4). cbn [need]. rewrite (IH ks' ck' fls L2 CA). unfold texts_with, say. cbn [combine map concat fst snd].
    rewrite <- app_assoc. reflexivity.
Qed.

(** * The tool *)
Theorem bin_tool md args ws fs ctx pat vs bfs outs flags : bin_says letter alnum args ws fs ctx pat -> values_of (keys_used ws) pat vs ->
  each (search_of exp10 utf8_ok ctx (keys_used ws) vs) 0 bfs outs -> bfs <> [] -> check_all utf8_ok name_ok md ck_new (map (new_headline fs) bfs) = Ok flags ->
  bin_main utf8_ok name_ok uni_alpha uni_alnum expr expr_new expr_lookup expr_eval expr_eval_line expr_none exp10 md args (map (fun b => (bf_path b, bf_data b)) bfs) =
    (texts_with fs flags bfs outs, Ok tt).
Proof.
  intros (A1 & A2 & A3 & A4 & A5 & (cs & A6 & A7 & ->) & (ps & A8 & A9 & ->)) V E NE C. destruct (keys_made ws A3) as (ks & K1 & K2).
  unfold bin_main. set (fts := match fs with Some f => [f] | None => [] end).
  assert (FT : map fname_text fts = match fs with Some f => [fname_text f] | None => [] end) by (destruct fs; reflexivity).
  rewrite (args_read args A1 ws ks fts cs ps (bconf_new expr) A2 K1); auto; [|rewrite FT; auto|unfold fts; destruct fs; repeat constructor; auto|left; split; auto; unfold fts; destruct fs; cbn; lia].
  cbn [need]. cbn [bc_keys bc_file bc_ctx bc_sub bc_pat bconf_new app].
  assert (PL : last (map (@Some bytes) ps) None = Some (last ps [])). { clear -A9. induction ps as [|x [|y ps] IH]; [congruence|reflexivity|]. cbn [map last] in *. apply IH. discriminate. }
  rewrite PL. destruct bfs as [|b bfs]; [congruence|].
  assert (CX : last (map ctx_of cs) (mkctx 0 0 0 0) = ctx_of (last cs no_context)). { clear. induction cs as [|x [|y cs] IH]; [reflexivity|reflexivity|]. cbn [map last] in *. apply IH. }
  assert (CF : match fts with [] => @None fncol | f :: _ => Some (fn_of f) end = option_map fn_of fs) by (destruct fs; reflexivity).
  assert (KU : exists ks', match ks with [] => rbind (make_line_comp uni_alpha uni_alnum expr expr_new (bs "1")) (fun k => Ok [k]) | k1 :: l1 => Ok (k1 :: l1) end = Ok ks' /\ Forall2 seek_key (keys_used ws) ks').
  { destruct K2 as [|w k ws' ks' K2a K2b]; [|exists (k :: ks'); split; [reflexivity|constructor; auto]].
    destruct (key_made first_column) as (k & E1 & E2).
    { unfold first_column, wanted_ok. cbn [wk_cols wk_tail wk_kind wk_cmp wk_rev wk_pos tail_words tail_ok]. split; [discriminate|]. split; [repeat constructor; cbn; lia|]. split; [exact I|].
      split; [right; split; [constructor|reflexivity]|]. split; [right; right; right; left; reflexivity|]. split; [|intros f names X; destruct f; discriminate].
      split; [discriminate|]. intros (w & [] & _). }
    change (text_of_key first_column) with (bs "1") in E1. rewrite E1. exists [k]. split; [reflexivity|]. constructor; auto. }
  destruct KU as (ks' & -> & KU). cbn [need]. rewrite (values_read (keys_used ws) ks' _ vs); auto; [|destruct ws; discriminate|symmetry; clear -KU; induction KU; cbn; auto].
  cbn [need map]. refine (files_ok md fs (last cs no_context) (keys_used ws) vs _ _ _ (b :: bfs) 0 outs E ks' ck_new flags KU C); cbn [bc_file bc_ctx]; auto.
Qed.
End Tool.

(** * Sorted lines *)
Section Sorted.
Variable exp10 : Z -> f64.
Definition point := nat -> bytes.
Definition at_points (kw : nat * wanted) (p q : point) : comparison := directed (wk_rev (snd kw)) (c_comp exp10 (wk_cmp (snd kw)) (p (fst kw)) (q (fst kw))).
Lemma points_preorder kws : Forall (fun kw => plain_kind (wk_cmp (snd kw))) kws -> total_preorder (fun p q => first_diff (fun kw => at_points kw p q) kws).
Proof.
  intros F. apply first_diff_preorder. eapply Forall_impl; [|exact F]. intros [i w] P. cbn [snd] in P. unfold at_points. cbn [fst snd].
  assert (Q : total_preorder (fun p q : point => c_comp exp10 (wk_cmp w) (p i) (q i))).
  { apply (preorder_key (fun p : point => p i) (c_comp exp10 (wk_cmp w))); [|reflexivity]. apply orderly_preorder, plain_orderly, P. }
  destruct (wk_rev w); cbn [directed]; auto. apply rev_preorder in Q. exact Q.
Qed.
Lemma first_diff_answer {A} (f : A -> comparison) l : first_diff f l = first_answer (map f l).
Proof. induction l as [|x l IH]; [reflexivity|]. cbn [first_diff map first_answer]. destruct (f x); auto. Qed.
Definition value_point (vs : list bytes) : point := fun i => nth i vs [].
Definition line_point (f : nat) (ws : list wanted) (l : bytes) : point := fun i => nth (N.to_nat (wk_pos (nth i ws first_column) f)) (line_cols l) [].
Definition numbered (ws : list wanted) : list (nat * wanted) := combine (seq 0 (List.length ws)) ws.
Lemma numbered_map {B} (g : nat * wanted -> B) (h : wanted * bytes -> B) : forall ws vs k, List.length vs = List.length ws ->
  (forall i w v, nth_error ws i = Some w -> nth_error vs i = Some v -> g (k + i, w) = h (w, v)) -> map g (combine (seq k (List.length ws)) ws) = map h (combine ws vs).
Proof.
  induction ws as [|w ws IH]; intros vs k L H; [reflexivity|]. destruct vs as [|v vs]; [discriminate|]. cbn [List.length seq combine map]. f_equal.
  - rewrite <- (H 0 w v); auto. rewrite Nat.add_0_r. reflexivity.
  - apply IH; [cbn in L; lia|]. intros i w' v' E1 E2. rewrite <- (H (S i) w' v'); auto. do 2 f_equal. lia.
Qed.
Lemma value_points f ws vs l : List.length vs = List.length ws ->
  value_order exp10 f ws vs l = first_diff (fun kw => at_points kw (value_point vs) (line_point f ws l)) (numbered ws).
Proof.
  intros L. rewrite first_diff_answer. unfold value_order, numbered. f_equal. symmetry. apply numbered_map; auto. intros i w v E1 E2. cbn [Nat.add]. unfold at_points, value_point, line_point. cbn [fst snd].
  rewrite (nth_error_nth _ _ _ E2), (nth_error_nth _ _ _ E1). reflexivity.
Qed.
Lemma numbered_map1 {B} (g : nat * wanted -> B) (h : wanted -> B) : forall ws k,
  (forall i w, nth_error ws i = Some w -> g (k + i, w) = h w) -> map g (combine (seq k (List.length ws)) ws) = map h ws.
Proof.
  induction ws as [|w ws IH]; intros k H; [reflexivity|]. cbn [List.length seq combine map]. f_equal.
  - rewrite <- (H 0 w); auto. rewrite Nat.add_0_r. reflexivity.
  - apply IH. intros i w' E1. rewrite <- (H (S i) w'); auto. do 2 f_equal. lia.
Qed.
Lemma line_points f ws a b : file_order exp10 f ws a b = first_diff (fun kw => at_points kw (line_point f ws a) (line_point f ws b)) (numbered ws).
Proof.
  rewrite first_diff_answer. unfold file_order, numbered. f_equal. symmetry. apply numbered_map1. intros i w E1. cbn [Nat.add]. unfold at_points, line_point, answers. cbn [fst snd].
  rewrite (nth_error_nth _ _ _ E1). reflexivity.
Qed.
Lemma sorted_in_order f ws vs ls : List.length vs = List.length ws -> Forall (fun w => plain_kind (wk_cmp w)) ws -> SortSpec.sorted (file_order exp10 f ws) ls ->
  in_order (value_order exp10 f ws vs) ls.
Proof.
  intros L P S. assert (T : total_preorder (fun p q => first_diff (fun kw => at_points kw p q) (numbered ws))).
  { apply points_preorder. apply Forall_forall. intros [i w] I. cbn [snd]. rewrite Forall_forall in P. apply P. apply in_combine_r in I. auto. }
  unfold SortSpec.sorted in S. induction S as [|x ls S IH F]; constructor; auto. eapply Forall_impl; [|exact F]. cbn. intros y Hxy. rewrite line_points in Hxy. rewrite !value_points by auto.
  destruct T as (H1 & H2 & H3). set (v := value_point vs) in *. set (px := line_point f ws x) in *. set (py := line_point f ws y) in *.
  pose proof (H3 v px py) as T1. pose proof (H3 px py v Hxy) as T2. cbn beta in *. rewrite (H2 v px), (H2 v py) in T2.
  destruct (first_diff (fun kw => at_points kw v px) (numbered ws)) eqn:E1, (first_diff (fun kw => at_points kw v py) (numbered ws)) eqn:E2; cbn in *; auto; exfalso.
  - apply T1; congruence.
  - apply T2; congruence.
  - apply T1; congruence.
Qed.
Lemma order_found c ls : in_order c ls -> found c no_context ls (filter (matches c) ls).
Proof.
  intros O. destruct (three c ls O) as (G & E & L & EQ & HG & HE & HL & F1 & F2). exists G, E, L. split; [auto|]. split; [auto|]. split; [auto|]. split; [auto|].
  rewrite F2. unfold lines_before, lines_after, no_context, lastn. destruct E as [|x E]; cbn [ctx_before ctx_after piece_yes piece_no N.to_nat]; rewrite Nat.sub_0_r, skipn_all; cbn [firstn app]; rewrite ?app_nil_r; reflexivity.
Qed.
Lemma found_below c h ls out : c h = Gt -> found c no_context ls out -> found c no_context (h :: ls) out.
Proof.
  intros H (lo & m & hi & -> & A & B & C & ->). exists (h :: lo), m, hi. split; [reflexivity|]. split; [auto|]. split; [auto|]. split; [auto|].
  destruct m; unfold lastn, lines_before, no_context; cbn [ctx_before piece_yes piece_no N.to_nat]; rewrite !Nat.sub_0_r, !skipn_all; reflexivity.
Qed.
End Sorted.
