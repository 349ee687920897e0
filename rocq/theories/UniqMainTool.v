(** The uniq tool from its options and file to its output. *)
From Coq Require Import String List NArith ZArith Bool Arith Lia.
Open Scope list_scope.
Import ListNotations.
From Verif Require Import Base TextSpec TextModel TextProofs StrSpec StrModel FloatModel ReadSpec ReadModel ReadProofs HdrSpec HdrModel HdrProofs MatchModel MatchSpec MatchText CompModel CompSpec OrdProofs LineSpec LineProofs
  ColModel AggModel AggRow SortSpec KeySpec KeyModel KeyProofs ToolModel ToolOpen TurnProofs PasteSpec PasteProofs NumbProofs OrderSpec OrderProofs
  UniqModel UniqSpec UniqMain UniqMainSpec UniqMainProofs.
From Verif Require AggProps UniqProps.
Close Scope Z_scope. Open Scope nat_scope.

Lemma field_clean : forall d l x, In x (split_on d l) -> ~ In d x /\ forall c, In c x -> In c l.
Proof.
  intros d l. induction l as [|c l IH]; intros x I; cbn [split_on] in I; [destruct I as [<-|[]]; split; [intros []|intros c []]|].
  destruct (N.eqb_spec c d) as [->|N].
  - destruct I as [<-|I]; [split; [intros []|intros c []]|]. destruct (IH x I) as [A B]. split; auto. intros e Ie. right. auto.
  - destruct (split_on d l) as [|f fs] eqn:E; [exfalso; eapply split_on_nonempty; eauto|]. destruct I as [<-|I].
    + destruct (IH f (or_introl eq_refl)) as [A B]. split; [intros [X|X]; [congruence|auto]|]. intros e [<-|Ie]; [left; auto|right; auto].
    + destruct (IH x (or_intror I)) as [A B]. split; auto. intros e Ie. right. auto.
Qed.
Lemma parted_written : forall ot d l i, ColModel.tm_quote ot = QPlain -> ColModel.tm_delim ot = d -> ColModel.tm_break ot = NL -> whole_line l ->
  fst (text_write ot (nth i (parted d l) [])) = nth i (parted d l) [].
Proof.
  intros ot d l i Q D B (b & -> & N). unfold text_write, wput. cbn [fst]. rewrite Q, D, B. cbn [mode_write]. rewrite write_plain_replace. unfold parted. rewrite removelast_last.
  destruct (Nat.lt_ge_cases i (List.length (split_on d b))) as [H|H]; [|rewrite nth_overflow by auto; reflexivity].
  destruct (field_clean d b _ (nth_In _ [] H)) as [A C]. apply replace2_id; auto.
Qed.
Lemma row_line_join : forall ot vs, row_line ot vs = join (ColModel.tm_delim ot) vs ++ [NL].
Proof.
  intros ot [|x r]; [reflexivity|]. unfold row_line. rewrite app_assoc. f_equal. rewrite <- add_head_join. reflexivity.
Qed.

Section Lists.
Context {A B C : Type}.
Lemma filter_rel : forall (R : A -> B -> Prop) (f : A -> bool) (g : B -> bool) l m, Forall2 R l m -> (forall x y, R x y -> f x = g y) -> Forall2 R (filter f l) (filter g m).
Proof. intros R f g l m H E. induction H as [|x y l m H F IH]; [constructor|]. cbn [filter]. rewrite (E x y H). destruct (g y); [constructor|]; auto. Qed.
Lemma find_rel : forall (R : A -> B -> Prop) (f : A -> bool) (g : B -> bool) l m, Forall2 R l m -> (forall x y, R x y -> f x = g y) ->
  match find f l, find g m with Some x, Some y => R x y | None, None => True | _, _ => False end.
Proof. intros R f g l m H E. induction H as [|x y l m H F IH]; [exact I|]. cbn [find]. rewrite (E x y H). destruct (g y); auto. Qed.
Lemma rel_map : forall (R : A -> B -> Prop) (S : A -> C -> Prop) (h : B -> C) l m, Forall2 R l m -> (forall x y, R x y -> S x (h y)) -> Forall2 S l (map h m).
Proof. intros R S h l m H E. induction H; constructor; auto. Qed.
End Lists.
Lemma all_ok_rel : forall {A B C} (R : A -> B -> Prop) (f : B -> res C) (S : A -> C -> Prop) l m, Forall2 R l m -> (forall x y, In x l -> R x y -> exists z, f y = Ok z /\ S x z) ->
  exists zs, all_ok f m = Ok zs /\ Forall2 S l zs.
Proof.
  intros A B C R f S l m H. induction H as [|x y l m H F IH]; intros E; [exists []; split; [reflexivity|constructor]|].
  destruct (E x y (or_introl eq_refl) H) as (z & E1 & E2). destruct IH as (zs & I1 & I2); [intros; apply E; [right; auto|auto]|]. exists (z :: zs). cbn [all_ok]. rewrite E1. cbn [rbind]. rewrite I1. split; [reflexivity|constructor; auto].
Qed.

Section Tool.
Variable utf8_ok : bytes -> bool.
Variable uni_alpha uni_alnum : N -> bool.
Variable expr : Type.
Variable expr_new : bytes -> res expr.
Variable expr_lookup : expr -> list bytes -> res expr.
Variable expr_eval : expr -> textline -> f64.
Variable expr_eval_line : expr -> bytes -> byte -> f64.
Variable expr_none : f64.
Variable exp10 : Z -> f64.
Variable decode : bytes -> list N.
Variable is_space is_alnum : N -> bool.
Variable comp_make : bytes -> res comp_t.
Variable agg_expr : bytes -> res lineagg.
Variable print_num : f64 -> bytes.
Notation letter := (alphabetic uni_alpha).
Notation alnum := (alphanumeric uni_alnum).
Notation uniq_main := (uniq_main utf8_ok uni_alpha uni_alnum expr expr_new expr_lookup expr_eval expr_eval_line expr_none exp10 decode is_space is_alnum comp_make agg_expr print_num).
Notation req := (aggreq AggProps.colref).
Notation req_ok := (req_ok uni_alpha uni_alnum comp_make).
Notation proper := (proper uni_alpha uni_alnum).

(** The text of an aggregate over some lines. *)
Definition agg_val (d : N) (q : req) (r : list bytes) (v : bytes) : Prop :=
  exists o, AggProps.shows exp10 decode is_space is_alnum comp_make (rq_agg q) (map (fun l => nth (rq_at q) (parted d l) []) r) o /\ v = out_text print_num o.

Lemma head_made : forall cdx ot names, names <> [] -> proper names -> uniq_head uni_alpha uni_alnum cdx ot names = Ok (head_line cdx (ColModel.tm_delim ot) names).
Proof.
  intros cdx ot names N P. unfold uniq_head. rewrite push_proper by auto. cbn [h_cols]. unfold get_head, head_line. destruct names as [|x names]; [congruence|]. rewrite add_head_join. reflexivity.
Qed.
Lemma no_aggs : forall args, Forall (fun a => In (fst a) [bs "key"; bs "count"; bs "which"]) args -> agg_options AggProps.colref_text args [] /\ uniq_known args.
Proof.
  intros args F. split.
  - induction F as [|[m v] args H F IH]; constructor; auto. cbn [fst In] in H. unfold agg_names. cbn [In]. intros I. destruct H as [<-|[<-|[<-|[]]]]; destruct I as [I|[I|[I|[]]]]; discriminate I.
  - eapply Forall_impl; [|exact F]. cbn [fst In]. intros a H. tauto.
Qed.

Lemma uniqs : forall md cdx ot args s f ws cts counts ps kinds, Forall (fun a => In (fst a) [bs "key"; bs "count"; bs "which"]) args ->
  values (bs "key") args (key_texts ws) -> Forall (wanted_ok letter alnum [sh_names f]) ws ->
  values (bs "count") args cts -> Forall2 count_says cts counts ->
  values (bs "which") args (map pick_text ps) -> Forall2 pick_means ps kinds -> Forall (fun p => Forall (wanted_ok letter alnum [sh_names f]) (pick_keys p)) ps ->
  tm_quote md = QPlain -> tm_break md = NL -> tm_delim md <> NL -> (tm_delim md < 128)%N ->
  PasteProofs.shows utf8_ok md s f -> sh_head f <> [] \/ sh_lines f <> [] ->
  let c := last counts ([], CNone) in
  let pk := pick_keys (last ps ([], None)) in
  Forall (fun w => plain_kind (wk_cmp w)) pk -> (pk <> [] -> ws <> []) ->
  (sh_head f <> [] -> counted_names c (sh_names f) <> [] /\ proper (counted_names c (sh_names f))) ->
  exists rs outs, uniq_main md cdx ot args s =
      (match sh_head f with [] => [] | _ => head_line cdx (ColModel.tm_delim ot) (counted_names c (sh_names f)) end ++ concat outs, Ok tt) /\
    runs_of (alike exp10 (tm_delim md) ws) (sh_lines f) rs /\
    Forall2 (fun r out => exists body, chosen (shown_order exp10 (parted (tm_delim md)) pk) (last kinds First) r (body ++ [NL]) /\ out = run_text (snd c) (List.length r) body (tm_delim md) ++ [NL]) rs outs.
Proof.
  intros md cdx ot args s f ws cts counts ps kinds K VK WK VC FC VW FW WP Q BR DN D128 SH NE c pk PKK PW HN. destruct (no_aggs args K) as [AO UK].
  destruct (main_start utf8_ok uni_alpha uni_alnum expr expr_new expr_lookup expr_eval expr_eval_line expr_none exp10 decode is_space is_alnum comp_make agg_expr print_num
    md cdx ot args s f ws cts counts ps kinds [] [] UK VK WK VC FC VW FW WP AO (Forall2_nil _) Q SH NE) as (cf & cs & k & ts & E1 & E2 & E3 & E4 & CW & CP & OK & SN & EM).
  fold c in E1, E2. fold pk in CP, OK. cbn [combine map] in E4. rewrite EM. unfold agg_columns, out_names, uniq_body. rewrite E4, E1, E2, E3. unfold need at 1. cbn iota.
  assert (WL : Forall whole_line (sh_lines f)). { pose proof (shows_lines utf8_ok md s f Q SH) as L. rewrite BR in L. exact L. }
  assert (BW : ws <> [] -> match ws with [] => false | _ => true end = true) by (destruct ws; [congruence|auto]).
  destruct (body_plain exp10 md _ ts (sh_lines f) ws pk cs k (last kinds First) (snd c) Q DN SN WL CW CP BW (fun H => BW (PW H)) (OK PKK) D128) as (rs & outs & U1 & U2 & U3).
  exists rs, outs. split; [|auto].
  assert (HD : match sh_head f with [] => Ok [] | _ => rbind (Ok (match snd c with CNone => sh_names f | CBegin => fst c :: sh_names f | CEnd => sh_names f ++ [fst c] end)) (uniq_head uni_alpha uni_alnum cdx ot) end =
    Ok (match sh_head f with [] => [] | _ => head_line cdx (ColModel.tm_delim ot) (counted_names c (sh_names f)) end)).
  { destruct (sh_head f) as [|h0 h]; [reflexivity|]. destruct (HN ltac:(discriminate)) as [H1 H2]. cbn [rbind]. apply (head_made cdx ot (counted_names c (sh_names f))); auto. }
  rewrite HD. unfold need at 1. unfold say. destruct (sh_lines f) as [|l rest] eqn:EL.
  - cbn [fst snd]. inversion SN; subst. reflexivity.
  - cbn [fst snd]. unfold UniqProps.same_keys, UniqProps.pick_order in U1. rewrite U1. reflexivity.
Qed.

(** * Aggregates *)
Definition for_req (q : req) (p : lineagger) : Prop :=
  la_out p = rq_place q /\ exists sc a, la_agg p = LAgg sc a /\ agg_make comp_make (rq_agg q) = Ok a /\ N.to_nat (nc_num sc) = rq_at q.
Lemma reqs_found : forall names qs gs, Forall2 req_ok qs gs -> Forall (fun q => AggProps.refers names (rq_col q) (N.of_nat (rq_at q))) qs ->
  exists v', lookup_all (map (fun qg => la_of (fst qg) (snd qg)) (combine qs gs)) names = Ok v' /\ Forall2 for_req qs v'.
Proof.
  intros names qs gs F R.
  assert (H : Forall2 (fun q i => AggProps.colref_ok uni_alpha uni_alnum (snd (fst q)) /\ AggProps.refers names (snd (fst q)) i)
     (map (fun qg : req * agg => (rq_place (fst qg), rq_col (fst qg), snd qg)) (combine qs gs)) (map (fun q => N.of_nat (rq_at q)) qs)).
  { induction F as [|q g qs gs (A & _) F IH]; inversion R; subst; constructor; auto. }
  destruct (AggProps.c65_lookup exp10 decode is_space is_alnum comp_make uni_alpha uni_alnum agg_expr print_num names _ _ H) as (v' & L & P & I). exists v'. split.
  - rewrite map_map in L. exact L.
  - clear H L R. revert v' P I. induction F as [|q g qs gs (A & B & M) F IH]; intros v' P I; inversion P as [|? p ? v2 P1 P2]; subst; [constructor|].
    inversion I as [|? ? ? ? I1 I2]; subst. constructor; [|apply IH; auto]. cbn [fst snd] in P1. destruct P1 as (P1 & sc & P3). split; [exact P1|]. exists sc, g. split; auto. split; auto.
    assert (X : is_col (la_agg p) (rq_at q) = true) by (apply I1; lia). rewrite P3 in X. cbn [is_col] in X. apply N.eqb_eq in X. lia.
Qed.
Lemma for_prefix : forall q p, for_req q p -> before q = is_prefix (la_out p).
Proof. intros q p (A & _). unfold before. rewrite A. destruct (rq_place q); reflexivity. Qed.
Lemma for_append : forall q p, for_req q p -> behind q = is_append (la_out p).
Proof. intros q p (A & _). unfold behind. rewrite A. destruct (rq_place q); reflexivity. Qed.
Lemma for_replace : forall i q p, for_req q p -> instead i q = replaces i p.
Proof.
  intros i q p (A & sc & a & B & _ & C). unfold instead, replaces. rewrite A, B. destruct (rq_place q); [|reflexivity|reflexivity]. cbn [is_replace is_col andb]. rewrite <- C.
  destruct (Nat.eqb_spec (N.to_nat (nc_num sc)) i) as [<-|N]; symmetry; [apply N.eqb_eq; lia|apply N.eqb_neq; lia].
Qed.
Lemma for_title : forall q p, for_req q p -> title p = req_title q.
Proof. intros q p (A & _). unfold title, req_title. rewrite A. destruct (rq_place q); reflexivity. Qed.
Lemma for_val : forall d q p (r : list bytes), for_req q p -> agg_val d q r (summary exp10 decode is_space is_alnum print_num (map (parted d) r) p).
Proof.
  intros d q p r (A & sc & a & B & C & D). unfold agg_val, summary. rewrite B, D, map_map. eexists. split; [|reflexivity]. exists a. split; [exact C|]. f_equal.
  pose proof (AggProps.c29_reset exp10 decode is_space is_alnum comp_make (rq_agg q) a [] C) as X. change (agg_adds exp10 decode is_space is_alnum a []) with a in X. rewrite X. reflexivity.
Qed.
Lemma titles : forall qs v', Forall2 for_req qs v' ->
  map title (filter (fun x => is_prefix (la_out x)) v') = map req_title (filter before qs) /\ map title (filter (fun x => is_append (la_out x)) v') = map req_title (filter behind qs).
Proof.
  intros qs v' F. assert (M : forall l m, Forall2 for_req l m -> map title m = map (@req_title AggProps.colref) l).
  { induction 1 as [|q p l m H G IH]; [reflexivity|]. cbn [map]. rewrite IH, (for_title q p H). reflexivity. }
  split; apply M; apply filter_rel; auto; [apply for_prefix|apply for_append].
Qed.
Lemma row_found : forall d ot (names : list bytes) qs v' r x, Forall2 for_req qs v' -> ColModel.tm_quote ot = QPlain -> ColModel.tm_delim ot = d -> ColModel.tm_break ot = NL -> whole_line x ->
  agg_row (agg_val d) d d (List.length names) qs r x (row_line ot (
    map (summary exp10 decode is_space is_alnum print_num (map (parted d) r)) (filter (fun x => is_prefix (la_out x)) v') ++
    map (fun i => match find (replaces i) v' with Some y => summary exp10 decode is_space is_alnum print_num (map (parted d) r) y | None => fst (text_write ot (nth i (parted d x) [])) end) (seq 0 (List.length names)) ++
    map (summary exp10 decode is_space is_alnum print_num (map (parted d) r)) (filter (fun x => is_append (la_out x)) v'))).
Proof.
  intros d ot names qs v' r x F Q D B W. eexists _, _, _. split; [rewrite row_line_join, D; reflexivity|]. split; [|split].
  - eapply rel_map; [apply filter_rel; [exact F|apply for_prefix]|]. intros q p H. apply for_val; auto.
  - eapply rel_map; [apply filter_rel; [exact F|apply for_append]|]. intros q p H. apply for_val; auto.
  - generalize (seq 0 (List.length names)). induction l as [|i l IH]; [constructor|]. cbn [map]. constructor; [|exact IH].
    pose proof (find_rel for_req (instead i) (replaces i) qs v' F (for_replace i)) as H. destruct (find (instead i) qs) as [q|], (find (replaces i) v') as [y|]; try contradiction.
    + apply for_val; auto.
    + apply parted_written; auto.
Qed.

Lemma counted_ok : forall cts counts qs gs, Forall2 count_says cts counts -> Forall2 req_ok qs gs ->
  let nc := last counts ([], CNone) in
  exists gs', Forall2 req_ok (counted_reqs (AggProps.ByNum 1) nc qs) gs' /\
    forall c, uc_name expr c = fst nc -> uc_pos expr c = snd nc -> uc_aggs expr c = map (fun qg => la_of (fst qg) (snd qg)) (combine qs gs) ->
      with_count uni_alpha uni_alnum expr comp_make agg_expr c = Ok (map (fun qg => la_of (fst qg) (snd qg)) (combine (counted_reqs (AggProps.ByNum 1) nc qs) gs')).
Proof.
  intros cts counts qs gs FC FG nc.
  assert (NC : ~ In 44%N (fst nc)).
  { unfold nc. assert (X : forall c0, ~ In 44%N (fst c0) -> ~ In 44%N (fst (last counts c0))); [|apply X; intros []].
    induction FC as [|v c cts counts S FC IH]; intros c0 N; [exact N|]. rewrite last_cons2. apply IH. destruct S as [n Hn|n w p Hn Hw]; cbn [fst]; destruct n; cbn [or_named]; auto; cbn; intuition discriminate. }
  set (q := fun p : place => mkreq p (AggProps.ByNum 1) (bs "count") 0 : req).
  assert (K : AggProps.colref_ok uni_alpha uni_alnum (AggProps.ByNum 1)) by (cbn; lia).
  assert (M : agg_make comp_make (bs "count") = Ok (GCount 0 0)) by reflexivity.
  unfold counted_reqs, with_count. destruct (snd nc) eqn:P.
  - exists gs. split; [exact FG|]. intros c H1 H2 H3. rewrite H2, H3. reflexivity.
  - exists (GCount 0 0 :: gs). split; [constructor; [split; [exact K|split; [exact NC|exact M]]|exact FG]|]. intros c H1 H2 H3. rewrite H1, H2, H3.
    pose proof (proj1 (proj2 (AggProps.c65_spec decode is_space is_alnum comp_make uni_alpha uni_alnum agg_expr _ _ _ (fst nc) K M NC))) as X.
    change (fst nc ++ bs ",1,count") with (fst nc ++ 44%N :: AggProps.colref_text (AggProps.ByNum 1) ++ 44%N :: bs "count"). rewrite X. reflexivity.
  - exists (gs ++ [GCount 0 0]). split; [apply Forall2_app; [exact FG|constructor; [split; [exact K|split; [exact NC|exact M]]|constructor]]|]. intros c H1 H2 H3. rewrite H1, H2, H3.
    pose proof (proj1 (proj2 (proj2 (AggProps.c65_spec decode is_space is_alnum comp_make uni_alpha uni_alnum agg_expr _ _ _ (fst nc) K M NC)))) as X.
    change (fst nc ++ bs ",1,count") with (fst nc ++ 44%N :: AggProps.colref_text (AggProps.ByNum 1) ++ 44%N :: bs "count"). rewrite X. cbn [rbind]. f_equal.
    clear - FG. induction FG as [|x g qs gs H F IH]; [reflexivity|]. cbn [app combine map fst snd]. rewrite IH. reflexivity.
Qed.

Lemma sums : forall md cdx ot args s f ws cts counts ps kinds qs gs, uniq_known args ->
  values (bs "key") args (key_texts ws) -> Forall (wanted_ok letter alnum [sh_names f]) ws -> ws <> [] ->
  values (bs "count") args cts -> Forall2 count_says cts counts ->
  values (bs "which") args (map pick_text ps) -> Forall2 pick_means ps kinds -> Forall (fun p => Forall (wanted_ok letter alnum [sh_names f]) (pick_keys p)) ps ->
  agg_options AggProps.colref_text args qs -> Forall2 req_ok qs gs -> qs <> [] ->
  Forall (fun q => AggProps.refers (sh_names f) (rq_col q) (N.of_nat (rq_at q))) qs ->
  tm_quote md = QPlain -> tm_break md = NL -> tm_delim md <> NL ->
  ColModel.tm_quote ot = QPlain -> ColModel.tm_delim ot = tm_delim md -> ColModel.tm_break ot = NL ->
  PasteProofs.shows utf8_ok md s f -> sh_head f <> [] \/ sh_lines f <> [] ->
  Forall (fun x => x <> []) (sh_names f) -> sh_names f <> [] -> proper (sh_names f) ->
  Forall (fun l => List.length (sh_names f) <= List.length (parted (tm_delim md) l)) (sh_lines f) ->
  let c := last counts ([], CNone) in
  let pk := pick_keys (last ps ([], None)) in
  let all := counted_reqs (AggProps.ByNum 1) c qs in
  Forall (fun w => plain_kind (wk_cmp w)) pk ->
  (sh_head f <> [] -> proper (row_names all (sh_names f))) ->
  exists rs outs, uniq_main md cdx ot args s =
      (match sh_head f with [] => [] | _ => head_line cdx (tm_delim md) (row_names all (sh_names f)) end ++ concat outs, Ok tt) /\
    runs_of (alike exp10 (tm_delim md) ws) (sh_lines f) rs /\
    Forall2 (fun r out => exists x, chosen (shown_order exp10 (parted (tm_delim md)) pk) (last kinds First) r x /\
                                    agg_row (agg_val (tm_delim md)) (tm_delim md) (tm_delim md) (List.length (sh_names f)) all r x out) rs outs.
Proof.
  intros md cdx ot args s f ws cts counts ps kinds qs gs UK VK WK WN VC FC VW FW WP AO FG QN RF Q BR DN OQ OD OB SH NE NN NN2 NP LEN c pk all PKK HN.
  destruct (main_start utf8_ok uni_alpha uni_alnum expr expr_new expr_lookup expr_eval expr_eval_line expr_none exp10 decode is_space is_alnum comp_make agg_expr print_num
    md cdx ot args s f ws cts counts ps kinds qs gs UK VK WK VC FC VW FW WP AO FG Q SH NE) as (cf & cs & k & ts & E1 & E2 & E3 & E4 & CW & CP & OK & SN & EM).
  fold c in E1, E2. fold pk in CP, OK.
  destruct (counted_ok cts counts qs gs FC FG) as (gs' & FG' & WC). fold c in FG', WC. fold all in FG', WC. specialize (WC cf E1 E2 E4).
  assert (AN : exists a0 ar, uc_aggs expr cf = a0 :: ar) by (rewrite E4; destruct qs as [|q qs]; [congruence|]; inversion FG; subst; cbn [combine map]; eauto).
  destruct AN as (a0 & ar & AN).
  assert (RF' : Forall (fun q => AggProps.refers (sh_names f) (rq_col q) (N.of_nat (rq_at q))) all).
  { unfold all, counted_reqs. destruct (snd c); [auto|constructor; [reflexivity|auto]|apply Forall_app; split; [auto|constructor; [reflexivity|constructor]]]. }
  destruct (reqs_found (sh_names f) all gs' FG' RF') as (v' & LV & FV).
  assert (PR : Forall (fun x => x <> [] /\ well_named letter alnum x) (sh_names f)).
  { destruct NP as [P1 _]. clear - NN P1. induction NN; inversion P1; subst; constructor; auto. }
  destruct (AggProps.c65_row_partial exp10 decode is_space is_alnum uni_alpha uni_alnum print_num _ (sh_names f) v' LV PR (proj2 NP)) as (os & SU & NM & GR).
  assert (AC : agg_columns uni_alpha uni_alnum expr comp_make agg_expr cf (sh_names f) = Ok (v', os)) by (unfold agg_columns; rewrite AN, WC; cbn [rbind]; exact SU).
  rewrite EM, AC. unfold need at 1. unfold out_names, uniq_body. rewrite AN, E3. destruct (titles all v' FV) as [T1 T2]. rewrite T1, T2 in NM.
  assert (WL : Forall whole_line (sh_lines f)). { pose proof (shows_lines utf8_ok md s f Q SH) as L. rewrite BR in L. exact L. }
  assert (BT : match ws with [] => false | _ => true end = true) by (destruct ws; [congruence|auto]). rewrite BT in SN.
  destruct (body_agg exp10 md true ts (sh_lines f) ws pk cs k (last kinds First) Q DN SN WL CW CP (fun _ => eq_refl) (fun _ => eq_refl) (OK PKK)) as (rs & U1 & U2 & U3).
  assert (HD : match sh_head f with [] => Ok [] | _ => rbind (all_ok (ocol_name v' (sh_names f)) os) (uniq_head uni_alpha uni_alnum cdx ot) end =
    Ok (match sh_head f with [] => [] | _ => head_line cdx (tm_delim md) (row_names all (sh_names f)) end)).
  { destruct (sh_head f) as [|h0 h]; [reflexivity|]. rewrite NM. cbn [rbind]. rewrite <- OD. apply head_made; [|apply HN; discriminate].
    unfold row_names. destruct (sh_names f); [congruence|]. destruct (map req_title (filter before all)); discriminate. }
  assert (SEEN : forall t, In t ts -> tl_cols t = parted (tm_delim md) (tl_line t) /\ whole_line (tl_line t) /\ List.length (sh_names f) <= List.length (tl_cols t)).
  { intros t I. assert (J : In (tl_line t) (sh_lines f)) by (rewrite <- (seen_lines _ _ _ _ SN); apply in_map; auto).
    destruct (seen_in _ _ _ _ _ SN WL I) as (l & (S1 & S2 & S3) & S4). subst l. specialize (S3 eq_refl).
    assert (X : tl_cols t = parted (tm_delim md) (tl_line t)). { rewrite S3 at 1. unfold proc. rewrite process_cols, Q. apply parted_cols; auto. }
    rewrite X. split; auto. split; auto. apply (proj1 (Forall_forall _ _) LEN). auto. }
  destruct (all_ok_rel _ (fun p : textline * list textline => group_row exp10 decode is_space is_alnum print_num v' os ot (tl_cols (fst p)) (map tl_cols (snd p)))
     (fun r vs => exists x, chosen (shown_order exp10 (parted (tm_delim md)) pk) (last kinds First) (map tl_line r) x /\
        agg_row (agg_val (tm_delim md)) (tm_delim md) (tm_delim md) (List.length (sh_names f)) all (map tl_line r) x (row_line ot vs)) _ _ U3) as (rows & A1 & A2).
  { intros r [x r'] I (X1 & X2 & X3). cbn [fst snd] in *. subst r'. pose proof (proj1 (Forall_forall _ _) U2 r I) as IT. destruct (SEEN x (IT x X2)) as (Y1 & Y2 & Y3).
    eexists. split; [apply GR; exact Y3|]. exists (tl_line x). split; [exact X3|]. rewrite Y1.
    assert (ME : map tl_cols r = map (parted (tm_delim md)) (map tl_line r)).
    { rewrite map_map. apply map_ext_in. intros t It. apply SEEN; auto. }
    rewrite ME. apply (row_found (tm_delim md) ot (sh_names f) all v' (map tl_line r) (tl_line x)); auto. }
  exists (map (map tl_line) rs), (map (row_line ot) rows). rewrite HD. unfold need at 1. split; [|split; [exact U1|]].
  - unfold say. destruct (sh_lines f) as [|l rest] eqn:EL.
    + cbn [fst snd]. inversion SN; subst ts. cbn [uniq_aggs] in A1. injection A1 as <-. reflexivity.
    + unfold UniqProps.same_keys, UniqProps.pick_order in A1. rewrite A1. unfold need. cbn [fst snd]. reflexivity.
  - clear - A2. induction A2; cbn [map]; constructor; auto.
Qed.
End Tool.
