(** Lemmas for the cut tool. *)
From Coq Require Import String List NArith ZArith Bool Arith Lia.
Open Scope list_scope.
Import ListNotations.
From Verif Require Import Base TextSpec TextModel TextProofs StrSpec StrModel StrProofs MatchSpec MatchText FloatModel ReadSpec ReadModel ReadProofs HeadModel HdrModel HdrSpec HdrProofs TurnSpec PasteSpec
  ColSpec ColModel ColProofs ColWriteProofs ColCompProofs ColProps ToolModel ToolOpen PasteProofs NumbProofs LocProofs SortSpec UniqMainSpec UniqMainProofs ExprModel ExprSpec ExprCols CutMain CutMainSpec CutMainExpr.
Close Scope Z_scope. Open Scope nat_scope.

(** * Composite columns looked up again *)
Definition nc_like (a b : named_col) : Prop := nc_name a = nc_name b /\ nc_end a = nc_end b /\ (nc_name a = [] -> nc_end a = 0%N -> nc_num a = nc_num b).
Definition parts_like (a b : list (bytes * named_col)) : Prop := Forall2 (fun x y => fst x = fst y /\ nc_like (snd x) (snd y)) a b.
Lemma nc_like_lookup a b names : nc_like a b -> nc_lookup b names = nc_lookup a names.
Proof.
  intros (E1 & E2 & E3). unfold nc_lookup. rewrite <- E1, <- E2. destruct (nc_name a) eqn:N; [|reflexivity]. destruct (N.ltb_spec 0 (nc_end a)); [reflexivity|].
  destruct a as [n k e], b as [n' k' e']. cbn in *. subst. rewrite E3; auto. lia.
Qed.
Lemma nc_lookup_like a names b : nc_lookup a names = Ok b -> nc_like a b.
Proof.
  unfold nc_lookup, nc_like. destruct (nc_name a) eqn:N.
  - destruct (N.ltb_spec 0 (nc_end a)).
    + destruct (N.of_nat (List.length names) <? nc_end a)%N; [discriminate|]. intros E. injection E as <-. cbn. repeat split; auto. lia.
    + intros E. injection E as <-. auto.
  - destruct (lookup_col names _ 0); cbn [rbind]; try discriminate. intros E. injection E as <-. cbn. repeat split; auto. discriminate.
Qed.
Lemma parts_like_lookup a b names : parts_like a b -> comp_lookup_parts b names = comp_lookup_parts a names.
Proof.
  induction 1 as [|[p x] [q y] a b [E L] F IH]; [reflexivity|]. cbn [comp_lookup_parts]. cbn in E, L. subst q. rewrite (nc_like_lookup _ _ _ L), IH. reflexivity.
Qed.
Lemma lookup_parts_like names : forall a b, comp_lookup_parts a names = Ok b -> parts_like a b.
Proof.
  induction a as [|[p x] a IH]; intros b; cbn [comp_lookup_parts]; [intros E; injection E as <-; constructor|].
  destruct (nc_lookup x names) eqn:Ex; cbn [rbind]; try discriminate. destruct (comp_lookup_parts a names) eqn:Ea; cbn [rbind]; try discriminate.
  intros E. injection E as <-. constructor; [split; auto; eapply nc_lookup_like; eauto|apply IH; auto].
Qed.
Definition comp_like (a b : composite) : Prop := cc_suffix a = cc_suffix b /\ cc_name a = cc_name b /\ parts_like (cc_parts a) (cc_parts b).
Lemma comp_like_lookup a b names : comp_like a b -> comp_lookup b names = comp_lookup a names.
Proof. intros (E1 & E2 & L). unfold comp_lookup. rewrite (parts_like_lookup _ _ _ L), E1, E2. reflexivity. Qed.
Lemma comp_lookup_like a names b : comp_lookup a names = Ok b -> comp_like a b.
Proof.
  unfold comp_lookup. destruct (comp_lookup_parts (cc_parts a) names) eqn:E; cbn [rbind]; try discriminate. intros H. injection H as <-.
  split; [reflexivity|]. split; [reflexivity|]. eapply lookup_parts_like; eauto.
Qed.
Lemma comp_like_refl a : comp_like a a.
Proof. split; auto. split; auto. unfold parts_like, nc_like. induction (cc_parts a); constructor; auto. Qed.

Lemma padded (fields : list bytes) k n : k < List.length fields + n -> nth_error (fields ++ repeat [] n) k = Some (nth k fields []).
Proof.
  intros H. destruct (Nat.lt_ge_cases k (List.length fields)) as [L|L].
  - rewrite nth_error_app1 by auto. apply nth_error_nth'. auto.
  - rewrite nth_error_app2, nth_overflow by auto. rewrite (nth_error_nth' _ []) by (rewrite repeat_length; lia). f_equal. apply nth_repeat.
Qed.
Lemma padded_get (fields : list bytes) n k : get_or_empty (fields ++ repeat [] n) k = get_or_empty fields k.
Proof.
  unfold get_or_empty. destruct (Nat.lt_ge_cases (N.to_nat k) (List.length fields)) as [L|L]; [apply app_nth1; auto|].
  rewrite app_nth2, nth_repeat by auto. symmetry. apply nth_overflow. auto.
Qed.
Lemma comp_write_pad c fields n t : comp_write c (fields ++ repeat [] n) t = comp_write c fields t.
Proof. unfold comp_write. f_equal. f_equal. apply map_ext. intros [p x]. cbn [fst snd]. rewrite padded_get. reflexivity. Qed.

(** * Rows *)
Lemma join_parts d (css : list (list bytes)) : Forall (fun cs => cs <> []) css -> join d (map (join d) css) = join d (concat css).
Proof.
  induction css as [|cs css IH]; intros F; [reflexivity|]. apply Forall_cons_iff in F as [N F]. cbn [map concat]. destruct css as [|c2 css]; [cbn; now rewrite app_nil_r|].
  rewrite StrProofs.join_cons by discriminate. rewrite IH by auto. rewrite StrProofs.join_app; auto. cbn [concat]. apply Forall_cons_iff in F as [N2 _]. destruct c2; [congruence|discriminate].
Qed.
Lemma wall_join d : forall os xs, Forall2 (fun o x => o = wput x) os xs ->
  match os with [] => wput [] | o :: r => wseq o (wall (map (fun o => wseq (wput [d]) o) r)) end = wput (join d xs).
Proof.
  intros os xs F. destruct F as [|o x os xs -> F]; [reflexivity|]. revert x. induction F as [|o y os xs -> F IH]; intros x.
  - cbn. rewrite app_nil_r. reflexivity.
  - rewrite StrProofs.join_cons by discriminate. cbn [map wall fold_right]. fold (wall (map (fun o => wseq (wput [d]) o) os)). specialize (IH y).
    change (wseq (wseq (wput [d]) (wput y)) (wall (map (fun o => wseq (wput [d]) o) os))) with (wseq (wput (d :: y)) (wall (map (fun o => wseq (wput [d]) o) os))).
    unfold wseq, wput in *. cbn [fst snd app] in *. apply pair_equal_spec in IH as [I1 I2]. rewrite I2, I1. reflexivity.
Qed.

Lemma dup_word w : In w dup_words -> forall v, same_but_case v w -> exists d, dup_new v = Ok d /\ (d = DAllow <-> w = bs "allow").
Proof.
  intros I v E. apply same_case_map in E. unfold dup_new. rewrite E. cbn in I. destruct I as [<- |[<- |[<- |[]]]]; eexists; (split; [reflexivity|]); split; intros X; auto; discriminate.
Qed.

Section Cut.
Variables utf8_ok name_ok : bytes -> bool.
Variables uni_alpha uni_alnum : N -> bool.
Variable T : Type.
Variable trans_make : bytes -> res T.
Variable trans_run : T -> bytes -> res bytes.
Variable match_make : bytes -> res (bytes -> bool).
Variable frem fpow : f64 -> f64 -> f64.
Variable libm : fop -> list f64 -> f64.
Variable exp10 : Z -> f64.
Variable print_num : f64 -> bytes.
Variable pos : bytes -> N.
Notation letter := (alphabetic uni_alpha).
Notation alnum := (alphanumeric uni_alnum).
Definition made_trans (t : bytes) : Prop := exists x, trans_make t = Ok x.
Definition trans_to (t a b : bytes) : Prop := exists x, trans_make t = Ok x /\ trans_run x a = Ok b.
Notation planned := (planned letter alnum (maker match_make) made_trans frem fpow libm exp10 pos).
Notation item_ok := (citem_ok letter alnum made_trans).
Notation cells := (cells trans_to utf8 frem fpow libm exp10 print_num pos).
Notation cutfun := (cutfun T).
Notation look1 := (cut_lookup1 uni_alpha uni_alnum T trans_make match_make frem fpow libm exp10).
Notation look := (cut_lookup uni_alpha uni_alnum T trans_make match_make frem fpow libm exp10).
Notation writes1 := (cut_write T trans_run frem fpow libm exp10 print_num).
Notation settled := (settled pos).
Notation runs_tree := (runs_tree frem fpow libm).

Definition base (name : bytes) (ps : list ColSpec.piece) (caret : bool) : composite :=
  mkcomp (fst (ColCompProofs.run ps [] [])) (snd (ColCompProofs.run ps [] []) ++ caret_text caret) name.
(** The writer made for an item, before or after any files. *)
Definition made (it : citem) (x : cutfun) : Prop :=
  match it with
  | CFields s => exists c, x = CutCol (FSet c) /\ set_rel T trans_make c (parts_of false s)
  | CGroup d n s => exists c, x = CutCol (FClump n d c) /\ set_rel T trans_make c (parts_of false s)
  | CComposite n ps caret => exists c, x = CutCol (FComp c) /\ comp_like (base n ps caret) c
  | CExpr n bits => exists e, x = CutExpr n e /\ e_str e = concat (map bit_text bits) /\ settled e
  end.
(** The writer looked up in a file. *)
Definition cols_ready (s : cspec) (ws : list (nat * (bytes * option bytes))) (c : colset T) : Prop :=
  set_rel T trans_make c (parts_of false s) /\ cs_done c = true /\ Forall2 (out_rel T trans_make (cs_trans c)) (cs_cols c) ws.
Definition ready (names : list bytes) (ip : citem * plan) (x : cutfun) : Prop :=
  match ip with
  | (CFields s, PCols ws) => ws <> [] /\ exists c, x = CutCol (FSet c) /\ cols_ready s ws c
  | (CGroup d n s, PCols ws) => exists c, x = CutCol (FClump n d c) /\ cols_ready s ws c
  | (CComposite n ps caret, PText) => exists c, x = CutCol (FComp c) /\ comp_lookup (base n ps caret) names = Ok c /\ ~ In 58%N n /\ pieces_ok letter alnum ps (caret_text caret)
  | (CExpr n bits, PTree t) => exists e, x = CutExpr n e /\ e_str e = concat (map bit_text bits) /\ settled e /\ runs_tree t e
  | _ => False
  end.
Lemma ready_made names ip x : ready names ip x -> made (fst ip) x.
Proof.
  destruct ip as [[s|d n s|n ps caret|n bits] [ws| |t]]; cbn [ready made fst]; try contradiction.
  - intros (_ & c & -> & R & _). eauto.
  - intros (c & -> & R & _). eauto.
  - intros (c & -> & L & _). exists c. split; auto. eapply comp_lookup_like; eauto.
  - intros (e & -> & E & St & _). eauto.
Qed.

Lemma cols_look s ws c names : spec_ok letter alnum s -> (N.of_nat (List.length names) < 2 ^ 64)%N -> set_rel T trans_make c (parts_of false s) ->
  cols_wanted (maker match_make) names s ws -> exists c', lookup match_make c names = Ok c' /\ cols_ready s ws c'.
Proof.
  intros Ok1 B R (kss & P & ->). destruct (lookup_spec uni_alpha uni_alnum T trans_make trans_run match_make names B c (parts_of false s) kss R) as (c' & E & D & Tr & G); auto.
  { apply parts_ok; auto. }
  exists c'. split; auto. split; [|split; auto; rewrite Tr; auto].
  assert (Sm : cs_pos c' = cs_pos c /\ cs_neg c' = cs_neg c).
  { unfold lookup in E. destruct (ranges match_make names (cs_neg c)); cbn [rbind] in E; try discriminate. match type of E with rbind ?x _ = _ => destruct x end; cbn [rbind] in E; try discriminate. injection E as <-. auto. }
  unfold set_rel in *. destruct Sm as [-> ->]. rewrite Tr. exact R.
Qed.

Lemma pieces_any names fields ps : (forall b s, In (CName b s) ps -> exists k, place_at names (PName s) k) -> exists vs, Forall2 (piece_is utf8 names fields) ps vs.
Proof.
  induction ps as [|p ps IH]; intros H; [exists []; constructor|]. destruct IH as [vs F]. { intros b s I. apply (H b). now right. }
  destruct p as [s| |b n|b s].
  - exists (utf8 s :: vs). constructor; auto. reflexivity.
  - exists ([94%N] :: vs). constructor; auto. reflexivity.
  - eexists (_ :: vs). constructor; auto. cbn. reflexivity.
  - destruct (H b s (or_introl eq_refl)) as [k K]. exists (nth k fields [] :: vs). constructor; auto. cbn. eauto.
Qed.
Definition reach (p : ColSpec.piece) : nat := match p with CNum _ n => N.to_nat n | _ => 0 end.
Lemma piece_padded names fields n p v tl : match p with CNum _ n => (1 <= n < 2 ^ 64)%N | _ => True end -> reach p + List.length names <= n ->
  piece_is utf8 names fields p v -> tl = fields ++ repeat [] n -> piece_value utf8 names tl p v.
Proof.
  intros K L P ->. destruct p as [s| |b m|b s]; cbn [piece_is piece_value reach] in *; auto.
  - exists (N.to_nat (m - 1)). split; [lia|]. rewrite padded by lia. congruence.
  - destruct P as (k & Pk & ->). exists k. split; auto. apply padded. destruct Pk as [Lk _]. lia.
Qed.
Definition reaches (ps : list ColSpec.piece) : nat := fold_right (fun p n => reach p + n) 0 ps.
Lemma pieces_padded names fields n : forall ps tail vs, pieces_ok letter alnum ps tail -> reaches ps + List.length names <= n ->
  Forall2 (piece_is utf8 names fields) ps vs -> Forall2 (piece_value utf8 names (fields ++ repeat [] n)) ps vs.
Proof.
  induction ps as [|p ps IH]; intros tail vs K L F; inversion F as [|? v ? vs' P F']; subst; constructor.
  - destruct K as [Kp _]. eapply (piece_padded names fields n p v); auto; [destruct p; auto; apply Kp|]. cbn [reaches fold_right] in L. fold (reaches ps) in L. lia.
  - destruct K as [_ K]. eapply IH; eauto. cbn [reaches fold_right] in L. fold (reaches ps) in L. lia.
Qed.
Lemma comp_ready names fields n ps caret vs : ~ In 58%N n -> pieces_ok letter alnum ps (caret_text caret) -> Forall2 (piece_is utf8 names fields) ps vs ->
  exists c, comp_lookup (base n ps caret) names = Ok c /\ cc_name c = n /\
    forall t, ColModel.tm_quote t <> QQuote ->
      comp_write c fields t = (mode_write (ColModel.tm_quote t) (concat vs ++ caret_text caret) (ColModel.tm_delim t) (ColModel.tm_break t) (ColModel.tm_repl t), Ok tt).
Proof.
  intros N K F. set (k := reaches ps + List.length names). set (fs := fields ++ repeat [] k).
  destruct (c49_expand uni_alpha uni_alnum n ps caret names fs vs N K) as (c & c' & E1 & E2 & E3 & E4). { eapply pieces_padded; eauto. }
  rewrite comp_set_ok in E1 by auto. injection E1 as <-. exists c'. split; auto. split; auto. intros t Q.
  rewrite <- (comp_write_pad c' fields k t). apply c49_write; auto.
Qed.

Lemma look_item names it p x : item_ok it -> (N.of_nat (List.length names) < 2 ^ 64)%N -> planned names (it, p) -> made it x ->
  exists y, look1 x names = Ok y /\ ready names (it, p) y.
Proof.
  intros K B P M. destruct it as [s|d n s|n ps caret|n bits], p as [ws| |t]; cbn [CutMainSpec.planned] in P; try contradiction; cbn [made] in M.
  - destruct M as (c & -> & R). destruct P as [P NE]. destruct K as [K _]. destruct (cols_look s ws c names K B R P) as (c' & E & Q). exists (CutCol (FSet c')).
    cbn [cut_lookup1 fun_lookup]. rewrite E. split; [reflexivity|]. cbn [ready]. eauto.
  - destruct M as (c & -> & R). destruct K as (_ & _ & K & _). destruct (cols_look s ws c names K B R P) as (c' & E & Q). exists (CutCol (FClump n d c')).
    cbn [cut_lookup1 fun_lookup]. rewrite E. split; [reflexivity|]. cbn [ready]. eauto.
  - destruct M as (c & -> & L). destruct K as [K1 K2]. destruct (pieces_any names [] ps P) as [vs F]. destruct (comp_ready names [] n ps caret vs K1 K2 F) as (c' & E & _).
    exists (CutCol (FComp c')). cbn [cut_lookup1 fun_lookup]. rewrite (comp_like_lookup _ _ _ L), E. split; [reflexivity|]. cbn [ready]. eauto.
  - destruct M as (e & -> & Es & St). destruct P as (outs & F & W & R & V).
    destruct (lookup_settled frem fpow libm exp10 uni_alpha uni_alnum T trans_make match_make pos e names bits outs t St B Es F W V R) as (y & E & E1 & E2 & E3).
    exists (CutExpr n y). cbn [cut_lookup1]. rewrite E. split; [reflexivity|]. cbn [ready]. exists y. rewrite E1. auto.
Qed.
Lemma ready_names names ip y : ready names ip y -> cut_names1 T y names = Ok (labels names ip).
Proof.
  destruct ip as [[s|d n s|n ps caret|n bits] [ws| |t]]; cbn [ready labels]; try contradiction.
  - intros (_ & c & -> & _ & _ & F). cbn [cut_names1 fun_names]. f_equal. clear - F. induction F as [|o w cs ws (E1 & E2 & _) F IH]; [reflexivity|]. cbn [map]. rewrite IH, E1, E2.
    unfold get_or_empty. rewrite Nnat.Nat2N.id. reflexivity.
  - intros (c & -> & _). reflexivity.
  - intros (c & -> & L & _). apply comp_lookup_like in L as (_ & E & _). cbn [cut_names1 fun_names]. rewrite <- E. reflexivity.
  - intros (e & -> & _). reflexivity.
Qed.
Lemma cols_write s ws c fields t vs : cols_ready s ws c -> Forall2 (column_value trans_to fields) ws vs -> ColModel.tm_quote t = QPlain ->
  write3 trans_run c fields t = wput (join (ColModel.tm_delim t) (map (replace2 (ColModel.tm_delim t) (ColModel.tm_break t) (ColModel.tm_repl t)) vs)).
Proof.
  intros (_ & D & F) V Q. rewrite (c28_write3 T trans_run c fields vs t D).
  - unfold wput. do 2 f_equal. apply map_ext. intros v. rewrite Q. cbn [mode_write]. apply write_plain_replace.
  - clear D. revert vs V. induction F as [|o w cs ws (E1 & E2 & E3) F IH]; intros vs V; inversion V as [|? v ? vs' Vv V']; subst; constructor; auto.
    assert (X : field_or_empty fields o = nth (fst w) fields []).
    { unfold field_or_empty, field_of. rewrite E1, Nnat.Nat2N.id. destruct (nth_error fields (fst w)) eqn:E; [symmetry; apply nth_error_nth; auto|]. symmetry. apply nth_overflow. now apply nth_error_None. }
    unfold column_value in Vv. unfold tr_rel in E3. destruct (snd (snd w)) as [tr|].
    + destruct E3 as (i & y & -> & Ny & My). destruct Vv as (y' & My' & Ry). rewrite My in My'. injection My' as <-. exists y. rewrite X. auto.
    + rewrite E3, X. exact Vv.
Qed.
Definition clean (t : ColModel.tmode) : bytes -> bytes := replace2 (ColModel.tm_delim t) (ColModel.tm_break t) (ColModel.tm_repl t).
Lemma write_item names ip y fields whole t cs : ColModel.tm_quote t = QPlain -> ready names ip y -> cells (clean t) names fields ip cs ->
  cs <> [] /\ fst (writes1 y whole fields t) = wput (join (ColModel.tm_delim t) cs) /\ ready names ip (snd (writes1 y whole fields t)).
Proof.
  intros Q R C. destruct ip as [[s|d n s|n ps caret|n bits] [ws| |tr]]; cbn [ready CutMainSpec.cells] in R, C; try contradiction.
  - destruct R as (NE & c & -> & Rc). destruct C as (vs & V & ->). cbn [cut_write fun_write fst snd]. split.
    { inversion V; subst; [congruence|discriminate]. } split; [|cbn [ready]; eauto]. eapply cols_write; eauto.
  - destruct R as (c & -> & Rc). destruct C as (vs & V & ->). cbn [cut_write fun_write fst snd]. split; [discriminate|]. split; [|cbn [ready]; eauto].
    rewrite (cols_write s ws c fields _ vs Rc V) by reflexivity. reflexivity.
  - destruct R as (c & -> & L & N & K). destruct C as (vs & V & ->). cbn [cut_write fun_write fst snd]. split; [discriminate|]. split; [|cbn [ready]; eauto].
    destruct (comp_ready names fields n ps caret vs N K V) as (c' & L' & _ & W). rewrite L in L'. injection L' as <-. rewrite W by (rewrite Q; discriminate). rewrite Q. cbn [mode_write join]. rewrite write_plain_replace. reflexivity.
  - destruct R as (e & -> & Es & St & Rt). destruct C as (v & V & ->). destruct (eval_settled frem fpow libm exp10 pos e tr fields v St Rt V) as (z & E & Ez & Sz & Tz).
    cbn [cut_write]. rewrite E. cbn [fst snd]. split; [discriminate|]. split; [reflexivity|]. cbn [ready]. exists z. rewrite Ez. auto.
Qed.

(** * All items of a file *)
Lemma look_all names : forall ips v, Forall item_ok (map fst ips) -> (N.of_nat (List.length names) < 2 ^ 64)%N -> Forall (planned names) ips -> Forall2 made (map fst ips) v ->
  exists v1, look v names = Ok v1 /\ Forall2 (ready names) ips v1.
Proof.
  induction ips as [|[it p] ips IH]; intros v K B P M; inversion M as [|? x ? v' Mx M']; subst.
  - exists []. split; [reflexivity|constructor].
  - apply Forall_cons_iff in K as [K1 K2]. apply Forall_cons_iff in P as [P1 P2]. destruct (look_item names it p x K1 B P1 Mx) as (y & E & R).
    destruct (IH v' K2 B P2 M') as (v1 & E1 & R1). exists (y :: v1). cbn [cut_lookup]. rewrite E. cbn [rbind]. rewrite E1. cbn [rbind]. split; [reflexivity|]. constructor; auto.
Qed.
Lemma ready_all_made names ips v : Forall2 (ready names) ips v -> Forall2 made (map fst ips) v.
Proof. induction 1 as [|ip x ips v R F IH]; cbn [map]; constructor; auto. eapply ready_made; eauto. Qed.
Lemma names_all names ips v : Forall2 (ready names) ips v -> cut_names T v names = Ok (flat_map (labels names) ips).
Proof. induction 1 as [|ip x ips v R F IH]; [reflexivity|]. cbn [cut_names flat_map]. rewrite (ready_names _ _ _ R). cbn [rbind]. rewrite IH. reflexivity. Qed.
Lemma row_all names ot whole fields ips v css : ColModel.tm_quote ot = QPlain -> Forall2 (ready names) ips v -> Forall2 (cells (clean ot) names fields) ips css ->
  fst (cut_row T trans_run frem fpow libm exp10 print_num v whole fields ot) = wput (join (ColModel.tm_delim ot) (concat css) ++ [NL]) /\
  Forall2 (ready names) ips (snd (cut_row T trans_run frem fpow libm exp10 print_num v whole fields ot)).
Proof.
  intros Q R C. unfold cut_row. cbn [fst snd].
  assert (H : Forall (fun cs => cs <> []) css /\ Forall2 (fun o x => o = wput x) (map (fun x => fst (writes1 x whole fields ot)) v) (map (join (ColModel.tm_delim ot)) css) /\
              Forall2 (ready names) ips (map (fun x => snd (writes1 x whole fields ot)) v)).
  { revert css C. induction R as [|ip x ips v Rx R IH]; intros css C; inversion C as [|? cs ? css' Cx C']; subst; cbn [map]; [repeat split; constructor|].
    destruct (write_item names ip x fields whole ot cs Q Rx Cx) as (W1 & W2 & W3). destruct (IH css' C') as (I1 & I2 & I3). repeat split; constructor; auto. }
  destruct H as (H1 & H2 & H3). split; auto. rewrite (wall_join _ _ _ H2), join_parts by auto. rewrite wseq_put. reflexivity.
Qed.

(** * The lines of a file *)
Variable md : ToolModel.tmode.
Hypothesis Hq : tm_quote md = QPlain.
Hypothesis Hd : tm_delim md <> NL.
Variable ot : ColModel.tmode.
Hypothesis Ho : ColModel.tm_quote ot = QPlain.
Notation row_of names ips := (fun l row => exists css, Forall2 (cells (clean ot) names (parted (tm_delim md) l)) ips css /\ row = join (ColModel.tm_delim ot) (concat css) ++ [NL]).
Lemma cut_lines names ips : forall rest fuel r l hist v rows, at_line md r (proc md l :: hist) rest -> List.length rest < fuel -> Forall whole_line (l :: rest) ->
  Forall2 (ready names) ips v -> Forall2 (row_of names ips) (l :: rest) rows ->
  exists v', cut_loop T trans_run frem fpow libm exp10 print_num fuel md ot v r = (concat rows, Ok v') /\ Forall2 (ready names) ips v'.
Proof.
  induction rest as [|l' rest IH]; intros fuel r l hist v rows HA Hf HW R C; (destruct fuel as [|k]; [cbn in Hf; lia|]); cbn [cut_loop];
    inversion C as [|? row ? rows' (css & Cc & ->) C']; subst; apply Forall_cons_iff in HW as [W1 W2];
    rewrite (ring_curr _ _ _ (proj1 HA)); cbn [need];
    (assert (TC : tl_cols (proc md l) = parted (tm_delim md) l) by (unfold proc; rewrite process_cols, Hq; apply parted_cols; auto)); rewrite TC;
    destruct (row_all names ot (tl_text (proc md l)) (parted (tm_delim md) l) ips v css Ho R Cc) as [E1 E2];
    destruct (cut_row T trans_run frem fpow libm exp10 print_num v (tl_text (proc md l)) (parted (tm_delim md) l) ot) as [[w e] v1]; cbn [fst snd] in E1, E2; unfold wput in E1; apply pair_equal_spec in E1 as [-> ->]; cbn [need].
  - inversion C'; subst. destruct (next_nil _ _ _ HA) as (r' & H1 & H2 & _). rewrite H1. cbn [need]. rewrite H2. exists v1. split; auto.
  - destruct (next_cons _ _ _ _ _ HA) as (r' & H1 & H2 & _). rewrite H1. cbn [need]. replace (r_done r') with false by (symmetry; apply H2). cbn [List.length] in Hf.
    destruct (IH k r' l' (proc md l :: hist) v1 rows' H2 ltac:(lia) W2 E2 C') as (v' & E & R'). exists v'. rewrite E. split; auto.
Qed.

(** * Headers *)
Variable items : list citem.
Hypothesis Hitems : Forall item_ok items.
Variable m : hmode.
Variable cdx : bool.
Notation cut_of := (cut_of letter alnum (maker match_make) made_trans trans_to utf8 frem fpow libm exp10 print_num pos items (clean ot) (tm_delim md) (ColModel.tm_delim ot)).
Definition mode_ok (h : header) (names : list bytes) : Prop :=
  Forall (well_named letter alnum) names /\ (NoDup names \/ h_dups h = DAllow) /\ h_rename h = [].
Lemma push_allow : forall names h, Forall (well_named letter alnum) names -> h_dups h = DAllow -> h_rename h = [] ->
  push_all uni_alpha uni_alnum h names = (mkhdr (h_cols h ++ names) (h_dups h) (h_rename h) (h_sloppy h), true).
Proof.
  induction names as [|n names IH]; intros h W D Rn; cbn [push_all]; [rewrite app_nil_r; destruct h; reflexivity|].
  apply Forall_cons_iff in W as [W1 W2].
  assert (V : is_valid uni_alpha uni_alnum n = true) by (apply is_valid_iff; exact W1).
  assert (P : push uni_alpha uni_alnum h n = (mkhdr (h_cols h ++ [n]) (h_dups h) (h_rename h) (h_sloppy h), true)).
  { unfold push. rewrite V, Rn, D. cbn [negb take_rename]. destruct (contains (h_cols h) n); reflexivity. }
  rewrite P. rewrite IH by auto. cbn [h_cols h_dups h_rename h_sloppy]. rewrite <- app_assoc. reflexivity.
Qed.
Lemma head_ok h names has : mode_ok h names -> (has = true -> names <> []) ->
  cut_head uni_alpha uni_alnum cdx ot h names has = Ok (if has then head_line cdx (ColModel.tm_delim ot) names else []).
Proof.
  intros (W & D & Rn) NE. unfold cut_head.
  assert (P : push_all uni_alpha uni_alnum (hdr_clear h) names = (mkhdr names (h_dups h) (h_rename h) (h_sloppy h), true)).
  { destruct D as [D|D]; [rewrite push_all_fresh|rewrite push_allow]; auto. }
  rewrite P. destruct has; [|reflexivity]. unfold get_head. cbn [h_cols]. specialize (NE eq_refl). destruct names as [|n names]; [congruence|]. rewrite add_head_join. reflexivity.
Qed.

(** * The files *)
Definition has_head (f : shown) : bool := match sh_head f with [] => false | _ => true end.
Definition file_ok (f : shown) : Prop :=
  (sh_head f <> [] \/ sh_lines f <> []) /\ Forall whole_line (sh_lines f) /\ (N.of_nat (List.length (sh_names f)) < 2 ^ 64)%N.
Definition head_of (f : shown) (heads : list bytes) : bytes := if has_head f then head_line cdx (ColModel.tm_delim ot) heads else [].
Fixpoint outs (bs : list bool) (fs : list shown) (hs rss : list (list bytes)) : bytes :=
  match bs, fs, hs, rss with
  | b :: bs, f :: fs, h :: hs, rs :: rss => (if b then head_of f h else []) ++ concat rs ++ outs bs fs hs rss
  | _, _, _, _ => []
  end.
Inductive Forall3 {A B C} (R : A -> B -> C -> Prop) : list A -> list B -> list C -> Prop :=
| f3_nil : Forall3 R [] [] []
| f3_cons a b c la lb lc : R a b c -> Forall3 R la lb lc -> Forall3 R (a :: la) (b :: lb) (c :: lc).
Lemma f2_inv {A B} (R : A -> B -> Prop) a la b lb : Forall2 R (a :: la) (b :: lb) -> R a b /\ Forall2 R la lb.
Proof. intros H. inversion H; subst. auto. Qed.
Lemma f3_inv {A B C} (R : A -> B -> C -> Prop) a la lb lc : Forall3 R (a :: la) lb lc -> exists b lb' c lc', lb = b :: lb' /\ lc = c :: lc' /\ R a b c /\ Forall3 R la lb' lc'.
Proof. intros H. inversion H; subst. eauto 10. Qed.
Lemma cut_all h : forall ss fs, files_show (fun s => wf_src s /\ content s = []) (PasteProofs.shows utf8_ok md) ss fs ->
  forall v ck hs rss bs, Forall2 made items v -> Forall file_ok fs -> Forall3 cut_of fs hs rss ->
  Forall2 (fun f names => mode_ok h names /\ (has_head f = true -> names <> [])) fs hs ->
  check_all utf8_ok name_ok m ck (map (fun x => head_of (fst x) (snd x)) (combine fs hs)) = Ok bs ->
  cut_files utf8_ok name_ok uni_alpha uni_alnum T trans_make trans_run match_make frem fpow libm exp10 print_num md cdx ot m h v ck ss = (outs bs fs hs rss, Ok tt).
Proof.
  intros ss fs H. induction H as [|s ss fs [E1 E2] H IH|s f ss fs Sh H IH]; intros v ck hs rss bs M FO C HO CK.
  - inversion C; subst. cbn in CK. injection CK as <-. reflexivity.
  - cbn [cut_files]. destruct (open_nothing utf8_ok md s E1 E2) as (f & O1 & O2). rewrite O1. cbn [need]. rewrite O2. eauto.
  - apply Forall_cons_iff in FO as [(F1 & F2 & F3) FO]. apply f3_inv in C as (h0 & hs' & rs & rss' & -> & -> & (ips & I1 & I2 & I3 & I4) & C'). subst h0. apply f2_inv in HO as [[Hm Hn] HO'].
    set (hh := flat_map (labels (sh_names f)) ips) in *.
    cbn [combine map check_all fst snd] in CK. destruct (check utf8_ok name_ok m ck (head_of f hh)) as [b ck'] eqn:Eb. destruct b as [b| |]; cbn [rbind] in CK; try discriminate.
    destruct (check_all utf8_ok name_ok m ck' (map (fun x => head_of (fst x) (snd x)) (combine fs hs'))) as [bs'| |] eqn:Ebs; cbn [rbind] in CK; try discriminate. injection CK as <-.
    destruct (open_some utf8_ok md s f Sh F1) as (t & O1 & O2 & O3). destruct O3 as (OH & ON & OL).
    cbn [cut_files]. rewrite O1. cbn [need]. rewrite O2, ON.
    destruct (look_all (sh_names f) ips v) as (v1 & L1 & L2); auto; try (rewrite I1; auto).
    rewrite L1. cbn [need]. rewrite (names_all _ _ _ L2). cbn [need]. fold hh.
    assert (EH : (match tf_head t with Some _ => true | None => false end) = has_head f) by (rewrite OH; unfold has_head; destruct (sh_head f); reflexivity). rewrite EH.
    rewrite (head_ok h hh (has_head f) Hm Hn). cbn [need]. fold (head_of f hh). rewrite Eb. cbn [need outs].
    destruct (sh_lines f) as [|l rest] eqn:EL.
    + assert (rs = []) as -> by (inversion I4; auto). rewrite OL. rewrite (IH v1 ck' hs' rss' bs') by (auto; rewrite <- I1; eapply ready_all_made; eauto). unfold say. cbn. reflexivity.
    + replace (r_done (tf_rd t)) with false by (symmetry; apply OL).
      assert (LT : List.length rest < turns (tf_rd t)). { assert (X : S (List.length rest) < turns (tf_rd t)); [|lia]. eapply at_line_turns; [|exact OL]. intros E. rewrite Hq in E. discriminate. }
      destruct (cut_lines (sh_names f) ips rest (turns (tf_rd t)) (tf_rd t) l [] v1 rs OL LT F2 L2 I4) as (v2 & W1 & W2). rewrite W1. cbn [need].
      rewrite (IH v2 ck' hs' rss' bs') by (auto; rewrite <- I1; eapply ready_all_made; eauto). unfold say. cbn [fst snd]. reflexivity.
Qed.

(** * The options *)
Lemma made_item it : item_ok it -> forall h v, exists x, cut_arg uni_alpha uni_alnum T trans_make h v (item_option it) = Ok (h, v ++ [x]) /\ made it x.
Proof.
  intros K h v.
  assert (A : forall s, spec_ok letter alnum s -> (forall t, s_trans s = Some t -> made_trans t) ->
    exists c, add uni_alpha trans_make set_new (spec_text s) false = Ok c /\ set_rel T trans_make c (parts_of false s)).
  { intros s S1 S2. destruct (adds_spec uni_alpha uni_alnum T trans_make trans_run match_make [(false, s)] set_new []) as (c & E & R & _).
    - split; constructor.
    - constructor; [|constructor]. split; auto.
    - cbn [call_texts map adds] in E. unfold call_texts in E. cbn in E. destruct (add uni_alpha trans_make set_new (spec_text s) false) as [c0| |]; cbn [rbind] in E; try discriminate. injection E as ->.
      exists c. split; auto. unfold all_parts in R. cbn in R. rewrite app_nil_r in R. exact R. }
  destruct it as [s|d n s|n ps caret|n bits]; cbn [item_option cut_arg].
  - destruct K as [K1 K2]. destruct (A s K1 K2) as (c & E & R). cbn [beq bs]. change (beq (bs "fields") (bs "dups")) with false. change (beq (bs "fields") (bs "fields")) with true. cbv iota.
    rewrite E. cbn [rbind]. eexists. split; [reflexivity|]. cbn [made]. eauto.
  - destruct K as (K0 & K1 & K2 & K3). destruct (A s K2 K3) as (c & E & R).
    change (beq (bs "group") (bs "dups")) with false. change (beq (bs "group") (bs "fields")) with false. change (beq (bs "group") (bs "group")) with true. cbv iota.
    unfold clump_spec. replace (127 <? d)%N with false by (symmetry; apply N.ltb_ge; lia). rewrite split_once_app by auto. rewrite E. cbn [rbind]. eexists. split; [reflexivity|]. cbn [made]. eauto.
  - destruct K as [K1 K2]. change (beq (bs "composite") (bs "dups")) with false. change (beq (bs "composite") (bs "fields")) with false. change (beq (bs "composite") (bs "group")) with false.
    change (beq (bs "composite") (bs "expr")) with false. change (beq (bs "composite") (bs "composite")) with true. cbv iota. unfold caret_text. rewrite comp_set_ok by auto. cbn [rbind]. eexists. split; [reflexivity|].
    cbn [made]. eexists. split; [reflexivity|]. apply comp_like_refl.
  - change (beq (bs "expr") (bs "dups")) with false. change (beq (bs "expr") (bs "fields")) with false. change (beq (bs "expr") (bs "group")) with false. change (beq (bs "expr") (bs "expr")) with true. cbv iota.
    unfold column_expr. rewrite split_once_app by auto. eexists. split; [reflexivity|]. cbn [made]. eexists. split; [reflexivity|]. split; [reflexivity|]. apply settled_new.
Qed.
Lemma args_ok args its0 words : cut_says args its0 words -> Forall item_ok its0 -> Forall (fun v => exists w, In w dup_words /\ same_but_case v w) words -> forall h v,
  exists h' xs, cut_args uni_alpha uni_alnum T trans_make h v args = Ok (h', v ++ xs) /\ Forall2 made its0 xs /\ h_rename h' = h_rename h /\
    (words = [] -> h_dups h' = h_dups h) /\ (words <> [] -> (h_dups h' = DAllow <-> allows words)).
Proof.
  induction 1 as [|it args its ws S IH|w args its ws S IH]; intros K W h v.
  - exists h, []. rewrite app_nil_r. repeat split; auto; try constructor; congruence.
  - apply Forall_cons_iff in K as [K1 K2]. destruct (made_item it K1 h v) as (x & E & M). cbn [cut_args]. rewrite E. cbn [rbind].
    destruct (IH K2 W h (v ++ [x])) as (h' & xs & E' & M' & R). exists h', (x :: xs). rewrite E', <- app_assoc. split; auto.
  - apply Forall_cons_iff in W as [(w0 & I & Sm) W2]. destruct (dup_word w0 I w Sm) as (d & D & A). cbn [cut_args cut_arg]. change (beq (bs "dups") (bs "dups")) with true. cbv iota. rewrite D. cbn [rbind].
    destruct (IH K W2 (set_handling h d) v) as (h' & xs & E' & M' & R1 & R2 & R3). exists h', xs. split; auto. split; auto. split; [exact R1|]. split; [discriminate|]. intros _.
    destruct ws as [|w2 ws].
    + rewrite R2 by auto. cbn [set_handling h_dups]. unfold allows. cbn [last]. rewrite A. split.
      * intros ->. exact Sm.
      * intros X. apply same_case_map in Sm. apply same_case_map in X. rewrite X in Sm. cbn in I. destruct I as [<- |[<- |[<- |[]]]]; auto; discriminate Sm.
    + exact (R3 ltac:(discriminate)).
Qed.
End Cut.


Lemma check_no_head u no m : forall n ck, check_all u no m ck (repeat [] n) = Ok (repeat false n).
Proof.
  induction n as [|n IH]; intros ck; [reflexivity|]. cbn [repeat check_all]. unfold check. replace (is_valid_cdx u no m []) with (@Ok bool false) by (destruct m; reflexivity). cbn [rbind].
  rewrite IH. reflexivity.
Qed.

Lemma outs_none ot cdx : forall fs hs rss, List.length hs = List.length fs -> List.length rss = List.length fs -> outs ot cdx (repeat false (List.length fs)) fs hs rss = concat (concat rss).
Proof.
  induction fs as [|f fs IH]; intros [|h hs] [|rs rss] L1 L2; try discriminate; [reflexivity|]. cbn [List.length repeat outs concat app]. rewrite concat_app, IH by (cbn in *; lia). reflexivity.
Qed.
Lemma f3_length {A B C} (R : A -> B -> C -> Prop) la lb lc : Forall3 R la lb lc -> List.length lb = List.length la /\ List.length lc = List.length la.
Proof. induction 1 as [|a b c la lb lc H F [I1 I2]]; cbn; auto. Qed.

Section Main.
Variables utf8_ok name_ok : bytes -> bool.
Variables uni_alpha uni_alnum : N -> bool.
Variable T : Type.
Variable trans_make : bytes -> res T.
Variable trans_run : T -> bytes -> res bytes.
Variable match_make : bytes -> res (bytes -> bool).
Variable frem fpow : f64 -> f64 -> f64.
Variable libm : fop -> list f64 -> f64.
Variable exp10 : Z -> f64.
Variable print_num : f64 -> bytes.
Variable pos : bytes -> N.
Notation letter := (alphabetic uni_alpha).
Notation alnum := (alphanumeric uni_alnum).
Notation cut_of := (cut_of letter alnum (maker match_make) (made_trans T trans_make) (trans_to T trans_make trans_run) utf8 frem fpow libm exp10 print_num pos).
Notation main := (cut_main utf8_ok name_ok uni_alpha uni_alnum T trans_make trans_run match_make frem fpow libm exp10 print_num).
Variables (md : tmode) (cdx : bool) (ot : ColModel.tmode) (args : list (bytes * bytes)) (items : list citem) (words : list bytes) (ss : list src) (fs : list shown).
Hypothesis Hsays : cut_says args items words.
Hypothesis Hitems : Forall (citem_ok letter alnum (made_trans T trans_make)) items.
Hypothesis Hne : items <> [].
Hypothesis Hwords : Forall (fun v => exists w, In w dup_words /\ same_but_case v w) words.
Hypothesis Hq : tm_quote md = QPlain.
Hypothesis Hd : tm_delim md <> NL.
Hypothesis Ho : ColModel.tm_quote ot = QPlain.
Hypothesis Hshow : files_show (fun s => wf_src s /\ content s = []) (PasteProofs.shows utf8_ok md) ss fs.
Hypothesis Hfile : Forall file_ok fs.

Lemma cut_run m hs rss bs : Forall3 (cut_of items (clean ot) (tm_delim md) (ColModel.tm_delim ot)) fs hs rss ->
  Forall (fun heads => Forall (well_named letter alnum) heads /\ (NoDup heads \/ words <> [] /\ allows words)) hs ->
  Forall2 (fun f names => has_head f = true -> names <> []) fs hs ->
  check_all utf8_ok name_ok m ck_new (map (fun x => head_of ot cdx (fst x) (snd x)) (combine fs hs)) = Ok bs ->
  main md cdx ot m args ss = (outs ot cdx bs fs hs rss, Ok tt).
Proof.
  intros C W N K. unfold cut_main.
  destruct (args_ok utf8_ok name_ok uni_alpha uni_alnum T trans_make trans_run match_make pos md Hd args items words Hsays Hitems Hwords hdr_new []) as (h & xs & E & M & R1 & R2 & R3).
  rewrite E. cbn [need app]. destruct xs as [|x xs]; [inversion M; subst; congruence|].
  apply (cut_all utf8_ok name_ok uni_alpha uni_alnum T trans_make trans_run match_make frem fpow libm exp10 print_num pos md Hq Hd ot Ho items Hitems m cdx h ss fs Hshow); auto.
  clear - N W R1 R3. induction N as [|f hd fs hs H N IH]; constructor.
  - split; auto. apply Forall_cons_iff in W as [[W1 W2] _]. split; auto. split; auto. destruct W2 as [W2|[W2 W3]]; auto. right. apply R3; auto.
  - apply IH. apply Forall_cons_iff in W. apply W.
Qed.
Lemma heads_none : Forall (fun f => sh_head f = []) fs -> forall hs, List.length hs = List.length fs -> map (fun x => head_of ot cdx (fst x) (snd x)) (combine fs hs) = repeat [] (List.length fs).
Proof.
  clear. induction 1 as [|f fs H F IH]; intros [|h hs] L; try discriminate; [reflexivity|]. cbn [combine map List.length repeat fst snd]. rewrite IH by (cbn in L; lia). unfold head_of, has_head. rewrite H. reflexivity.
Qed.
Lemma headless m hs rss : Forall3 (cut_of items (clean ot) (tm_delim md) (ColModel.tm_delim ot)) fs hs rss ->
  Forall (fun heads => Forall (well_named letter alnum) heads /\ (NoDup heads \/ words <> [] /\ allows words)) hs ->
  Forall (fun f => sh_head f = []) fs -> main md cdx ot m args ss = (concat (concat rss), Ok tt).
Proof.
  intros C W H. destruct (f3_length _ _ _ _ C) as [L1 L2].
  rewrite (cut_run m hs rss (repeat false (List.length fs)) C W).
  - now rewrite outs_none.
  - clear - H L1. revert hs L1. induction H as [|f fs H F IH]; intros [|h hs] L; try discriminate; constructor; auto. unfold has_head. rewrite H. discriminate.
  - rewrite heads_none by auto. apply check_no_head.
Qed.
Lemma headed heads rss : cdx = true -> Forall3 (cut_of items (clean ot) (tm_delim md) (ColModel.tm_delim ot)) fs (map (fun _ => heads) fs) rss ->
  Forall (well_named letter alnum) heads -> NoDup heads \/ words <> [] /\ allows words -> heads <> [] ->
  bad_delim (ColModel.tm_delim ot) = false -> Forall (fun x => ~ In (ColModel.tm_delim ot) x /\ name_ok x = true /\ x <> []) heads -> utf8_ok (join (ColModel.tm_delim ot) heads) = true ->
  Forall (fun f => sh_head f <> []) fs -> fs <> [] ->
  main md cdx ot MMatch args ss = (head_line true (ColModel.tm_delim ot) heads ++ concat (concat rss), Ok tt).
Proof.
  intros EC C W1 W2 NE BD HF U H NF. destruct (f3_length _ _ _ _ C) as [_ L2].
  assert (EM : map (fun x => head_of ot cdx (fst x) (snd x)) (combine fs (map (fun _ => heads) fs)) = repeat (head_line true (ColModel.tm_delim ot) heads) (List.length fs)).
  { clear - H EC. induction H as [|f fs H F IH]; [reflexivity|]. cbn [map combine List.length repeat fst snd]. rewrite IH. unfold head_of, has_head. rewrite EC. destruct (sh_head f); [congruence|reflexivity]. }
  assert (EL : List.length fs = S (Nat.pred (List.length fs))) by (destruct fs; [congruence|reflexivity]).
  assert (V : head_line true (ColModel.tm_delim ot) heads = CDX ++ ColModel.tm_delim ot :: join (ColModel.tm_delim ot) heads ++ [NL]) by reflexivity.
  assert (K : check_all utf8_ok name_ok MMatch ck_new (map (fun x => head_of ot cdx (fst x) (snd x)) (combine fs (map (fun _ => heads) fs))) = Ok (true :: repeat false (Nat.pred (List.length fs)))).
  { rewrite EM, EL. apply check_same; [rewrite V; apply head_valid; auto|]. unfold head_line. rewrite app_assoc. apply last_last. }
  rewrite (cut_run MMatch (map (fun _ => heads) fs) rss (true :: repeat false (Nat.pred (List.length fs))) C).
  - clear EM K C EL V. destruct fs as [|f fs']; [congruence|]. destruct rss as [|rs rss]; [discriminate|]. apply Forall_cons_iff in H as [H _]. cbn [List.length Nat.pred map outs]. rewrite outs_none by (rewrite ?map_length; cbn in L2; lia).
    unfold head_of, has_head. rewrite EC. destruct (sh_head f); [congruence|]. cbn [concat]. rewrite concat_app. reflexivity.
  - clear - W1 W2. induction fs; constructor; auto.
  - clear - NE. induction fs; constructor; auto.
  - exact K.
Qed.
End Main.
