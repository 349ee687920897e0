(** Proofs for paste. *)
From Coq Require Import List NArith Bool Arith Lia.
Import ListNotations.
From Verif Require Import Base TextSpec TextModel ReadSpec ReadModel ReadProofs HdrModel ColModel ColWriteProofs ToolModel ToolOpen TurnSpec TurnProofs PasteSpec.

Section Paste.
Variable T : Type.
Variable md : tmode.
Hypothesis Hplain : tm_quote md = QPlain.
Variable use_last : bool.
Variable dflt : values T.
(** Whether files that have ended matter. *)
Variable fillers : Prop.

Lemma Hmd : md_ok md.
Proof. intros E. rewrite Hplain in E. discriminate. Qed.

Definition fill_ok (p : pfile) (f : piece) : Prop :=
  fillers -> if use_last then fst f <> [] /\ snd f = removelast (last (fst f) [])
             else fills T dflt false (pf_from p) (pf_to p - pf_from p) = (snd f, Ok tt).
Definition pst (j : nat) (p : pfile) (f : piece) : Prop :=
  Forall (is_line (tm_break md)) (fst f) /\ fill_ok p f /\
  if j <? length (fst f) then exists hist, at_line md (pf_rd p) (proc md (nth j (fst f) []) :: hist) (skipn (S j) (fst f))
  else r_done (pf_rd p) = true /\ (fst f <> [] -> prev_line (pf_rd p) 1 = Ok (proc md (last (fst f) []))).

Lemma line_body l : is_line (tm_break md) l -> tl_line_nl (proc md l) = Ok (removelast l).
Proof.
  intros (b & -> & _). unfold proc, process, tl_split, tl_line_nl. rewrite Hplain. cbn [tl_line].
  destruct (b ++ [tm_break md]) eqn:E; [destruct b; discriminate|]. reflexivity.
Qed.

Lemma nth_part j (f : piece) : j < length (fst f) -> part_of j f = removelast (nth j (fst f) []).
Proof.
  intros H. unfold part_of. rewrite (nth_indep _ _ (removelast [])) by (rewrite map_length; auto). apply map_nth.
Qed.
Lemma part_over j (f : piece) : length (fst f) <= j -> part_of j f = snd f.
Proof. intros H. unfold part_of. apply nth_overflow. rewrite map_length. exact H. Qed.

Lemma skipn_nth {A} (l : list A) d : forall j, j < length l -> skipn j l = nth j l d :: skipn (S j) l.
Proof. induction l as [|x l IH]; intros [|j] H; cbn [length] in *; try lia; auto. cbn [skipn nth]. rewrite IH by lia. reflexivity. Qed.
Lemma last_nth' {A} (l : list A) d : last l d = nth (length l - 1) l d.
Proof.
  induction l as [|x l IH]; auto. destruct l as [|y l]; auto. change (last (x :: y :: l) d) with (last (y :: l) d). rewrite IH.
  cbn [length]. replace (S (S (length l)) - 1) with (S (S (length l) - 1)) by lia. reflexivity.
Qed.

(** One file of a row. *)
Lemma step_alive j p f : pst j p f -> j < length (fst f) ->
  r_done (pf_rd p) = false /\ rbind (prev_line (pf_rd p) 0) tl_line_nl = Ok (part_of j f) /\
  exists r', next_line md (pf_rd p) = Ok r' /\ r_done r' = negb (S j <? length (fst f)) /\ pst (S j) (mkpf r' (pf_from p) (pf_to p)) f.
Proof.
  intros (HL & HF & H) Hj. apply Nat.ltb_lt in Hj as Hj'. rewrite Hj' in H. destruct H as (hist & HA).
  split; [apply HA|]. rewrite (ring_curr _ _ _ (proj1 HA)). cbn [rbind]. rewrite line_body.
  2:{ rewrite Forall_forall in HL. apply HL, nth_In. exact Hj. }
  rewrite nth_part by exact Hj. split; [reflexivity|].
  destruct (Nat.ltb_spec (S j) (length (fst f))) as [L|L].
  - rewrite (skipn_nth _ [] (S j) L) in HA. destruct (next_cons _ _ _ _ _ HA) as (r' & H1 & H2 & _). exists r'. split; auto.
    split; [apply H2|]. split; auto. split; [exact HF|]. cbn [pf_rd]. apply Nat.ltb_lt in L. rewrite L. eauto.
  - rewrite skipn_all2 in HA by lia. destruct (next_nil _ _ _ HA) as (r' & H1 & H2 & _ & t & H3). exists r'. split; auto.
    split; [exact H2|]. split; auto. split; [exact HF|]. cbn [pf_rd]. apply Nat.ltb_ge in L as L'. rewrite L'. split; auto.
    intros _. rewrite (ring_prev _ _ _ _ H3). do 2 f_equal. rewrite last_nth'. f_equal. lia.
Qed.

Lemma step_dead j p f : pst j p f -> length (fst f) <= j -> fillers ->
  r_done (pf_rd p) = true /\ filler T use_last dflt p = (part_of j f, Ok tt) /\ pst (S j) p f.
Proof.
  intros (HL & HF & H) Hj Hf. apply Nat.ltb_ge in Hj as Hj'. rewrite Hj' in H. destruct H as (H1 & H2).
  split; [exact H1|]. rewrite part_over by exact Hj. split.
  - specialize (HF Hf). unfold filler. destruct use_last; [|exact HF]. destruct HF as (HF1 & HF2). rewrite (H2 HF1). cbn [rbind].
    rewrite line_body; [|rewrite Forall_forall in HL; apply HL; destruct (exists_last HF1) as (a & b & ->); rewrite last_last; apply in_or_app; right; left; reflexivity].
    cbn [need]. rewrite HF2. reflexivity.
  - split; auto. split; auto. assert (E : S j <? length (fst f) = false) by (apply Nat.ltb_ge; lia). rewrite E. auto.
Qed.

Definition ending (j : nat) (fs : list piece) : nat := length (filter (fun f => length (fst f) =? S j) fs).


Lemma row_ok j : forall ps fs, Forall2 (pst j) ps fs -> (fillers \/ Forall (fun f => j < length (fst f)) fs) ->
  exists ps', Forall2 (pst (S j)) ps' fs /\ forall tab,
    paste_row T md use_last dflt tab ps = ((if tab : bool then flat_map (fun f => TAB :: part_of j f) fs else join TAB (map (part_of j) fs)), Ok (ps', ending j fs)).
Proof.
  intros ps fs H. induction H as [|p f ps fs Hp H IH]; intros HF.
  - exists []. split; [constructor|]. intros []; reflexivity.
  - assert (HF' : fillers \/ Forall (fun f => j < length (fst f)) fs) by (destruct HF as [HF|HF]; [auto|inversion HF; auto]).
    destruct (IH HF') as (ps' & I1 & I2). specialize (I2 true). cbv iota in I2.
    assert (J : forall x, join TAB (map (part_of j) (f :: fs)) = part_of j f ++ x -> x = flat_map (fun f => TAB :: part_of j f) fs).
    { intros x. cbn [map]. rewrite join_tabs. intros E. apply app_inv_head in E. auto. }
    assert (J' : join TAB (map (part_of j) (f :: fs)) = part_of j f ++ flat_map (fun f => TAB :: part_of j f) fs) by (cbn [map]; apply join_tabs).
    clear J. destruct (Nat.lt_ge_cases j (length (fst f))) as [L|L].
    + destruct (step_alive _ _ _ Hp L) as (S1 & S2 & r' & S3 & S4 & S5).
      exists (mkpf r' (pf_from p) (pf_to p) :: ps'). split; [constructor; auto|]. intros tab. cbn [paste_row]. rewrite S1, S2. cbn [need]. rewrite S3. cbn [need].
      rewrite I2. unfold say. cbn [need fst snd]. rewrite J'. rewrite app_nil_r.
      assert (EE : (if r_done r' then S (ending j fs) else ending j fs) = ending j (f :: fs)).
      { unfold ending. cbn [filter]. rewrite S4. destruct (Nat.ltb_spec (S j) (length (fst f))) as [Q|Q]; destruct (Nat.eqb_spec (length (fst f)) (S j)); cbn [negb length]; lia. }
      rewrite EE. destruct tab; reflexivity.
    + destruct HF as [Hf|HF]; [|inversion HF; subst; lia].
      destruct (step_dead _ _ _ Hp L Hf) as (S1 & S2 & S3).
      exists (p :: ps'). split; [constructor; auto|]. intros tab. cbn [paste_row]. rewrite S1, S2, I2. unfold say. cbn [need fst snd]. rewrite J'. rewrite app_nil_r.
      assert (EE : ending j fs = ending j (f :: fs)). { unfold ending. cbn [filter]. destruct (Nat.eqb_spec (length (fst f)) (S j)); [lia|reflexivity]. }
      rewrite <- EE. destruct tab; reflexivity.
Qed.

(** Counting. *)
Definition alive (j : nat) (fs : list piece) : nat := length (filter (fun f => j <? length (fst f)) fs).
Definition ended (j : nat) (fs : list piece) : nat := length (filter (fun f => negb (j <? length (fst f))) fs).
Lemma alive_step j fs : alive j fs - ending j fs = alive (S j) fs /\ ended j fs + ending j fs = ended (S j) fs /\ ending j fs <= alive j fs.
Proof.
  unfold alive, ended, ending. induction fs as [|f fs (I1 & I2 & I3)]; [auto|]. cbn [filter].
  destruct (Nat.ltb_spec j (length (fst f))) as [A|A]; destruct (Nat.ltb_spec (S j) (length (fst f))) as [B|B]; destruct (Nat.eqb_spec (length (fst f)) (S j)) as [C|C];
    cbn [negb length]; lia.
Qed.
Definition lens (fs : list piece) : list nat := map (fun f : piece => length (fst f)) fs.
Lemma alive_zero j fs : alive j fs = 0 <-> longest (lens fs) <= j.
Proof.
  unfold alive, longest, lens. induction fs as [|f fs IH]; cbn [filter map list_max fold_right]; [cbn; lia|].
  unfold list_max in *. cbn [fold_right]. destruct (Nat.ltb_spec j (length (fst f))) as [A|A]; cbn [length]; lia.
Qed.
Lemma fold_min_le m l : fold_right Nat.min m l <= m.
Proof. induction l; cbn [fold_right]; lia. Qed.
Lemma fold_min_zero j m fs : j < m -> length (filter (fun f : piece => negb (j <? length (fst f))) fs) = 0 <-> j < fold_right Nat.min m (lens fs).
Proof.
  intros Hm. unfold lens. induction fs as [|f fs IH]; cbn [filter map fold_right]; [cbn; lia|].
  destruct (Nat.ltb_spec j (length (fst f))) as [A|A]; cbn [negb length]; lia.
Qed.
Lemma ended_zero j fs : j < longest (lens fs) -> ended j fs = 0 <-> j < shortest (lens fs).
Proof. intros H. apply fold_min_zero. exact H. Qed.
Lemma ended_all j fs : ended j fs = 0 -> Forall (fun f : piece => j < length (fst f)) fs.
Proof.
  unfold ended. induction fs as [|f fs IH]; cbn [filter]; [constructor|]. destruct (Nat.ltb_spec j (length (fst f))) as [A|A]; cbn [negb length]; [|lia].
  intros H. constructor; auto.
Qed.
Lemma short_long fs : shortest (lens fs) <= longest (lens fs).
Proof. apply fold_min_le. Qed.

Lemma rows_from a n fs : map (fun j => map (part_of j) fs) (seq a (S n)) = map (part_of a) fs :: map (fun j => map (part_of j) fs) (seq (S a) n).
Proof. reflexivity. Qed.
Lemma table_cons row rows : table (row :: rows) = (join TAB row ++ [NL]) ++ table rows.
Proof. reflexivity. Qed.

(** One turn of the loop. *)
Lemma turn k mode j ps fs : Forall2 (pst j) ps fs -> (fillers \/ Forall (fun f => j < length (fst f)) fs) ->
  alive j fs <> 0 -> (mode <> Late -> ended j fs = 0) ->
  exists ps', Forall2 (pst (S j)) ps' fs /\
    paste_loop T (S k) md mode use_last dflt (alive j fs) (ended j fs) ps =
      say (join TAB (map (part_of j) fs) ++ [NL]) (paste_loop T k md mode use_last dflt (alive (S j) fs) (ended (S j) fs) ps').
Proof.
  intros H HF HA HE. destruct (row_ok j ps fs H HF) as (ps' & R1 & R2). exists ps'. split; auto.
  cbn [paste_loop]. apply Nat.eqb_neq in HA. rewrite HA.
  assert (E1 : (match mode with Exact => negb (ended j fs =? 0) | _ => false end) = false).
  { destruct mode; auto. rewrite HE by discriminate. reflexivity. }
  assert (E2 : (match mode with Early => negb (ended j fs =? 0) | _ => false end) = false).
  { destruct mode; auto. rewrite HE by discriminate. reflexivity. }
  rewrite E1, E2, (R2 false). cbn [need]. destruct (alive_step j fs) as (A1 & A2 & _). rewrite A1, A2.
  unfold say. cbn [fst snd]. rewrite <- app_assoc. reflexivity.
Qed.

Lemma say_app {A} a b (k : bytes * res A) : say a (say b k) = say (a ++ b) k.
Proof. unfold say. cbn [fst snd]. rewrite app_assoc. reflexivity. Qed.

Lemma late_ok : fillers -> forall n j k ps fs, Forall2 (pst j) ps fs -> n = longest (lens fs) - j -> n < k ->
  paste_loop T k md Late use_last dflt (alive j fs) (ended j fs) ps = (table (map (fun j => map (part_of j) fs) (seq j n)), Ok tt).
Proof.
  intros Hf. induction n as [|n IH]; intros j k ps fs H Hn Hk; (destruct k as [|k]; [lia|]).
  - cbn [paste_loop]. assert (E : alive j fs = 0) by (apply alive_zero; lia). rewrite E. reflexivity.
  - destruct (turn k Late j ps fs H (or_introl Hf)) as (ps' & T1 & T2).
    + rewrite alive_zero. lia.
    + congruence.
    + rewrite T2, (IH (S j) k ps' fs T1) by lia. rewrite rows_from, table_cons. reflexivity.
Qed.

Lemma short_ok mode : mode <> Late -> forall n j k ps fs, Forall2 (pst j) ps fs -> n = shortest (lens fs) - j -> j <= shortest (lens fs) -> n < k ->
  paste_loop T k md mode use_last dflt (alive j fs) (ended j fs) ps =
    (table (map (fun j => map (part_of j) fs) (seq j n)),
     match mode with Exact => if shortest (lens fs) =? longest (lens fs) then Ok tt else Err | _ => Ok tt end).
Proof.
  intros Hm. induction n as [|n IH]; intros j k ps fs H Hn Hj Hk; (destruct k as [|k]; [lia|]).
  - pose proof (short_long fs) as SL. assert (j = shortest (lens fs)) by lia. subst j. cbn [paste_loop].
    destruct (Nat.eqb_spec (alive (shortest (lens fs)) fs) 0) as [E|E].
    + apply alive_zero in E. destruct mode; try reflexivity. destruct (Nat.eqb_spec (shortest (lens fs)) (longest (lens fs))); [reflexivity|lia].
    + rewrite alive_zero in E. assert (E2 : ended (shortest (lens fs)) fs <> 0). { rewrite ended_zero by lia. lia. }
      apply Nat.eqb_neq in E2. rewrite E2. cbn [negb]. destruct mode; try reflexivity; [|congruence].
      destruct (Nat.eqb_spec (shortest (lens fs)) (longest (lens fs))); [lia|reflexivity].
  - pose proof (short_long fs) as SL. assert (E : ended j fs = 0) by (apply ended_zero; lia).
    destruct (turn k mode j ps fs H (or_intror (ended_all _ _ E))) as (ps' & T1 & T2).
    + rewrite alive_zero. lia.
    + auto.
    + rewrite T2, (IH (S j) k ps' fs T1) by lia. rewrite rows_from, table_cons. reflexivity.
Qed.
End Paste.

(** ** Setting up *)
Lemma fills_ok T (d : values T) value from n : (forall j, from <= j < from + n -> values_get d j = Ok (value j)) ->
  forall tab, fills T d tab from n = ((if tab : bool then flat_map (fun j => TAB :: value j) (seq from n) else join TAB (map value (seq from n))), Ok tt).
Proof.
  revert from. induction n as [|n IH]; intros from H tab; cbn [fills]. { destruct tab; reflexivity. }
  rewrite (H from) by lia. cbn [need]. rewrite (IH (S from)) with (tab := true) by (intros j Hj; apply H; lia).
  unfold say. cbn [fst snd]. destruct tab; cbn [seq flat_map map]; [reflexivity|]. rewrite join_tabs. reflexivity.
Qed.

Lemma set_at_len {A} (l : list A) : forall n x l', set_at l n x = Ok l' -> length l' = length l.
Proof.
  induction l as [|y l IH]; intros n x l' H; [discriminate|]. destruct n as [|n]; cbn [set_at] in H.
  - inversion H; reflexivity.
  - destruct (set_at l n x) eqn:E; cbn [rbind] in H; try discriminate. inversion H; subst. cbn [length]. f_equal. eapply IH; eauto.
Qed.
Lemma assign_len cols v : forall s h s' h', assign cols v s h = Ok (s', h') -> length s' = length s.
Proof.
  induction cols as [|o cols IH]; intros s h s' h' H; cbn [assign] in H; [inversion H; reflexivity|].
  destruct (set_at s (N.to_nat (oc_num o)) v) eqn:E; cbn [rbind] in H; try discriminate.
  destruct (set_at h (N.to_nat (oc_num o)) true) eqn:E2; cbn [rbind] in H; try discriminate.
  apply IH in H. rewrite H. eapply set_at_len; eauto.
Qed.
Lemma values_loop_len T mm (names : list bytes) : forall (data : list (scoped T)) s h d s' h', values_loop mm data names s h = Ok (d, s', h') -> length s' = length s.
Proof.
  induction data as [|x data IH]; intros s h d s' h' H; cbn [values_loop] in H; [inversion H; reflexivity|].
  destruct (lookup mm (sv_cols x) names) eqn:E; cbn [rbind] in H; try discriminate.
  destruct (assign (cs_cols a) (sv_value x) s h) as [[s1 h1]| |] eqn:E1; cbn [rbind] in H; try discriminate.
  destruct (values_loop mm data names s1 h1) as [[[d2 s2] h2]| |] eqn:E2; cbn [rbind] in H; try discriminate.
  inversion H; subst. apply IH in E2. apply assign_len in E1. congruence.
Qed.
Lemma lookup_len T mm (v d : values T) names : values_lookup mm v names = Ok d -> length (vs_strings d) = length names.
Proof.
  unfold values_lookup. destruct (values_loop mm (vs_data v) names (repeat (vs_default v) (length names)) (repeat false (length names))) as [[[x s] h]| |] eqn:E; cbn [rbind]; try discriminate.
  intros H. inversion H; subst. cbn [vs_strings]. apply values_loop_len in E. rewrite E, repeat_length. reflexivity.
Qed.
(** The value of a column; beyond the last one that of the last. *)
Definition value_of {T} (d : values T) (j : nat) : bytes := nth j (vs_strings d) (last (vs_strings d) []).
Lemma get_value T (d : values T) j : vs_strings d <> [] -> values_get d j = Ok (value_of d j).
Proof.
  intros H. unfold values_get, value_of. destruct (nth_error (vs_strings d) j) as [x|] eqn:E.
  - rewrite (nth_error_nth _ _ _ E). reflexivity.
  - apply nth_error_None in E. rewrite nth_overflow by auto. destruct (vs_strings d); [congruence|reflexivity].
Qed.

(** What a source shows, once opened. *)
Definition shows (u : bytes -> bool) (md : tmode) (s : src) (f : shown) : Prop :=
  wf_src s /\
  ((file_lines u md s (sh_head f) (sh_lines f) /\ sh_names f = shown_names md (sh_head f) (sh_lines f)) \/
   (exists hd s1, read_header u (tm_head md) (tm_quote md) (tm_break md) s = Ok (true, hd, s1) /\ sh_head f = [] /\ sh_names f = [] /\ sh_lines f = [])).
Definition opened (md : tmode) (t : tfile) (f : shown) : Prop :=
  tf_head t = (match sh_head f with [] => None | h => Some h end) /\ tf_names t = sh_names f /\
  match sh_lines f with
  | [] => r_done (tf_rd t) = true
  | l :: rest => at_line md (tf_rd t) [proc md l] rest
  end.
Lemma open_shows u md s f : shows u md s f -> exists t, open_file u md s = Ok t /\ opened md t f.
Proof.
  intros (Hw & [(HL & HN)|(hd & s1 & H & E1 & E2 & E3)]).
  - destruct (open_file_lines _ _ _ _ _ Hw HL) as (t & O1 & _ & O2 & O3 & _ & O4). exists t. split; auto. split; [rewrite O2; destruct (sh_head f); reflexivity|].
    split; [congruence|]. destruct (sh_lines f); [apply O4|exact O4].
  - unfold open_file. rewrite H. cbn [rbind]. eexists. split; [reflexivity|]. unfold opened. rewrite E1, E2, E3. cbn. auto.
Qed.
Lemma open_files_shows u md ss fs : Forall2 (shows u md) ss fs -> exists ts, open_files u md ss = Ok ts /\ Forall2 (opened md) ts fs.
Proof.
  intros H. induction H as [|s f ss fs H1 H IH]; [exists []; split; [reflexivity|constructor]|].
  destruct (open_shows _ _ _ _ H1) as (t & O1 & O2). destruct IH as (ts & I1 & I2). exists (t :: ts). cbn [open_files]. rewrite O1. cbn [rbind]. rewrite I1. cbn [rbind].
  split; [reflexivity|constructor; auto].
Qed.

(** The lines of a plain file. *)
Lemma file_lines_plain u md s hd ls : tm_quote md = QPlain -> wf_src s -> file_lines u md s hd ls -> Forall (is_line (tm_break md)) ls.
Proof.
  intros Hp Hw (s1 & H1 & H2). pose proof (read_header_wf _ _ _ _ _ _ _ _ Hw H1) as Hw1. rewrite read_all_flat in H2 by auto. rewrite Hp in H2.
  apply flat_all_spec in H2 as [_ H2]; [exact H2|discriminate].
Qed.
Lemma shows_lines u md s f : tm_quote md = QPlain -> shows u md s f -> Forall (is_line (tm_break md)) (sh_lines f).
Proof.
  intros Hp (Hw & [(HL & _)|(hd & s1 & _ & _ & _ & E)]); [eapply file_lines_plain; eauto|rewrite E; constructor].
Qed.

Section Open.
Variables uni_alpha uni_alnum : N -> bool.
Notation push_all := (push_all uni_alpha uni_alnum).
Notation paste_open := (paste_open uni_alpha uni_alnum).

Lemma push_all_app a : forall h b, push_all h (a ++ b) = let '(h1, ok) := push_all h a in if ok then push_all h1 b else (h1, false).
Proof.
  induction a as [|x a IH]; intros h b; [reflexivity|]. cbn [app HdrModel.push_all]. destruct (push uni_alpha uni_alnum h x) as [h' ok]. destruct ok; [apply IH|reflexivity].
Qed.
Lemma unchecked_app h a b : push_all_unchecked (push_all_unchecked h a) b = push_all_unchecked h (a ++ b).
Proof. unfold push_all_unchecked. cbn [h_cols h_dups h_rename h_sloppy]. rewrite app_assoc. reflexivity. Qed.

Fixpoint ranged (cols : nat) (ts : list tfile) : list pfile :=
  match ts with
  | [] => []
  | t :: r => mkpf (tf_rd t) cols (cols + length (tf_names t)) :: ranged (cols + length (tf_names t)) r
  end.
Definition lines_of (fs : list shown) : list piece := map (fun f => (sh_lines f, [])) fs.

Lemma done_empty md t f : opened md t f -> r_done (tf_rd t) = negb (0 <? length (sh_lines f)).
Proof. intros (_ & _ & H). destruct (sh_lines f); [rewrite H; reflexivity|]. apply H. Qed.

Lemma open_unchecked md ts fs : Forall2 (opened md) ts fs -> forall h live dead cols ps,
  paste_open ts h false live dead cols ps =
    Ok (push_all_unchecked h (concat (map sh_names fs)), false, live + alive 0 (lines_of fs), dead + ended 0 (lines_of fs), ps ++ ranged cols ts).
Proof.
  intros H. induction H as [|t f ts fs H1 H IH]; intros h live dead cols ps; cbn [ToolModel.paste_open ranged].
  - unfold push_all_unchecked. cbn. rewrite !app_nil_r, !Nat.add_0_r. destruct h; reflexivity.
  - destruct H1 as (O1 & O2 & O3). rewrite (done_empty md t f (conj O1 (conj O2 O3))).
    assert (E : (match tf_head t with Some _ => false | None => false end) = false) by (destruct (tf_head t); reflexivity). rewrite E. cbn [negb].
    rewrite !IH, O2, unchecked_app, <- !app_assoc. cbn [app map concat lines_of]. unfold alive, ended. cbn [filter fst].
    destruct (0 <? length (sh_lines f)) eqn:L; cbn [negb length]; rewrite ?Nat.add_succ_r; cbn [Nat.add]; reflexivity.
Qed.
Lemma open_headed md ts fs : Forall2 (opened md) ts fs -> forall h h1 live dead cols ps, push_all h (fst (headed fs)) = (h1, true) ->
  paste_open ts h true live dead cols ps =
    Ok (push_all_unchecked h1 (snd (headed fs)), all_headed fs, live + alive 0 (lines_of fs), dead + ended 0 (lines_of fs), ps ++ ranged cols ts).
Proof.
  intros H. induction H as [|t f ts fs H1 H IH]; intros h h1 live dead cols ps HP.
  - cbn in HP. inversion HP; subst. cbn [ToolModel.paste_open ranged headed snd all_headed forallb]. unfold push_all_unchecked. cbn. rewrite !app_nil_r, !Nat.add_0_r. destruct h1; reflexivity.
  - destruct (sh_head f) as [|c hd] eqn:EH.
    + pose proof (open_unchecked md (t :: ts) (f :: fs) (Forall2_cons _ _ H1 H) h live dead cols ps) as U.
      cbn [headed] in HP |- *. rewrite EH in HP |- *. cbn [fst snd] in *. cbn in HP. inversion HP; subst h1.
      unfold all_headed. cbn [forallb]. rewrite EH. cbn [andb]. cbn [map concat] in U. rewrite <- U.
      cbn [ToolModel.paste_open]. destruct H1 as (O1 & _). rewrite EH in O1. rewrite O1. reflexivity.
    + cbn [ToolModel.paste_open ranged]. pose proof (done_empty md t f H1) as D. destruct H1 as (O1 & O2 & O3). rewrite O1, EH, O2. 
      cbn [headed] in HP |- *. rewrite EH in HP |- *. cbn [fst snd] in *. rewrite push_all_app in HP.
      destruct (push_all h (sh_names f)) as [h0 ok0]. destruct ok0; [|discriminate]. cbn [negb]. rewrite D.
      unfold all_headed. cbn [forallb]. rewrite EH. cbn [andb]. fold (all_headed fs).
      rewrite !(IH h0 h1) by exact HP. rewrite <- !app_assoc. cbn [app lines_of map]. unfold alive, ended. cbn [filter fst].
      destruct (0 <? length (sh_lines f)) eqn:L; cbn [negb length]; rewrite ?Nat.add_succ_r; cbn [Nat.add]; reflexivity.
Qed.
Lemma open_bad md ts fs : Forall2 (opened md) ts fs -> forall h h1 live dead cols ps, push_all h (fst (headed fs)) = (h1, false) ->
  paste_open ts h true live dead cols ps = Err.
Proof.
  intros H. induction H as [|t f ts fs H1 H IH]; intros h h1 live dead cols ps HP; [discriminate|].
  destruct H1 as (O1 & O2 & O3). cbn [ToolModel.paste_open headed] in *. rewrite O1, O2. destruct (sh_head f) as [|c hd] eqn:EH; [discriminate|].
  cbn [fst snd] in *. rewrite push_all_app in HP. destruct (push_all h (sh_names f)) as [h0 ok0]. destruct ok0; cbn [negb]; [|reflexivity].
  destruct (r_done (tf_rd t)); eapply IH; eauto.
Qed.
End Open.

Lemma lines_same use_last value : forall fs from, alive 0 (filled use_last value from fs) = alive 0 (lines_of fs) /\ ended 0 (filled use_last value from fs) = ended 0 (lines_of fs) /\
  lens (filled use_last value from fs) = map (fun f => length (sh_lines f)) fs.
Proof.
  induction fs as [|f fs IH]; intros from; [auto|]. destruct (IH (from + length (sh_names f))) as (I1 & I2 & I3).
  unfold alive, ended, lens in *. cbn [filled lines_of map filter fst]. fold (lines_of fs). rewrite I3.
  destruct (0 <? length (sh_lines f)); cbn [negb length]; rewrite ?I1, ?I2; auto.
Qed.

Lemma ranged_pst T md (Hplain : tm_quote md = QPlain) (use_last : bool) (d : values T) (fillers : Prop) ts fs : Forall2 (opened md) ts fs ->
  Forall (fun f => Forall (is_line (tm_break md)) (sh_lines f)) fs ->
  (fillers -> if use_last then Forall (fun f => sh_lines f <> []) fs else vs_strings d <> []) ->
  forall from, Forall2 (pst T md use_last d fillers 0) (ranged from ts) (filled use_last (value_of d) from fs).
Proof.
  intros H. induction H as [|t f ts fs H1 H IH]; intros HL HF from; cbn [ranged filled]; constructor.
  - inversion HL; subst. destruct H1 as (O1 & O2 & O3). split; [exact H3|]. split.
    + intros Hf. specialize (HF Hf). cbn [fst snd]. destruct use_last.
      * inversion HF; subst. auto.
      * cbn [pf_from pf_to]. replace (from + length (tf_names t) - from) with (length (sh_names f)) by (rewrite O2; lia).
        rewrite (fills_ok T d (value_of d)); [reflexivity|]. intros j _. apply get_value. exact HF.
    + cbn [fst pf_rd]. destruct (sh_lines f) as [|l rest]; cbn [length Nat.ltb Nat.leb]; [split; [exact O3|congruence]|]. exists []. exact O3.
  - destruct H1 as (_ & O2 & _). rewrite O2. apply IH. { inversion HL; auto. }
    intros Hf. specialize (HF Hf). destruct use_last; [inversion HF; auto|exact HF].
Qed.

Lemma fuel_ok md ts fs : md_ok md -> Forall2 (opened md) ts fs -> forall from, longest (map (fun f : shown => length (sh_lines f)) fs) < S (list_sum (map (fun p : pfile => turns (pf_rd p)) (ranged from ts))).
Proof.
  intros Hm H. induction H as [|t f ts fs H1 H IH]; intros from; [cbn; lia|]. specialize (IH (from + length (tf_names t))).
  unfold longest in *. cbn [map ranged list_max fold_right list_sum pf_rd]. unfold list_max in *. cbn [fold_right].
  change (list_sum (turns (tf_rd t) :: map (fun p : pfile => turns (pf_rd p)) (ranged (from + length (tf_names t)) ts))) with
    (turns (tf_rd t) + list_sum (map (fun p : pfile => turns (pf_rd p)) (ranged (from + length (tf_names t)) ts))).
  assert (length (sh_lines f) < turns (tf_rd t)).
  { destruct H1 as (_ & _ & O3). destruct (sh_lines f); [unfold turns; cbn; lia|]. apply at_line_turns in O3; auto. }
  unfold list_sum in IH. lia.
Qed.
