(** Proofs for the tabs tool. *)
From Coq Require Import List NArith Bool Arith Lia.
Import ListNotations.
From Verif Require Import Base TextSpec TextModel TextProofs ReadSpec ReadModel ReadProofs HdrModel ToolModel ToolOpen PasteSpec PasteProofs TabsModel TabsSpec TabsProofs TabsMain TabsMainSpec.
From Verif Require OrderProofs.
Open Scope nat_scope.

Lemma take_ok md height : md_ok md -> forall rest fuel r l hist n, at_line md r (proc md l :: hist) rest -> length rest < fuel ->
  take_lines fuel md height n r = Ok (map (proc md) (firstn (height - n) (l :: rest))).
Proof.
  intros Hm. induction rest as [|l' rest IH]; intros fuel r l hist n HA Hf; (destruct fuel as [|k]; [lia|]); cbn [take_lines];
    (destruct (Nat.ltb_spec n height) as [E|E]; [|replace (height - n) with 0 by lia; reflexivity]); rewrite (ring_curr _ _ _ (proj1 HA)); cbn [rbind];
    replace (height - n) with (S (height - S n)) by lia; cbn [firstn map].
  - destruct (next_nil _ _ _ HA) as (r' & H1 & H2 & _). rewrite H1. cbn [rbind]. rewrite H2, firstn_nil. reflexivity.
  - destruct (next_cons _ _ _ _ _ HA) as (r' & H1 & H2 & _). rewrite H1. cbn [rbind].
    replace (r_done r') with false by (symmetry; apply H2).
    cbn [length] in Hf. rewrite (IH k r' l' (proc md l :: hist) (S n) H2) by lia. reflexivity.
Qed.

Lemma screen_is ws W H : screen_of ws W H <-> from_screen ws = Ok (W, H).
Proof.
  destruct ws as [[r c]|]; cbn [screen_of from_screen].
  - destruct (Nat.ltb_spec r 1) as [E|E]; split.
    + intros [-> _]. lia.
    + discriminate.
    + intros [-> ->]. do 2 f_equal. lia.
    + intros X. injection X as -> X. split; [lia|auto].
  - split; [intros [-> ->]; reflexivity|]. intros X. injection X as <- <-. auto.
Qed.

Section Tabs.
Variable utf8_ok : bytes -> bool.
Variable width : bytes -> nat.
Variable cut : bytes -> nat -> bytes * nat.
Variable lossy : bytes -> bytes.
Variable md : tmode.
Hypothesis Cuts : cuts width cut.
Hypothesis Lossy : forall l, lossy (l ++ [NL]) = lossy l ++ [NL].
Hypothesis Plain : tm_quote md = QPlain.
Hypothesis Break : tm_break md = NL.
Hypothesis Delim : tm_delim md <> NL.

Lemma tabs_md : md_ok md.
Proof. intros E. rewrite Plain in E. discriminate. Qed.

Lemma fields_are l : is_line NL l -> text_fields lossy (tm_delim md) (proc md l) = cells lossy (tm_delim md) l.
Proof.
  intros (b & -> & _). unfold text_fields, cells. rewrite OrderProofs.proc_text. rewrite removelast_last, Lossy. apply split_plain_nl, Delim.
Qed.
Lemma shown_top f height :
  TabsModel.shown (if has_head f then Some (sh_names f) else None) (map (cells lossy (tm_delim md)) (firstn (height - (if has_head f then 1 else 0)) (sh_lines f))) height
  = top_rows lossy (tm_delim md) height f.
Proof.
  unfold TabsModel.shown, top_rows, all_rows. destruct (has_head f).
  - rewrite <- firstn_map, firstn_firstn, Nat.min_id. destruct height as [|h]; [reflexivity|]. replace (Nat.max (S h) 1) with (S h) by lia. cbn [app firstn].
    replace (S h - 1) with h by lia. reflexivity.
  - rewrite Nat.sub_0_r, Nat.max_0_r. cbn [app]. rewrite <- firstn_map, firstn_firstn, Nat.min_id. reflexivity.
Qed.

(** Everything [show_file] does, for any file. *)
Lemma show_file_is s f W height : shows utf8_ok md s f ->
  show_file utf8_ok width cut lossy md s W height = Ok ([], 0) /\ sh_head f = [] /\ sh_lines f = [] /\ sh_names f = [] \/
  show_file utf8_ok width cut lossy md s W height =
    show2 width cut (length (sh_names f)) (if has_head f then Some (sh_names f) else None)
      (map (cells lossy (tm_delim md)) (firstn (height - (if has_head f then 1 else 0)) (sh_lines f))) W height.
Proof.
  intros S. pose proof (shows_lines _ _ _ _ Plain S) as L. rewrite Break in L. destruct S as (Hw & [(HL & HN)|(hd & s1 & H & E1 & E2 & E3)]).
  - right. destruct (open_file_lines _ _ _ _ _ Hw HL) as (t & O1 & O2 & O3 & O4 & _ & O5). unfold show_file. rewrite O1. cbn [rbind]. rewrite O2, O3, O4, HN.
    assert (R : (if r_done (tf_rd t) then Ok [] else take_lines (turns (tf_rd t)) md height (if has_head f then 1 else 0) (tf_rd t)) =
      Ok (map (proc md) (firstn (height - (if has_head f then 1 else 0)) (sh_lines f)))).
    { destruct (sh_lines f) as [|l rest]; [destruct O5 as (-> & _); rewrite firstn_nil; reflexivity|]. replace (r_done (tf_rd t)) with false by (symmetry; apply O5).
      apply (take_ok md height tabs_md rest _ _ l []); auto. pose proof (at_line_turns _ _ _ _ tabs_md O5). lia. }
    unfold has_head in *. assert (M : map (text_fields lossy (tm_delim md)) (map (proc md) (firstn (height - (if has_head f then 1 else 0)) (sh_lines f))) =
      map (cells lossy (tm_delim md)) (firstn (height - (if has_head f then 1 else 0)) (sh_lines f))).
    { rewrite map_map. apply map_ext_in. intros l I. apply fields_are. rewrite Forall_forall in L. apply L. rewrite <- (firstn_skipn (height - (if has_head f then 1 else 0)) (sh_lines f)). apply in_or_app. left. exact I. }
    unfold has_head in M. destruct (sh_head f); cbv beta iota zeta; rewrite R; cbn [rbind]; rewrite M; reflexivity.
  - left. unfold show_file, open_file. rewrite H. auto.
Qed.

Lemma table_length sizes h rows out : table_of width cut sizes h rows out -> length out = length rows.
Proof.
  destruct rows as [|r rs], out as [|t ts]; cbn [table_of]; try contradiction; auto. intros [_ F]. cbn [length]. f_equal. induction F; cbn [length]; auto.
Qed.
Lemma top_fit W h f : fits lossy (tm_delim md) W f -> Forall (fun r => length r <= length (sh_names f)) (top_rows lossy (tm_delim md) h f).
Proof.
  intros (_ & F). apply Forall_forall. intros r I. unfold top_rows in I. assert (J : In r (all_rows lossy (tm_delim md) f)).
  { rewrite <- (firstn_skipn (Nat.max h (if has_head f then 1 else 0))). apply in_or_app. left. exact I. }
  unfold all_rows in J. apply in_app_iff in J as [J|J].
  - destruct (has_head f); [|destruct J]. destruct J as [<-|[]]. auto.
  - apply in_map_iff in J as (l & <- & J). rewrite Forall_forall in F. apply F, J.
Qed.
Lemma show_ok_file s f W h : shows utf8_ok md s f -> fits lossy (tm_delim md) W f ->
  exists out used, show_file utf8_ok width cut lossy md s W h = Ok (out, used) /\ shown_as width cut lossy (tm_delim md) W h f out used /\
    length out = length (top_rows lossy (tm_delim md) h f).
Proof.
  intros S F. destruct (show_file_is s f W h S) as [(E & E1 & E2 & E3)|E].
  - exists [], 0. assert (T : top_rows lossy (tm_delim md) h f = []) by (unfold top_rows, all_rows, has_head; rewrite E1, E2; apply firstn_nil).
    split; [exact E|]. rewrite T. split; [|reflexivity]. unfold shown_as. rewrite T, E3. exists [], []. cbn [length]. split; [reflexivity|]. split.
    + intros c. split; [intros r t []|]. left. destruct c; reflexivity.
    + split; [constructor; [reflexivity|intros [|c]; cbn; auto|reflexivity|intros [|c] d; cbn; lia]|]. split; [reflexivity|]. exact I.
  - rewrite E. pose proof (top_fit W h f F) as T. rewrite <- shown_top in T.
    destruct (show_ok width cut Cuts _ _ _ W h T (proj1 F)) as (wide & sizes & out & E2 & L & A & B & M). rewrite shown_top in A, M.
    exists out, (sum sizes + length (sh_names f)). split; [exact E2|].
    assert (TB : table_of width cut sizes (has_head f) (top_rows lossy (tm_delim md) h f) out).
    { unfold table_of. destruct (top_rows lossy (tm_delim md) h f), out; auto. destruct (has_head f); exact M. }
    split; [|eapply table_length; eauto]. exists wide, sizes. auto.
Qed.

Lemma centered_title name used : exists t, title name used t /\ print_centered name used = lines_text t.
Proof.
  unfold title, print_centered, lines_text. destruct (Nat.ltb_spec used (length name)) as [E|E].
  - exists []. auto.
  - eexists. split; [exists ((used - length name) / 2), (used - length name - (used - length name) / 2); split; [reflexivity|]|].
    + pose proof (Nat.div_mod (used - length name) 2 ltac:(lia)). pose proof (Nat.mod_upper_bound (used - length name) 2 ltac:(lia)). lia.
    + cbn [map concat]. unfold spaces. rewrite <- !app_assoc, app_nil_r. reflexivity.
Qed.
Lemma lines_text_app a b : lines_text (a ++ b) = lines_text a ++ lines_text b.
Proof. unfold lines_text. rewrite map_app, concat_app. reflexivity. Qed.
Lemma lines_text_cons a b : lines_text (a :: b) = (a ++ [NL]) ++ lines_text b.
Proof. reflexivity. Qed.

(** Room for the headers: a line for every file, or no headers. *)
Definition roomy (left n : nat) (fs : list PasteSpec.shown) : Prop := n <= left \/ Forall (fun f => sh_head f = []) fs.
Lemma top_length h f : length (top_rows lossy (tm_delim md) h f) = Nat.min (length (all_rows lossy (tm_delim md) f)) (Nat.max h (if has_head f then 1 else 0)).
Proof. unfold top_rows. rewrite firstn_length. apply Nat.min_comm. Qed.
Lemma room_step left n f fs x : x <= Nat.max (left / S n) (if has_head f then 1 else 0) -> roomy left (S n) (f :: fs) -> x <= left /\ roomy (left - x) n fs.
Proof.
  intros X R. pose proof (Nat.div_mod left (S n) ltac:(lia)) as D. pose proof (Nat.mod_upper_bound left (S n) ltac:(lia)) as M. destruct R as [R|R].
  - assert (1 <= left / S n) by (apply Nat.div_le_lower_bound; lia). destruct (has_head f); (split; [nia|left; nia]).
  - inversion R as [|? ? R1 R2]; subst. unfold has_head in X. rewrite R1 in X. split; [nia|right; auto].
Qed.
Lemma loop_ok W : forall files fs left, Forall2 (fun x f => shows utf8_ok md (snd x) f) files fs -> Forall (fits lossy (tm_delim md) W) fs ->
  roomy left (length fs) fs ->
  exists bs, tabs_loop utf8_ok width cut lossy md W left files = (lines_text (stack bs), Ok tt) /\ shares width cut lossy (tm_delim md) W left (combine (map fst files) fs) bs.
Proof.
  intros files fs left F. revert left. induction F as [|[name s] f files fs S F IH]; intros left FF R.
  - exists []. split; [reflexivity|constructor].
  - inversion FF as [|? ? F1 F2]; subst. cbn [snd] in S. assert (LEN : length files = length fs) by (clear -F; induction F; cbn; auto).
    destruct (show_ok_file s f W (left / length ((name, s) :: files)) S F1) as (out & used & E1 & E2 & E3).
    destruct (centered_title name used) as (t & T1 & T2). rewrite top_length in E3. cbn [length] in *. rewrite LEN in *.
    destruct (room_step left (length fs) f fs (length out) ltac:(lia) R) as [LE R'].
    destruct (IH (left - length out) F2 R') as (bs & I1 & I2). exists ((t, out, used) :: bs). split.
    + cbn [tabs_loop]. cbn [length]. rewrite LEN, E1. cbn [need]. rewrite T2. destruct (Nat.ltb_spec left (length out)) as [Q|Q]; [lia|].
      destruct files as [|x files].
      * destruct fs; [|discriminate]. inversion I2; subst. cbn [stack]. rewrite lines_text_app. unfold say. cbn [fst snd]. rewrite app_nil_r. reflexivity.
      * rewrite I1. destruct fs as [|f2 fs]; [discriminate|]. cbn [map combine] in I2. inversion I2; subst. cbn [stack].
        rewrite !lines_text_app, lines_text_cons. unfold say. cbn [fst snd]. reflexivity.
    + cbn [map combine fst]. constructor; auto; try (rewrite combine_length, map_length, LEN, Nat.min_id; exact E2). 
Qed.
Lemma tabs_several ws W H files fs : screen_of ws W H -> length files <> 1 -> Forall2 (fun x f => shows utf8_ok md (snd x) f) files fs -> Forall (fits lossy (tm_delim md) W) fs ->
  2 * length files <= H -> 3 * length files <= S H \/ Forall (fun f => sh_head f = []) fs ->
  exists bs, tabs_main utf8_ok width cut lossy md ws files = (lines_text (stack bs), Ok tt) /\
    shares width cut lossy (tm_delim md) W (H - 2 * length files + 1) (combine (map fst files) fs) bs.
Proof.
  intros SC N1 F FF H2 H3. apply screen_is in SC. assert (LEN : length files = length fs) by (clear -F; induction F; cbn; auto).
  destruct (loop_ok W files fs (H - 2 * length files + 1) F FF) as (bs & L1 & L2).
  { destruct H3 as [H3|H3]; [left; lia|right; auto]. }
  exists bs. split; [|exact L2]. unfold tabs_main. destruct files as [|x [|y files]]; [|cbn in N1; lia|]; rewrite SC; cbn [need].
  - destruct (Nat.ltb_spec H (2 * length (@nil (bytes * src)))); [cbn in *; lia|]. exact L1.
  - destruct x as [xn xs]. destruct (Nat.ltb_spec H (2 * length ((xn, xs) :: y :: files))); [lia|]. exact L1.
Qed.
Lemma tabs_one ws W H name s f : screen_of ws W H -> shows utf8_ok md s f -> fits lossy (tm_delim md) W f ->
  exists out used, tabs_main utf8_ok width cut lossy md ws [(name, s)] = (lines_text out, Ok tt) /\ shown_as width cut lossy (tm_delim md) W H f out used.
Proof.
  intros SC S F. apply screen_is in SC. destruct (show_ok_file s f W H S F) as (out & used & E1 & E2 & _). exists out, used. split; [|exact E2].
  unfold tabs_main. rewrite SC. cbn [need]. rewrite E1. reflexivity.
Qed.

(** Too many headers. *)
Lemma crowded_loop W : forall files fs left, Forall2 (fun x f => shows utf8_ok md (snd x) f) files fs -> Forall (fits lossy (tm_delim md) W) fs ->
  Forall (fun f => sh_head f <> []) fs -> left < length files -> snd (tabs_loop utf8_ok width cut lossy md W left files) = Panic.
Proof.
  intros files fs left F. revert left. induction F as [|[name s] f files fs S F IH]; intros left FF HH L; [cbn in L; lia|].
  inversion FF as [|? ? F1 F2]; subst. inversion HH as [|? ? H1 H2]; subst. cbn [snd] in S.
  destruct (show_ok_file s f W (left / length ((name, s) :: files)) S F1) as (out & used & E1 & _ & E3). rewrite Nat.div_small in E1, E3 by auto.
  rewrite top_length in E3. assert (length out = 1).
  { rewrite E3. unfold all_rows, has_head. destruct (sh_head f); [congruence|]. cbn. lia. }
  cbn [tabs_loop]. rewrite Nat.div_small by auto. rewrite E1. cbn [need]. unfold say; cbn [snd]. destruct (Nat.ltb_spec left (length out)) as [Q|Q]; [reflexivity|].
  destruct files as [|x files]; [cbn in L; lia|]. cbn [say fst snd]. apply IH; auto. cbn [length] in *. lia.
Qed.
Lemma tabs_crowded ws W H files fs : screen_of ws W H -> Forall2 (fun x f => shows utf8_ok md (snd x) f) files fs -> Forall (fits lossy (tm_delim md) W) fs ->
  Forall (fun f => sh_head f <> []) fs -> 2 <= length files -> S H < 3 * length files -> snd (tabs_main utf8_ok width cut lossy md ws files) = Panic.
Proof.
  intros SC F FF HH H2 H3. apply screen_is in SC. unfold tabs_main. destruct files as [|x [|y files]]; [cbn in H2; lia|cbn in H2; lia|]. destruct x as [xn xs]. rewrite SC. cbn [need].
  destruct (Nat.ltb_spec H (2 * length ((xn, xs) :: y :: files))) as [Q|Q]; [reflexivity|]. apply (crowded_loop W _ fs); auto. lia.
Qed.

(** Counting lines. *)
Lemma title_length name used t : title name used t -> length t <= 1.
Proof. unfold title. destruct (used <? length name); [intros ->; auto|intros (l & r & -> & _); auto]. Qed.
Lemma shares_length W left fs bs : shares width cut lossy (tm_delim md) W left fs bs -> fs <> [] -> length (stack bs) <= left + 2 * length fs - 1.
Proof.
  intros S. induction S as [|left name f rest t out used more A B C S IH]; [congruence|]. intros _. pose proof (title_length _ _ _ B).
  destruct more as [|[[t2 o2] u2] more].
  - inversion S; subst. cbn [stack]. rewrite app_length. cbn [length]. lia.
  - inversion S; subst. specialize (IH ltac:(discriminate)). remember ((t2, o2, u2) :: more) as m. assert (E : stack ((t, out, used) :: m) = t ++ out ++ repeat 45%N used :: stack m) by (subst m; reflexivity).
    rewrite E. rewrite !app_length. cbn [length] in *. lia.
Qed.

End Tabs.
