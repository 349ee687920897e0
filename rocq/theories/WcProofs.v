(** Proofs for wc. *)
From Coq Require Import String List NArith ZArith Bool Arith Lia SpecFloat.
Open Scope list_scope.
Import ListNotations.
From Verif Require Import Base TextSpec TextModel StrModel FloatModel FloatInt ReadSpec ReadModel ReadProofs HeadModel HdrModel HdrSpec HdrProofs ColModel CompModel AggModel AggSpec AggProofs ToolModel ToolOpen TurnSpec TurnProofs PasteSpec PasteProofs PickSpec PickProofs NumbProofs WcSpec WcModel.
Close Scope Z_scope.
Open Scope nat_scope.

Lemma between_join d l : between d l = join d l.
Proof. reflexivity. Qed.

Lemma chop_cons l : exists w ws, chop l = w :: ws.
Proof. destruct l as [|c l]; cbn; [eauto|]. destruct (c <=? 32)%N; [eauto|]. destruct (chop l); eauto. Qed.
Lemma words_chop l : forall saw ret, words_loop (fun c => 32 <? c)%N saw ret l =
  (ret + N.of_nat (word_count l) - (if saw then 0 else match chop l with [] :: _ => 0 | _ => 1 end))%N.
Proof.
  unfold word_count. induction l as [|c l IH]; intros saw ret; cbn [words_loop chop].
  - cbn. destruct saw; lia.
  - rewrite N.leb_antisym. destruct (32 <? c)%N; cbn [negb].
    + destruct (chop_cons l) as (w & ws & E). rewrite E in *. cbn [filter].
      destruct saw; rewrite IH; destruct w; cbn [List.length filter]; lia.
    + rewrite IH. cbn [filter]. destruct saw; lia.
Qed.
Lemma words_things l : words_loop (fun c => 32 <? c)%N true 0 l = N.of_nat (word_count l).
Proof. rewrite words_chop. lia. Qed.
Lemma total_len xs : total (map (fun x : bytes => N.of_nat (List.length x)) xs) = N.of_nat (List.length (concat xs)).
Proof. induction xs as [|x xs IH]; [reflexivity|]. cbn [map concat]. rewrite app_length, Nat2N.inj_add, <- IH. reflexivity. Qed.

Lemma Add_NoDup_end {A} (l : list A) x : NoDup l -> ~ In x l -> NoDup (l ++ [x]).
Proof.
  intros H1 H2. apply (NoDup_Add (a := x) (l := l) (l' := l ++ [x])); [|auto].
  rewrite <- (app_nil_r l) at 1. apply Add_app.
Qed.
(** Sums of whole numbers as doubles. *)
Lemma add_whole a b : (0 <= a)%Z -> (0 <= b)%Z -> (a + b < 2 ^ 53)%Z -> fadd (f_of_Z a) (f_of_Z b) = f_of_Z (a + b).
Proof.
  intros Ha Hb Hs. destruct (Z.eq_dec (a + b) 0) as [E|E].
  - assert (a = 0%Z) by lia. assert (b = 0%Z) by lia. subst. reflexivity.
  - eapply holds_unique; [|apply holds_of_Z|exact E]; [apply holds_add; try apply holds_of_Z|..]; unfold small; lia.
Qed.

Section Wc.
Variable F : Type.
Variable fmt_default : F.
Variable fmt_new : bytes -> res F.
Variable fmt_print : F -> f64 -> bytes.
Variable exp10 : Z -> f64.
Variable decode : bytes -> list N.
Variable is_space is_alnum : N -> bool.
Variable comp_make : bytes -> res comp_t.
Variable utf8_ok : bytes -> bool.
Variables uni_alpha uni_alnum : N -> bool.
Notation agger := (agger F).
Notation adds := (agg_adds exp10 decode is_space is_alnum).
Notation al_add := (al_add F exp10 decode is_space is_alnum).

(** All values added, one after the other. *)
Definition fed (xs : list bytes) (v : list agger) : list agger := map (on_agg F (fun a => adds a xs)) v.
Lemma on_agg_id a f : (f (ag_agg F a) = ag_agg F a) -> on_agg F f a = a.
Proof. intros H. unfold on_agg. rewrite H. destruct a; reflexivity. Qed.
Lemma fed_nil v : fed [] v = v.
Proof. unfold fed. rewrite <- (map_id v) at 2. apply map_ext. intros a. apply on_agg_id. reflexivity. Qed.
Lemma add_fed x xs v : al_add x (fed xs v) = fed (xs ++ [x]) v.
Proof.
  unfold fed, WcModel.al_add. rewrite map_map. apply map_ext. intros a. unfold on_agg, agg_adds. cbn [ag_agg ag_spec ag_out ag_fmt].
  rewrite fold_left_app. reflexivity.
Qed.
Lemma fed_app xs ys v : fed (xs ++ ys) v = fed ys (fed xs v).
Proof.
  unfold fed. rewrite map_map. apply map_ext. intros a. unfold on_agg, agg_adds. cbn [ag_agg ag_spec ag_out ag_fmt]. rewrite fold_left_app. reflexivity.
Qed.
Lemma reset_fed xs v : Forall (fun a => agg_reset (ag_agg F a) = ag_agg F a) v -> al_reset F (fed xs v) = v.
Proof.
  intros H. unfold fed, al_reset. rewrite map_map. rewrite <- (map_id v) at 2. apply map_ext_in. intros a Ha. rewrite Forall_forall in H. specialize (H a Ha).
  unfold on_agg. cbn [ag_agg ag_spec ag_out ag_fmt]. rewrite reset_adds, H. destruct a; reflexivity.
Qed.

(** ** The loop over the lines *)
Lemma wc_lines_ok md : tm_quote md = QPlain -> forall rest fuel v r l, at_raw md r l rest -> List.length rest < fuel ->
  wc_lines F exp10 decode is_space is_alnum fuel md v r = Ok (fed (l :: rest) v).
Proof.
  intros Hp. induction rest as [|l' rest IH]; intros fuel v r l HA HL; (destruct fuel as [|fuel]; [cbn in HL; lia|]); cbn [wc_lines];
    destruct (raw_text _ _ _ _ HA) as (t & T1 & T2); rewrite T1; cbn [rbind]; rewrite T2.
  - destruct (raw_nil _ _ _ HA) as (r' & N1 & N2). rewrite N1. cbn [rbind]. rewrite N2. rewrite <- (fed_nil v) at 1. rewrite add_fed. reflexivity.
  - destruct (raw_cons _ _ _ _ _ Hp HA) as (r' & N1 & N2 & _). rewrite N1. cbn [rbind].
    destruct N2 as (D0 & D1 & D2). rewrite D1. rewrite (IH fuel _ r' l'); [|split; [exact D0|split; [exact D1|exact D2]]|cbn in HL; lia].
    f_equal. rewrite <- (fed_nil v) at 1. rewrite add_fed. rewrite <- fed_app. reflexivity.
Qed.

(** ** The aggregators of the measures *)
Definition start_of (m : measure) : agg :=
  match m with MLines => GCount 0 0 | MBytes => GASum (Chars false) 0 | MChars => GASum (Chars true) 0 | MWords => GASum (Swords false) 0 end.
Definition spec_of (m : measure) : bytes :=
  match m with MLines => bs "lines,count" | MBytes => bs "bytes,asum,chars" | MChars => bs "chars,asum,utf8.chars" | MWords => bs "words,asum,swords" end.
Definition meter (f : F) (m : measure) : agger := mkag F (spec_of m) (start_of m) (label_of m) f.
Lemma meter_new m : agger_new F fmt_default comp_make (spec_of m) = Ok (meter fmt_default m).
Proof. destruct m; reflexivity. Qed.
Lemma meter_reset f m : agg_reset (ag_agg F (meter f m)) = ag_agg F (meter f m).
Proof. destruct m; reflexivity. Qed.
Notation how_many := (amount decode).
Lemma meter_value m xs : (how_many m xs < 2 ^ 63)%N -> agg_value exp10 (adds (start_of m) xs) = f_of_N (how_many m xs) /\
  agg_result exp10 (adds (start_of m) xs) = ONum (f_of_N (how_many m xs)).
Proof.
  intros H. assert (A : forall k, (total (map (count_things decode is_space is_alnum k) xs) < 2 ^ 63)%N ->
    adds (GASum k 0) xs = GASum k (total (map (count_things decode is_space is_alnum k) xs))).
  { intros k Hk. rewrite asum_run; [f_equal; lia|]. change (2 ^ 64)%N with (2 * 2 ^ 63)%N. lia. }
  destruct m; unfold start_of, amount in *.
  - rewrite count_run; [|lia|]. 2: { rewrite <- nat_N_Z. change (2 ^ 63)%Z with (Z.of_N (2 ^ 63)). lia. }
    unfold agg_value, agg_result, f_of_N. rewrite nat_N_Z. cbn [agg_value]. rewrite Z.add_0_l. auto.
  - rewrite <- total_len in *. rewrite A; [|exact H]. auto.
  - rewrite A; [|exact H]. auto.
  - assert (E : map (fun x => N.of_nat (word_count x)) xs = map (count_things decode is_space is_alnum (Swords false)) xs).
    { apply map_ext. intros x. symmetry. apply words_things. }
    rewrite E in *. rewrite A; [|exact H]. auto.
Qed.
Definition numbers (ms : list measure) (xs : list bytes) : list f64 := map (fun m => f_of_N (how_many m xs)) ms.
Lemma shown_meters f g ms xs : (forall m, In m ms -> (how_many m xs < 2 ^ 63)%N) ->
  map (fun a => show F fmt_print exp10 (g a) (ag_agg F a)) (fed xs (map (meter f) ms)) = map (fun m => fmt_print (g (on_agg F (fun a => adds a xs) (meter f m))) (f_of_N (how_many m xs))) ms.
Proof.
  intros H. unfold fed. rewrite !map_map. apply map_ext_in. intros m Hm. unfold show. cbn [on_agg ag_agg meter].
  rewrite (proj2 (meter_value m xs (H m Hm))). reflexivity.
Qed.
Lemma sum_meters f ms xs (ns : measure -> N) : (forall m, In m ms -> (ns m + how_many m xs < 2 ^ 53)%N) ->
  sum_into F exp10 (map (fun m => f_of_N (ns m)) ms) (fed xs (map (meter f) ms)) = map (fun m => f_of_N (ns m + how_many m xs)) ms.
Proof.
  induction ms as [|m ms IH]; intros H; [reflexivity|]. cbn [map fed sum_into]. fold (fed xs (map (meter f) ms)). f_equal.
  - cbn [on_agg ag_agg meter]. assert (Hm : (ns m + how_many m xs < 2 ^ 53)%N) by (apply H; left; auto).
    rewrite (proj1 (meter_value m xs ltac:(change (2 ^ 63)%N with (1024 * 2 ^ 53)%N; lia))). unfold f_of_N. rewrite add_whole; [f_equal; lia|lia|lia|].
    change (2 ^ 53)%Z with (Z.of_N (2 ^ 53)). lia.
  - apply IH. intros m' Hm'. apply H. right; auto.
Qed.

(** ** The loop over the files *)
(** A named source with data lines, and these. *)
Definition counted (md : tmode) (p : bytes * src) (f : bytes * shown) : Prop :=
  fst p = fst f /\ wf_src (snd p) /\ file_lines utf8_ok md (snd p) (sh_head (snd f)) (sh_lines (snd f)) /\
  sh_names (snd f) = shown_names md (sh_head (snd f)) (sh_lines (snd f)) /\ sh_lines (snd f) <> [].
Lemma head_ok cdx d first v : first <> None \/ v <> [] ->
  proper uni_alpha uni_alnum ((match first with Some n => [n] | None => [] end) ++ map (ag_out F) v) ->
  wc_head F uni_alpha uni_alnum cdx d first v =
    Ok ((if cdx then CDX ++ [d] else []) ++ join d ((match first with Some n => [n] | None => [] end) ++ map (ag_out F) v) ++ [NL]).
Proof.
  intros Hn Hp. unfold wc_head. rewrite (push_proper _ _ _ Hp). unfold get_head. cbn [h_cols]. rewrite add_head_join.
  destruct ((match first with Some n => [n] | None => [] end) ++ map (ag_out F) v) eqn:E; [|reflexivity].
  destruct first; [discriminate|]. destruct v; [|discriminate]. destruct Hn as [Hn | Hn]; elim Hn; reflexivity.
Qed.

Section Files.
Variables (md : tmode) (ot : ColModel.tmode) (cdx do_header show_file only : bool) (col : bytes) (f : F) (ms : list measure) (hd : bytes).
Hypothesis Hp : tm_quote md = QPlain.
Notation d := (ColModel.tm_delim ot).
Notation v0 := (map (meter f) ms).
Hypothesis Hhd : do_header = true -> wc_head F uni_alpha uni_alnum cdx d (if show_file then Some col else None) v0 = Ok hd.
Definition file_row (q : bytes * shown) : bytes :=
  if only then [] else report_line d (if show_file then Some (fst q) else None) (map (fun m => fmt_print f (f_of_N (how_many m (sh_lines (snd q))))) ms).
Lemma wc_files_ok : forall fs qs first (ns : measure -> N), Forall2 (counted md) fs qs ->
  (forall m, In m ms -> (ns m + total (map (fun q => how_many m (sh_lines (snd q))) qs) < 2 ^ 53)%N) ->
  wc_files F fmt_print exp10 decode is_space is_alnum utf8_ok uni_alpha uni_alnum md ot cdx do_header show_file only col first v0
    (map (fun m => f_of_N (ns m)) ms) fs =
  ((if do_header && first && negb (match qs with [] => true | _ => false end) then hd else []) ++ concat (map file_row qs),
   Ok (map (fun m => f_of_N (ns m + total (map (fun q => how_many m (sh_lines (snd q))) qs))) ms)).
Proof.
  induction fs as [|(name, s) fs IH]; intros qs first ns HF HB.
  - inversion HF; subst. cbn [wc_files map concat]. rewrite andb_false_r. cbn [app]. do 2 f_equal. apply map_ext. intros m. cbn [total fold_right map]. f_equal. lia.
  - inversion HF as [|? q ? qs' (C1 & C2 & C3 & C4 & C5) HF' E1 E2]; subst. cbn [fst snd] in *.
    cbn [wc_files]. destruct (open_file_lines _ _ _ _ _ C2 C3) as (t & O1 & O2 & _ & _ & _ & O6). rewrite O1. cbn [need]. rewrite O2.
    destruct (sh_lines (snd q)) as [|l rest] eqn:EL; [congruence|].
    assert (HA : at_raw md (do_split (tf_rd t) false) l rest) by (eapply at_line_raw; eauto).
    assert (HD : r_done (tf_rd t) = false) by apply O6.
    assert (HT : List.length rest < turns (tf_rd t)).
    { pose proof (at_line_turns md _ _ _ ltac:(intros E; congruence) O6). lia. }
    assert (G : (if do_header && first then wc_head F uni_alpha uni_alnum cdx d (if show_file then Some col else None) v0 else Ok []) =
                Ok (if do_header && first then hd else [])).
    { destruct do_header; [|reflexivity]. destruct first; [|reflexivity]. cbn [andb]. apply Hhd. reflexivity. }
    rewrite G. cbn [need]. rewrite HD. rewrite (wc_lines_ok md Hp rest _ _ _ l HA HT). cbn [need].
    rewrite reset_fed. 2: { apply Forall_forall. intros a Ha. apply in_map_iff in Ha as (m & <- & _). apply meter_reset. }
    rewrite sum_meters. 2: { intros m Hm. specialize (HB m Hm). cbn [map total fold_right] in HB. rewrite EL in HB. lia. }
    rewrite (IH qs' (first && negb do_header) (fun m => (ns m + how_many m (l :: rest))%N) HF').
    2: { intros m Hm. specialize (HB m Hm). cbn [map total fold_right] in HB. rewrite EL in HB. unfold total. lia. }
    unfold say. cbn [fst snd map concat]. f_equal.
    + replace (do_header && (first && negb do_header) && negb match qs' with [] => true | _ => false end) with false by (destruct do_header, first; reflexivity).
      cbn [app negb]. rewrite andb_true_r. f_equal. f_equal. unfold file_row. rewrite EL. destruct only; [reflexivity|].
      unfold report_line, row_own. rewrite between_join, shown_meters. 2: { intros m Hm. specialize (HB m Hm). cbn [map total fold_right] in HB. rewrite EL in HB. change (2 ^ 63)%N with (1024 * 2 ^ 53)%N. lia. }
      cbn [on_agg ag_fmt meter]. rewrite C1. destruct show_file; rewrite <- ?app_assoc; reflexivity.
    + f_equal. apply map_ext. intros m. cbn [map total fold_right]. rewrite EL. f_equal. unfold total. lia.
Qed.
End Files.

(** ** The options *)
Definition asked (o : wopt) : list measure :=
  match o with WLines => [MLines] | WBytes => [MBytes] | WChars => [MChars] | WWords => [MWords] | _ => [] end.
Lemma opts_ok : forall os s s' ms, (forall x, ~ In (WAgg x) os) -> ws_agg F s = mkal F (map (meter fmt_default) ms) fmt_default ->
  wc_opts F fmt_default fmt_new comp_make s os = Ok s' -> ws_agg F s' = mkal F (map (meter fmt_default) (ms ++ flat_map asked os)) fmt_default.
Proof.
  induction os as [|o os IH]; intros s s' ms HN HS HO; cbn [wc_opts flat_map] in *.
  - inversion HO; subst. rewrite app_nil_r. exact HS.
  - destruct (wc_opt F fmt_default fmt_new comp_make s o) as [s1| |] eqn:E; try discriminate. cbn [rbind] in HO.
    rewrite app_assoc. apply (IH s1); auto. { intros x Hx. apply (HN x). right; auto. }
    destruct s as [g c ft h t b k fm]. cbn [ws_agg] in HS. subst g.
    assert (PUSH : forall m, al_push F fmt_default comp_make (mkal F (map (meter fmt_default) ms) fmt_default) (spec_of m) =
      Ok (mkal F (map (meter fmt_default) (ms ++ [m])) fmt_default)).
    { intros m. unfold al_push. rewrite meter_new. cbn [rbind al_v al_fmt]. rewrite map_app. reflexivity. }
    destruct o; cbn [asked]; rewrite ?app_nil_r; cbn [wc_opt] in E.
    + elim (HN s). left; auto.
    + change (bs "lines,count") with (spec_of MLines) in E. rewrite PUSH in E. inversion E; subst. reflexivity.
    + change (bs "bytes,asum,chars") with (spec_of MBytes) in E. rewrite PUSH in E. inversion E; subst. reflexivity.
    + change (bs "chars,asum,utf8.chars") with (spec_of MChars) in E. rewrite PUSH in E. inversion E; subst. reflexivity.
    + change (bs "words,asum,swords") with (spec_of MWords) in E. rewrite PUSH in E. inversion E; subst. reflexivity.
    + destruct (fmt_new s); inversion E; subst; reflexivity.
    + inversion E; subst; reflexivity.
    + destruct (beq (map lower s) (bs "only")); [inversion E; subst; reflexivity|]. destruct (tri_new s); inversion E; subst; reflexivity.
    + destruct (tri_new s); inversion E; subst; reflexivity.
    + destruct (split_once 44 s) as [[x y]|]; [destruct (tri_new x)|destruct (tri_new s)]; inversion E; subst; reflexivity.
Qed.
Lemma set_fmt_meters ms f g : al_set_fmt F (mkal F (map (meter f) ms) f) g = mkal F (map (meter g) ms) g.
Proof. unfold al_set_fmt. cbn [al_v]. rewrite map_map. reflexivity. Qed.

(** ** By columns *)
Lemma deep_ok g : Forall (fun a => agger_new F fmt_default comp_make (ag_spec F a) = Ok (with_fmt F fmt_default a)) (al_v F g) ->
  al_deep F fmt_default comp_make g = Ok (mkal F (map (with_fmt F (al_fmt F g)) (al_v F g)) (al_fmt F g)).
Proof.
  intros H. unfold al_deep.
  assert (G : forall v l, Forall (fun a => agger_new F fmt_default comp_make (ag_spec F a) = Ok (with_fmt F fmt_default a)) v ->
    push_specs F fmt_default comp_make l v = Ok (mkal F (al_v F l ++ map (with_fmt F fmt_default) v) (al_fmt F l))).
  { intros v. induction v as [|a v IH]; intros l Hv; cbn [push_specs map].
    - rewrite app_nil_r. destruct l; reflexivity.
    - inversion Hv; subst. unfold al_push. rewrite H2. cbn [rbind]. rewrite IH by assumption. cbn [al_v al_fmt]. rewrite <- app_assoc. reflexivity. }
  rewrite (G _ (al_new F fmt_default) H). cbn [rbind al_new al_v al_fmt app]. unfold al_set_fmt. cbn [al_v]. rewrite map_map. reflexivity.
Qed.

Section Columns.
Variables (g : agglist F) (v0 : list agger).
Hypothesis Hdeep : al_deep F fmt_default comp_make g = Ok (mkal F v0 (al_fmt F g)).
(** The columns seen so far, each with what was added under its name. *)
Definition table_of (seen : list bytes) (acc : bytes -> list bytes) : list (bytes * list agger) := map (fun n => (n, fed (acc n) v0)) seen.

Lemma name_pos_none seen acc x : existsb (beq x) seen = false -> name_pos F (table_of seen acc) x = None.
Proof.
  unfold table_of. induction seen as [|y seen IH]; [reflexivity|]. cbn [existsb map name_pos]. intros H. apply orb_false_iff in H as (H1 & H2).
  rewrite IH by assumption. destruct (beq y x) eqn:E; [|reflexivity]. apply beq_eq in E. subst. rewrite beq_refl in H1. discriminate.
Qed.
Lemma name_pos_some seen acc x : existsb (beq x) seen = true -> exists p, name_pos F (table_of seen acc) x = Some p /\ nth_error seen p = Some x.
Proof.
  unfold table_of. induction seen as [|y seen IH]; [discriminate|]. cbn [existsb map name_pos]. intros H. destruct (beq y x) eqn:E.
  - apply beq_eq in E. subst. exists 0. auto.
  - apply orb_true_iff in H as [H | H]; [apply beq_eq in H; subst; rewrite beq_refl in E; discriminate|].
    destruct (IH H) as (p & P1 & P2). rewrite P1. exists (S p). auto.
Qed.
Lemma appear_ext : forall l seen, exists more, appear seen l = seen ++ more.
Proof.
  induction l as [|x l IH]; intros seen; cbn [appear]; [exists []; rewrite app_nil_r; reflexivity|].
  destruct (existsb (beq x) seen); [apply IH|]. destruct (IH (seen ++ [x])) as (more & E). exists (x :: more). rewrite E, <- app_assoc. reflexivity.
Qed.
Lemma appear_nodup : forall l seen, NoDup seen -> NoDup (appear seen l).
Proof.
  induction l as [|x l IH]; intros seen H; cbn [appear]; [exact H|]. apply IH. destruct (existsb (beq x) seen) eqn:E; [exact H|].
  apply Add_NoDup_end; auto. intros Hx. assert (existsb (beq x) seen = true) by (apply existsb_exists; exists x; split; auto; apply beq_refl). congruence.
Qed.
Lemma map_cols_ok : forall names seen acc, (forall n, ~ In n seen -> acc n = []) -> exists m,
  map_cols F fmt_default comp_make g (table_of seen acc) names = Ok (table_of (appear seen names) acc, m) /\
  Forall2 (fun p n => nth_error (appear seen names) p = Some n) m names.
Proof.
  induction names as [|x names IH]; intros seen acc HA; cbn [map_cols appear]; [exists []; split; [reflexivity|constructor]|].
  destruct (existsb (beq x) seen) eqn:E.
  - destruct (name_pos_some seen acc x E) as (p & P1 & P2). rewrite P1. destruct (IH seen acc HA) as (m & M1 & M2). rewrite M1. cbn [rbind].
    exists (p :: m). split; [reflexivity|]. constructor; [|exact M2]. destruct (appear_ext names seen) as (more & ->).
    rewrite nth_error_app1; [exact P2|]. apply nth_error_Some. congruence.
  - rewrite (name_pos_none seen acc x E), Hdeep. cbn [rbind al_v].
    assert (HX : ~ In x seen). { intros Hx. assert (existsb (beq x) seen = true) by (apply existsb_exists; exists x; split; auto; apply beq_refl). congruence. }
    assert (ET : table_of seen acc ++ [(x, v0)] = table_of (seen ++ [x]) acc).
    { unfold table_of. rewrite map_app. cbn [map]. rewrite (HA x HX), fed_nil. reflexivity. }
    rewrite ET. destruct (IH (seen ++ [x]) acc) as (m & M1 & M2). { intros n Hn. apply HA. intros Hs. apply Hn. apply in_or_app. auto. }
    rewrite M1. cbn [rbind]. exists (List.length (table_of seen acc) :: m). split; [reflexivity|]. constructor; [|exact M2].
    unfold table_of. rewrite map_length. destruct (appear_ext names (seen ++ [x])) as (more & ->). rewrite <- app_assoc.
    rewrite nth_error_app2, Nat.sub_diag by lia. reflexivity.
Qed.
Definition put_under (acc : bytes -> list bytes) (n x : bytes) : bytes -> list bytes := fun k => if beq n k then acc k ++ [x] else acc k.
Lemma add_at_ok : forall seen acc p n x, NoDup seen -> nth_error seen p = Some n ->
  add_at F exp10 decode is_space is_alnum (table_of seen acc) p x = table_of seen (put_under acc n x).
Proof.
  unfold table_of. induction seen as [|y seen IH]; intros acc p n x HN HP; [destruct p; discriminate|]. inversion HN as [|? ? N1 N2]; subst.
  destruct p as [|p]; cbn [nth_error map add_at] in *.
  - inversion HP; subst. unfold put_under at 1. rewrite beq_refl, add_fed. f_equal. apply map_ext_in. intros k Hk. unfold put_under.
    destruct (beq n k) eqn:E; [|reflexivity]. apply beq_eq in E. subst. contradiction.
  - rewrite (IH acc p n x N2 HP). f_equal. unfold put_under. destruct (beq n y) eqn:E; [|reflexivity]. apply beq_eq in E. subst. elim N1. eapply nth_error_In; eauto.
Qed.
Lemma table_ext seen a b : (forall n, a n = b n) -> table_of seen a = table_of seen b.
Proof. intros H. unfold table_of. apply map_ext. intros n. rewrite H. reflexivity. Qed.
Lemma add_fields_ok : forall names m seen acc row, NoDup seen -> Forall2 (fun p n => nth_error seen p = Some n) m names -> List.length row <= List.length names ->
  add_fields F exp10 decode is_space is_alnum (table_of seen acc) m row = Ok (table_of seen (fun n => acc n ++ under n names row)).
Proof.
  intros names. induction names as [|n names IH]; intros m seen acc row HN HM HL.
  - destruct row; [|cbn in HL; lia]. inversion HM; subst. cbn [add_fields]. f_equal. apply table_ext. intros k. cbn. rewrite app_nil_r. reflexivity.
  - inversion HM as [|p ? m' ? P1 P2]; subst. destruct row as [|x row]; cbn [add_fields].
    + f_equal. apply table_ext. intros k. cbn. rewrite app_nil_r. reflexivity.
    + rewrite (add_at_ok seen acc p n x HN P1). rewrite (IH m' seen _ row HN P2); [|cbn in HL; lia]. f_equal. apply table_ext. intros k.
      unfold put_under, under. cbn [combine filter fst]. destruct (beq n k); cbn [map snd]; [rewrite <- app_assoc|]; reflexivity.
Qed.
Lemma col_lines_ok md : md_ok md -> forall rest fuel hist r l seen acc m names, at_line md r (proc md l :: hist) rest -> List.length rest < fuel -> NoDup seen ->
  Forall2 (fun p n => nth_error seen p = Some n) m names -> Forall (fun l => List.length (row_of md l) <= List.length names) (l :: rest) ->
  col_lines F exp10 decode is_space is_alnum fuel md (table_of seen acc) m r =
    Ok (table_of seen (fun n => acc n ++ flat_map (fun l => under n names (row_of md l)) (l :: rest))).
Proof.
  intros Hm. induction rest as [|l' rest IH]; intros fuel hist r l seen acc m names HA HL HN HM HW; (destruct fuel as [|fuel]; [cbn in HL; lia|]); cbn [col_lines];
    inversion HW as [|? ? W1 W2]; subst; rewrite (ring_curr _ _ _ (proj1 HA)); cbn [rbind]; unfold proc at 1; rewrite process_cols; fold (row_of md l);
    rewrite (add_fields_ok names m seen acc (row_of md l) HN HM W1); cbn [rbind].
  - destruct (next_nil _ _ _ HA) as (r' & N1 & N2 & _). rewrite N1. cbn [rbind]. rewrite N2. f_equal. apply table_ext. intros n. cbn [flat_map]. rewrite app_nil_r. reflexivity.
  - destruct (next_cons _ _ _ _ _ HA) as (r' & N1 & N2 & _). rewrite N1. cbn [rbind]. replace (r_done r') with false by (symmetry; apply N2).
    rewrite (IH fuel (proc md l :: hist) r' l' seen _ m names N2); auto; [|cbn in HL; lia]. f_equal. apply table_ext. intros n. cbn [flat_map]. rewrite <- !app_assoc. reflexivity.
Qed.
Definition all_names (qs : list (bytes * shown)) : list bytes := concat (map (fun q => sh_names (snd q)) qs).
Lemma appear_app : forall a b seen, appear seen (a ++ b) = appear (appear seen a) b.
Proof. induction a as [|x a IH]; intros b seen; [reflexivity|]. cbn [app appear]. apply IH. Qed.
Lemma appear_in : forall l seen n, In n (appear seen l) <-> In n seen \/ In n l.
Proof.
  induction l as [|x l IH]; intros seen n; cbn [appear]; [cbn; tauto|]. rewrite IH. destruct (existsb (beq x) seen) eqn:E.
  - apply existsb_exists in E as (y & Y1 & Y2). apply beq_eq in Y2. subst y. cbn. intuition (subst; auto).
  - rewrite in_app_iff. cbn. tauto.
Qed.
Lemma under_out n names row : ~ In n names -> under n names row = [].
Proof.
  unfold under. revert row. induction names as [|x names IH]; intros row H; [reflexivity|]. destruct row as [|y row]; [reflexivity|]. cbn [combine filter fst].
  destruct (beq x n) eqn:E; [apply beq_eq in E; subst; elim H; left; auto|]. apply IH. intros Hn. apply H. right; auto.
Qed.
Lemma col_files_ok md : md_ok md -> forall fs qs seen acc, Forall2 (counted md) fs qs -> NoDup seen -> (forall n, ~ In n seen -> acc n = []) ->
  Forall (fun q => Forall (fun l => List.length (row_of md l) <= List.length (sh_names (snd q))) (sh_lines (snd q))) qs ->
  col_files F fmt_default exp10 decode is_space is_alnum comp_make utf8_ok md g (table_of seen acc) fs =
    Ok (table_of (appear seen (all_names qs)) (fun n => acc n ++ column_of (row_of md) (map snd qs) n)).
Proof.
  intros Hm. induction fs as [|(name, s) fs IH]; intros qs seen acc HF HN HA HW.
  - inversion HF; subst. cbn. f_equal. apply table_ext. intros n. rewrite app_nil_r. reflexivity.
  - inversion HF as [|? q ? qs' (C1 & C2 & C3 & C4 & C5) HF' E1 E2]; subst. cbn [fst snd] in *. inversion HW as [|? ? W1 W2]; subst.
    cbn [col_files]. destruct (open_file_lines _ _ _ _ _ C2 C3) as (t & O1 & O2 & _ & O4 & _ & O6). rewrite O1. cbn [rbind]. rewrite O2, O4, <- C4.
    destruct (map_cols_ok (sh_names (snd q)) seen acc HA) as (m & M1 & M2). rewrite M1. cbn [rbind].
    destruct (sh_lines (snd q)) as [|l rest] eqn:EL; [congruence|]. replace (r_done (tf_rd t)) with false by (symmetry; apply O6).
    rewrite (col_lines_ok md Hm rest _ [] _ l _ acc m (sh_names (snd q)) O6); auto; [|pose proof (at_line_turns md _ _ _ Hm O6); lia|apply appear_nodup, HN].
    cbn [rbind]. rewrite (IH qs'); auto; [|apply appear_nodup, HN|].
    + unfold all_names. cbn [map concat]. rewrite appear_app. f_equal. apply table_ext. intros n. unfold column_of. cbn [map flat_map]. rewrite EL. cbn [flat_map]. rewrite <- !app_assoc. reflexivity.
    + intros n Hn. rewrite (HA n). 2: { intros Hs. apply Hn. apply appear_in. auto. }
      assert (Hx : ~ In n (sh_names (snd q))) by (intros Hs; apply Hn; apply appear_in; auto).
      cbn [app flat_map]. rewrite under_out by assumption. cbn [app]. clear -Hx. induction rest as [|x rest IH]; [reflexivity|]. cbn [flat_map]. rewrite under_out by assumption. exact IH.
Qed.
End Columns.
Lemma fold_sums f ms : forall (rows : list (bytes * list bytes)) (ns : measure -> N),
  (forall m, In m ms -> (ns m + total (map (fun r => how_many m (snd r)) rows) < 2 ^ 53)%N) ->
  fold_left (fun t (p : bytes * list agger) => let '(_, v) := p in sum_into F exp10 t v) (map (fun r => (fst r, fed (snd r) (map (meter f) ms))) rows) (map (fun m => f_of_N (ns m)) ms) =
  map (fun m => f_of_N (ns m + total (map (fun r => how_many m (snd r)) rows))) ms.
Proof.
  induction rows as [|r rows IH]; intros ns H; cbn [map fold_left].
  - apply map_ext. intros m. cbn. f_equal. lia.
  - rewrite sum_meters. 2: { intros m Hm. specialize (H m Hm). cbn [map total fold_right] in H. lia. }
    rewrite (IH (fun m => (ns m + how_many m (snd r))%N)). 2: { intros m Hm. specialize (H m Hm). cbn [map total fold_right] in H. unfold total. lia. }
    apply map_ext. intros m. cbn [map total fold_right]. f_equal. unfold total. lia.
Qed.
End Wc.
