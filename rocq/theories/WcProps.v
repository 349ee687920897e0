(** C68: counting lines, bytes, characters and words. *)
From Coq Require Import String List NArith ZArith Bool Arith Lia SpecFloat.
Open Scope list_scope.
Import ListNotations.
From Verif Require Import Base TextSpec TextModel StrModel FloatModel ReadSpec ReadModel ReadProofs HeadModel HdrModel HdrSpec HdrProofs ColModel MatchText CompModel AggModel AggSpec ToolModel ToolOpen TurnSpec TurnProofs TurnProps PasteSpec PasteProofs PasteProps StrSpec NumbProofs NumbProps WcSpec WcModel WcProofs.
Close Scope Z_scope.
Open Scope nat_scope.

(** The measures asked for, and what stands for none. *)
Definition measures (dflt : measure) (os : list wopt) : list measure := match flat_map asked os with [] => [dflt] | ms => ms end.
(** The last value given among the options. *)
Definition last_of {A} (pick : wopt -> option A) (d : A) (os : list wopt) : A := fold_left (fun acc o => match pick o with Some x => x | None => acc end) os d.
Definition file_word (o : wopt) : option bytes := match o with WFile x => Some (match split_once 44 x with Some (a, _) => a | None => x end) | _ => None end.
Definition file_name (o : wopt) : option bytes := match o with WFile x => option_map snd (split_once 44 x) | _ => None end.
Definition header_word (o : wopt) : option bytes := match o with WHeader x => Some x | _ => None end.
Definition is_only (o : wopt) : bool := match o with WTotal x => beq (map lower x) (bs "only") | _ => false end.
Definition total_word (o : wopt) : option bytes := match o with WTotal x => if is_only o then None else Some x | _ => None end.
Definition format_word (o : wopt) : option (option bytes) := match o with WFormat x => Some (Some x) | _ => None end.
Definition is_columns (o : wopt) : bool := match o with WColumns => true | _ => false end.

(** The words that stand for yes, no and maybe. *)
Theorem c68_tri : forall x,
  (tri_new x = Ok TYes <-> In (map lower x) (map bs ["yes"; "true"; "1"; "on"]%string)) /\
  (tri_new x = Ok TNo <-> In (map lower x) (map bs ["no"; "false"; "0"; "off"]%string)) /\
  (tri_new x = Ok TMaybe <-> In (map lower x) (map bs ["maybe"; "sometimes"]%string)) /\
  (tri_new x = Err <-> ~ In (map lower x) (map bs ["yes"; "true"; "1"; "on"; "no"; "false"; "0"; "off"; "maybe"; "sometimes"]%string)).
Proof.
  intros x. unfold tri_new. set (y := map lower x). clearbody y. clear x.
  assert (D : forall w : bytes, beq y w = true /\ y = w \/ beq y w = false /\ w <> y).
  { intros w. destruct (beq y w) eqn:E; [left; split; auto; apply beq_eq, E|right; split; auto; intros <-; rewrite beq_refl in E; discriminate]. }
  cbn [map In].
  repeat match goal with |- context [beq y ?w] => destruct (D w) as [(-> & Heq) | (-> & ?)]; [rewrite Heq; cbn [orb]; repeat split; intros HH;
    try discriminate; try tauto; try (repeat destruct HH as [HH | HH]; try discriminate HH; try contradiction)|cbn [orb]] end.
  repeat split; intros HH; try discriminate HH; try reflexivity; try tauto; repeat match goal with H : _ \/ _ |- _ => destruct H as [H | H] end; first [contradiction | tauto | congruence].
Qed.
Example c68_tri_ex : tri_new (bs "ON") = Ok TYes /\ tri_new (bs "Sometimes") = Ok TMaybe /\ tri_new (bs "y") = Err.
Proof. vm_compute. auto. Qed.

Section Wc.
Variable F : Type.
Variable fmt_default : F.
Variable fmt_new : bytes -> res F.
Variable fmt_print : F -> f64 -> bytes.
Variable exp10 : Z -> f64.
Variable decode : bytes -> list N.
Variable is_space is_alnum : N -> bool.
Variable comp_make : bytes -> res comp_t.
Variable utf8_ok : bytes -> bool.
Variables uni_alpha uni_alnum : N -> bool.
Notation set_by os := (wc_opts F fmt_default fmt_new comp_make (ws_new F fmt_default) os).
Notation run := (wc F fmt_default fmt_new fmt_print exp10 decode is_space is_alnum comp_make utf8_ok uni_alpha uni_alnum).
Notation how_many := (amount decode).

(** Every setting is that of the last option that gives it. *)
Theorem c68_settings : forall os s, set_by os = Ok s ->
  tri_new (last_of file_word (bs "maybe") os) = Ok (ws_file F s) /\ ws_col F s = last_of file_name (bs "file") os /\
  tri_new (last_of header_word (bs "maybe") os) = Ok (ws_header F s) /\ tri_new (last_of total_word (bs "maybe") os) = Ok (ws_totals F s) /\
  ws_only F s = existsb is_only os /\ ws_columns F s = existsb is_columns os /\
  (match last_of format_word None os with None => ws_fmt F s = fmt_default | Some w => fmt_new w = Ok (ws_fmt F s) end).
Proof.
  assert (G : forall os s s' fw fn hw tw ow, wc_opts F fmt_default fmt_new comp_make s os = Ok s' ->
    tri_new fw = Ok (ws_file F s) -> ws_col F s = fn -> tri_new hw = Ok (ws_header F s) -> tri_new tw = Ok (ws_totals F s) ->
    (match ow with None => ws_fmt F s = fmt_default | Some w => fmt_new w = Ok (ws_fmt F s) end) ->
    tri_new (last_of file_word fw os) = Ok (ws_file F s') /\ ws_col F s' = last_of file_name fn os /\
    tri_new (last_of header_word hw os) = Ok (ws_header F s') /\ tri_new (last_of total_word tw os) = Ok (ws_totals F s') /\
    ws_only F s' = ws_only F s || existsb is_only os /\ ws_columns F s' = ws_columns F s || existsb is_columns os /\
    (match last_of format_word ow os with None => ws_fmt F s' = fmt_default | Some w => fmt_new w = Ok (ws_fmt F s') end)).
  { induction os as [|o os IH]; intros s s' fw fn hw tw ow HO H1 H2 H3 H4 H5; cbn [wc_opts] in HO.
    - inversion HO; subst. unfold last_of. cbn [fold_left existsb]. rewrite !orb_false_r. tauto.
    - destruct (wc_opt F fmt_default fmt_new comp_make s o) as [s1| |] eqn:E; try discriminate. cbn [rbind] in HO.
      unfold last_of. cbn [fold_left existsb]. rewrite !orb_assoc.
      assert (K : tri_new (match file_word o with Some x => x | None => fw end) = Ok (ws_file F s1) /\ ws_col F s1 = (match file_name o with Some x => x | None => fn end) /\
        tri_new (match header_word o with Some x => x | None => hw end) = Ok (ws_header F s1) /\ tri_new (match total_word o with Some x => x | None => tw end) = Ok (ws_totals F s1) /\
        ws_only F s1 = ws_only F s || is_only o /\ ws_columns F s1 = ws_columns F s || is_columns o /\
        (match (match format_word o with Some x => x | None => ow end) with None => ws_fmt F s1 = fmt_default | Some w => fmt_new w = Ok (ws_fmt F s1) end)).
      { destruct s as [g c ft h t b k fm]. cbn [ws_file ws_col ws_header ws_totals ws_fmt ws_only ws_columns] in *. subst fn.
        destruct o as [x| | | | |x| |x|x|x]; cbn [wc_opt file_word file_name header_word total_word format_word is_only is_columns] in *; rewrite ?orb_false_r, ?orb_true_r.
        1-5: match type of E with rbind ?p _ = _ => destruct p; inversion E; subst; cbn; auto 10 end.
        - destruct (fmt_new x) eqn:EF; inversion E; subst; cbn; auto 10.
        - inversion E; subst; cbn; auto 10.
        - destruct (beq (map lower x) (bs "only")); [inversion E; subst; cbn; rewrite ?orb_true_r; auto 10|].
          destruct (tri_new x) eqn:ET; inversion E; subst; cbn; rewrite ?orb_false_r; auto 10.
        - destruct (tri_new x) eqn:ET; inversion E; subst; cbn; auto 10.
        - destruct (split_once 44 x) as [[y z]|]; [destruct (tri_new y) eqn:ET|destruct (tri_new x) eqn:ET]; inversion E; subst; cbn; auto 10. }
      destruct K as (K1 & K2 & K3 & K4 & K5 & K6 & K7). rewrite <- K5, <- K6. eapply IH; eauto. }
  intros os s H. eapply (G os _ s (bs "maybe") (bs "file") (bs "maybe") (bs "maybe") None) in H; try reflexivity. exact H.
Qed.

(** An aggregator given as a text has the name before the first comma, or none, and works as the text behind it says. *)
Theorem c68_agg_name : forall spec a,
  (forall name rest, spec = name ++ 44%N :: rest -> ~ In 44%N name ->
     (agger_new F fmt_default comp_make spec = Ok a <-> exists g, agg_make comp_make rest = Ok g /\ a = mkag F spec g name fmt_default)) /\
  (~ In 44%N spec -> (agger_new F fmt_default comp_make spec = Ok a <-> exists g, agg_make comp_make spec = Ok g /\ a = mkag F spec g [] fmt_default)).
Proof.
  intros spec a. unfold agger_new. split.
  - intros name rest -> N. rewrite split_once_app by exact N. destruct (agg_make comp_make rest) as [g| |]; cbn [rbind]; split; try discriminate; try (intros (x & X & _); discriminate).
    + intros E. injection E as <-. eauto.
    + intros (x & X & ->). injection X as <-. reflexivity.
  - intros N. rewrite split_once_none by exact N. destruct (agg_make comp_make spec) as [g| |]; cbn [rbind]; split; try discriminate; try (intros (x & X & _); discriminate).
    + intros E. injection E as <-. eauto.
    + intros (x & X & ->). injection X as <-. reflexivity.
Qed.

(** Full claim: for every file, one line with the numbers of lines, bytes, characters and words asked for, after the name of the file if
    names are wanted; before them a header and after them the totals if wanted.
    Proved in plain quoting mode for files with data lines, which are what is counted (the header is not), as long as no total reaches
    2^53; the files counted under their names. Missing, and refuted below: files without data lines, other delimiters. *)
Theorem c68_files_partial : forall md ot cdx os s ps qs, (forall x, ~ In (WAgg x) os) -> set_by os = Ok s -> ws_columns F s = false ->
  tm_quote md = QPlain -> Forall2 (counted utf8_ok md) ps qs -> ps <> [] ->
  let ms := measures MLines os in let d := ColModel.tm_delim ot in
  let f := match flat_map asked os with [] => fmt_default | _ => ws_fmt F s end in
  let named := decide (ws_file F s) ((1 <? List.length ps) && negb (ws_only F s)) in
  let headed := decide (ws_header F s) ((1 <? List.length ms) || named) in
  let summed := decide (ws_totals F s) (1 <? List.length ps) || ws_only F s in
  let names := (if named then [ws_col F s] else []) ++ map label_of ms in
  let sum m := total (map (fun q => how_many m (sh_lines (snd q))) qs) in
  (headed = true -> proper uni_alpha uni_alnum names) -> (forall m, In m ms -> (sum m < 2 ^ 53)%N) ->
  run md ot cdx os ps =
    ((if headed then (if cdx then CDX ++ [d] else []) ++ join d names ++ [NL] else []) ++
     (if ws_only F s then [] else
      concat (map (fun q => report_line d (if named then Some (fst q) else None) (map (fun m => fmt_print f (f_of_N (how_many m (sh_lines (snd q))))) ms)) qs)) ++
     (if summed then report_line TAB (if named then Some (bs "totals") else None) (map (fun m => fmt_print (ws_fmt F s) (f_of_N (sum m))) ms) else []), Ok tt).
Proof.
  intros md ot cdx os s ps qs HN HS HC Hp HF HE ms d f named headed summed names sum HP HB.
  unfold wc. rewrite HS. cbn [need]. pose proof (opts_ok F fmt_default fmt_new comp_make os (ws_new F fmt_default) s [] HN eq_refl HS) as HG. cbn [app] in HG.
  unfold wc_run. destruct s as [g c ft h t b k fm]. cbn [ws_agg ws_col ws_file ws_header ws_totals ws_only ws_columns ws_fmt] in *. subst g k. rewrite set_fmt_meters.
  assert (GV : match al_v F (mkal F (map (meter F fm) (flat_map asked os)) fm) with
    | [] => al_push F fmt_default comp_make (mkal F (map (meter F fm) (flat_map asked os)) fm) (bs "lines,count")
    | _ => Ok (mkal F (map (meter F fm) (flat_map asked os)) fm) end = Ok (mkal F (map (meter F f) ms) fm)).
  { unfold f, ms, measures. cbn [al_v]. destruct (flat_map asked os) as [|m0 r]; [|reflexivity]. cbn [map]. change (bs "lines,count") with (spec_of MLines). unfold al_push. rewrite meter_new. reflexivity. }
  rewrite GV. cbn [need al_v]. rewrite map_length.
  change (decide ft ((1 <? List.length ps) && negb b)) with named. change (decide h ((1 <? List.length ms) || named)) with headed.
  change (decide t (1 <? List.length ps) || b) with summed.
  assert (Hms : ms <> []) by (unfold ms, measures; destruct (flat_map asked os); discriminate).
  replace (repeat f_zero (List.length ms)) with (map (fun m : measure => f_of_N 0) ms) by (clear; induction ms; cbn; f_equal; auto).
  rewrite (wc_files_ok F fmt_default fmt_new fmt_print exp10 decode is_space is_alnum comp_make utf8_ok uni_alpha uni_alnum md ot cdx headed named b c f ms
    ((if cdx then CDX ++ [d] else []) ++ join d names ++ [NL]) Hp) with (qs := qs); auto.
  - unfold say. cbn [need fst snd]. f_equal.
    replace (match qs with [] => true | _ => false end) with false by (inversion HF; subst; [elim HE|]; reflexivity).
    rewrite andb_true_r. cbn [negb]. rewrite andb_true_r. rewrite <- app_assoc. f_equal. f_equal.
    + unfold file_row. destruct b; [|reflexivity]. clear. induction qs; auto.
    + unfold totals_line, report_line. destruct summed; [|reflexivity]. rewrite map_map. destruct named; rewrite <- ?app_assoc; reflexivity.
  - intros Hh. specialize (HP Hh). rewrite head_ok; [do 2 f_equal|right; destruct ms; [congruence|discriminate]|].
    + unfold names. rewrite map_map. destruct named; reflexivity.
    + rewrite map_map. unfold names in HP. destruct named; exact HP.
Qed.
(** The same by columns: one line for every name in the order of appearance, counting all fields under that name in all files. Refuted
    below: files without data lines, lines with more fields than there are names, and the labels of a single column. *)
Theorem c68_columns_partial : forall md ot cdx os s ps qs, (forall x, ~ In (WAgg x) os) -> set_by os = Ok s -> ws_columns F s = true ->
  md_ok md -> Forall2 (counted utf8_ok md) ps qs ->
  Forall (fun q => Forall (fun l => List.length (row_of md l) <= List.length (sh_names (snd q))) (sh_lines (snd q))) qs ->
  let ms := measures MBytes os in let d := ColModel.tm_delim ot in
  let cols := map (fun n => (n, column_of (row_of md) (map snd qs) n)) (appear [] (all_names qs)) in
  let labelled := match ws_file F s with TNo => false | _ => true end in
  let named := decide (ws_file F s) ((1 <? List.length cols) && negb (ws_only F s)) in
  let headed := decide (ws_header F s) ((1 <? List.length ms) || named) in
  let summed := decide (ws_totals F s) (1 <? List.length cols) || ws_only F s in
  let names := (if labelled then [bs "column"] else []) ++ map label_of ms in
  let sum m := total (map (fun c => how_many m (snd c)) cols) in
  (headed = true -> proper uni_alpha uni_alnum names) -> (forall m, In m ms -> (sum m < 2 ^ 53)%N) ->
  run md ot cdx os ps =
    ((if headed then (if cdx then CDX ++ [d] else []) ++ join d names ++ [NL] else []) ++
     (if ws_only F s then [] else
      concat (map (fun c => report_line TAB (if labelled then Some (fst c) else None) (map (fun m => fmt_print (ws_fmt F s) (f_of_N (how_many m (snd c)))) ms)) cols)) ++
     (if summed then report_line TAB (if named then Some (bs "totals") else None) (map (fun m => fmt_print (ws_fmt F s) (f_of_N (sum m))) ms) else []), Ok tt).
Proof.
  intros md ot cdx os s ps qs HN HS HC Hm HF HW ms d cols labelled named headed summed names sum HP HB.
  unfold wc. rewrite HS. cbn [need]. pose proof (opts_ok F fmt_default fmt_new comp_make os (ws_new F fmt_default) s [] HN eq_refl HS) as HG. cbn [app] in HG.
  unfold wc_run. destruct s as [g c ft h t b k fm]. cbn [ws_agg ws_col ws_file ws_header ws_totals ws_only ws_columns ws_fmt] in *. subst g k. rewrite set_fmt_meters.
  set (f := match flat_map asked os with [] => fmt_default | _ => fm end).
  assert (GV : match al_v F (mkal F (map (meter F fm) (flat_map asked os)) fm) with
    | [] => al_push F fmt_default comp_make (mkal F (map (meter F fm) (flat_map asked os)) fm) (bs "bytes,asum,chars")
    | _ => Ok (mkal F (map (meter F fm) (flat_map asked os)) fm) end = Ok (mkal F (map (meter F f) ms) fm)).
  { unfold f, ms, measures. cbn [al_v]. destruct (flat_map asked os) as [|m0 r]; [|reflexivity]. cbn [map]. change (bs "bytes,asum,chars") with (spec_of MBytes). unfold al_push. rewrite meter_new. reflexivity. }
  rewrite GV. cbn [need].
  assert (HD : al_deep F fmt_default comp_make (mkal F (map (meter F f) ms) fm) = Ok (mkal F (map (meter F fm) ms) fm)).
  { rewrite deep_ok; [cbn [al_v al_fmt]; rewrite map_map; reflexivity|]. cbn [al_v]. apply Forall_forall. intros a Ha. apply in_map_iff in Ha as (m & <- & _).
    apply (meter_new F fmt_default comp_make m). }
  pose proof (col_files_ok F fmt_default fmt_new fmt_print exp10 decode is_space is_alnum comp_make utf8_ok _ (map (meter F fm) ms) HD md Hm ps qs [] (fun _ => []) HF (NoDup_nil _) (fun _ _ => eq_refl) HW) as HCF.
  unfold table_of in HCF at 1. cbn [map] in HCF. rewrite HCF. cbn [need app al_v]. clear HCF.
  replace (table_of F exp10 decode is_space is_alnum (map (meter F fm) ms) (appear [] (all_names qs)) (fun n => column_of (row_of md) (map snd qs) n))
    with (map (fun r : bytes * list bytes => (fst r, fed F exp10 decode is_space is_alnum (snd r) (map (meter F fm) ms))) cols).
  2: { unfold cols, table_of. rewrite map_map. reflexivity. }
  rewrite !map_length.
  replace (1 <? List.length (appear [] (all_names qs))) with (1 <? List.length cols) by (unfold cols; rewrite map_length; reflexivity).
  change (decide ft ((1 <? List.length cols) && negb b)) with named. change (decide h ((1 <? List.length ms) || named)) with headed.
  change (decide t (1 <? List.length cols) || b) with summed. change (match ft with TNo => false | _ => true end) with labelled.
  assert (Hms : ms <> []) by (unfold ms, measures; destruct (flat_map asked os); discriminate).
  assert (HH : (if headed then wc_head F uni_alpha uni_alnum cdx d (if labelled then Some (bs "column") else None) (map (meter F f) ms) else Ok []) =
    Ok (if headed then (if cdx then CDX ++ [d] else []) ++ join d names ++ [NL] else [])).
  { destruct headed eqn:EH; [|reflexivity]. specialize (HP eq_refl). rewrite head_ok; [do 2 f_equal|right; destruct ms; [congruence|discriminate]|].
    + unfold names. rewrite map_map. destruct labelled; reflexivity.
    + rewrite map_map. unfold names in HP. destruct labelled; exact HP. }
  unfold d in HH at 1. rewrite HH. cbn [need]. f_equal. f_equal. f_equal.
  - destruct b; [reflexivity|]. rewrite flat_map_concat_map, map_map. f_equal. apply map_ext_in. intros r Hr. unfold row_fmt, report_line.
    rewrite (shown_meters F fmt_default fmt_print exp10 decode is_space is_alnum fm (fun _ => fm) ms (snd r)).
    + rewrite between_join. destruct labelled; rewrite <- ?app_assoc; reflexivity.
    + intros m Hm'. apply N.lt_trans with (2 ^ 53)%N; [|reflexivity]. apply N.le_lt_trans with (sum m); [|apply HB, Hm'].
      unfold sum. clear -Hr. induction cols as [|x l IH]; [contradiction|]. cbn [map total fold_right]. destruct Hr as [-> | Hr]; [lia|]. specialize (IH Hr). unfold total in IH. lia.
  - unfold totals_line, report_line. destruct summed; [|reflexivity].
    replace (repeat f_zero (List.length ms)) with (map (fun m : measure => f_of_N 0) ms) by (clear; induction ms; cbn; f_equal; auto).
    rewrite (fold_sums F fmt_default fmt_print exp10 decode is_space is_alnum fm ms cols (fun _ => 0%N)) by exact HB. rewrite map_map. rewrite between_join. destruct named; rewrite <- ?app_assoc; reflexivity.
Qed.
End Wc.

(** Number formats for the examples: whole numbers as digits, marked with x in the other format. *)
Definition ex_print (f : bool) (x : f64) : bytes :=
  (if f then [] else bs "x") ++
  match x with S754_finite false m e => print_Z (match e with Zneg k => Zpos m / 2 ^ Zpos k | _ => Zpos m * 2 ^ e end) | _ => bs "0" end.
Definition ex_fmt (w : bytes) : res bool := if beq w (bs "other") then Ok false else Ok true.
Definition ex_exp (z : Z) : f64 := f_one.
Definition ex_chars (l : bytes) : list N := filter (fun c => negb (128 <=? c) || (192 <=? c))%N l.
Definition no_space (c : N) : bool := false.
Definition ex_run := wc bool true ex_fmt ex_print ex_exp ex_chars no_space no_space (fun _ => Err) any_text no_char no_char.
Definition ex_opts (os : list wopt) := wc_opts bool true ex_fmt (fun _ => Err) (ws_new bool true) os.
Definition ex_ps : list (bytes * src) := [(bs "A", ex_h1); (bs "B", text (tsv [["two words"]]%string))].
Definition ex_qs : list (bytes * shown) := [(bs "A", ex_fh1); (bs "B", mkshown [] [bs "c1"] [tsv [["two words"]]%string])].
Lemma ex_counted : Forall2 (counted any_text ex_mm) ex_ps ex_qs.
Proof.
  constructor; [|constructor; [|constructor]]; (split; [reflexivity|]; split; [repeat constructor; discriminate|]; split; [eexists; split; vm_compute; reflexivity|]; split; [vm_compute; reflexivity|discriminate]).
Qed.
Example c68_files_partial_ex : exists s, ex_opts [WLines; WBytes; WWords] = Ok s /\ ws_columns bool s = false /\
  proper no_char no_char [bs "file"; bs "lines"; bs "bytes"; bs "words"] /\
  ex_run ex_mm ex_ot true [WLines; WBytes; WWords] ex_ps =
    (tsv [[" CDX"; "file"; "lines"; "bytes"; "words"]; ["A"; "2"; "8"; "4"]; ["B"; "1"; "10"; "2"]; ["totals"; "3"; "18"; "6"]]%string, Ok tt).
Proof.
  eexists. split; [reflexivity|]. split; [reflexivity|]. split; [|vm_compute; reflexivity].
  split; [repeat constructor; vm_compute; auto; try discriminate|]. repeat constructor; cbn; intuition discriminate.
Qed.
Definition ex_cps : list (bytes * src) := [(bs "A", ex_h1); (bs "B", ex_h2); (bs "C", text (tsv [[" CDX"; "q"; "r"]; ["zz"; "yyy"]; ["z"]]%string))].
Definition ex_cqs : list (bytes * shown) :=
  [(bs "A", ex_fh1); (bs "B", ex_fh2); (bs "C", mkshown (tsv [[" CDX"; "q"; "r"]]%string) [bs "q"; bs "r"] [tsv [["zz"; "yyy"]]%string; tsv [["z"]]%string])].
Example c68_columns_partial_ex : exists s, ex_opts [WColumns; WFormat (bs "other")] = Ok s /\ ws_columns bool s = true /\ Forall2 (counted any_text ex_mm) ex_cps ex_cqs /\
  Forall (fun q => Forall (fun l => List.length (row_of ex_mm l) <= List.length (sh_names (snd q))) (sh_lines (snd q))) ex_cqs /\
  ex_run ex_mm ex_ot true [WColumns; WFormat (bs "other")] ex_cps =
    (tsv [[" CDX"; "column"; "bytes"]; ["p"; "x3"]; ["q"; "x6"]; ["r"; "x3"]; ["totals"; "x12"]]%string, Ok tt).
Proof.
  eexists. split; [reflexivity|]. split; [reflexivity|]. split; [|split; [|vm_compute; reflexivity]].
  - repeat (apply Forall2_cons); [| | |constructor]; (split; [reflexivity|]; split; [repeat constructor; discriminate|]; split; [eexists; split; vm_compute; reflexivity|]; split; [vm_compute; reflexivity|discriminate]).
  - repeat constructor.
Qed.
Example c68_settings_ex : exists s, ex_opts [WFile (bs "yes,name"); WTotal (bs "only"); WTotal (bs "no"); WFile (bs "NO")] = Ok s /\
  ws_file bool s = TNo /\ ws_col bool s = bs "name" /\ ws_totals bool s = TNo /\ ws_only bool s = true.
Proof. eexists. split; [reflexivity|]. auto. Qed.
Example c68_agg_name_ex : (exists a, agger_new bool true (fun _ => Err) (bs "n,count") = Ok a /\ ag_out bool a = bs "n") /\
  (exists a, agger_new bool true (fun _ => Err) (bs "count") = Ok a /\ ag_out bool a = []).
Proof. split; eexists; split; reflexivity. Qed.

(** A file without data lines has no line in the report. *)
Theorem c68_no_row_refuted : exists ps, map fst ps = [bs "A"; bs "B"; bs "C"] /\ map (fun p => content (snd p)) ps = [[]; tsv [[" CDX"; "p"]]%string; bs "x" ++ [NL]] /\
  ex_run ex_mm ex_ot true [WHeader (bs "no")] ps = (tsv [["C"; "1"]; ["totals"; "1"]]%string, Ok tt).
Proof. exists [(bs "A", mksrc [] []); (bs "B", text (tsv [[" CDX"; "p"]]%string)); (bs "C", text (bs "x" ++ [NL]))]. repeat split; vm_compute; reflexivity. Qed.
(** The number format is not used for the default count, only for its total. *)
Theorem c68_format_refuted : exists ps,
  ex_run ex_mm ex_ot true [WFormat (bs "other"); WHeader (bs "no")] ps = (tsv [["A"; "2"]; ["B"; "1"]; ["totals"; "x3"]]%string, Ok tt).
Proof. exists ex_ps. vm_compute. reflexivity. Qed.
(** With another delimiter, the header has it everywhere and the lines have it nowhere in front, the totals nowhere. *)
Theorem c68_delim_refuted : exists ps,
  ex_run ex_mm (mktm QPlain 44 NL 32) true [WLines; WBytes] ps =
    (bs " CDX,file,lines,bytes" ++ [NL] ++ bs "A" ++ [TAB] ++ bs "2,8" ++ [NL] ++ bs "B" ++ [TAB] ++ bs "1,10" ++ [NL] ++ tsv [["totals"; "3"; "18"]]%string, Ok tt).
Proof. exists ex_ps. vm_compute. reflexivity. Qed.
(** In the decoding modes the lines are not counted as they are. *)
Theorem c68_quote_refuted : exists s, content s = tsv [["a"]; ["bbbb"]; ["cc"]; ["d"]]%string /\
  ex_run (mkmode HMaybe QBackslash TAB NL) ex_ot true [WBytes] [(bs "A", s)] <> (tsv [["12"]]%string, Ok tt).
Proof. exists (text (tsv [["a"]; ["bbbb"]; ["cc"]; ["d"]]%string)). split; vm_compute; [reflexivity|discriminate]. Qed.
(** By columns: a file without data lines ends the run; a line with more fields than names panics; a single column is labelled while its
    total is not. *)
Theorem c68_columns_end_refuted : exists s1 s2, content s1 = tsv [[" CDX"; "p"; "q"]]%string /\ content s2 = content ex_h1 /\
  ex_run ex_mm ex_ot true [WColumns] [(bs "A", s1); (bs "B", s2)] = (tsv [[" CDX"; "column"; "bytes"]; ["p"; "0"]; ["q"; "0"]; ["totals"; "0"]]%string, Ok tt).
Proof. exists (text (tsv [[" CDX"; "p"; "q"]]%string)), ex_h1. repeat split; vm_compute; reflexivity. Qed.
Theorem c68_columns_wide_refuted : exists s, content s = tsv [["a"]; ["b"; "c"]]%string /\
  ex_run ex_mm ex_ot true [WColumns] [(bs "A", s)] = ([], Panic).
Proof. exists (text (tsv [["a"]; ["b"; "c"]]%string)). split; vm_compute; reflexivity. Qed.
Theorem c68_columns_label_refuted : exists s, content s = tsv [["a"]; ["b"]]%string /\
  ex_run ex_mm ex_ot true [WColumns; WTotal (bs "yes")] [(bs "A", s)] = (tsv [["c1"; "2"]; ["2"]]%string, Ok tt).
Proof. exists (text (tsv [["a"]; ["b"]]%string)). split; vm_compute; reflexivity. Qed.
