(** C40: pasting files side by side. *)
From Coq Require Import String List NArith ZArith Bool Arith Lia.
Open Scope list_scope.
Import ListNotations.
From Verif Require Import Base TextSpec TextModel ReadSpec ReadModel ReadProofs HdrModel HdrProofs ColModel ColProps ToolModel ToolOpen TurnSpec TurnProofs TurnProps PasteSpec PasteProofs.
Close Scope Z_scope.
Open Scope nat_scope.

(** Opening the sources and pasting them. *)
Definition paste_of {T} (u : bytes -> bool) (ua un : N -> bool) (mm : bytes -> res (bytes -> bool)) (md : tmode) (mode : end_mode) (use_last : bool)
  (dflt : values T) (h : header) (cdx : bool) (odelim : N) (ss : list src) : bytes * res unit :=
  need (open_files u md ss) (paste ua un T mm md mode use_last dflt h cdx odelim).
(** The lengths of the files. *)
Definition lengths (fs : list shown) : list nat := map (fun f => List.length (sh_lines f)) fs.

(** Full claim: for all files. Proved in plain quoting mode for every list of files, chunking, delimiter and header: after the header line,
    output line j holds line j of every file, tabs between; a file that has ended shows its last line, or the values of its columns;
    the output has as many lines as the longest file (late) or the shortest one (early, exact); exact fails exactly when these differ.
    Missing, and refuted below: the decoding modes, and repeating the last line of a file that has none. *)
Theorem c40_paste_partial : forall T u ua un mm md mode (use_last : bool) (dflt d : values T) h h1 h' cdx odelim head ss fs,
  tm_quote md = QPlain -> Forall2 (shows u md) ss fs ->
  push_all ua un h (fst (headed fs)) = (h1, true) -> h' = push_all_unchecked h1 (snd (headed fs)) -> check_rename h' = true ->
  (if all_headed fs then get_head cdx odelim (h_cols h') = Ok head else head = []) ->
  values_lookup mm dflt (h_cols h') = Ok d ->
  (mode = Late -> if use_last then Forall (fun f => sh_lines f <> []) fs else h_cols h' <> []) ->
  paste_of u ua un mm md mode use_last dflt h cdx odelim ss =
    (head ++ side_by_side (match mode with Late => longest (lengths fs) | _ => shortest (lengths fs) end) (filled use_last (value_of d) 0 fs),
     match mode with Exact => if shortest (lengths fs) =? longest (lengths fs) then Ok tt else Err | _ => Ok tt end).
Proof.
  intros T u ua un mm md mode use_last dflt d h h1 h' cdx odelim head ss fs Hp HS HP Hh' HC HH HV HF.
  destruct (open_files_shows _ _ _ _ HS) as (ts & O1 & O2). unfold paste_of. rewrite O1. cbn [need]. unfold paste.
  rewrite (open_headed ua un md ts fs O2 h h1 0 0 0 [] HP). rewrite <- Hh'. cbn [need app Nat.add]. rewrite HC. cbn [negb].
  assert (EH : (if all_headed fs then get_head cdx odelim (h_cols h') else Ok []) = Ok head) by (destruct (all_headed fs); [exact HH|congruence]).
  rewrite EH. cbn [need]. rewrite HV. cbn [need].
  destruct (lines_same use_last (value_of d) fs 0) as (L1 & L2 & L3). rewrite <- L1, <- L2. unfold lengths. rewrite <- L3.
  assert (HL : Forall (fun f => Forall (is_line (tm_break md)) (sh_lines f)) fs).
  { clear - Hp HS. induction HS; constructor; auto. eapply shows_lines; eauto. }
  assert (HF' : mode = Late -> if use_last then Forall (fun f => sh_lines f <> []) fs else vs_strings d <> []).
  { intros E. specialize (HF E). destruct use_last; auto. intros Z. apply lookup_len in HV. rewrite Z in HV. destruct (h_cols h'); [congruence|discriminate]. }
  pose proof (ranged_pst T md Hp use_last d (mode = Late) ts fs O2 HL HF' 0) as HR.
  pose proof (fuel_ok md ts fs (fun E => ltac:(rewrite Hp in E; discriminate)) O2 0) as HK. rewrite <- L3 in HK.
  set (files := filled use_last (value_of d) 0 fs) in *. pose proof (short_long files) as SL.
  set (fuel := list_sum (map (fun p : pfile => turns (pf_rd p)) (ranged 0 ts))) in *.
  unfold side_by_side, say. destruct mode.
  - rewrite (short_ok T md Hp use_last d (Exact = Late) Exact) with (n := shortest (lens files)) (fs := files) by (try congruence; try lia; exact HR). reflexivity.
  - rewrite (short_ok T md Hp use_last d (Early = Late) Early) with (n := shortest (lens files)) (fs := files) by (try congruence; try lia; exact HR). reflexivity.
  - rewrite (late_ok T md Hp use_last d (Late = Late) eq_refl) with (n := longest (lens files)) (fs := files) by (try congruence; try lia; exact HR). reflexivity.
Qed.

Definition tsv (l : list (list string)) : bytes := table (map (map bs) l).
Definition ex_md := mkmode HYes QPlain TAB NL.
Definition ex_a := mkshown (tsv [[" CDX"; "x"; "y"]]%string) [bs "x"; bs "y"] [tsv [["1"; "2"]]%string; tsv [["3"; "4"]]%string].
Definition ex_b := mkshown (tsv [[" CDX"; "z"]]%string) [bs "z"] [tsv [["5"]]%string].
Definition ex_paste mode use_last := paste_of any_text no_uni no_uni ex_match ex_md mode use_last (mkvals (bs "-") ([] : list (scoped nat)) [] []) hdr_new true TAB
  [text (tsv [[" CDX"; "x"; "y"]; ["1"; "2"]; ["3"; "4"]]%string); mksrc [] [bs " C"; skipn 2 (tsv [[" CDX"; "z"]; ["5"]]%string)]].
Example c40_paste_partial_ex :
  ex_paste Late false = (tsv [[" CDX"; "x"; "y"; "z"]; ["1"; "2"; "5"]; ["3"; "4"; "-"]]%string, Ok tt) /\
  ex_paste Late true = (tsv [[" CDX"; "x"; "y"; "z"]; ["1"; "2"; "5"]; ["3"; "4"; "5"]]%string, Ok tt) /\
  ex_paste Early false = (tsv [[" CDX"; "x"; "y"; "z"]; ["1"; "2"; "5"]]%string, Ok tt) /\
  ex_paste Exact false = (tsv [[" CDX"; "x"; "y"; "z"]; ["1"; "2"; "5"]]%string, Err).
Proof. vm_compute. repeat split; reflexivity. Qed.
(** The two files of the example show what they should, so the hypotheses can be met. *)
Example c40_paste_partial_shows : shows any_text ex_md (text (tsv [[" CDX"; "x"; "y"]; ["1"; "2"]; ["3"; "4"]]%string)) ex_a /\
  shows any_text ex_md (mksrc [] [bs " C"; skipn 2 (tsv [[" CDX"; "z"]; ["5"]]%string)]) ex_b /\
  push_all no_uni no_uni hdr_new (fst (headed [ex_a; ex_b])) = (mkhdr [bs "x"; bs "y"; bs "z"] DFail [] false, true).
Proof.
  split; [|split]; [| |reflexivity]; (split; [repeat constructor; discriminate|left; split; [eexists; split; vm_compute; reflexivity|vm_compute; reflexivity]]).
Qed.

(** Exact succeeds exactly when all files have the same number of lines. *)
Theorem c40_exact : forall T u ua un mm md (use_last : bool) (dflt d : values T) h h1 h' cdx odelim head ss fs,
  tm_quote md = QPlain -> Forall2 (shows u md) ss fs ->
  push_all ua un h (fst (headed fs)) = (h1, true) -> h' = push_all_unchecked h1 (snd (headed fs)) -> check_rename h' = true ->
  (if all_headed fs then get_head cdx odelim (h_cols h') = Ok head else head = []) ->
  values_lookup mm dflt (h_cols h') = Ok d ->
  snd (paste_of u ua un mm md Exact use_last dflt h cdx odelim ss) = Ok tt <->
  forall f g, In f fs -> In g fs -> List.length (sh_lines f) = List.length (sh_lines g).
Proof.
  intros T u ua un mm md use_last dflt d h h1 h' cdx odelim head ss fs Hp HS HP Hh' HC HH HV.
  rewrite (c40_paste_partial T u ua un mm md Exact use_last dflt d h h1 h' cdx odelim head ss fs); auto; [|discriminate]. cbn [snd].
  assert (Q : shortest (lengths fs) = longest (lengths fs) <-> forall f g, In f fs -> In g fs -> List.length (sh_lines f) = List.length (sh_lines g)).
  { split.
    - intros E. assert (A : forall m l x, In x l -> fold_right Nat.min m l <= x).
      { induction l as [|y l IH]; intros x I; [destruct I|]. cbn [fold_right]. destruct I as [->|I]; [lia|]. apply IH in I. lia. }
      assert (B : forall f, In f fs -> List.length (sh_lines f) = longest (lengths fs)).
      { intros f I. assert (I' : In (List.length (sh_lines f)) (lengths fs)) by (unfold lengths; apply (in_map (fun f => List.length (sh_lines f))); exact I).
        pose proof (A (list_max (lengths fs)) _ _ I') as A1. pose proof (proj1 (list_max_le (lengths fs) (list_max (lengths fs))) (le_n _)) as A2.
        rewrite Forall_forall in A2. apply A2 in I'. unfold shortest, longest in *. lia. }
      intros f g If Ig. rewrite (B f If), (B g Ig). reflexivity.
    - intros E. destruct fs as [|f fs]; [reflexivity|]. set (n := List.length (sh_lines f)).
      assert (F : Forall (fun x => x = n) (lengths (f :: fs))).
      { apply Forall_forall. intros x I. unfold lengths in I. apply in_map_iff in I as (g & <- & I). apply E; [exact I|left; reflexivity]. }
      assert (M : longest (lengths (f :: fs)) = n).
      { unfold longest. apply Nat.le_antisymm.
        - apply list_max_le. eapply Forall_impl; [|exact F]. cbn. lia.
        - change (lengths (f :: fs)) with (n :: lengths fs). unfold list_max. cbn [fold_right]. lia. }
      unfold shortest. unfold longest in M. rewrite M. unfold longest. rewrite ?M. clear - F. induction F as [|x l E F IH]; [reflexivity|]. cbn [fold_right]. rewrite IH. lia. }
  rewrite <- Q. destruct (Nat.eqb_spec (shortest (lengths fs)) (longest (lengths fs))) as [E|E]; split; intros H; auto; try discriminate. contradiction.
Qed.
Example c40_exact_ex : snd (ex_paste Exact false) = Err /\
  snd (paste_of any_text no_uni no_uni ex_match ex_md Exact false (mkvals (bs "-") ([] : list (scoped nat)) [] []) hdr_new true TAB
   [text (tsv [[" CDX"; "x"; "y"]; ["1"; "2"]]%string); text (tsv [[" CDX"; "z"]; ["5"]]%string)]) = Ok tt.
Proof. vm_compute. split; reflexivity. Qed.

(** A repeated column name stops it before anything is written. *)
Theorem c40_names : forall T u ua un mm md mode use_last (dflt : values T) h h1 cdx odelim ss fs,
  Forall2 (shows u md) ss fs -> push_all ua un h (fst (headed fs)) = (h1, false) ->
  paste_of u ua un mm md mode use_last dflt h cdx odelim ss = ([], Err).
Proof.
  intros T u ua un mm md mode use_last dflt h h1 cdx odelim ss fs HS HP. destruct (open_files_shows _ _ _ _ HS) as (ts & O1 & O2).
  unfold paste_of. rewrite O1. cbn [need]. unfold paste. rewrite (open_bad ua un md ts fs O2 h h1 0 0 0 [] HP). reflexivity.
Qed.
Example c40_names_ex : paste_of any_text no_uni no_uni ex_match ex_md Late false (mkvals (bs "-") ([] : list (scoped nat)) [] []) hdr_new true TAB
  [text (tsv [[" CDX"; "x"; "y"]; ["1"; "2"]]%string); text (tsv [[" CDX"; "x"]; ["5"]]%string)] = ([], Err).
Proof. vm_compute. reflexivity. Qed.

Definition no_values : values nat := mkvals (bs "-") [] [] [].
(** Refutations. A file with nothing but a header has no last line to repeat: the tool panics. *)
Theorem c40_last_refuted : exists ss,
  snd (paste_of any_text no_uni no_uni ex_match ex_md Late true no_values hdr_new true TAB ss) = Panic /\
  map content ss = [tsv [[" CDX"; "x"]; ["1"]]%string; tsv [[" CDX"; "z"]]%string].
Proof. exists [text (tsv [[" CDX"; "x"]; ["1"]]%string); text (tsv [[" CDX"; "z"]]%string)]. split; vm_compute; reflexivity. Qed.
(** In the quoting modes the last character of every line is lost, and an empty line panics. *)
Theorem c40_quote_refuted : exists ss, 
  paste_of any_text no_uni no_uni ex_match (mkmode HNo QQuote TAB NL) Exact false no_values hdr_new true TAB ss = (bs "a" ++ [TAB] ++ bs "c" ++ [NL], Ok tt) /\
  map content ss = [bs "ab" ++ [NL]; bs "cd" ++ [NL]].
Proof. exists [text (bs "ab" ++ [NL]); text (bs "cd" ++ [NL])]. split; vm_compute; reflexivity. Qed.
Theorem c40_quote_panic_refuted : exists ss,
  snd (paste_of any_text no_uni no_uni ex_match (mkmode HNo QBackslash TAB NL) Exact false no_values hdr_new true TAB ss) = Panic /\
  map content ss = [bs "ab" ++ [NL]; [NL]].
Proof. exists [text (bs "ab" ++ [NL]); text [NL]]. split; vm_compute; reflexivity. Qed.
(** An empty file takes the header away from all the others. *)
Theorem c40_empty_refuted : exists ss,
  paste_of any_text no_uni no_uni ex_match ex_md Late false no_values hdr_new true TAB ss = (tsv [["1"; ""]]%string, Ok tt) /\
  map content ss = [tsv [[" CDX"; "x"]; ["1"]]%string; []].
Proof. exists [text (tsv [[" CDX"; "x"]; ["1"]]%string); mksrc [] []]. split; vm_compute; reflexivity. Qed.
(** Whatever delimiter the files have, the files are put together with tabs. *)
Theorem c40_delim_refuted : exists ss,
  paste_of any_text no_uni no_uni ex_match (mkmode HYes QPlain 44 NL) Exact false no_values hdr_new true 44 ss =
    (bs " CDX,x,y,z" ++ [NL] ++ bs "1,2" ++ [TAB] ++ bs "5" ++ [NL], Ok tt) /\
  map content ss = [bs " CDX,x,y" ++ [NL] ++ bs "1,2" ++ [NL]; bs " CDX,z" ++ [NL] ++ bs "5" ++ [NL]].
Proof. exists [text (bs " CDX,x,y" ++ [NL] ++ bs "1,2" ++ [NL]); text (bs " CDX,z" ++ [NL] ++ bs "5" ++ [NL])]. split; vm_compute; reflexivity. Qed.
