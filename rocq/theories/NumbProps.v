(** C67: numbering and dropping lines with cat. *)
From Coq Require Import String List NArith ZArith Bool Arith Lia.
Open Scope list_scope.
Import ListNotations.
From Verif Require Import Base TextSpec TextModel ReadSpec ReadModel ReadProofs HeadModel HeadProps HdrModel HdrSpec HdrProofs StrSpec StrModel StrProofs ColModel MatchText JoinProps TextProofs ColWriteProofs ExprCols ToolModel ToolOpen TurnSpec TurnProofs TurnProps PasteSpec PasteProofs PasteProps PickSpec PickProofs NumbSpec NumbModel NumbProofs.
Close Scope Z_scope.
Open Scope nat_scope.

(** Opening the sources and writing them with the numbers; [ot] is the output format. *)
Definition number_of (u name_ok : bytes -> bool) (ua un : N -> bool) (T : Type) mm tr removes skips md ot m (n : numbering) (ss : list src) : bytes * res unit :=
  need (open_files u md ss) (cat_slow u ua un name_ok T mm tr removes skips md ot true m (with_number T n) (without_number T n) ck_new).
(** A source with data lines and what it shows. *)
Definition shows_data (u : bytes -> bool) (md : ToolModel.tmode) (s : src) (f : shown) : Prop :=
  wf_src s /\ file_lines u md s (sh_head f) (sh_lines f) /\ sh_names f = shown_names md (sh_head f) (sh_lines f) /\ sh_lines f <> [].
(** All lines of all files, without their newlines, numbered through. *)
Definition all_numbered (n : numbering) (d : N) (removes skips : bytes -> bool) (fs : list shown) : bytes :=
  concat (map (fun l => l ++ [NL]) (numbered (side_of n) d removes skips (nm_start n) (map (@removelast N) (concat (map sh_lines fs))))).

Lemma open_numb u md ss fs : Forall2 (shows_data u md) ss fs -> exists ts, open_files u md ss = Ok ts /\ Forall2 (numb_ready md) ts fs.
Proof.
  intros H. induction H as [|s f ss fs (H1 & H2 & H3 & H4) H IH]; [exists []; split; [reflexivity|constructor]|].
  destruct (open_file_lines _ _ _ _ _ H1 H2) as (t & O1 & O2 & O3 & O4 & _ & O6). destruct IH as (ts & I1 & I2). exists (t :: ts). cbn [open_files].
  rewrite O1. cbn [rbind]. rewrite I1. split; [reflexivity|]. constructor; [|exact I2]. split; [exact O2|]. split; [rewrite O3; destruct (sh_head f); reflexivity|].
  split; [rewrite O4, H3; reflexivity|]. destruct (sh_lines f); [congruence|exact O6].
Qed.
Lemma shows_nl u md ss fs : tm_quote md = QPlain -> tm_break md = NL -> Forall2 (shows_data u md) ss fs -> Forall (fun f => Forall nl_ended (sh_lines f)) fs.
Proof.
  intros Hp Hb H. induction H as [|s f ss fs (H1 & H2 & H3 & H4) H IH]; constructor; auto.
  eapply Forall_impl; [|eapply file_lines_plain; eauto]. intros l (b & E & _). rewrite Hb in E. exists b. exact E.
Qed.

(** Full claim: the files are written one after the other, every line that is not removed with its number in the new column, the numbers
    counting on over all files from the start given, skipped lines without number and not counted; the header once, with the new column.
    Proved in plain quoting mode for every list of files with data lines that are all without header, or all with the same names. Missing,
    and refuted below: files without data lines, other delimiters without a header; also files of which only some have a header. *)
Theorem c67_headerless_partial : forall u name_ok ua un T mm tr removes skips md ot m n ss fs,
  tm_quote md = QPlain -> tm_break md = NL -> ColModel.tm_quote ot = QPlain ->
  Forall2 (shows_data u md) ss fs -> Forall (fun f => sh_head f = [] /\ proper ua un (names_with (side_of n) (nm_name n) (sh_names f))) fs ->
  Forall (fun f => sh_names f <> []) fs ->
  number_of u name_ok ua un T mm tr removes skips md ot m n ss = (all_numbered n (ColModel.tm_delim ot) removes skips fs, Ok tt).
Proof.
  intros u no ua un T mm tr rm sk md ot m n ss fs Hp Hb Hq HS HF HN. destruct (open_numb _ _ _ _ HS) as (ts & O1 & O2). unfold number_of. rewrite O1. cbn [need].
  assert (H0 : forall f, In f fs -> new_head ot n f = []).
  { intros f Hf. rewrite Forall_forall in HF. unfold new_head. rewrite (proj1 (HF f Hf)). reflexivity. }
  change (with_number T n) with (at_number T n (nm_start n)).
  rewrite (slow_files u no ua un T mm tr rm sk md Hp ot Hq n m ts fs ck_new (nm_start n) (map (fun _ => false) fs) O2).
  - rewrite written_later. reflexivity.
  - eapply Forall_impl; [|exact HF]. cbv beta. tauto.
  - eapply shows_nl; eauto.
  - eapply Forall_impl; [|exact HN]. intros f Hf. unfold names_with. destruct (side_of n) as [[]|]; [|discriminate|exact Hf]. destruct (sh_names f); discriminate.
  - apply check_none, H0.
Qed.
Theorem c67_headed_partial : forall u name_ok ua un T mm tr removes skips md ot n ss fs names,
  tm_quote md = QPlain -> tm_break md = NL -> ColModel.tm_quote ot = QPlain -> bad_delim (ColModel.tm_delim ot) = false ->
  Forall2 (shows_data u md) ss fs -> Forall (fun f => sh_head f <> [] /\ sh_names f = names) fs -> fs <> [] -> names <> [] ->
  let d := ColModel.tm_delim ot in let shown_as := names_with (side_of n) (nm_name n) names in
  proper ua un shown_as -> Forall (fun x => ~ In d x /\ name_ok x = true /\ x <> []) shown_as -> u (join d shown_as) = true ->
  number_of u name_ok ua un T mm tr removes skips md ot MMatch n ss = (CDX ++ d :: join d shown_as ++ [NL] ++ all_numbered n d removes skips fs, Ok tt).
Proof.
  intros u no ua un T mm tr rm sk md ot n ss fs names Hp Hb Hq Hd HS HF HE HN d sa HP HV HU. destruct (open_numb _ _ _ _ HS) as (ts & O1 & O2).
  unfold number_of. rewrite O1. cbn [need]. change (with_number T n) with (at_number T n (nm_start n)).
  assert (HH : forall f, In f fs -> new_head ot n f = CDX ++ d :: join d sa ++ [NL]).
  { intros f Hf. rewrite Forall_forall in HF. destruct (HF f Hf) as (A & B). unfold new_head. rewrite B. destruct (sh_head f); [congruence|reflexivity]. }
  assert (SN : sa <> []). { unfold sa, names_with. destruct (side_of n) as [[]|]; [|discriminate|exact HN]. destruct names; discriminate. }
  rewrite (slow_files u no ua un T mm tr rm sk md Hp ot Hq n MMatch ts fs ck_new (nm_start n) (true :: repeat false (List.length (tl fs))) O2).
  - destruct fs as [|f fs]; [congruence|]. cbn [written tl]. rewrite (HH f) by (left; auto). unfold all_numbered. cbn [map concat].
    rewrite map_app, numbered_app, map_app, concat_app.
    replace (repeat false (List.length fs)) with (map (fun _ : shown => false) fs) by (clear; induction fs; cbn; congruence).
    rewrite written_later. cbn [app]. rewrite <- !app_assoc. cbn [app]. rewrite <- !app_assoc. reflexivity.
  - eapply Forall_impl; [|exact HF]. intros f (_ & ->). exact HP.
  - eapply shows_nl; eauto.
  - eapply Forall_impl; [|exact HF]. intros f (_ & ->). exact SN.
  - replace (map (new_head ot n) fs) with (repeat (CDX ++ d :: join d sa ++ [NL]) (S (List.length (tl fs)))).
    + apply check_same; [apply head_valid; auto|]. change (last ((CDX ++ d :: join d sa ++ [NL])) 0%N = NL).
      replace (CDX ++ d :: join d sa ++ [NL]) with ((CDX ++ d :: join d sa) ++ [NL]) by (rewrite <- app_assoc; reflexivity). apply last_last.
    + destruct fs as [|f fs]; [congruence|]. cbn [tl repeat map]. rewrite (HH f) by (left; auto). f_equal.
      assert (G : forall g, In g fs -> new_head ot n g = CDX ++ d :: join d sa ++ [NL]) by (intros; apply HH; right; auto). clear -G.
      induction fs as [|g fs IH]; [reflexivity|]. cbn [List.length repeat map]. rewrite (G g) by (left; auto). f_equal. apply IH. intros; apply G; right; auto.
Qed.

Definition none_b : bytes -> bool := fun _ => false.
Definition no_make : bytes -> res (bytes -> bool) := fun _ => Err.
Definition no_trans : unit -> bytes -> res bytes := fun _ b => Ok b.
Definition no_char : N -> bool := fun _ => false.
Definition ex_ot := mktm QPlain TAB NL 32.
Definition starts_hash (l : bytes) : bool := match l with c :: _ => (c =? 35)%N | [] => false end.
Definition is_blank_line (l : bytes) : bool := match l with [] => true | _ => false end.
Definition ex_mm := mkmode HMaybe QPlain TAB NL.
Definition ex_num := mknum true 8 (bs "nr") false.
Definition ex_a := text (tsv [["a"; "x"]; ["#"; "b"]; [""]; ["c"; "y"]]%string).
Definition ex_fa := mkshown [] [bs "c1"; bs "c2"] (map (fun l => tsv [l]) [["a"; "x"]; ["#"; "b"]; [""]; ["c"; "y"]]%string).
Definition ex_b := mksrc [] [bs "d"; skipn 1 (tsv [["d"; "z"]]%string)].
Definition ex_fb := mkshown [] [bs "c1"; bs "c2"] [tsv [["d"; "z"]]%string].
Lemma proper_three a b c : a <> b -> a <> c -> b <> c -> Forall (well_named (alphabetic no_char) (alphanumeric no_char)) [a; b; c] -> proper no_char no_char [a; b; c].
Proof. intros. split; auto. repeat constructor; cbn; intuition congruence. Qed.
Example c67_headerless_partial_ex :
  Forall2 (shows_data any_text ex_mm) [ex_a; ex_b] [ex_fa; ex_fb] /\
  proper no_char no_char (names_with (side_of ex_num) (nm_name ex_num) (sh_names ex_fa)) /\
  number_of any_text any_text no_char no_char unit no_make no_trans is_blank_line starts_hash ex_mm ex_ot MMatch ex_num [ex_a; ex_b] =
    (tsv [["8"; "a"; "x"]; [""; "#"; "b"]; ["9"; "c"; "y"]; ["10"; "d"; "z"]]%string, Ok tt).
Proof.
  split; [|split; [|vm_compute; reflexivity]].
  - constructor; [|constructor; [|constructor]]; (split; [repeat constructor; discriminate|]; split; [eexists; split; vm_compute; reflexivity|]; split; [vm_compute; reflexivity|discriminate]).
  - apply proper_three; try (vm_compute; discriminate). repeat constructor; vm_compute; auto; try discriminate.
Qed.
Definition ex_h1 := text (tsv [[" CDX"; "p"; "q"]; ["a"; "x"]; ["b"; "y"]]%string).
Definition ex_fh1 := mkshown (tsv [[" CDX"; "p"; "q"]]%string) [bs "p"; bs "q"] (map (fun l => tsv [l]) [["a"; "x"]; ["b"; "y"]]%string).
Definition ex_h2 := text (tsv [[" CDX"; "p"; "q"]; ["c"; "z"]]%string).
Definition ex_fh2 := mkshown (tsv [[" CDX"; "p"; "q"]]%string) [bs "p"; bs "q"] [tsv [["c"; "z"]]%string].
Definition ex_last := mknum true 1 (bs "number") true.
Example c67_headed_partial_ex :
  Forall2 (shows_data any_text ex_mm) [ex_h1; ex_h2] [ex_fh1; ex_fh2] /\
  proper no_char no_char (names_with (side_of ex_last) (nm_name ex_last) (sh_names ex_fh1)) /\ bad_delim TAB = false /\
  number_of any_text any_text no_char no_char unit no_make no_trans none_b none_b ex_mm ex_ot MMatch ex_last [ex_h1; ex_h2] =
    (tsv [[" CDX"; "p"; "q"; "number"]; ["a"; "x"; "1"]; ["b"; "y"; "2"]; ["c"; "z"; "3"]]%string, Ok tt).
Proof.
  split; [|split; [|split; vm_compute; reflexivity]].
  - constructor; [|constructor; [|constructor]]; (split; [repeat constructor; discriminate|]; split; [eexists; split; vm_compute; reflexivity|]; split; [vm_compute; reflexivity|discriminate]).
  - apply proper_three; try (vm_compute; discriminate). repeat constructor; vm_compute; auto; try discriminate.
Qed.

(** An empty file among the others changes nothing. *)
Lemma open_files_app u md a b : open_files u md (a ++ b) = rbind (open_files u md a) (fun x => rbind (open_files u md b) (fun y => Ok (x ++ y))).
Proof.
  induction a as [|s a IH]; cbn [app open_files rbind]; [destruct (open_files u md b); reflexivity|]. rewrite IH.
  destruct (open_file u md s); cbn [rbind]; auto. destruct (open_files u md a); cbn [rbind]; auto. destruct (open_files u md b); reflexivity.
Qed.
Lemma slow_skips u ua un name_ok T mm tr rm sk md ot cdx m nv f b : tf_empty f = true -> forall a v ck,
  cat_slow u ua un name_ok T mm tr rm sk md ot cdx m v nv ck (a ++ f :: b) = cat_slow u ua un name_ok T mm tr rm sk md ot cdx m v nv ck (a ++ b).
Proof.
  intros H. induction a as [|g a IH]; intros v ck; cbn [app cat_slow]; [rewrite H; reflexivity|]. destruct (tf_empty g); [apply IH|].
  destruct (writer_lookup mm v (tf_names g)) as [v1| |]; cbn [need]; auto. destruct (writer_names v1 (tf_names g)); cbn [need]; auto.
  destruct (push_all ua un hdr_new a0) as [h ok]. destruct (negb ok); auto.
  match goal with |- need ?x _ = _ => destruct x as [hd| |] end; cbn [need]; auto.
  destruct (check u name_ok m ck hd) as [x ck']. destruct x; cbn [need]; auto. destruct (r_done (tf_rd g)); auto.
  destruct (slow_loop T tr rm sk (turns (tf_rd g)) md ot v1 nv (do_split (tf_rd g) false)) as [t e]. destruct e; cbn [need]; auto. rewrite IH. reflexivity.
Qed.
Theorem c67_empty : forall u name_ok ua un T mm tr removes skips md ot m n a s b, wf_src s -> content s = [] ->
  number_of u name_ok ua un T mm tr removes skips md ot m n (a ++ s :: b) = number_of u name_ok ua un T mm tr removes skips md ot m n (a ++ b).
Proof.
  intros u no ua un T mm tr rm sk md ot m n a s b Hw Hc. unfold number_of.
  assert (O : exists f, open_file u md s = Ok f /\ tf_empty f = true).
  { unfold open_file, read_header. destruct (fill_buf s) as [c s1] eqn:E. rewrite (proj2 (fill_buf_empty _ _ _ Hw E) Hc). cbn [rbind]. eexists. split; reflexivity. }
  destruct O as (f & O1 & O2). rewrite !open_files_app. cbn [open_files]. rewrite O1. cbn [rbind]. destruct (open_files u md a) as [x| |]; cbn [rbind need]; auto.
  destruct (open_files u md b) as [y| |]; cbn [rbind need]; auto. apply slow_skips, O2.
Qed.
Example c67_empty_ex : wf_src (mksrc [] []) /\
  number_of any_text any_text no_char no_char unit no_make no_trans none_b none_b ex_mm ex_ot MMatch ex_last [ex_h1; mksrc [] []; ex_h2] =
    (tsv [[" CDX"; "p"; "q"; "number"]; ["a"; "x"; "1"]; ["b"; "y"; "2"]; ["c"; "z"; "3"]]%string, Ok tt).
Proof. split; [constructor|vm_compute; reflexivity]. Qed.

(** The text given with --number: the name, then the start, then begin or end in any case; what is left out stays as it was, and a
    fourth part is refused. *)
Theorem c67_spec : forall n name z w, ~ In 44%N name -> ~ In 44%N w -> (- 2 ^ 63 <= z < 2 ^ 63)%Z ->
  num_set n name = Ok (mknum true (nm_start n) name (nm_end n)) /\
  num_set n (name ++ 44%N :: print_Z z) = Ok (mknum true z name (nm_end n)) /\
  num_set n (name ++ 44%N :: print_Z z ++ 44%N :: w) =
    (if beq (bs "begin") (map lower w) then Ok (mknum true z name false) else if beq (bs "end") (map lower w) then Ok (mknum true z name true) else Err) /\
  (forall x, num_set n (name ++ 44%N :: print_Z z ++ 44%N :: w ++ 44%N :: x) = Err).
Proof.
  intros n name z w H1 H2 Hz.
  assert (HZ : ~ In 44%N (print_Z z)) by (apply print_Z_no; [discriminate|cbv; intuition discriminate]).
  assert (HI : to_isize_whole (print_Z z) = Ok z).
  { unfold to_isize_whole. pose proof (to_isize_print z [] Hz I) as R. rewrite app_nil_r in R. rewrite R. reflexivity. }
  unfold num_set, word_is. repeat split.
  - rewrite split_on_none by assumption. reflexivity.
  - rewrite split_on_sep, split_on_none by assumption. cbn [nth nth_error]. rewrite HI. reflexivity.
  - rewrite !split_on_sep, split_on_none by assumption. cbn [nth nth_error]. rewrite HI. cbn [rbind].
    destruct (beq (bs "begin") (map lower w)); [reflexivity|]. destruct (beq (bs "end") (map lower w)); reflexivity.
  - intros x. rewrite !split_on_sep by assumption. cbn [nth nth_error]. rewrite HI. cbn [rbind].
    destruct (split_on 44 x) eqn:E; [elim (split_on_nonempty 44 x E)|].
    destruct (beq (bs "begin") (map lower w)); [reflexivity|]. destruct (beq (bs "end") (map lower w)); reflexivity.
Qed.
Example c67_spec_ex : num_set num_new (bs "nr,-3,END") = Ok (mknum true (-3) (bs "nr") true) /\ num_set num_new (bs "nr,5,middle") = Err.
Proof. vm_compute. auto. Qed.

(** A file with a header and no data lines ends the run: the files after it are not written. *)
Theorem c67_header_only_refuted : exists s1 s2,
  content s1 = tsv [[" CDX"; "p"]]%string /\ content s2 = tsv [[" CDX"; "p"]; ["a"]]%string /\
  number_of any_text any_text no_char no_char unit no_make no_trans none_b none_b ex_mm ex_ot MMatch ex_last [s1; s2] = (tsv [[" CDX"; "p"; "number"]]%string, Ok tt) /\
  number_of any_text any_text no_char no_char unit no_make no_trans none_b none_b ex_mm ex_ot MMatch ex_last [s2] = (tsv [[" CDX"; "p"; "number"]; ["a"; "1"]]%string, Ok tt).
Proof. exists (text (tsv [[" CDX"; "p"]]%string)), (text (tsv [[" CDX"; "p"]; ["a"]]%string)). repeat split; vm_compute; reflexivity. Qed.
(** Files with a different number of columns and no header pass as data under another file's header, though without numbering the same
    call is refused. *)
Theorem c67_mixed_refuted : exists s1 s2,
  content s1 = tsv [[" CDX"; "p"]; ["a"]]%string /\ content s2 = tsv [["x"; "y"; "z"]]%string /\
  number_of any_text any_text no_char no_char unit no_make no_trans none_b none_b ex_mm ex_ot MMatch ex_last [s1; s2] =
    (tsv [[" CDX"; "p"; "number"]; ["a"; "1"]; ["x"; "y"; "z"; "2"]]%string, Ok tt) /\
  snd (cat any_text any_text MMatch PadAll true ck_new [s1; s2]) = Err.
Proof. exists (text (tsv [[" CDX"; "p"]; ["a"]]%string)), (text (tsv [["x"; "y"; "z"]]%string)). repeat split; vm_compute; reflexivity. Qed.
(** A file without header and with commas between its columns cannot be numbered at all. *)
Theorem c67_delim_refuted : exists s, content s = bs "a,b" ++ [NL] /\
  number_of any_text any_text no_char no_char unit no_make no_trans none_b none_b (mkmode HMaybe QPlain 44 NL) (mktm QPlain 44 NL 32) MMatch ex_last [s] = ([], Err).
Proof. exists (text (bs "a,b" ++ [NL])). split; vm_compute; reflexivity. Qed.
(** In the decoding modes the text of the first line is written for other lines. *)
Theorem c67_quote_refuted : exists s, content s = tsv [["a"]; ["b"]; ["c"]]%string /\
  number_of any_text any_text no_char no_char unit no_make no_trans none_b none_b (mkmode HMaybe QBackslash TAB NL) ex_ot MMatch ex_last [s] <>
    (tsv [["a"; "1"]; ["b"; "2"]; ["c"; "3"]]%string, Ok tt).
Proof. exists (text (tsv [["a"]; ["b"]; ["c"]]%string)). split; vm_compute; [reflexivity|discriminate]. Qed.
