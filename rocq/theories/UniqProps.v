(** C23: uniq. *)
From Coq Require Import String List NArith ZArith Bool Arith Lia.
Open Scope list_scope.
Import ListNotations.
From Verif Require Import Base TextModel TextProofs StrSpec FloatModel ReadModel ReadSpec ReadProofs CompModel CompSpec OrdProofs LineSpec LineProofs UniqModel UniqSpec UniqProofs CompProps.
Close Scope Z_scope.

(** The lines of a file read without decoding. *)
Definition whole_line (t : textline) : Prop := plain_line t /\ exists body, tl_line t = body ++ [NL].
Definition same_keys (exp10 : Z -> f64) (keys : list linecomp) (a b : textline) : bool := ll_equal_cols_n exp10 keys a b 0 0.
Definition pick_order (exp10 : Z -> f64) (k : linecomp) (a b : textline) : comparison := lc_comp_cols_n exp10 k a b 0 0.
Lemma pick_preorder : forall e k, orderly_key k -> total_preorder (pick_order e k).
Proof.
  intros e k O. pose proof (cols_preorder e [k]) as C. unfold ll_comp_cols_n in C. cbn [first_diff] in C.
  destruct C as (R & S & T); [constructor; [apply orderly_cols; auto|constructor]|].
  assert (E : forall a b, match lc_comp_cols_n e k a b 0 0 with Eq => Eq | c => c end = pick_order e k a b).
  { intros a b. unfold pick_order. destruct (lc_comp_cols_n e k a b 0 0); auto. }
  split; [|split]; intros; unfold pick_order in *.
  - specialize (R x). destruct (lc_comp_cols_n e k x x 0 0); auto.
  - specialize (S x y). destruct (lc_comp_cols_n e k x y 0 0), (lc_comp_cols_n e k y x 0 0); auto.
  - specialize (T x y z). destruct (lc_comp_cols_n e k x y 0 0), (lc_comp_cols_n e k y z 0 0), (lc_comp_cols_n e k x z 0 0); auto; apply T; auto.
Qed.

(** A file: four animals, the first column the key. *)
Definition rec_line (a b : string) : textline := process QPlain TAB (bs a ++ [TAB] ++ bs b ++ [NL]).
Definition ex_file : list textline :=
  [rec_line "ant" "5"; rec_line "bee" "2"; rec_line "bee" "1"; rec_line "bee" "1"; rec_line "ant" "7"; rec_line "ant" "7"].
Definition ex_body (t : textline) : bytes := tl_line t.
Lemma rec_whole : forall a b, whole_line (rec_line a b).
Proof. intros a b. split; [reflexivity|]. exists (bs a ++ [TAB] ++ bs b). unfold rec_line. cbn. rewrite <- !app_assoc. reflexivity. Qed.
Lemma ex_file_whole : Forall whole_line ex_file.
Proof. repeat constructor; apply rec_whole. Qed.

(** C23. The file is cut into its maximal runs of adjacent lines with equal keys; for each run, in order, one line is
    written: its first, last, smallest or largest line, with the length of the run before or after it if asked for. *)
Theorem c23_uniq_partial : forall exp10 keys k w pos delim ls, orderly_key k -> Forall whole_line ls -> (delim < 128)%N ->
  exists rs, runs_of (same_keys exp10 keys) ls rs /\
  Forall2 (fun r out => exists x body, chosen (pick_order exp10 k) w r x /\ tl_line x = body ++ [NL] /\
             out = run_text pos (List.length r) body delim ++ [NL])
    rs (uniq_lines (same_keys exp10 keys) (pick_order exp10 k) w pos delim ls).
Proof.
  intros e keys k w pos delim ls O F D. exists (runs (same_keys e keys) ls). split; [apply runs_ok|].
  pose proof (runs_ok (same_keys e keys) ls) as (CC & _).
  assert (PF : Forall plain_line ls) by (eapply Forall_impl; [|apply F]; intros t [? ?]; auto).
  pose proof (uniq_lines_ok (same_keys e keys) (pick_order e k) (pick_preorder e k O) w pos delim ls PF) as U.
  assert (IN : Forall (fun r => forall x, In x r -> whole_line x) (runs (same_keys e keys) ls)).
  { apply Forall_forall. intros r Hr x Hx. rewrite Forall_forall in F. apply F. rewrite <- CC. apply in_concat. eauto. }
  revert IN U. generalize (runs (same_keys e keys) ls) as rs, (uniq_lines (same_keys e keys) (pick_order e k) w pos delim ls) as os.
  induction 2 as [|r out rs os (x & C & ->) U IH]; constructor; [|inversion IN; auto].
  inversion IN; subst. assert (W : whole_line x) by (apply H1; eapply chosen_in; eauto).
  destruct W as [W1 [body W2]]. exists x, body. split; auto. split; auto.
  unfold tl_text. rewrite W1, W2. unfold count_write, run_text, as_char, chomp. rewrite (proj2 (N.ltb_lt _ _) D).
  destruct pos.
  - auto.
  - rewrite <- !app_assoc. auto.
  - rewrite rev_app_distr. cbn [rev app]. rewrite N.eqb_refl, rev_involutive, <- !app_assoc. auto.
Qed.

Example c23_uniq_partial_ex : orderly_key (col_key CPlain 1 TAB) /\ Forall whole_line ex_file /\
  uniq_lines (same_keys ex10 [col_key CPlain 0 TAB]) (pick_order ex10 (col_key CPlain 1 TAB)) Min CEnd TAB ex_file =
  [bs "ant" ++ [TAB] ++ bs "5" ++ [TAB] ++ bs "1" ++ [NL]; bs "bee" ++ [TAB] ++ bs "1" ++ [TAB] ++ bs "3" ++ [NL];
   bs "ant" ++ [TAB] ++ bs "7" ++ [TAB] ++ bs "2" ++ [NL]].
Proof. split; [left; reflexivity|]. split; [apply ex_file_whole|vm_compute; reflexivity]. Qed.

(** C23. A list has only one cutting into maximal runs, and the lengths of the runs add up to the number of lines. *)
Theorem c23_runs_unique : forall (eq : textline -> textline -> bool) ls rs ss, runs_of eq ls rs -> runs_of eq ls ss ->
  rs = ss /\ list_sum (map (@List.length _) rs) = List.length ls.
Proof.
  intros eq ls rs ss H G. split; [eapply runs_unique; eauto|]. destruct H as (<- & _). clear.
  induction rs as [|r rs IH]; [reflexivity|]. cbn [map list_sum concat fold_right] in *. rewrite app_length. unfold list_sum in *. cbn. rewrite IH. auto.
Qed.

Example c23_runs_unique_ex : runs_of (same_keys ex10 [col_key CPlain 0 TAB]) ex_file
  [[rec_line "ant" "5"]; [rec_line "bee" "2"; rec_line "bee" "1"; rec_line "bee" "1"]; [rec_line "ant" "7"; rec_line "ant" "7"]].
Proof.
  split; [reflexivity|]. split.
  - repeat (constructor; [split; [discriminate|vm_compute; auto]|]). constructor.
  - split; [|split; [|exact I]].
    + exists [], (rec_line "ant" "5"), (rec_line "bee" "2"), [rec_line "bee" "1"; rec_line "bee" "1"]. split; [|split]; reflexivity.
    + exists [rec_line "bee" "2"; rec_line "bee" "1"], (rec_line "bee" "1"), (rec_line "ant" "7"), [rec_line "ant" "7"]. split; [|split]; reflexivity.
Qed.

(** C23. With aggregators: one output line per run, the aggregators were given exactly the lines of the run, and the other
    columns come from the chosen line of the run. *)
Theorem c23_aggregates_partial : forall exp10 keys k w ls, orderly_key k -> Forall whole_line ls ->
  exists rs, runs_of (same_keys exp10 keys) ls rs /\
  Forall2 (fun r out => snd out = r /\ chosen (pick_order exp10 k) w r (fst out))
    rs (uniq_aggs (same_keys exp10 keys) (pick_order exp10 k) w ls).
Proof.
  intros e keys k w ls O F. exists (runs (same_keys e keys) ls). split; [apply runs_ok|].
  assert (PF : Forall plain_line ls) by (eapply Forall_impl; [|apply F]; intros t [? ?]; auto).
  destruct ls as [|x rest]; [constructor|]. inversion PF; subst. cbn [runs uniq_aggs].
  apply uniq_agg_ok; auto; [apply pick_preorder; auto|apply chosen_one].
Qed.

Example c23_aggregates_partial_ex : orderly_key (col_key CPlain 1 TAB) /\ Forall whole_line ex_file /\
  map (fun p => (tl_line (fst p), List.length (snd p)))
    (uniq_aggs (same_keys ex10 [col_key CPlain 0 TAB]) (pick_order ex10 (col_key CPlain 1 TAB)) Max ex_file) =
  [(bs "ant" ++ [TAB] ++ bs "5" ++ [NL], 1); (bs "bee" ++ [TAB] ++ bs "2" ++ [NL], 3); (bs "ant" ++ [TAB] ++ bs "7" ++ [NL], 2)].
Proof. split; [left; reflexivity|]. split; [apply ex_file_whole|vm_compute; reflexivity]. Qed.

(** C23. With no key at all, every line counts as equal to the one before: only one line is left of different lines. *)
Theorem c23_no_key_refuted : exists ls, Forall whole_line ls /\
  (forall a b p q, ls = p ++ a :: b :: q -> tl_line a <> tl_line b) /\
  uniq_lines (same_keys ex10 []) (pick_order ex10 (col_key CPlain 1 TAB)) First CBegin TAB ls =
  [bs "2" ++ [TAB] ++ bs "ant" ++ [TAB] ++ bs "5" ++ [NL]].
Proof.
  exists [rec_line "ant" "5"; rec_line "bee" "2"]. split; [repeat constructor; apply rec_whole|]. split; [|vm_compute; reflexivity].
  intros a b p q E. destruct p as [|x [|y [|z p]]]; try discriminate. injection E as <- <- _. discriminate.
Qed.

(** C23. In the decoding modes, the text shown for a later run is still the text of the first line of the file. *)
Theorem c23_decoded_refuted : exists ls, 
  ls = map (process QBackslash TAB) [bs "ant" ++ [NL]; bs "bee" ++ [NL]; bs "cat" ++ [NL]] /\
  uniq_lines (same_keys ex10 [col_key CPlain 0 TAB]) (pick_order ex10 (col_key CPlain 1 TAB)) First CBegin TAB ls =
  [bs "1" ++ [TAB] ++ bs "ant" ++ [NL]; bs "1" ++ [TAB] ++ bs "ant" ++ [NL]; bs "1" ++ [TAB] ++ bs "ant" ++ [NL]].
Proof. eexists. split; [reflexivity|]. vm_compute. reflexivity. Qed.

(** C23. A delimiter above 127 is written as the two bytes of a character, not as itself. *)
Theorem c23_delim_refuted : exists delim ls, Forall whole_line ls /\
  uniq_lines (same_keys ex10 [col_key CPlain 0 TAB]) (pick_order ex10 (col_key CPlain 1 TAB)) First CBegin delim ls <>
  [bs "1" ++ [delim] ++ tl_line (hd tl_new ls)].
Proof. exists 200%N, [rec_line "ant" "5"]. split; [repeat constructor; apply rec_whole|]. vm_compute. discriminate. Qed.

(** C23. The reader only splits lines when a key needs columns; the line chosen by a column, and the aggregators, then
    look at the column bounds of an earlier line. *)
Theorem c23_unsplit_refuted : exists s r0 r t,
  let set_unsplit r := mkrd (r_src r) (r_lines r) (r_curr r) false (r_done r) (r_bytes r) (r_lineno r) in
  read_all 99 QPlain NL s = Some [bs "ant" ++ [TAB] ++ bs "5" ++ [NL]; bs "bee" ++ [TAB] ++ bs "2" ++ [NL]; bs "otter" ++ [TAB] ++ bs "7" ++ [NL]] /\
  open_with 1 QPlain TAB NL 0 s = Some r0 /\ getlines 2 QPlain TAB NL (set_unsplit r0) = Some r /\
  prev_line r 0 = Ok t /\ tl_line t = bs "otter" ++ [TAB] ++ bs "7" ++ [NL] /\ tl_get t 0 = bs "ott" /\ tl_get t 1 = bs "r".
Proof. exists (mksrc [] [bs "ant" ++ [TAB] ++ bs "5" ++ [NL] ++ bs "bee" ++ [TAB] ++ bs "2" ++ [NL] ++ bs "otter" ++ [TAB] ++ bs "7" ++ [NL]]). eexists _, _, _. repeat split. Qed.
