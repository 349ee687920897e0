(** C39: transposing. *)
From Coq Require Import String List NArith ZArith Bool Arith Lia.
Open Scope list_scope.
Import ListNotations.
From Verif Require Import Base TextSpec TextModel ReadModel ReadProofs HdrModel ToolModel ToolOpen TurnSpec TurnProofs.
Close Scope Z_scope.
Open Scope nat_scope.

(** Opening a source and transposing it. *)
Definition transpose_of (u : bytes -> bool) (md : tmode) (head : bool) (max : N) (s : src) : bytes * res unit :=
  need (open_file u md s) (transpose md head max).
Definition any_text (l : bytes) : bool := true.
Definition text (l : bytes) : src := mksrc [] [l].

(** Field j of line i stands at line j, field i. *)
Theorem c39_cell : forall w rows i j, i < List.length rows -> j < w ->
  nth i (nth j (swapped w rows) []) [] = nth j (nth i rows []) [].
Proof.
  intros w rows i j Hi Hj. unfold swapped. rewrite nth_map_seq by auto.
  rewrite (nth_indep _ [] (nth j [] [])) by (rewrite map_length; auto). apply (map_nth (fun row => nth j row [])).
Qed.
Example c39_cell_ex : nth 1 (nth 2 (swapped 3 [[bs "a"; bs "b"; bs "c"]; [bs "d"; bs "e"; bs "f"]]) []) [] = bs "f".
Proof. reflexivity. Qed.

(** Full claim: for every table. Proved for every file with at least one data line, all quoting modes, delimiters and chunkings: the lines
    written are the columns of the table, the header being its first row when there is one; as many as the file has column names. What
    is missing: files without data lines, and rows longer than the header, both refuted below. *)
Theorem c39_transpose_partial : forall u md head max s hd ls, md_ok md -> wf_src s -> file_lines u md s hd ls -> ls <> [] ->
  transpose_of u md head max s =
    ((if head then bs " CDX" ++ [TAB] else []) ++
     table (swapped (List.length (shown_names md hd ls))
              ((match hd with [] => [] | _ => [shown_names md hd ls] end) ++
               map (fun l => mode_columns (tm_quote md) l (tm_delim md)) (firstn (N.to_nat max) ls))), Ok tt).
Proof.
  intros u md head max s hd ls Hm Hw HL Hne. destruct (open_file_lines u md s hd ls Hw HL) as (f & HO & _).
  unfold transpose_of. rewrite HO. cbn [need]. exact (transpose_lines u md head max s hd ls f Hm Hw HL Hne HO).
Qed.
Example c39_transpose_partial_ex :
  transpose_of any_text (mkmode HMaybe QQuote 44 NL) false 100 (text (bs " CDX,x,y" ++ [NL] ++ bs "1,""ab""" ++ [NL] ++ bs "3" ++ [NL]))
  = (bs "x" ++ [TAB] ++ bs "1" ++ [TAB] ++ bs "3" ++ [NL] ++ bs "y" ++ [TAB] ++ bs "ab" ++ [TAB] ++ [NL], Ok tt).
Proof. vm_compute. reflexivity. Qed.

(** Transposing a rectangular table twice restores it, whatever the chunks. *)
Theorem c39_twice : forall u s s' rows w max, wf_src s -> content s = table rows -> rows <> [] -> 0 < w -> rectangular w rows -> plain_fields rows ->
  (N.of_nat (List.length rows) <= max)%N -> (N.of_nat w <= max)%N ->
  exists t, transpose_of u (mkmode HNo QPlain TAB NL) false max s = (t, Ok tt) /\ t = table (swapped w rows) /\
    (wf_src s' -> content s' = t -> transpose_of u (mkmode HNo QPlain TAB NL) false max s' = (table rows, Ok tt)).
Proof.
  intros u s s' rows w max Hw Hc Hne H0 HR HP Hmax Hmax'. exists (table (swapped w rows)). unfold transpose_of.
  destruct (open_file_lines u (tabbed HNo) s [] _ Hw (file_nohead u s rows Hw Hc Hne HP)) as (f & HO & _).
  change (mkmode HNo QPlain TAB NL) with (tabbed HNo). rewrite HO. cbn [need].
  split. { exact (transpose_table u s rows w f Hw Hc Hne H0 HR HP HO max Hmax). }
  split; [reflexivity|]. intros Hw' Hc'.
  assert (Hne' : swapped w rows <> []). { intros E. apply (f_equal (@List.length _)) in E. unfold swapped in E. rewrite map_length, seq_length in E. cbn in E. lia. }
  assert (H0' : 0 < List.length rows) by (destruct rows; [congruence|cbn; lia]).
  pose proof (swapped_plain w rows HP) as HP'. pose proof (swapped_rect w rows) as HR'.
  destruct (open_file_lines u (tabbed HNo) s' [] _ Hw' (file_nohead u s' _ Hw' Hc' Hne' HP')) as (f' & HO' & _).
  rewrite HO'. cbn [need]. rewrite (transpose_table u s' _ _ f' Hw' Hc' Hne' H0' HR' HP' HO' max).
  - rewrite swapped_twice; auto.
  - unfold swapped. rewrite map_length, seq_length. exact Hmax'.
Qed.
Example c39_twice_ex :
  let t := bs "a" ++ [TAB] ++ bs "b" ++ [TAB; NL] ++ bs "1" ++ [TAB; TAB] ++ bs "3" ++ [NL] in
  transpose_of any_text (mkmode HNo QPlain TAB NL) false 10 (mksrc [] [bs "a"; skipn 1 t])
    = (bs "a" ++ [TAB] ++ bs "1" ++ [NL] ++ bs "b" ++ [TAB; NL] ++ [TAB] ++ bs "3" ++ [NL], Ok tt) /\
  transpose_of any_text (mkmode HNo QPlain TAB NL) false 10 (text (bs "a" ++ [TAB] ++ bs "1" ++ [NL] ++ bs "b" ++ [TAB; NL] ++ [TAB] ++ bs "3" ++ [NL]))
    = (t, Ok tt).
Proof. vm_compute. split; reflexivity. Qed.

(** The same with a header line, asking for a header on the output, for tables of at least two columns and two rows. *)
Theorem c39_twice_head : forall u s s' row rows w max, wf_src s -> content s = bs " CDX" ++ [TAB] ++ table (row :: rows) -> rows <> [] -> 1 < w ->
  rectangular w (row :: rows) -> plain_fields (row :: rows) -> (forall l, u l = true) ->
  (N.of_nat (List.length rows) <= max)%N -> (N.of_nat w <= max)%N ->
  exists t, transpose_of u (mkmode HYes QPlain TAB NL) true max s = (t, Ok tt) /\ t = bs " CDX" ++ [TAB] ++ table (swapped w (row :: rows)) /\
    (wf_src s' -> content s' = t -> transpose_of u (mkmode HYes QPlain TAB NL) true max s' = (content s, Ok tt)).
Proof.
  intros u s s' row rows w max Hw Hc Hne H1 HR HP Hu Hmax Hmax'. exists (bs " CDX" ++ [TAB] ++ table (swapped w (row :: rows))). unfold transpose_of.
  assert (H0 : 0 < w) by lia.
  destruct (open_file_lines u (tabbed HYes) s _ _ Hw (file_head u s row rows Hw Hc HP Hu)) as (f & HO & _).
  change (mkmode HYes QPlain TAB NL) with (tabbed HYes). rewrite HO. cbn [need].
  split. { exact (transpose_head u s row rows w f Hw Hc Hne H0 HR HP Hu HO max Hmax). }
  split; [reflexivity|]. intros Hw' Hc'.
  pose proof (swapped_plain w _ HP) as HP'. pose proof (swapped_rect w (row :: rows)) as HR'.
  pose proof (swapped_twice w _ HR) as HT.
  assert (EL : List.length (swapped w (row :: rows)) = w) by (unfold swapped; rewrite map_length, seq_length; reflexivity).
  destruct (swapped w (row :: rows)) as [|row' rows'] eqn:ES; [cbn in EL; lia|].
  assert (Hne' : rows' <> []) by (intros ->; cbn in EL; lia).
  destruct (open_file_lines u (tabbed HYes) s' _ _ Hw' (file_head u s' row' rows' Hw' Hc' HP' Hu)) as (f' & HO' & _).
  rewrite HO'. cbn [need]. rewrite (transpose_head u s' row' rows' (List.length (row :: rows)) f' Hw' Hc' Hne' (Nat.lt_0_succ _) HR' HP' Hu HO' max).
  - rewrite HT, Hc. reflexivity.
  - cbn [List.length] in EL. lia.
Qed.
Example c39_twice_head_ex :
  let t := bs " CDX" ++ [TAB] ++ bs "x" ++ [TAB] ++ bs "y" ++ [NL] ++ bs "1" ++ [TAB] ++ bs "2" ++ [NL] in
  let t' := bs " CDX" ++ [TAB] ++ bs "x" ++ [TAB] ++ bs "1" ++ [NL] ++ bs "y" ++ [TAB] ++ bs "2" ++ [NL] in
  transpose_of any_text (mkmode HYes QPlain TAB NL) true 10 (text t) = (t', Ok tt) /\
  transpose_of any_text (mkmode HYes QPlain TAB NL) true 10 (text t') = (t, Ok tt).
Proof. vm_compute. split; reflexivity. Qed.

(** Refutations. A file with only a header line gets one empty field more on every line, *)
Theorem c39_header_only_refuted : exists s hd, file_lines any_text (mkmode HYes QPlain TAB NL) s hd [] /\ head_names TAB hd = [bs "x"; bs "y"] /\
  transpose_of any_text (mkmode HYes QPlain TAB NL) false 10 s = (table [[bs "x"; []]; [bs "y"; []]], Ok tt).
Proof.
  exists (text (bs " CDX" ++ [TAB] ++ bs "x" ++ [TAB] ++ bs "y" ++ [NL])), (bs " CDX" ++ [TAB] ++ bs "x" ++ [TAB] ++ bs "y" ++ [NL]).
  split; [|split; vm_compute; reflexivity]. eexists. split; vm_compute; reflexivity.
Qed.
(** with another delimiter and no header only the first column is written, *)
Theorem c39_delim_refuted : exists s l, file_lines any_text (mkmode HNo QPlain 44 NL) s [] [l] /\ mode_columns QPlain l 44 = [bs "a"; bs "b"] /\
  transpose_of any_text (mkmode HNo QPlain 44 NL) false 10 s = (table [[bs "a"]], Ok tt).
Proof.
  exists (text (bs "a,b" ++ [NL])), (bs "a,b" ++ [NL]). split; [|split; vm_compute; reflexivity]. eexists. split; vm_compute; reflexivity.
Qed.
(** fields beyond the width of the first line are dropped, *)
Theorem c39_wide_refuted : exists s, content s = table [[bs "a"]; [bs "b"; bs "c"]] /\
  transpose_of any_text (mkmode HNo QPlain TAB NL) false 10 s = (table [[bs "a"; bs "b"]], Ok tt).
Proof. exists (text (table [[bs "a"]; [bs "b"; bs "c"]])). split; vm_compute; reflexivity. Qed.
(** and a quoted field is written without its quotes, so that a line break inside it makes one line more. *)
Theorem c39_quote_refuted : exists s l, file_lines any_text (mkmode HNo QQuote TAB NL) s [] [l] /\
  mode_columns QQuote l TAB = [bs "a" ++ [NL] ++ bs "b"; bs "c"] /\
  transpose_of any_text (mkmode HNo QQuote TAB NL) false 10 s = (table [[bs "a"]; [bs "b"]; [bs "c"]], Ok tt).
Proof.
  exists (text ([DQ] ++ bs "a" ++ [NL] ++ bs "b" ++ [DQ; TAB] ++ bs "c" ++ [NL])), ([DQ] ++ bs "a" ++ [NL] ++ bs "b" ++ [DQ; TAB] ++ bs "c" ++ [NL]).
  split; [|split; vm_compute; reflexivity]. eexists. split; vm_compute; reflexivity.
Qed.
