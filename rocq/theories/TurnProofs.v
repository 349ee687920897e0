(** Proofs for transpose. *)
From Coq Require Import String List NArith Bool Arith Lia.
Open Scope list_scope.
Import ListNotations.
From Verif Require Import Base TextSpec TextModel TextProofs ReadSpec ReadModel ReadProofs HdrModel HdrProofs HdrProps ToolModel ToolOpen TurnSpec.
Open Scope nat_scope.

Lemma grab_ok md : md_ok md -> forall rest fuel r l hist max, at_line md r (proc md l :: hist) rest -> length rest < fuel ->
  grab fuel md max r = Ok (map (proc md) (firstn (N.to_nat max) (l :: rest))).
Proof.
  intros Hm. induction rest as [|l' rest IH]; intros fuel r l hist max HA Hf; (destruct fuel as [|k]; [lia|]); cbn [grab];
    (destruct (N.eqb_spec max 0) as [->|E]; [reflexivity|]); rewrite (ring_curr _ _ _ (proj1 HA)); cbn [rbind].
  - destruct (next_nil _ _ _ HA) as (r' & H1 & H2 & _). rewrite H1. cbn [rbind]. rewrite H2.
    destruct (N.to_nat max) as [|n] eqn:En; [lia|]. cbn [firstn map]. rewrite firstn_nil. reflexivity.
  - destruct (next_cons _ _ _ _ _ HA) as (r' & H1 & H2 & _). rewrite H1. cbn [rbind].
    replace (r_done r') with false by (symmetry; apply H2).
    cbn [length] in Hf. rewrite (IH k r' l' (proc md l :: hist) (max - 1)%N H2) by lia. cbn [rbind].
    destruct (N.to_nat max) as [|n] eqn:En; [lia|]. replace (N.to_nat (max - 1)) with n by lia. reflexivity.
Qed.

Lemma get_cols t i : tl_get t i = nth i (tl_cols t) [].
Proof.
  unfold tl_get, tl_cols. rewrite <- nth_default_eq. unfold nth_default. rewrite nth_error_map.
  destruct (nth_error (tl_parts t) i); reflexivity.
Qed.

Lemma join_tabs {A} (g : A -> bytes) x l : join TAB (x :: map g l) = x ++ flat_map (fun t => TAB :: g t) l.
Proof.
  revert x. induction l as [|y l IH]; intros x. { cbn. rewrite app_nil_r. reflexivity. }
  change (join TAB (x :: map g (y :: l))) with (x ++ TAB :: join TAB (g y :: map g l)). rewrite IH. reflexivity.
Qed.

Lemma turned_join hd names data i :
  turned hd names data i = join TAB (map (fun row => nth i row []) ((match hd with Some _ => [names] | None => [] end) ++ map tl_cols data)) ++ [NL].
Proof.
  unfold turned. f_equal. rewrite map_app, map_map. destruct hd; cbn [map app].
  - rewrite join_tabs. f_equal. apply flat_map_ext. intros t. rewrite get_cols. reflexivity.
  - destruct data as [|t r]; [reflexivity|]. cbn [map]. rewrite join_tabs. rewrite get_cols. f_equal.
    apply flat_map_ext. intros t'. rewrite get_cols. reflexivity.
Qed.

Lemma turn_rows {A} (g : A -> list bytes) l : flat_map (fun i => join TAB (g i) ++ [NL]) l = table (map g l).
Proof. unfold table. rewrite map_map, flat_map_concat_map. reflexivity. Qed.

Definition row_of (md : tmode) (l : bytes) : list bytes := mode_columns (tm_quote md) l (tm_delim md).

Lemma transpose_lines u md head max s hd ls f : md_ok md -> wf_src s -> file_lines u md s hd ls -> ls <> [] -> open_file u md s = Ok f ->
  transpose md head max f =
    ((if head then CDX ++ [TAB] else []) ++
     table (swapped (length (shown_names md hd ls))
              ((match hd with [] => [] | _ => [shown_names md hd ls] end) ++ map (row_of md) (firstn (N.to_nat max) ls))), Ok tt).
Proof.
  intros Hm Hw HL Hne HO. destruct (open_file_lines _ _ _ _ _ Hw HL) as (f' & O1 & O2 & O3 & O4 & _ & O5).
  rewrite O1 in HO. inversion HO; subst f'. destruct ls as [|l rest]; [congruence|].
  unfold transpose. rewrite O2. rewrite (grab_ok md Hm rest _ _ l [] max O5).
  2:{ apply at_line_turns in O5; auto. lia. }
  cbn [need]. unfold say; cbn [fst snd]. rewrite O3, O4. do 2 f_equal.
  erewrite flat_map_ext; [|intros i; apply turned_join]. unfold swapped.
  rewrite <- (turn_rows (fun j => map (fun row => nth j row []) ((match hd with [] => [] | _ => [shown_names md hd (l :: rest)] end) ++
     map (row_of md) (firstn (N.to_nat max) (l :: rest))))).
  assert (EC : map tl_cols (map (proc md) (firstn (N.to_nat max) (l :: rest))) = map (row_of md) (firstn (N.to_nat max) (l :: rest))).
  { rewrite map_map. apply map_ext. intros x. unfold proc, row_of. apply process_cols. }
  rewrite EC. apply flat_map_ext. intros i. destruct hd; reflexivity.
Qed.

(** ** Reading a table back *)
Definition tabbed (h : head_mode) : tmode := mkmode h QPlain TAB NL.

Lemma table_lines rows : plain_fields rows -> Forall (is_line NL) (map (fun row => join TAB row ++ [NL]) rows).
Proof.
  intros H. apply Forall_map. eapply Forall_impl; [|exact H]. intros row R. exists (join TAB row). split; auto.
  intros I. clear H. induction row as [|x row IH]; [exact I|]. inversion R; subst.
  destruct row as [|y row]. { cbn in I. tauto. }
  change (join TAB (x :: y :: row)) with (x ++ TAB :: join TAB (y :: row)) in I. apply in_app_iff in I as [I|[I|I]].
  - tauto.
  - discriminate.
  - auto.
Qed.

Lemma flat_all_lines ls : forall fuel, length (concat ls) < fuel -> Forall (is_line NL) ls -> flat_all fuel QPlain NL (concat ls) = Some ls.
Proof.
  intros fuel Hl HF. destruct (flat_all_total QPlain NL fuel (fun E => ltac:(discriminate E)) (concat ls) Hl) as (ls' & E). rewrite E. f_equal.
  apply flat_all_spec in E as [T L]; [|discriminate]. cbn iota in L. apply (lines_unique NL); auto.
  destruct T as [[T1 T2]|[(b & T1 & T2)|(T1 & T2 & _)]]; [congruence|exact T2|].
  exfalso. apply T2. destruct ls as [|l0 ls0]; [elim T1; reflexivity|].
  destruct (@exists_last _ (l0 :: ls0)) as (pre & l & El); [discriminate|]. rewrite El in *.
  apply Forall_app in HF as [_ HF]. inversion HF; subst. destruct H1 as (b & -> & _).
  rewrite concat_app. cbn [concat]. rewrite app_nil_r. exists (concat pre ++ b). rewrite app_assoc. reflexivity.
Qed.

Lemma table_row row : row <> [] -> Forall (fun f => ~ In TAB f /\ ~ In NL f) row -> mode_columns QPlain (join TAB row ++ [NL]) TAB = row.
Proof.
  intros Hne H. cbn [mode_columns]. rewrite split_plain_nl by discriminate. apply split_join; auto.
  eapply Forall_impl; [|exact H]. cbn. tauto.
Qed.

(** ** Twice *)
Lemma swapped_plain w rows : plain_fields rows -> plain_fields (swapped w rows).
Proof.
  intros H. unfold plain_fields, swapped. apply Forall_map, Forall_forall. intros j _. apply Forall_map.
  eapply Forall_impl; [|exact H]. intros row R. destruct (nth_in_or_default j row []) as [I|E].
  - rewrite Forall_forall in R. auto.
  - rewrite E. cbn. tauto.
Qed.
Lemma swapped_rect w rows : rectangular (length rows) (swapped w rows).
Proof. unfold rectangular, swapped. apply Forall_map, Forall_forall. intros j _. apply map_length. Qed.
Lemma nth_map_seq {A} (g : nat -> A) n i d : i < n -> nth i (map g (seq 0 n)) d = g i.
Proof.
  intros H. rewrite (nth_indep _ d (g 0)) by (rewrite map_length, seq_length; auto). rewrite map_nth, seq_nth by auto. reflexivity.
Qed.
Lemma map_nth_seq {A} (l : list A) d : map (fun i => nth i l d) (seq 0 (length l)) = l.
Proof.
  induction l as [|x l IH]; [reflexivity|]. cbn [length seq map nth]. f_equal. rewrite <- seq_shift, map_map. exact IH.
Qed.
Lemma swapped_twice w rows : rectangular w rows -> swapped (length rows) (swapped w rows) = rows.
Proof.
  intros H. unfold swapped at 1. transitivity (map (fun i => nth i rows []) (seq 0 (length rows))); [|apply map_nth_seq]. apply map_ext_in. intros i Hi. apply in_seq in Hi.
  unfold swapped. rewrite map_map.
  assert (E : length (nth i rows []) = w). { unfold rectangular in H. rewrite Forall_forall in H. apply H. apply nth_In. lia. }
  transitivity (map (fun j => nth j (nth i rows []) []) (seq 0 (length (nth i rows [])))); [|apply map_nth_seq]. rewrite E. apply map_ext_in. intros j Hj. apply in_seq in Hj.
  rewrite (nth_indep _ [] (nth j [] [])) by (rewrite map_length; lia). rewrite (map_nth (fun row => nth j row [])). reflexivity.
Qed.

Lemma fake_length n : 0 < n -> length (fake_names TAB n) = n.
Proof. intros H. rewrite c62_tab by auto. rewrite map_length, seq_length. reflexivity. Qed.

Lemma file_nohead u s rows : wf_src s -> content s = table rows -> rows <> [] -> plain_fields rows ->
  file_lines u (tabbed HNo) s [] (map (fun row => join TAB row ++ [NL]) rows).
Proof.
  intros Hw Hc Hne HP. unfold file_lines, read_header. destruct (fill_buf s) as [b s1] eqn:E.
  destruct (fill_buf_content _ _ _ E) as (C1 & C2 & C3). exists s1. cbn [tabbed tm_head tm_quote tm_break].
  assert (b <> []).
  { intros ->. pose proof (proj1 (fill_buf_empty _ _ _ Hw E) eq_refl) as Z. rewrite Hc in Z. destruct rows as [|r0 rows]; [congruence|].
    unfold table in Z. cbn [map concat] in Z. apply app_eq_nil in Z as [Z _]. apply app_eq_nil in Z as [_ Z]. discriminate. }
  destruct b as [|x b]; [congruence|]. split; [reflexivity|]. rewrite read_all_flat by auto. rewrite C1, Hc.
  apply flat_all_lines; [unfold table; lia|]. apply table_lines; auto.
Qed.

Lemma rows_back rows w : 0 < w -> rectangular w rows -> plain_fields rows ->
  map (fun l => mode_columns QPlain l TAB) (map (fun row => join TAB row ++ [NL]) rows) = rows.
Proof.
  intros Hw HR HP. rewrite map_map. transitivity (map (fun r : list bytes => r) rows); [|apply map_id]. apply map_ext_in. intros row I.
  unfold rectangular, plain_fields in *. rewrite Forall_forall in HR, HP. apply table_row; auto. intros ->. apply HR in I. cbn in I. lia.
Qed.

Lemma transpose_table u s rows w f : wf_src s -> content s = table rows -> rows <> [] -> 0 < w -> rectangular w rows -> plain_fields rows ->
  open_file u (tabbed HNo) s = Ok f ->
  forall max, (N.of_nat (length rows) <= max)%N -> transpose (tabbed HNo) false max f = (table (swapped w rows), Ok tt).
Proof.
  intros Hw Hc Hne H0 HR HP HO max Hmax.
  pose proof (file_nohead u s rows Hw Hc Hne HP) as HL.
  rewrite (transpose_lines u (tabbed HNo) false max s _ _ f) with (3 := HL); auto.
  2:{ intros E; discriminate E. }
  2:{ destruct rows; [congruence|discriminate]. }
  cbn [app]. do 2 f_equal. unfold row_of. cbn [tabbed tm_quote tm_delim].
  assert (EL : length (shown_names (tabbed HNo) [] (map (fun row => join TAB row ++ [NL]) rows)) = w).
  { destruct rows as [|r0 rows]; [congruence|]. cbn [map shown_names tabbed tm_delim].
    assert (E1 : length (tl_parts (proc (tabbed HNo) (join TAB r0 ++ [NL]))) = w).
    { rewrite <- (map_length (get_part (tl_line (proc (tabbed HNo) (join TAB r0 ++ [NL]))))). fold (tl_cols (proc (tabbed HNo) (join TAB r0 ++ [NL]))).
      unfold proc. rewrite process_cols. cbn [tabbed tm_quote tm_delim]. inversion HR; subst. inversion HP; subst.
      rewrite table_row; auto. intros ->. cbn in H0. lia. }
    rewrite E1. apply fake_length; auto. }
  change (mkmode HNo QPlain TAB NL) with (tabbed HNo). rewrite EL. f_equal. rewrite firstn_all2 by (rewrite map_length; lia).
  apply (rows_back rows w); auto.
Qed.

Lemma header_line row rows : CDX ++ [TAB] ++ table (row :: rows) = (CDX ++ TAB :: join TAB row ++ [NL]) ++ table rows.
Proof. unfold table. cbn [map concat]. rewrite <- !app_assoc. cbn [app]. rewrite <- !app_assoc. reflexivity. Qed.

Lemma flat_line_cons l rest : is_line NL l -> flat_line QPlain NL (l ++ rest) = Some (l, rest).
Proof.
  intros (b & -> & Hn). unfold flat_line, flat_until. rewrite <- app_assoc. rewrite cut_after_app.
  rewrite (proj2 (cut_after_none NL b) Hn). cbn [app cut_after]. rewrite N.eqb_refl.
  destruct (b ++ [NL]) eqn:E; [destruct b; discriminate|]. rewrite <- E. unfold ensure_eof. rewrite last_last, N.eqb_refl. reflexivity.
Qed.

Lemma file_head u s row rows : wf_src s -> content s = CDX ++ [TAB] ++ table (row :: rows) -> plain_fields (row :: rows) -> (forall l, u l = true) ->
  file_lines u (tabbed HYes) s (CDX ++ TAB :: join TAB row ++ [NL]) (map (fun row => join TAB row ++ [NL]) rows).
Proof.
  intros Hw Hc HP Hu. unfold file_lines, read_header. destruct (fill_buf s) as [b s1] eqn:E.
  destruct (fill_buf_content _ _ _ E) as (C1 & C2 & C3). cbn [tabbed tm_head tm_quote tm_break].
  assert (b <> []).
  { intros ->. pose proof (proj1 (fill_buf_empty _ _ _ Hw E) eq_refl) as Z. rewrite Hc in Z. discriminate. }
  destruct b as [|x b]; [congruence|]. unfold read_string.
  pose proof (table_lines _ HP) as HT. cbn [map] in HT. inversion HT as [|a c HL1 HL2]; subst a c.
  assert (HL : Forall (is_line NL) ((CDX ++ TAB :: join TAB row ++ [NL]) :: map (fun row => join TAB row ++ [NL]) rows)).
  { constructor; auto. destruct HL1 as (b1 & Eb & Nb). exists (CDX ++ TAB :: b1). rewrite Eb. split; [reflexivity|].
    intros I. apply in_app_iff in I as [I|[I|I]]; auto; try discriminate. cbn in I. repeat (destruct I as [I|I]; [discriminate|]). exact I. }
  assert (EC : content s1 = concat ((CDX ++ TAB :: join TAB row ++ [NL]) :: map (fun row => join TAB row ++ [NL]) rows)).
  { rewrite C1, Hc. rewrite header_line. reflexivity. }
  assert (FA : flat_all (S (length (content s1))) QPlain NL (concat ((CDX ++ TAB :: join TAB row ++ [NL]) :: map (fun row => join TAB row ++ [NL]) rows)) = Some ((CDX ++ TAB :: join TAB row ++ [NL]) :: map (fun row => join TAB row ++ [NL]) rows)).
  { apply flat_all_lines; auto. rewrite EC. apply Nat.lt_succ_diag_r. }
  rewrite <- EC in FA. cbn [flat_all] in FA.
  pose proof (read_line_flat QPlain NL s1 (C3 Hw)) as A.
  destruct (flat_line QPlain NL (content s1)) as [[l t]|] eqn:E1; [|discriminate].
  destruct (flat_all (length (content s1)) QPlain NL t) as [ls|] eqn:Et; [|discriminate]. inversion FA; subst l ls.
  destruct A as (s2 & A1 & A2 & A3). exists s2. rewrite A1, Hu. split; [reflexivity|].
  rewrite read_all_flat by auto. rewrite A3.
  rewrite EC in E1. cbn [concat] in E1. rewrite flat_line_cons in E1 by (inversion HL; auto). inversion E1; subst t.
  apply flat_all_lines; auto.
Qed.

Lemma names_head row : Forall (fun f => ~ In TAB f /\ ~ In NL f) row -> row <> [] -> head_names TAB (CDX ++ TAB :: join TAB row ++ [NL]) = row.
Proof.
  intros H Hne. change CDX with (bs " CDX"). rewrite head_names_cdx. apply split_join; auto. eapply Forall_impl; [|exact H]. cbn; tauto.
Qed.

Lemma transpose_head u s row rows w f : wf_src s -> content s = CDX ++ [TAB] ++ table (row :: rows) -> rows <> [] -> 0 < w ->
  rectangular w (row :: rows) -> plain_fields (row :: rows) -> (forall l, u l = true) -> open_file u (tabbed HYes) s = Ok f ->
  forall max, (N.of_nat (length rows) <= max)%N ->
  transpose (tabbed HYes) true max f = (CDX ++ [TAB] ++ table (swapped w (row :: rows)), Ok tt).
Proof.
  intros Hw Hc Hne H0 HR HP Hu HO max Hmax.
  pose proof (file_head u s row rows Hw Hc HP Hu) as HL.
  rewrite (transpose_lines u (tabbed HYes) true max s _ _ f) with (3 := HL); auto.
  2:{ intros E; discriminate E. }
  2:{ destruct rows; [congruence|discriminate]. }
  rewrite <- app_assoc. do 4 f_equal. unfold row_of. cbn [tabbed tm_quote tm_delim]. change (mkmode HYes QPlain TAB NL) with (tabbed HYes).
  inversion HR as [|a c R1 R2]; subst a c. inversion HP as [|a c P1 P2]; subst a c.
  assert (EN : forall ls, shown_names (tabbed HYes) (CDX ++ TAB :: join TAB row ++ [NL]) ls = row).
  { intros ls. transitivity (head_names TAB (CDX ++ TAB :: join TAB row ++ [NL])); [reflexivity|]. apply names_head; auto.
    intros ->. cbn in R1. lia. }
  rewrite EN, R1. rewrite firstn_all2 by (rewrite map_length; lia). rewrite (rows_back rows w); auto.
Qed.
