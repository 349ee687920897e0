(** C41: choosing lines by number. *)
From Coq Require Import String List NArith ZArith Bool Arith Lia.
Open Scope list_scope.
Import ListNotations.
From Verif Require Import Base TextSpec TextModel ReadSpec ReadModel ReadProofs HeadModel HeadProps HdrModel HdrProofs StrSpec StrModel StrProofs MatchText JoinProps ExprCols ToolModel ToolOpen TurnSpec TurnProofs TurnProps PasteSpec PasteProofs PasteProps PickSpec PickProofs.
Close Scope Z_scope.
Open Scope nat_scope.

(** Opening the sources and choosing from them. *)
Definition sample_of (u name_ok : bytes -> bool) (md : tmode) (c : choice) (ss : list src) : bytes * res unit :=
  need (open_files u md ss) (sample u name_ok md c ck_new).

(** Full claim: the header once and then, of every file, exactly the lines whose number, counted from one, is chosen, in order.
    Proved in plain quoting mode for every list of files with data lines, every chunking and every choice, but with the lines counted from
    zero. Missing, and refuted below: counting from one, files without data lines, the decoding modes. *)
Theorem c41_sample_partial : forall u name_ok md c hd ss fs, tm_quote md = QPlain ->
  one_head u name_ok hd -> Forall2 (good_file u md c) ss fs -> Forall (fun f => sh_head f = hd) fs ->
  sample_of u name_ok md c ss = (match fs with [] => [] | _ => hd end ++ concat (map (fun f => concat (picked 0 (test_of c) (sh_lines f))) fs), Ok tt).
Proof.
  intros u n md c hd ss fs Hp Ho HG HH. destruct (open_ready_all u md c ss fs HG) as (ts & O1 & O2). unfold sample_of. rewrite O1. cbn [need].
  rewrite (sample_ok u n md Hp c hd false ck_new ts fs Ho O2); [reflexivity| |reflexivity].
  clear O1 O2 ts. induction HG as [|s f ss fs (G1 & G2 & G3 & G4) HG IH]; [constructor|]. inversion HH; subst. constructor; auto.
Qed.
Definition ex_lines (l : list string) := map (fun x => tsv [[x]]%string) l.
Definition ex_f := mkshown (tsv [[" CDX"; "x"]]%string) [bs "x"] (ex_lines ["a"; "b"; "c"; "d"; "e"; "f"]%string).
Definition ex_src := text (tsv [[" CDX"; "x"]; ["a"]; ["b"]; ["c"]; ["d"]; ["e"]; ["f"]]%string).
Definition ex_src2 := mksrc [] [bs " CDX"; skipn 4 (tsv [[" CDX"; "x"]; ["g"]; ["h"]]%string)].
Definition ex_f2 := mkshown (tsv [[" CDX"; "x"]]%string) [bs "x"] (ex_lines ["g"; "h"]%string).
Example c41_sample_partial_ex :
  Forall2 (good_file any_text ex_md (ByFor (mkfor 2 1 4))) [ex_src; ex_src2] [ex_f; ex_f2] /\
  one_head any_text any_text (sh_head ex_f) /\
  sample_of any_text any_text ex_md (ByFor (mkfor 2 1 4)) [ex_src; ex_src2] = (tsv [[" CDX"; "x"]; ["b"]; ["d"]; ["h"]]%string, Ok tt) /\
  sample_of any_text any_text ex_md (ByRange [(3, 4); (0, 0)]%N) [ex_src; ex_src2] = (tsv [[" CDX"; "x"]; ["a"]; ["d"]; ["e"]; ["g"]]%string, Ok tt).
Proof.
  split; [|split; [|split; vm_compute; reflexivity]].
  - constructor; [|constructor; [|constructor]].
    + split; [repeat constructor; discriminate|]. split; [eexists; split; vm_compute; reflexivity|]. split; [discriminate|]. split; vm_compute; [reflexivity|discriminate].
    + split; [repeat constructor; discriminate|]. split; [eexists; split; vm_compute; reflexivity|]. split; [discriminate|]. split; vm_compute; [reflexivity|discriminate].
  - right. split; reflexivity.
Qed.

(** The text given with --for: by, from and to, all at least one; from and to may be left out. *)
Theorem c41_for_spec : forall by_ from to, (by_ < 2 ^ 64)%N -> (from < 2 ^ 64)%N -> (to < 2 ^ 64)%N ->
  let ok (p : bool) (f : floop) := if p then Ok f else Err in
  for_new (print_N by_ ++ 44 :: print_N from ++ 44 :: print_N to)%N = ok ((0 <? by_) && (0 <? from) && (0 <? to))%N (mkfor by_ from to) /\
  for_new (print_N by_ ++ 44 :: print_N from)%N = ok ((0 <? by_) && (0 <? from))%N (mkfor by_ from (2 ^ 64 - 1)) /\
  for_new (print_N by_) = ok (0 <? by_)%N (mkfor by_ 1 (2 ^ 64 - 1)).
Proof.
  assert (ND : forall n, ~ In 44%N (print_N n)).
  { intros n H. pose proof (print_digits n) as D. rewrite forallb_forall in D. apply D in H. discriminate. }
  assert (NE : forall n, print_N n <> []) by (intros n; destruct (print_N_head n) as (? & ? & -> & _); discriminate).
  assert (Z : forall n, (n =? 0)%N = negb (0 <? n)%N) by (intros n; destruct (N.eqb_spec n 0), (N.ltb_spec 0 n); auto; lia).
  intros by_ from to Hb Hf Ht ok. unfold ok, for_new. repeat split.
  - destruct (print_N by_ ++ 44%N :: print_N from ++ 44%N :: print_N to) eqn:E; [destruct (print_N by_); discriminate|]. rewrite <- E. clear E.
    rewrite !split_on_sep by apply ND. rewrite (split_on_none 44 (print_N to)) by apply ND.
    cbn [nth_error List.length Nat.ltb Nat.leb]. rewrite !to_usize_whole_print by assumption. cbn [rbind]. rewrite !Z.
    destruct (0 <? by_)%N, (0 <? from)%N, (0 <? to)%N; reflexivity.
  - destruct (print_N by_ ++ 44%N :: print_N from) eqn:E; [destruct (print_N by_); discriminate|]. rewrite <- E. clear E.
    rewrite !split_on_sep by apply ND. rewrite (split_on_none 44 (print_N from)) by apply ND.
    cbn [nth_error List.length Nat.ltb Nat.leb]. rewrite !to_usize_whole_print by assumption. cbn [rbind]. rewrite !Z.
    destruct (0 <? by_)%N, (0 <? from)%N; reflexivity.
  - destruct (print_N by_) eqn:E; [elim (NE by_ E)|]. rewrite <- E. clear E. rewrite (split_on_none 44 (print_N by_)) by apply ND.
    cbn [nth_error List.length Nat.ltb Nat.leb]. rewrite !to_usize_whole_print by assumption. cbn [rbind]. rewrite !Z.
    destruct (0 <? by_)%N; reflexivity.
Qed.
(** More than three parts are refused, whatever they are. *)
Theorem c41_for_long : forall spec, 3 <= count_occ N.eq_dec spec 44%N -> forall f, for_new spec <> Ok f.
Proof.
  assert (Cnt : forall l, List.length (split_on 44 l) = S (count_occ N.eq_dec l 44%N)).
  { induction l as [|c l IH]; [reflexivity|]. cbn [split_on count_occ]. destruct (N.eqb_spec c 44) as [->|NE].
    - destruct (N.eq_dec 44 44); [|congruence]. cbn [List.length]. rewrite IH. reflexivity.
    - destruct (N.eq_dec c 44); [congruence|]. destruct (split_on 44 l); [discriminate IH|]. exact IH. }
  intros spec H f. unfold for_new. destruct spec as [|c spec]; [discriminate|]. rewrite Cnt.
  destruct (3 <? _) eqn:E; [|apply Nat.ltb_ge in E; lia].
  repeat match goal with |- rbind ?a _ <> _ => destruct a; cbn [rbind] end; discriminate.
Qed.
Example c41_for_long_ex : 3 <= count_occ N.eq_dec (bs "1,2,3,4") 44%N.
Proof. vm_compute. lia. Qed.
(** Empty files change nothing. *)
Theorem c41_empty : forall u name_ok md c ss1 s ss2, content s = [] -> wf_src s ->
  sample_of u name_ok md c (ss1 ++ s :: ss2) = sample_of u name_ok md c (ss1 ++ ss2).
Proof.
  intros u n md c ss1 s ss2 E W. unfold sample_of.
  assert (S1 : exists t, open_file u md s = Ok t /\ tf_empty t = true).
  { unfold open_file, read_header. destruct (fill_buf s) as [b s1] eqn:F. rewrite (proj2 (fill_buf_empty _ _ _ W F) E). cbn [rbind]. eexists. split; reflexivity. }
  destruct S1 as (t & T1 & T2).
  assert (O : forall ss, open_files u md (ss ++ s :: ss2) = rbind (open_files u md ss) (fun ts1 => rbind (open_files u md ss2) (fun ts2 => Ok (ts1 ++ t :: ts2))) /\
                         open_files u md (ss ++ ss2) = rbind (open_files u md ss) (fun ts1 => rbind (open_files u md ss2) (fun ts2 => Ok (ts1 ++ ts2)))).
  { induction ss as [|x ss (I1 & I2)]; cbn [app open_files].
    - rewrite T1. cbn [rbind]. split; destruct (open_files u md ss2); reflexivity.
    - rewrite I1, I2. split; (destruct (open_file u md x); cbn [rbind]; [|reflexivity|reflexivity]); destruct (open_files u md ss); cbn [rbind]; try reflexivity; destruct (open_files u md ss2); reflexivity. }
  destruct (O ss1) as (O1 & O2). rewrite O1, O2. destruct (open_files u md ss1) as [ts1| |]; cbn [rbind]; try reflexivity. destruct (open_files u md ss2) as [ts2| |]; cbn [rbind]; try reflexivity. cbn [need].
  clear - T2. generalize ck_new. induction ts1 as [|x ts1 IH]; intros ck; cbn [app sample].
  - rewrite T2. reflexivity.
  - destruct (tf_empty x); [apply IH|]. destruct (check_file u n MMatch ck (tf_head x)) as (v, ck'). destruct v; cbn [need]; try reflexivity. f_equal. destruct (r_done (tf_rd x)); [reflexivity|].
    destruct (choose md c (do_split (tf_rd x) false)) as (w, e). f_equal. destruct e; cbn [need]; try reflexivity. apply IH.
Qed.
Example c41_empty_ex : content (mksrc [] []) = [] /\ wf_src (mksrc [] []) /\
  sample_of any_text any_text ex_md (ByFor (mkfor 2 1 4)) [ex_src; mksrc [] []; ex_src2] = (tsv [[" CDX"; "x"]; ["b"]; ["d"]; ["h"]]%string, Ok tt).
Proof. split; [reflexivity|]. split; [repeat constructor; discriminate|vm_compute; reflexivity]. Qed.
Example c41_for_spec_ex : for_new (bs "2,5,31") = Ok (mkfor 2 5 31) /\ for_new (bs "3") = Ok (mkfor 3 1 (2 ^ 64 - 1)) /\ for_new (bs "0,5") = Err.
Proof. vm_compute. auto. Qed.

(** The text given with --range: ranges and single numbers. *)
Definition range_text (p : N * N) : bytes := if (fst p =? snd p)%N then print_N (fst p) else print_N (fst p) ++ 45%N :: print_N (snd p).
Theorem c41_range_spec : forall v, v <> [] -> Forall (fun p => fst p < 2 ^ 64 /\ snd p < 2 ^ 64)%N v -> ranges_new (join 44 (map range_text v)) = Ok v.
Proof.
  assert (ND : forall n d, is_digit d = false -> ~ In d (print_N n)).
  { intros n d Hd H. pose proof (print_digits n) as D. rewrite forallb_forall in D. apply D in H. congruence. }
  intros v Hv HF. unfold ranges_new. rewrite split_on_join.
  - clear Hv. induction HF as [|[a b] v (H1 & H2) HF IH]; [reflexivity|]. cbn [map range_pushes]. cbn [fst snd] in *.
    assert (E : range_push (range_text (a, b)) = Ok (a, b)).
    { unfold range_push, range_text. cbn [fst snd]. destruct (N.eqb_spec a b) as [->|E].
      - rewrite split_once_none by (apply ND; reflexivity). rewrite to_usize_whole_print by assumption. reflexivity.
      - rewrite split_once_app by (apply ND; reflexivity). rewrite !to_usize_whole_print by assumption. reflexivity. }
    rewrite E. cbn [rbind]. rewrite IH. reflexivity.
  - destruct v; [congruence|discriminate].
  - apply Forall_forall. intros x Hx. apply in_map_iff in Hx. destruct Hx as ([a b] & <- & _). unfold range_text. cbn [fst snd].
    destruct (a =? b)%N; [apply ND; reflexivity|]. rewrite in_app_iff. intros [H|[H|H]]; [|discriminate|]; revert H; apply ND; reflexivity.
Qed.
Example c41_range_spec_ex : ranges_new (bs "1-5,42,95-106") = Ok [(1, 5); (42, 42); (95, 106)]%N.
Proof. vm_compute. reflexivity. Qed.

(** The lines are counted from zero: asking for line 1 gives the second line, and line 0, which --range accepts, the first. *)
Theorem c41_refuted : exists s c,
  content s = tsv [[" CDX"; "x"]; ["a"]; ["b"]]%string /\ ranges_new (bs "1") = Ok [(1, 1)]%N /\ c = ByRange [(1, 1)]%N /\
  sample_of any_text any_text ex_md c [s] = (tsv [[" CDX"; "x"]; ["b"]]%string, Ok tt) /\
  concat (picked 1 (test_of c) (ex_lines ["a"; "b"]%string)) = tsv [["a"]]%string.
Proof. exists (text (tsv [[" CDX"; "x"]; ["a"]; ["b"]]%string)), (ByRange [(1, 1)]%N). repeat split; vm_compute; reflexivity. Qed.
(** The default loop, from one by one, leaves out the first line of every file. *)
Theorem c41_default_drops_first : forall u name_ok md hd s ls l, tm_quote md = QPlain -> one_head u name_ok hd ->
  good_file u md (ByFor for_default) s (mkshown hd [] (l :: ls)) ->
  sample_of u name_ok md (ByFor for_default) [s] = (hd ++ concat ls, Ok tt).
Proof.
  intros u n md hd s ls l Hp Ho HG. rewrite (c41_sample_partial u n md (ByFor for_default) hd [s] [mkshown hd [] (l :: ls)] Hp Ho); [|constructor; [exact HG|constructor]|repeat constructor].
  cbn [map sh_lines concat]. rewrite app_nil_r. f_equal. f_equal. f_equal. cbn [picked test_of]. change (in_steps _ _ _ 0) with false. cbn [app].
  change (0 + 1)%N with 1%N. destruct HG as (_ & _ & _ & _ & HC). cbn [sh_lines List.length] in HC. change (fo_by for_default) with 1%N in HC.
  assert (G : forall ls a, (1 <= a)%N -> (a + N.of_nat (List.length ls) <= 2 ^ 64)%N -> picked a (in_steps (fo_by for_default) (fo_from for_default) (fo_to for_default)) ls = ls).
  { clear. induction ls as [|x ls IH]; intros a H1 H2; [reflexivity|]. cbn [picked List.length] in *. rewrite IH by lia. unfold in_steps, for_default. cbn [fo_by fo_from fo_to].
    rewrite N.mod_1_r. destruct (N.leb_spec 1 a); [|lia]. destruct (N.leb_spec a (2 ^ 64 - 1)); [reflexivity|lia]. }
  apply G; lia.
Qed.
Example c41_default_drops_first_ex : sample_of any_text any_text ex_md (ByFor for_default) [ex_src2] = (tsv [[" CDX"; "x"]; ["h"]]%string, Ok tt).
Proof. vm_compute. reflexivity. Qed.
(** A file with a header and no data lines ends the run: the files after it are not looked at. *)
Theorem c41_header_only_refuted : exists s1 s2 c,
  content s1 = tsv [[" CDX"; "x"]]%string /\ content s2 = tsv [[" CDX"; "x"]; ["a"]; ["b"]]%string /\ ranges_new (bs "0-1000000") = Ok c /\
  sample_of any_text any_text ex_md (ByRange c) [s1; s2] = (tsv [[" CDX"; "x"]]%string, Ok tt) /\
  sample_of any_text any_text ex_md (ByRange c) [s2] = (tsv [[" CDX"; "x"]; ["a"]; ["b"]]%string, Ok tt).
Proof. exists (text (tsv [[" CDX"; "x"]]%string)), (text (tsv [[" CDX"; "x"]; ["a"]; ["b"]]%string)). eexists. repeat split; vm_compute; reflexivity. Qed.
(** In the decoding modes the raw text of the first line is written for other lines. *)
Theorem c41_quote_refuted : exists s,
  content s = tsv [[" CDX"; "x"]; ["a"]; ["b"]; ["c"]]%string /\
  sample_of any_text any_text (mkmode HYes QBackslash TAB NL) (ByRange [(0, 2)]%N) [s] <> (content s, Ok tt).
Proof. exists (text (tsv [[" CDX"; "x"]; ["a"]; ["b"]; ["c"]]%string)). split; vm_compute; [reflexivity|discriminate]. Qed.
