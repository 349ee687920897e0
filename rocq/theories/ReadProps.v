(** C04, C05, C06, C51, C55, C56, C57: reading lines and headers. *)
From Coq Require Import String List NArith Bool Arith Lia.
Import ListNotations.
From Verif Require Import Base TextSpec TextModel TextProofs ReadModel ReadSpec ReadProofs.

(** C04. In plain and backslash mode every file is cut into its lines, whatever the chunks;
    nothing is lost, a missing final line break is supplied. *)
Theorem c04_lines : forall m lb s, m <> QQuote -> Forall (fun c => c <> []) (s_chunks s) ->
  exists ls, read_all (S (length (content s))) m lb s = Some ls /\
    Forall (is_line lb) ls /\ terminated lb (s_buf s ++ concat (s_chunks s)) (concat ls).
Proof.
  intros m lb s Hm Hw. assert (Hq : m = QQuote -> lb <> DQ) by congruence.
  destruct (flat_all_total m lb (S (length (content s))) Hq (content s)) as [ls H]; [lia|].
  exists ls. rewrite read_all_flat by exact Hw. split; [exact H|].
  apply flat_all_spec in H; auto. destruct H as [H1 H2]. split; [|exact H1]. destruct m; auto; congruence.
Qed.

Example c04_lines_ex :
  read_all 20 QPlain NL (mksrc [] [bs "a"; bs "b" ++ [NL; NL]; bs "c"; bs "d"]) = Some [bs "ab" ++ [NL]; [NL]; bs "cd" ++ [NL]].
Proof. reflexivity. Qed.

(** C04. In quote mode every record ends at the first line break outside quotes. *)
Theorem c04_quoted_records : forall lb s, lb <> DQ -> Forall (fun c => c <> []) (s_chunks s) ->
  exists ls, read_all (S (length (content s))) QQuote lb s = Some ls /\
    terminated lb (s_buf s ++ concat (s_chunks s)) (concat ls) /\
    forall l pre post, ls = pre ++ l :: post ->
      closed_record lb l \/ (post = [] /\ open_record lb l).
Proof.
  intros lb s Hq Hw.
  destruct (flat_all_total QQuote lb (S (length (content s))) (fun _ => Hq) (content s)) as [ls H]; [lia|].
  exists ls. rewrite read_all_flat by exact Hw. split; [exact H|].
  apply flat_all_spec in H; auto.
Qed.

Example c04_quoted_records_ex :
  let q := bs "a" ++ [DQ; NL; DQ] ++ [NL] in
  read_all 20 QQuote NL (mksrc [] [bs "a" ++ [DQ]; [NL]; [DQ; NL] ++ bs "b" ++ [DQ; NL]])
  = Some [q; bs "b" ++ [DQ; NL]]
  /\ closed_record NL q.
Proof.
  split; [reflexivity|]. exists (bs "a" ++ [DQ; NL; DQ]). split; [reflexivity|]. split; [|reflexivity].
  intros p q H. destruct p as [|x1 [|x2 [|x3 [|x4 p]]]]; try discriminate; cbn in H; inversion H; subst; try reflexivity.
  destruct p; discriminate.
Qed.

(** C04. The lines read do not depend on how the bytes arrive. *)
Theorem c04_chunk_independent : forall m lb s1 s2 fuel,
  Forall (fun c => c <> []) (s_chunks s1) -> Forall (fun c => c <> []) (s_chunks s2) ->
  s_buf s1 ++ concat (s_chunks s1) = s_buf s2 ++ concat (s_chunks s2) ->
  read_all fuel m lb s1 = read_all fuel m lb s2.
Proof.
  intros m lb s1 s2 fuel H1 H2 He. rewrite !read_all_flat by assumption. unfold content. rewrite He. reflexivity.
Qed.

Example c04_chunk_independent_ex :
  let s1 := mksrc [] [[97]; [NL]; [98; NL]]%N in let s2 := mksrc [] [[97; NL; 98]; [NL]]%N in
  concat (s_chunks s1) = concat (s_chunks s2) /\ read_all 5 QBackslash NL s1 = Some [[97; NL]; [98; NL]]%N
  /\ read_all 5 QBackslash NL s2 = Some [[97; NL]; [98; NL]]%N.
Proof. repeat split. Qed.

(** C04. The specification of plain lines pins them down. *)
Theorem c04_lines_unique : forall lb ls1 ls2,
  Forall (is_line lb) ls1 -> Forall (is_line lb) ls2 -> concat ls1 = concat ls2 -> ls1 = ls2.
Proof. intros lb ls1 ls2. apply lines_unique. Qed.

Example c04_lines_unique_ex : Forall (is_line NL) [[97; NL]; [NL]]%N.
Proof. repeat constructor; [exists [97%N]|exists []]; split; auto; cbn; intuition discriminate. Qed.

(** C05. Header detection gives the same header and leaves the same lines for every arrival of
    the bytes, when the first read shows four bytes or the whole file. *)
Theorem c05_header_schedule_partial : forall utf8_ok h m lb s1 s2,
  Forall (fun c => c <> []) (s_chunks s1) -> Forall (fun c => c <> []) (s_chunks s2) ->
  content s1 = content s2 -> shows_start s1 -> shows_start s2 ->
  obs (read_header utf8_ok h m lb s1) = obs (read_header utf8_ok h m lb s2).
Proof. intros. apply read_header_det; auto. Qed.

Example c05_header_schedule_partial_ex :
  let s1 := mksrc [] [bs " CDX"; [TAB; 97; NL]; [98; NL]]%N in
  let s2 := mksrc [] [bs " CDX" ++ [TAB; 97; NL; 98; NL]]%N in
  content s1 = content s2 /\ shows_start s1 /\ shows_start s2 /\
  obs (read_header (fun _ => true) HMaybe QPlain NL s1) = Ok (false, bs " CDX" ++ [TAB; 97; NL], [98; NL])%N.
Proof. repeat split; try (left; vm_compute; lia). Qed.

(** C05. With an explicit header mode the schedule never matters. *)
Theorem c05_header_explicit_mode : forall utf8_ok h m lb s1 s2,
  h = HYes \/ h = HNo \/ h = HCdx ->
  Forall (fun c => c <> []) (s_chunks s1) -> Forall (fun c => c <> []) (s_chunks s2) ->
  content s1 = content s2 ->
  obs (read_header utf8_ok h m lb s1) = obs (read_header utf8_ok h m lb s2).
Proof. intros u h m lb s1 s2 Hh H1 H2 He. apply read_header_det; auto. intuition congruence. Qed.

Example c05_header_explicit_mode_ex :
  obs (read_header (fun _ => true) HYes QPlain NL (mksrc [] [[97]; [NL; 98]]%N)) = Ok (false, [97; NL], [98])%N.
Proof. reflexivity. Qed.

(** C05 as stated is false: a first read of two bytes hides the header. *)
Theorem c05_header_schedule_refuted : exists utf8_ok h m lb s1 s2,
  Forall (fun c => c <> []) (s_chunks s1) /\ Forall (fun c => c <> []) (s_chunks s2) /\
  content s1 = content s2 /\
  obs (read_header utf8_ok h m lb s1) <> obs (read_header utf8_ok h m lb s2).
Proof.
  exists (fun _ => true), HMaybe, QPlain, NL,
    (mksrc [] [bs " C"; bs "DX" ++ [TAB; 97; NL; 98; NL]])%N, (mksrc [] [bs " CDX" ++ [TAB; 97; NL; 98; NL]])%N.
  repeat split; try (repeat constructor; discriminate).
Qed.

(** C06. With splitting on, looking back k lines shows exactly the text and columns of the k-th
    previous line, and blank lines beyond the start of the file. *)
Theorem c06_lookback : forall L m delim lb hdr s ls n k,
  Forall (fun c => c <> []) (s_chunks s) -> (m = QQuote -> lb <> DQ) ->
  read_all (S (length (content s))) m lb s = Some ls -> n < length ls -> k <= L ->
  exists r0 r t, open_with L m delim lb hdr s = Some r0 /\ getlines n m delim lb r0 = Some r /\
    r_done r = false /\ prev_line r k = Ok t /\
    (k <= n -> tl_text t = nth (n - k) ls [] /\ tl_cols t = mode_columns m (nth (n - k) ls []) delim) /\
    (n < k -> tl_text t = [] /\ tl_cols t = []).
Proof.
  intros L m delim lb hdr s ls n k Hw Hq Hall Hn Hk.
  destruct (open_getlines L m delim lb hdr s ls n Hw Hq Hall Hn) as (r0 & r & H1 & H2 & H3 & _ & _ & Hr & _).
  exists r0, r. destruct Hr as (_ & _ & Hr). specialize (Hr k Hk). eexists. split; [exact H1|]. split; [exact H2|].
  split; [exact H3|]. split; [exact Hr|].
  assert (Hlen : length (map (process m delim) (firstn (S n) ls)) = S n).
  { rewrite map_length, firstn_length. lia. }
  assert (Hne : Forall (fun l => l <> []) ls).
  { rewrite read_all_flat in Hall by exact Hw. apply flat_all_spec in Hall as [_ Hall]; auto.
    assert (Hcase : m = QQuote \/ m <> QQuote) by (destruct m; auto; right; discriminate).
    destruct Hcase as [->|Hm].
    - apply Forall_forall. intros l Hin. apply in_split in Hin as (pre & post & ->).
      destruct (Hall l pre post eq_refl) as [(b & -> & _)|(_ & b & -> & _)]; destruct b; discriminate.
    - assert (HF : Forall (is_line lb) ls) by (destruct m; auto; congruence).
      eapply Forall_impl; [|exact HF]. intros l (b & -> & _); destruct b; discriminate. }
  split; intros Hkn.
  - assert (Hx : nth k (rev (map (process m delim) (firstn (S n) ls))) tl_new = process m delim (nth (n - k) ls [])).
    { rewrite rev_nth, Hlen by (rewrite Hlen; lia). replace (S n - S k) with (n - k) by lia.
      rewrite nth_indep with (d' := process m delim []) by (rewrite Hlen; lia). rewrite map_nth. f_equal.
      rewrite <- (firstn_skipn (S n) ls) at 2. rewrite app_nth1; [reflexivity|]. rewrite firstn_length; lia. }
    rewrite Hx. split; [apply process_text|apply process_cols].
    rewrite Forall_forall in Hne. apply Hne. apply nth_In. lia.
  - rewrite nth_overflow by (rewrite rev_length, Hlen; lia). split; reflexivity.
Qed.

Example c06_lookback_ex :
  let s := mksrc [] [[97; TAB; 98; NL; 99]; [NL; 100; NL]]%N in
  read_all 8 QPlain NL s = Some [[97; TAB; 98; NL]; [99; NL]; [100; NL]]%N /\
  (exists r0 r, open_with 2 QPlain TAB NL 0 s = Some r0 /\ getlines 1 QPlain TAB NL r0 = Some r /\
    prev_line r 1 = Ok (mktl [97; TAB; 98; NL]%N [(0, 1); (2, 3)] []) /\ prev_line r 2 = Ok tl_new).
Proof. split; [reflexivity|]. eexists _, _. repeat split. Qed.

(** C06. At end of file the last line is one step back and the current line is empty. *)
Theorem c06_lookback_eof : forall L m delim lb hdr s ls n,
  Forall (fun c => c <> []) (s_chunks s) -> (m = QQuote -> lb <> DQ) ->
  read_all (S (length (content s))) m lb s = Some ls -> n + 1 = length ls -> 1 <= L ->
  exists r0 r t t1, open_with L m delim lb hdr s = Some r0 /\ getlines (n + 1) m delim lb r0 = Some r /\
    r_done r = true /\ prev_line r 0 = Ok t /\ tl_line t = [] /\
    prev_line r 1 = Ok t1 /\ tl_cols t1 = mode_columns m (nth n ls []) delim.
Proof.
  intros L m delim lb hdr s ls n Hw Hq Hall Hn HL.
  destruct (open_getlines L m delim lb hdr s ls n Hw Hq Hall) as (r0 & r & H1 & H2 & H3 & _ & Hp & Hr & Hwr & Hs & fuel & Hf); [lia|].
  rewrite skipn_all2 in Hf by lia.
  pose proof (getline_ring L m delim lb r _ Hwr Hr Hp Hs) as G.
  destruct (flat_line m lb (content (r_src r))) as [[l rest]|] eqn:E.
  { destruct fuel; simpl in Hf; [discriminate|]. rewrite E in Hf. destruct (flat_all fuel m lb rest); discriminate. }
  destruct G as (r' & Hg & Hd & _ & t & Ht & Hr').
  exists r0, r', t, (process m delim (nth n ls [])). split; [exact H1|]. split.
  { clear - H2 Hg. revert r0 H2. induction n as [|n IH]; intros r0 H2; cbn [getlines Nat.add] in *.
    - inversion H2; subst. rewrite Hg. reflexivity.
    - destruct (getline m delim lb r0); [|discriminate]. apply IH. exact H2. }
  split; [exact Hd|]. destruct Hr' as (_ & _ & Hr').
  split. { rewrite (Hr' 0) by lia. reflexivity. } split; [exact Ht|]. split; [|apply process_cols].
  rewrite (Hr' 1) by lia. f_equal. cbn [nth].
  assert (Hlen : length (map (process m delim) (firstn (S n) ls)) = S n).
  { rewrite map_length, firstn_length. lia. }
  rewrite rev_nth, Hlen by (rewrite Hlen; lia). replace (S n - 1) with n by lia.
  rewrite nth_indep with (d' := process m delim []) by (rewrite Hlen; lia). rewrite map_nth. f_equal.
  rewrite <- (firstn_skipn (S n) ls) at 2. rewrite app_nth1; [reflexivity|]. rewrite firstn_length; lia.
Qed.

Example c06_lookback_eof_ex :
  exists r0 r, open_with 1 QPlain TAB NL 0 (mksrc [] [[97; NL]; [98]]%N) = Some r0 /\
    getlines 2 QPlain TAB NL r0 = Some r /\ r_done r = true /\ prev_line r 1 = Ok (mktl [98; NL]%N [(0, 1)] []).
Proof. eexists _, _. repeat split. Qed.

(** C06. Looking further back than the reader was made for panics or shows a wrong line. *)
Theorem c06_lookback_beyond_refuted : exists s r0 r,
  open_with 1 QPlain TAB NL 0 s = Some r0 /\ getlines 2 QPlain TAB NL r0 = Some r /\
  read_all 10 QPlain NL s = Some [[97; NL]; [98; NL]; [99; NL]]%N /\
  prev_line r 2 = prev_line r 0 /\ prev_line r 3 = Panic.
Proof. exists (mksrc [] [[97; NL; 98; NL; 99; NL]]%N). eexists _, _. repeat split. Qed.

(** C06 with splitting off is false in the decoding modes: [line()] returns an earlier line. *)
Theorem c06_unsplit_line_refuted : exists s r0 r t,
  let set_unsplit r := mkrd (r_src r) (r_lines r) (r_curr r) false (r_done r) (r_bytes r) (r_lineno r) in
  open_with 1 QBackslash TAB NL 0 s = Some r0 /\ getlines 2 QBackslash TAB NL (set_unsplit r0) = Some r /\
  read_all 10 QBackslash NL s = Some [[97; NL]; [98; NL]; [99; NL]]%N /\
  prev_line r 0 = Ok t /\ tl_text t = [97; NL]%N.
Proof. exists (mksrc [] [[97; NL; 98; NL; 99; NL]]%N). eexists _, _, _. repeat split. Qed.

(** C51. Any sequence of reads with non-empty buffers delivers the object's bytes in order, and
    end of file is reported exactly when everything was delivered, if no chunk is empty. *)
Theorem c51_s3_stream : forall ns body,
  Forall (fun n => 0 < n) ns -> Forall (fun c => c <> []) body ->
  exists rest, concat body = fst (s3_read_all ns (mks3 None body)) ++ rest /\
    (snd (s3_read_all ns (mks3 None body)) = true -> rest = []) /\
    (length (concat body) < length ns -> snd (s3_read_all ns (mks3 None body)) = true).
Proof.
  intros ns body H1 H2. apply (s3_all_ok ns (mks3 None body)); auto. split; auto. discriminate.
Qed.

Example c51_s3_stream_ex :
  s3_read_all [2; 2; 2; 5; 1] (mks3 None [[1; 2; 3]; [4; 5]; [6]; [7; 8; 9]]%N) = ([1; 2; 3; 4; 5; 6; 7], false)%N /\
  s3_read_all [2; 2; 2; 5; 9; 9; 9] (mks3 None [[1; 2; 3]; [4; 5]; [6]; [7; 8; 9]]%N) = ([1; 2; 3; 4; 5; 6; 7; 8; 9], true)%N.
Proof. split; reflexivity. Qed.

(** C51 without that condition is false: an empty chunk is taken for end of file. *)
Theorem c51_s3_empty_chunk_refuted : exists ns body,
  Forall (fun n => 0 < n) ns /\ snd (s3_read_all ns (mks3 None body)) = true /\
  fst (s3_read_all ns (mks3 None body)) <> concat body.
Proof. exists [5; 5], [[1]; []; [2]]%N. repeat split; [repeat constructor; lia|vm_compute; discriminate]. Qed.

(** C55. Columns are always copied; the text is copied between lines that needed no decoding. *)
Theorem c55_assign_partial : forall t x,
  (forall i, tl_get (tl_assign t x) i = tl_get x i) /\
  (tl_orig t = [] -> tl_orig x = [] -> tl_text (tl_assign t x) = tl_text x).
Proof. intros t x. split; auto. intros Ht Hx. unfold tl_text, tl_assign; cbn. rewrite Ht, Hx. auto. Qed.

Example c55_assign_partial_ex :
  let x := process QPlain TAB [97; TAB; 98; NL]%N in
  tl_orig x = [] /\ tl_text (tl_assign (process QPlain TAB [99; NL]%N) x) = [97; TAB; 98; NL]%N.
Proof. split; reflexivity. Qed.

(** C55 as stated is false: in a decoding mode the text of the target stays that of an older line. *)
Theorem c55_assign_refuted : exists m t x, t = process m TAB [99; NL]%N /\ x = process m TAB [97; NL]%N /\
  tl_text (tl_assign t x) <> tl_text x.
Proof. eexists QBackslash, _, _. repeat split. vm_compute. discriminate. Qed.

(** C56. In plain mode the reported line number and byte offset of the current line are exact. *)
Theorem c56_location_partial : forall L delim lb hdr s ls n,
  Forall (fun c => c <> []) (s_chunks s) ->
  read_all (S (length (content s))) QPlain lb s = Some ls -> n < length ls ->
  exists r0 r, open_with L QPlain delim lb hdr s = Some r0 /\ getlines n QPlain delim lb r0 = Some r /\
    r_lineno r = n + 1 /\ r_bytes r = hdr + length (concat (firstn n ls)).
Proof.
  intros L delim lb hdr s ls n Hw Hall Hn.
  destruct (open_getlines L QPlain delim lb hdr s ls n Hw) as (r0 & r & H1 & H2 & _ & H4 & _ & _); auto; try discriminate.
  exists r0, r. split; [exact H1|]. split; [exact H2|]. split; [exact H4|].
  eapply open_bytes; eauto.
Qed.

Example c56_location_partial_ex :
  exists r0 r, open_with 1 QPlain TAB NL 7 (mksrc [] [[97; TAB; 98; NL]; [99; NL; 100; NL]]%N) = Some r0 /\
    getlines 2 QPlain TAB NL r0 = Some r /\ r_lineno r = 3 /\ r_bytes r = 13.
Proof. eexists _, _. repeat split. Qed.

(** C56 is false in the decoding modes: the offset counts decoded bytes. *)
Theorem c56_location_decoded_refuted : exists s r0 r,
  open_with 1 QBackslash TAB NL 0 s = Some r0 /\ getlines 1 QBackslash TAB NL r0 = Some r /\
  read_all 10 QBackslash NL s = Some [[97; NL]; [98; NL]]%N /\ r_bytes r <> length [97; NL]%N.
Proof. exists (mksrc [] [[97; NL; 98; NL]]%N). eexists _, _. repeat split. vm_compute. discriminate. Qed.

(** C56 is false after Reader::open: numbering starts at 0. *)
Theorem c56_location_open_refuted : exists s r0 t,
  open_plain 1 QPlain TAB NL s = Some r0 /\ prev_line r0 0 = Ok t /\ tl_text t = [97; NL]%N /\ r_lineno r0 = 0.
Proof. exists (mksrc [] [[97; NL; 98; NL]]%N). eexists _, _. repeat split. Qed.

(** C57. In plain mode copying the current line reproduces the input line byte for byte. *)
Theorem c57_write_curr_partial : forall L delim lb hdr s ls n,
  Forall (fun c => c <> []) (s_chunks s) ->
  read_all (S (length (content s))) QPlain lb s = Some ls -> n < length ls ->
  exists r0 r, open_with L QPlain delim lb hdr s = Some r0 /\ getlines n QPlain delim lb r0 = Some r /\
    write_curr r = Ok (nth n ls []).
Proof.
  intros L delim lb hdr s ls n Hw Hall Hn.
  destruct (open_getlines L QPlain delim lb hdr s ls n Hw) as (r0 & r & H1 & H2 & _ & _ & _ & Hr & _); auto; try discriminate.
  exists r0, r. split; [exact H1|]. split; [exact H2|]. unfold write_curr.
  destruct Hr as (_ & _ & Hr). rewrite (Hr 0) by lia.
  assert (Hlen : length (map (process QPlain delim) (firstn (S n) ls)) = S n).
  { rewrite map_length, firstn_length. lia. }
  rewrite rev_nth, Hlen by (rewrite Hlen; lia). replace (S n - 1) with n by lia.
  rewrite nth_indep with (d' := process QPlain delim []) by (rewrite Hlen; lia). rewrite map_nth. cbn [rbind tl_line process tl_split].
  f_equal. rewrite <- (firstn_skipn (S n) ls) at 2. rewrite app_nth1; [reflexivity|]. rewrite firstn_length; lia.
Qed.

Example c57_write_curr_partial_ex :
  exists r0 r, open_with 1 QPlain TAB NL 0 (mksrc [] [[97; TAB; 98; NL]; [99; NL; 100]]%N) = Some r0 /\
    getlines 2 QPlain TAB NL r0 = Some r /\ write_curr r = Ok [100; NL]%N.
Proof. eexists _, _. repeat split. Qed.

(** C57 is false in the decoding modes: delimiters become data bytes and the newline is gone. *)
Theorem c57_write_curr_refuted : exists s r0,
  open_with 1 QBackslash TAB NL 0 s = Some r0 /\
  read_all 10 QBackslash NL s = Some [[97; NL]; [98; NL]]%N /\ write_curr r0 = Ok [97]%N.
Proof. exists (mksrc [] [[97; NL; 98; NL]]%N). eexists. repeat split. Qed.
