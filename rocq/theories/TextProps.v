(** C01, C02, C03: encoding and splitting of columns. *)
From Coq Require Import List NArith Bool Arith String.
Import ListNotations.
From Verif Require Import Base TextSpec TextModel TextProofs.

(** C01. What is written in plain mode is read back, with delimiters and line breaks replaced. *)
Theorem c01_plain_roundtrip : forall fields d repl,
  fields <> [] -> d <> NL -> repl <> d ->
  mode_columns QPlain (join d (map (fun f => mode_write QPlain f d NL repl) fields) ++ [NL]) d
  = map (replace2 d NL repl) fields.
Proof. exact plain_roundtrip_lemma. Qed.

Example c01_plain_roundtrip_ex :
  mode_columns QPlain (join TAB (map (fun f => mode_write QPlain f TAB NL SPC)
     [bs "ab"; []; [97; TAB; 98]; [NL]; []]) ++ [NL])%N TAB
  = [bs "ab"; []; bs "a b"; bs " "; []].
Proof. reflexivity. Qed.

(** C01. Values free of delimiter and newline come back byte for byte. *)
Theorem c01_plain_roundtrip_exact : forall fields d repl,
  fields <> [] -> d <> NL -> repl <> d ->
  Forall (fun f => ~ In d f /\ ~ In NL f) fields ->
  mode_columns QPlain (join d (map (fun f => mode_write QPlain f d NL repl) fields) ++ [NL]) d = fields.
Proof.
  intros fields d repl H1 H2 H3 HF. rewrite plain_roundtrip_lemma by auto.
  rewrite <- (map_id fields) at 2. apply map_ext_in. intros f Hin.
  rewrite Forall_forall in HF. destruct (HF _ Hin). apply replace2_id; auto.
Qed.

Example c01_plain_roundtrip_exact_ex :
  Forall (fun f => ~ In TAB f /\ ~ In NL f) [bs "one"; []; bs "three"] /\
  mode_columns QPlain (bs "one" ++ [TAB; TAB] ++ bs "three" ++ [NL])%N TAB = [bs "one"; []; bs "three"].
Proof.
  split; [|reflexivity].
  repeat constructor; vm_compute; intuition discriminate.
Qed.

(** C01. Splitting any newline-terminated line gives exactly the pieces between delimiters. *)
Theorem c01_split_is_pieces : forall l d, d <> NL ->
  mode_columns QPlain (l ++ [NL]) d = split_on d l.
Proof. intros l d H. apply split_plain_nl; exact H. Qed.

Example c01_split_is_pieces_ex : mode_columns QPlain [NL] TAB = [[]].
Proof. reflexivity. Qed.

(** C01. Boundary of the claim: on text without a final newline the last column is lost when empty. *)
Theorem c01_split_no_newline : forall l d, last l 0%N <> NL ->
  mode_columns QPlain l d = drop_last_empty (split_on d l).
Proof. intros l d H. apply split_plain_raw; exact H. Qed.

Example c01_split_no_newline_ex :
  last [97; TAB; 98; TAB]%N 0%N <> NL /\
  mode_columns QPlain [97; TAB; 98; TAB]%N TAB = [[97]; [98]]%N.
Proof. split; [vm_compute; discriminate | reflexivity]. Qed.

(** C01 with a line break other than newline is false: the break stays in the last column. *)
Theorem c01_plain_custom_line_break_refuted : exists fields d eol repl,
  fields <> [] /\ d <> eol /\ repl <> d /\ repl <> eol /\
  Forall (fun f => ~ In d f /\ ~ In eol f) fields /\
  mode_columns QPlain (join d (map (fun f => mode_write QPlain f d eol repl) fields) ++ [eol]) d <> fields.
Proof.
  exists [[97]; [98]]%N, TAB, 59%N, SPC. repeat split; try (vm_compute; congruence).
  repeat constructor; vm_compute; intuition discriminate.
Qed.

(** C02. Backslash round trip, for delimiters that are not themselves escape letters and a
    non-empty last value ([last fields [NL] <> []] is also true of the empty list). *)
Theorem c02_backslash_roundtrip : forall fields d repl,
  ok_delim d -> last fields [NL] <> [] ->
  mode_columns QBackslash (join d (map (fun f => mode_write QBackslash f d NL repl) fields) ++ [NL]) d
  = fields.
Proof. exact backslash_roundtrip_lemma. Qed.

Example c02_backslash_roundtrip_ex :
  ok_delim TAB /\
  mode_columns QBackslash (join TAB (map (fun f => mode_write QBackslash f TAB NL SPC)
     [[97; TAB; 98]; []; [BSL; BSL; NL]; [NL]]%N) ++ [NL]) TAB = [[97; TAB; 98]; []; [BSL; BSL; NL]; [NL]]%N.
Proof. split; [repeat split; vm_compute; discriminate | reflexivity]. Qed.

(** C02 as stated is false: an empty last column disappears. *)
Theorem c02_backslash_empty_last_refuted : exists fields,
  fields <> [] /\
  mode_columns QBackslash (join TAB (map (fun f => mode_write QBackslash f TAB NL SPC) fields) ++ [NL]) TAB
  <> fields.
Proof. exists [[97]; []]%N. split; vm_compute; congruence. Qed.

(** C02 as stated is false: with delimiter 'n' an escaped delimiter decodes to a newline. *)
Theorem c02_backslash_delim_refuted : exists fields d,
  last fields [NL] <> [] /\ d <> NL /\ d <> BSL /\
  mode_columns QBackslash (join d (map (fun f => mode_write QBackslash f d NL SPC) fields) ++ [NL]) d
  <> fields.
Proof. exists [[110]]%N, 110%N. repeat split; vm_compute; congruence. Qed.

(** C03 as stated is false: a delimiter inside a value splits the column. *)
Theorem c03_quote_roundtrip_refuted : exists fields,
  mode_columns QQuote (join 44%N (map (fun f => mode_write QQuote f 44%N NL SPC) fields) ++ [NL]) 44%N
  <> fields.
Proof. exists [bs "a,b"]. vm_compute. congruence. Qed.

(** C03 as stated is false also for a value that only contains quotes. *)
Theorem c03_quote_only_quotes_refuted : exists fields,
  Forall (fun f => ~ In 44%N f /\ ~ In NL f) fields /\
  mode_columns QQuote (join 44%N (map (fun f => mode_write QQuote f 44%N NL SPC) fields) ++ [NL]) 44%N
  <> fields.
Proof.
  exists [[DQ; DQ]]%N. split; [|vm_compute; congruence].
  repeat constructor; vm_compute; intuition discriminate.
Qed.

(** C03, strongest negative form: no quoting ever protects a delimiter. Every line, quoted in any
    way, is cut at every delimiter byte it contains. *)
Theorem c03_quotes_never_protect : forall d line, d <> DQ -> d <> NL ->
  count_occ N.eq_dec line d <= List.length (mode_columns QQuote line d).
Proof. exact quote_delims_always_split_lemma. Qed.

Example c03_quotes_never_protect_ex :
  mode_columns QQuote (DQ :: bs "a,b" ++ [DQ; NL]) 44%N = [bs "a"; bs "b"].
Proof. reflexivity. Qed.

(** C03, what is left: values without delimiter and newline, whose quotes are isolated, round-trip.
    Missing: everything the quoting is for (delimiters, line breaks) and adjacent quotes. *)
Theorem c03_quote_roundtrip_partial : forall fields d repl,
  d <> NL -> d <> DQ -> last fields [NL] <> [] ->
  Forall (fun f => (forall p q, f <> p ++ [DQ; DQ] ++ q) /\ ~ In d f /\ ~ In NL f) fields ->
  mode_columns QQuote (join d (map (fun f => mode_write QQuote f d NL repl) fields) ++ [NL]) d = fields.
Proof. exact quote_roundtrip_iso. Qed.

Example c03_quote_roundtrip_partial_ex :
  (let fields := [[97; DQ; 98]; []; [DQ]; bs "c"]%N in
  mode_write QQuote [97; DQ; 98]%N 44%N NL SPC = [97; DQ; DQ; 98]%N /\
  mode_columns QQuote (join 44%N (map (fun f => mode_write QQuote f 44%N NL SPC) fields) ++ [NL]) 44%N = fields)%N
  /\ forall p q, [97; DQ; 98]%N <> p ++ [DQ; DQ] ++ q.
Proof.
  split; [split; reflexivity|]. intros p q. destruct p as [|x [|y [|z p]]]; cbn; try discriminate.
  destruct p; discriminate.
Qed.

(** C03. What quoting writes: every quote twice, in front of the first delimiter or line break one
    more quote, and no closing quote. *)
Theorem c03_quote_written : forall pre c post d repl, d <> DQ ->
  ~ In d pre -> ~ In NL pre -> (c = d \/ c = NL) ->
  let twice := flat_map (fun x => if (x =? DQ)%N then [DQ; DQ] else [x]) in
  mode_write QQuote pre d NL repl = twice pre /\
  mode_write QQuote (pre ++ [c] ++ post) d NL repl = twice pre ++ [DQ; c] ++ twice post.
Proof. exact quote_written_lemma. Qed.

Example c03_quote_written_ex : mode_write QQuote ([97; DQ; 44; 44; DQ])%N 44%N NL SPC = [97; DQ; DQ; DQ; 44; 44; DQ; DQ]%N.
Proof. reflexivity. Qed.
