(** C43: concatenating files. *)
From Coq Require Import String List NArith ZArith Bool Arith Lia.
Open Scope list_scope.
Import ListNotations.
From Verif Require Import Base TextSpec TextModel ReadSpec ReadModel ReadProofs HeadModel HeadSpec HeadProps ToolModel TurnProps CatSpec CatProofs.
Close Scope Z_scope.
Open Scope nat_scope.

(** Full claim: with padding, each file is followed by a newline exactly when it does not end in one. Proved for every list of files, every
    chunking and every header mode whose checks pass ([flags] tells which first lines are passed on): all bytes of every file are written,
    save a suppressed header line, and a newline follows exactly the files that have no newline at all; without padding nothing is added;
    with padding at the end at most one newline is added, at the end.
    Missing, and refuted below: the newline after a file of several lines that does not end in one. *)
Theorem c43_cat_partial : forall u name_ok m pad ss flags, Forall wf_src ss ->
  let texts := filter not_empty (map content ss) in
  check_all u name_ok m ck_new (map first_line texts) = Ok flags ->
  let fs := combine flags texts in
  let body p := concat (map (fun f => kept (fst f) (snd f) ++ if p && fst f && no_newline (snd f) then [NL] else []) fs) in
  cat u name_ok m pad true ck_new ss =
    (match pad with
     | PadAll => body true
     | PadNone => body false
     | PadEnd => body false ++ (if last_open false fs then [NL] else [])
     end, Ok tt).
Proof.
  intros u n m pad ss flags HW texts HC fs body. rewrite (cat_ok u n m pad ss true ck_new flags HW (fun _ => eq_refl) HC). fold texts. fold fs. unfold body.
  destruct pad; cbn [padding andb negb]; rewrite ?app_nil_r; reflexivity.
Qed.

Lemma all_kept fs : concat (map (fun f : bool * bytes => kept (fst f) (snd f) ++ if true && fst f && no_newline (snd f) then [NL] else []) (combine (map (fun _ => true) fs) fs)) =
  concat (map (fun t => t ++ if no_newline t then [NL] else []) fs).
Proof. induction fs as [|t fs IH]; [reflexivity|]. cbn [map combine concat fst snd kept andb]. rewrite <- IH. reflexivity. Qed.

(** Files without header: the padding asked for, if every file ends in a newline or has none. *)
Theorem c43_padded : forall u name_ok ss, Forall wf_src ss ->
  Forall (fun s => is_cdx (first_line (content s)) = false) ss ->
  Forall (fun s => no_newline (content s) = true \/ last (content s) 0%N = NL) ss ->
  cat u name_ok MMatch PadAll true ck_new ss = (concat (map (fun s => content s ++ newline_owed (content s)) ss), Ok tt).
Proof.
  intros u n ss HW HH HN. set (texts := filter not_empty (map content ss)).
  assert (HF : Forall (regular u n MMatch) (map first_line texts) /\ existsb is_cdx (map first_line texts) = false).
  { unfold texts. clear HN HW. induction ss as [|s ss IH]; [split; [constructor|reflexivity]|]. inversion HH as [|? ? H1 H2]; subst. destruct (IH H2) as (I1 & I2). cbn [map filter].
    destruct (not_empty (content s)) eqn:E; [|auto]. cbn [map existsb]. rewrite H1. split; [|exact I2]. constructor; auto. split; [|split].
    - destruct (content s) as [|c t]; [discriminate|]. cbn [first_line]. destruct (c =? NL)%N; discriminate.
    - unfold is_valid_cdx. unfold is_cdx in *. rewrite H1. reflexivity.
    - congruence. }
  destruct HF as (HR & HX).
  assert (HC : check_all u n MMatch ck_new (map first_line texts) = Ok (map (fun _ => true) texts)).
  { rewrite (c07_match u n _ HR). destruct (map first_line texts) as [|f r] eqn:E; [destruct texts; [reflexivity|discriminate]|]. cbn [spec_match existsb] in *.
    apply orb_false_iff in HX. destruct HX as (X1 & X2). rewrite X1, X2. cbn [to_res]. f_equal. destruct texts as [|t texts']; [discriminate|]. inversion E. cbn [map]. f_equal.
    rewrite map_map. reflexivity. }
  rewrite (c43_cat_partial u n MMatch PadAll ss (map (fun _ => true) texts) HW HC). fold texts. rewrite all_kept. f_equal. unfold texts. clear - HN.
  induction HN as [|s ss H HN IH]; [reflexivity|]. cbn [map filter concat]. rewrite <- IH. destruct (content s) as [|c t] eqn:E; [reflexivity|]. cbn [not_empty map concat newline_owed].
  f_equal. f_equal. destruct H as [H|H].
  - rewrite H. replace (last (c :: t) 0 =? NL)%N with false; [reflexivity|]. symmetry. apply N.eqb_neq. intros Z.
    assert (G : In NL (c :: t)). { rewrite <- Z. rewrite (app_removelast_last 0%N (l := c :: t)) at 2 by discriminate. apply in_or_app. right. left. reflexivity. }
    unfold no_newline in H. apply negb_true_iff in H. assert (G' : existsb (fun c => (c =? NL)%N) (c :: t) = true); [|congruence]. apply existsb_exists. exists NL. split; [exact G|reflexivity].
  - rewrite H, N.eqb_refl. assert (G : no_newline (c :: t) = false); [|rewrite G; reflexivity]. unfold no_newline. apply negb_false_iff. apply existsb_exists. exists NL. split; [|reflexivity].
    rewrite <- H. rewrite (app_removelast_last 0%N (l := c :: t)) at 2 by discriminate. apply in_or_app. right. left. reflexivity.
Qed.

Definition nl (l : list string) : bytes := flat_map (fun x => bs x ++ [NL]) l.
Definition chunks (l : list bytes) : src := mksrc [] l.
Example c43_cat_partial_ex :
  let h := bs " CDX" ++ TAB :: bs "x" ++ [NL] in
  let s1 := chunks [bs " CD"; skipn 3 h ++ bs "1"; [NL]] in
  let s2 := text (h ++ nl ["2"; "3"]%string) in
  Forall wf_src [s1; chunks []; s2] /\
  check_all any_text any_text MMatch ck_new (map first_line (filter not_empty (map content [s1; chunks []; s2]))) = Ok [true; false] /\
  cat any_text any_text MMatch PadAll true ck_new [s1; chunks []; s2] = (h ++ nl ["1"; "2"; "3"]%string, Ok tt).
Proof. split; [repeat (apply Forall_cons || apply Forall_nil); unfold wf_src, chunks, text; cbn [s_chunks]; repeat (apply Forall_cons || apply Forall_nil); try (vm_compute; discriminate)|]. split; vm_compute; reflexivity. Qed.
Example c43_padded_ex :
  cat any_text any_text MMatch PadAll true ck_new [text (bs "one"); chunks [bs "t"; bs "wo"]; text (nl ["three"; "four"]%string)] = (nl ["one"; "two"; "three"; "four"]%string, Ok tt) /\
  cat any_text any_text MMatch PadEnd true ck_new [text (bs "one"); text (bs "two")] = (nl ["onetwo"]%string, Ok tt) /\
  cat any_text any_text MMatch PadNone true ck_new [text (bs "one"); text (bs "two")] = (bs "onetwo", Ok tt).
Proof. vm_compute. auto. Qed.

(** A file of two lines that does not end in a newline gets none, and runs into the next file: their lines are merged. *)
Theorem c43_refuted : exists s1 s2, content s1 = nl ["a"]%string ++ bs "b" /\ content s2 = nl ["c"]%string /\
  cat any_text any_text MMatch PadAll true ck_new [s1; s2] = (nl ["a"; "bc"]%string, Ok tt) /\
  concat (map (fun s => content s ++ newline_owed (content s)) [s1; s2]) = nl ["a"; "b"; "c"]%string.
Proof. exists (text (nl ["a"]%string ++ bs "b")), (text (nl ["c"]%string)). vm_compute. auto. Qed.
(** The same with padding at the end. *)
Theorem c43_end_refuted : exists s, content s = nl ["a"]%string ++ bs "b" /\
  cat any_text any_text MMatch PadEnd true ck_new [s] = (content s, Ok tt) /\ newline_owed (content s) = [NL].
Proof. exists (text (nl ["a"]%string ++ bs "b")). vm_compute. auto. Qed.
