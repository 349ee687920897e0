(** What an open file shows to a tool, line after line. *)
From Coq Require Import List NArith Bool Arith Lia.
Import ListNotations.
From Verif Require Import Base TextModel ReadModel ReadProofs HdrModel ToolModel.

(** Settings that can be read back: the line break is not the quote. *)
Definition md_ok (md : tmode) : Prop := tm_quote md = QQuote -> tm_break md <> DQ.
Definition proc (md : tmode) : bytes -> textline := process (tm_quote md) (tm_delim md).

(** The header line (empty without one) and the data lines of a source that is not empty. *)
Definition file_lines (u : bytes -> bool) (md : tmode) (s : src) (hd : bytes) (ls : list bytes) : Prop :=
  exists s1, read_header u (tm_head md) (tm_quote md) (tm_break md) s = Ok (false, hd, s1) /\
    read_all (S (length (content s1))) (tm_quote md) (tm_break md) s1 = Some ls.

Definition rest_is (md : tmode) (s : src) (rest : list bytes) : Prop :=
  wf_src s /\ exists fuel, flat_all fuel (tm_quote md) (tm_break md) (content s) = Some rest.

(** A reader standing on a line, with the lines before it and the raw lines still to come. *)
Definition at_line (md : tmode) (r : reader) (hist : list textline) (rest : list bytes) : Prop :=
  ring 1 r hist /\ plain_hist (tm_quote md) hist /\ r_split r = true /\ r_done r = false /\ rest_is md (r_src r) rest.

Lemma flat_all_length md fuel : md_ok md -> forall t ls, flat_all fuel (tm_quote md) (tm_break md) t = Some ls -> length ls <= length t.
Proof.
  intros Hm. induction fuel as [|f IH]; intros t ls H; [discriminate|]. cbn [flat_all] in H.
  destruct (flat_line (tm_quote md) (tm_break md) t) as [[l t']|] eqn:E.
  - destruct (flat_all f (tm_quote md) (tm_break md) t') as [r|] eqn:Er; [|discriminate]. inversion H; subst.
    apply IH in Er. apply flat_line_spec in E as (_ & _ & Hl); [|exact Hm]. cbn [length]. lia.
  - inversion H; subst. simpl; lia.
Qed.

Lemma at_line_turns md r hist rest : md_ok md -> at_line md r hist rest -> S (length rest) < turns r.
Proof. intros Hm (_ & _ & _ & _ & _ & f & H). apply flat_all_length in H; auto. unfold turns. lia. Qed.

Lemma rest_cases md s rest : rest_is md s rest ->
  match rest with
  | [] => flat_line (tm_quote md) (tm_break md) (content s) = None
  | l :: rest' => exists t, flat_line (tm_quote md) (tm_break md) (content s) = Some (l, t) /\
                            exists fuel, flat_all fuel (tm_quote md) (tm_break md) t = Some rest'
  end.
Proof.
  intros (_ & f & H). destruct f as [|f]; [discriminate|]. cbn [flat_all] in H.
  destruct (flat_line (tm_quote md) (tm_break md) (content s)) as [[l t]|].
  - destruct (flat_all f (tm_quote md) (tm_break md) t) as [r|] eqn:Er; [|discriminate]. inversion H; subst. eauto.
  - inversion H; subst. reflexivity.
Qed.

Lemma plain_hist_cons md l hist : plain_hist (tm_quote md) hist -> plain_hist (tm_quote md) (proc md l :: hist).
Proof. intros H E. constructor; auto. unfold proc. rewrite E. reflexivity. Qed.

Lemma next_cons md r hist l rest : at_line md r hist (l :: rest) ->
  exists r', next_line md r = Ok r' /\ at_line md r' (proc md l :: hist) rest /\ r_lineno r' = r_lineno r + 1.
Proof.
  intros (Hr & Hp & Hs & Hd & HR). pose proof (rest_cases _ _ _ HR) as (t & Ht & f & Hf).
  pose proof (getline_ring 1 (tm_quote md) (tm_delim md) (tm_break md) r hist (proj1 HR) Hr Hp Hs) as G. rewrite Ht in G.
  destruct G as (r' & G1 & G2 & G3 & G4 & G5 & G6 & _ & G7). exists r'. unfold next_line. rewrite G1. split; auto. split; auto.
  unfold at_line. rewrite G5. repeat split; auto; try apply G2. apply plain_hist_cons; auto. exists f. rewrite G4. exact Hf.
Qed.

Lemma next_nil md r hist : at_line md r hist [] ->
  exists r', next_line md r = Ok r' /\ r_done r' = true /\ r_lineno r' = r_lineno r + 1 /\ exists t, ring 1 r' (t :: hist).
Proof.
  intros (Hr & Hp & Hs & Hd & HR). pose proof (rest_cases _ _ _ HR) as Ht. cbn in Ht.
  pose proof (getline_ring 1 (tm_quote md) (tm_delim md) (tm_break md) r hist (proj1 HR) Hr Hp Hs) as G. rewrite Ht in G.
  destruct G as (r' & G1 & G2 & G3 & t & _ & G4). exists r'. unfold next_line. rewrite G1. eauto.
Qed.

Lemma ring_curr r h hist : ring 1 r (h :: hist) -> prev_line r 0 = Ok h.
Proof. intros (_ & _ & H). apply (H 0). lia. Qed.
Lemma ring_prev r h g hist : ring 1 r (h :: g :: hist) -> prev_line r 1 = Ok g.
Proof. intros (_ & _ & H). apply (H 1). lia. Qed.

Lemma read_header_wf u h m lb s e hd s' : wf_src s -> read_header u h m lb s = Ok (e, hd, s') -> wf_src s'.
Proof.
  intros Hw. unfold read_header. destruct (fill_buf s) as [b s1] eqn:E.
  destruct (fill_buf_content _ _ _ E) as (_ & _ & W1). specialize (W1 Hw).
  assert (RS : forall s1 e h s', wf_src s1 -> read_string u m lb s1 = Ok (e, h, s') -> wf_src s').
  { intros a e0 h0 s0 Ha. apply (proj2 (read_string_det u m lb a a Ha Ha eq_refl)). }
  destruct b as [|x b]. { intros H; inversion H; subst; auto. }
  destruct h.
  - apply RS; auto.
  - intros H; inversion H; subst; auto.
  - destruct (starts_with (x :: b) CDX); [apply RS; auto | intros H; inversion H; subst; auto].
  - destruct (fill_buf s1) as [b2 s2] eqn:E2. destruct (fill_buf_content _ _ _ E2) as (_ & _ & W2). specialize (W2 W1).
    destruct (starts_with b2 CDX).
    + destruct (read_string u m lb s2) as [[[e3 h3] s3]| |] eqn:E3; cbn [rbind]; try discriminate.
      destruct (fill_buf s3) as [b4 s4] eqn:E4. destruct (fill_buf_content _ _ _ E4) as (_ & _ & W4).
      intros H; inversion H; subst. apply W4. eapply RS; eauto.
    + cbn [rbind]. destruct (fill_buf s2) as [b4 s4] eqn:E4. destruct (fill_buf_content _ _ _ E4) as (_ & _ & W4).
      intros H; inversion H; subst. apply W4; auto.
  - apply RS; auto.
Qed.

(** The names a file shows: from its header, or made up from the first line. *)
Definition shown_names (md : tmode) (hd : bytes) (ls : list bytes) : list bytes :=
  match hd with
  | [] => match ls with [] => [] | l :: _ => fake_names (tm_delim md) (length (tl_parts (proc md l))) end
  | _ => head_names (tm_delim md) hd
  end.

Lemma open_file_lines u md s hd ls : wf_src s -> file_lines u md s hd ls ->
  exists f, open_file u md s = Ok f /\ tf_empty f = false /\ tf_head f = (match hd with [] => None | _ => Some hd end) /\
    tf_names f = shown_names md hd ls /\ r_lineno (tf_rd f) = 0 /\
    match ls with
    | [] => r_done (tf_rd f) = true /\ ring 1 (tf_rd f) [] /\ r_split (tf_rd f) = true /\ rest_is md (r_src (tf_rd f)) []
    | l :: rest => at_line md (tf_rd f) [proc md l] rest
    end.
Proof.
  intros Hw (s1 & H1 & H2). pose proof (read_header_wf _ _ _ _ _ _ _ _ Hw H1) as Hw1.
  unfold open_file. rewrite H1. cbn [rbind]. unfold open_plain.
  rewrite read_all_flat in H2 by auto. assert (HR : rest_is md s1 ls) by (split; eauto).
  pose proof (rest_cases _ _ _ HR) as C. unfold open_with.
  pose proof (read_line_flat (tm_quote md) (tm_break md) s1 Hw1) as A.
  destruct ls as [|l rest].
  - rewrite C in A. destruct A as (_ & s2 & A1 & A2 & A3). rewrite A1.
    eexists. split; [reflexivity|]. cbn [tf_empty tf_head tf_names tf_rd r_done r_lineno r_split r_src r_lines].
    split; [reflexivity|]. split; [reflexivity|]. split; [destruct hd; reflexivity|]. split; [reflexivity|]. split; [reflexivity|].
    split; [|split; [reflexivity|]].
    + split; [reflexivity|]. split; [cbn; lia|]. intros k Hk. destruct k as [|[|k]]; try lia; reflexivity.
    + split; auto. exists 1. cbn [flat_all]. rewrite A3. reflexivity.
  - destruct C as (t & C & f & Hf). rewrite C in A. destruct A as (s2 & A1 & A2 & A3). rewrite A1.
    assert (EP : tl_split (tm_quote md) (tm_delim md) (tl_set_line tl_new l) = proc md l).
    { unfold proc. apply split_process. reflexivity. }
    rewrite EP. cbn [Nat.add repeat list_set].
    eexists. split; [reflexivity|]. cbn [tf_empty tf_head tf_names tf_rd r_done r_lineno r_split r_src r_lines nth].
    split; [reflexivity|]. split; [reflexivity|]. split; [destruct hd; reflexivity|]. split; [reflexivity|].
    unfold at_line. cbn [r_split r_done r_src].
    split; [|split; [|split; [reflexivity|split; [reflexivity|]]]].
    + split; [reflexivity|]. split; [cbn; lia|]. intros k Hk. destruct k as [|[|k]]; try lia; reflexivity.
    + apply (plain_hist_cons md l []). intros _. constructor.
    + split; auto. exists f. rewrite A3. exact Hf.
Qed.

Lemma open_file_empty u md s f : open_file u md s = Ok f -> tf_empty f = true ->
  tf_head f = None /\ tf_names f = [] /\ r_done (tf_rd f) = true.
Proof.
  unfold open_file. destruct (read_header u (tm_head md) (tm_quote md) (tm_break md) s) as [[[e hd] s1]| |]; cbn [rbind]; try discriminate.
  destruct e.
  - intros H; inversion H; subst. auto.
  - destruct (open_plain 1 (tm_quote md) (tm_delim md) (tm_break md) s1); intros H; inversion H; subst. discriminate.
Qed.
