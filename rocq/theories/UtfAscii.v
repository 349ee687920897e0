(** On ASCII text the matchers in utf8 mode do what the model for ASCII text says. *)
From Coq Require Import List NArith Bool Arith Lia ZArith.
Import ListNotations.
From Verif Require Import Base TextSpec FloatModel StrModel StrSpec CompModel CompSpec CompProofs GlobProofs MatchModel MatchSpec MatchText UtfSpec UtfModel UtfProofs UtfMode.
Open Scope list_scope.
Close Scope Z_scope.

Definition ascii (b : bytes) : Prop := Forall (fun c => (c < 128)%N) b.
Lemma ascii_chars b : ascii b -> chars b = b.
Proof. intros H. apply text_chars, text_ascii. exact H. Qed.
Lemma ascii_scalar b : ascii b -> Forall scalar b.
Proof. apply Forall_impl. unfold scalar. lia. Qed.
Lemma ascii_string b : ascii b -> string_of b = b.
Proof. intros H. symmetry. apply text_bytes, text_ascii. exact H. Qed.
Lemma lower_ascii c : (c < 128)%N -> (lower c < 128)%N.
Proof. intros H. unfold lower. destruct (_ && _) eqn:E; auto. rewrite andb_true_iff, !N.leb_le in E. lia. Qed.
Lemma ascii_lower b : ascii b -> ascii (map lower b).
Proof. induction 1; constructor; auto. apply lower_ascii; auto. Qed.
Lemma ascii_rev b : ascii b -> ascii (rev b).
Proof. apply Forall_rev. Qed.
Lemma bool_iff (a b : bool) : (a = true <-> b = true) -> a = b.
Proof. destruct a, b; intros H; auto; [symmetry; apply H; auto|apply H; auto]. Qed.

Section Ascii.
Variable lowc : N -> list N.
Variable white cased ignorable : N -> bool.
Variable exp10 : Z -> f64.
Variable lossy : bytes -> bytes.
Hypothesis low_ascii : forall c, (c < 128)%N -> lowc c = [lower c].
Hypothesis white_ascii : forall c, (c < 128)%N -> white c = is_white c.
Hypothesis lossy_ascii : forall b, ascii b -> lossy b = b.

Lemma low_map b : ascii b -> low lowc b = map lower b.
Proof. unfold low. induction 1 as [|c b C H IH]; auto. cbn [flat_map map]. rewrite low_ascii, IH by auto. reflexivity. Qed.
Lemma lows_map b : forall before, ascii b -> lows lowc cased ignorable before b = map lower b.
Proof.
  induction b as [|c b IH]; intros before H; auto. inversion H; subst. cbn [lows map]. destruct (N.eqb_spec c 931) as [->|_]; [lia|].
  rewrite low_ascii, IH by auto. reflexivity.
Qed.
Lemma lowercase_ascii b : ascii b -> to_lowercase lowc cased ignorable b = map lower b.
Proof. intros H. unfold to_lowercase. rewrite ascii_chars, lows_map, ascii_string by auto using ascii_lower. reflexivity. Qed.
Lemma new_lower_ascii b : ascii b -> new_lower lowc b = map lower b.
Proof. intros H. unfold new_lower. rewrite ascii_chars, low_map, ascii_string by auto using ascii_lower. reflexivity. Qed.
Lemma prefix_ascii b n : ascii b -> ascii n -> scase_prefix lowc b n = starts_with (map lower b) n.
Proof.
  intros B N. unfold scase_prefix. rewrite !ascii_chars, low_map by auto. apply bool_iff. rewrite chars_begin_iff, starts_with_app. reflexivity.
Qed.
Lemma suffix_ascii b n : ascii b -> ascii n -> scase_suffix lowc b n = ends_with (map lower b) n.
Proof.
  intros B N. unfold scase_suffix. rewrite !ascii_chars, low_map by auto. apply bool_iff. rewrite ends_with_iff. set (h := map lower b). unfold finishes.
  destruct (Nat.ltb_spec (length h) (length n)) as [L|L].
  - split; [discriminate|]. intros [r E]. rewrite E, app_length in L. lia.
  - rewrite chars_begin_iff. unfold begins. split; intros [r E].
    + assert (R : r = []). { apply (f_equal (@length _)) in E. rewrite skipn_length, app_length in E. destruct r; auto. cbn [length] in E. lia. }
      subst. rewrite app_nil_r in E. exists (firstn (length h - length n) h). rewrite <- E at 2. symmetry. apply firstn_skipn.
    + exists []. rewrite app_nil_r, E, app_length. replace (length r + length n - length n) with (length r) by lia.
      rewrite skipn_app, skipn_all, Nat.sub_diag. reflexivity.
Qed.
Lemma quick_ascii b n : ascii b -> ascii n -> map lower n = n -> equal_quick_str lowc b n = beq b n.
Proof.
  intros B N L. unfold equal_quick_str. rewrite !ascii_chars, low_map, L by auto. apply bool_iff. rewrite beq_eq.
  rewrite <- (ascii_string b B) at 2. rewrite <- (ascii_string n N) at 2. apply zip_same_len; apply ascii_scalar; auto.
Qed.
Lemma equal_ascii c d ic : (c < 128)%N -> (d < 128)%N -> schars_equal lowc c d ic = chars_equal c d ic.
Proof.
  intros C D. unfold schars_equal, chars_equal. destruct (c =? d)%N; auto. destruct (c =? 63)%N; auto. destruct ic; auto. rewrite !low_ascii by auto.
  cbn [beq]. destruct (lower c =? lower d)%N; reflexivity.
Qed.
Lemma head_ascii ic buff : forall wild, ascii buff -> ascii wild -> sglob_head lowc buff wild ic = glob_head buff wild ic.
Proof.
  induction buff as [|b buff IH]; intros wild B W; auto. destruct wild as [|w wild]; auto. inversion B; inversion W; subst.
  cbn [sglob_head glob_head]. rewrite equal_ascii by auto. destruct (w =? STAR)%N; auto. destruct (chars_equal w b ic); auto.
Qed.
Lemma loop_ascii ic fuel : forall buff wild cp mp, ascii buff -> ascii wild -> ascii cp -> ascii mp ->
  sglob_loop lowc fuel buff wild cp mp ic = glob_loop fuel buff wild cp mp ic.
Proof.
  induction fuel as [|f IH]; intros buff wild cp mp B W C M; auto. cbn [sglob_loop glob_loop]. destruct buff as [|b buff]; auto. inversion B; subst.
  assert (X : match cp with [] => Some Panic | _ :: cp' => sglob_loop lowc f cp' mp cp' mp ic end = match cp with [] => Some Panic | _ :: cp' => glob_loop f cp' mp cp' mp ic end).
  { destruct cp; auto. inversion C; subst. apply IH; auto. }
  destruct wild as [|w wild]; auto. inversion W; subst. destruct (w =? STAR)%N.
  - destruct wild; auto.
  - rewrite equal_ascii by auto. destruct (chars_equal w b ic); auto.
Qed.
Lemma head_keeps ic buff : forall wild b w, ascii buff -> ascii wild -> glob_head buff wild ic = inr (b, w) -> ascii b /\ ascii w.
Proof.
  induction buff as [|x buff IH]; intros wild b w B W H; cbn [glob_head] in H.
  - destruct wild; injection H as <- <-; auto.
  - destruct wild as [|y wild]; [discriminate|]. destruct (y =? STAR)%N; [injection H as <- <-; auto|]. destruct (chars_equal y x ic); [|discriminate].
    inversion B; inversion W; subst. eapply IH; eauto.
Qed.
Lemma glob_ascii b p ic : ascii b -> ascii p -> sglob_ok lowc b p ic = glob_ok b p ic.
Proof.
  intros B P. unfold sglob_ok, glob_ok, sglob, glob. rewrite !ascii_chars, head_ascii by auto. destruct (glob_head b p ic) as [v|[b' p']] eqn:E; auto.
  apply head_keeps in E as [B' P']; auto. rewrite loop_ascii; auto; constructor.
Qed.
Lemma drop_ascii b : ascii b -> drop_white white b = trim_white b.
Proof. induction 1; cbn [drop_white trim_white]; auto. rewrite white_ascii by auto. destruct (is_white x); auto. Qed.
Lemma trim_white_ascii b : ascii b -> ascii (trim_white b).
Proof. induction 1; cbn [trim_white]; [constructor|]. destruct (is_white x); auto. constructor; auto. Qed.
Lemma str_trim_ascii b : ascii b -> ascii (str_trim b).
Proof. intros H. unfold str_trim. apply Forall_rev, trim_white_ascii, Forall_rev, trim_white_ascii. exact H. Qed.
Lemma trim_ascii b : ascii b -> u_trim white b = str_trim b.
Proof.
  intros H. unfold u_trim. rewrite ascii_chars, (drop_ascii b), (drop_ascii (rev (trim_white b))) by auto using ascii_rev, trim_white_ascii.
  apply ascii_string, str_trim_ascii. auto.
Qed.
(** The patterns that are looked at as characters. *)
Definition ascii_kind (k : kind) : Prop :=
  match k with KPrefixC p | KSuffixC p | KInfixC p | KExactC p | KGlob p _ => ascii p | _ => True end.
Lemma kind_ascii k b : ascii_kind k -> ascii b -> u_kind_smatch lowc cased ignorable exp10 k b = kind_smatch exp10 k b.
Proof.
  intros K B. destruct k; cbn [u_kind_smatch kind_smatch kind_umatch ascii_kind] in *; auto.
  - rewrite lowercase_ascii, prefix_ascii by auto using ascii_lower. reflexivity.
  - rewrite lowercase_ascii, suffix_ascii by auto using ascii_lower. reflexivity.
  - rewrite !lowercase_ascii by auto. reflexivity.
  - rewrite new_lower_ascii, quick_ascii by auto using ascii_lower, map_lower_lower. reflexivity.
  - rewrite new_lower_ascii by auto. reflexivity.
  - apply glob_ascii; auto.
  - rewrite ascii_chars by auto. reflexivity.
Qed.
Lemma single_ascii m b : ascii_kind (s_kind m) -> ascii b -> u_single_smatch lowc white cased ignorable exp10 m b = single_smatch exp10 m b.
Proof.
  intros K B. unfold u_single_smatch, single_smatch. rewrite trim_ascii by auto. destruct (s_trim m); [pose proof (str_trim_ascii b B)|]; rewrite kind_ascii by auto; reflexivity.
Qed.
Lemma tagged_ascii c l b : Forall (fun m => ascii_kind (s_kind m)) l -> ascii b ->
  tagged c (fun x => u_single_smatch lowc white cased ignorable exp10 x b) l = tagged c (fun x => single_smatch exp10 x b) l.
Proof.
  intros L B. destruct c; cbn [tagged]; induction L; cbn [some_match all_match]; auto; rewrite single_ascii by auto; destruct (single_smatch exp10 x b) as [[]| | ]; cbn [rbind]; auto.
Qed.
Lemma match_ascii m b : match m_body m with inl k => ascii_kind k | inr (_, l) => Forall (fun x => ascii_kind (s_kind x)) l end -> ascii b ->
  u_match lowc white cased ignorable exp10 lossy m b = m_match exp10 m b.
Proof.
  intros K B. unfold u_match, m_match. rewrite lossy_ascii by auto. destruct (m_string m); auto. unfold u_smatch, m_smatch. rewrite trim_ascii by auto.
  set (b' := if m_trim m then str_trim b else b). assert (B' : ascii b') by (unfold b'; destruct (m_trim m); auto using str_trim_ascii).
  destruct (m_empty m && _); auto. destruct (m_body m) as [k|[c l]]; [apply kind_ascii; auto|]. apply tagged_ascii; auto.
Qed.
End Ascii.
Lemma make_kind_ascii regex mk_comp fl ctype ic p t k : ascii p -> make_kind regex mk_comp fl ctype ic p = Ok (t, k) -> ascii_kind k.
Proof.
  intros P. unfold make_kind. cbv zeta.
  assert (L : forall k', length_new p = Ok k' -> ascii_kind k').
  { intros k' H. unfold length_new in H. repeat match type of H with
      | context [match ?x with _ => _ end] => destruct x; try discriminate
      | context [rbind ?x _] => destruct x; cbn [rbind] in H; try discriminate
      end; injection H as <-; exact I. }
  repeat match goal with |- (if ?x then _ else _) = _ -> _ => destruct x end; intros H;
    try (destruct (length_new p) as [k'| | ] eqn:E; cbn [rbind] in H; try discriminate; injection H as _ <-; apply L; reflexivity);
    repeat match type of H with context [rbind ?x _] => destruct x; cbn [rbind] in H; try discriminate end;
    try discriminate; try (destruct ic); injection H as _ <-; cbn [ascii_kind]; auto.
Qed.
Lemma split_str_ascii d l : ascii l -> Forall ascii (split_str d l).
Proof.
  induction 1 as [|c l C H IH]; cbn [split_str]. { repeat constructor. }
  destruct (c =? d)%N. { constructor; auto. constructor. }
  destruct (split_str d l) as [|x xs]. { repeat constructor; auto. }
  inversion IH; subst. constructor; auto. constructor; auto.
Qed.
Lemma make2_ascii regex mk_comp fl method p m : ascii p -> make2 regex mk_comp fl method p = Ok m ->
  match m_body m with inl k => ascii_kind k | inr (_, l) => Forall (fun x => ascii_kind (s_kind x)) l end.
Proof.
  intros P. unfold make2. cbv zeta. set (f := method_flags method). destruct (f_multi f) as [c|].
  - destruct p as [|d rest]; [discriminate|]. inversion P as [|? ? _ R]; subst. apply (split_str_ascii d) in R. revert R. generalize (split_str d rest). intros ps R.
    destruct (make_members regex mk_comp fl f ps) as [l| | ] eqn:E; cbn [rbind]; try discriminate. intros H. injection H as <-. cbn [m_body].
    revert l E. induction R as [|q ps Q R IH]; cbn [make_members]; intros l E; [injection E as <-; constructor|].
    destruct (make_kind regex mk_comp fl (f_ctype f) (f_case f) q) as [[t k]| | ] eqn:K; cbn [rbind] in E; try discriminate.
    destruct (make_members regex mk_comp fl f ps) as [l'| | ]; cbn [rbind] in E; try discriminate. injection E as <-. constructor; auto.
    cbn [s_kind snd]. eapply make_kind_ascii; eauto.
  - destruct (make_kind regex mk_comp fl (f_ctype f) (f_case f) p) as [[t k]| | ] eqn:K; cbn [rbind]; try discriminate. intros H. injection H as <-.
    cbn [m_body snd]. eapply make_kind_ascii; eauto.
Qed.
