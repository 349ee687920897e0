(** Proofs about the column encoders and splitters. *)
From Coq Require Import List NArith Bool Arith Lia.
Import ListNotations.
From Verif Require Import Base TextSpec TextModel.

(** ** Slices of a growing buffer *)

Lemma get_part_app l x b e : e <= length l -> get_part (l ++ x) (b, e) = get_part l (b, e).
Proof.
  intros H. unfold get_part; simpl.
  destruct (Nat.le_gt_cases e b) as [Hb|Hb].
  - replace (e - b) with 0 by lia. reflexivity.
  - rewrite skipn_app. rewrite firstn_app.
    rewrite skipn_length.
    replace (e - b - (length l - b)) with 0 by lia. simpl. rewrite app_nil_r. reflexivity.
Qed.

(** Link between the slice representation and plain lists of fields. *)
Definition sinv (tmp : bytes) (parts : list slice) (b e : nat) (fields : list bytes) (cur : bytes) : Prop :=
  map (get_part tmp) parts = fields /\ e = length tmp /\ b <= e /\ skipn b tmp = cur /\
  Forall (fun p => snd p <= length tmp) parts.

Lemma sinv_init : sinv [] [] 0 0 [] [].
Proof. repeat split; auto. Qed.

Lemma sinv_emit tmp parts b e fields cur c :
  sinv tmp parts b e fields cur -> sinv (tmp ++ [c]) parts b (e + 1) fields (cur ++ [c]).
Proof.
  intros (Hm & He & Hb & Hs & Hf). subst e. unfold sinv. repeat split.
  - rewrite <- Hm. apply map_ext_in. intros [b0 e0] Hin.
    rewrite Forall_forall in Hf. apply get_part_app. apply (Hf _ Hin).
  - rewrite app_length; simpl; lia.
  - lia.
  - rewrite skipn_app. rewrite Hs. replace (b - length tmp) with 0 by lia. reflexivity.
  - eapply Forall_impl; [|exact Hf]. intros a Ha. rewrite app_length; simpl in *; lia.
Qed.

Lemma sinv_delim tmp parts b e fields cur c :
  sinv tmp parts b e fields cur ->
  sinv (tmp ++ [c]) (parts ++ [(b, e)]) (e + 1) (e + 1) (fields ++ [cur]) [].
Proof.
  intros (Hm & He & Hb & Hs & Hf). subst e. unfold sinv. repeat split.
  - rewrite map_app. f_equal.
    + rewrite <- Hm. apply map_ext_in. intros [b0 e0] Hin.
      rewrite Forall_forall in Hf. apply get_part_app. apply (Hf _ Hin).
    + simpl. f_equal. rewrite get_part_app by lia. unfold get_part; simpl.
      rewrite <- Hs. rewrite firstn_all2; auto. rewrite skipn_length; lia.
  - rewrite app_length; simpl; lia.
  - lia.
  - rewrite skipn_all2; auto. rewrite app_length; simpl; lia.
  - apply Forall_app; split.
    + eapply Forall_impl; [|exact Hf]. intros a Ha. rewrite app_length; simpl in *; lia.
    + constructor; auto. simpl. rewrite app_length; simpl; lia.
Qed.

Lemma sinv_last tmp parts b e fields cur :
  sinv tmp parts b e fields cur ->
  map (get_part tmp) (parts ++ [(b, e)]) = fields ++ [cur].
Proof.
  intros (Hm & He & Hb & Hs & Hf). rewrite map_app, Hm. simpl. f_equal. f_equal.
  unfold get_part; simpl. rewrite Hs. subst cur e.
  rewrite firstn_all2; auto. rewrite skipn_length; lia.
Qed.

Lemma sinv_empty tmp parts b e fields cur :
  sinv tmp parts b e fields cur -> (b = e <-> cur = []).
Proof.
  intros (Hm & He & Hb & Hs & Hf). split; intros H.
  - subst. apply skipn_all2. lia.
  - assert (length (skipn b tmp) = 0) by (rewrite Hs, H; reflexivity).
    rewrite skipn_length in H0. lia.
Qed.

(** ** split_on *)

Lemma split_on_nonempty d l : split_on d l <> [].
Proof. destruct l as [|c l]; simpl; try congruence. destruct (c =? d)%N; try congruence. destruct (split_on d l); congruence. Qed.

(** [split_on] with a pending prefix. *)
Definition splita (cur : bytes) (d : byte) (l : bytes) : list bytes :=
  match split_on d l with [] => [cur] | f :: fs => (cur ++ f) :: fs end.

Lemma splita_nil cur d : splita cur d [] = [cur].
Proof. unfold splita; simpl. rewrite app_nil_r. reflexivity. Qed.

Lemma splita_delim cur d l : splita cur d (d :: l) = cur :: splita [] d l.
Proof.
  unfold splita; simpl. rewrite N.eqb_refl. rewrite app_nil_r.
  destruct (split_on d l) eqn:E; auto. exfalso; eapply split_on_nonempty; eauto.
Qed.

Lemma splita_other cur d c l : c <> d -> splita cur d (c :: l) = splita (cur ++ [c]) d l.
Proof.
  intros H. unfold splita; simpl. apply N.eqb_neq in H. rewrite H.
  destruct (split_on d l) eqn:E.
  - exfalso; eapply split_on_nonempty; eauto.
  - rewrite <- app_assoc. reflexivity.
Qed.

Lemma splita_start d l : splita [] d l = split_on d l.
Proof. unfold splita. destruct (split_on d l) eqn:E; auto. exfalso; eapply split_on_nonempty; eauto. Qed.

Lemma splita_nonempty cur d l : splita cur d l <> [].
Proof. unfold splita. destruct (split_on d l); congruence. Qed.

Lemma splita_plain cur d f l :
  ~ In d f -> splita cur d (f ++ l) = splita (cur ++ f) d l.
Proof.
  revert cur; induction f as [|c f IH]; intros cur H; simpl.
  - rewrite app_nil_r; auto.
  - rewrite splita_other by (intro; subst; apply H; left; auto).
    rewrite IH by (intro; apply H; right; auto). rewrite <- app_assoc. reflexivity.
Qed.

Lemma split_join d fs : fs <> [] -> Forall (fun f => ~ In d f) fs -> split_on d (join d fs) = fs.
Proof.
  intros Hne HF. rewrite <- splita_start.
  induction fs as [|f fs IH]; [congruence|].
  inversion HF; subst. destruct fs as [|g fs].
  - simpl. rewrite <- (app_nil_r f) at 1. rewrite splita_plain by auto. apply splita_nil.
  - change (join d (f :: g :: fs)) with (f ++ d :: join d (g :: fs)).
    rewrite splita_plain by auto. simpl app. rewrite splita_delim. f_equal. apply IH; auto; congruence.
Qed.

Lemma join_split d l : join d (split_on d l) = l.
Proof.
  induction l as [|c l IH]; simpl; auto.
  destruct (c =? d)%N eqn:E.
  - apply N.eqb_eq in E; subst.
    destruct (split_on d l) eqn:E2; [exfalso; eapply split_on_nonempty; eauto|].
    simpl in *. rewrite IH. reflexivity.
  - destruct (split_on d l) as [|f fs] eqn:E2; [exfalso; eapply split_on_nonempty; eauto|].
    destruct fs; simpl in *; rewrite <- IH; reflexivity.
Qed.

(** ** split_plain *)

Lemma split_plain_loop_inv d l : forall pre parts b e fields cur,
  sinv pre parts b e fields cur ->
  exists parts' b' e' fields' cur',
    split_plain_loop d l parts b e = (parts', b', e') /\
    sinv (pre ++ l) parts' b' e' fields' cur' /\
    fields' ++ [cur'] = fields ++ splita cur d l.
Proof.
  induction l as [|c l IH]; intros pre parts b e fields cur H; simpl.
  - do 5 eexists. split; [reflexivity|]. rewrite app_nil_r. split; [exact H|].
    rewrite splita_nil. reflexivity.
  - destruct (c =? d)%N eqn:E.
    + apply N.eqb_eq in E; subst c.
      apply (sinv_delim _ _ _ _ _ _ d) in H.
      destruct (IH _ _ _ _ _ _ H) as (p' & b' & e' & f' & c' & H1 & H2 & H3).
      exists p', b', e', f', c'. split; [exact H1|]. split.
      * rewrite <- app_assoc in H2. exact H2.
      * rewrite H3, splita_delim, <- app_assoc. reflexivity.
    + apply N.eqb_neq in E.
      apply (sinv_emit _ _ _ _ _ _ c) in H.
      destruct (IH _ _ _ _ _ _ H) as (p' & b' & e' & f' & c' & H1 & H2 & H3).
      exists p', b', e', f', c'. split; [exact H1|]. split.
      * rewrite <- app_assoc in H2. exact H2.
      * rewrite H3, splita_other by auto. reflexivity.
Qed.

(** A line ending in newline: exactly the pieces between delimiters. *)
Lemma split_plain_nl d l : d <> NL ->
  map (get_part (l ++ [NL])) (split_plain (l ++ [NL]) d) = split_on d l.
Proof.
  intros Hd. unfold split_plain.
  destruct (split_plain_loop_inv d (l ++ [NL]) [] [] 0 0 [] [] sinv_init)
    as (p & b & e & f & cur & H1 & H2 & H3).
  simpl app in H2. rewrite H1. simpl in H3.
  assert (Hsplit : splita [] d (l ++ [NL]) =
    match rev (splita [] d l) with x :: r => rev r ++ [x ++ [NL]] | [] => [] end).
  { assert (G : forall l cur, splita cur d (l ++ [NL]) =
      match rev (splita cur d l) with x :: r => rev r ++ [x ++ [NL]] | [] => [] end).
    { clear -Hd. induction l as [|c l IH]; intros cur.
      - simpl app. rewrite splita_other by congruence. rewrite !splita_nil. reflexivity.
      - simpl app. destruct (N.eq_dec c d) as [->|Hc].
        + rewrite !splita_delim. rewrite IH. simpl.
          destruct (rev (splita [] d l)) as [|x r] eqn:E.
          * exfalso. apply (splita_nonempty [] d l). rewrite <- (rev_involutive (splita [] d l)), E. reflexivity.
          * simpl. rewrite rev_app_distr. simpl. reflexivity.
        + rewrite !splita_other by auto. apply IH. }
    apply G. }
  rewrite Hsplit in H3. rewrite splita_start in H3.
  destruct (rev (split_on d l)) as [|x r] eqn:E.
  { exfalso. apply (split_on_nonempty d l). rewrite <- (rev_involutive (split_on d l)), E. reflexivity. }
  apply app_inj_tail in H3 as [Hf Hc]. subst f cur.
  assert (Hne : Nat.eqb b e = false).
  { apply Nat.eqb_neq. intro Hbe. apply (sinv_empty _ _ _ _ _ _ H2) in Hbe.
    destruct x; discriminate. }
  rewrite Hne.
  destruct H2 as (Hm & He & Hb & Hs & HF). subst e.
  rewrite app_length. simpl. replace (length l + 1 - 1) with (length l) by lia.
  rewrite app_nth2 by lia. rewrite Nat.sub_diag. simpl. 
  rewrite map_app, Hm. simpl. 
  replace (split_on d l) with (rev r ++ [x]).
  2:{ rewrite <- (rev_involutive (split_on d l)), E. reflexivity. }
  f_equal. f_equal. unfold get_part; simpl. rewrite Hs.
  assert (length (x ++ [NL]) = length l + 1 - b).
  { rewrite <- Hs, skipn_length, app_length. reflexivity. }
  rewrite app_length in H. simpl in H.
  rewrite firstn_app. replace (length l - b - length x) with 0 by lia. simpl. rewrite app_nil_r.
  apply firstn_all2. lia.
Qed.

Lemma write_plain_replace buf tab eol repl : write_plain buf tab eol repl = replace2 tab eol repl buf.
Proof.
  unfold replace2. induction buf as [|c buf IH]; simpl; auto. rewrite IH. f_equal.
  destruct (c =? tab)%N, (c =? eol)%N; reflexivity.
Qed.

Lemma replace2_no_a a b r l : r <> a -> ~ In a (replace2 a b r l).
Proof.
  intros H Hin. unfold replace2 in Hin. apply in_map_iff in Hin as (c & Hc & _).
  destruct (c =? a)%N eqn:E1; [congruence|]. apply N.eqb_neq in E1. destruct (c =? b)%N; congruence.
Qed.

Lemma plain_roundtrip_lemma fields d repl :
  fields <> [] -> d <> NL -> repl <> d ->
  mode_columns QPlain (join d (map (fun f => mode_write QPlain f d NL repl) fields) ++ [NL]) d
  = map (replace2 d NL repl) fields.
Proof.
  intros Hne Hd Hr. unfold mode_columns, mode_write. rewrite split_plain_nl by auto.
  rewrite (map_ext _ (replace2 d NL repl)) by (intro; apply write_plain_replace).
  apply split_join.
  - destruct fields; simpl; congruence.
  - apply Forall_forall. intros x Hx. apply in_map_iff in Hx as (y & <- & _). apply replace2_no_a; auto.
Qed.

Lemma replace2_id a b r l : ~ In a l -> ~ In b l -> replace2 a b r l = l.
Proof.
  induction l as [|c l IH]; intros Ha Hb; simpl; auto.
  rewrite IH by (intro; (apply Ha + apply Hb); right; auto).
  destruct (c =? a)%N eqn:E1. { apply N.eqb_eq in E1; exfalso; apply Ha; left; auto. }
  destruct (c =? b)%N eqn:E2. { apply N.eqb_eq in E2; exfalso; apply Hb; left; auto. }
  reflexivity.
Qed.

(** A line without trailing newline: the same pieces, except that a final empty piece is lost. *)
Definition drop_last_empty (fs : list bytes) : list bytes :=
  match rev fs with [] :: r => rev r | _ => fs end.

Lemma split_plain_raw d l : last l 0%N <> NL -> 
  map (get_part l) (split_plain l d) = drop_last_empty (split_on d l).
Proof.
  intros Hl. unfold split_plain.
  destruct (split_plain_loop_inv d l [] [] 0 0 [] [] sinv_init)
    as (p & b & e & f & cur & H1 & H2 & H3).
  simpl app in H2. rewrite H1. simpl in H3. rewrite splita_start in H3.
  unfold drop_last_empty. rewrite <- H3. rewrite rev_app_distr. cbn [rev app].
  destruct (Nat.eqb b e) eqn:E.
  - apply Nat.eqb_eq in E. apply (sinv_empty _ _ _ _ _ _ H2) in E. subst cur.
    rewrite rev_involutive. destruct H2 as (Hm & _). exact Hm.
  - apply Nat.eqb_neq in E. 
    assert (Hc : cur <> []). { intro Hc. apply (sinv_empty _ _ _ _ _ _ H2) in Hc. auto. }
    destruct cur as [|c0 cur]; [congruence|].
    assert (Hn : nth (e - 1) l 0%N = last l 0%N).
    { destruct H2 as (_ & He & Hb & Hs & _). subst e.
      clear -E Hb. assert (Hl : l <> []) by (intro; subst; simpl in *; lia). clear E Hb.
      destruct (exists_last Hl) as (l' & x & ->). rewrite last_last, app_length. simpl.
      rewrite app_nth2 by lia. replace (length l' + 1 - 1 - length l') with 0 by lia. reflexivity. }
    rewrite Hn. apply N.eqb_neq in Hl. rewrite Hl.
    apply sinv_last in H2. exact H2.
Qed.

(** ** Backslash *)

Lemma unslash_enslash c : c <> 110%N -> c <> 114%N -> c <> 116%N -> unslash (enslash c) = c.
Proof.
  intros H1 H2 H3. unfold enslash.
  destruct (c =? NL)%N eqn:E1. { apply N.eqb_eq in E1; subst; reflexivity. }
  destruct (c =? CR)%N eqn:E2. { apply N.eqb_eq in E2; subst; reflexivity. }
  destruct (c =? TAB)%N eqn:E3. { apply N.eqb_eq in E3; subst; reflexivity. }
  unfold unslash. apply N.eqb_neq in H1, H2, H3. rewrite H1, H2, H3. reflexivity.
Qed.

Definition dinv (s : dec) (fields : list bytes) (cur : bytes) : Prop :=
  sinv (d_tmp s) (d_parts s) (d_begin s) (d_end s) fields cur.

Lemma dinv_emit s fields cur c : dinv s fields cur ->
  dinv (mkdec (d_tmp s ++ [c]) (d_parts s) (d_begin s) (d_end s + 1)) fields (cur ++ [c]).
Proof. apply sinv_emit. Qed.

Lemma dinv_delim s fields cur c : dinv s fields cur ->
  dinv (mkdec (d_tmp s ++ [c]) (d_parts s ++ [(d_begin s, d_end s)]) (d_end s + 1) (d_end s + 1))
    (fields ++ [cur]) [].
Proof. apply sinv_delim. Qed.

Definition ok_delim (d : byte) : Prop :=
  d <> 110%N /\ d <> 114%N /\ d <> 116%N /\ d <> BSL /\ d <> NL.

Lemma bs_loop_field d f : ok_delim d -> forall s fields cur rest,
  dinv s fields cur ->
  exists s', split_backslash_loop d (write_backslash f d NL ++ rest) false s
             = split_backslash_loop d rest false s' /\ dinv s' fields (cur ++ f).
Proof.
  intros Hd. induction f as [|c f IH]; intros s fields cur rest Hs.
  - exists s. rewrite app_nil_r. auto.
  - cbn [write_backslash].
    destruct ((c =? d)%N || (c =? NL)%N || (c =? BSL)%N) eqn:E.
    + cbn [app split_backslash_loop]. rewrite N.eqb_refl.
      assert (Hu : unslash (enslash c) = c).
      { destruct Hd as (H1 & H2 & H3 & H4 & H5).
        apply orb_true_iff in E as [E|E]; [apply orb_true_iff in E as [E|E]|];
        apply N.eqb_eq in E; subst c; try reflexivity. apply unslash_enslash; auto. }
      rewrite Hu.
      destruct (IH (mkdec (d_tmp s ++ [c]) (d_parts s) (d_begin s) (d_end s + 1)) fields (cur ++ [c]) rest)
        as (s' & H1 & H2).
      { apply sinv_emit. exact Hs. }
      exists s'. rewrite <- app_assoc in H2. auto.
    + apply orb_false_iff in E as [E E3]. apply orb_false_iff in E as [E1 E2].
      cbn [app split_backslash_loop]. rewrite E3, E1.
      destruct (IH (mkdec (d_tmp s ++ [c]) (d_parts s) (d_begin s) (d_end s + 1)) fields (cur ++ [c]) rest)
        as (s' & H1 & H2).
      { apply sinv_emit. exact Hs. }
      exists s'. rewrite <- app_assoc in H2. auto.
Qed.

Lemma bs_loop_fields d fs : ok_delim d -> forall f s fields cur,
  dinv s fields cur ->
  exists s' , split_backslash_loop d
                (join d (map (fun f => write_backslash f d NL) (f :: fs))) false s = s' /\
    exists fields' cur', dinv s' fields' cur' /\
      fields' ++ [cur'] = fields ++ (cur ++ f) :: fs.
Proof.
  intros Hd. induction fs as [|g fs IH]; intros f s fields cur Hs.
  - simpl map. simpl join. rewrite <- (app_nil_r (write_backslash f d NL)).
    destruct (bs_loop_field d f Hd s fields cur [] Hs) as (s' & H1 & H2).
    rewrite H1. simpl. exists s'. split; auto. exists fields, (cur ++ f). auto.
  - change (join d (map (fun f0 => write_backslash f0 d NL) (f :: g :: fs)))
      with (write_backslash f d NL ++ d :: join d (map (fun f0 => write_backslash f0 d NL) (g :: fs))).
    destruct (bs_loop_field d f Hd s fields cur
       (d :: join d (map (fun f0 => write_backslash f0 d NL) (g :: fs))) Hs) as (s' & H1 & H2).
    rewrite H1. clear H1. cbn [split_backslash_loop].
    destruct Hd as (Hd1 & Hd2 & Hd3 & Hd4 & Hd5).
    assert (E : (d =? BSL)%N = false) by (apply N.eqb_neq; auto). rewrite E. rewrite N.eqb_refl.
    destruct (IH g (mkdec (d_tmp s' ++ [d]) (d_parts s' ++ [(d_begin s', d_end s')])
                     (d_end s' + 1) (d_end s' + 1)) (fields ++ [cur ++ f]) [])
      as (s'' & H3 & fields' & cur' & H4 & H5).
    { apply sinv_delim. exact H2. }
    exists s''. split; [exact H3|]. exists fields', cur'. split; auto.
    rewrite H5, <- app_assoc. reflexivity.
Qed.

Lemma strip_nl_rev_no l : ~ In NL l -> strip_nl_rev l = l.
Proof.
  destruct l as [|c l]; simpl; auto. intros H.
  destruct (c =? NL)%N eqn:E; auto. apply N.eqb_eq in E; subst. exfalso; apply H; auto.
Qed.

Lemma strip_nls_no l : ~ In NL l -> strip_nls l = l.
Proof. intros H. unfold strip_nls. rewrite strip_nl_rev_no. apply rev_involutive. rewrite <- in_rev; auto. Qed.

Lemma strip_nls_nl l : ~ In NL l -> strip_nls (l ++ [NL]) = l.
Proof.
  intros H. unfold strip_nls. rewrite rev_app_distr. simpl.
  rewrite strip_nl_rev_no. apply rev_involutive. rewrite <- in_rev; auto.
Qed.

Lemma write_backslash_no_nl f d : ok_delim d -> ~ In NL (write_backslash f d NL).
Proof.
  intros (H1 & H2 & H3 & H4 & H5). induction f as [|c f IH]; simpl; auto.
  destruct ((c =? d)%N || (c =? NL)%N || (c =? BSL)%N) eqn:E.
  - intros [Hx|[Hx|Hx]]; auto; try discriminate.
    unfold enslash in Hx.
    destruct (c =? NL)%N eqn:E1; [discriminate|].
    destruct (c =? CR)%N eqn:E2; [discriminate|].
    destruct (c =? TAB)%N eqn:E3; [discriminate|].
    apply N.eqb_neq in E1; auto.
  - intros [Hx|Hx]; auto. subst c. rewrite N.eqb_refl in E.
    rewrite orb_true_r in E. discriminate.
Qed.

Lemma join_no c d fs : c <> d -> Forall (fun f => ~ In c f) fs -> ~ In c (join d fs).
Proof.
  intros Hc. induction fs as [|f fs IH]; intros HF; simpl; auto.
  inversion HF; subst. destruct fs as [|g fs]; auto.
  intro Hin. apply in_app_or in Hin as [Hin|[Hin|Hin]]; auto. apply IH; auto.
Qed.

Lemma backslash_roundtrip_lemma fields d repl :
  ok_delim d -> last fields [NL] <> [] ->
  mode_columns QBackslash (join d (map (fun f => mode_write QBackslash f d NL repl) fields) ++ [NL]) d
  = fields.
Proof.
  intros Hd Hl. unfold mode_columns, split_backslash, mode_write.
  rewrite strip_nls_nl.
  2:{ apply join_no. { intro; subst; destruct Hd as (_&_&_&_&?); congruence. }
      apply Forall_forall. intros x Hx. apply in_map_iff in Hx as (y & <- & _).
      apply write_backslash_no_nl; auto. }
  destruct fields as [|f fs]; [reflexivity|].
  destruct (bs_loop_fields d fs Hd f (mkdec [] [] 0 0) [] [] sinv_init)
    as (s' & H1 & fields' & cur' & H2 & H3).
  rewrite H1. unfold dec_finish. simpl in H3.
  assert (Hc : cur' = last (f :: fs) [NL]). { rewrite <- H3. rewrite last_last. reflexivity. }
  destruct (Nat.eqb (d_begin s') (d_end s')) eqn:E.
  - apply Nat.eqb_eq in E. apply (sinv_empty _ _ _ _ _ _ H2) in E. congruence.
  - rewrite (sinv_last _ _ _ _ _ _ H2). exact H3.
Qed.

(** ** Quotes *)

Lemma quotes_loop_no_dq d l : ~ In DQ l -> forall s lq fields cur,
  dinv s fields cur ->
  exists s' , split_quotes_loop d l lq false s = s' /\
    exists fields' cur', dinv s' fields' cur' /\ fields' ++ [cur'] = fields ++ splita cur d l.
Proof.
  induction l as [|c l IH]; intros Hn s lq fields cur Hs.
  - exists s. split; auto. exists fields, cur. split; auto. rewrite splita_nil; auto.
  - cbn [split_quotes_loop].
    assert (E : (c =? DQ)%N = false) by (apply N.eqb_neq; intro; subst; apply Hn; left; auto).
    rewrite E. destruct (c =? d)%N eqn:E2.
    + apply N.eqb_eq in E2; subst c.
      edestruct IH as (s' & H1 & f' & c' & H2 & H3).
      { intro; apply Hn; right; auto. }
      { apply (dinv_delim s fields cur d). exact Hs. }
      exists s'. split; [exact H1|]. exists f', c'. split; auto.
      rewrite H3, splita_delim, <- app_assoc. reflexivity.
    + apply N.eqb_neq in E2.
      edestruct IH as (s' & H1 & f' & c' & H2 & H3).
      { intro; apply Hn; right; auto. }
      { apply (dinv_emit s fields cur c). exact Hs. }
      exists s'. split; [exact H1|]. exists f', c'. split; auto.
      rewrite H3, splita_other by auto. reflexivity.
Qed.

Lemma write_quotes_id made f d : ~ In DQ f -> ~ In d f -> ~ In NL f -> write_quotes_loop made f d NL = f.
Proof.
  induction f as [|c f IH]; simpl; auto; intros H1 H2 H3.
  assert (E1 : (c =? DQ)%N = false) by (apply N.eqb_neq; intro; subst; apply H1; auto).
  assert (E2 : (c =? d)%N = false) by (apply N.eqb_neq; intro; subst; apply H2; auto).
  assert (E3 : (c =? NL)%N = false) by (apply N.eqb_neq; intro; subst; apply H3; auto).
  rewrite E1, E2, E3. simpl. rewrite andb_false_r. f_equal. apply IH; intro; auto.
Qed.

Lemma quote_roundtrip_lemma fields d repl :
  d <> NL -> d <> DQ -> last fields [NL] <> [] ->
  Forall (fun f => ~ In DQ f /\ ~ In d f /\ ~ In NL f) fields ->
  mode_columns QQuote (join d (map (fun f => mode_write QQuote f d NL repl) fields) ++ [NL]) d = fields.
Proof.
  intros Hd Hq Hl HF. unfold mode_columns, split_quotes, mode_write, write_quotes.
  assert (Hm : map (fun f => write_quotes_loop false f d NL) fields = fields).
  { rewrite <- (map_id fields) at 2. apply map_ext_in. intros f Hin.
    rewrite Forall_forall in HF. destruct (HF _ Hin) as (?&?&?). apply write_quotes_id; auto. }
  rewrite Hm. rewrite strip_nls_nl.
  2:{ apply join_no; auto. eapply Forall_impl; [|exact HF]. simpl; tauto. }
  destruct fields as [|f fs]; [reflexivity|].
  destruct (quotes_loop_no_dq d (join d (f :: fs))) with (s := mkdec [] [] 0 0) (lq := false)
    (fields := @nil bytes) (cur := @nil byte) as (s' & H1 & fields' & cur' & H2 & H3).
  { apply join_no; auto. eapply Forall_impl; [|exact HF]. simpl; tauto. }
  { apply sinv_init. }
  rewrite H1. unfold dec_finish. change (fields' ++ [cur'] = splita [] d (join d (f :: fs))) in H3. rewrite splita_start, split_join in H3.
  2:congruence.
  2:{ eapply Forall_impl; [|exact HF]. simpl; tauto. }
  assert (Hc : cur' = last (f :: fs) [NL]). { rewrite <- H3. rewrite last_last. reflexivity. }
  destruct (Nat.eqb (d_begin s') (d_end s')) eqn:E.
  - apply Nat.eqb_eq in E. apply (sinv_empty _ _ _ _ _ _ H2) in E. congruence.
  - rewrite (sinv_last _ _ _ _ _ _ H2). exact H3.
Qed.

(** Every delimiter byte of the line cuts a column, quoted or not. *)
Lemma quotes_loop_count d l : d <> DQ -> forall s iq,
  length (d_parts (split_quotes_loop d l true iq s)) = length (d_parts s) + count_occ N.eq_dec l d.
Proof.
  intros Hd. induction l as [|c l IH]; intros s iq.
  - simpl. lia.
  - cbn [split_quotes_loop count_occ]. destruct (N.eq_dec c d) as [->|Hc].
    + assert (E : (d =? DQ)%N = false) by (apply N.eqb_neq; auto). rewrite E, N.eqb_refl.
      destruct iq; rewrite IH; cbn [d_parts]; rewrite app_length; simpl; lia.
    + apply N.eqb_neq in Hc. rewrite Hc. destruct iq; destruct (c =? DQ)%N; rewrite IH; reflexivity.
Qed.

Lemma quotes_loop_count0 d l : d <> DQ -> forall s,
  length (d_parts (split_quotes_loop d l false false s)) = length (d_parts s) + count_occ N.eq_dec l d.
Proof.
  intros Hd. induction l as [|c l IH]; intros s.
  - simpl. lia.
  - cbn [split_quotes_loop count_occ]. destruct (N.eq_dec c d) as [->|Hc].
    + assert (E : (d =? DQ)%N = false) by (apply N.eqb_neq; auto). rewrite E, N.eqb_refl.
      rewrite IH; cbn [d_parts]; rewrite app_length; simpl; lia.
    + apply N.eqb_neq in Hc. rewrite Hc. destruct (c =? DQ)%N.
      * apply quotes_loop_count; auto.
      * rewrite IH. reflexivity.
Qed.

Lemma strip_nl_rev_count d l : d <> NL -> count_occ N.eq_dec (strip_nl_rev l) d = count_occ N.eq_dec l d.
Proof.
  intros Hd. induction l as [|c l IH]; simpl; auto.
  destruct (c =? NL)%N eqn:E; auto. apply N.eqb_eq in E; subst c.
  rewrite IH. destruct (N.eq_dec NL d); congruence.
Qed.

Lemma count_rev d l : count_occ N.eq_dec (rev l) d = count_occ N.eq_dec l d.
Proof.
  induction l as [|c l IH]; simpl; auto. rewrite count_occ_app, IH. simpl.
  destruct (N.eq_dec c d); lia.
Qed.

Lemma quote_delims_always_split_lemma d line : d <> DQ -> d <> NL ->
  count_occ N.eq_dec line d <= length (mode_columns QQuote line d).
Proof.
  intros Hd Hn. unfold mode_columns, split_quotes, dec_finish.
  set (s := split_quotes_loop _ _ _ _ _).
  rewrite map_length.
  assert (H : length (d_parts s) = count_occ N.eq_dec line d).
  { unfold s. rewrite quotes_loop_count0 by auto. simpl. unfold strip_nls.
    rewrite count_rev, strip_nl_rev_count by auto. apply count_rev. }
  destruct (Nat.eqb _ _); [|rewrite app_length]; lia.
Qed.

(** Isolated quotes survive. *)
Definition dbl (f : bytes) : bytes := flat_map (fun c => if (c =? DQ)%N then [DQ; DQ] else [c]) f.

Lemma write_quotes_dbl made f d : ~ In d f -> ~ In NL f -> write_quotes_loop made f d NL = dbl f.
Proof.
  induction f as [|c f IH]; simpl; auto; intros H2 H3.
  assert (E2 : (c =? d)%N = false) by (apply N.eqb_neq; intro; subst; apply H2; auto).
  assert (E3 : (c =? NL)%N = false) by (apply N.eqb_neq; intro; subst; apply H3; auto).
  rewrite E2, E3. simpl. rewrite andb_false_r. destruct (c =? DQ)%N; simpl; repeat f_equal; apply IH; intro; auto.
Qed.

Definition noadj (f : bytes) : Prop := forall p q, f <> p ++ DQ :: DQ :: q.

Lemma noadj_cons c f : noadj (c :: f) -> noadj f.
Proof. intros H p q ->. apply (H (c :: p) q). reflexivity. Qed.

Definition qst (lq iq : bool) : Prop := iq = false \/ (iq = true /\ lq = true).

Lemma quotes_field d f : d <> DQ -> ~ In d f -> noadj f -> forall s lq iq fields cur rest,
  (iq = false \/ (iq = true /\ lq = true /\ hd 0%N f <> DQ)) -> dinv s fields cur ->
  exists s' lq' iq', split_quotes_loop d (dbl f ++ rest) lq iq s = split_quotes_loop d rest lq' iq' s' /\
    qst lq' iq' /\ dinv s' fields (cur ++ f).
Proof.
  intros Hd. induction f as [|c f IH]; intros Hn Ha s lq iq fields cur rest Hst Hs.
  - exists s, lq, iq. rewrite app_nil_r. split; [reflexivity|]. split; auto. unfold qst. tauto.
  - assert (Hn' : ~ In d f) by (intro; apply Hn; right; auto).
    assert (Ecd : (c =? d)%N = false) by (apply N.eqb_neq; intro; subst; apply Hn; left; auto).
    pose proof (noadj_cons _ _ Ha) as Ha'.
    cbn [dbl flat_map]. fold (dbl f). destruct (N.eqb_spec c DQ) as [->|Hc].
    + assert (iq = false) as -> by (destruct Hst as [?|(_ & _ & H)]; [auto|exfalso; apply H; reflexivity]).
      cbn [app split_quotes_loop]. change (DQ =? DQ)%N with true. cbn iota.
      edestruct IH with (lq := true) (iq := true) (rest := rest) as (s' & lq' & iq' & E & Hq & Hi); auto.
      { right. repeat split; auto. destruct f as [|x f]; [discriminate|]. simpl. intros ->. apply (Ha [] f). reflexivity. }
      { apply (dinv_emit s fields cur DQ). exact Hs. }
      exists s', lq', iq'. rewrite <- app_assoc in Hi. auto.
    + cbn [app split_quotes_loop]. apply N.eqb_neq in Hc. rewrite Hc, Ecd.
      edestruct IH with (lq := lq) (iq := false) (rest := rest) as (s' & lq' & iq' & E & Hq & Hi); auto.
      { apply (dinv_emit s fields cur c). exact Hs. }
      exists s', lq', iq'. rewrite <- app_assoc in Hi. split; auto.
      destruct Hst as [->|(-> & -> & _)]; exact E.
Qed.

Lemma quotes_fields d fs : d <> DQ -> forall f s lq iq fields cur,
  Forall (fun f => noadj f /\ ~ In d f) (f :: fs) ->
  (iq = false) -> dinv s fields cur ->
  exists s' fields' cur', split_quotes_loop d (join d (map dbl (f :: fs))) lq iq s = s' /\
    dinv s' fields' cur' /\ fields' ++ [cur'] = fields ++ (cur ++ f) :: fs.
Proof.
  intros Hd. induction fs as [|g fs IH]; intros f s lq iq fields cur HF -> Hs.
  - apply Forall_inv in HF as [Ha Hn]. cbn [map join].
    destruct (quotes_field d f Hd Hn Ha s lq false fields cur []) as (s' & lq' & iq' & E & _ & Hi); auto.
    rewrite app_nil_r in E. rewrite E. exists s', fields, (cur ++ f). auto.
  - pose proof (Forall_inv HF) as [Ha Hn]. apply Forall_inv_tail in HF.
    cbn [map]. change (join d (dbl f :: dbl g :: map dbl fs)) with (dbl f ++ d :: join d (map dbl (g :: fs))).
    destruct (quotes_field d f Hd Hn Ha s lq false fields cur (d :: join d (map dbl (g :: fs)))) as (s' & lq' & iq' & E & Hq & Hi); auto.
    rewrite E. apply (dinv_delim s' fields (cur ++ f) d) in Hi.
    apply N.eqb_neq in Hd.
    assert (E2 : split_quotes_loop d (d :: join d (map dbl (g :: fs))) lq' iq' s' =
      split_quotes_loop d (join d (map dbl (g :: fs))) lq' false
        (mkdec (d_tmp s' ++ [d]) (d_parts s' ++ [(d_begin s', d_end s')]) (d_end s' + 1) (d_end s' + 1))).
    { cbn [split_quotes_loop]. rewrite Hd, N.eqb_refl. destruct Hq as [->|(-> & ->)]; reflexivity. }
    rewrite E2. destruct (IH g _ lq' false _ _ HF eq_refl Hi) as (s2 & f2 & c2 & E3 & H2 & H3).
    exists s2, f2, c2. split; auto. split; auto. rewrite H3, <- app_assoc. reflexivity.
Qed.

Lemma dbl_no c f : c <> DQ -> ~ In c f -> ~ In c (dbl f).
Proof.
  intros Hc. induction f as [|x f IH]; simpl; auto. intros H. destruct (N.eqb_spec x DQ); simpl; intuition congruence.
Qed.

Lemma quote_roundtrip_iso fields d repl :
  d <> NL -> d <> DQ -> last fields [NL] <> [] ->
  Forall (fun f => noadj f /\ ~ In d f /\ ~ In NL f) fields ->
  mode_columns QQuote (join d (map (fun f => mode_write QQuote f d NL repl) fields) ++ [NL]) d = fields.
Proof.
  intros Hd Hq Hl HF. unfold mode_columns, split_quotes, mode_write, write_quotes.
  assert (Hm : map (fun f => write_quotes_loop false f d NL) fields = map dbl fields).
  { apply map_ext_in. intros f Hin.
    rewrite Forall_forall in HF. destruct (HF _ Hin) as (?&?&?). apply write_quotes_dbl; auto. }
  rewrite Hm. rewrite strip_nls_nl.
  2:{ apply join_no; auto. apply Forall_map. eapply Forall_impl; [|exact HF]. simpl; intros a (_ & _ & H). apply dbl_no; auto. discriminate. }
  destruct fields as [|f fs]; [reflexivity|].
  destruct (quotes_fields d fs Hq f (mkdec [] [] 0 0) false false [] []) as (s' & fields' & cur' & H1 & H2 & H3); auto.
  { eapply Forall_impl; [|exact HF]. simpl; tauto. }
  { apply sinv_init. }
  rewrite H1. unfold dec_finish.
  cbn [app] in H3.
  assert (Hc : cur' = last (f :: fs) [NL]). { rewrite <- H3. rewrite last_last. reflexivity. }
  destruct (Nat.eqb (d_begin s') (d_end s')) eqn:E.
  - apply Nat.eqb_eq in E. apply (sinv_empty _ _ _ _ _ _ H2) in E. congruence.
  - rewrite (sinv_last _ _ _ _ _ _ H2). exact H3.
Qed.

Lemma write_quotes_made f d eol : write_quotes_loop true f d eol = dbl f.
Proof. induction f as [|c f IH]; simpl; auto. destruct (c =? DQ)%N; simpl; rewrite IH; reflexivity. Qed.

Lemma quote_written_lemma pre c post d (repl : byte) : d <> DQ -> 
  ~ In d pre -> ~ In NL pre -> (c = d \/ c = NL) ->
  mode_write QQuote pre d NL repl = dbl pre /\
  mode_write QQuote (pre ++ [c] ++ post) d NL repl = dbl pre ++ [DQ; c] ++ dbl post.
Proof.
  intros Hd H1 H2 Hc. unfold mode_write, write_quotes. split; [apply write_quotes_dbl; auto|].
  change ([c] ++ post) with (c :: post).
  induction pre as [|x pre IH].
  - cbn [app write_quotes_loop]. assert (E : (c =? DQ)%N = false) by (apply N.eqb_neq; destruct Hc; subst; [auto|discriminate]).
    rewrite E. assert (E2 : (c =? d)%N || (c =? NL)%N = true).
    { destruct Hc; subst; rewrite N.eqb_refl; auto. apply orb_true_r. }
    rewrite E2. cbn. rewrite write_quotes_made. reflexivity.
  - cbn [app write_quotes_loop]. 
    assert (Ed : (x =? d)%N = false) by (apply N.eqb_neq; intro; subst; apply H1; left; auto).
    assert (En : (x =? NL)%N = false) by (apply N.eqb_neq; intro; subst; apply H2; left; auto).
    rewrite Ed, En. cbn [orb negb andb]. rewrite IH by (intro; (apply H1 + apply H2); right; auto).
    cbn [dbl flat_map]. destruct (x =? DQ)%N; reflexivity.
Qed.
