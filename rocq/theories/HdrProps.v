(** C08: output headers; C62: names of files without header; C63: written headers read back. *)
From Coq Require Import String List NArith ZArith Bool Arith Lia FinFun.
Open Scope list_scope.
Import ListNotations.
From Verif Require Import Base TextSpec TextModel TextProofs StrSpec StrModel StrProofs ReadModel TransProofs HdrModel HdrSpec HdrProofs.
Close Scope Z_scope.

Section Chars.
(** Every choice of Unicode classes. *)
Variable uni_alpha uni_alnum : N -> bool.
Notation push := (push uni_alpha uni_alnum).
Notation letter := (alphabetic uni_alpha).
Notation alnum := (alphanumeric uni_alnum).

(** C08. Unless duplicates are allowed, any sequence of pushes, accepted or rejected, keeps the names distinct and only ever appends. *)
Theorem c08_unique : forall names h, h_dups h <> DAllow -> NoDup (h_cols h) ->
  NoDup (h_cols (fold_left (fun h n => fst (push h n)) names h)) /\
  exists more, h_cols (fold_left (fun h n => fst (push h n)) names h) = h_cols h ++ more.
Proof. exact (pushes_unique uni_alpha uni_alnum). Qed.

(** C08. A rejected name leaves the header as it was, and a name is rejected only if it is malformed, or taken while neither a rename
    nor the policy offers another name. *)
Theorem c08_rejected : forall h n h', push h n = (h', false) ->
  h' = h /\ rejected letter alnum (h_cols h) (h_dups h) (h_rename h) n.
Proof. intros h n h' H. apply push_cases in H as [(_ & A & B)|(A & _)]; [auto|discriminate]. Qed.
(** C08. A name with no reason for rejection is accepted. *)
Theorem c08_accepts : forall h n, ~ rejected letter alnum (h_cols h) (h_dups h) (h_rename h) n -> snd (push h n) = true.
Proof. intros h n H. destruct (push h n) as [h' []] eqn:E; auto. apply c08_rejected in E as [_ E]. tauto. Qed.

(** C08. An accepted name appends exactly one entry: the name itself if it is free, else the target of its first rename, which is used
    up, else what the policy says, the smallest free number for the numbering policy. Missing: with numbering, when name1 to name9999
    are all taken (see c08_numeric_refuted). *)
Theorem c08_accepted_partial : forall h n h', push h n = (h', true) ->
  (exists k, (1 <= k < 10000)%N /\ ~ In (n ++ print_N k) (h_cols h)) ->
  h_dups h' = h_dups h /\ well_named letter alnum n /\
  exists x, h_cols h' = h_cols h ++ [x] /\ entry (h_cols h) (h_dups h) (h_rename h) n x (h_rename h').
Proof.
  intros h n h' H (k & K & F). apply push_cases in H as [(A & _)|(_ & D & _ & W & [E|(_ & _ & _ & _ & A)])]; [discriminate|auto|].
  exfalso. apply F. apply A. auto.
Qed.

(** C08 is false of the ten thousand and first column of one name: it is accepted and no entry is added. *)
Theorem c08_numeric_refuted : exists names, Forall (well_named letter alnum) names /\
  let '(h, ok) := push_all uni_alpha uni_alnum (set_handling hdr_new DNumeric) names in
  ok = true /\ h_cols h = names /\ push h (bs "a") = (h, true).
Proof.
  exists (bs "a" :: map (fun k => bs "a" ++ print_N (N.of_nat k)) (seq 1 (N.to_nat 9999))).
  remember (N.to_nat 9999) as lim eqn:Elim.
  assert (W : Forall (well_named letter alnum) (bs "a" :: map (fun k => bs "a" ++ print_N (N.of_nat k)) (seq 1 lim))).
  { constructor; [cbn; auto|]. apply Forall_forall. intros x X. apply in_map_iff in X as (k & <- & _). cbn. split; auto.
    apply Forall_forall. intros c C. left. unfold print_N in C. pose proof (IpProofs.digits_digit (N.to_uint (N.of_nat k))) as F.
    rewrite Forall_forall in F. specialize (F c C). unfold CompSpec.digit_byte in F. unfold alphanumeric, is_digit.
    destruct (N.ltb_spec c 128); [|lia]. apply orb_true_iff. right. lia. }
  split; auto.
  assert (ND : NoDup (bs "a" :: map (fun k => bs "a" ++ print_N (N.of_nat k)) (seq 1 lim))).
  { constructor.
    - intros X. apply in_map_iff in X as (k & E & _). destruct (print_N_head (N.of_nat k)) as (c & r & P & _). rewrite P in E. discriminate.
    - apply FinFun.Injective_map_NoDup; [|apply seq_NoDup]. intros a b E. apply (app_inv_head (bs "a")) in E. apply print_N_inj in E. lia. }
  rewrite push_all_fresh; auto. cbn [h_cols set_handling hdr_new app].
  split; auto. split; auto.
  apply push_full; auto.
  - cbn. auto.
  - left. auto.
  - intros k K. right. apply in_map_iff. exists (N.to_nat k). rewrite N2Nat.id. split; auto. apply in_seq. rewrite Elim. lia.
Qed.

(** C08. Renames left over are reported unless that is switched off. *)
Theorem c08_unused_renames : forall h, check_rename h = true <-> h_sloppy h = true \/ h_rename h = [].
Proof. intros [c d r s]. unfold check_rename. cbn. destruct s, r; cbn; intuition congruence. Qed.

(** C08 is false of rename targets: they are not checked, so a name with a blank or a delimiter gets into the header. *)
Theorem c08_rename_target_refuted : exists h0 names, snd (hdr_rename (bs "a.b c") h0) = true /\
  let '(h, ok) := push_all uni_alpha uni_alnum (fst (hdr_rename (bs "a.b c") h0)) names in
  ok = true /\ ~ Forall (well_named letter alnum) (h_cols h).
Proof.
  exists hdr_new, [bs "a"; bs "a"]. split; [reflexivity|].
  cbn. split; auto. intros H. inversion H; subst. inversion H3; subst. destruct H4 as [_ H4]. inversion H4; subst. destruct H6; cbn in *; discriminate.
Qed.
(** C08. Pushing a list of names stops at the first rejected one: all are accepted one after the other, or the names before the
    rejected one are, and nothing after it is looked at. *)
Theorem c08_push_all : forall names h h' ok, push_all uni_alpha uni_alnum h names = (h', ok) ->
  exists taken rest, names = taken ++ rest /\ pushed (fun h n h' => push h n = (h', true)) h taken h' /\
    match rest with [] => ok = true | n :: _ => ok = false /\ push h' n = (h', false) end.
Proof.
  induction names as [|n names IH]; intros h h' ok H; cbn [push_all] in H.
  - injection H as <- <-. exists [], []. repeat split. constructor.
  - destruct (push h n) as [h1 b] eqn:E. destruct b.
    + destruct (IH _ _ _ H) as (taken & rest & -> & P & R). exists (n :: taken), rest. split; [reflexivity|]. split; [|exact R].
      econstructor; eauto.
    + injection H as <- <-. exists [], (n :: names). destruct (c08_rejected _ _ _ E) as [-> _]. repeat split; auto. constructor.
Qed.

(** C08. A rename specification adds its renames after the earlier ones, in the order written. *)
Theorem c08_rename_spec : forall rs h, rs <> [] ->
  Forall (fun r => ~ In 46%N (fst r) /\ ~ In 44%N (fst r) /\ ~ In 44%N (snd r)) rs ->
  hdr_rename (join 44 (map (fun r => fst r ++ 46%N :: snd r) rs)) h =
  (mkhdr (h_cols h) (h_dups h) (h_rename h ++ rs) (h_sloppy h), true).
Proof.
  intros rs h Hn H. unfold hdr_rename.
  assert (E : MatchModel.split_str 44 (join 44 (map (fun r : bytes * bytes => fst r ++ 46%N :: snd r) rs)) = map (fun r => fst r ++ 46%N :: snd r) rs).
  { apply split_str_join; [destruct rs; [congruence|discriminate]|]. apply Forall_forall. intros x Hx. apply in_map_iff in Hx as (r & <- & Hr).
    rewrite Forall_forall in H. destruct (H r Hr) as (_ & A & B). rewrite in_app_iff. intros [X|[X|X]]; auto. discriminate. }
  assert (L : forall rs h, Forall (fun r => ~ In 46%N (fst r) /\ ~ In 44%N (fst r) /\ ~ In 44%N (snd r)) rs ->
    rename_loop (map (fun r => fst r ++ 46%N :: snd r) rs) h = (mkhdr (h_cols h) (h_dups h) (h_rename h ++ rs) (h_sloppy h), true)).
  { clear. induction rs as [|r rs IH]; intros h H; cbn [map rename_loop]; [rewrite app_nil_r; destruct h; reflexivity|].
    inversion H as [|? ? (A & _) H']; subst. unfold name_map. rewrite split_once_app by auto. rewrite IH by auto. cbn [h_cols h_dups h_rename h_sloppy].
    rewrite <- app_assoc. destruct r; reflexivity. }
  destruct (join 44 _) as [|c t] eqn:J.
  - exfalso. destruct rs as [|r [|r2 rs]]; [congruence| |]; cbn in J; destruct (fst r); discriminate.
  - rewrite E. apply L. exact H.
Qed.
End Chars.

Definition no_uni : N -> bool := fun _ => false.
Example c08_unique_ex : let h := mkhdr [] DNumeric [(bs "b", bs "bee")] false in
  h_dups h <> DAllow /\ NoDup (h_cols h) /\
  h_cols (fold_left (fun h n => fst (push no_uni no_uni h n)) [bs "a"; bs "b"; bs "2x"; bs "a"; bs "b"; bs "b"; bs "a"] h) =
  [bs "a"; bs "b"; bs "a1"; bs "bee"; bs "b1"; bs "a2"].
Proof. split; [discriminate|]. split; [constructor|vm_compute; reflexivity]. Qed.
Example c08_rejected_ex : let h := mkhdr [bs "a"; bs "c"] DNumeric [(bs "a", bs "c")] false in
  push no_uni no_uni h (bs "a") = (h, false) /\ push no_uni no_uni h (bs "a b") = (h, false).
Proof. split; vm_compute; reflexivity. Qed.
Example c08_accepts_ex : let h := mkhdr [bs "a"; bs "c"] DFail [(bs "a", bs "d")] false in
  ~ rejected (alphabetic no_uni) (alphanumeric no_uni) (h_cols h) (h_dups h) (h_rename h) (bs "a").
Proof.
  intros h [H|(_ & [(a & t & b & (H & F) & I)|(H & _)])].
  - apply H. cbn. auto.
  - destruct a as [|p a]; [|destruct a; discriminate]. injection H as <- <-. cbn in I. intuition discriminate.
  - apply H. left. reflexivity.
Qed.
Example c08_accepted_partial_ex : let h := mkhdr [bs "a"; bs "a1"] DNumeric [] false in
  push no_uni no_uni h (bs "a") = (mkhdr [bs "a"; bs "a1"; bs "a2"] DNumeric [] false, true) /\
  (exists k, (1 <= k < 10000)%N /\ ~ In (bs "a" ++ print_N k) (h_cols h)).
Proof. split; [vm_compute; reflexivity|]. exists 2%N. split; [lia|]. cbn. intuition discriminate. Qed.
Example c08_push_all_ex : push_all no_uni no_uni (mkhdr [] DFail [] false) [bs "a"; bs "b"; bs "a"; bs "c"] = (mkhdr [bs "a"; bs "b"] DFail [] false, false) /\
  push_all no_uni no_uni (mkhdr [] DNumeric [] false) [bs "a"; bs "b"; bs "a"] = (mkhdr [bs "a"; bs "b"; bs "a1"] DNumeric [] false, true).
Proof. split; vm_compute; reflexivity. Qed.
Example c08_rename_spec_ex : hdr_rename (bs "a.b,c.d.e") (mkhdr [] DFail [(bs "x", bs "y")] false) =
  (mkhdr [] DFail [(bs "x", bs "y"); (bs "a", bs "b"); (bs "c", bs "d.e")] false, true).
Proof. reflexivity. Qed.
Example c08_unused_renames_ex : check_rename (mkhdr [bs "a"] DFail [(bs "a", bs "d")] false) = false /\
  check_rename (mkhdr [bs "a"] DFail [(bs "a", bs "d")] true) = true.
Proof. split; reflexivity. Qed.

(** C62. A tab-delimited file without header gets the names c1, c2 and so on, one for each column of its first line; so does the
    sorter's own reading of it. *)
Theorem c62_tab : forall n, 0 < n -> fake_names TAB n = map (fun i => bs "c" ++ print_N (N.of_nat i)) (seq 1 n).
Proof.
  intros n H. unfold fake_names, fake_head. rewrite fake_text by auto. rewrite split_plain_nl by discriminate.
  apply split_on_join; [destruct n; [lia|discriminate]|]. apply Forall_forall. intros f F. apply in_map_iff in F as (i & <- & _).
  apply fake_no; [unfold TAB; lia|discriminate].
Qed.
Example c62_tab_ex : fake_names TAB 3 = [bs "c1"; bs "c2"; bs "c3"].
Proof. reflexivity. Qed.
Theorem c62_sorter : forall l, starts_with l CDX = false ->
  make_header l = Ok (map (fun i => bs "c" ++ print_N (N.of_nat i)) (seq 1 (List.length (split_on TAB l)))).
Proof.
  intros l H. unfold make_header. rewrite H.
  assert (P : 0 < List.length (split_on TAB l)).
  { destruct l as [|c l]; cbn; [lia|]. destruct (c =? TAB)%N; cbn; [lia|]. destruct (split_on TAB l); cbn; lia. }
  rewrite fake_text by auto. set (n := List.length (split_on TAB l)) in *. clearbody n.
  assert (F : Forall (fun f => ~ In TAB f) (map (fun i => bs "c" ++ print_N (N.of_nat i)) (seq 1 n))).
  { apply Forall_forall. intros f X. apply in_map_iff in X as (i & <- & _). apply fake_no; [unfold TAB; lia|discriminate]. }
  rewrite split_plain_raw.
  - rewrite split_on_join; auto; [|destruct n; [lia|discriminate]]. f_equal.
    destruct n as [|n]; [lia|]. rewrite seq_S, map_app. cbn [map]. unfold drop_last_empty. rewrite rev_app_distr. reflexivity.
  - intros L. assert (I : In NL (join TAB (map (fun i => bs "c" ++ print_N (N.of_nat i)) (seq 1 n)))).
    { rewrite <- L. destruct (join TAB _) as [|c r] eqn:J; [discriminate L|].
      destruct (exists_last (l := c :: r)) as (q & x & Q); [discriminate|]. rewrite Q, last_last. apply in_or_app. right. left. auto. }
    apply in_join in I as [I|(f & F1 & F2)]; [discriminate|]. apply in_map_iff in F1 as (i & <- & _). revert F2.
    apply fake_no; [unfold NL; lia|discriminate].
Qed.
Example c62_sorter_ex : make_header (bs "xy" ++ [TAB] ++ bs "z" ++ [NL]) = Ok [bs "c1"; bs "c2"].
Proof. reflexivity. Qed.
(** C62 is false of every other delimiter: the made-up names are joined with tabs but split at the delimiter, so the whole file has a
    single name, and that one is no acceptable name: selecting a column of such a file by number fails on its name. *)
Theorem c62_delim_refuted : forall uni_alpha uni_alnum n d, 1 < n -> d <> TAB -> d <> NL -> ~ (48 <= d <= 57)%N -> d <> 99%N ->
  exists name, fake_names d n = [name] /\ is_valid uni_alpha uni_alnum name = false.
Proof.
  intros ua un n d Hn D1 D2 D3 D4. exists (join TAB (map (fun i => bs "c" ++ print_N (N.of_nat i)) (seq 1 n))). split.
  - unfold fake_names, fake_head. rewrite fake_text by lia. rewrite split_plain_nl by auto. apply split_on_none. intros I.
    apply in_join in I as [I|(f & F & I)]; [congruence|]. apply in_map_iff in F as (i & <- & _). revert I. apply fake_no; auto.
  - destruct (is_valid ua un _) eqn:V; auto. exfalso. apply is_valid_iff in V. destruct n as [|[|n]]; [lia|lia|].
    cbn [seq map] in V. rewrite join_cons in V by discriminate. cbn in V. destruct V as [_ V].
    rewrite Forall_forall in V. specialize (V TAB). cbn in V. destruct V as [V|V]; try discriminate. tauto.
Qed.
Example c62_delim_refuted_ex : fake_names 44 2 = [bs "c1" ++ [TAB] ++ bs "c2"].
Proof. reflexivity. Qed.

(** C63. A header of well-formed names, written with an ASCII delimiter that cannot be part of a name, reads back as the same names. *)
Theorem c63_roundtrip : forall uni_alpha uni_alnum cdx d names text, (d < 128)%N -> d <> NL -> d <> 32%N -> d <> 95%N -> ascii_letter d = false -> is_digit d = false ->
  Forall (well_named (alphabetic uni_alpha) (alphanumeric uni_alnum)) names -> get_head cdx d names = Ok text ->
  head_names d (utf8 text) = map utf8 names.
Proof.
  intros ua un cdx d names text D1 D2 D3 D4 D5 D6 W H.
  assert (Ne : names <> []) by (destruct names; discriminate).
  assert (In1 : forall f c, (c < 128)%N -> c <> 95%N -> ascii_letter c = false -> is_digit c = false -> In f names -> ~ In c (utf8 f)).
  { intros f c C1 C2 C3 C4 F I. rewrite utf8_in in I by auto. rewrite Forall_forall in W. specialize (W f F).
    destruct f as [|a r]; [destruct I|]. unfold well_named in W; destruct W as [Wa Wr]. apply N.ltb_lt in C1. destruct I as [->|I].
    - unfold alphabetic in Wa. rewrite C1 in Wa. congruence.
    - rewrite Forall_forall in Wr. specialize (Wr c I) as [Wr|Wr]; [|congruence]. unfold alphanumeric in Wr. rewrite C1, C3, C4 in Wr. discriminate. }
  assert (F : Forall (fun f => ~ In d f) (map utf8 names)).
  { apply Forall_forall. intros f F. apply in_map_iff in F as (x & <- & X). apply In1; auto. }
  assert (T : text = (if cdx then bs " CDX" ++ [d] else []) ++ join d names ++ [NL]).
  { unfold get_head in H. rewrite <- add_head_join. destruct names; [discriminate|]. injection H as <-. auto. }
  unfold head_names. rewrite T, !utf8_app, utf8_join by auto.
  change (utf8 [NL]) with [NL]. destruct cdx.
  - rewrite utf8_app. change (utf8 (bs " CDX")) with (bs " CDX"). rewrite utf8_cons, utf8_ascii by auto. cbn [utf8 flat_map app].
    replace (starts_with _ CDX) with true by reflexivity.
    change ((bs " CDX" ++ [d]) ++ join d (map utf8 names) ++ [NL]) with ((bs " CDX" ++ d :: join d (map utf8 names)) ++ [NL]).
    rewrite split_plain_nl by auto. rewrite split_on_split_str. rewrite MatchProofs.split_str_app.
    + cbn [tl]. rewrite <- split_on_split_str. apply split_on_join; auto. destruct names; [congruence|discriminate].
    + cbn. unfold ascii_letter in D5. intuition; subst; discriminate.
  - cbn [utf8 flat_map app]. replace (starts_with _ CDX) with false.
    + rewrite split_plain_nl by auto. apply split_on_join; auto. destruct names; [congruence|discriminate].
    + symmetry. destruct (join d (map utf8 names) ++ [NL]) as [|c r] eqn:E; auto. unfold CDX. cbn [starts_with].
      destruct (N.eqb_spec 32 c); auto. subst c.
      exfalso. destruct names as [|f r0]; [congruence|]. destruct f as [|a f].
      * destruct r0; [discriminate|]. cbn [map] in E. rewrite join_cons in E by discriminate. cbn in E. congruence.
      * apply (In1 (a :: f) 32%N); try reflexivity; try discriminate; [left; auto|]. cbn [map] in E.
        destruct (utf8 (a :: f)) as [|b s] eqn:U.
        -- exfalso. cbn [utf8 flat_map] in U. unfold utf8_char in U. destruct (a <? 128)%N, (a <? 2048)%N, (a <? 65536)%N; discriminate.
        -- destruct (map utf8 r0); cbn in E; left; congruence.
Qed.
Example c63_roundtrip_ex : get_head true TAB [bs "name"; bs ""; bs "x_1"] = Ok (bs " CDX" ++ [TAB] ++ bs "name" ++ [TAB; TAB] ++ bs "x_1" ++ [NL]) /\
  head_names TAB (utf8 (bs " CDX" ++ [TAB] ++ bs "name" ++ [TAB; TAB] ++ bs "x_1" ++ [NL])) = [bs "name"; bs ""; bs "x_1"] /\
  utf8 [233%N; 8364%N] = [195; 169; 226; 130; 172]%N.
Proof. repeat split; vm_compute; reflexivity. Qed.

(** C63 is false of a blank as delimiter, of delimiters outside ASCII, and of a header without columns. *)
Theorem c63_space_refuted : exists names text, get_head true 32 names = Ok text /\ head_names 32 (utf8 text) <> map utf8 names.
Proof. exists [bs "a"; bs "b"]. eexists. split; [reflexivity|vm_compute; discriminate]. Qed.
Theorem c63_high_refuted : exists names text, get_head true 200 names = Ok text /\ head_names 200 (utf8 text) <> map utf8 names.
Proof. exists [bs "a"; bs "b"]. eexists. split; [reflexivity|vm_compute; discriminate]. Qed.
Theorem c63_empty_refuted : forall cdx d, get_head cdx d [] = Panic.
Proof. reflexivity. Qed.
(** C63 is false of the sorter, which reads every header as if it was tab-delimited, and panics on one that has nothing but the tag. *)
Theorem c63_sorter_refuted : exists names text, get_head true 44 names = Ok text /\ make_header (utf8 text) <> Ok (map utf8 names) /\
  make_header CDX = Panic.
Proof. exists [bs "a"; bs "b"]. eexists. split; [reflexivity|split; [vm_compute; discriminate|reflexivity]]. Qed.
(** C63. The sorter does read tab-delimited headers back. *)
Theorem c63_sorter_tab : forall uni_alpha uni_alnum names text, Forall (well_named (alphabetic uni_alpha) (alphanumeric uni_alnum)) names ->
  get_head true TAB names = Ok text -> make_header (utf8 text) = Ok (map utf8 names).
Proof.
  intros ua un names text W H.
  assert (Ne : names <> []) by (destruct names; discriminate).
  assert (T : text = bs " CDX" ++ TAB :: join TAB names ++ [NL]).
  { unfold get_head in H. rewrite <- add_head_join. destruct names; [discriminate|]. injection H as <-. auto. }
  assert (E : utf8 text = bs " CDX" ++ TAB :: join TAB (map utf8 names) ++ [NL]).
  { rewrite T, utf8_app, utf8_cons, utf8_app, utf8_join by reflexivity. reflexivity. }
  pose proof (c63_roundtrip ua un true TAB names text ltac:(reflexivity) ltac:(discriminate) ltac:(discriminate) ltac:(discriminate) eq_refl eq_refl W H) as R.
  rewrite E in *. rewrite make_header_cdx. rewrite head_names_cdx in R. congruence.
Qed.
Example c63_sorter_tab_ex : make_header (utf8 (bs " CDX" ++ [TAB] ++ bs "name" ++ [TAB] ++ bs "x_1" ++ [NL])) = Ok [bs "name"; bs "x_1"].
Proof. reflexivity. Qed.
