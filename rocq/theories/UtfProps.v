(** C84: UTF-8 text in tools that work on bytes. *)
From Coq Require Import String List NArith ZArith Bool Arith Lia.
Open Scope list_scope.
Import ListNotations.
From Verif Require Import Base TextSpec StrModel StrSpec StrProofs StrProps CompModel CompSpec CompProofs MatchModel MatchSpec MatchText MatchProps
  TransModel TransSpec TransProofs UtfSpec UtfModel UtfProofs.
From Verif Require TextModel TextProofs ColModel ColProofs ColWriteProofs ColProps.
Close Scope Z_scope.
Open Scope nat_scope.

(** e with acute accent, the euro sign, and a face: characters of two, three and four bytes. *)
Definition e_acute : bytes := [195; 169]%N.
Definition euro : bytes := [226; 130; 172]%N.
Definition face : bytes := [240; 159; 152; 128]%N.
Lemma e_acute_ok : text_of [233]%N e_acute.
Proof. apply (text_cons 233 e_acute [] []); [apply (coded2 3 41); lia|constructor]. Qed.
Lemma euro_ok : text_of [8364]%N euro.
Proof. apply (text_cons 8364 euro [] []); [apply (coded3 2 2 44); lia|constructor]. Qed.
Lemma face_ok : text_of [128512]%N face.
Proof. apply (text_cons 128512 face [] []); [apply (coded4 0 31 24 0); lia|constructor]. Qed.
Lemma bs_ok s : forallb (fun c => c <? 128)%N (bs s) = true -> text_of (bs s) (bs s).
Proof. intros H. apply text_ascii. rewrite Forall_forall. rewrite forallb_forall in H. intros c C. apply N.ltb_lt. auto. Qed.
Ltac spelled := repeat first [apply text_app | apply e_acute_ok | apply euro_ok | apply face_ok | apply bs_ok; reflexivity].

(** C84. The plain order puts UTF-8 texts in the order of the numbers of their characters, and takes them for equal exactly if they
    have the same characters. *)
Theorem c84_order : forall exp10 s t a b, text_of s a -> text_of t b ->
  (c_comp exp10 CPlain a b = Lt <-> dict_lt s t) /\ (c_equal exp10 CPlain a b = true <-> s = t).
Proof.
  intros e s t a b S T. cbn [c_comp c_equal]. rewrite (text_order _ _ _ _ S T), bcmp_lt. split; [reflexivity|]. rewrite beq_eq. split; intros ->.
  - eapply text_same; eauto.
  - eapply text_det; eauto.
Qed.
Example c84_order_ex : forall exp10, text_of (bs "z" ++ [233]%N) (bs "z" ++ e_acute) /\ text_of (bs "z" ++ [128512]%N) (bs "z" ++ face) /\
  c_comp exp10 CPlain (bs "z" ++ e_acute) (bs "z" ++ face) = Lt /\ c_comp exp10 CPlain (bs "z" ++ face) (bs "z" ++ euro) = Gt.
Proof. intros e. repeat split; spelled. Qed.

(** C84. The order without case does the same after making small the letters A to Z, and only these. *)
Theorem c84_order_case : forall exp10 s t a b, text_of s a -> text_of t b ->
  (c_comp exp10 CLower a b = Lt <-> dict_lt (caseless s) (caseless t)) /\ (c_equal exp10 CLower a b = true <-> caseless s = caseless t).
Proof.
  intros e s t a b S T. cbn [c_comp c_equal]. rewrite cmp_insens_bcmp, equal_insens_bcmp.
  rewrite (text_order _ _ _ _ (text_lower _ _ S) (text_lower _ _ T)). change (map lower s) with (caseless s). change (map lower t) with (caseless t).
  rewrite bcmp_lt. split; [reflexivity|]. rewrite <- bcmp_eq. destruct (bcmp (caseless s) (caseless t)); cbn [is_eq]; split; congruence.
Qed.
Example c84_order_case_ex : forall exp10, c_equal exp10 CLower (bs "CAF" ++ e_acute) (bs "caf" ++ e_acute) = true /\
  c_comp exp10 CLower (bs "CAF" ++ e_acute) (bs "cafe") = Gt /\ c_equal exp10 CLower ([195; 137]%N) e_acute = false.
Proof. intros e. repeat split; reflexivity. Qed.

(** C84. Cutting at an ASCII character, into lines or columns or parts of a path, never cuts a character: the parts are the texts of the
    parts. Parts put together in any choice and order with an ASCII character between them are a text again. *)
Theorem c84_fields : forall d s b, (d < 128)%N -> d <> NL -> text_of s b ->
  Forall2 text_of (split_on d s) (map (TextModel.get_part (b ++ [NL])) (TextModel.split_plain (b ++ [NL]) d)).
Proof. intros d s b D E T. rewrite TextProofs.split_plain_nl by auto. apply text_split; auto. Qed.
(** The row of chosen columns of a line. *)
Theorem c84_select : forall T (c : ColModel.colset T) d e s b, (d < 128)%N -> d <> NL -> (e < 128)%N -> text_of s b -> ColModel.cs_done c = true ->
  exists row, ColModel.write3s c (map (TextModel.get_part (b ++ [NL])) (TextModel.split_plain (b ++ [NL]) d)) e = (row, Ok tt) /\
    text_of (join e (map (fun o => nth (N.to_nat (ColModel.oc_num o)) (split_on d s) []) (ColModel.cs_cols c))) row.
Proof.
  intros T c d e s b D N E X K. rewrite TextProofs.split_plain_nl by auto. eexists. split; [apply ColWriteProofs.write3s_ok; auto|].
  apply text_join; auto. pose proof (text_split d s b D X) as F.
  assert (G : forall n, text_of (nth n (split_on d s) []) (nth n (split_on d b) [])).
  { clear - F. induction F as [|x y l l' X F IH]; intros [|n]; cbn [nth]; auto; constructor. }
  induction (ColModel.cs_cols c); cbn [map]; constructor; auto.
Qed.
Lemma Forall2_len {A B} (R : A -> B -> Prop) l m : Forall2 R l m -> List.length l = List.length m.
Proof. induction 1; cbn [List.length]; auto. Qed.
Theorem c84_paths : forall d s b n, (d < 128)%N -> text_of s b ->
  text_of (head s n d) (head b n d) /\ text_of (tail_u8 s n d) (tail_u8 b n d).
Proof.
  intros d s b n D T. pose proof (text_split d s b D T) as F. rewrite !c11_head, !c11_tail.
  assert (G : forall (l : list (list N)) (m : list bytes) k, Forall2 text_of l m -> Forall2 text_of (firstn k l) (firstn k m)).
  { intros l m k H. revert k. induction H; intros [|k]; cbn [firstn]; constructor; auto. }
  assert (K : forall (l : list (list N)) (m : list bytes) k, Forall2 text_of l m -> Forall2 text_of (skipn k l) (skipn k m)).
  { intros l m k H. revert k. induction H; intros [|k]; cbn [skipn]; auto. }
  split; apply text_join; auto. unfold lastn. rewrite (Forall2_len _ _ _ F). auto.
Qed.
Example c84_fields_ex : text_of (bs "a/" ++ [233]%N ++ bs "/b" ++ [8364]%N) (bs "a/" ++ e_acute ++ bs "/b" ++ euro) /\
  split_on 47 (bs "a/" ++ e_acute ++ bs "/b" ++ euro) = [bs "a"; e_acute; bs "b" ++ euro] /\
  tail_u8 (bs "a/" ++ e_acute ++ bs "/b" ++ euro) 2 47%N = e_acute ++ bs "/b" ++ euro.
Proof. repeat split; spelled. Qed.
Example c84_select_ex : ColModel.write3s (ColModel.mkset [] [] [ColModel.mkoc 2 [] None; ColModel.mkoc 1 [] None; ColModel.mkoc 7 [] None] true ([] : list nat))
    (map (TextModel.get_part (bs "a/" ++ e_acute ++ bs "/b" ++ euro ++ [NL])) (TextModel.split_plain (bs "a/" ++ e_acute ++ bs "/b" ++ euro ++ [NL]) 47)) 59 =
  (bs "b" ++ euro ++ bs ";" ++ e_acute ++ bs ";", Ok tt).
Proof. reflexivity. Qed.

(** C84. The methods prefix, suffix, infix and exact give the verdict on the characters, although they look at bytes; with case they
    ignore the case of the letters A to Z. *)
Theorem c84_matchers : forall exp10 p q s b, text_of p q -> text_of s b ->
  (says exp10 (bs "prefix") q b = Ok true <-> begins p s) /\ (says exp10 (bs "suffix") q b = Ok true <-> finishes p s) /\
  (says exp10 (bs "infix") q b = Ok true <-> within p s) /\ (says exp10 (bs "exact") q b = Ok true <-> s = p).
Proof.
  intros e p q s b P S.
  destruct (c59_prefix e q b) as [A _]. destruct (c59_suffix e q b) as [B _]. destruct (c59_infix e q b) as [C _]. destruct (c59_exact e q b) as [D _].
  rewrite A, B, C, D. rewrite (text_begins _ _ _ _ P S), (text_finishes _ _ _ _ P S), (text_within _ _ _ _ P S). repeat split; auto.
  - intros ->. eapply text_same; eauto.
  - intros ->. eapply text_det; eauto.
Qed.
Theorem c84_matchers_case : forall exp10 p q s b, text_of p q -> text_of s b ->
  (says exp10 (bs "case.prefix") q b = Ok true <-> begins_case p s) /\ (p <> [] -> (says exp10 (bs "case.suffix") q b = Ok true <-> finishes_case p s)) /\
  (says exp10 (bs "case.infix") q b = Ok true <-> within_case p s) /\ (says exp10 (bs "case.exact") q b = Ok true <-> same_but_case s p).
Proof.
  intros e p q s b P S. pose proof (text_lower _ _ P) as P'. pose proof (text_lower _ _ S) as S'.
  destruct (c59_prefix e q b) as [_ A]. destruct (c59_suffix e q b) as [_ B]. destruct (c59_infix e q b) as [_ C]. destruct (c59_exact e q b) as [_ D].
  rewrite A, C, D. rewrite <- !begins_lower, <- !within_lower, !same_case_map.
  rewrite (text_begins _ _ _ _ P' S'), (text_within _ _ _ _ P' S'). split; [reflexivity|]. split; [|split; [reflexivity|split]].
  - intros N. rewrite B, <- !finishes_lower; [apply (text_finishes _ _ _ _ P' S')|]. intros ->. inversion P as [|c x ? ? X]; subst; [congruence|].
    destruct (coded_shape _ _ X) as (? & ? & -> & _). discriminate.
  - intros E. rewrite E in S'. eapply text_same; eauto.
  - intros E. rewrite E in S'. eapply text_det; eauto.
Qed.
Example c84_matchers_ex : forall exp10, says exp10 (bs "infix") euro (bs "5 " ++ euro ++ bs "!") = Ok true /\
  says exp10 (bs "suffix") e_acute (bs "caf" ++ e_acute) = Ok true /\ says exp10 (bs "case.prefix") (bs "CAF" ++ e_acute) (bs "caf" ++ e_acute ++ bs "s") = Ok true.
Proof. intros e. repeat split; reflexivity. Qed.

(** C84. The transforms lower and upper keep a text a text and change only the letters A to Z; normspace does so with a value that does not
    start with a blank. *)
Theorem c84_lower_upper : forall encode decode lossy utf8 ul uu ub s b, text_of s b ->
  exists x y, run encode decode lossy utf8 ul uu ub TLower b [] = Ok x /\ text_of (map lower s) x /\
              run encode decode lossy utf8 ul uu ub TUpper b [] = Ok y /\ text_of (map upper s) y.
Proof.
  intros en de lo ut ul uu ub s b T. exists (map lower b), (map upper b). split; [reflexivity|]. split; [apply text_lower; auto|]. split; [reflexivity|].
  induction T as [|c e s b C T IH]; cbn [map]; [constructor|]. rewrite map_app. constructor; auto. clear - C. unfold upper. inversion C; subst; cbn [map];
    repeat (match goal with |- context [((97 <=? ?x) && (?x <=? 122))%N] => destruct (N.leb_spec 97 x); destruct (N.leb_spec x 122); cbn [andb] end);
    try lia; constructor; lia.
Qed.
Theorem c84_words : forall encode decode lossy utf8 ul uu ub c s b, text_of (c :: s) b -> (32 < c)%N ->
  exists x, run encode decode lossy utf8 ul uu ub TNorm b [] = Ok x /\ text_of (join 32%N (words (fun k => k <=? 32)%N (c :: s))) x.
Proof.
  intros en de lo ut ul uu ub c s b T C. cbn [run]. eexists. split; [reflexivity|].
  change (fun k : N => (k <=? 32)%N) with low_byte. rewrite <- norm_visible by (apply N.leb_gt; auto).
  assert (V : forall e r need dst, Forall (fun x => low_byte x = false) e -> e <> [] -> (need = true -> dst <> []) ->
    norm_loop low_byte (e ++ r) need dst = norm_loop low_byte r false (dst ++ (if need then [32%N] else []) ++ e)).
  { intros e r need dst H. revert need dst. induction H as [|x e X H IH]; intros need dst E N; [congruence|]. cbn [app norm_loop]. rewrite X.
    assert (R : forall d, d <> [] -> norm_loop low_byte (e ++ r) false d = norm_loop low_byte r false (d ++ e)).
    { intros d D. destruct e as [|y e]; [rewrite app_nil_r; auto|]. rewrite (IH false d); auto; discriminate. }
    destruct need; cbn [andb].
    - destruct dst; [exfalso; apply N; auto|]. rewrite R by (intros K; apply app_eq_nil in K as [K _]; discriminate). rewrite <- app_assoc. reflexivity.
    - rewrite R by (intros K; apply app_eq_nil in K as [_ K]; discriminate). rewrite <- app_assoc. reflexivity. }
  assert (W : forall c e, coded c e -> (32 < c)%N -> Forall (fun x => low_byte x = false) e /\ e <> []).
  { clear. intros c e C L. unfold low_byte. inversion C; subst; (split; [repeat constructor; apply N.leb_gt; lia|discriminate]). }
  assert (G : forall s b, text_of s b -> forall need d dst, text_of d dst -> d <> [] -> dst <> [] ->
    text_of (norm_loop low_byte s need d) (norm_loop low_byte b need dst)).
  { clear - V W. intros s b T. induction T as [|c e s b C T IH]; intros need d dst D N N'; cbn [norm_loop]; auto.
    destruct (low_byte c) eqn:B; unfold low_byte in B.
    - assert (E : e = [c]). { apply N.leb_le in B. inversion C; subst; auto; lia. } subst. cbn [app norm_loop]. unfold low_byte at 2. rewrite B. auto.
    - apply N.leb_gt in B. destruct (W c e C B) as [W1 W2]. rewrite (V e b need dst W1 W2) by auto.
      assert (T1 : text_of [c] e). { rewrite <- (app_nil_r e). constructor; [auto|constructor]. }
      destruct need; cbn [andb].
      + destruct d as [|x d]; [congruence|]. apply IH; [|intros K; apply app_eq_nil in K as [K _]; discriminate|intros K; apply app_eq_nil in K as [K _]; congruence].
        apply text_app; auto. apply (text_app [32%N] [c] [32%N] e); auto. apply text_one. lia.
      + apply IH; [apply text_app; auto|intros K; apply app_eq_nil in K as [K _]; congruence|intros K; apply app_eq_nil in K as [K _]; congruence]. }
  inversion T as [|c0 e s0 b' X Y]; subst. destruct (W c e X C) as [W1 W2]. rewrite (V e b' false [] W1 W2) by discriminate. cbn [app norm_loop].
  unfold low_byte at 1. replace (c <=? 32)%N with false by (symmetry; apply N.leb_gt; auto). cbn [andb app]. apply G; auto; [|discriminate].
  rewrite <- (app_nil_r e). constructor; [auto|constructor].
Qed.
Example c84_words_ex : text_of (bs "caf" ++ [233]%N ++ bs "  5" ++ [8364]%N ++ bs " ") (bs "caf" ++ e_acute ++ bs "  5" ++ euro ++ bs " ") /\
  (forall encode decode lossy utf8 ul uu ub, run encode decode lossy utf8 ul uu ub TNorm (bs "caf" ++ e_acute ++ bs "  5" ++ euro ++ bs " ") [] =
    Ok (bs "caf" ++ e_acute ++ bs " 5" ++ euro) /\
    run encode decode lossy utf8 ul uu ub TUpper (bs "caf" ++ e_acute) [] = Ok (bs "CAF" ++ e_acute)).
Proof. repeat split; spelled. Qed.

(** C84 is false of normspace if the value starts with a blank: it puts a blank inside of the first character, and what comes out is no
    text any more. *)
Theorem c84_words_refuted : exists s b, text_of s b /\ forall encode decode lossy utf8 ul uu ub,
  exists x, run encode decode lossy utf8 ul uu ub TNorm b [] = Ok x /\ x = [195; 32; 169]%N /\ ~ exists t, text_of t x.
Proof.
  exists (bs " " ++ [233]%N), (bs " " ++ e_acute). split; [spelled|]. intros. exists [195; 32; 169]%N. split; [reflexivity|]. split; [reflexivity|].
  intros [t T]. inversion T as [|c e t' b C T' E1 E2]; subst. inversion C; subst; cbn [app] in E2; repeat (apply cons_inj in E2 as [? E2]); lia.
Qed.
(** C84 is false of byte ranges, of the question mark and of length: they count bytes. *)
Theorem c84_slice_refuted : exists s b x, text_of s b /\ rbind (fake_slice_new (bs "1-1")) (fun r => slice_get_safe r b) = Ok x /\ ~ exists t, text_of t x.
Proof.
  exists [233]%N, e_acute, [195]%N. split; [spelled|]. split; [reflexivity|].
  intros [t T]. inversion T as [|c e t' b C T' E1 E2]; subst. inversion C; subst; cbn [app] in E2; repeat (apply cons_inj in E2 as [? E2]); try lia; discriminate.
Qed.
Theorem c84_glob_refuted : exists s b, text_of s b /\ (forall low, globs low false (bs "?") s) /\ List.length s = 1 /\
  forall exp10, says exp10 (bs "glob") (bs "?") b = Ok false /\ says exp10 (bs "length") (bs "1,1") b = Ok false.
Proof.
  exists [233]%N, e_acute. split; [spelled|]. split.
  - intros low. apply gl_char; [discriminate|right; left; reflexivity|constructor].
  - split; [reflexivity|]. intros e. split; reflexivity.
Qed.
