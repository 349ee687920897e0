(** C85: matchers in utf8 mode, and comparisons of strings, work on characters. *)
From Coq Require Import String List NArith ZArith Bool Arith Lia.
Open Scope list_scope.
Import ListNotations.
From Verif Require Import Base TextSpec FloatModel StrModel StrSpec StrProofs StrProps CompModel CompSpec CompProofs GlobProofs GlobSpec GlobExact MatchModel MatchSpec MatchText MatchProps
  UtfSpec UtfModel UtfProofs UtfGlob UtfGlobExact UtfMode UtfAscii UtfProps.
Close Scope Z_scope.
Open Scope nat_scope.

(** Small letters and white space of a few characters, for the examples: A to Z, E with acute accent, alpha and sigma, and the Kelvin
    sign, whose small letter is an ASCII letter; space, no-break space. *)
Definition ex_low (c : N) : list N :=
  if (c =? 201)%N then [233%N] else if (c =? 913)%N then [945%N] else if (c =? 931)%N then [963%N] else if (c =? 8490)%N then [107%N] else [lower c].
Definition ex_white (c : N) : bool := (c <=? 32)%N || (c =? 160)%N.
Definition ex_cased (c : N) : bool := (64 <? c)%N.
Definition not_one (c : N) : bool := false.
Lemma ex_low_ok : forall c, scalar c -> Forall scalar (ex_low c).
Proof.
  intros c H. unfold ex_low. repeat match goal with |- context [if ?x then _ else _] => destruct x; [apply Forall_cons; [unfold scalar; lia|apply Forall_nil]|] end.
  apply Forall_cons; [|apply Forall_nil]. unfold lower. destruct (_ && _) eqn:E; auto. unfold scalar in *. rewrite andb_true_iff, !N.leb_le in E. lia.
Qed.
Lemma ex_low_twice : forall c, scalar c -> smalls ex_low (ex_low c) = ex_low c.
Proof.
  intros c _. unfold ex_low at 2 3. repeat match goal with |- context [if ?x then [_] else _] => destruct x eqn:?; [reflexivity|] end.
  cbn [smalls map concat]. rewrite app_nil_r. unfold lower at 1 2. destruct (_ && _) eqn:E.
  - apply andb_true_iff in E as [E1 E2]. rewrite N.leb_le in E1, E2. unfold ex_low.
    repeat match goal with |- context [(?x =? ?y)%N] => destruct (N.eqb_spec x y) as [Q|_]; [exfalso; lia|] end.
    unfold lower. destruct (_ && _) eqn:F; auto. rewrite andb_true_iff, !N.leb_le in F. lia.
  - unfold ex_low. rewrite Heqb, Heqb0, Heqb1, Heqb2. unfold lower. rewrite E. reflexivity.
Qed.
Definition a_kelvin : bytes := [226; 132; 170]%N.
Lemma a_kelvin_ok : text_of [8490]%N a_kelvin.
Proof. apply (text_cons 8490 a_kelvin [] []); [apply (coded3 2 4 42); lia|constructor]. Qed.
Lemma cap_e_ok : text_of [201]%N [195; 137]%N.
Proof. apply (text_cons 201 [195; 137]%N [] []); [apply (coded2 3 9); lia|constructor]. Qed.

Section Modes.
Variable lowc : N -> list N.
Variable white cased ignorable : N -> bool.
Variable exp10 : Z -> f64.
Variable lossy : bytes -> bytes.
(** The verdict of a matcher given by method and pattern on a text. *)
Definition u_says (method p b : bytes) : res bool := rbind (mk method p) (fun m => u_match lowc white cased ignorable exp10 lossy m b).
Notation accepts := (fun method p b => u_says (bs method) p b = Ok true).
(** Small letters are characters, and what is text is not changed by the replacement of what is not. *)
Hypothesis low_scalar : forall c, scalar c -> Forall scalar (lowc c).
Hypothesis lossy_same : forall s b, text_of s b -> lossy b = b.
Ltac unmake v := match goal with |- context [u_says ?m ?p ?b] => change (u_says m p b) with v end.
Lemma ok_iff (v : bool) (P : Prop) : (v = true <-> P) -> (Ok v = Ok true <-> P).
Proof. intros H. rewrite <- H. split; [congruence|intros ->; auto]. Qed.

(** C85. With case: where the characters of the pattern stand among the characters of the text. *)
Theorem c85_plain : forall p q s b, text_of p q -> text_of s b ->
  (accepts "utf8.prefix"%string q b <-> begins p s) /\ (accepts "utf8.suffix"%string q b <-> finishes p s) /\
  (accepts "utf8.infix"%string q b <-> within p s) /\ (accepts "utf8.exact"%string q b <-> s = p).
Proof.
  intros p q s b P S. cbv beta.
  unmake (Ok (starts_with (lossy b) q)). unmake (Ok (ends_with (lossy b) q)). unmake (Ok (infix (lossy b) q)). unmake (Ok (beq q (lossy b))).
  rewrite (lossy_same _ _ S). split; [apply ok_iff|split; [apply ok_iff|split; apply ok_iff]].
  - rewrite starts_with_app. apply (text_begins p q s b P S).
  - rewrite ends_with_iff. apply (text_finishes p q s b P S).
  - rewrite infix_iff. apply (text_within p q s b P S).
  - rewrite beq_eq. split; [intros ->; eapply text_same; eauto|intros ->; eapply text_det; eauto].
Qed.
(** C85. Without case: the same on the small letters, for patterns without the capital sigma. *)
Theorem c85_case_partial : forall p q s b, text_of p q -> text_of s b -> ~ In 931%N p ->
  (accepts "utf8.case.prefix"%string q b <-> begins (smalls lowc p) (smalls lowc s)) /\
  (accepts "utf8.case.suffix"%string q b <-> finishes (smalls lowc p) (smalls lowc s)) /\
  (~ In 931%N s -> (accepts "utf8.case.infix"%string q b <-> within (smalls lowc p) (smalls lowc s))).
Proof.
  intros p q s b P S E. cbv beta.
  unmake (Ok (scase_prefix lowc (lossy b) (to_lowercase lowc cased ignorable q))).
  unmake (Ok (scase_suffix lowc (lossy b) (to_lowercase lowc cased ignorable q))).
  unmake (Ok (infix (to_lowercase lowc cased ignorable (lossy b)) (to_lowercase lowc cased ignorable q))).
  rewrite (lossy_same _ _ S). split; [apply ok_iff|split; [apply ok_iff|intros E'; apply ok_iff]].
  - rewrite (prefix_case lowc white cased ignorable low_scalar p q s b P S), (lows_low lowc cased ignorable p [] E). reflexivity.
  - rewrite (suffix_case lowc white cased ignorable low_scalar p q s b P S), (lows_low lowc cased ignorable p [] E). reflexivity.
  - rewrite (infix_case lowc white cased ignorable low_scalar p q s b P S), (lows_low lowc cased ignorable p [] E), (lows_low lowc cased ignorable s [] E'). reflexivity.
Qed.
(** C85. Exact without case accepts the small letters of the pattern and nothing else. *)
Theorem c85_exact_case : forall p q s b, text_of p q -> text_of s b -> (forall c, scalar c -> smalls lowc (lowc c) = lowc c) ->
  (accepts "utf8.case.exact"%string q b <-> s = smalls lowc p).
Proof.
  intros p q s b P S I. cbv beta. unmake (Ok (equal_quick_str lowc (lossy b) (new_lower lowc q))). rewrite (lossy_same _ _ S).
  apply ok_iff. apply exact_case; auto.
Qed.
(** C85. Length counts characters. *)
Theorem c85_length : forall px py x y s b, px <> [] -> ~ In 44%N px -> ~ In 44%N py -> to_usize_whole px = Ok x -> to_usize_whole py = Ok y -> text_of s b ->
  (accepts "utf8.length"%string (px ++ 44%N :: py) b <-> (x <= N.of_nat (List.length s) <= y)%N) /\
  (accepts "utf8.length"%string px b <-> (x <= N.of_nat (List.length s))%N).
Proof.
  intros px py x y s b H Hx Hy Ex Ey S.
  assert (L : forall q, u_says (bs "utf8.length") q b = rbind (length_new q) (fun k => u_kind_smatch lowc cased ignorable exp10 k (lossy b))).
  { intros q. change (u_says (bs "utf8.length") q b) with
      (rbind (rbind (rbind (length_new q) (fun k => Ok (false, k))) (fun x => Ok (mkm true false (false || fst x) (false || fst x) (inl (snd x)))))
         (fun m => u_match lowc white cased ignorable exp10 lossy m b)). destruct (length_new q); reflexivity. }
  cbv beta. rewrite !L, (length_new_two px py x y), (length_new_one px x), (lossy_same _ _ S) by auto. cbn [rbind u_kind_smatch]. rewrite (text_chars _ _ S).
  pose proof (len_ok_iff x (Some y) s) as L1. pose proof (len_ok_iff x None s) as L2.
  split; (split; [intros X; injection X as X; tauto|intros X; f_equal; tauto]).
Qed.
(** C85. Patterns with star and question mark: what is accepted has the shape, character by character. Without a star, or with one at the
    end only, everything of the shape is accepted. *)
Theorem c85_glob_partial : forall (insens : bool) p q s b, text_of p q -> text_of s b ->
  let v := u_says (if insens then bs "utf8.case.glob" else bs "utf8.glob") q b in
  (v = Ok true -> globs lowc insens p s) /\
  (~ In 42%N p -> (v = Ok true <-> globs lowc insens p s)) /\
  (forall p', p = p' ++ [42%N] -> ~ In 42%N p' -> (v = Ok true <-> globs lowc insens p s)).
Proof.
  intros insens p q s b P S. cbv zeta.
  assert (V : u_says (if insens then bs "utf8.case.glob" else bs "utf8.glob") q b =
    match sglob lowc s p (if insens then Insens else Sens) with Some r => r | None => Panic end).
  { transitivity (sglob_ok lowc (lossy b) q (if insens then Insens else Sens)); [destruct insens; reflexivity|].
    unfold sglob_ok. rewrite (lossy_same _ _ S), (text_chars _ _ S), (text_chars _ _ P). reflexivity. }
  rewrite V. set (ic := if insens then Insens else Sens). assert (I : ins ic = insens) by (unfold ic; destruct insens; reflexivity).
  rewrite <- I. repeat split.
  - intros H. destruct (sglob lowc s p ic) eqn:E; [|discriminate]. apply s_glob_sound. congruence.
  - rewrite s_glob_nostar by auto. intros X. injection X as X. apply s_smatch_spec; auto.
  - intros X. rewrite s_glob_nostar by auto. f_equal. apply s_smatch_spec; auto.
  - subst p. change (p' ++ [42%N]) with (p' ++ [STAR]). destruct (s_trailing_star lowc ic p' s H0) as (v & -> & G). intros X. injection X as ->. apply G. auto.
  - subst p. change (p' ++ [42%N]) with (p' ++ [STAR]). destruct (s_trailing_star lowc ic p' s H0) as (v & -> & G). intros X. f_equal. apply G. auto.
Qed.
(** C85. What a pattern with star and question mark says, yes, no or a panic, for every pattern and text: as for bytes in C10, on characters. *)
Theorem c85_glob_exact : forall (insens : bool) p q s b o, text_of p q -> text_of s b ->
  (u_says (if insens then bs "utf8.case.glob" else bs "utf8.glob") q b = o <-> outcome (stands_for lowc insens) p s o).
Proof.
  intros insens p q s b o P S.
  assert (V : u_says (if insens then bs "utf8.case.glob" else bs "utf8.glob") q b =
    match sglob lowc s p (if insens then Insens else Sens) with Some r => r | None => Panic end).
  { transitivity (sglob_ok lowc (lossy b) q (if insens then Insens else Sens)); [destruct insens; reflexivity|].
    unfold sglob_ok. rewrite (lossy_same _ _ S), (text_chars _ _ S), (text_chars _ _ P). reflexivity. }
  rewrite V. set (ic := if insens then Insens else Sens). assert (I : ins ic = insens) by (unfold ic; destruct insens; reflexivity).
  rewrite <- I. rewrite <- s_glob_exact. destruct (s_glob_total lowc s p ic) as [r ->]. split; [intros ->; reflexivity|intros X; injection X as ->; reflexivity].
Qed.
(** C85. With trim, white space at both ends does not count; blank is white space alone. *)
Theorem c85_trim : forall p q s b t, text_of p q -> text_of s b -> stripped white s t ->
  (accepts "utf8.trim.exact"%string q b <-> t = p) /\ (accepts "utf8.trim.prefix"%string q b <-> begins p t) /\
  (accepts "utf8.blank"%string [] b <-> Forall (fun c => white c = true) s).
Proof.
  intros p q s b t P S T. cbv beta. destruct (trim_text white s b S) as (t' & T' & B). rewrite (stripped_det white s t t' T T') in *. clear T. rename t into t0.
  unmake (Ok (beq q (u_trim white (lossy b)))). unmake (Ok (starts_with (u_trim white (lossy b)) q)).
  unmake (if match u_trim white (lossy b) with [] => true | _ => false end then @Ok bool true else Ok false).
  rewrite (lossy_same _ _ S). split; [apply ok_iff|split; [apply ok_iff|]].
  - rewrite beq_eq. split; [intros ->; eapply text_same; eauto|intros ->; eapply text_det; eauto].
  - rewrite starts_with_app. apply (text_begins p q t' _ P B).
  - destruct T' as (u & v & E & U & V & M). destruct t' as [|c t'].
    + inversion B; subst. split; auto. intros _. cbn [app]. apply Forall_app. auto.
    + assert (N : u_trim white b <> []). { intros Z. rewrite Z in B. inversion B as [|c0 e s0 b0 C R E1 E2]. destruct (coded_shape _ _ C) as (x & r & -> & _). discriminate. }
      destruct (u_trim white b); [contradiction|]. split; [discriminate|]. intros F. subst s. apply Forall_app in F as [_ F]. cbn [app] in F. inversion F; subst. destruct M. congruence.
Qed.
(** C85. File-exact without case: some line of the file has the same small letters. *)
Theorem c85_file : forall utf8_ok bodies chars_of set s b, (forall x, In x bodies -> x <> [] /\ utf8_ok x = true /\ text_of (chars_of x) x) ->
  load_set_u lowc utf8_ok (map (fun x => x ++ [NL]) bodies) = Ok set -> text_of s b ->
  (u_kind_smatch lowc cased ignorable exp10 (KFileC set) b = Ok true <-> exists x, In x bodies /\ smalls lowc (chars_of x) = smalls lowc s).
Proof.
  intros ok bodies ch set s b H L S. cbn [u_kind_smatch]. apply ok_iff. rewrite existsb_exists.
  assert (E : set = map (new_lower lowc) bodies).
  { revert set L. induction bodies as [|x r IH]; cbn [map load_set_u]; intros set L; [congruence|]. destruct (H x (or_introl eq_refl)) as (X & O & _).
    rewrite app_length in L. cbn [List.length] in L. destruct (Nat.ltb_spec 1 (List.length x + 1)) as [_|Q]; [|destruct x; [congruence|cbn [List.length] in Q; lia]].
    rewrite last_last, removelast_last, N.eqb_refl, O in L. destruct (load_set_u lowc ok (map (fun y => y ++ [NL]) r)) as [t| | ]; try discriminate.
    cbn [rbind] in L. injection L as <-. f_equal. apply IH; auto. intros y Y. apply H. right; auto. }
  subst set. split.
  - intros (y & Y & Q). apply in_map_iff in Y as (x & <- & X). exists x. split; auto. apply beq_eq in Q.
    destruct (H x X) as (_ & _ & T). apply (text_same (smalls lowc (ch x)) (smalls lowc s) (new_lower lowc x)); [apply new_lower_text; auto|].
    rewrite <- Q. apply new_lower_text; auto.
  - intros (x & X & Q). exists (new_lower lowc x). split; [apply in_map; auto|]. apply beq_eq. destruct (H x X) as (_ & _ & T).
    eapply text_det; [apply new_lower_text; auto; exact S|]. rewrite <- Q. apply new_lower_text; auto.
Qed.
(** C85. Bytes that are not text: one way of asking fails, the other says no, whatever the pattern. On text both give the verdict. *)
Theorem c85_not_text : forall utf8_ok m b, m_string m = true -> (forall x, utf8_ok x = true <-> exists s, text_of s x) ->
  (~ (exists s, text_of s b) -> do_match lowc white cased ignorable exp10 utf8_ok m b = Err /\ do_match_safe lowc white cased ignorable exp10 utf8_ok m b = Ok false) /\
  ((exists s, text_of s b) -> do_match lowc white cased ignorable exp10 utf8_ok m b = u_match lowc white cased ignorable exp10 lossy m b /\
     do_match_safe lowc white cased ignorable exp10 utf8_ok m b = u_match lowc white cased ignorable exp10 lossy m b).
Proof.
  intros ok m b M O. unfold do_match, do_match_safe, u_match. rewrite M. split; intros X.
  - destruct (ok b) eqn:E; auto. apply O in E. contradiction.
  - rewrite (proj2 (O b) X). destruct X as (s & X). rewrite (lossy_same _ _ X). auto.
Qed.
(** C85. The comparisons of strings without case put texts in the order of their small letters, if those take as many bytes. *)
Theorem c85_compare_partial : forall s t a b, text_of s a -> text_of t b ->
  Forall (fun c => List.length (string_of (lowc c)) = List.length (enc c)) s -> Forall (fun c => List.length (string_of (lowc c)) = List.length (enc c)) t ->
  (cmp_insens_str lowc a b = Lt <-> dict_lt (smalls lowc s) (smalls lowc t)) /\ (equal_insens_str lowc a b = true <-> smalls lowc s = smalls lowc t) /\
  cmp_quick_str lowc (new_lower lowc a) b = cmp_insens_str lowc a b /\ equal_quick_str lowc (new_lower lowc a) b = equal_insens_str lowc a b.
Proof.
  intros s t a b S T K L. destruct (compare_str lowc low_scalar s t a b S T K L) as (A & B & C & D). rewrite A, bcmp_lt, C.
  repeat split; try tauto. destruct (equal_quick_str lowc (new_lower lowc a) b), (equal_insens_str lowc a b); auto; [symmetry; tauto|tauto].
Qed.
End Modes.
Definition id_b (b : bytes) : bytes := b.
Notation ex_says e := (u_says ex_low ex_white ex_cased not_one e id_b).
Example c85_plain_ex : forall e, ex_says e (bs "utf8.infix") e_acute (bs "caf" ++ e_acute ++ euro) = Ok true /\
  ex_says e (bs "utf8.suffix") euro (bs "caf" ++ e_acute) = Ok false /\ ex_says e (bs "utf8.exact") (bs "caf" ++ e_acute) (bs "caf" ++ e_acute) = Ok true /\
  text_of (bs "caf" ++ [233; 8364]%N) (bs "caf" ++ e_acute ++ euro).
Proof. intros e. repeat split. apply text_app; [spelled|]. apply (text_app [233]%N [8364]%N); spelled. Qed.
Example c85_case_partial_ex : forall e, ex_says e (bs "utf8.case.prefix") ([195; 137]%N ++ bs "T") (e_acute ++ bs "tude") = Ok true /\
  ex_says e (bs "utf8.case.suffix") (bs "F" ++ [195; 137]%N) (bs "Caf" ++ e_acute) = Ok true /\
  ex_says e (bs "utf8.case.infix") (bs "F" ++ e_acute) (bs "CAF" ++ [195; 137]%N) = Ok true /\
  text_of [201]%N [195; 137]%N /\ smalls ex_low [201]%N = [233]%N.
Proof. intros e. repeat split. apply cap_e_ok. Qed.
Example c85_exact_case_ex : forall e, ex_says e (bs "utf8.case.exact") (bs "CAF" ++ [195; 137]%N) (bs "caf" ++ e_acute) = Ok true /\
  (forall c, scalar c -> smalls ex_low (ex_low c) = ex_low c) /\ (forall c, scalar c -> Forall scalar (ex_low c)).
Proof. intros e. split; [reflexivity|]. split; [apply ex_low_twice|apply ex_low_ok]. Qed.
Example c85_length_ex : forall e, ex_says e (bs "utf8.length") (bs "4,4") (bs "caf" ++ e_acute) = Ok true /\
  says e (bs "length") (bs "4,4") (bs "caf" ++ e_acute) = Ok false.
Proof. intros e. split; reflexivity. Qed.
Example c85_glob_partial_ex : forall e, ex_says e (bs "utf8.glob") (bs "c?f?") (bs "caf" ++ e_acute) = Ok true /\
  ex_says e (bs "utf8.case.glob") ([195; 137]%N ++ bs "T*") (e_acute ++ bs "tude") = Ok true /\ ex_says e (bs "utf8.glob") (bs "??") euro = Ok false.
Proof. intros e. repeat split. Qed.
Example c85_glob_exact_ex : forall e, outcome (stands_for ex_low true) [201; 42; 84; 42; 100]%N [233; 116; 117; 117; 100]%N (Ok true) /\
  ex_says e (bs "utf8.case.glob") ([195; 137]%N ++ bs "*T*d") (e_acute ++ bs "tuud") = Ok true /\ ex_says e (bs "utf8.glob") (bs "*a*f") (bs "caf") = Ok false /\
  ex_says e (bs "utf8.glob") (bs "c*f") (bs "c" ++ e_acute) = Panic.
Proof.
  intros e. split; [|repeat split]. apply (s_glob_exact ex_low Insens). vm_compute. reflexivity.
Qed.
Example c85_trim_ex : forall e, ex_says e (bs "utf8.trim.exact") e_acute ([194; 160]%N ++ e_acute ++ bs " ") = Ok true /\
  ex_says e (bs "utf8.blank") [] ([194; 160]%N ++ bs " ") = Ok true /\ stripped ex_white [160; 233; 32]%N [233]%N.
Proof.
  intros e. split; [reflexivity|]. split; [reflexivity|]. exists [160]%N, [32]%N. repeat split; auto; repeat constructor.
Qed.
Example c85_file_ex : forall e, load_set_u ex_low (fun _ => true) (map (fun x => x ++ [NL]) [bs "ant"; [195; 137]%N]) = Ok [bs "ant"; e_acute] /\
  u_kind_smatch ex_low ex_cased not_one e (KFileC [bs "ant"; e_acute]) [195; 137]%N = Ok true /\
  u_kind_smatch ex_low ex_cased not_one e (KFileC [bs "ant"; e_acute]) (bs "ANT") = Ok true.
Proof. intros e. repeat split. Qed.
Example c85_not_text_ex : ~ (exists s, text_of s [195; 32]%N) /\ forall e,
  rbind (mk (bs "utf8.yes") []) (fun m => do_match ex_low ex_white ex_cased not_one e (fun _ => false) m [195; 32]%N) = Err /\
  rbind (mk (bs "utf8.yes") []) (fun m => do_match_safe ex_low ex_white ex_cased not_one e (fun _ => false) m [195; 32]%N) = Ok false.
Proof.
  split; [|intros e; split; reflexivity]. intros (s & H). pose proof (text_bytes _ _ H) as E. rewrite <- (text_chars _ _ H) in E. discriminate.
Qed.
Example c85_compare_partial_ex : cmp_insens_str ex_low (bs "CAF" ++ [195; 137]%N) (bs "caf" ++ e_acute) = Eq /\
  cmp_insens_str ex_low ([195; 137]%N ++ bs "b") (e_acute ++ bs "C") = Lt /\
  Forall (fun c => List.length (string_of (ex_low c)) = List.length (enc c)) [201; 66; 931]%N.
Proof. repeat split. repeat constructor. Qed.

(** C85. On ASCII text, with an ASCII pattern, utf8 mode does what the claims about matchers say, for every method. *)
Theorem c85_ascii : forall lowc white cased ignorable exp10 lossy regex mk_comp file_lines method q m b,
  (forall c, (c < 128)%N -> lowc c = [lower c]) -> (forall c, (c < 128)%N -> white c = is_white c) -> (forall x, Forall (fun c => (c < 128)%N) x -> lossy x = x) ->
  make2 regex mk_comp file_lines method q = Ok m -> Forall (fun c => (c < 128)%N) q -> Forall (fun c => (c < 128)%N) b ->
  u_match lowc white cased ignorable exp10 lossy m b = m_match exp10 m b.
Proof. intros lowc white cased ignorable exp10 lossy rg mc fl method q m b L W Y M Q B. pose proof (make2_ascii rg mc fl method q m Q M). apply match_ascii; auto. Qed.
Example c85_ascii_ex : forall e, ex_says e (bs "utf8.case.glob") (bs "AN?*") (bs "antler") = Ok true /\ says e (bs "utf8.case.glob") (bs "AN?*") (bs "antler") = Ok true /\
  ex_says e (bs "utf8.trim.or.exact") (bs ",ant,bee") (bs " bee ") = Ok true /\ says e (bs "utf8.trim.or.exact") (bs ",ant,bee") (bs " bee ") = Ok true.
Proof. intros e. repeat split. Qed.

(** C85. Alpha and sigma, both capital: as a pattern without case it does not match itself, nor is it found in itself and a letter more. The
    pattern gets a final sigma, the text does not. *)
Theorem c85_sigma_refuted : exists q b, text_of [913; 931]%N q /\ b = q ++ bs "A" /\ forall exp10,
  ex_says exp10 (bs "utf8.case.prefix") q q = Ok false /\ ex_says exp10 (bs "utf8.case.suffix") q q = Ok false /\
  ex_says exp10 (bs "utf8.case.infix") q q = Ok true /\ ex_says exp10 (bs "utf8.case.infix") q b = Ok false.
Proof.
  exists [206; 145; 206; 163]%N. eexists. split.
  - apply (text_cons 913 [206; 145]%N [931]%N [206; 163]%N); [apply (coded2 14 17); lia|].
    apply (text_cons 931 [206; 163]%N [] []); [apply (coded2 14 35); lia|constructor].
  - split; [reflexivity|]. intros e. repeat split; vm_compute; reflexivity.
Qed.
(** C85. Exact without case does not match a capital letter with itself. *)
Theorem c85_exact_refuted : exists q, text_of [201]%N q /\ forall exp10, ex_says exp10 (bs "utf8.case.exact") q q = Ok false.
Proof. exists [195; 137]%N. split; [apply cap_e_ok|]. intros e. vm_compute. reflexivity. Qed.
(** C85. The comparisons without case go by bytes after the characters are the same so far: the Kelvin sign, three bytes with the small
    letter k, equals kab and differs from k. *)
Theorem c85_equal_refuted : exists a b c, text_of [8490]%N a /\ b = bs "kab" /\ c = bs "k" /\
  equal_insens_str ex_low a b = true /\ cmp_insens_str ex_low a b = Eq /\ equal_insens_str ex_low a c = false /\
  smalls ex_low [8490]%N = smalls ex_low (bs "k") /\ smalls ex_low [8490]%N <> smalls ex_low (bs "kab").
Proof. exists a_kelvin, (bs "kab"), (bs "k"). split; [apply a_kelvin_ok|]. repeat split. discriminate. Qed.
(** C85. And so they are no order: each of three texts comes before the next, in a circle. *)
Theorem c85_circle_refuted : exists a b c, text_of [8490]%N b /\ a = bs "kz" /\ c = bs "kaaa" /\
  cmp_insens_str ex_low a b = Lt /\ cmp_insens_str ex_low b c = Lt /\ cmp_insens_str ex_low c a = Lt.
Proof. exists (bs "kz"), a_kelvin, (bs "kaaa"). split; [apply a_kelvin_ok|]. repeat split. Qed.
(** C85. On a line, bytes that are not text are matched as if they were the replacement character. *)
Theorem c85_lossy_refuted : exists q b, text_of [65533]%N q /\ ~ (exists s, text_of s b) /\ forall lowc white cased ignorable exp10 lossy, lossy b = q ->
  u_says lowc white cased ignorable exp10 lossy (bs "utf8.exact") q b = Ok true.
Proof.
  exists [239; 191; 189]%N, [255]%N. split.
  - apply (text_cons 65533 [239; 191; 189]%N [] []); [apply (coded3 15 63 61); lia|constructor].
  - split.
    + intros (s & H). pose proof (text_bytes _ _ H) as E. rewrite <- (text_chars _ _ H) in E. discriminate.
    + intros l w c i e lossy E. change (u_says l w c i e lossy (bs "utf8.exact") [239; 191; 189]%N [255]%N) with (@Ok bool (beq [239; 191; 189]%N (lossy [255]%N))).
      rewrite E. reflexivity.
Qed.
