(** C14-C17 and C54: comparators, sort keys, several keys, sortedness. *)
From Coq Require Import String List NArith ZArith QArith Bool Arith Lia SpecFloat.
Open Scope list_scope.
Import ListNotations.
From Verif Require Import Base ReadModel StrModel StrSpec FloatModel FloatValid CompModel CompSpec LineSpec
  OrdProofs CompProofs NumProofs IpProofs CacheProofs LineProofs CheckProofs NumCache TextSpec TextModel RawSplitProofs.
Close Scope Q_scope.
Close Scope Z_scope.

(** A stand-in for libm::exp10 in the examples. *)
Definition ex10 (e : Z) : f64 :=
  if (e >? 308)%Z then S754_infinity false
  else if (0 <=? e)%Z then f_of_Z (10 ^ e) else f_ratio 1 (10 ^ - e).

Lemma ex10_valid : forall z, valid64 (ex10 z).
Proof.
  intros z. unfold ex10. destruct (z >? 308)%Z; [reflexivity|]. destruct (0 <=? z)%Z; auto using f_of_Z_valid, f_ratio_valid.
Qed.

(** C14. The plain, case-insensitive, IP, length and always-equal comparators are total preorders on
    all byte strings. *)
Theorem c14_preorder : forall exp10 c, c = CPlain \/ c = CLower \/ c = CIP \/ c = CEqual \/ c = CLen ->
  total_preorder (c_comp exp10 c).
Proof. exact orderly_preorder. Qed.

Example c14_preorder_ex : c_comp ex10 CIP (bs "10.0.0.2") (bs "10.0.0.10") = Lt /\
  c_comp ex10 CLower (bs "abC") (bs "ABd") = Lt /\ c_comp ex10 CLen (bs "zz") (bs "aaa") = Lt.
Proof. vm_compute. auto. Qed.

(** C14. What they mean: dictionary order, dictionary order without case, order by length, and order
    of dotted numbers by their numbers. *)
Theorem c14_plain : forall exp10 a b, (c_comp exp10 CPlain a b = Lt <-> dict_lt a b) /\
  (c_comp exp10 CPlain a b = Eq <-> a = b).
Proof. intros. split; [apply bcmp_lt|apply bcmp_eq]. Qed.

Example c14_plain_ex : dict_lt (bs "abc") (bs "abd") /\ c_comp ex10 CPlain (bs "abc") (bs "abd") = Lt.
Proof. split; [right; exists (bs "ab"), 99%N, 100%N, [], []; repeat split; reflexivity|reflexivity]. Qed.

Theorem c14_lower : forall exp10 a b, (c_comp exp10 CLower a b = Lt <-> dict_lt (caseless a) (caseless b)) /\
  (c_comp exp10 CLower a b = Eq <-> caseless a = caseless b).
Proof. intros. cbn [c_comp]. rewrite cmp_insens_bcmp, !lower_caseless. split; [apply bcmp_lt|apply bcmp_eq]. Qed.

Example c14_lower_ex : c_comp ex10 CLower (bs "Zebra") (bs "zebRA") = Eq /\ caseless (bs "Zebra") = caseless (bs "zebRA").
Proof. split; reflexivity. Qed.

Theorem c14_length : forall exp10 a b, (c_comp exp10 CLen a b = Lt <-> List.length a < List.length b) /\
  (c_comp exp10 CLen a b = Eq <-> List.length a = List.length b).
Proof. intros. cbn [c_comp]. split; [apply Nat.compare_lt_iff|apply Nat.compare_eq_iff]. Qed.

Example c14_length_ex : c_comp ex10 CLen (bs "zzz") (bs "aaaa") = Lt.
Proof. reflexivity. Qed.

Theorem c14_ip : forall exp10 a b, a <> [] -> b <> [] -> c_comp exp10 CIP (dotted a) (dotted b) = numbers_cmp a b.
Proof. intros exp10. exact ip_dotted. Qed.

Example c14_ip_ex : dotted [192; 168; 2; 10]%N = bs "192.168.2.10" /\
  c_comp ex10 CIP (bs "192.168.2.10") (bs "192.168.10.1") = Lt.
Proof. split; reflexivity. Qed.

(** C14. Asking for equality gives the same answer as comparing, for every comparator, and a
    comparator that remembers one side answers like the direct comparison (lengths below 2^32). *)
Theorem c14_equal_agrees : forall exp10 c a b, c_equal exp10 c a b = true <-> c_comp exp10 c a b = Eq.
Proof. intros. rewrite ip_equal. destruct (c_comp exp10 c a b); cbn; split; congruence. Qed.

Example c14_equal_agrees_ex : c_equal ex10 CF64 (bs "1.50") (bs "15e-1") = true /\ c_comp ex10 CF64 (bs "1.50") (bs "15e-1") = Eq.
Proof. vm_compute. auto. Qed.

Theorem c14_self_agrees : forall exp10 c a b,
  (N.of_nat (List.length a) < 2 ^ 32)%N -> (N.of_nat (List.length b) < 2 ^ 32)%N ->
  c_comp_self exp10 c a b = c_comp exp10 c a b /\ c_equal_self exp10 c a b = c_equal exp10 c a b.
Proof. intros. apply comp_self_comp. unfold self_len. auto. Qed.

Example c14_self_agrees_ex : c_comp_self ex10 CLower (bs "Beta") (bs "alpha") = Gt.
Proof. reflexivity. Qed.

(** C14, float comparator. A total preorder on all texts that do not convert to a NaN; every
    comparator other than this one answers opposite ways round on all texts. *)
Theorem c14_float_partial : forall exp10, (forall z, valid64 (exp10 z)) ->
  total_preorder_on (fun v => to_f64_lossy exp10 v <> S754_nan) (c_comp exp10 CF64).
Proof. exact f64_preorder. Qed.

Example c14_float_partial_ex : (forall z, valid64 (ex10 z)) /\
  to_f64_lossy ex10 (bs "-2.5e3") <> S754_nan /\ to_f64_lossy ex10 (bs "17K") <> S754_nan /\
  c_comp ex10 CF64 (bs "-2.5e3") (bs "17K") = Lt.
Proof. split; [exact ex10_valid|]. vm_compute. repeat split; discriminate. Qed.

Theorem c14_antisymmetric : forall exp10 c a b, c <> CF64 -> c_comp exp10 c b a = CompOpp (c_comp exp10 c a b).
Proof. exact comp_antisym. Qed.

Example c14_antisymmetric_ex : c_comp ex10 CNumeric (bs "-1,200.5") (bs "junk") = Lt /\ c_comp ex10 CNumeric (bs "junk") (bs "-1,200.5") = Gt.
Proof. vm_compute. auto. Qed.

(** C14. With an exponent out of range zero becomes NaN, which compares less than itself. *)
Theorem c14_float_refuted : forall exp10, exp10 400%Z = S754_infinity false ->
  exists a, c_comp exp10 CF64 a a = Lt.
Proof. intros exp10 H. exists (bs "0e400"). cbn [c_comp]. assert (E : to_f64_lossy exp10 (bs "0e400") = S754_nan).
  { unfold to_f64_lossy, to_f64. cbn. rewrite H. reflexivity. } rewrite E. reflexivity. Qed.

Example c14_float_refuted_ex : ex10 400 = S754_infinity false /\ c_comp ex10 CF64 (bs "0e400") (bs "0e400") = Lt.
Proof. vm_compute. auto. Qed.

(** C15. On decimal numerals (leading blanks, minus sign, digits with commas, optional fraction) the
    numeric comparator gives the order of the values, except exactly on the pairs [misjudged]: one
    numeral with a decimal point and one without, agreeing in the integer part, with a non-zero
    fraction; two fractions differing only in trailing zeros; and two zeros of different sign. *)
Theorem c15_exact_partial : forall exp10 a b, numeral_ok a -> numeral_ok b ->
  (c_comp exp10 CNumeric (numeral_text a) (numeral_text b) = Qcompare (numeral_value a) (numeral_value b) <->
   ~ misjudged a b).
Proof. intros exp10. exact signed_value. Qed.

Example c15_exact_partial_ex :
  let a := mknum (bs "  ") true (bs "1,234") (Some (bs "50")) in let b := mknum [] true (bs "01234") (Some (bs "6")) in
  numeral_ok a /\ numeral_ok b /\ ~ misjudged a b /\ numeral_text a = bs "  -1,234.50" /\
  c_comp ex10 CNumeric (bs "  -1,234.50") (bs "-01234.6") = Gt.
Proof.
  cbn zeta. split; [|split; [|split; [|split; reflexivity]]].
  - repeat split; cbn; repeat constructor; unfold digit_byte; cbn; lia.
  - repeat split; cbn; repeat constructor; unfold digit_byte; cbn; lia.
  - unfold misjudged. intros [(_ & _ & [(k & _ & E)|(k & _ & E)])|[E _]];
      [discriminate (f_equal (hd 0%N) E)|discriminate (f_equal (hd 0%N) E)|apply E; reflexivity].
Qed.

(** C15. Whole numbers of any length, with or without commas and leading zeros, are ordered by value. *)
Theorem c15_integers : forall exp10 a b, numeral_ok a -> numeral_ok b -> n_frac a = None -> n_frac b = None ->
  n_neg a = false -> n_neg b = false ->
  c_comp exp10 CNumeric (numeral_text a) (numeral_text b) = (digits_val (n_int a) ?= digits_val (n_int b))%Z.
Proof.
  intros exp10 a b Ha Hb Fa Fb Sa Sb. cbn [c_comp]. rewrite (proj2 (signed_value a b Ha Hb)).
  - unfold numeral_value, numeral_abs, frac_of, Qcompare. rewrite Sa, Sb, Fa, Fb, !app_nil_r. cbn. rewrite !Z.mul_1_r. auto.
  - unfold misjudged. rewrite Fa, Fb, Sa, Sb. intuition congruence.
Qed.

Example c15_integers_ex : c_comp ex10 CNumeric (bs "1,000,000") (bs "000999999") = Gt.
Proof. reflexivity. Qed.

(** C15. Not by value, and not transitive: 1.5 and 1 are called equal, so are 1 and 1.2, yet 1.2 is
    less than 1.5; and 1.10 is called greater than 1.1, minus zero less than zero. *)
Theorem c15_transitive_refuted : exists x y z, forall exp10,
  c_comp exp10 CNumeric x y = Eq /\ c_comp exp10 CNumeric y z = Eq /\ c_comp exp10 CNumeric z x = Lt.
Proof. exists (bs "1.5"), (bs "1"), (bs "1.2"). intros. vm_compute. auto. Qed.

Theorem c15_value_refuted : exists a b, numeral_ok a /\ numeral_ok b /\ Qcompare (numeral_value a) (numeral_value b) = Eq /\
  forall exp10, c_comp exp10 CNumeric (numeral_text a) (numeral_text b) = Gt.
Proof.
  exists (mknum [] false (bs "1") (Some (bs "10"))), (mknum [] false (bs "1") (Some (bs "1"))).
  split; [repeat split; cbn; repeat constructor; unfold digit_byte; cbn; lia|].
  split; [repeat split; cbn; repeat constructor; unfold digit_byte; cbn; lia|].
  split; [reflexivity|]. intros; reflexivity.
Qed.

Theorem c15_minus_zero_refuted : forall exp10, c_comp exp10 CNumeric (bs "-0") (bs "0") = Lt.
Proof. reflexivity. Qed.

(** C16. Column keys: comparing through the precomputed key is comparing the lines. For text keys
    unless one value is the other with NUL bytes appended, both within eight bytes; for float keys
    unless a NaN or two zeros of different sign are involved; for numeric keys on ordinary whole
    numbers; for length, IP and always-equal keys on all values. *)
Definition col_key (c : cmpr) (col : nat) (delim : byte) : linecomp :=
  mklc false delim (LCol (fun _ => col) (mkcomp false c)).

Theorem c16_text_key_partial : forall exp10 c col delim base i j, c = CPlain \/ c = CLower ->
  it_complete i = false -> it_complete j = false ->
  let k := col_key c col delim in
  let norm v := if match c with CLower => true | _ => false end then caseless v else v in
  let a := get_col (it_get i base) col delim in let b := get_col (it_get j base) col delim in
  Forall is_byte a -> Forall is_byte b -> ~ nul_ext (norm a) (norm b) -> ~ nul_ext (norm b) (norm a) ->
  lc_comp_items exp10 k base (lc_fill_cache_line exp10 k i base) (lc_fill_cache_line exp10 k j base) =
  lc_comp_lines_n exp10 k (it_get i base) (it_get j base) 0 0.
Proof.
  intros exp10 c col delim base i j Hc Fi Fj k norm a b Ha Hb N1 N2. apply comp_items_lines; auto.
  unfold key_safe, k, col_key. cbn [lc_cmp lc_delim cp_cmpr]. fold a b.
  destruct Hc as [-> | ->]; cbn [cache_safe]; auto.
Qed.

Definition ex_base : bytes := bs "zz" ++ [TAB] ++ bs "alphabetical" ++ [NL] ++ bs "yy" ++ [TAB] ++ bs "alphabetize" ++ [NL].
Definition ex_i : item := mkitem 0 16 0.
Definition ex_j : item := mkitem 16 15 0.
Example c16_text_key_partial_ex : it_get ex_i ex_base = bs "zz" ++ [TAB] ++ bs "alphabetical" ++ [NL] /\
  it_get ex_j ex_base = bs "yy" ++ [TAB] ++ bs "alphabetize" ++ [NL] /\
  let k := col_key CPlain 1 TAB in
  lc_comp_items ex10 k ex_base (lc_fill_cache_line ex10 k ex_i ex_base) (lc_fill_cache_line ex10 k ex_j ex_base) = Lt.
Proof. vm_compute. auto. Qed.

Theorem c16_other_keys : forall exp10 c col delim base i j, c = CLen \/ c = CIP \/ c = CEqual ->
  it_complete i = false -> it_complete j = false ->
  let k := col_key c col delim in
  lc_comp_items exp10 k base (lc_fill_cache_line exp10 k i base) (lc_fill_cache_line exp10 k j base) =
  lc_comp_lines_n exp10 k (it_get i base) (it_get j base) 0 0.
Proof.
  intros exp10 c col delim base i j Hc Fi Fj k. apply comp_items_lines; auto.
  unfold key_safe, k, col_key. cbn [lc_cmp lc_delim cp_cmpr]. destruct Hc as [->|[->| ->]]; cbn; auto.
Qed.

Example c16_other_keys_ex : let k := col_key CLen 1 TAB in
  lc_comp_items ex10 k ex_base (lc_fill_cache_line ex10 k ex_i ex_base) (lc_fill_cache_line ex10 k ex_j ex_base) = Gt.
Proof. vm_compute. auto. Qed.

Theorem c16_float_key_partial : forall exp10 col delim base i j, (forall z, valid64 (exp10 z)) ->
  it_complete i = false -> it_complete j = false ->
  let k := col_key CF64 col delim in
  let x := to_f64_lossy exp10 (get_col (it_get i base) col delim) in
  let y := to_f64_lossy exp10 (get_col (it_get j base) col delim) in
  x <> S754_nan -> y <> S754_nan -> ~ (exists s t, x = S754_zero s /\ y = S754_zero t /\ s <> t) ->
  lc_comp_items exp10 k base (lc_fill_cache_line exp10 k i base) (lc_fill_cache_line exp10 k j base) =
  lc_comp_lines_n exp10 k (it_get i base) (it_get j base) 0 0.
Proof.
  intros exp10 col delim base i j V Fi Fj k x y Nx Ny Z0. apply comp_items_lines; auto.
  unfold key_safe, k, col_key. cbn [lc_cmp lc_delim cp_cmpr cache_safe]. unfold good_float.
  repeat split; auto using to_f64_valid.
Qed.

Definition ex_nums : bytes := bs "-3.25" ++ [NL] ++ bs "12e1" ++ [NL].
Definition ex_n1 : item := mkitem 0 6 0.
Definition ex_n2 : item := mkitem 6 5 0.
Example c16_float_key_partial_ex : let k := col_key CF64 0 TAB in
  to_f64_lossy ex10 (get_col (it_get ex_n1 ex_nums) 0 TAB) <> S754_nan /\
  lc_comp_items ex10 k ex_nums (lc_fill_cache_line ex10 k ex_n1 ex_nums) (lc_fill_cache_line ex10 k ex_n2 ex_nums) = Lt.
Proof. vm_compute. split; [discriminate|auto]. Qed.

Theorem c16_numeric_key_partial : forall exp10 col delim base i j n m,
  it_complete i = false -> it_complete j = false ->
  let k := col_key CNumeric col delim in
  get_col (it_get i base) col delim = numeral_text n -> get_col (it_get j base) col delim = numeral_text m ->
  whole_number n -> whole_number m ->
  lc_comp_items exp10 k base (lc_fill_cache_line exp10 k i base) (lc_fill_cache_line exp10 k j base) =
  lc_comp_lines_n exp10 k (it_get i base) (it_get j base) 0 0.
Proof.
  intros exp10 col delim base i j n m Fi Fj k En Em Hn Hm. apply comp_items_lines; auto.
  unfold key_safe, k, col_key. cbn [lc_cmp lc_delim cp_cmpr]. rewrite En, Em. apply numeric_key_safe; auto.
Qed.

Definition ex_ints : bytes := bs "-12" ++ [NL] ++ bs "007" ++ [NL].
Example c16_numeric_key_partial_ex :
  let n := mknum [] true (bs "12") None in let m := mknum [] false (bs "007") None in
  let k := col_key CNumeric 0 TAB in let i := mkitem 0 4 0 in let j := mkitem 4 4 0 in
  get_col (it_get i ex_ints) 0 TAB = numeral_text n /\ get_col (it_get j ex_ints) 0 TAB = numeral_text m /\
  whole_number n /\ whole_number m /\
  lc_comp_items ex10 k ex_ints (lc_fill_cache_line ex10 k i ex_ints) (lc_fill_cache_line ex10 k j ex_ints) = Lt.
Proof.
  cbn zeta. do 2 (split; [reflexivity|]). split; [|split; [|vm_compute; reflexivity]].
  - repeat split; cbn; repeat constructor; unfold digit_byte; cbn; try lia; try discriminate.
  - repeat split; cbn; repeat constructor; unfold digit_byte; cbn; try lia; try discriminate.
Qed.

(** C16. Several keys: the key of the first is cached, and the whole comparison is that of the lines. *)
Theorem c16_list_partial : forall exp10 k ks base i j,
  it_complete i = false -> it_complete j = false ->
  key_safe exp10 k base (it_get i base) (it_get j base) -> lc_rev k = false ->
  let cs := k :: ks in
  ll_comp_items exp10 cs base (ll_fill_cache_line exp10 cs i base) (ll_fill_cache_line exp10 cs j base) =
  ll_comp_lines_n exp10 cs (it_get i base) (it_get j base) 0 0 /\
  ll_equal_items exp10 cs base (ll_fill_cache_line exp10 cs i base) (ll_fill_cache_line exp10 cs j base) =
  ll_equal_lines_n exp10 cs (it_get i base) (it_get j base) 0 0.
Proof. intros. apply comp_items_lines_list; auto. Qed.

Example c16_list_partial_ex : let k := col_key CLen 0 TAB in let cs := [k; col_key CPlain 1 TAB] in
  key_safe ex10 k ex_base (it_get ex_i ex_base) (it_get ex_j ex_base) /\
  ll_comp_items ex10 cs ex_base (ll_fill_cache_line ex10 cs ex_i ex_base) (ll_fill_cache_line ex10 cs ex_j ex_base) = Lt.
Proof. cbn zeta. split; [exact I|vm_compute; reflexivity]. Qed.

(** C16. Where the cached answer differs from the direct one. *)
Theorem c16_nul_refuted : exists base i j, let k := col_key CPlain 0 TAB in forall exp10,
  lc_comp_items exp10 k base (lc_fill_cache_line exp10 k i base) (lc_fill_cache_line exp10 k j base) = Eq /\
  lc_comp_lines_n exp10 k (it_get i base) (it_get j base) 0 0 = Lt.
Proof. exists (bs "a" ++ [NL] ++ bs "a" ++ [0%N; NL]), (mkitem 0 2 0), (mkitem 2 3 0). intros. vm_compute. auto. Qed.

Theorem c16_numeric_comma_refuted : exists base i j, let k := col_key CNumeric 0 TAB in forall exp10,
  lc_comp_items exp10 k base (lc_fill_cache_line exp10 k i base) (lc_fill_cache_line exp10 k j base) = Lt /\
  lc_comp_lines_n exp10 k (it_get i base) (it_get j base) 0 0 = Gt.
Proof. exists (bs "1,000" ++ [NL] ++ bs "2" ++ [NL]), (mkitem 0 6 0), (mkitem 6 2 0). intros. vm_compute. auto. Qed.

Theorem c16_float_zero_refuted : exists base i j, let k := col_key CF64 0 TAB in forall exp10,
  lc_comp_items exp10 k base (lc_fill_cache_line exp10 k i base) (lc_fill_cache_line exp10 k j base) = Lt /\
  lc_comp_lines_n exp10 k (it_get i base) (it_get j base) 0 0 = Eq.
Proof. exists (bs "-0" ++ [NL] ++ bs "0" ++ [NL]), (mkitem 0 3 0), (mkitem 3 2 0). intros. vm_compute. auto. Qed.

(** C16. A reversed key is reversed twice when the key does not decide: long texts sort ascending. *)
Theorem c16_reverse_refuted : exists base i j, let k := mklc true TAB (LCol (fun _ => 0) (mkcomp false CPlain)) in
  forall exp10,
  lc_comp_items exp10 k base (lc_fill_cache_line exp10 k i base) (lc_fill_cache_line exp10 k j base) = Lt /\
  lc_comp_lines_n exp10 k (it_get i base) (it_get j base) 0 0 = Gt.
Proof.
  exists (bs "abcdefghA" ++ [NL] ++ bs "abcdefghB" ++ [NL]), (mkitem 0 10 0), (mkitem 10 10 0). intros. vm_compute. auto.
Qed.

(** C16. Whole-line length and float keys are computed from the whole buffer, so no two lines ever
    differ. *)
Theorem c16_whole_refuted : forall exp10 rev delim c base i j, c = CLen \/ c = CF64 ->
  let k := mklc rev delim (LWhole (mkcomp false c)) in
  lc_comp_items exp10 k base (lc_fill_cache_line exp10 k i base) (lc_fill_cache_line exp10 k j base) = Eq.
Proof. intros exp10 rev delim c base i j H k. apply (whole_blind exp10 k (mkcomp false c)); auto. Qed.

Example c16_whole_refuted_ex : let k := mklc false TAB (LWhole (mkcomp false CLen)) in
  lc_comp_items ex10 k ex_base (lc_fill_cache_line ex10 k ex_i ex_base) (lc_fill_cache_line ex10 k ex_j ex_base) = Eq /\
  lc_comp_lines_n ex10 k (it_get ex_i ex_base) (it_get ex_j ex_base) 0 0 = Gt.
Proof. vm_compute. auto. Qed.

(** C17. A list of keys gives the answer of the first key that tells the lines apart, on raw lines and
    on split lines. *)
Theorem c17_lines_first_key : forall exp10 cs a b,
  first_key (map (fun k x y => lc_comp_lines_n exp10 k x y 0 0) cs) a b (ll_comp_lines_n exp10 cs a b 0 0).
Proof. exact lines_first_key. Qed.

Example c17_lines_first_key_ex : let cs := [col_key CLower 0 TAB; mklc true TAB (LCol (fun _ => 1) (mkcomp false CLen))] in
  ll_comp_lines_n ex10 cs (bs "A" ++ [TAB] ++ bs "xx") (bs "a" ++ [TAB] ++ bs "x") 0 0 = Lt.
Proof. reflexivity. Qed.

Theorem c17_cols_first_key : forall exp10 cs a b,
  first_key (map (fun k x y => lc_comp_cols_n exp10 k x y 0 0) cs) a b (ll_comp_cols_n exp10 cs a b 0 0).
Proof. exact cols_first_key. Qed.

Definition ex_line (a b : bytes) : textline :=
  mktl (a ++ [TAB] ++ b) [(0, List.length a); (List.length a + 1, List.length a + 1 + List.length b)] [].
Example c17_cols_first_key_ex : let cs := [col_key CLower 0 TAB; col_key CPlain 1 TAB] in
  ll_comp_cols_n ex10 cs (ex_line (bs "A") (bs "x")) (ex_line (bs "a") (bs "y")) 0 0 = Lt.
Proof. reflexivity. Qed.

(** C17. A reversed key answers the opposite of the same key not reversed. *)
Theorem c17_direction : forall exp10 d m a b,
  lc_comp_lines_n exp10 (mklc true d m) a b 0 0 = CompOpp (lc_comp_lines_n exp10 (mklc false d m) a b 0 0).
Proof. intros. apply ord_rev_opp. Qed.

Example c17_direction_ex : lc_comp_lines_n ex10 (mklc true TAB (LWhole (mkcomp false CPlain))) (bs "a") (bs "b") 0 0 = Gt.
Proof. reflexivity. Qed.

(** C17. If every key is a total preorder, so is the list, whatever the directions; and this is the
    case for any keys using the comparators of C14. *)
Theorem c17_preorder : forall exp10 cs,
  Forall (fun k => total_preorder (fun x y => l_comp_lines exp10 (lc_cmp k) x y (lc_delim k) 0 0)) cs ->
  total_preorder (fun a b => ll_comp_lines_n exp10 cs a b 0 0).
Proof. exact lines_preorder. Qed.

Theorem c17_preorder_cols : forall exp10 cs, Forall orderly_key cs ->
  total_preorder (fun a b => ll_comp_lines_n exp10 cs a b 0 0) /\
  total_preorder (fun a b => ll_comp_cols_n exp10 cs a b 0 0).
Proof.
  intros exp10 cs H. split; [apply lines_preorder|apply cols_preorder]; (eapply Forall_impl; [|apply H]);
    [apply orderly_line|apply orderly_cols].
Qed.

Example c17_preorder_ex : Forall orderly_key [col_key CLower 0 TAB; mklc true TAB (LCol (fun _ => 1) (mkcomp false CIP))].
Proof. repeat (apply Forall_cons; [unfold orderly_key, orderly; cbn; tauto|]). apply Forall_nil. Qed.

(** C17. Equality of lines is comparison giving Equal. *)
Theorem c17_equal_agrees : forall exp10 cs a b,
  ll_equal_lines_n exp10 cs a b 0 0 = true <-> ll_comp_lines_n exp10 cs a b 0 0 = Eq.
Proof. intros. rewrite ll_equal_is_eq. destruct (ll_comp_lines_n exp10 cs a b 0 0); cbn; split; congruence. Qed.

Example c17_equal_agrees_ex : ll_equal_lines_n ex10 [col_key CLower 0 TAB] (bs "A" ++ [TAB] ++ bs "x") (bs "a") 0 0 = true.
Proof. reflexivity. Qed.

(** C17. Keys remembered with set are compared like the columns they were taken from. *)
Theorem c17_remembered : forall exp10 cs vs l r, Forall2 (fun k v => remembered exp10 k l v) cs vs ->
  Forall (fun k => short_enough k l r) cs ->
  ll_comp_self_cols exp10 cs vs r = ll_comp_cols_n exp10 cs l r 0 0 /\
  ll_equal_self_cols exp10 cs vs r = ll_equal_cols_n exp10 cs l r 0 0.
Proof. exact self_cols. Qed.

Example c17_remembered_ex : let cs := [col_key CLower 0 TAB; col_key CNumeric 1 TAB] in
  Forall2 (fun k v => remembered ex10 k (ex_line (bs "A") (bs "10")) v) cs [bs "A"; bs "10"] /\
  Forall (fun k => short_enough k (ex_line (bs "A") (bs "10")) (ex_line (bs "a") (bs "9"))) cs /\
  ll_comp_self_cols ex10 cs [bs "A"; bs "10"] (ex_line (bs "a") (bs "9")) = Gt.
Proof. cbn zeta. split; [repeat constructor|]. split; [repeat constructor; unfold short_enough, self_len; cbn; discriminate|reflexivity]. Qed.

(** C17. The i-th column read from a raw line is the i-th piece between delimiters without the newline, and
    comparing raw lines by column keys gives the answer of comparing the split lines. *)
Theorem c17_column_text : forall l i d, d <> NL -> ~ In NL l -> get_col (l ++ [NL]) i d = nth i (split_on d l) [].
Proof. exact get_col_is. Qed.

Example c17_column_text_ex : get_col (bs "a,bc" ++ [NL]) 1 44%N = bs "bc".
Proof. reflexivity. Qed.

Theorem c17_raw_split_agree : forall exp10 d cs a b lf rf, d <> NL -> ~ In NL a -> ~ In NL b ->
  Forall (by_column d) cs ->
  let sp l := tl_split QPlain d (mktl (l ++ [NL]) [] []) in
  ll_comp_lines_n exp10 cs (a ++ [NL]) (b ++ [NL]) lf rf = ll_comp_cols_n exp10 cs (sp a) (sp b) lf rf /\
  ll_equal_lines_n exp10 cs (a ++ [NL]) (b ++ [NL]) lf rf = ll_equal_cols_n exp10 cs (sp a) (sp b) lf rf.
Proof. exact lines_cols_agree. Qed.

Example c17_raw_split_agree_ex : let cs := [col_key CLen 1 44%N; col_key CPlain 0 44%N] in
  Forall (by_column 44%N) cs /\ ll_comp_lines_n ex10 cs (bs "a,b" ++ [NL]) (bs "b,c" ++ [NL]) 0 0 = Lt.
Proof. cbn zeta. split; [repeat constructor|reflexivity]. Qed.

(** C54. The sortedness check succeeds exactly when every adjacent pair in every file is in order,
    whatever number of reports is allowed; with keys that are total preorders this is exactly global
    order. *)
Theorem c54_check_exact : forall exp10 cs unique num_checks files,
  sort_check exp10 cs unique num_checks files 0 = true <->
  Forall (adjacent_ok unique (fun x y => ll_comp_cols_n exp10 cs x y 0 0)) files.
Proof. exact sort_check_exact. Qed.

Theorem c54_check_global : forall exp10 cs unique num_checks files, Forall orderly_key cs ->
  (sort_check exp10 cs unique num_checks files 0 = true <->
   Forall (globally_sorted unique (fun x y => ll_comp_cols_n exp10 cs x y 0 0)) files).
Proof.
  intros exp10 cs u n files H. rewrite sort_check_exact.
  assert (P : total_preorder (fun x y => ll_comp_cols_n exp10 cs x y 0 0)) by (apply c17_preorder_cols; auto).
  split; intros HF; (eapply Forall_impl; [|apply HF]); intros f; apply adjacent_global; auto.
Qed.

Example c54_check_ex : let cs := [col_key CLower 0 TAB] in
  let f := [ex_line (bs "a") (bs "x"); ex_line (bs "A") (bs "y"); ex_line (bs "b") (bs "x")] in
  sort_check ex10 cs false 10 [f; f] 0 = true /\ sort_check ex10 cs true 10 [f] 0 = false.
Proof. split; reflexivity. Qed.

Theorem c54_one_pair : forall exp10 cs unique prev curr,
  comp_check exp10 cs unique prev curr = false <->
  in_order unique (fun x y => ll_comp_cols_n exp10 cs x y 0 0) prev curr.
Proof. intros. apply comp_check_ok. Qed.

Example c54_one_pair_ex : comp_check ex10 [col_key CLen 1 TAB] true (ex_line [] (bs "x")) (ex_line [] (bs "y")) = true.
Proof. reflexivity. Qed.
