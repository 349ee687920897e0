(** C09-C13, C46, C47: text primitives. *)
From Coq Require Import String List NArith ZArith Bool Arith Lia Decimal.
Import ListNotations.
From Verif Require Import Base TextSpec StrModel StrSpec GlobProofs StrProofs.
Open Scope list_scope.

(** C09. A one-based inclusive range a-b is accepted exactly when 1 <= a <= b, and then stands for
    the bytes at offsets a-1 .. b-1. *)
Theorem c09_range_parse : forall a b, (a < 2 ^ 32)%N -> (b < 2 ^ 32)%N ->
  fake_slice_new (print_N a ++ bs "-" ++ print_N b) =
  if ((1 <=? a) && (a <=? b))%N then Ok (a - 1, b)%N else Err.
Proof.
  intros a b Ha Hb. change (bs "-" ++ print_N b) with (45%N :: print_N b). rewrite fake_slice_range by auto.
  destruct (N.eqb_spec a 0), (N.eqb_spec b 0), (N.ltb_spec b a), (N.leb_spec 1 a), (N.leb_spec a b);
    cbn; try reflexivity; lia.
Qed.

Example c09_range_parse_ex : fake_slice_new (bs "3-17") = Ok (2, 17)%N /\ fake_slice_new (bs "3-2") = Err.
Proof. split; reflexivity. Qed.

Theorem c09_position_parse : forall a, (a < 2 ^ 32)%N ->
  fake_slice_new (print_N a) = if (1 <=? a)%N then Ok (a - 1, a)%N else Err.
Proof.
  intros a Ha. rewrite fake_slice_pos by auto. destruct (N.eqb_spec a 0), (N.leb_spec 1 a); auto; lia.
Qed.

Example c09_position_parse_ex : fake_slice_new (bs "7") = Ok (6, 7)%N /\ fake_slice_new (bs "0") = Err.
Proof. split; reflexivity. Qed.

(** C09. For every accepted range text the clamped accessor never fails; byte i of its result is byte
    begin + i of the value if that lies inside both range and value, and there is nothing else. *)
Theorem c09_get_safe : forall a b data, (1 <= a)%N -> (a <= b)%N -> (b < 2 ^ 32)%N ->
  exists r, rbind (fake_slice_new (print_N a ++ bs "-" ++ print_N b)) (fun s => slice_get_safe s data) = Ok r /\
  forall i, nth_error r i =
    if N.to_nat a - 1 + i <? N.to_nat b then nth_error data (N.to_nat a - 1 + i) else None.
Proof.
  intros a b data H1 H2 H3. rewrite c09_range_parse by lia.
  replace ((1 <=? a) && (a <=? b))%N with true.
  2:{ symmetry. apply andb_true_iff. split; apply N.leb_le; auto. }
  cbn [rbind]. destruct (slice_get_safe_spec (a - 1) b data ltac:(lia)) as (r & E & Hr).
  exists r. split; auto. intros i. rewrite Hr. rewrite N2Nat.inj_sub. reflexivity.
Qed.

Example c09_get_safe_ex :
  rbind (fake_slice_new (bs "3-10")) (fun s => slice_get_safe s (bs "abcde")) = Ok (bs "cde") /\
  rbind (fake_slice_new (bs "7-9")) (fun s => slice_get_safe s (bs "abcde")) = Ok [].
Proof. split; reflexivity. Qed.

(** C09. The unclamped accessor gives the same bytes when the value is long enough and panics
    otherwise. *)
Theorem c09_get : forall b e data, (b <= e)%N ->
  slice_get (b, e) data = if (e <=? N.of_nat (List.length data))%N
                          then Ok (firstn (N.to_nat e - N.to_nat b) (skipn (N.to_nat b) data)) else Panic.
Proof.
  intros b e data H. rewrite slice_get_spec by auto. destruct (N.leb_spec e (N.of_nat (List.length data))); auto.
  apply get_safe_full; auto.
Qed.

Example c09_get_ex : slice_get (2, 4)%N (bs "abcde") = Ok (bs "cd") /\ slice_get (2, 6)%N (bs "abcde") = Panic.
Proof. split; reflexivity. Qed.

(** C09 without the bound on the numbers is false: positions are truncated to 32 bits. *)
Theorem c09_large_position_refuted : exists a data r,
  (1 <= a < 2 ^ 64)%N /\ (N.of_nat (List.length data) < a)%N /\
  rbind (fake_slice_new (print_N a)) (fun s => slice_get_safe s data) = Ok r /\ r <> [].
Proof.
  exists 4294967297%N, (bs "abc"), (bs "a"). split; [lia|]. split; [vm_compute; reflexivity|].
  split; [vm_compute; reflexivity|discriminate].
Qed.

(** C10. Matching always ends. *)
Theorem c10_glob_terminates : forall buff wild ic, glob buff wild ic <> None.
Proof. intros. destruct (glob_total buff wild ic) as [r ->]. discriminate. Qed.

Example c10_glob_terminates_ex : glob (bs "aaaaab") (bs "*a*a*b") Sens = Some (Ok true).
Proof. vm_compute. reflexivity. Qed.

(** C10. A reported match is a match, for every pattern. Missing for the full claim: the converse,
    refuted below; it is proved for patterns without star, with one final star, and (with its exact
    error) with one star elsewhere. *)
Theorem c10_glob_sound_partial : forall buff wild ic,
  glob buff wild ic = Some (Ok true) -> gmatch (match ic with Insens => true | Sens => false end) wild buff.
Proof. exact glob_sound. Qed.

Example c10_glob_sound_ex : glob (bs "xxabyyab") (bs "*ab*Ab") Insens = Some (Ok true).
Proof. vm_compute. reflexivity. Qed.

(** C10. Exact for patterns without star. *)
Theorem c10_glob_no_star_partial : forall buff wild ic, ~ In 42%N wild ->
  exists b, glob buff wild ic = Some (Ok b) /\
    (b = true <-> gmatch (match ic with Insens => true | Sens => false end) wild buff).
Proof. intros buff wild ic H. rewrite glob_nostar by auto. eexists; split; [reflexivity|]. apply smatch_spec; auto. Qed.

Example c10_glob_no_star_ex : ~ In 42%N (bs "a?C") /\ glob (bs "abc") (bs "a?C") Insens = Some (Ok true)
  /\ glob (bs "abc") (bs "a?C") Sens = Some (Ok false).
Proof. split; [cbn; intuition discriminate|split; reflexivity]. Qed.

(** C10. Exact for patterns whose only star is the last character. *)
Theorem c10_glob_final_star_partial : forall buff p ic, ~ In 42%N p ->
  exists b, glob buff (p ++ bs "*") ic = Some (Ok b) /\
    (b = true <-> gmatch (match ic with Insens => true | Sens => false end) (p ++ bs "*") buff).
Proof. intros buff p ic. apply trailing_star. Qed.

Example c10_glob_final_star_ex : ~ In 42%N (bs "a?") /\ glob (bs "abc") (bs "a?*") Sens = Some (Ok true)
  /\ glob (bs "a") (bs "a?*") Sens = Some (Ok false).
Proof. split; [cbn; intuition discriminate|split; reflexivity]. Qed.

(** C10. A pattern p*s with one star matches exactly when the star can stand for a run of a length
    other than one (if at least two characters are left for *s). *)
Theorem c10_glob_one_star_partial : forall p s pre t ic,
  ~ In 42%N p -> ~ In 42%N s -> s <> [] -> 2 <= List.length t ->
  gmatch (match ic with Insens => true | Sens => false end) p pre ->
  exists b, glob (pre ++ t) (p ++ bs "*" ++ s) ic = Some (Ok b) /\
    (b = true <-> exists run t', t = run ++ t' /\
       gmatch (match ic with Insens => true | Sens => false end) s t' /\ List.length run <> 1).
Proof. intros p s pre t ic. apply one_star_spec. Qed.

Example c10_glob_one_star_ex :
  glob (bs "data.txt") (bs "da*.txt") Sens = Some (Ok true) /\ glob (bs "dat.txt") (bs "da*.txt") Sens = Some (Ok false).
Proof. split; vm_compute; reflexivity. Qed.

(** C10. The claim is false: a star never stands for exactly one character. *)
Theorem c10_glob_refuted : exists buff wild,
  gmatch false wild buff /\ glob buff wild Sens = Some (Ok false).
Proof.
  exists (bs "ab"), (bs "*b"). split; [|vm_compute; reflexivity].
  apply (gm_star false (bs "b") (bs "a") (bs "b")). constructor; [discriminate|left; reflexivity|constructor].
Qed.

(** C10. Worse, matching panics whenever one character is left for *x and it is not x. *)
Theorem c10_glob_panics : forall p s x c pre ic, ~ In 42%N p -> ~ In 42%N (x :: s) ->
  gmatch (match ic with Insens => true | Sens => false end) p pre ->
  ~ same_char (match ic with Insens => true | Sens => false end) x c ->
  glob (pre ++ [c]) (p ++ bs "*" ++ x :: s) ic = Some Panic.
Proof. intros p s x c pre ic. apply one_star_panic. Qed.

Example c10_glob_panics_ex : glob (bs "a") (bs "*b") Sens = Some Panic.
Proof. vm_compute. reflexivity. Qed.

(** C11. The first n elements. *)
Theorem c11_head : forall l n d, head l n d = join d (firstn n (split_on d l)).
Proof. exact head_spec. Qed.

Example c11_head_ex : head (bs "a//bc/d") 3 47%N = bs "a//bc" /\ head (bs "a//bc/d") 9 47%N = bs "a//bc/d".
Proof. split; reflexivity. Qed.

(** C11. The last n elements. *)
Theorem c11_tail : forall l n d, tail_u8 l n d = join d (lastn n (split_on d l)).
Proof. exact tail_u8_spec. Qed.

Example c11_tail_ex : tail_u8 (bs "a/b//c") 2 47%N = bs "/c" /\ tail_u8 (bs "a/b//c") 0 47%N = [].
Proof. split; reflexivity. Qed.

(** C11. Head and remainder give back the value. *)
Theorem c11_reassemble : forall l n d, 0 < n < List.length (split_on d l) ->
  l = head l n d ++ [d] ++ tail_u8 l (List.length (split_on d l) - n) d.
Proof. exact head_tail. Qed.

Example c11_reassemble_ex : 0 < 2 < List.length (split_on 47 (bs "a/b//c")) /\
  head (bs "a/b//c") 2 47%N = bs "a/b" /\ tail_u8 (bs "a/b//c") 2 47%N = bs "/c".
Proof. split; [vm_compute; lia|split; reflexivity]. Qed.

(** C11. For paths a leading (trailing) delimiter does not count as an element; n at least 1. *)
Theorem c11_head_path_absolute : forall l n d, 0 < n ->
  head_path (d :: l) n d = d :: join d (firstn n (split_on d l)).
Proof. exact head_path_abs. Qed.

Example c11_head_path_absolute_ex : head_path (bs "/usr/local/lib") 2 47%N = bs "/usr/local".
Proof. reflexivity. Qed.

Theorem c11_head_path_relative : forall l n d, hd_error l <> Some d ->
  head_path l n d = join d (firstn n (split_on d l)).
Proof.
  intros l n d H. destruct l as [|c l]; cbn [head_path].
  - cbn. destruct n; cbn; [reflexivity|]. rewrite firstn_nil. reflexivity.
  - destruct (N.eqb_spec c d); [subst; exfalso; apply H; reflexivity|]. apply head_spec.
Qed.

Example c11_head_path_relative_ex : head_path (bs "usr/local/lib") 2 47%N = bs "usr/local".
Proof. reflexivity. Qed.

Theorem c11_tail_path_directory : forall l n d, 0 < n ->
  tail_path_u8 (l ++ [d]) n d = join d (lastn n (split_on d l)) ++ [d].
Proof. exact tail_path_dir. Qed.

Example c11_tail_path_directory_ex : tail_path_u8 (bs "usr/local/lib/") 2 47%N = bs "local/lib/".
Proof. reflexivity. Qed.

Theorem c11_tail_path_file : forall l n d, last l 0%N <> d ->
  tail_path_u8 l n d = join d (lastn n (split_on d l)).
Proof.
  intros l n d H. destruct l as [|c l].
  - unfold tail_path_u8, lastn. cbn. destruct n; reflexivity.
  - unfold tail_path_u8. destruct (N.eqb_spec (last (c :: l) 0%N) d); [contradiction|]. apply tail_u8_spec.
Qed.

Example c11_tail_path_file_ex : tail_path_u8 (bs "usr/local/lib") 2 47%N = bs "local/lib".
Proof. reflexivity. Qed.

(** C12. Unsigned integers, with an optional plus sign. *)
Theorem c12_unsigned_roundtrip : forall n rest, (n < 2 ^ 64)%N -> not_numeric rest ->
  to_usize (print_N n ++ rest) = (n, rest) /\ to_usize (bs "+" ++ print_N n ++ rest) = (n, rest).
Proof.
  intros n rest Hn Hr. split.
  - rewrite to_usize_print, wrapU_small; auto.
  - change (bs "+" ++ print_N n ++ rest) with (43%N :: print_N n ++ rest). rewrite to_usize_plus, wrapU_small; auto.
Qed.

Example c12_unsigned_roundtrip_ex : not_numeric (bs ",5") /\
  print_N 18446744073709551615 = bs "18446744073709551615" /\
  to_usize (bs "18446744073709551615,5") = (18446744073709551615%N, bs ",5").
Proof. split; [cbn; split; [lia|intuition discriminate]|split; vm_compute; reflexivity]. Qed.

(** C12. Larger numbers wrap around silently (release build). *)
Theorem c12_unsigned_wraps : forall n rest, not_numeric rest ->
  to_usize (print_N n ++ rest) = ((n mod 2 ^ 64)%N, rest).
Proof. exact to_usize_print. Qed.

Example c12_unsigned_wraps_ex : to_usize (bs "18446744073709551617") = (1%N, []).
Proof. vm_compute. reflexivity. Qed.

Theorem c12_unsigned_whole : forall n, (n < 2 ^ 64)%N -> to_usize_whole (print_N n) = Ok n.
Proof. exact to_usize_whole_print. Qed.

Example c12_unsigned_whole_ex : to_usize_whole (bs "907") = Ok 907%N /\ to_usize_whole (bs "90x") = Err.
Proof. split; reflexivity. Qed.

(** C12. Signed integers, the most negative one included. *)
Theorem c12_signed_roundtrip : forall z rest, (- 2 ^ 63 <= z < 2 ^ 63)%Z -> not_numeric rest ->
  to_isize (print_Z z ++ rest) = (z, rest).
Proof. exact to_isize_print. Qed.

Example c12_signed_roundtrip_ex : print_Z (- 2 ^ 63) = bs "-9223372036854775808" /\
  to_isize (bs "-9223372036854775808 x") = ((- 2 ^ 63)%Z, bs " x") /\ not_numeric (bs " x").
Proof. split; [vm_compute; reflexivity|split; [vm_compute; reflexivity|cbn; split; [lia|intuition discriminate]]]. Qed.

(** C13. K and k are right. Missing: the other letters, see the table below. *)
Theorem c13_kilo_partial : forall n rest c m, In c (bs "Kk") -> magnitude c = Some m -> (n * m < 2 ^ 64)%N ->
  to_usize (print_N n ++ c :: rest) = ((n * m)%N, rest).
Proof.
  intros n rest c m Hc Hm Hn. rewrite (to_usize_suffix n c rest m).
  - rewrite wrapU_small; auto.
  - destruct Hc as [<-|[<-|[]]]; reflexivity.
  - destruct Hc as [<-|[<-|[]]]; cbn in Hm |- *; exact Hm.
Qed.

Example c13_kilo_ex : to_usize (bs "64Kx") = (65536%N, bs "x") /\ to_usize (bs "64k") = (64000%N, []).
Proof. split; vm_compute; reflexivity. Qed.

(** C13. What the letters really mean, for every number: M multiplies by 1026, m by 1002 and so on. *)
Theorem c13_actual_table : forall n rest c m,
  In (c, m) [(75, 1024); (77, 1026); (71, 1027); (84, 1028); (80, 1029); (69, 1030);
             (107, 1000); (109, 1002); (103, 1003); (116, 1004); (112, 1005); (101, 1006)]%N ->
  (n * m < 2 ^ 64)%N -> to_usize (print_N n ++ c :: rest) = ((n * m)%N, rest).
Proof.
  intros n rest c m Hc Hn. rewrite (to_usize_suffix n c rest m).
  - rewrite wrapU_small; auto.
  - cbn in Hc. repeat destruct Hc as [Hc|Hc]; inversion Hc; reflexivity.
  - cbn in Hc. repeat destruct Hc as [Hc|Hc]; inversion Hc; reflexivity.
Qed.

Example c13_actual_table_ex : to_usize (bs "2M") = (2052%N, []) /\ to_usize (bs "3g,") = (3009%N, bs ",").
Proof. split; vm_compute; reflexivity. Qed.

(** C13. Every letter but K and k has the wrong value, also in the cases that would fit the word. *)
Theorem c13_magnitude_refuted : exists n c m, magnitude c = Some m /\ (n * m < 2 ^ 64)%N /\
  to_usize (print_N n ++ [c]) <> ((n * m)%N, []).
Proof.
  exists 1%N, 77%N, (1024 ^ 2)%N. split; [reflexivity|]. split; [vm_compute; reflexivity|].
  vm_compute. discriminate.
Qed.

(** C46. The closing bracket is found past any balanced text. *)
Theorem c46_find_close : forall o c inner rest, bracket_pair o c -> balanced o c inner ->
  find_close ([o] ++ inner ++ [c] ++ rest) = Ok (List.length ([o] ++ inner ++ [c])).
Proof.
  intros o c inner rest H1 H2. cbn [Datatypes.app]. rewrite find_close_hit by auto. f_equal.
  cbn [List.length]. rewrite app_length. cbn [List.length]. lia.
Qed.

Example c46_find_close_ex : find_close (bs "(a(b)[c)d") = Ok 8.
Proof. reflexivity. Qed.

(** C46. Whatever is found closes the first bracket. *)
Theorem c46_find_close_sound : forall s n, find_close s = Ok n ->
  exists o c inner rest, s = [o] ++ inner ++ [c] ++ rest /\ bracket_pair o c /\ balanced o c inner /\
    n = List.length ([o] ++ inner ++ [c]).
Proof.
  intros s n H. apply find_close_sound in H as (o & c & inner & rest & -> & Hp & Hb & ->).
  exists o, c, inner, rest. repeat split; auto; try apply Hb. cbn [Datatypes.app List.length]. rewrite app_length. cbn [List.length]. lia.
Qed.

Example c46_find_close_sound_ex : find_close (bs "{{}}}") = Ok 4.
Proof. reflexivity. Qed.

(** C46. It fails exactly when no bracket closes the first one; it never panics. *)
Theorem c46_find_close_fails : forall s, find_close s = Err <->
  ~ exists o c inner rest, s = [o] ++ inner ++ [c] ++ rest /\ bracket_pair o c /\ balanced o c inner.
Proof.
  intros s. split.
  - intros H (o & c & inner & rest & -> & Hp & Hb). cbn [Datatypes.app] in H. rewrite find_close_hit in H; auto. discriminate.
  - intros H. destruct (find_close s) as [n| |] eqn:E; auto.
    + exfalso. apply H. apply find_close_sound in E as (o & c & inner & rest & -> & Hp & Hb & _). exists o, c, inner, rest. auto.
    + exfalso. eapply find_close_no_panic; eauto.
Qed.

Example c46_find_close_fails_ex : find_close (bs "((a)") = Err /\ find_close (bs "a)") = Err.
Proof. split; reflexivity. Qed.

(** C47. Every text is a sequence of plain bytes and backslash pairs, possibly followed by a lone
    backslash; each pair becomes the byte it denotes, everything else stays. *)
Theorem c47_unescape : forall items tail, Forall eitem_ok items -> tail = [] \/ tail = [92%N] ->
  unescape_vec (concat (map eitem_text items) ++ tail) = map eitem_value items ++ tail.
Proof.
  intros items tail Hi Ht. unfold unescape_vec. rewrite unescape_items by auto.
  destruct Ht as [->| ->]; reflexivity.
Qed.

Theorem c47_unescape_covers : forall l, exists items tail, l = concat (map eitem_text items) ++ tail /\
  Forall eitem_ok items /\ (tail = [] \/ tail = [92%N]).
Proof. exact items_exist. Qed.

Example c47_unescape_ex :
  [97; 92; 110; 92; 92; 116; 92]%N = concat (map eitem_text [Raw 97; Esc 110; Esc 92; Raw 116]%N) ++ [92%N] /\
  unescape_vec [97; 92; 110; 92; 92; 116; 92]%N = [97; 10; 92; 116; 92]%N.
Proof. split; reflexivity. Qed.

Example c47_unescape_covers_ex : exists items tail, bs "a\" = concat (map eitem_text items) ++ tail /\ tail = [92%N].
Proof. exists [Raw 97%N], [92%N]. split; reflexivity. Qed.

Theorem c47_unescape_plain : forall l, ~ In 92%N l -> unescape_vec l = l.
Proof. exact unescape_plain. Qed.

Example c47_unescape_plain_ex : ~ In 92%N (bs "plain/text") /\ unescape_vec (bs "plain/text") = bs "plain/text".
Proof. split; [cbn; intuition discriminate|reflexivity]. Qed.

Theorem c47_unescape_shrinks : forall l, List.length (unescape_vec l) <= List.length l.
Proof. intros l. pose proof (unescape_length l false) as H. cbn iota in H. unfold unescape_vec. lia. Qed.

Example c47_unescape_shrinks_ex : List.length (unescape_vec (bs "a\tb\\")) = 4.
Proof. reflexivity. Qed.
