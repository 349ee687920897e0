(** C35, C36: transforms of values. *)
From Coq Require Import String List NArith ZArith Bool Arith Lia.
Open Scope list_scope.
Import ListNotations.
From Verif Require Import Base TextSpec StrModel StrSpec StrProofs MatchModel MatchSpec TransModel TransSpec TransProofs.
Close Scope Z_scope.

(** C35. Whatever the scratch buffers hold, a chain of one or more transforms returns the value obtained by applying each
    transform, with a fresh target, to the result of the one before; it fails exactly when one of these fails. *)
Theorem c35_chain : forall encode decode lossy utf8 ul uu ub v s src, v <> [] ->
  match chain (map (fun t x => run encode decode lossy utf8 ul uu ub t x []) v) src with
  | Ok d => exists s', trans_list encode decode lossy utf8 ul uu ub v s src = Ok (d, s')
  | Err => trans_list encode decode lossy utf8 ul uu ub v s src = Err
  | Panic => trans_list encode decode lossy utf8 ul uu ub v s src = Panic
  end.
Proof. exact trans_list_chain. Qed.
Definition run_list := trans_list (fun x => x ++ x) (fun x => match x with [] => None | _ => Some x end) (fun x => x) (fun x => x)
  (fun c => [lower c]) (fun c => [upper c]) (fun c => (c <=? 32)%N).
Example c35_chain_ex :
  run_list [TUpper; TBytes [(0, 2); (3, 9)]%N; TLowerUtf] (mkscr (bs "old") (bs "older")) (bs "abcde") = Ok (bs "abde", mkscr (bs "abde") (bs "ABDE")) /\
  run_list [TUpper; TBytes [(0, 2); (3, 9)]%N] (mkscr (bs "old") (bs "older")) (bs "abcde") = Ok (bs "ABDE", mkscr (bs "ABCDE") (bs "ABDE")) /\
  run_list [TBytes [(7, 9)]%N; TDecode] (mkscr [] []) (bs "abcde") = Err.
Proof. repeat split; reflexivity. Qed.

(** C35 is false of the empty list: it does not return the value, but what the buffer happens to hold. *)
Theorem c35_empty_refuted : exists s src s' d, run_list [] s src = Ok (d, s') /\ chain [] src = Ok src /\ d <> src.
Proof. exists (mkscr [] []), (bs "abc"), (mkscr [] []), []. repeat split. discriminate. Qed.

(** C35. The text of a chain, transforms joined by plus signs, makes exactly these transforms in this order, once some
    transform was made before in the same program; until then, unless its first name is one of the two aliases. *)
Theorem c35_named_partial : forall ss ts, Forall2 named ss ts -> ss <> [] ->
  trans_new true (join 43%N ss) = Ok ts /\
  (hd [] ss <> bs "lowercase" -> hd [] ss <> bs "uppercase" -> trans_new false (join 43%N ss) = Ok ts).
Proof.
  intros ss ts H N. split; [apply named_list; auto|]. destruct ss as [|s ss]; [congruence|]. intros. apply named_list_first; auto.
Qed.
Example c35_named_partial_ex : trans_new true (bs "bytes,2-4,7-7+utf8.lower+normspace") = Ok [TBytes [(1, 4); (6, 7)]%N; TLowerUtf; TNorm] /\
  trans_new true (bs "lower+shout") = Err /\ trans_new false (bs "lower+uppercase") = Ok [TLower; TUpper] /\
  Forall2 named [bs "bytes,2-4,7-7"; bs "normspace"] [TBytes [(1, 4); (6, 7)]%N; TNorm].
Proof.
  repeat split; try reflexivity. constructor; [|constructor; [constructor|constructor]].
  apply (nm_bytes [(2, 4); (7, 7)]%N); [discriminate|]. repeat constructor; cbn; lia.
Qed.
(** C35 is false of an alias in the very first transform of a program: it is resolved before the aliases are registered. *)
Theorem c35_first_alias_refuted : exists s t, named s t /\ trans_new true s = Ok [t] /\ trans_new false s = Err.
Proof. exists (bs "uppercase"), TUpper. repeat split. constructor. Qed.

(** C35. The case transforms change nothing but the case of ASCII letters, and leave none of the other case. *)
Theorem c35_case : forall encode decode lossy utf8 ul uu ub src,
  (exists d, run encode decode lossy utf8 ul uu ub TLower src [] = Ok d /\ same_but_case src d /\ Forall (fun c => ~ (65 <= c <= 90)%N) d) /\
  (exists d, run encode decode lossy utf8 ul uu ub TUpper src [] = Ok d /\ same_but_case src d /\ Forall (fun c => ~ (97 <= c <= 122)%N) d).
Proof.
  intros. split; eexists; (split; [reflexivity|]); cbn [app]; split.
  - induction src as [|c r IH]; constructor; auto. unfold lower. destruct ((65 <=? c) && (c <=? 90))%N eqn:E; [|rewrite E; auto].
    replace ((65 <=? c + 32) && (c + 32 <=? 90))%N with false; auto. symmetry. apply andb_false_iff. right. apply N.leb_gt.
    apply andb_true_iff in E as [E _]. apply N.leb_le in E. lia.
  - apply Forall_forall. intros x Hx. apply in_map_iff in Hx as (c & <- & _). unfold lower.
    destruct ((65 <=? c) && (c <=? 90))%N eqn:E.
    + apply andb_true_iff in E as [E F]. apply N.leb_le in E. apply N.leb_le in F. lia.
    + apply andb_false_iff in E as [E|E]; apply N.leb_gt in E; lia.
  - induction src as [|c r IH]; constructor; auto. unfold lower, upper. destruct ((97 <=? c) && (c <=? 122))%N eqn:E; [|auto].
    apply andb_true_iff in E as [E F]. apply N.leb_le in E. apply N.leb_le in F.
    replace ((65 <=? c) && (c <=? 90))%N with false by (symmetry; apply andb_false_iff; right; apply N.leb_gt; lia).
    replace ((65 <=? c - 32) && (c - 32 <=? 90))%N with true by (symmetry; apply andb_true_iff; split; apply N.leb_le; lia). lia.
  - apply Forall_forall. intros x Hx. apply in_map_iff in Hx as (c & <- & _). unfold upper.
    destruct ((97 <=? c) && (c <=? 122))%N eqn:E.
    + apply andb_true_iff in E as [E F]. apply N.leb_le in E. apply N.leb_le in F. lia.
    + apply andb_false_iff in E as [E|E]; apply N.leb_gt in E; lia.
Qed.
Example c35_case_ex : run_list [TLower] (mkscr [] []) (bs "It's 9 PM") = Ok (bs "it's 9 pm", mkscr (bs "it's 9 pm") []) /\
  run_list [TUpper] (mkscr [] []) (bs "It's 9 pm") = Ok (bs "IT'S 9 PM", mkscr (bs "IT'S 9 PM") []).
Proof. split; reflexivity. Qed.

(** C35. The byte ranges give the bytes at these positions, range after range, as far as the value has them. *)
Theorem c35_bytes : forall encode decode lossy utf8 ul uu ub rs src, rs <> [] ->
  Forall (fun r => 1 <= fst r /\ fst r <= snd r /\ snd r < 2 ^ 32)%N rs ->
  rbind (make true (bs "bytes," ++ join 44%N (map (fun r => print_N (fst r) ++ bs "-" ++ print_N (snd r)) rs)))
    (fun t => run encode decode lossy utf8 ul uu ub t src []) =
  Ok (concat (map (fun r => between (fst r) (snd r) src) rs)).
Proof.
  intros. rewrite (named_make _ _ (nm_bytes rs H H0)). cbn [rbind run]. rewrite slices_between; auto.
  eapply Forall_impl; [|exact H0]. cbv beta. tauto.
Qed.
Example c35_bytes_ex : run_list [TBytes [(1, 3); (0, 1); (4, 9)]%N] (mkscr [] []) (bs "abcdef") = Ok (bs "bcaef", mkscr (bs "bcaef") []) /\
  concat (map (fun r => between (fst r) (snd r) (bs "abcdef")) [(2, 3); (1, 1); (5, 9)]%N) = bs "bcaef".
Proof. split; reflexivity. Qed.

(** C35. Encoding never fails for want of room, and decoding what was encoded gives the value back, whatever the scratch
    buffers hold, provided the base64 library decodes what it encodes. *)
Theorem c35_base64 : forall encode decode lossy utf8 ul uu ub s src, (forall x, decode (encode x) = Some x) ->
  exists s', trans_list encode decode lossy utf8 ul uu ub [TEncode; TDecode] s src = Ok (src, s').
Proof.
  intros encode decode lossy utf8 ul uu ub s src H.
  pose proof (trans_list_chain encode decode lossy utf8 ul uu ub [TEncode; TDecode] s src ltac:(discriminate)) as C.
  cbn [map chain fold_left rbind] in C. unfold run in C. 
  assert (F : (base64_len (List.length src) <=? base64_room (List.length src)) = true) by (apply Nat.leb_le, base64_fits).
  cbv beta in C. unfold chain in C. cbn [fold_left rbind] in C. rewrite F in C. cbn [rbind] in C. rewrite H in C. cbn [app] in C. exact C.
Qed.
Example c35_base64_ex : trans_list (fun x => 61%N :: x) (fun x => Some (tl x)) (fun x => x) (fun x => x) (fun c => [c]) (fun c => [c]) low_byte
  [TEncode; TDecode] (mkscr [] (bs "zz")) (bs "abc") = Ok (bs "abc", mkscr (bs "=abc") (bs "abc")).
Proof. reflexivity. Qed.

(** C36. A value that does not start with a blank becomes its words separated by single spaces. A blank is a space or a
    lower byte; for the utf8 variant it is what the library calls white space, and the value is read as code points. *)
Theorem c36_words_partial : forall encode decode lossy utf8 ul uu ub c r,
  (low_byte c = false -> run encode decode lossy utf8 ul uu ub TNorm (c :: r) [] = Ok (join 32%N (words low_byte (c :: r)))) /\
  (forall src, ub c = false -> lossy src = c :: r ->
     run encode decode lossy utf8 ul uu ub TNormUtf src [] = Ok (utf8 (join 32%N (words ub (c :: r))))).
Proof.
  intros. split.
  - intros B. cbn [run]. rewrite norm_visible; auto.
  - intros src B E. cbn [run app]. rewrite E, norm_visible; auto.
Qed.
Example c36_words_partial_ex : run_list [TNorm] (mkscr [] []) (bs "ab  c" ++ [9; 32; 10]%N ++ bs "de ") = Ok (bs "ab c de", mkscr (bs "ab c de") []) /\
  words low_byte (bs "ab  c" ++ [9; 32; 10]%N ++ bs "de ") = [bs "ab"; bs "c"; bs "de"].
Proof. split; reflexivity. Qed.

(** C36. A value that does start with blanks is treated as if a blank stood behind its first visible character. *)
Theorem c36_leading : forall encode decode lossy utf8 ul uu ub g c r, g <> [] -> Forall (fun x => low_byte x = true) g -> low_byte c = false ->
  run encode decode lossy utf8 ul uu ub TNorm (g ++ c :: r) [] = Ok (join 32%N (words low_byte (c :: 32%N :: r))).
Proof. intros. cbn [run]. rewrite norm_leading; auto. Qed.
Example c36_leading_ex : run_list [TNorm] (mkscr [] []) (bs "  abc d") = Ok (bs "a bc d", mkscr (bs "a bc d") []).
Proof. reflexivity. Qed.

(** C36 is false of values that start with a blank: their first word is broken. *)
Theorem c36_leading_refuted : exists src d s, run_list [TNorm] (mkscr [] []) src = Ok (d, s) /\ d <> join 32%N (words low_byte src).
Proof. exists (bs " ab"), (bs "a b"), (mkscr (bs "a b") []). split; [reflexivity|]. vm_compute. discriminate. Qed.

(** C36. Every result consists of words separated by single spaces, none leading or trailing, and normalising it again
    changes nothing. *)
Theorem c36_idempotent : forall encode decode lossy utf8 ul uu ub src,
  exists d ws, run encode decode lossy utf8 ul uu ub TNorm src [] = Ok d /\ d = join 32%N ws /\ Forall (word low_byte) ws /\
    run encode decode lossy utf8 ul uu ub TNorm d [] = Ok d.
Proof.
  intros. cbn [run]. destruct (norm_form low_byte eq_refl src) as (ws & A & B). exists (join 32%N ws), ws.
  rewrite B. repeat split; auto. rewrite norm_words; auto.
Qed.
Example c36_idempotent_ex : run_list [TNorm; TNorm] (mkscr [] []) (bs "  abc  d ") = Ok (bs "a bc d", mkscr (bs "a bc d") (bs "a bc d")).
Proof. reflexivity. Qed.
