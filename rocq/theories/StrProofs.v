(** Lemmas on heads and tails, integers, slices, brackets and escapes. *)
From Coq Require Import List NArith ZArith Bool Arith Lia Decimal DecimalN.
From Coq Require Import ZifyBool ZifyNat ZifyN.
Import ListNotations.
From Verif Require Import Base TextSpec TextProofs StrModel StrSpec.

(** * Heads and tails *)
Lemma firstn_S_cons {A} n (x : A) l : firstn (S n) (x :: l) = x :: firstn n l.
Proof. reflexivity. Qed.

Lemma join_cons d x ys : ys <> [] -> join d (x :: ys) = x ++ d :: join d ys.
Proof. destruct ys; [congruence|reflexivity]. Qed.

Lemma join_cons_char d c f ys : join d ((c :: f) :: ys) = c :: join d (f :: ys).
Proof. destruct ys; reflexivity. Qed.

Lemma firstn_ne {A} n (l : list A) : 0 < n -> l <> [] -> firstn n l <> [].
Proof. destruct n, l; simpl; try lia; congruence. Qed.

Lemma head_scan_spec d rest : forall left, 1 <= left ->
  match head_scan rest d left with
  | Some m => m <= length rest /\ firstn (length rest - m) rest = join d (firstn left (split_on d rest))
  | None => rest = join d (firstn left (split_on d rest))
  end.
Proof.
  induction rest as [|c rest IH]; intros left Hl; cbn [head_scan split_on].
  - destruct left; [lia|]. simpl. rewrite firstn_nil. reflexivity.
  - destruct (N.eqb_spec c d) as [->|Hc].
    + destruct left as [|[|left]]; [lia| |].
      * split; [auto|]. rewrite Nat.sub_diag. reflexivity.
      * replace (S (S left) - 1) with (S left) by lia. specialize (IH (S left) ltac:(lia)).
        rewrite firstn_S_cons, join_cons by (apply firstn_ne; [lia|apply split_on_nonempty]).
        cbn [Datatypes.app]. destruct (head_scan rest d (S left)) as [m|].
        -- destruct IH as [IH1 IH2]. split; [simpl; lia|]. simpl length. replace (S (length rest) - m) with (S (length rest - m)) by lia.
           rewrite firstn_S_cons, IH2. reflexivity.
        -- rewrite <- IH. reflexivity.
    + specialize (IH left Hl). destruct (split_on d rest) as [|f fs] eqn:E; [exfalso; eapply split_on_nonempty; eauto|].
      destruct left as [|left]; [lia|]. rewrite firstn_S_cons in *. rewrite join_cons_char.
      destruct (head_scan rest d (S left)) as [m|].
      * destruct IH as [IH1 IH2]. split; [simpl; lia|]. simpl length. replace (S (length rest) - m) with (S (length rest - m)) by lia.
        rewrite firstn_S_cons, IH2. reflexivity.
      * rewrite <- IH. reflexivity.
Qed.

Lemma head_spec l n d : head l n d = join d (firstn n (split_on d l)).
Proof.
  unfold head. destruct n as [|n]; [reflexivity|]. destruct l as [|c l].
  - simpl. rewrite firstn_nil. reflexivity.
  - pose proof (head_scan_spec d (c :: l) (S n) ltac:(lia)) as H.
    destruct (head_scan (c :: l) d (S n)); [apply H|exact H].
Qed.

Lemma tail_scan_firstn l l2 d p : forall left, p <= length l -> tail_scan (l ++ l2) d p left = tail_scan l d p left.
Proof.
  induction p as [|p IH]; intros left H; [reflexivity|]. cbn [tail_scan]. rewrite app_nth1 by lia.
  destruct (nth p l 0 =? d)%N; [destruct left as [|[|left]]|]; auto; apply IH; lia.
Qed.

Lemma tail_scan_le l d p : forall left, tail_scan l d p left <= p.
Proof.
  induction p as [|p IH]; intros left; [simpl; lia|]. cbn [tail_scan].
  destruct (nth p l 0 =? d)%N; [destruct left as [|[|left]]|]; try lia;
  match goal with |- tail_scan _ _ _ ?x <= _ => specialize (IH x); lia end.
Qed.

Lemma split_on_snoc d l c : exists Y z, split_on d l = Y ++ [z] /\
  split_on d (l ++ [c]) = if (c =? d)%N then Y ++ [z; []] else Y ++ [z ++ [c]].
Proof.
  induction l as [|x l (Y & z & E1 & E2)]; simpl.
  - exists [], []. split; [reflexivity|]. simpl. destruct (c =? d)%N; reflexivity.
  - rewrite E2, E1. destruct (N.eqb_spec x d).
    + exists ([] :: Y), z. split; [reflexivity|]. destruct (c =? d)%N; reflexivity.
    + destruct Y as [|y Y]; cbn [Datatypes.app].
      * exists [], (x :: z). split; [reflexivity|]. destruct (c =? d)%N; reflexivity.
      * exists ((x :: y) :: Y), z. split; [reflexivity|]. destruct (c =? d)%N; reflexivity.
Qed.

Lemma lastn_snoc {A} n (l : list A) x : lastn (S n) (l ++ [x]) = lastn n l ++ [x].
Proof.
  unfold lastn. rewrite app_length. simpl length. replace (length l + 1 - S n) with (length l - n) by lia.
  rewrite skipn_app. replace (length l - n - length l) with 0 by lia. reflexivity.
Qed.

Lemma join_snoc_char d Y z c : join d (Y ++ [z ++ [c]]) = join d (Y ++ [z]) ++ [c].
Proof.
  induction Y as [|y Y IH]; [reflexivity|]. cbn [Datatypes.app].
  rewrite !join_cons by (destruct Y; discriminate). rewrite IH, <- app_assoc. reflexivity.
Qed.

Lemma join_snoc_empty d Y : Y <> [] -> join d (Y ++ [[]]) = join d Y ++ [d].
Proof.
  induction Y as [|y Y IH]; intros H; [congruence|]. destruct Y as [|y2 Y].
  - simpl. reflexivity.
  - change ((y :: y2 :: Y) ++ [[]]) with (y :: ((y2 :: Y) ++ [[]])). rewrite !join_cons by (try discriminate; destruct Y; discriminate).
    rewrite IH by discriminate. rewrite <- app_assoc. reflexivity.
Qed.

Lemma lastn_ne {A} n (l : list A) : 0 < n -> l <> [] -> lastn n l <> [].
Proof.
  intros H Hl E. apply (f_equal (@length A)) in E. unfold lastn in E. rewrite skipn_length in E.
  destruct l; [congruence|]. cbn [length] in *. lia.
Qed.

Lemma tail_scan_spec d l : forall left, 1 <= left ->
  skipn (tail_scan l d (length l) left) l = join d (lastn left (split_on d l)).
Proof.
  induction l as [|c l IH] using rev_ind; intros left Hl.
  - destruct left; [lia|]. reflexivity.
  - rewrite app_length. simpl length. rewrite Nat.add_1_r. cbn [tail_scan].
    rewrite app_nth2, Nat.sub_diag by lia. cbn [nth].
    destruct (split_on_snoc d l c) as (Y & z & E1 & E2).
    destruct left as [|left]; [lia|].
    destruct (N.eqb_spec c d) as [->|Hc].
    + rewrite E2. change (Y ++ [z; []]) with (Y ++ [z] ++ [[]]). rewrite app_assoc, <- E1, lastn_snoc.
      destruct left as [|left].
      * rewrite skipn_all2 by (rewrite app_length; simpl; lia). unfold lastn. rewrite Nat.sub_0_r, skipn_all. reflexivity.
      * replace (S (S left) - 1) with (S left) by lia. rewrite tail_scan_firstn by auto.
        rewrite skipn_app. pose proof (tail_scan_le l d (length l) (S left)) as L.
        replace (tail_scan l d (length l) (S left) - length l) with 0 by lia. rewrite IH by lia.
        rewrite join_snoc_empty; auto. apply lastn_ne; [lia|]. apply split_on_nonempty.
    + rewrite tail_scan_firstn by auto. rewrite skipn_app. pose proof (tail_scan_le l d (length l) (S left)) as L.
      replace (tail_scan l d (length l) (S left) - length l) with 0 by lia. cbn [skipn]. rewrite IH by lia.
      rewrite E2, E1, !lastn_snoc, join_snoc_char. reflexivity.
Qed.

Lemma tail_u8_spec l n d : tail_u8 l n d = join d (lastn n (split_on d l)).
Proof.
  unfold tail_u8, tail_u8_len. destruct n as [|n].
  - rewrite skipn_all. unfold lastn. rewrite Nat.sub_0_r, skipn_all. reflexivity.
  - apply tail_scan_spec. lia.
Qed.

Lemma join_app d Y Z : Y <> [] -> Z <> [] -> join d (Y ++ Z) = join d Y ++ d :: join d Z.
Proof.
  induction Y as [|y Y IH]; intros HY HZ; [congruence|]. destruct Y as [|y2 Y].
  - cbn [Datatypes.app]. rewrite join_cons by auto. reflexivity.
  - change ((y :: y2 :: Y) ++ Z) with (y :: ((y2 :: Y) ++ Z)). rewrite !join_cons by (discriminate || (destruct Y; discriminate)).
    rewrite IH by (auto; discriminate). rewrite <- app_assoc. reflexivity.
Qed.

Lemma head_tail l n d : 0 < n < length (split_on d l) ->
  l = head l n d ++ d :: tail_u8 l (length (split_on d l) - n) d.
Proof.
  intros H. rewrite head_spec, tail_u8_spec. rewrite <- join_app.
  - unfold lastn. replace (length (split_on d l) - (length (split_on d l) - n)) with n by lia.
    rewrite firstn_skipn. symmetry. apply join_split.
  - apply firstn_ne; [lia|apply split_on_nonempty].
  - apply lastn_ne; [lia|apply split_on_nonempty].
Qed.

Lemma head_path_abs l n d : 0 < n -> head_path (d :: l) n d = d :: join d (firstn n (split_on d l)).
Proof.
  intros H. unfold head_path. rewrite N.eqb_refl, head_spec. cbn [split_on]. rewrite N.eqb_refl.
  rewrite Nat.add_1_r, firstn_S_cons, join_cons; [reflexivity|]. apply firstn_ne; auto. apply split_on_nonempty.
Qed.

Lemma tail_path_dir l n d : 0 < n -> tail_path_u8 (l ++ [d]) n d = join d (lastn n (split_on d l)) ++ [d].
Proof.
  intros H. unfold tail_path_u8. destruct (l ++ [d]) eqn:E; [destruct l; discriminate|]. rewrite <- E.
  rewrite last_last, N.eqb_refl, tail_u8_spec.
  destruct (split_on_snoc d l d) as (Y & z & E1 & E2). rewrite N.eqb_refl in E2. rewrite E2.
  change (Y ++ [z; []]) with (Y ++ [z] ++ [[]]). rewrite app_assoc, <- E1, Nat.add_1_r, lastn_snoc.
  rewrite join_snoc_empty; auto. apply lastn_ne; auto. apply split_on_nonempty.
Qed.

(** * Integers *)
Fixpoint uval (acc : N) (u : uint) : N :=
  match u with
  | Nil => acc
  | D0 u => uval (acc * 10 + 0) u | D1 u => uval (acc * 10 + 1) u | D2 u => uval (acc * 10 + 2) u
  | D3 u => uval (acc * 10 + 3) u | D4 u => uval (acc * 10 + 4) u | D5 u => uval (acc * 10 + 5) u
  | D6 u => uval (acc * 10 + 6) u | D7 u => uval (acc * 10 + 7) u | D8 u => uval (acc * 10 + 8) u
  | D9 u => uval (acc * 10 + 9) u
  end%N.

Lemma uval_pos u : forall p, uval (Npos p) u = Npos (Pos.of_uint_acc u p).
Proof.
  induction u; intros p; cbn [uval Pos.of_uint_acc]; auto; rewrite <- IHu; f_equal; lia.
Qed.

Lemma uval_of u : uval 0 u = N.of_uint u.
Proof.
  unfold N.of_uint. induction u; cbn [uval Pos.of_uint]; auto; apply (uval_pos u).
Qed.

Lemma wrapU_small n : (n < 2 ^ 64)%N -> wrapU n = n.
Proof. intros. unfold wrapU. apply N.mod_small; auto. Qed.

Lemma wrapU_step a c : wrapU (wrapU (wrapU a * 10) + c) = wrapU (a * 10 + c).
Proof.
  unfold wrapU. rewrite N.add_mod_idemp_l by discriminate.
  rewrite <- (N.add_mod_idemp_l (a * 10)) by discriminate.
  rewrite <- (N.mul_mod_idemp_l a) by discriminate.
  rewrite N.add_mod_idemp_l by discriminate. reflexivity.
Qed.

Definition nodigit (rest : bytes) : Prop := match rest with [] => True | c :: _ => is_digit c = false end.

Lemma usize_loop_nodigit rest acc : nodigit rest -> usize_loop rest acc = (acc, rest).
Proof. destruct rest; simpl; auto. intros ->. auto. Qed.

Lemma usize_loop_digits rest u : nodigit rest -> forall acc,
  usize_loop (digits u ++ rest) (wrapU acc) = (wrapU (uval acc u), rest).
Proof.
  intros Hr. induction u; intros acc; cbn [digits Datatypes.app uval];
  [apply usize_loop_nodigit; auto| ..]; cbn [usize_loop];
  (match goal with |- (if is_digit ?c then _ else _) = _ => change (is_digit c) with true end);
  cbn iota; rewrite wrapU_step; apply IHu.
Qed.

Lemma digits_head u : u <> Nil -> exists c r, digits u = c :: r /\ is_digit c = true /\ c <> 43%N /\ c <> 45%N.
Proof. destruct u; intros H; [congruence|..]; cbn [digits]; eexists; eexists; split; try reflexivity; repeat split; discriminate. Qed.

Lemma to_uint_ne n : N.to_uint n <> Nil.
Proof.
  intros H. pose proof (DecimalN.Unsigned.of_to n) as E. rewrite H in E. 
  cbn in E. subst n. discriminate H.
Qed.

Lemma print_N_head n : exists c r, print_N n = c :: r /\ is_digit c = true /\ c <> 43%N /\ c <> 45%N.
Proof. apply digits_head, to_uint_ne. Qed.

Lemma usize_loop_print n rest : nodigit rest -> usize_loop (print_N n ++ rest) 0%N = (wrapU n, rest).
Proof.
  intros H. change 0%N with (wrapU 0) at 1. unfold print_N. rewrite usize_loop_digits by auto.
  rewrite uval_of, DecimalN.Unsigned.of_to. reflexivity.
Qed.

Lemma not_numeric_nodigit rest : not_numeric rest -> nodigit rest.
Proof.
  destruct rest as [|c r]; simpl; auto. intros [H _]. unfold is_digit.
  destruct (N.leb_spec 48 c), (N.leb_spec c 57); auto. exfalso; apply H; split; auto.
Qed.

Lemma suffix_none c : ~ (48 <= c <= 57)%N -> ~ In c magnitude_letters -> suffix_valu c = None.
Proof.
  intros H1 H2. unfold suffix_valu, P2_LETTERS, P10_LETTERS, P2_VALUES_U, P10_VALUES_U. cbn [find_letter].
  unfold magnitude_letters in H2. cbn [In] in H2.
  repeat match goal with |- context [(?a =? c)%N] => destruct (N.eqb_spec a c); [exfalso; subst; tauto || (apply H1; lia)|] end.
  reflexivity.
Qed.

Lemma not_numeric_suffix c r : not_numeric (c :: r) -> suffix_valu c = None.
Proof. intros [H1 H2]. apply suffix_none; auto. Qed.

Lemma to_usize_print n rest : not_numeric rest -> to_usize (print_N n ++ rest) = (wrapU n, rest).
Proof.
  intros H. unfold to_usize. destruct (print_N_head n) as (c & r & E & Hd & Hp & Hm).
  pose proof (usize_loop_print n rest (not_numeric_nodigit _ H)) as L. rewrite E in *. cbn [Datatypes.app] in *.
  apply N.eqb_neq in Hp. rewrite Hp, Hd, L. destruct rest as [|c' rest']; auto.
  rewrite (not_numeric_suffix _ _ H). reflexivity.
Qed.

Lemma to_usize_plus n rest : not_numeric rest -> to_usize (43%N :: print_N n ++ rest) = (wrapU n, rest).
Proof.
  intros H. unfold to_usize. cbn [N.eqb Pos.eqb]. destruct (print_N_head n) as (c & r & E & Hd & Hp & Hm).
  pose proof (usize_loop_print n rest (not_numeric_nodigit _ H)) as L. rewrite E in *. cbn [Datatypes.app] in *.
  rewrite Hd, L. destruct rest as [|c' rest']; auto.
  rewrite (not_numeric_suffix _ _ H). reflexivity.
Qed.

Lemma to_usize_suffix n c rest v : is_digit c = false -> suffix_valu c = Some v ->
  to_usize (print_N n ++ c :: rest) = (wrapU (n * v), rest).
Proof.
  intros Hc Hv. unfold to_usize. destruct (print_N_head n) as (x & r & E & Hd & Hp & Hm).
  pose proof (usize_loop_print n (c :: rest) Hc) as L. rewrite E in *. cbn [Datatypes.app] in *.
  apply N.eqb_neq in Hp. rewrite Hp, Hd, L, Hv. f_equal. unfold wrapU. rewrite N.mul_mod_idemp_l by discriminate. reflexivity.
Qed.

Lemma to_usize_whole_print n : (n < 2 ^ 64)%N -> to_usize_whole (print_N n) = Ok n.
Proof.
  intros H. unfold to_usize_whole. pose proof (to_usize_print n [] I) as E. rewrite app_nil_r in E. rewrite E, wrapU_small by auto. reflexivity.
Qed.

Lemma wrapI_small z : (- 2 ^ 63 <= z < 2 ^ 63)%Z -> wrapI z = z.
Proof. intros. unfold wrapI. rewrite Z.mod_small; lia. Qed.

Lemma wrapI_spec z : exists k, (wrapI z = z + k * 2 ^ 64)%Z.
Proof.
  unfold wrapI. exists (- ((z + 2 ^ 63) / 2 ^ 64))%Z.
  pose proof (Z.div_mod (z + 2 ^ 63) (2 ^ 64)). lia.
Qed.

Lemma wrapI_congr a b k : (a = b + k * 2 ^ 64)%Z -> wrapI a = wrapI b.
Proof. intros ->. unfold wrapI. replace (b + k * 2 ^ 64 + 2 ^ 63)%Z with (b + 2 ^ 63 + k * 2 ^ 64)%Z by lia. rewrite Z.mod_add by discriminate. reflexivity. Qed.

Lemma wrapI_step a c : wrapI (wrapI (wrapI a * 10) + c) = wrapI (a * 10 + c).
Proof.
  destruct (wrapI_spec (wrapI a * 10)) as [k1 ->]. destruct (wrapI_spec a) as [k2 ->].
  apply (wrapI_congr _ _ (k2 * 10 + k1)). lia.
Qed.

Lemma isize_loop_nodigit rest acc : nodigit rest -> isize_loop rest acc = (acc, rest).
Proof. destruct rest; simpl; auto. intros ->. auto. Qed.

Lemma isize_loop_digits rest u : nodigit rest -> forall acc,
  isize_loop (digits u ++ rest) (wrapI (Z.of_N acc)) = (wrapI (Z.of_N (uval acc u)), rest).
Proof.
  intros Hr. induction u; intros acc; cbn [digits Datatypes.app uval];
  [apply isize_loop_nodigit; auto| ..]; cbn [isize_loop];
  (match goal with |- (if is_digit ?c then _ else _) = _ => change (is_digit c) with true end);
  cbn iota; rewrite wrapI_step; rewrite <- IHu; f_equal; f_equal; lia.
Qed.

Lemma isize_loop_print n rest : nodigit rest -> isize_loop (print_N n ++ rest) 0%Z = (wrapI (Z.of_N n), rest).
Proof.
  intros H. change 0%Z with (wrapI (Z.of_N 0)) at 1. unfold print_N. rewrite isize_loop_digits by auto.
  rewrite uval_of, DecimalN.Unsigned.of_to. reflexivity.
Qed.

Lemma wrapI_neg z : (- 2 ^ 63 <= z <= 2 ^ 63)%Z -> wrapI (wrapI z * -1) = wrapI (- z).
Proof. intros. destruct (wrapI_spec z) as [k ->]. apply (wrapI_congr _ _ (- k)). lia. Qed.

Lemma wrapI_idem z : wrapI (wrapI z * 1) = wrapI z.
Proof. destruct (wrapI_spec z) as [k E]. rewrite E at 1. apply (wrapI_congr _ _ k). lia. Qed.

Lemma to_isize_print z rest : (- 2 ^ 63 <= z < 2 ^ 63)%Z -> not_numeric rest ->
  to_isize (print_Z z ++ rest) = (z, rest).
Proof.
  intros Hz H. unfold to_isize, print_Z. destruct (Z.ltb_spec z 0).
  - cbn [Datatypes.app]. cbn [N.eqb Pos.eqb].
    destruct (print_N_head (Z.to_N (- z))) as (c & r & E & Hd & Hp & Hm).
    pose proof (isize_loop_print (Z.to_N (- z)) rest (not_numeric_nodigit _ H)) as L. rewrite E in *. cbn [Datatypes.app] in *.
    rewrite Hd, L. rewrite Z2N.id by lia.
    destruct rest as [|c' rest']; [|rewrite (not_numeric_suffix _ _ H)]; f_equal; rewrite wrapI_neg by lia;
      rewrite Z.opp_involutive; apply wrapI_small; lia.
  - destruct (print_N_head (Z.to_N z)) as (c & r & E & Hd & Hp & Hm).
    pose proof (isize_loop_print (Z.to_N z) rest (not_numeric_nodigit _ H)) as L. rewrite E in *. cbn [Datatypes.app] in *.
    apply N.eqb_neq in Hp, Hm. rewrite Hp, Hm, Hd, L. rewrite Z2N.id by lia.
    destruct rest as [|c' rest']; [|rewrite (not_numeric_suffix _ _ H)]; f_equal; rewrite wrapI_idem; apply wrapI_small; lia.
Qed.

(** * Slices *)
Lemma digits_no_dash u : ~ In 45%N (digits u).
Proof. induction u; cbn [digits In]; [tauto|..]; intros [H|H]; (discriminate || auto). Qed.

Lemma split_once_app d a b : ~ In d a -> split_once d (a ++ d :: b) = Some (a, b).
Proof.
  induction a as [|x a IH]; intros H; cbn [Datatypes.app split_once].
  - rewrite N.eqb_refl. reflexivity.
  - destruct (N.eqb_spec x d). { exfalso; apply H; left; auto. } rewrite IH; auto. intro; apply H; right; auto.
Qed.

Lemma split_once_none d a : ~ In d a -> split_once d a = None.
Proof.
  induction a as [|x a IH]; intros H; cbn [split_once]; auto.
  destruct (N.eqb_spec x d). { exfalso; apply H; left; auto. } rewrite IH; auto. intro; apply H; right; auto.
Qed.

Lemma as_u32_small n : (n < 2 ^ 32)%N -> as_u32 n = n.
Proof. intros; apply N.mod_small; auto. Qed.

Lemma fake_slice_range a b : (a < 2 ^ 32)%N -> (b < 2 ^ 32)%N ->
  fake_slice_new (print_N a ++ 45%N :: print_N b) =
  if ((a =? 0) || (b =? 0) || (b <? a))%N then Err else Ok (a - 1, b)%N.
Proof.
  intros Ha Hb. unfold fake_slice_new. rewrite split_once_app by apply digits_no_dash.
  rewrite !to_usize_whole_print by lia. cbn [rbind]. rewrite !as_u32_small by lia.
  destruct ((a =? 0) || (b =? 0))%N; cbn [orb]; auto.
Qed.

Lemma fake_slice_pos a : (a < 2 ^ 32)%N ->
  fake_slice_new (print_N a) = if (a =? 0)%N then Err else Ok (a - 1, a)%N.
Proof.
  intros Ha. unfold fake_slice_new. rewrite split_once_none by apply digits_no_dash.
  rewrite to_usize_whole_print by lia. cbn [rbind]. rewrite !as_u32_small by lia. reflexivity.
Qed.

Lemma nth_error_firstn {A} (l : list A) n i : nth_error (firstn n l) i = if i <? n then nth_error l i else None.
Proof.
  revert l i; induction n as [|n IH]; intros l i; simpl.
  - destruct i; reflexivity.
  - destruct l as [|x l].
    + destruct (i <? S n); destruct i; reflexivity.
    + destruct i; cbn [nth_error]; auto. rewrite IH. reflexivity.
Qed.

Lemma nth_error_skipn {A} (l : list A) n i : nth_error (skipn n l) i = nth_error l (n + i).
Proof. revert l; induction n as [|n IH]; intros l; auto. destruct l; simpl; auto. destruct i; auto. Qed.

Lemma slice_get_safe_spec b e data : (b <= e)%N ->
  exists r, slice_get_safe (b, e) data = Ok r /\
    forall i, nth_error r i = if (N.to_nat b + i <? N.to_nat e) then nth_error data (N.to_nat b + i) else None.
Proof.
  intros H. unfold slice_get_safe. cbn [fst snd].
  replace (min (N.to_nat b) (length data) <=? min (N.to_nat e) (length data)) with true by (symmetry; apply Nat.leb_le; lia).
  replace (min (N.to_nat e) (length data) <=? length data) with true by (symmetry; apply Nat.leb_le; lia).
  cbn [andb]. eexists; split; [reflexivity|]. intros i. rewrite nth_error_firstn, nth_error_skipn.
  destruct (Nat.ltb_spec (N.to_nat b + i) (N.to_nat e)).
  - destruct (Nat.le_gt_cases (length data) (N.to_nat b + i)).
    + assert (nth_error data (N.to_nat b + i) = None) as -> by (apply nth_error_None; auto).
      destruct (_ <? _) eqn:L; auto. apply nth_error_None. apply Nat.ltb_lt in L. lia.
    + replace (min (N.to_nat b) (length data)) with (N.to_nat b) by lia.
      replace (i <? _) with true; auto. symmetry. apply Nat.ltb_lt. lia.
  - replace (i <? _) with false; auto. symmetry. apply Nat.ltb_ge. lia.
Qed.

Lemma slice_get_spec b e data : (b <= e)%N ->
  slice_get (b, e) data = if (e <=? N.of_nat (length data))%N then slice_get_safe (b, e) data else Panic.
Proof.
  intros H. unfold slice_get, slice_get_safe. cbn [fst snd].
  replace (N.to_nat b <=? N.to_nat e) with true by (symmetry; apply Nat.leb_le; lia). cbn [andb].
  destruct (N.leb_spec e (N.of_nat (length data))).
  - rewrite !Nat.min_l by lia. replace (N.to_nat b <=? N.to_nat e) with true by (symmetry; apply Nat.leb_le; lia).
    replace (N.to_nat e <=? length data) with true by (symmetry; apply Nat.leb_le; lia). reflexivity.
  - replace (N.to_nat e <=? length data) with false by (symmetry; apply Nat.leb_gt; lia). reflexivity.
Qed.

Lemma get_safe_full b e data : (b <= e)%N -> (e <= N.of_nat (length data))%N ->
  slice_get_safe (b, e) data = Ok (firstn (N.to_nat e - N.to_nat b) (skipn (N.to_nat b) data)).
Proof.
  intros H1 H2. unfold slice_get_safe. cbn [fst snd]. rewrite !Nat.min_l by lia.
  replace (N.to_nat b <=? N.to_nat e) with true by (symmetry; apply Nat.leb_le; lia).
  replace (N.to_nat e <=? length data) with true by (symmetry; apply Nat.leb_le; lia). reflexivity.
Qed.

(** * Brackets *)
Lemma closer_spec o c : closer o = Ok c <-> bracket_pair o c.
Proof.
  unfold closer, bracket_pair. cbn [In]. split.
  - destruct (N.eqb_spec o 40); [intros E; inversion E; subst; auto|].
    destruct (N.eqb_spec o 123); [intros E; inversion E; subst; auto|].
    destruct (N.eqb_spec o 91); [intros E; inversion E; subst; auto|].
    destruct (N.eqb_spec o 60); [intros E; inversion E; subst; auto|]. discriminate.
  - intros [H|[H|[H|[H|[]]]]]; inversion H; subst; reflexivity.
Qed.

Lemma closer_not_panic o : closer o <> Panic.
Proof. unfold closer. repeat destruct (_ =? _)%N; discriminate. Qed.

Lemma balance_app o c p q : balance o c (p ++ q) = (balance o c p + balance o c q)%Z.
Proof. induction p as [|x p IH]; cbn [Datatypes.app balance]; [lia|]. rewrite IH. lia. Qed.

Lemma loop_ok o c l : forall i d n, (0 < d)%Z -> find_close_loop o c l i d = Ok n ->
  exists p q, l = p ++ c :: q /\ n = i + length p + 1 /\ (d + balance o c p = 1)%Z /\
    forall p1 p2, p = p1 ++ p2 -> (0 < d + balance o c p1)%Z.
Proof.
  induction l as [|x l IH]; intros i d n Hd H; cbn [find_close_loop] in H; [discriminate|].
  set (d' := if (x =? o)%N then (d + 1)%Z else if (x =? c)%N then (d - 1)%Z else d) in *.
  destruct (Z.eqb_spec d' 0).
  - inversion H; subst n. exists [], l. unfold d' in e. destruct (x =? o)%N; [lia|].
    destruct (N.eqb_spec x c); [|lia]. subst x. cbn [Datatypes.app length balance]. repeat split; auto; try lia.
    intros p1 p2 Hp. symmetry in Hp. apply app_eq_nil in Hp as [-> _]. cbn [balance]. lia.
  - assert (0 < d')%Z by (unfold d' in *; destruct (x =? o)%N; [lia|]; destruct (x =? c)%N; lia).
    apply IH in H as (p & q & -> & -> & Hb & Hp); auto. exists (x :: p), q. cbn [Datatypes.app length balance].
    repeat split; auto; try lia.
    + unfold d' in Hb. destruct (x =? o)%N; [lia|]. destruct (x =? c)%N; lia.
    + intros [|y p1] p2 E; cbn [balance]; [lia|]. inversion E; subst. specialize (Hp _ _ eq_refl). unfold d' in Hp.
      destruct (y =? o)%N; [lia|]. destruct (y =? c)%N; lia.
Qed.

Lemma loop_not_ok o c l : forall i d, (0 < d)%Z -> (forall n, find_close_loop o c l i d <> Ok n) ->
  find_close_loop o c l i d = Err /\ forall p q, l = p ++ q -> (0 < d + balance o c p)%Z.
Proof.
  induction l as [|x l IH]; intros i d Hd H; cbn [find_close_loop] in *.
  - split; auto. intros p q E. symmetry in E. apply app_eq_nil in E as [-> _]. cbn [balance]. lia.
  - set (d' := if (x =? o)%N then (d + 1)%Z else if (x =? c)%N then (d - 1)%Z else d) in *.
    destruct (Z.eqb_spec d' 0). { exfalso; eapply H; eauto. }
    assert (0 < d')%Z by (unfold d' in *; destruct (x =? o)%N; [lia|]; destruct (x =? c)%N; lia).
    destruct (IH (i + 1) d') as [E Hp]; auto. split; auto.
    intros [|y p] q Eq; cbn [balance]; [lia|]. inversion Eq; subst. specialize (Hp _ _ eq_refl). unfold d' in Hp.
    destruct (y =? o)%N; [lia|]. destruct (y =? c)%N; lia.
Qed.

Lemma pair_ne o c : bracket_pair o c -> o <> c.
Proof. unfold bracket_pair. cbn [In]. intros [H|[H|[H|[H|[]]]]]; inversion H; discriminate. Qed.

Lemma loop_hit o c p : o <> c -> forall i d q, (0 < d)%Z -> (d + balance o c p = 1)%Z ->
  (forall p1 p2, p = p1 ++ p2 -> (0 < d + balance o c p1)%Z) ->
  find_close_loop o c (p ++ c :: q) i d = Ok (i + length p + 1).
Proof.
  intros Ho. induction p as [|x p IH]; intros i d q Hd Hb Hp; cbn [Datatypes.app find_close_loop].
  - destruct (N.eqb_spec c o); [congruence|]. rewrite N.eqb_refl. cbn [balance] in Hb.
    replace (d - 1 =? 0)%Z with true by lia. f_equal. simpl; lia.
  - cbn [balance] in Hb.
    pose proof (Hp [x] p eq_refl) as H1. cbn [balance] in H1.
    set (d' := if (x =? o)%N then (d + 1)%Z else if (x =? c)%N then (d - 1)%Z else d).
    assert (Hd' : (d' = d + (if (x =? o)%N then 1 else if (x =? c)%N then -1 else 0))%Z)
      by (unfold d'; destruct (x =? o)%N; [lia|]; destruct (x =? c)%N; lia).
    replace (d' =? 0)%Z with false by lia. rewrite (IH (i + 1) d'); try lia.
    + f_equal. simpl; lia.
    + intros p1 p2 E. specialize (Hp (x :: p1) p2 ltac:(simpl; congruence)). cbn [balance] in Hp. lia.
Qed.

Lemma find_close_hit o c inner rest : bracket_pair o c -> balanced o c inner ->
  find_close (o :: inner ++ c :: rest) = Ok (length inner + 2).
Proof.
  intros Hp [Hb Hpre]. unfold find_close. rewrite (proj2 (closer_spec _ _) Hp). cbn [rbind find_close_loop].
  rewrite N.eqb_refl. cbn [Z.eqb Z.add]. rewrite loop_hit; try lia.
  - f_equal. lia.
  - apply pair_ne; auto.
  - intros p1 p2 E. specialize (Hpre _ _ E). lia.
Qed.

Lemma find_close_sound s n : find_close s = Ok n ->
  exists o c inner rest, s = o :: inner ++ c :: rest /\ bracket_pair o c /\ balanced o c inner /\ n = length inner + 2.
Proof.
  unfold find_close. destruct s as [|o s]; [discriminate|]. destruct (closer o) as [c| |] eqn:E; try discriminate.
  cbn [rbind find_close_loop]. rewrite N.eqb_refl. cbn [Z.eqb Z.add]. intros H.
  apply loop_ok in H as (p & q & -> & -> & Hb & Hp); [|lia]. exists o, c, p, q. repeat split; auto.
  - apply closer_spec; auto.
  - lia.
  - intros p1 p2 E2. specialize (Hp _ _ E2). lia.
  - lia.
Qed.

Lemma find_close_no_panic s : find_close s <> Panic.
Proof.
  unfold find_close. destruct s as [|o s]; [discriminate|]. pose proof (closer_not_panic o).
  destruct (closer o) as [c| |]; try congruence; try discriminate. cbn [rbind].
  generalize 0%Z at 1. generalize 0. generalize (o :: s). induction l as [|x l IH]; intros i d; cbn [find_close_loop]; [discriminate|].
  destruct (_ =? 0)%Z; [discriminate|]. apply IH.
Qed.

(** * Escapes *)
Lemma unescape_items items : Forall eitem_ok items -> forall tail, 
  unescape_loop (concat (map eitem_text items) ++ tail) false = map eitem_value items ++ unescape_loop tail false.
Proof.
  induction 1 as [|i items Hi H IH]; intros tail; [reflexivity|]. cbn [map concat]. rewrite <- app_assoc.
  destruct i as [c|c]; cbn [eitem_text Datatypes.app unescape_loop].
  - cbn in Hi. destruct (N.eqb_spec c BSL); [contradiction|]. rewrite IH. reflexivity.
  - change (92 =? BSL)%N with true. cbn iota. rewrite IH. reflexivity.
Qed.

Lemma items_exist l : exists items tail, l = concat (map eitem_text items) ++ tail /\
  Forall eitem_ok items /\ (tail = [] \/ tail = [92%N]).
Proof.
  assert (H : forall n l, length l <= n -> exists items tail, l = concat (map eitem_text items) ++ tail /\
    Forall eitem_ok items /\ (tail = [] \/ tail = [92%N])).
  { clear l. induction n as [|n IH]; intros l Hl.
    - destruct l; [|simpl in Hl; lia]. exists [], []. auto.
    - destruct l as [|x l]; [exists [], []; auto|]. simpl in Hl. destruct (N.eq_dec x 92) as [->|Hx].
      + destruct l as [|y l]; [exists [], [92%N]; auto|]. simpl in Hl. destruct (IH l ltac:(lia)) as (items & tail & -> & Ho & Ht).
        exists (Esc y :: items), tail. split; [reflexivity|]. split; auto. constructor; simpl; auto.
      + destruct (IH l ltac:(lia)) as (items & tail & -> & Ho & Ht). exists (Raw x :: items), tail. 
        split; [reflexivity|]. split; auto. }
  exact (H _ l (le_n _)).
Qed.

Lemma unescape_plain l : ~ In 92%N l -> unescape_vec l = l.
Proof.
  unfold unescape_vec. induction l as [|x l IH]; intros H; [reflexivity|]. cbn [unescape_loop].
  destruct (N.eqb_spec x BSL). { exfalso; apply H; left; auto. } rewrite IH; auto. intro; apply H; right; auto.
Qed.

Lemma unescape_length l : forall b, length (unescape_loop l b) <= length l + (if b then 1 else 0).
Proof.
  induction l as [|x l IH]; intros b; cbn [unescape_loop].
  - destruct b; simpl; lia.
  - destruct b; [|destruct (x =? BSL)%N]; cbn [length].
    + specialize (IH false). simpl in IH. lia.
    + specialize (IH true). simpl in IH. lia.
    + specialize (IH false). simpl in IH. lia.
Qed.
