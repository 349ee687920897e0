(** Proofs about transforms. *)
From Coq Require Import String List NArith ZArith Bool Arith Lia.
Open Scope list_scope.
Import ListNotations.
From Verif Require Import Base TextSpec StrModel StrSpec StrProofs StrProps MatchModel MatchProofs TransModel TransSpec.
Close Scope Z_scope.

Lemma chain_stop_err : forall A (fs : list (A -> res A)), fold_left (fun acc f => rbind acc f) fs Err = Err.
Proof. induction fs; auto. Qed.
Lemma chain_stop_panic : forall A (fs : list (A -> res A)), fold_left (fun acc f => rbind acc f) fs Panic = Panic.
Proof. induction fs; auto. Qed.
Lemma chain_cons : forall A f (fs : list (A -> res A)) x, chain (f :: fs) x = rbind (f x) (chain fs).
Proof.
  intros. unfold chain. cbn [fold_left rbind]. destruct (f x); cbn [rbind]; auto using chain_stop_err, chain_stop_panic.
Qed.

Section Chain.
Variables (encode : bytes -> bytes) (decode : bytes -> option bytes) (lossy : bytes -> list N) (utf8 : list N -> bytes).
Variables (ul uu : N -> list N) (ub : N -> bool).
Notation run' := (run encode decode lossy utf8 ul uu ub).
Notation step := (fun t x => run' t x []).

Lemma trans_loop_chain : forall v i src s, i <> 0 ->
  match chain (map step v) (if Nat.odd i then tmp1 s else tmp2 s) with
  | Ok d => exists s', trans_loop encode decode lossy utf8 ul uu ub v i src s (Nat.odd i) = Ok (s', Nat.odd (i + List.length v)) /\
      (if Nat.odd (i + List.length v) then tmp1 s' else tmp2 s') = d
  | Err => trans_loop encode decode lossy utf8 ul uu ub v i src s (Nat.odd i) = Err
  | Panic => trans_loop encode decode lossy utf8 ul uu ub v i src s (Nat.odd i) = Panic
  end.
Proof.
  induction v as [|x v IH]; intros i src s Hi.
  - cbn [map chain fold_left List.length trans_loop]. rewrite Nat.add_0_r. cbn. eauto.
  - cbn [map]. rewrite chain_cons. cbv beta. cbn [trans_loop].
    destruct i as [|i]; [congruence|]. cbn [Nat.eqb].
    assert (P : (S i mod 2 =? 0) = negb (Nat.odd (S i))).
    { rewrite Nat.negb_odd. destruct (Nat.even (S i)) eqn:E.
      - apply Nat.even_spec in E as [k ->]. apply Nat.eqb_eq. rewrite Nat.mul_comm. apply Nat.mod_mul. lia.
      - assert (O : Nat.odd (S i) = true) by (rewrite <- Nat.negb_even, E; auto). apply Nat.odd_spec in O as [k ->].
        rewrite Nat.add_comm, Nat.mul_comm, Nat.mod_add by lia. reflexivity. }
    rewrite P. clear P. replace (S i + List.length (x :: v)) with (S (S i) + List.length v) by (cbn [List.length]; lia).
    replace (S i + 1) with (S (S i)) by lia.
    assert (O : Nat.odd (S (S i)) = negb (Nat.odd (S i))) by (rewrite Nat.odd_succ, <- Nat.negb_odd; auto).
    destruct (Nat.odd (S i)) eqn:E; cbn [negb] in *.
    + destruct (run' x (tmp1 s) []) as [d| |]; cbn [rbind]; auto.
      specialize (IH (S (S i)) src (mkscr (tmp1 s) d) ltac:(lia)). rewrite O in IH. cbn [tmp1 tmp2] in IH. exact IH.
    + destruct (run' x (tmp2 s) []) as [d| |]; cbn [rbind]; auto.
      specialize (IH (S (S i)) src (mkscr d (tmp2 s)) ltac:(lia)). rewrite O in IH. cbn [tmp1 tmp2] in IH. exact IH.
Qed.

Lemma trans_list_chain : forall v s src, v <> [] ->
  match chain (map step v) src with
  | Ok d => exists s', trans_list encode decode lossy utf8 ul uu ub v s src = Ok (d, s')
  | Err => trans_list encode decode lossy utf8 ul uu ub v s src = Err
  | Panic => trans_list encode decode lossy utf8 ul uu ub v s src = Panic
  end.
Proof.
  intros [|x v] s src H; [congruence|]. unfold trans_list. cbn [map]. rewrite chain_cons. cbv beta. cbn [trans_loop Nat.eqb].
  destruct (run' x src []) as [d| |]; cbn [rbind]; auto.
  pose proof (trans_loop_chain v 1 src (mkscr d (tmp2 s)) ltac:(lia)) as L.
  change (Nat.odd 1) with true in L. cbn [tmp1] in L. change (0 + 1) with 1.
  destruct (chain (map step v) d) as [e| |].
  - destruct L as (s' & -> & E). cbn [rbind]. exists s'. f_equal. f_equal. exact E.
  - rewrite L. auto.
  - rewrite L. auto.
Qed.

Lemma between_safe : forall a b l, (1 <= a)%N -> (a <= b)%N -> slice_get_safe (a - 1, b)%N l = Ok (between a b l).
Proof.
  intros a b l Ha Hb. unfold slice_get_safe, between. cbn [fst snd].
  replace (_ && _) with true.
  2:{ symmetry. apply andb_true_iff. split; apply Nat.leb_le; lia. }
  rewrite N2Nat.inj_sub. change (N.to_nat 1) with 1. f_equal.
  destruct (Nat.le_gt_cases (N.to_nat b) (List.length l)) as [E|E].
  - rewrite !Nat.min_l by lia. f_equal. lia.
  - rewrite (Nat.min_r (N.to_nat b)) by lia.
    destruct (Nat.le_gt_cases (N.to_nat a - 1) (List.length l)) as [F|F].
    + rewrite Nat.min_l by lia. rewrite !firstn_all2; auto; rewrite skipn_length; lia.
    + rewrite Nat.min_r by lia. rewrite !skipn_all2 by lia. rewrite !firstn_nil. auto.
Qed.
Lemma slices_between : forall rs l dst, Forall (fun r => 1 <= fst r /\ fst r <= snd r)%N rs ->
  slices_get (map (fun r => (fst r - 1, snd r)%N) rs) l dst = Ok (dst ++ concat (map (fun r => between (fst r) (snd r) l) rs)).
Proof.
  induction rs as [|[a b] rs IH]; intros l dst H; cbn [map slices_get concat]; [rewrite app_nil_r; auto|].
  inversion H as [|? ? [H1 H2] H3]; subst. cbn [fst snd] in *. rewrite between_safe by auto. cbn [rbind].
  rewrite IH by auto. rewrite <- app_assoc. auto.
Qed.
Lemma base64_fits : forall n, base64_len n <= base64_room n.
Proof.
  intros n. unfold base64_len, base64_room. pose proof (Nat.div_mod (n + 2) 3 ltac:(lia)). pose proof (Nat.mod_upper_bound (n + 2) 3 ltac:(lia)).
  pose proof (Nat.div_mod (n * 4) 3 ltac:(lia)). pose proof (Nat.mod_upper_bound (n * 4) 3 ltac:(lia)). lia.
Qed.
End Chain.

Lemma split_str_none : forall d a, ~ In d a -> split_str d a = [a].
Proof.
  induction a as [|c a IH]; intros H; auto. cbn [split_str]. rewrite IH by (intro; apply H; right; auto).
  destruct (N.eqb_spec c d); auto. subst. exfalso. apply H. left. auto.
Qed.
Lemma split_str_join : forall d fs, fs <> [] -> Forall (fun f => ~ In d f) fs -> split_str d (join d fs) = fs.
Proof.
  induction fs as [|f fs IH]; intros Hn H; [congruence|]. inversion H; subst. destruct fs as [|g fs].
  - cbn [join]. apply split_str_none; auto.
  - rewrite join_cons by discriminate. rewrite split_str_app by auto. rewrite IH; auto. discriminate.
Qed.
Lemma digits_no : forall c u, ~ (48 <= c <= 57)%N -> ~ In c (digits u).
Proof. intros c u H. induction u; cbn [digits In]; intros [E|E] || intros E; auto; subst; lia. Qed.

Lemma bytes_new_ranges : forall rs, Forall (fun r => 1 <= fst r /\ fst r <= snd r /\ snd r < 2 ^ 32)%N rs ->
  bytes_new (map (fun r => print_N (fst r) ++ bs "-" ++ print_N (snd r)) rs) = Ok (map (fun r => (fst r - 1, snd r)%N) rs).
Proof.
  induction rs as [|[a b] rs IH]; intros H; auto. inversion H as [|? ? (H1 & H2 & H3) H4]; subst. cbn [map bytes_new fst snd] in *.
  rewrite c09_range_parse by lia. replace ((1 <=? a) && (a <=? b))%N with true by (symmetry; apply andb_true_iff; split; apply N.leb_le; auto).
  cbn [rbind]. rewrite IH by auto. auto.
Qed.
Lemma named_make : forall s t, named s t -> make true s = Ok t.
Proof.
  intros s t H. destruct H; try reflexivity. unfold make.
  change (bs "bytes," ++ ?x) with (bs "bytes" ++ 44%N :: x). rewrite split_once_app by (cbn; intuition discriminate).
  change (make2 true (bs "bytes") ?x) with (rbind (bytes_new (split_str 44 x)) (fun v => Ok (TBytes v))).
  rewrite split_str_join.
  - rewrite bytes_new_ranges by auto. auto.
  - destruct rs; [congruence|discriminate].
  - apply Forall_forall. intros x Hx. apply in_map_iff in Hx as (r & <- & _). rewrite in_app_iff.
    intros [E|[E|E]]; [|discriminate|]; revert E; apply digits_no; lia.
Qed.
Lemma named_plus : forall s t, named s t -> ~ In 43%N s.
Proof.
  intros s t H. destruct H; try (cbn; intuition discriminate).
  rewrite in_app_iff. intros [E|E]; [cbn in E; intuition discriminate|]. clear H H0.
  induction rs as [|[a b] rs IH]; [exact E|]. cbn [map fst snd] in E. destruct rs as [|r' rs].
  - cbn [map join] in E. rewrite in_app_iff in E. destruct E as [E|[E|E]]; [|discriminate|]; revert E; apply digits_no; lia.
  - rewrite join_cons in E by discriminate. rewrite in_app_iff in E. destruct E as [E|[E|E]].
    + rewrite in_app_iff in E. destruct E as [E|[E|E]]; [|discriminate|]; revert E; apply digits_no; lia.
    + discriminate.
    + auto.
Qed.
Lemma named_list : forall ss ts, Forall2 named ss ts -> ss <> [] -> trans_new true (join 43%N ss) = Ok ts.
Proof.
  intros ss ts H Hn. unfold trans_new. rewrite split_str_join; auto.
  - clear Hn. induction H as [|s t ss ts A B IH]; auto. cbn [make_all]. rewrite (named_make s t) by auto. cbn [rbind]. rewrite IH. auto.
  - clear Hn. induction H; constructor; eauto using named_plus.
Qed.

Lemma named_make_first : forall s t, named s t -> s <> bs "lowercase" -> s <> bs "uppercase" -> make false s = Ok t.
Proof.
  intros s t H. destruct H; intros N1 N2; try reflexivity; try congruence.
  rewrite <- (named_make _ _ (nm_bytes rs H H0)). unfold make.
  change (bs "bytes," ++ ?x) with (bs "bytes" ++ 44%N :: x). rewrite split_once_app by (cbn; intuition discriminate). reflexivity.
Qed.
Lemma named_list_first : forall s ss ts, Forall2 named (s :: ss) ts -> s <> bs "lowercase" -> s <> bs "uppercase" ->
  trans_new false (join 43%N (s :: ss)) = Ok ts.
Proof.
  intros s ss ts H N1 N2. pose proof (named_list _ _ H ltac:(discriminate)) as E. unfold trans_new in *. rewrite split_str_join in *.
  - inversion H; subst. cbn [make_all] in *. rewrite (named_make _ _ H2) in E. rewrite (named_make_first _ _ H2) by auto. exact E.
  - discriminate.
  - clear E N1 N2. induction H; constructor; eauto using named_plus.
  - discriminate.
  - clear E N1 N2. induction H; constructor; eauto using named_plus.
Qed.

(** Whitespace. *)
Section Norm.
Variable blank : N -> bool.
Notation tag := (concat (A := N)).
Definition lead (ws : list (list N)) : list N := concat (map (fun w => 32%N :: w) ws).
Notation ne := (fun w : list N => match w with [] => false | _ => true end).

Lemma pieces_ne : forall l, exists p ps, pieces blank l = p :: ps.
Proof. intros [|c l]; cbn [pieces]; eauto. destruct (blank c); eauto. destruct (pieces blank l); eauto. Qed.
Lemma norm_after : forall src dst, dst <> [] ->
  norm_loop blank src true dst = dst ++ lead (words blank src) /\
  forall p ps, pieces blank src = p :: ps -> norm_loop blank src false dst = dst ++ p ++ lead (filter ne ps).
Proof.
  induction src as [|x r IH]; intros dst H.
  - split; [cbn; rewrite app_nil_r; auto|]. intros p ps E. injection E as <- <-. cbn. rewrite app_nil_r. auto.
  - cbn [norm_loop]. unfold words. cbn [pieces]. destruct (blank x) eqn:B.
    + split.
      * cbn [filter]. apply IH. auto.
      * intros p ps E. injection E as <- <-. cbn [app]. apply IH. auto.
    + destruct (pieces_ne r) as (p & ps & E). rewrite E. destruct dst as [|d0 dst]; [congruence|]. cbn [andb]. split.
      * cbn [filter lead map concat]. destruct (IH ((d0 :: dst) ++ [32%N; x]) ltac:(discriminate)) as [_ I].
        rewrite (I p ps E). rewrite <- !app_assoc. reflexivity.
      * intros p' ps' E'. injection E' as <- <-. destruct (IH ((d0 :: dst) ++ [x]) ltac:(discriminate)) as [_ I].
        rewrite (I p ps E). rewrite <- !app_assoc. reflexivity.
Qed.
Lemma join_lead : forall w ws, join 32%N (w :: ws) = w ++ lead ws.
Proof.
  intros w ws. revert w. induction ws as [|v ws IH]; intros w.
  - cbn. rewrite app_nil_r. auto.
  - rewrite join_cons by discriminate. rewrite IH. reflexivity.
Qed.
Lemma norm_visible : forall c r, blank c = false -> norm_loop blank (c :: r) false [] = join 32%N (words blank (c :: r)).
Proof.
  intros c r B. cbn [norm_loop]. rewrite B. cbn [andb app]. unfold words. cbn [pieces]. rewrite B.
  destruct (pieces_ne r) as (p & ps & E). rewrite E. cbn [filter]. rewrite join_lead.
  destruct (norm_after r [c] ltac:(discriminate)) as [_ I]. rewrite (I p ps E). reflexivity.
Qed.
Lemma norm_blanks : forall g l, Forall (fun c => blank c = true) g -> forall need, norm_loop blank (g ++ l) need [] =
  norm_loop blank l (match g with [] => need | _ => true end) [].
Proof.
  induction g as [|c g IH]; intros l H need; auto. inversion H; subst. cbn [app norm_loop]. rewrite H2. rewrite IH by auto.
  destruct g; auto.
Qed.
Lemma norm_leading : forall g c r, g <> [] -> Forall (fun c => blank c = true) g -> blank c = false -> blank 32%N = true ->
  norm_loop blank (g ++ c :: r) false [] = join 32%N (words blank (c :: 32%N :: r)).
Proof.
  intros g c r Hg H B S. rewrite norm_blanks by auto. destruct g as [|g0 g]; [congruence|]. cbn [norm_loop]. rewrite B. cbn [andb app].
  unfold words. cbn [pieces]. rewrite B, S. cbn [filter]. rewrite join_lead.
  destruct (norm_after r [c] ltac:(discriminate)) as [I _]. exact I.
Qed.
Lemma pieces_visible : forall l, Forall (Forall (fun c => blank c = false)) (pieces blank l).
Proof.
  induction l as [|c l IH]; cbn [pieces]; [repeat constructor|]. destruct (blank c) eqn:B; [constructor; auto|].
  destruct (pieces blank l) as [|p ps]; inversion IH; subst; repeat constructor; auto.
Qed.
Lemma words_word : forall l, Forall (word blank) (words blank l).
Proof.
  intros l. pose proof (pieces_visible l) as H. unfold words. induction H as [|p ps A B IH]; cbn [filter]; auto.
  destruct p; auto. constructor; auto. split; auto. discriminate.
Qed.
Lemma blank_prefix : forall l, exists g r, l = g ++ r /\ Forall (fun c => blank c = true) g /\
  (r = [] \/ exists c t, r = c :: t /\ blank c = false).
Proof.
  induction l as [|c l IH]; [exists [], []; repeat split; auto|]. destruct (blank c) eqn:B.
  - destruct IH as (g & r & -> & A & C). exists (c :: g), r. repeat split; auto.
  - exists [], (c :: l). repeat split; auto. right. eauto.
Qed.
Lemma norm_form : blank 32%N = true -> forall l, exists ws, Forall (word blank) ws /\ norm_loop blank l false [] = join 32%N ws.
Proof.
  intros S l. destruct (blank_prefix l) as (g & r & -> & A & [-> | (c & t & -> & B)]).
  - exists []. split; auto. rewrite norm_blanks by auto. reflexivity.
  - destruct g as [|g0 g].
    + eexists. split; [|apply norm_visible; auto]. apply words_word.
    + eexists. split; [|apply norm_leading; auto; discriminate]. apply words_word.
Qed.
Lemma pieces_word : forall w l, Forall (fun c => blank c = false) w -> 
  match pieces blank l with p :: ps => pieces blank (w ++ l) = (w ++ p) :: ps | [] => True end.
Proof.
  induction w as [|c w IH]; intros l H; cbn [app].
  - destruct (pieces blank l); auto.
  - inversion H; subst. specialize (IH l H3). cbn [pieces]. rewrite H2. destruct (pieces blank l); auto. rewrite IH. auto.
Qed.
Lemma words_join : blank 32%N = true -> forall ws, Forall (word blank) ws -> words blank (join 32%N ws) = ws.
Proof.
  intros S ws H. induction H as [|w ws [Hn Hw] B IH]; auto. unfold words in *. destruct ws as [|v ws].
  - cbn [join]. pose proof (pieces_word w [] Hw) as P. cbn [pieces] in P. rewrite !app_nil_r in P. rewrite P. destruct w; [congruence|auto].
  - rewrite join_cons by discriminate. pose proof (pieces_word w (32%N :: join 32%N (v :: ws)) Hw) as P. cbn [pieces] in P. rewrite S in P.
    rewrite P. rewrite app_nil_r. cbn [filter]. rewrite IH. destruct w; [congruence|auto].
Qed.
Lemma norm_words : forall ws, blank 32%N = true -> Forall (word blank) ws -> norm_loop blank (join 32%N ws) false [] = join 32%N ws.
Proof.
  intros ws S H. destruct ws as [|w ws]; auto. rewrite <- (words_join S (w :: ws)) at 2 by auto. inversion H as [|? ? [Hn Hw] _]; subst.
  destruct w as [|c w]; [congruence|]. rewrite join_lead. cbn [app]. apply norm_visible. inversion Hw; auto.
Qed.
End Norm.
