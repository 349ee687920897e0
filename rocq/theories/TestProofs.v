(** Proofs about the tooltest tool. *)
From Coq Require Import Ascii String List NArith ZArith Bool Arith Lia.
Open Scope list_scope.
Import ListNotations.
From Verif Require Import Base StrModel StrSpec StrProofs FloatModel ReadModel ReadProofs CompModel CheckModel HdrModel HdrProofs ToolModel MatchModel TestMain TestSpec.
Close Scope Z_scope. Open Scope nat_scope.

(** * Reading the file *)
Lemma cut_after_line l rest : ~ In NL l -> cut_after NL (ended l ++ rest) = Some (ended l, rest).
Proof.
  unfold ended. induction l as [|c l IH]; intros H; cbn [app cut_after].
  - change (10 =? NL)%N with true. reflexivity.
  - destruct (N.eqb_spec c NL) as [->|_]; [destruct H; left; reflexivity|]. rewrite IH; [reflexivity|]. intros I; apply H; right; auto.
Qed.
Lemma read_ended s l rest : wf_src s -> ~ In NL l -> content s = ended l ++ rest ->
  exists s', read_until NL s = (ended l, s') /\ wf_src s' /\ content s' = rest.
Proof.
  intros W H E. destruct (read_until_flat NL s W) as (a & s' & R & W' & F). unfold flat_until in F. rewrite E, cut_after_line in F by auto.
  injection F as <- F. exists s'. auto.
Qed.
Lemma read_end s : wf_src s -> content s = [] -> exists s', read_until NL s = ([], s') /\ wf_src s' /\ content s' = [].
Proof.
  intros W E. destruct (read_until_flat NL s W) as (a & s' & R & W' & F). unfold flat_until in F. rewrite E in F. cbn in F.
  injection F as <- F. exists s'. auto.
Qed.
Lemma ended_cons l : exists c r, ended l = c :: r. Proof. destruct l; eexists _, _; reflexivity. Qed.
Lemma pop_ended l : pop_nl (ended l) = l.
Proof. unfold pop_nl, ended. rewrite last_last. change (10 =? NL)%N with true. apply removelast_last. Qed.
Lemma starts_app l p r : starts_with l p = true -> starts_with (l ++ r) p = true.
Proof. intros H. apply starts_with_app in H as (x & ->). apply starts_with_app. exists (x ++ r). now rewrite app_assoc. Qed.

(** The first line of a section. *)
Lemma in_bs_ended (h t : bytes) x : ~ In 10%N (h ++ t) -> ended (h ++ t) ++ x = h ++ ended t ++ x.
Proof. unfold ended. intros _. now rewrite <- !app_assoc. Qed.
Definition headed (h : bytes) : Prop := ~ In NL h /\ (exists r, h = 35%N :: r) /\ forall x, starts_with (h ++ x) (bs "#nonewline") = false.
Lemma spaced_no c ws : (c <= 32)%N -> c <> 32%N -> Forall word_ok ws -> ~ In c (spaced (map word_text ws)).
Proof.
  intros L D H. assert (W : forall w, word_ok w -> ~ In c (word_text w)).
  { intros w (F & _) I. unfold word_text in I. apply in_concat in I as (x & Ix & I). apply in_map_iff in Ix as (p & <- & Ip).
    rewrite Forall_forall in F. specialize (F p Ip). destruct p as [b|]; cbn [part_text part_ok] in *.
    - rewrite Forall_forall in F. specialize (F c I). lia.
    - cbn in I. intuition lia. }
  induction H as [|w ws Hw F IH]; cbn [map spaced]; auto.
  destruct ws as [|w' ws]; cbn [map]; [apply W; auto|].
  intros I. apply in_app_or in I as [I|[I|I]]; [apply (W w); auto|lia|apply IH; auto].
Qed.
Lemma print_Z_no c z : ~ (48 <= c <= 57)%N -> c <> 45%N -> ~ In c (print_Z z).
Proof.
  intros L D. unfold print_Z. destruct (z <? 0)%Z; [intros [I|I]; [lia|]|intros I]; revert I; apply HdrProofs.print_no; lia.
Qed.
Definition first_line (s : section) : bytes :=
  match s with
  | TCmd ws => bs "#command " ++ spaced (map word_text ws)
  | TStdin b => bs "#stdin" | TStdout b => bs "#stdout" | TStderr b => bs "#stderr"
  | TStatus z => bs "#status " ++ print_Z z
  | TIn n b => bs "#infile " ++ n | TOut n b => bs "#outfile " ++ n
  | TNote t => bs "# " ++ t
  end.
Definition behind (s : section) : bytes :=
  match s with TStdin b | TStdout b | TStderr b | TIn _ b | TOut _ b => body_text b | _ => [] end.
Lemma section_split s : section_text s = ended (first_line s) ++ behind s.
Proof. destruct s; cbn [section_text first_line behind]; unfold ended; rewrite ?app_nil_r, <- ?app_assoc; reflexivity. Qed.
Lemma first_headed u s : section_ok u s -> headed (first_line s).
Proof.
  intros H. split; [|split].
  - destruct s as [ws|b|b|b|z|n b|n b|t]; cbn [first_line section_ok] in *; unfold NL; intros I; try (apply in_app_or in I as [I|I]); try (cbn in I; intuition discriminate).
    + destruct H as (_ & H). revert I. apply spaced_no; auto; lia.
    + revert I. apply print_Z_no; lia.
    + destruct H as ((_ & F) & _). rewrite Forall_forall in F. specialize (F _ I). lia.
    + destruct H as ((_ & F) & _). rewrite Forall_forall in F. specialize (F _ I). lia.
  - destruct s; eexists; reflexivity.
  - intros x. destruct s; reflexivity.
Qed.

Definition is_head (l : bytes) : Prop := l = [] \/ exists h r, headed h /\ l = ended h ++ r.
Lemma text_head u ss : Forall (section_ok u) ss -> is_head (test_text ss).
Proof.
  intros H. destruct H as [|s ss Hs H]; [left; reflexivity|right].
  exists (first_line s), (behind s ++ test_text ss). split; [eapply first_headed; eauto|].
  unfold test_text. cbn [map concat]. rewrite section_split, <- app_assoc. reflexivity.
Qed.

Lemma line_not_hash l : line_ok l -> starts_with (ended l) (bs "#") = false.
Proof.
  intros (_ & H). destruct l as [|c l]; [reflexivity|]. unfold ended. cbn [app]. change (bs "#") with [35%N]. cbn [starts_with].
  destruct (N.eqb_spec 35 c) as [<-|_]; [destruct H; reflexivity|reflexivity].
Qed.
(** What grab makes of a body. *)
Definition grabbed (buff : bytes) (b : body) (rest : bytes) (x : res (bytes * bytes * src * bool)) : Prop :=
  exists line s need, x = Ok (buff ++ body_means b, line, s, need) /\ wf_src s /\
    ((need = true /\ content s = rest) \/ (need = false /\ exists h, headed h /\ line = ended h /\ rest = ended h ++ content s)).
Lemma body_means_cons x y r bare : body_of (x :: y :: r) bare = ended x ++ body_of (y :: r) bare. Proof. reflexivity. Qed.
Lemma grab_ok : forall ls bare rest fuel buff s, Forall line_ok ls -> is_head rest -> wf_src s -> (bare = true -> ls <> [] \/ buff = []) ->
  content s = concat (map ended ls) ++ (if bare then bs "#nonewline" ++ [10%N] else []) ++ rest -> List.length (content s) < fuel ->
  exists line s' need, grab_loop fuel buff s = Ok (buff ++ body_of ls bare, line, s', need) /\ wf_src s' /\
    ((need = true /\ content s' = rest) \/ (need = false /\ exists h, headed h /\ line = ended h /\ rest = ended h ++ content s')).
Proof.
  induction ls as [|l ls IH]; intros bare rest fuel buff s L R W B E F; (destruct fuel as [|k]; [lia|]); cbn [grab_loop].
  - cbn [map concat app body_of] in *. destruct bare.
    + destruct B as [B|B]; [reflexivity|congruence|]; subst buff.
      destruct (read_ended s (bs "#nonewline") rest W) as (s' & RU & W' & C); [intros I; cbn in I; intuition discriminate|rewrite E; unfold ended; now rewrite <- app_assoc|].
      rewrite RU. cbn -[removelast]. eexists _, s', true. split; [reflexivity|]. split; auto.
    + cbn [app] in E. destruct R as [->|(h & r & Hh & ->)].
      * destruct (read_end s W E) as (s' & RU & W' & C). rewrite RU. eexists _, s', true. rewrite app_nil_r. split; [reflexivity|]. split; auto.
      * destruct (read_ended s h r W) as (s' & RU & W' & C); [apply Hh|auto|]. rewrite RU.
        destruct Hh as (Hn & (q & Hq) & Hx).
        assert (S1 : starts_with (ended h) (bs "#") = true) by (rewrite Hq; reflexivity).
        assert (S2 : starts_with (ended h) (bs "#nonewline") = false) by (apply Hx).
        destruct (ended_cons h) as (c & y & Ec). rewrite Ec in *. rewrite S1, S2. eexists _, s', false. rewrite app_nil_r. split; [reflexivity|]. split; auto.
        right. split; auto. exists h. rewrite Ec, C. repeat split; eauto.
  - inversion L as [|? ? Hl Hls]; subst. cbn [map concat] in E. rewrite <- app_assoc in E.
    destruct (read_ended s l _ W (proj1 Hl) E) as (s' & RU & W' & C). rewrite RU.
    pose proof (line_not_hash l Hl) as NH. destruct (ended_cons l) as (c & y & Ec). rewrite Ec in *. rewrite NH.
    assert (K : List.length (content s') < k).
    { rewrite E in F. rewrite C in *. cbn [app List.length] in F. rewrite !app_length in *. lia. }
    destruct ls as [|l2 ls].
    + cbn [map concat app body_of] in *. destruct bare.
      * (* the newline taken away *)
        destruct k as [|k]; [lia|]. cbn [grab_loop].
        destruct (read_ended s' (bs "#nonewline") rest W') as (s2 & RU2 & W2 & C2); [intros I; cbn in I; intuition discriminate|rewrite C; unfold ended; now rewrite <- app_assoc|].
        rewrite RU2. cbn -[removelast]. rewrite <- Ec. unfold ended. rewrite app_assoc, removelast_last.
        eexists _, s2, true. split; [reflexivity|]. split; auto.
      * destruct (IH false rest k (buff ++ c :: y) s' Hls R W' ltac:(discriminate) C K) as (line & s2 & need & G & W2 & X).
        rewrite G. exists line, s2, need. cbn [body_of]. rewrite app_nil_r, <- Ec. auto.
    + destruct (IH bare rest k (buff ++ c :: y) s' Hls R W' ltac:(intros _; left; discriminate) C K) as (line & s2 & need & G & W2 & X).
      rewrite G. exists line, s2, need. rewrite body_means_cons, app_assoc, Ec. auto.
Qed.

(** * The fields of a test *)
Lemma strip_app p x : strip_prefix (p ++ x) p = Some x.
Proof.
  unfold strip_prefix. assert (E : starts_with (p ++ x) p = true) by (apply starts_with_app; eauto). rewrite E, skipn_app, skipn_all, Nat.sub_diag. reflexivity.
Qed.
Lemma trim_left_name n : name_text n -> trim_left (32%N :: n) = n.
Proof.
  intros (H & F). destruct n as [|c n]; [congruence|]. inversion F; subst. cbn [trim_left]. change (32 <? 32)%N with false. cbn iota.
  destruct (N.ltb_spec 32 c); [reflexivity|lia].
Qed.
Lemma trim_white_name n : name_text n -> trim_white (32%N :: n) = n.
Proof.
  intros (H & F). destruct n as [|c n]; [congruence|]. inversion F; subst. cbn [trim_white]. change (is_white 32) with true. cbn iota.
  assert (E : is_white c = false) by (unfold is_white; destruct (N.leb_spec 9 c), (N.leb_spec c 13), (N.eqb_spec c 32); cbn; auto; lia). rewrite E. reflexivity.
Qed.
Lemma name_one n : name_text n -> split_once SPC n = None.
Proof.
  intros (_ & F). induction F as [|c n Hc F IH]; [reflexivity|]. cbn [split_once]. destruct (N.eqb_spec c SPC) as [->|_]; [unfold SPC in *; lia|].
  rewrite IH. reflexivity.
Qed.
Lemma spaced_head ws : ws <> [] -> Forall word_ok ws -> exists c r, spaced (map word_text ws) = c :: r /\ (32 < c)%N.
Proof.
  intros H F. destruct F as [|w ws (Fw & Nw) F]; [congruence|].
  assert (X : exists c r, word_text w = c :: r /\ (32 < c)%N).
  { clear - Fw Nw. unfold word_text in *. induction Fw as [|p w Hp Fw IH]; [cbn in Nw; congruence|]. cbn [map concat] in *.
    destruct p as [b|]; cbn [part_text part_ok] in *; [|exists 36%N; eexists; split; [reflexivity|lia]].
    destruct b as [|c b]; [apply IH; auto|]. inversion Hp; subst. eexists c, _. split; [reflexivity|lia]. }
  destruct X as (c & r & E & L). cbn [map spaced]. rewrite E. destruct (map word_text ws); eexists c, _; split; try reflexivity; auto.
Qed.
Lemma trim_left_cmd ws : ws <> [] -> Forall word_ok ws -> trim_left (32%N :: spaced (map word_text ws)) = spaced (map word_text ws).
Proof.
  intros H F. destruct (spaced_head ws H F) as (c & r & -> & L). cbn [trim_left]. change (32 <? 32)%N with false. cbn iota.
  destruct (N.ltb_spec 32 c); [reflexivity|lia].
Qed.
Lemma print_N_first n : exists c r, print_N n = c :: r /\ (32 < c)%N.
Proof.
  destruct (print_N_head n) as (c & r & E & _). exists c, r. split; auto.
  destruct (N.ltb_spec 32 c); auto. exfalso. apply (print_no c n); [lia|]. rewrite E. left; auto.
Qed.
Lemma trim_left_Z z : trim_left (32%N :: print_Z z) = print_Z z.
Proof.
  assert (X : exists c r, print_Z z = c :: r /\ (32 < c)%N).
  { unfold print_Z. destruct (z <? 0)%Z; [exists 45%N; eexists; split; [reflexivity|lia]|apply print_N_first]. }
  destruct X as (c & r & -> & L). cbn [trim_left]. change (32 <? 32)%N with false. cbn iota. destruct (N.ltb_spec 32 c); [reflexivity|lia].
Qed.
Lemma status_read z : (- 2147483648 <= z < 2147483648)%Z -> rbind (to_isize_whole (print_Z z)) (fun z => Ok (as_i32 z)) = Ok z.
Proof.
  intros H. unfold to_isize_whole. pose proof (to_isize_print z [] ltac:(lia) I) as R. rewrite app_nil_r in R. rewrite R. cbn [rbind].
  f_equal. unfold as_i32. destruct (Z.ltb_spec (z mod 4294967296) 2147483648) as [L|L].
  - destruct (Z.le_gt_cases 0 z); [apply Z.mod_small; lia|]. exfalso.
    rewrite <- (Z.mod_add z 1 4294967296), Z.mod_small in L by lia. lia.
  - destruct (Z.le_gt_cases 0 z); [exfalso; rewrite Z.mod_small in L by lia; lia|].
    rewrite <- (Z.mod_add z 1 4294967296), Z.mod_small by lia. lia.
Qed.

Section Oracles.
Variable utf8_ok : bytes -> bool.
Variable lossy : bytes -> bytes.
Variable exp10 : Z -> f64.
Variable regex : bytes -> case -> res (bytes -> bool).
Variable mk_comp : bytes -> res cmpr.
Variable file_lines : bytes -> res (list bytes).
Variable gunzip : bytes -> res bytes.
Variable exec : bytes -> list bytes -> bytes -> dir -> option (option Z * bytes * bytes * dir).
Notation safe := (match_safe utf8_ok exp10).
Notation open_line := (open_line utf8_ok regex mk_comp file_lines).
Notation open_loop := (open_loop utf8_ok regex mk_comp file_lines).
Notation open_test := (open_test utf8_ok regex mk_comp file_lines).

(** A matcher for one text. *)
Definition only (m : matcher) (w : bytes) : Prop := forall b, safe m b = Ok (beq w b).
Definition reflects (t : test) (a : asked) : Prop :=
  t_cmd t = spaced (map word_text (a_words a)) /\ t_stdin t = a_stdin a /\ only (t_stdout t) (a_stdout a) /\ only (t_stderr t) (a_stderr a) /\
  t_code t = a_code a /\ t_in t = a_in a /\ Forall2 (fun x y => fst x = fst y /\ only (snd x) (snd y)) (t_out t) (a_out a).
Lemma new_reflects : exists t, test_new regex mk_comp file_lines = Ok t /\ reflects t (asks []).
Proof.
  eexists. split; [reflexivity|]. cbn.
  assert (O : only (mkm false false false false (inl (KLen 0 (Some 0%N)))) []) by (intros [|c b]; reflexivity).
  repeat split; auto. constructor.
Qed.
Lemma exact_only w : utf8_ok w = true -> exists m, exact_of utf8_ok regex mk_comp file_lines w = Ok m /\ only m w.
Proof. intros H. unfold exact_of. rewrite H. eexists. split; [reflexivity|]. intros b. reflexivity. Qed.

Lemma grab_body_ok b rest buff s : body_ok b -> is_head rest -> wf_src s -> (b_bare b = true -> b_lines b <> [] \/ buff = []) ->
  content s = body_text b ++ rest -> exists line s' need, grab_body buff s = Ok (buff ++ body_means b, line, s', need) /\ wf_src s' /\
    ((need = true /\ content s' = rest) \/ (need = false /\ exists h, headed h /\ line = ended h /\ rest = ended h ++ content s')).
Proof.
  intros H R W B E. destruct b as [ls bare]. unfold body_text in E. cbn [b_lines b_bare] in *. rewrite <- app_assoc in E.
  apply grab_ok; auto.
Qed.
Lemma last_of_snoc {A} (f : section -> option A) ss s d : last_of f (ss ++ [s]) d = match f s with Some x => x | None => last_of f ss d end.
Proof. unfold last_of. rewrite fold_left_app. reflexivity. Qed.
Lemma each_snoc {A} (f : section -> list A) ss s : each f (ss ++ [s]) = each f ss ++ f s.
Proof. unfold each. rewrite map_app, concat_app. cbn [map concat]. rewrite app_nil_r. reflexivity. Qed.

(** One section. *)
Lemma section_read pre t sec s rest : section_ok utf8_ok sec -> reflects t (asks pre) -> is_head rest -> wf_src s -> content s = behind sec ++ rest ->
  exists t' line s' need, open_line t (first_line sec) s = Ok (t', line, s', need) /\ reflects t' (asks (pre ++ [sec])) /\ wf_src s' /\
    ((need = true /\ content s' = rest) \/ (need = false /\ exists h, headed h /\ line = ended h /\ rest = ended h ++ content s')).
Proof.
  intros H R Hr W E. destruct t as [cmd inp out err code ins outs].
  assert (A : asks (pre ++ [sec]) = let a := asks pre in
    match sec with
    | TCmd ws => mkask ws (a_stdin a) (a_stdout a) (a_stderr a) (a_code a) (a_in a) (a_out a)
    | TStdin b => mkask (a_words a) (a_stdin a ++ body_means b) (a_stdout a) (a_stderr a) (a_code a) (a_in a) (a_out a)
    | TStdout b => mkask (a_words a) (a_stdin a) (body_means b) (a_stderr a) (a_code a) (a_in a) (a_out a)
    | TStderr b => mkask (a_words a) (a_stdin a) (a_stdout a) (body_means b) (a_code a) (a_in a) (a_out a)
    | TStatus z => mkask (a_words a) (a_stdin a) (a_stdout a) (a_stderr a) z (a_in a) (a_out a)
    | TIn n b => mkask (a_words a) (a_stdin a) (a_stdout a) (a_stderr a) (a_code a) (a_in a ++ [(n, body_means b)]) (a_out a)
    | TOut n b => mkask (a_words a) (a_stdin a) (a_stdout a) (a_stderr a) (a_code a) (a_in a) (a_out a ++ [(n, body_means b)])
    | TNote _ => a
    end).
  { unfold asks. rewrite !last_of_snoc, !each_snoc. destruct sec; cbn; rewrite ?app_nil_r; reflexivity. }
  rewrite A. clear A. set (a := asks pre) in *. clearbody a.
  destruct R as (R1 & R2 & R3 & R4 & R5 & R6 & R7). cbn [t_cmd t_stdin t_stdout t_stderr t_code t_in t_out] in *. cbv zeta.
  destruct sec as [ws|b|b|b|z|n b|n b|x]; cbn [behind first_line section_ok app] in *.
  - exists (mkt (spaced (map word_text ws)) inp out err code ins outs). eexists _, s, true. split; [|split; [repeat split; auto|auto]].
    unfold TestMain.open_line. change (after "#command" (bs "#command " ++ spaced (map word_text ws))) with (strip_prefix (bs "#command" ++ (32%N :: spaced (map word_text ws))) (bs "#command")).
    rewrite strip_app, trim_left_cmd by apply H. reflexivity.
  - destruct H as (H & Hb). destruct (grab_body_ok b rest inp s H Hr W ltac:(auto) E) as (line & s' & need & G & W' & X).
    exists (mkt cmd (inp ++ body_means b) out err code ins outs), line, s', need. split; [|split; [repeat split; auto; cbn; congruence|auto]].
    change (open_line (mkt cmd inp out err code ins outs) (bs "#stdin") s) with
      (rbind (grab_body inp s) (fun '(buf, line, s, need) => Ok (mkt cmd buf out err code ins outs, line, s, need))). rewrite G. reflexivity.
  - destruct H as (H & U). destruct (grab_body_ok b rest [] s H Hr W ltac:(auto) E) as (line & s' & need & G & W' & X).
    destruct (exact_only _ U) as (m & M & O).
    exists (mkt cmd inp m err code ins outs), line, s', need. split; [|split; [repeat split; auto|auto]].
    change (open_line (mkt cmd inp out err code ins outs) (bs "#stdout") s) with
      (rbind (rbind (grab_body [] s) (fun '(buf, line, s, need) => rbind (exact_of utf8_ok regex mk_comp file_lines buf) (fun m => Ok (m, line, s, need))))
        (fun '(m, line, s, need) => Ok (mkt cmd inp m err code ins outs, line, s, need))). rewrite G. cbn [rbind app]. rewrite M. reflexivity.
  - destruct H as (H & U). destruct (grab_body_ok b rest [] s H Hr W ltac:(auto) E) as (line & s' & need & G & W' & X).
    destruct (exact_only _ U) as (m & M & O).
    exists (mkt cmd inp out m code ins outs), line, s', need. split; [|split; [repeat split; auto|auto]].
    change (open_line (mkt cmd inp out err code ins outs) (bs "#stderr") s) with
      (rbind (rbind (grab_body [] s) (fun '(buf, line, s, need) => rbind (exact_of utf8_ok regex mk_comp file_lines buf) (fun m => Ok (m, line, s, need))))
        (fun '(m, line, s, need) => Ok (mkt cmd inp out m code ins outs, line, s, need))). rewrite G. cbn [rbind app]. rewrite M. reflexivity.
  - exists (mkt cmd inp out err z ins outs). eexists _, s, true. split; [|split; [repeat split; auto|auto]].
    pose proof (status_read z H) as Z.
    change (open_line (mkt cmd inp out err code ins outs) (bs "#status " ++ print_Z z) s) with
      (match strip_prefix (bs "#status" ++ (32%N :: print_Z z)) (bs "#status") with
       | Some x => rbind (to_isize_whole (trim_left x)) (fun z' => Ok (mkt cmd inp out err (as_i32 z') ins outs, bs "#status " ++ print_Z z, s, true))
       | None => Err end).
    rewrite strip_app, trim_left_Z. destruct (to_isize_whole (print_Z z)); cbn [rbind] in *; try discriminate. injection Z as ->. reflexivity.
  - destruct H as (Hn & U & H). destruct (grab_body_ok b rest [] s H Hr W ltac:(auto) E) as (line & s' & need & G & W' & X).
    exists (mkt cmd inp out err code (ins ++ [(n, body_means b)]) outs), line, s', need. split; [|split; [repeat split; auto; cbn; congruence|auto]].
    change (open_line (mkt cmd inp out err code ins outs) (bs "#infile " ++ n) s) with
      (match strip_prefix (bs "#infile" ++ (32%N :: n)) (bs "#infile") with
       | Some x => let name := trim_left x in
           if utf8_ok name then
             rbind (grab_body [] s) (fun '(buf, line, s, need) => Ok (mkt cmd inp out err code (ins ++ [(name, buf)]) outs, line, s, need))
           else Err
       | None => Err end).
    rewrite strip_app, trim_left_name by auto. cbv zeta. rewrite U, G. reflexivity.
  - destruct H as (Hn & U & H & Ub). destruct (grab_body_ok b rest [] s H Hr W ltac:(auto) E) as (line & s' & need & G & W' & X).
    destruct (exact_only _ Ub) as (m & M & O).
    exists (mkt cmd inp out err code ins (outs ++ [(n, m)])), line, s', need. split; [|split; [repeat split; auto|auto]].
    + change (open_line (mkt cmd inp out err code ins outs) (bs "#outfile " ++ n) s) with
      (match strip_prefix (bs "#outfile" ++ (32%N :: n)) (bs "#outfile") with
       | Some x =>
           if utf8_ok x then
             let y := trim_white x in
             match split_once SPC y with
             | Some (name, spec) => rbind (make regex mk_comp file_lines spec) (fun m => Ok (mkt cmd inp out err code ins (outs ++ [(name, m)]), bs "#outfile " ++ n, s, true))
             | None => rbind (grab_body [] s) (fun '(buf, line, s, need) =>
                 rbind (exact_of utf8_ok regex mk_comp file_lines buf) (fun m => Ok (mkt cmd inp out err code ins (outs ++ [(y, m)]), line, s, need)))
             end
           else Err
       | None => Err end).
      rewrite strip_app, U, trim_white_name by auto. cbv zeta. rewrite name_one, G by auto. cbn [rbind app]. rewrite M. reflexivity.
    + cbn. apply Forall2_app; auto.
  - exists (mkt cmd inp out err code ins outs). eexists _, s, true. split; [|split; [repeat split; auto|auto]].
    change (open_line (mkt cmd inp out err code ins outs) (bs "# " ++ x) s) with
      (if starts_with (bs "# " ++ x) (bs "# ") then Ok (mkt cmd inp out err code ins outs, bs "# " ++ x, s, true) else Err).
    assert (S1 : starts_with (bs "# " ++ x) (bs "# ") = true) by (apply starts_with_app; eauto). rewrite S1. reflexivity.
Qed.

(** * The whole file *)
Lemma text_cons sec ss : test_text (sec :: ss) = ended (first_line sec) ++ behind sec ++ test_text ss.
Proof. unfold test_text. cbn [map concat]. rewrite section_split, <- app_assoc. reflexivity. Qed.
Lemma ended_inj h h' r r' : ~ In NL h -> ~ In NL h' -> ended h ++ r = ended h' ++ r' -> h = h' /\ r = r'.
Proof.
  intros H H' E. pose proof (cut_after_line h r H) as C. rewrite E, (cut_after_line h' r' H') in C. injection C as C1 C2.
  unfold ended in C1. apply app_inj_tail in C1 as [C1 _]. auto.
Qed.
Lemma loop_ok : forall ss sec pre fuel t s, Forall (section_ok utf8_ok) (sec :: ss) -> reflects t (asks pre) -> wf_src s ->
  content s = behind sec ++ test_text ss -> List.length (content s) < fuel ->
  exists t', open_loop fuel t (ended (first_line sec)) s = Ok t' /\ reflects t' (asks (pre ++ sec :: ss)).
Proof.
  induction ss as [|sec' ss IH]; intros sec pre fuel t s H R W C F; inversion H as [|? ? Hs Hss]; subst;
    (destruct fuel as [|k]; [lia|]); cbn [TestMain.open_loop]; rewrite pop_ended;
    destruct (section_read pre t sec s _ Hs R (text_head _ _ Hss) W C) as (t' & line & s' & need & O & R' & W' & X); rewrite O; cbn [rbind].
  - destruct X as [[-> X]|(_ & h & Hh & _ & X)]; [|exfalso; destruct (ended_cons h) as (c & y & Ec); rewrite Ec in X; discriminate].
    destruct (read_end s' W' X) as (s2 & RU & _ & _). rewrite RU. eauto.
  - inversion Hss as [|? ? Hs' Hss']; subst. replace (pre ++ sec :: sec' :: ss) with ((pre ++ [sec]) ++ sec' :: ss) by (rewrite <- app_assoc; reflexivity).
    pose proof (first_headed _ _ Hs') as (Hn & _). rewrite text_cons in X, C. destruct X as [[-> X]|(-> & h & Hh & -> & X)].
    + destruct (read_ended s' _ _ W' Hn X) as (s2 & RU & W2 & C2). rewrite RU. destruct (ended_cons (first_line sec')) as (c & y & Ec). rewrite Ec. cbn iota.
      rewrite <- Ec. apply IH; auto. apply (f_equal (@List.length N)) in C, C2. rewrite !app_length, Ec in *. cbn [List.length] in *. lia.
    + apply ended_inj in X as [<- X]; [|auto|apply Hh]. apply IH; auto.
      apply (f_equal (@List.length N)) in C, X. destruct (ended_cons (first_line sec')) as (c & y & Ec). rewrite !app_length, Ec in *. cbn [List.length] in *. lia.
Qed.
Lemma open_ok : forall ss s t, Forall (section_ok utf8_ok) ss -> reflects t (asks []) -> wf_src s -> content s = test_text ss ->
  exists t', open_test t s = Ok t' /\ reflects t' (asks ss).
Proof.
  intros ss s t H R W C. unfold TestMain.open_test. destruct ss as [|sec ss].
  - destruct (read_end s W C) as (s2 & RU & _ & _). rewrite RU. eauto.
  - inversion H as [|? ? Hs Hss]; subst. rewrite text_cons in C. pose proof (first_headed _ _ Hs) as (Hn & _).
    destruct (read_ended s _ _ W Hn C) as (s2 & RU & W2 & C2). rewrite RU. destruct (ended_cons (first_line sec)) as (c & y & Ec). rewrite Ec. cbn iota.
    rewrite <- Ec. apply (loop_ok ss sec [] _ t s2 H R W2 C2). lia.
Qed.

(** * The command *)
Lemma replace_word tmp w rest : Forall part_ok w -> replace_tmp tmp 0 (word_text w ++ rest) = word_means tmp w ++ replace_tmp tmp 0 rest.
Proof.
  unfold word_text, word_means. induction 1 as [|p w Hp F IH]; [reflexivity|]. cbn [map concat]. rewrite <- !app_assoc, <- IH.
  destruct p as [b|]; cbn [part_text part_means part_ok] in *.
  - clear - Hp. induction Hp as [|c b Hc F IH]; [reflexivity|]. cbn [app replace_tmp]. change (bs "$TMP") with [36; 84; 77; 80]%N. cbn [starts_with].
    destruct (N.eqb_spec 36 c) as [<-|_]; [lia|]. cbn [andb]. rewrite IH. reflexivity.
  - reflexivity.
Qed.
Lemma split_word w rest : Forall (fun c => (32 < c)%N) w -> split_blank (w ++ 32%N :: rest) = w :: split_blank rest.
Proof.
  induction 1 as [|c w Hc F IH]; [reflexivity|]. cbn [app split_blank]. destruct (N.leb_spec c 32); [lia|]. rewrite IH. reflexivity.
Qed.
Lemma split_last w : Forall (fun c => (32 < c)%N) w -> split_blank w = [w].
Proof. induction 1 as [|c w Hc F IH]; [reflexivity|]. cbn [split_blank]. destruct (N.leb_spec c 32); [lia|]. rewrite IH. reflexivity. Qed.
Lemma means_solid tmp w : Forall (fun c => (32 < c)%N) tmp -> Forall part_ok w -> Forall (fun c => (32 < c)%N) (word_means tmp w).
Proof.
  intros T. unfold word_means. induction 1 as [|p w Hp F IH]; cbn [map concat]; [constructor|]. apply Forall_app; split; auto.
  destruct p; cbn [part_means part_ok] in *; auto. eapply Forall_impl; [|apply Hp]. cbn. intros ? []; auto.
Qed.
Lemma command_words tmp ws : Forall (fun c => (32 < c)%N) tmp -> Forall word_ok ws -> ws <> [] ->
  split_blank (replace_tmp tmp 0 (spaced (map word_text ws))) = map (word_means tmp) ws.
Proof.
  intros T F. induction F as [|w ws (Hw & _) F IH]; [congruence|]. intros _. destruct ws as [|w' ws].
  - cbn [map spaced]. rewrite <- (app_nil_r (word_text w)), replace_word by auto. cbn [replace_tmp]. rewrite app_nil_r.
    apply split_last. apply means_solid; auto.
  - change (spaced (map word_text (w :: w' :: ws))) with (word_text w ++ 32%N :: spaced (map word_text (w' :: ws))).
    rewrite replace_word by auto.
    change (replace_tmp tmp 0 (32%N :: spaced (map word_text (w' :: ws)))) with (32%N :: replace_tmp tmp 0 (spaced (map word_text (w' :: ws)))).
    rewrite split_word by (apply means_solid; auto). rewrite IH by discriminate. reflexivity.
Qed.

(** * The files *)
Lemma find_in n c d : find_file n d = Some c -> In (n, c) d.
Proof.
  induction d as [|(x, y) d IH]; cbn [find_file]; [discriminate|]. destruct (beq x n) eqn:E; [|right; auto].
  apply beq_eq in E. intros [= ->]. left. congruence.
Qed.
Lemma find_of n c d : NoDup (names d) -> In (n, c) d -> find_file n d = Some c.
Proof.
  unfold names. induction d as [|(x, y) d IH]; cbn [find_file map]; intros N I; [destruct I|destruct I as [I|I]; inversion N as [|? ? Nx Nd]; subst].
  - injection I as -> ->. rewrite beq_refl. reflexivity.
  - destruct (beq x n) eqn:E; auto. apply beq_eq in E. subst. destruct Nx. apply in_map_iff. exists (n, c). auto.
Qed.
Lemma find_none n d : ~ In n (names d) -> find_file n d = None.
Proof.
  unfold names. induction d as [|(x, y) d IH]; cbn [find_file map]; intros H; auto. destruct (beq x n) eqn:E.
  - apply beq_eq in E. destruct H. left; auto.
  - apply IH. intros I; apply H; right; auto.
Qed.
Lemma find_some n d : In n (names d) -> exists c, find_file n d = Some c.
Proof.
  unfold names. induction d as [|(x, y) d IH]; cbn [find_file map]; intros H; [destruct H|]. destruct (beq x n) eqn:E; eauto.
  destruct H as [H|H]; auto. cbn in H. subst. rewrite beq_refl in E. discriminate.
Qed.
Lemma put_new n f d : ~ In n (names d) -> put_file n f d = d ++ [(n, f None)].
Proof.
  unfold names. induction d as [|(x, y) d IH]; cbn [put_file map]; intros H; auto. destruct (beq x n) eqn:E.
  - apply beq_eq in E. destruct H. left; auto.
  - rewrite IH; auto. intros I; apply H; right; auto.
Qed.
Lemma plain_iff n : plain_name n = true <-> file_name n.
Proof.
  unfold plain_name, file_name. rewrite !andb_true_iff, !negb_true_iff. split.
  - intros (((A & B) & C) & D). repeat split.
    + intros ->. discriminate.
    + intros I. assert (X : existsb (N.eqb 47) n = true) by (apply existsb_exists; exists 47%N; auto). congruence.
    + intros ->. discriminate.
    + intros ->. discriminate.
  - intros (A & B & C & D). repeat split.
    + destruct (beq n []) eqn:E; auto. apply beq_eq in E. congruence.
    + destruct (existsb (N.eqb 47) n) eqn:E; auto. apply existsb_exists in E as (x & I & E). apply N.eqb_eq in E. congruence.
    + destruct (beq n (bs ".")) eqn:E; auto. apply beq_eq in E. congruence.
    + destruct (beq n (bs "..")) eqn:E; auto. apply beq_eq in E. congruence.
Qed.
Lemma write_new : forall ins d, NoDup (map fst ins) -> (forall n, In n (map fst ins) -> ~ In n (names d)) -> Forall file_name (map fst ins) ->
  write_in ins d = (d ++ ins, true).
Proof.
  induction ins as [|(n, c) ins IH]; intros d N A P; cbn [write_in map] in *; [rewrite app_nil_r; reflexivity|].
  inversion N as [|? ? Nx Nd]; subst. inversion P as [|? ? Px Pd]; subst. apply plain_iff in Px. cbn [fst] in *. rewrite Px.
  rewrite put_new by (apply A; left; auto). rewrite IH; auto.
  - rewrite <- app_assoc. reflexivity.
  - intros x I J. unfold names in J. rewrite map_app in J. apply in_app_or in J as [J|[J|[]]]; [apply (A x); [right|]; auto|]. cbn in J. congruence.
Qed.

(** What is left without some names. *)
Definition rm (ns : list bytes) (d : dir) : dir := filter (fun p => negb (existsb (beq (fst p)) ns)) d.
Lemma exists_in n ns : existsb (beq n) ns = true <-> In n ns.
Proof.
  rewrite existsb_exists. split.
  - intros (x & I & E). apply beq_eq in E. congruence.
  - intros I. exists n. split; auto. apply beq_refl.
Qed.
Lemma in_rm ns d n : In n (names (rm ns d)) <-> In n (names d) /\ ~ In n ns.
Proof.
  unfold names, rm. rewrite !in_map_iff. split.
  - intros ((x, c) & <- & I). apply filter_In in I as (I & E). split; [exists (x, c); auto|]. intros J. apply exists_in in J. cbn [fst] in *. rewrite J in E. discriminate.
  - intros (((x, c) & <- & I) & H). exists (x, c). split; auto. apply filter_In. split; auto. cbn [fst] in *.
    destruct (existsb (beq x) ns) eqn:E; auto. apply exists_in in E. destruct H; auto.
Qed.
Lemma in_rm_pair ns d n c : In (n, c) (rm ns d) <-> In (n, c) d /\ ~ In n ns.
Proof.
  unfold rm. rewrite filter_In. cbn [fst]. split; intros (I & E); split; auto.
  - intros J. apply exists_in in J. rewrite J in E. discriminate.
  - destruct (existsb (beq n) ns) eqn:X; auto. apply exists_in in X. destruct E; auto.
Qed.
Lemma nodup_rm ns d : NoDup (names d) -> NoDup (names (rm ns d)).
Proof.
  unfold names, rm. induction d as [|(x, c) d IH]; cbn [map filter]; intros N; auto. inversion N as [|? ? Nx Nd]; subst.
  destruct (negb _); auto. cbn [map]. constructor; auto. intros I. apply Nx. clear - I. apply in_map_iff in I as (p & E & I). apply filter_In in I as [I _].
  apply in_map_iff. exists p. auto.
Qed.
Lemma rm_rm a b d : rm b (rm a d) = rm (a ++ b) d.
Proof.
  unfold rm. induction d as [|p d IH]; [reflexivity|]. cbn [filter]. rewrite existsb_app. destruct (existsb (beq (fst p)) a); cbn [negb orb filter]; auto.
  destruct (existsb (beq (fst p)) b); cbn [negb]; auto. f_equal. auto.
Qed.
Lemma rm_nil d : rm [] d = d. Proof. unfold rm. induction d as [|p d IH]; [reflexivity|]. cbn [filter existsb negb]. f_equal. auto. Qed.
Lemma rm_none n d : ~ In n (names d) -> rm [n] d = d.
Proof.
  unfold rm, names. induction d as [|(x, c) d IH]; intros H; [reflexivity|]. cbn [filter existsb map fst] in *. destruct (beq x n) eqn:E; cbn [orb negb].
  - apply beq_eq in E. destruct H. left; auto.
  - f_equal. apply IH. intros I; apply H; right; auto.
Qed.
Lemma delete_ok n d : NoDup (names d) -> In n (names d) -> delete_file n d = Some (rm [n] d).
Proof.
  induction d as [|(x, c) d IH]; intros N I; [destruct I|]. cbn [delete_file]. unfold names in N, I. cbn [map fst] in N, I. inversion N as [|? ? Nx Nd]; subst.
  destruct (beq x n) eqn:E.
  - apply beq_eq in E. subst. unfold rm. cbn [filter fst existsb]. rewrite beq_refl. cbn. f_equal. symmetry. apply (rm_none n d). auto.
  - destruct I as [I|I]; [subst; rewrite beq_refl in E; discriminate|]. rewrite (IH Nd I). unfold rm. cbn [filter fst existsb]. rewrite E. reflexivity.
Qed.
Lemma delete_no n d : ~ In n (names d) -> delete_file n d = None.
Proof.
  induction d as [|(x, c) d IH]; intros H; [reflexivity|]. cbn [delete_file]. unfold names in H. cbn [map fst] in H. destruct (beq x n) eqn:E.
  - apply beq_eq in E. destruct H. left; auto.
  - rewrite IH; auto. intros I; apply H; right; auto.
Qed.
Lemma filter_names n d : filter (fun x => negb (beq x n)) (names d) = names (rm [n] d).
Proof.
  unfold names, rm. induction d as [|(x, c) d IH]; [reflexivity|]. cbn [map filter fst existsb]. destruct (beq x n); cbn [negb orb map fst]; [|f_equal]; auto.
Qed.
Lemma nuke_ok n d : NoDup (names d) -> In n (names d) -> nuke (names d) n false d = Some (names (rm [n] d), rm [n] d).
Proof. intros N I. unfold nuke. rewrite delete_ok, filter_names by auto. reflexivity. Qed.
Lemma nuke_all_ok : forall ns d, NoDup (names d) -> NoDup ns -> incl ns (names d) -> nuke_all (names d) ns false d = (names (rm ns d), rm ns d, true).
Proof.
  induction ns as [|n ns IH]; intros d N Nn I; cbn [nuke_all]; [rewrite rm_nil; reflexivity|]. inversion Nn; subst.
  rewrite nuke_ok; auto; [|apply I; left; auto]. rewrite IH; auto.
  - rewrite rm_rm. reflexivity.
  - apply nodup_rm; auto.
  - intros x J. apply in_rm. split; [apply I; right; auto|]. intros [K|[]]. congruence.
Qed.
Lemma in_dec_b (n : bytes) l : In n l \/ ~ In n l.
Proof. destruct (existsb (beq n) l) eqn:E; [left; apply exists_in; auto|right; intros I; apply exists_in in I; congruence]. Qed.
Lemma nuke_all_bad : forall ns d, NoDup (names d) -> NoDup ns -> ~ incl ns (names d) -> exists v d', nuke_all (names d) ns false d = (v, d', false).
Proof.
  induction ns as [|n ns IH]; intros d N Nn I; cbn [nuke_all]; [destruct I; intros ? []|]. inversion Nn; subst.
  destruct (in_dec_b n (names d)) as [J|J].
  - rewrite nuke_ok; auto. apply IH; auto; [apply nodup_rm; auto|]. intros K. apply I. intros x [<-|X]; auto. apply K in X. apply in_rm in X. apply X.
  - unfold nuke. rewrite delete_no by auto. eauto.
Qed.
Lemma delete_all_ok : forall ns d, NoDup (names d) -> NoDup ns -> incl ns (names d) -> delete_all ns d = (rm ns d, true).
Proof.
  induction ns as [|n ns IH]; intros d N Nn I; cbn [delete_all]; [rewrite rm_nil; reflexivity|]. inversion Nn; subst.
  rewrite delete_ok; auto; [|apply I; left; auto]. rewrite IH; auto.
  - rewrite rm_rm. reflexivity.
  - apply nodup_rm; auto.
  - intros x J. apply in_rm. split; [apply I; right; auto|]. intros [K|[]]. congruence.
Qed.
Lemma rm_all d : rm (names d) d = [].
Proof.
  destruct (rm (names d) d) as [|p r] eqn:E; auto. exfalso. assert (I : In (fst p) (names (rm (names d) d))) by (rewrite E; left; reflexivity).
  apply in_rm in I as [I J]. auto.
Qed.

(** * The files written *)
Notation check_out := (check_out utf8_ok exp10 gunzip).
Notation run_test := (run_test utf8_ok lossy exp10 gunzip exec).
Definition hit (d : dir) (w : bytes * bytes) : bool := match find_file (fst w) d with Some c => beq (snd w) c | None => false end.
Lemma find_rm n x d : x <> n -> find_file x (rm [n] d) = find_file x d.
Proof.
  intros H. unfold rm. induction d as [|(y, c) d IH]; [reflexivity|]. cbn [filter fst existsb find_file]. destruct (beq y n) eqn:E; cbn [orb negb find_file].
  - apply beq_eq in E. subst. destruct (beq n x) eqn:F; auto. apply beq_eq in F. congruence.
  - destruct (beq y x); auto.
Qed.
Definition clear_of (wants : list (bytes * bytes)) (d : dir) : Prop :=
  forall n c, In n (map fst wants) -> In (n, c) d -> firstn 3 c <> [31; 139; 8]%N.
Lemma decoded_plain c : firstn 3 c <> [31; 139; 8]%N -> decoded gunzip c = Ok c.
Proof.
  intros H. unfold decoded. destruct (starts_with c [31; 139; 8]%N) eqn:E; auto. apply starts_with_app in E as (r & ->). destruct H. reflexivity.
Qed.
Notation same_out := (Forall2 (fun (x : bytes * matcher) (y : bytes * bytes) => fst x = fst y /\ only (snd x) (snd y))).
Lemma check_ok : forall outs wants failed d, same_out outs wants -> NoDup (names d) -> NoDup (map fst wants) -> incl (map fst wants) (names d) ->
  Forall file_name (map fst wants) -> clear_of wants d ->
  check_out outs failed (names d) false d = (Ok (failed || negb (forallb (hit d) wants), names (rm (map fst wants) d)), rm (map fst wants) d).
Proof.
  intros outs wants failed d S. revert failed d. induction S as [|(n, m) (n', w) outs wants (E & O) S IH]; intros failed d N Nw I F C; cbn [TestMain.check_out map forallb fst snd] in *.
  - rewrite orb_false_r, rm_nil. reflexivity.
  - subst n'. inversion Nw as [|? ? Nx Nr]; subst. inversion F as [|? ? Fx Fr]; subst. apply plain_iff in Fx. rewrite Fx.
    assert (In n (names d)) as J by (apply I; left; auto). destruct (find_some n d J) as (c & Ec). rewrite Ec. cbn iota beta.
    rewrite decoded_plain by (apply (C n); [left; reflexivity|apply find_in; auto]). cbn [rbind]. rewrite (O c). cbn [rbind]. rewrite nuke_ok by auto.
    assert (Q : forall x, In x wants -> fst x <> n) by (intros x Ix Ex; apply Nx; rewrite <- Ex; apply in_map; auto).
    rewrite IH; auto.
    + rewrite rm_rm. cbn [app]. f_equal. f_equal. f_equal. unfold hit at 2. cbn [fst snd]. rewrite Ec.
      assert (X : forallb (hit (rm [n] d)) wants = forallb (hit d) wants).
      { clear - Q. induction wants as [|x wants IHw]; [reflexivity|]. cbn [forallb]. rewrite IHw by (intros; apply Q; right; auto).
        unfold hit at 1 3. rewrite find_rm by (apply Q; left; auto). reflexivity. }
      rewrite X. destruct failed, (beq w c), (forallb (hit d) wants); reflexivity.
    + apply nodup_rm; auto.
    + intros x Ix. apply in_rm. split; [apply I; right; auto|]. intros [K|[]]. subst. auto.
    + intros x y Ix Iy. apply in_rm_pair in Iy as [Iy _]. apply (C x); [right; auto|auto].
Qed.
Lemma check_bad : forall outs wants failed d, same_out outs wants -> NoDup (names d) -> NoDup (map fst wants) -> ~ incl (map fst wants) (names d) ->
  clear_of wants d -> exists d', check_out outs failed (names d) false d = (Err, d').
Proof.
  intros outs wants failed d S. revert failed d. induction S as [|(n, m) (n', w) outs wants (E & O) S IH]; intros failed d N Nw I C; cbn [TestMain.check_out map forallb fst snd] in *.
  - destruct I. intros ? [].
  - subst n'. inversion Nw as [|? ? Nx Nr]; subst. destruct (in_dec_b n (names d)) as [J|J].
    + assert (K : exists f, (match (if plain_name n then find_file n d else None) with
             | None => Ok true
             | Some c => rbind (decoded gunzip c) (fun body => rbind (safe m body) (fun ok => Ok (failed || negb ok)))
             end) = Ok f).
      { destruct (plain_name n); [|eauto]. destruct (find_some n d J) as (c & Ec). rewrite Ec.
        rewrite decoded_plain by (apply (C n); [left; reflexivity|apply find_in; auto]). cbn [rbind]. rewrite (O c). cbn [rbind]. eauto. }
      destruct K as (f & ->). rewrite nuke_ok by auto. apply IH; auto.
      * apply nodup_rm; auto.
      * intros K. apply I. intros x [<-|X]; auto. apply K in X. apply in_rm in X. apply X.
      * intros x y Ix Iy. apply in_rm_pair in Iy as [Iy _]. apply (C x); [right; auto|auto].
    + rewrite (find_none n d J). destruct (plain_name n); unfold nuke; rewrite delete_no by auto; eauto.
Qed.

(** * Running a test *)
Definition code_ok (c : option Z) (z : Z) : bool := match c with Some x => (x =? z)%Z | None => false end.
Definition verdict (a : asked) (x : done) : bool :=
  code_ok (d_code x) (a_code a) && beq (a_stderr a) (d_err x) && beq (a_stdout a) (d_out x) && forallb (hit (d_files x)) (a_out a) &&
  match rm (known a) (d_files x) with [] => true | _ => false end.
Lemma hit_rm ns d wants : (forall x, In x wants -> ~ In (fst x) ns) -> forallb (hit (rm ns d)) wants = forallb (hit d) wants.
Proof.
  intros H. induction wants as [|x wants IH]; [reflexivity|]. cbn [forallb]. rewrite IH by (intros; apply H; right; auto). f_equal.
  unfold hit. specialize (H x ltac:(left; reflexivity)).
  assert (E : find_file (fst x) (rm ns d) = find_file (fst x) d).
  { clear IH. unfold rm. induction d as [|(y, c) d IH]; [reflexivity|]. cbn [filter fst find_file]. destruct (existsb (beq y) ns) eqn:E; cbn [negb find_file].
    - apply exists_in in E. destruct (beq y (fst x)) eqn:F; auto. apply beq_eq in F. subst. destruct H; auto.
    - destruct (beq y (fst x)); auto. }
  rewrite E. reflexivity.
Qed.
Lemma nodup_app_l {A} (l r : list A) : NoDup (l ++ r) -> NoDup l.
Proof. induction l as [|x l IH]; intros H; [constructor|]. inversion H; subst. constructor; auto. intros I. apply H2. apply in_or_app; auto. Qed.
Lemma nodup_app_r {A} (l r : list A) : NoDup (l ++ r) -> NoDup r.
Proof. induction l as [|x l IH]; intros H; auto. inversion H; auto. Qed.
Lemma nodup_app_x {A} (l r : list A) x : NoDup (l ++ r) -> In x l -> ~ In x r.
Proof.
  induction l as [|y l IH]; intros H I J; [destruct I|]. cbn in H. inversion H; subst. destruct I as [->|I]; [|apply IH; auto]. apply H2. apply in_or_app; auto.
Qed.
Lemma run_ok cf t a x : cf_keep cf = false -> reflects t a -> apart a -> Forall word_ok (a_words a) -> Forall (fun c => (32 < c)%N) (cf_tmp cf) ->
  lossy (t_cmd t) = t_cmd t -> ran exec (cf_bin cf) (cf_tmp cf) a [] x -> NoDup (names (d_files x)) -> not_packed a x ->
  (incl (known a) (names (d_files x)) -> run_test cf t [] = (Ok (verdict a x), [])) /\
  (~ incl (known a) (names (d_files x)) -> exists d', run_test cf t [] = (Err, d')).
Proof.
  intros K R (AN & AF) HW T L (w0 & ws & Ew & EX) N P. destruct R as (R1 & R2 & R3 & R4 & R5 & R6 & R7).
  set (ins := map fst (a_in a)) in *. set (outs := map fst (a_out a)) in *.
  assert (AI : NoDup (bs "stdin" :: ins)) by (apply (nodup_app_l _ outs); auto).
  assert (AO : NoDup outs) by (apply (nodup_app_r (bs "stdin" :: ins)); auto).
  apply Forall_app in AF as [FI FO].
  assert (RUN : run_test cf t [] =
    let '(v, d, ok) := nuke_all (names (d_files x)) (bs "stdin" :: ins) false (d_files x) in
    if negb ok then (Err, d) else
    match check_out (t_out t) (negb (code_ok (d_code x) (a_code a)) || negb (beq (a_stderr a) (d_err x)) || negb (beq (a_stdout a) (d_out x))) v false d with
    | (Ok (failed, v), d) => match v with [] => (Ok (negb failed), d) | _ => let '(d, ok) := delete_all v d in (if ok then Ok false else Err, d) end
    | (Err, d) => (Err, d)
    | (Panic, d) => (Panic, d)
    end).
  { unfold TestMain.run_test. rewrite K, L, R1, R2, R5, R6.
    rewrite (write_new (a_in a) []); [|inversion AI; auto|intros ? _ []|auto]. cbn [negb app].
    rewrite put_new by (unfold names; inversion AI; auto). rewrite command_words; auto; [|rewrite Ew; discriminate]. rewrite Ew. cbn [map].
    cbn [app] in EX. rewrite EX. fold ins. rewrite (R3 (d_out x)), (R4 (d_err x)). unfold code_ok.
    destruct (nuke_all (names (d_files x)) (bs "stdin" :: ins) false (d_files x)) as [[v d] ok]. destruct ok; cbn [negb]; auto.
    replace (match d_code x with Some c => negb (c =? a_code a)%Z | None => true end) with (negb match d_code x with Some c => (c =? a_code a)%Z | None => false end)
      by (destruct (d_code x); reflexivity). reflexivity. }
  assert (SPLIT : forall i, In i (known a) <-> In i (bs "stdin" :: ins) \/ In i outs).
  { intros i. unfold known. fold ins outs. split; [intros I; apply (in_app_or (bs "stdin" :: ins) outs i) in I; auto|intros I; apply (in_or_app (bs "stdin" :: ins) outs i); auto]. }
  assert (CL : clear_of (a_out a) (rm (bs "stdin" :: ins) (d_files x))).
  { intros n c I J. apply in_rm_pair in J as [J _]. apply (P n); auto. }
  assert (DIS : forall i, In i outs -> ~ In i (bs "stdin" :: ins)).
  { intros i I J. eapply (nodup_app_x (bs "stdin" :: ins) outs); eauto. }
  split; intros H; rewrite RUN; clear RUN.
  - assert (H1 : incl (bs "stdin" :: ins) (names (d_files x))) by (intros i I; apply H, SPLIT; auto).
    assert (H2 : incl outs (names (rm (bs "stdin" :: ins) (d_files x)))) by (intros i I; apply in_rm; split; [apply H, SPLIT; auto|apply DIS; auto]).
    rewrite nuke_all_ok by auto. cbn [negb].
    rewrite (check_ok (t_out t) (a_out a)); auto; [|apply nodup_rm; auto]. fold outs. rewrite rm_rm.
    change ((bs "stdin" :: ins) ++ outs) with (known a). rewrite hit_rm by (intros y Iy; apply DIS, in_map; auto). unfold verdict.
    destruct (rm (known a) (d_files x)) as [|p r] eqn:E.
    + cbn [names map]. rewrite andb_true_r, !negb_orb, !negb_involutive. reflexivity.
    + assert (ND : NoDup (names (p :: r))) by (rewrite <- E; apply nodup_rm; auto).
      assert (Dl : delete_all (names (p :: r)) (p :: r) = ([], true)).
      { rewrite delete_all_ok; auto; [|apply incl_refl]. rewrite rm_all. reflexivity. }
      change (names (p :: r)) with (fst p :: names r) in *. cbn iota. rewrite Dl, andb_false_r. reflexivity.
  - assert (INC : incl (bs "stdin" :: ins) (names (d_files x)) \/ ~ incl (bs "stdin" :: ins) (names (d_files x))).
    { clear. generalize (bs "stdin" :: ins) (names (d_files x)). intros l m. induction l as [|y l [IH|IH]].
      - left. intros ? [].
      - destruct (in_dec_b y m); [left; intros z [<-|Z]; auto|right; intros I; apply H, I; left; auto].
      - right. intros I. apply IH. intros z Z. apply I. right; auto. }
    destruct INC as [INC|INC].
    + rewrite nuke_all_ok by auto. cbn [negb].
      destruct (check_bad (t_out t) (a_out a) (negb (code_ok (d_code x) (a_code a)) || negb (beq (a_stderr a) (d_err x)) || negb (beq (a_stdout a) (d_out x)))
        (rm (bs "stdin" :: ins) (d_files x))) as (d' & X); auto; [apply nodup_rm; auto| |rewrite X; eauto].
      intros I. apply H. intros i Ii. apply SPLIT in Ii as [Ii|Ii]; auto. apply I in Ii. apply in_rm in Ii. apply Ii.
    + destruct (nuke_all_bad (bs "stdin" :: ins) (d_files x)) as (v & d' & X); auto. rewrite X. cbn [negb]. eauto.
Qed.
Lemma verdict_iff a x : NoDup (names (d_files x)) -> incl (known a) (names (d_files x)) -> (verdict a x = true <-> answers a x /\ nothing_else a x).
Proof.
  intros N I. unfold verdict, answers, nothing_else. rewrite !andb_true_iff, !beq_eq, forallb_forall. split.
  - intros ((((A & B) & C) & D) & E). repeat split; auto.
    + unfold code_ok in A. destruct (d_code x); [apply Z.eqb_eq in A; congruence|discriminate].
    + intros n c J. specialize (D _ J). unfold hit in D. cbn [fst snd] in D. destruct (find_file n (d_files x)) eqn:F; [|discriminate].
      apply beq_eq in D. subst. apply find_in; auto.
    + intros J. destruct (in_dec_b n (known a)) as [K|K]; auto. exfalso.
      assert (X : In n (names (rm (known a) (d_files x)))) by (apply in_rm; auto). destruct (rm (known a) (d_files x)); [destruct X|discriminate].
  - intros ((A & B & C & D) & E). repeat split; auto.
    + rewrite A. unfold code_ok. apply Z.eqb_refl.
    + intros (n, c) J. unfold hit. cbn [fst snd]. rewrite (find_of n c) by auto. apply beq_refl.
    + destruct (rm (known a) (d_files x)) as [|p r] eqn:F; auto. exfalso.
      assert (X : In (fst p) (names (rm (known a) (d_files x)))) by (rewrite F; left; reflexivity). apply in_rm in X as [X Y]. apply Y, E. exact X.
Qed.

(** With a directory which is kept. *)
Lemma check_keep : forall outs wants failed v d, same_out outs wants -> Forall file_name (map fst wants) -> clear_of wants d ->
  exists v', check_out outs failed v true d = (Ok (failed || negb (forallb (hit d) wants), v'), d).
Proof.
  intros outs wants failed v d S. revert failed v. induction S as [|(n, m) (n', w) outs wants (E & O) S IH]; intros failed v F C; cbn [TestMain.check_out map forallb fst snd] in *.
  - rewrite orb_false_r. eauto.
  - subst n'. inversion F as [|? ? Fx Fr]; subst. apply plain_iff in Fx. rewrite Fx. unfold nuke, hit at 1. cbn [fst snd].
    assert (C' : clear_of wants d) by (intros x y Ix Iy; apply (C x); [right; auto|auto]).
    destruct (find_file n d) as [c|] eqn:Ec.
    + rewrite decoded_plain by (apply (C n); [left; reflexivity|apply find_in; auto]). cbn [rbind]. rewrite (O c). cbn [rbind].
      destruct (IH (failed || negb (beq w c)) (filter (fun x => negb (beq x n)) v) Fr C') as (v' & ->). exists v'. f_equal. f_equal. f_equal.
      destruct failed, (beq w c), (forallb (hit d) wants); reflexivity.
    + destruct (IH true (filter (fun x => negb (beq x n)) v) Fr C') as (v' & ->). exists v'. f_equal. f_equal. f_equal. destruct failed; reflexivity.
Qed.
Lemma nuke_keep : forall ns v d, exists v', nuke_all v ns true d = (v', d, true).
Proof. induction ns as [|n ns IH]; intros v d; cbn [nuke_all]; [eauto|]. unfold nuke. apply IH. Qed.
Lemma run_kept cf t a d0 x : cf_keep cf = true -> reflects t a -> apart a -> Forall word_ok (a_words a) -> Forall (fun c => (32 < c)%N) (cf_tmp cf) ->
  lossy (t_cmd t) = t_cmd t -> ran exec (cf_bin cf) (cf_tmp cf) a d0 x -> (forall n, In n (bs "stdin" :: map fst (a_in a)) -> ~ In n (names d0)) -> not_packed a x ->
  fst (run_test cf t d0) = Ok (code_ok (d_code x) (a_code a) && beq (a_stderr a) (d_err x) && beq (a_stdout a) (d_out x) && forallb (hit (d_files x)) (a_out a)).
Proof.
  intros K R (AN & AF) HW T L (w0 & ws & Ew & EX) D P. destruct R as (R1 & R2 & R3 & R4 & R5 & R6 & R7).
  set (ins := map fst (a_in a)) in *. set (outs := map fst (a_out a)) in *.
  assert (AI : NoDup (bs "stdin" :: ins)) by (apply (nodup_app_l _ outs); auto).
  apply Forall_app in AF as [FI FO]. unfold TestMain.run_test. rewrite K, L, R1, R2, R5, R6.
  rewrite (write_new (a_in a) d0); [|inversion AI; auto|intros n I; apply D; right; auto|auto]. cbn [negb app].
  rewrite put_new.
  2: { unfold names. rewrite map_app. fold ins. intros I. apply in_app_or in I as [I|I]; [revert I; apply D; left; auto|inversion AI; auto]. }
  rewrite command_words; auto; [|rewrite Ew; discriminate]. rewrite Ew. cbn [map]. rewrite app_assoc in EX. rewrite EX. fold ins.
  destruct (nuke_keep (bs "stdin" :: ins) (names (d_files x)) (d_files x)) as (v & ->). cbn [negb]. rewrite (R3 (d_out x)), (R4 (d_err x)).
  destruct (check_keep (t_out t) (a_out a)
    (match d_code x with Some c => negb (c =? a_code a)%Z | None => true end || negb (beq (a_stderr a) (d_err x)) || negb (beq (a_stdout a) (d_out x))) v (d_files x)) as (v' & ->); auto.
  cbn [fst]. f_equal. rewrite !negb_orb, !negb_involutive. unfold code_ok. destruct (d_code x); [rewrite negb_involutive|]; reflexivity.
Qed.
Lemma kept_iff a x : NoDup (names (d_files x)) ->
  (code_ok (d_code x) (a_code a) && beq (a_stderr a) (d_err x) && beq (a_stdout a) (d_out x) && forallb (hit (d_files x)) (a_out a) = true <-> answers a x).
Proof.
  intros N. unfold answers. rewrite !andb_true_iff, !beq_eq, forallb_forall. split.
  - intros (((A & B) & C) & D). repeat split; auto.
    + unfold code_ok in A. destruct (d_code x); [apply Z.eqb_eq in A; congruence|discriminate].
    + intros n c J. specialize (D _ J). unfold hit in D. cbn [fst snd] in D. destruct (find_file n (d_files x)) eqn:F; [|discriminate].
      apply beq_eq in D. subst. apply find_in; auto.
  - intros (A & B & C & D). repeat split; auto.
    + rewrite A. unfold code_ok. apply Z.eqb_refl.
    + intros (n, c) J. unfold hit. cbn [fst snd]. rewrite (find_of n c) by auto. apply beq_refl.
Qed.

(** * A test file *)
Notation do_run := (do_run utf8_ok lossy exp10 regex mk_comp file_lines gunzip exec).
Lemma words_ok ss : Forall (section_ok utf8_ok) ss -> Forall word_ok (a_words (asks ss)).
Proof.
  cbn [asks a_words]. induction ss as [|s ss IH] using rev_ind; intros H; [constructor|]. apply Forall_app in H as [H Hs]. rewrite last_of_snoc.
  inversion Hs as [|? ? X _]; subst. destruct s; auto. apply X.
Qed.
Lemma opened_test ss s : Forall (section_ok utf8_ok) ss -> wf_src s -> content s = test_text ss ->
  exists t, rbind (test_new regex mk_comp file_lines) (fun t => open_test t s) = Ok t /\ reflects t (asks ss).
Proof.
  intros H W C. destruct new_reflects as (t0 & E & R). destruct (open_ok ss s t0 H R W C) as (t & O & R'). exists t. rewrite E. cbn [rbind]. auto.
Qed.
Lemma fair_run cf ss s x : cf_keep cf = false -> Forall (fun c => (32 < c)%N) (cf_tmp cf) -> wf_src s -> content s = test_text ss ->
  fair utf8_ok lossy exec (cf_bin cf) (cf_tmp cf) ss [] x ->
  (tidy ss x -> do_run cf (Some s) [] = (Ok (verdict (asks ss) x), [])) /\ (~ tidy ss x -> exists d', do_run cf (Some s) [] = (Err, d')).
Proof.
  intros K T W C (H & L & A & R & N & P). destruct (opened_test ss s H W C) as (t & O & Rt). unfold TestMain.do_run. rewrite O.
  apply run_ok; auto; [apply words_ok; auto|]. destruct Rt as (-> & _). auto.
Qed.
Lemma fair_kept cf ss s d0 x : cf_keep cf = true -> Forall (fun c => (32 < c)%N) (cf_tmp cf) -> wf_src s -> content s = test_text ss ->
  fair utf8_ok lossy exec (cf_bin cf) (cf_tmp cf) ss d0 x -> (forall n, In n (bs "stdin" :: map fst (a_in (asks ss))) -> ~ In n (names d0)) ->
  (fst (do_run cf (Some s) d0) = Ok true <-> answers (asks ss) x).
Proof.
  intros K T W C (H & L & A & R & N & P) D. destruct (opened_test ss s H W C) as (t & O & Rt). unfold TestMain.do_run. rewrite O.
  rewrite (run_kept cf t (asks ss) d0 x); auto; [|apply words_ok; auto|destruct Rt as (-> & _); auto].
  rewrite <- (kept_iff (asks ss) x N). split; [intros X; injection X as X; auto|intros ->; auto].
Qed.
Lemma tidy_dec ss x : tidy ss x \/ ~ tidy ss x.
Proof.
  unfold tidy. generalize (known (asks ss)) (map fst (d_files x)). intros l m. induction l as [|y l [IH|IH]].
  - left. intros ? [].
  - destruct (in_dec_b y m); [left; intros z [<-|Z]; auto|right; intros I; apply H, I; left; auto].
  - right. intros I. apply IH. intros z Z. apply I. right; auto.
Qed.
Lemma fair_verdict cf ss s x : cf_keep cf = false -> Forall (fun c => (32 < c)%N) (cf_tmp cf) -> wf_src s -> content s = test_text ss ->
  fair utf8_ok lossy exec (cf_bin cf) (cf_tmp cf) ss [] x -> (fst (do_run cf (Some s) []) = Ok true <-> answers (asks ss) x /\ nothing_else (asks ss) x).
Proof.
  intros K T W C F. destruct (fair_run cf ss s x K T W C F) as (A & B). destruct F as (_ & _ & _ & _ & N & _). destruct (tidy_dec ss x) as [Y|Y].
  - rewrite (A Y). cbn [fst]. rewrite <- (verdict_iff (asks ss) x N Y). split; [intros X; injection X as X; auto|intros ->; auto].
  - destruct (B Y) as (d' & ->). cbn [fst]. split; [discriminate|]. intros (_ & E). destruct Y. intros n I. apply E. auto.
Qed.

(** * All of them *)
Notation run_files := (run_files utf8_ok lossy exp10 regex mk_comp file_lines gunzip exec).
(** A file and whether its test passes. *)
Definition judged (bin tmp : bytes) (f : option src) (v : bool) : Prop :=
  (f = None /\ v = false) \/
  (exists s l rest, f = Some s /\ wf_src s /\ content s = ended l ++ rest /\ ~ In NL l /\ hd_error l <> Some 35%N /\ v = false) \/
  (exists s ss x, f = Some s /\ wf_src s /\ content s = test_text ss /\ fair utf8_ok lossy exec bin tmp ss [] x /\ tidy ss x /\
     (v = true <-> answers (asks ss) x /\ nothing_else (asks ss) x)).
Lemma no_hash_line t l s : hd_error l <> Some 35%N -> open_line t l s = Err.
Proof.
  intros H. destruct t. destruct l as [|c l]; [reflexivity|]. assert (D : (35 =? c)%N = false) by (destruct (N.eqb_spec 35 c); auto; subst; destruct H; reflexivity).
  assert (A : forall y, after (String "#"%char y) (c :: l) = None).
  { intros y. unfold after, strip_prefix. change (bs (String "#"%char y)) with (35%N :: bs y). cbn [starts_with]. rewrite D. reflexivity. }
  unfold TestMain.open_line. rewrite !A. change (bs "# ") with [35; 32]%N. cbn [starts_with]. rewrite D. reflexivity.
Qed.
Lemma judged_run cf f v : cf_keep cf = false -> Forall (fun c => (32 < c)%N) (cf_tmp cf) -> judged (cf_bin cf) (cf_tmp cf) f v ->
  exists r, do_run cf f [] = (r, []) /\ (if v then r = Ok true else r = Ok false \/ r = Err).
Proof.
  intros K T [(-> & ->)|[(s & l & rest & -> & W & C & Hn & Hh & ->)|(s & ss & x & -> & W & C & F & Y & V)]].
  - eexists. split; [reflexivity|auto].
  - unfold TestMain.do_run. destruct new_reflects as (t0 & -> & _). cbn [rbind]. unfold TestMain.open_test.
    destruct (read_ended s l rest W Hn C) as (s' & RU & _ & _). rewrite RU. destruct (ended_cons l) as (c & y & Ec). rewrite Ec. cbn iota. cbn [TestMain.open_loop].
    rewrite <- Ec, pop_ended, no_hash_line by auto. cbn [rbind]. eauto.
  - destruct (fair_run cf ss s x K T W C F) as (A & _). rewrite (A Y). destruct F as (_ & _ & _ & _ & N & _).
    rewrite <- (verdict_iff (asks ss) x N Y) in V. eexists. split; [reflexivity|]. destruct v, (verdict (asks ss) x); auto.
    + destruct V as [V _]. specialize (V eq_refl). discriminate.
    + destruct V as [_ V]. specialize (V eq_refl). discriminate.
Qed.
Lemma count_cons v b vs : count v (b :: vs) = ((if Bool.eqb v b then 1 else 0) + count v vs)%N.
Proof. unfold count. cbn [filter]. destruct (Bool.eqb v b); cbn [List.length]; lia. Qed.
Lemma files_run : forall fs vs p n b t, Forall (fun c => (32 < c)%N) t -> Forall2 (judged b t) fs vs ->
  run_files (mkconf p n b t false) fs [] = (Ok (mkconf (p + count true vs) (n + count false vs) b t false), []).
Proof.
  intros fs vs p n b t T F. revert p n. induction F as [|f v fs vs J F IH]; intros p n; cbn [TestMain.run_files].
  - unfold count. cbn. rewrite !N.add_0_r. reflexivity.
  - destruct (judged_run (mkconf p n b t false) f v eq_refl T J) as (r & -> & R). rewrite !count_cons. destruct v; cbn [Bool.eqb].
    + subst r. rewrite IH, N.add_assoc, N.add_0_l. reflexivity.
    + destruct R as [->| ->]; rewrite IH, (N.add_assoc n), N.add_0_l; reflexivity.
Qed.
Variable fresh : bytes.
Variable make_dir : bytes -> option dir.
Notation tooltest_main := (tooltest_main utf8_ok lossy exp10 regex mk_comp file_lines gunzip exec fresh make_dir).
(** The options. *)
Definition is_opt (o : bytes * bytes) : Prop := fst o = bs "bin" \/ fst o = bs "verbose".
Lemma args_plain : forall opts p n b t k d, Forall is_opt opts ->
  test_args make_dir (mkconf p n b t k) d opts = Ok (Some (mkconf p n (given (bs "bin") opts b) t k, d)).
Proof.
  induction opts as [|(o, v) opts IH]; intros p n b t k d H; [reflexivity|]. inversion H as [|? ? [E|E] Hr]; subst; cbn [fst] in E; subst o.
  - change (test_args make_dir (mkconf p n b t k) d ((bs "bin", v) :: opts)) with (test_args make_dir (mkconf p n (slashed v) t k) d opts). rewrite IH by auto. reflexivity.
  - change (test_args make_dir (mkconf p n b t k) d ((bs "verbose", v) :: opts)) with (test_args make_dir (mkconf p n b t k) d opts). rewrite IH by auto. reflexivity.
Qed.
Lemma slash_solid p : Forall (fun c => (32 < c)%N) p -> Forall (fun c => (32 < c)%N) (slashed p).
Proof. intros H. unfold slashed. destruct (last p 0%N =? 47)%N; auto. apply Forall_app. split; auto. constructor; [lia|constructor]. Qed.
Lemma tool_run opts fs vs : Forall is_opt opts -> Forall (fun c => (32 < c)%N) fresh ->
  Forall2 (judged (given (bs "bin") opts (bs "./")) (slashed fresh)) fs vs ->
  tooltest_main opts fs = (summary (count true vs) (count false vs), if (0 <? count false vs)%N then Err else Ok tt).
Proof.
  intros Ho T F. unfold TestMain.tooltest_main. rewrite args_plain by auto. cbn [need].
  rewrite (files_run fs vs 0 0); [|apply slash_solid; auto|auto].
  cbn [fst need]. unfold report. cbn [cf_pass cf_fail]. rewrite !N.add_0_l. unfold summary, ended. reflexivity.
Qed.
Lemma tool_format opts v fs rest : Forall is_opt opts -> tooltest_main (opts ++ (bs "file-format", v) :: rest) fs = (concat (map (fun x => ended (bs x)) format_text), Ok tt).
Proof.
  intros H. unfold TestMain.tooltest_main.
  assert (E : forall cf, test_args make_dir cf [] (opts ++ (bs "file-format", v) :: rest) = Ok None).
  { induction H as [|(o, w) opts [E|E] Hr IH]; intros cf; [reflexivity| |]; cbn [fst] in E; subst o; cbn [app]; apply IH. }
  rewrite E. reflexivity.
Qed.
(** One test in a directory which is kept: the options before and after --tmp. *)
Lemma tool_kept opts dir0 d0 opts' ss s x v : Forall is_opt opts -> Forall is_opt opts' -> Forall (fun c => (32 < c)%N) dir0 -> make_dir (slashed dir0) = Some d0 ->
  wf_src s -> content s = test_text ss -> fair utf8_ok lossy exec (given (bs "bin") (opts ++ opts') (bs "./")) (slashed dir0) ss d0 x ->
  (forall n, In n (bs "stdin" :: map fst (a_in (asks ss))) -> ~ In n (names d0)) -> (v = true <-> answers (asks ss) x) ->
  tooltest_main (opts ++ (bs "tmp", dir0) :: opts') [Some s] = if v then (summary 1 0, Ok tt) else (summary 0 1, Err).
Proof.
  intros H H' T M W C F D V. unfold TestMain.tooltest_main.
  assert (E : forall p n b t k d, test_args make_dir (mkconf p n b t k) d (opts ++ (bs "tmp", dir0) :: opts') =
    Ok (Some (mkconf p n (given (bs "bin") (opts ++ opts') b) (slashed dir0) true, d0))).
  { clear F. induction H as [|(o, w) opts [E|E] Hr IH]; intros p n b t k d.
    - cbn [app]. transitivity (match make_dir (slashed dir0) with None => Err | Some d => test_args make_dir (mkconf p n b (slashed dir0) true) d opts' end); [reflexivity|].
      rewrite M. apply args_plain; auto.
    - cbn [fst] in E. subst o. cbn [app]. transitivity (test_args make_dir (mkconf p n (slashed w) t k) d (opts ++ (bs "tmp", dir0) :: opts')); [reflexivity|].
      rewrite IH. reflexivity.
    - cbn [fst] in E. subst o. cbn [app]. transitivity (test_args make_dir (mkconf p n b t k) d (opts ++ (bs "tmp", dir0) :: opts')); [reflexivity|].
      rewrite IH. reflexivity. }
  rewrite E. cbn [need]. set (cf := mkconf 0 0 (given (bs "bin") (opts ++ opts') (bs "./")) (slashed dir0) true).
  pose proof F as (Hs & L & A & R & N & P). destruct (opened_test ss s Hs W C) as (t & O & Rt).
  assert (X : fst (do_run cf (Some s) d0) = Ok v).
  { unfold TestMain.do_run. rewrite O. rewrite (run_kept cf t (asks ss) d0 x); auto; [|apply words_ok; auto|apply slash_solid; auto|destruct Rt as (-> & _); auto].
    f_equal. pose proof (kept_iff (asks ss) x N) as K. rewrite <- V in K. destruct v, (_ && _ && _ && _); auto.
    - destruct K as [_ K]. discriminate (K eq_refl).
    - destruct K as [K _]. discriminate (K eq_refl). }
  cbn [TestMain.run_files]. destruct (do_run cf (Some s) d0) as [r d] eqn:Er. cbn [fst] in X. subst r. destruct v; reflexivity.
Qed.
End Oracles.
