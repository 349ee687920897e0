(** C81, further: test files with lines that say nothing, and with names that are none. *)
From Coq Require Import String List NArith ZArith Bool Arith Lia.
Open Scope list_scope.
Import ListNotations.
From Verif Require Import Base StrModel StrSpec FloatModel ReadModel ReadProofs CompModel CheckModel HdrModel ToolModel MatchModel TestMain TestSpec TestProofs TestProps.
Close Scope Z_scope. Open Scope nat_scope.

(** A line beginning with the hash sign that is none of those described, /repo/src/tooltest.rs:14-25. *)
Definition tells_nothing (h : bytes) : Prop :=
  ~ In 10%N h /\ (exists r, h = 35%N :: r) /\ (forall x y, h ++ x <> bs "#nonewline" ++ y) /\
  ((exists x, x <> [] /\ h = bs "#stdin" ++ x) \/
   forall tag, In tag ["#command"; "#stdin"; "#stdout"; "#stderr"; "#status"; "#infile"; "#outfile"; "#nonewline"; "# "]%string -> ~ exists x, h = bs tag ++ x).

Lemma after_none tag h : ~ (exists x, h = bs tag ++ x) -> after tag h = None.
Proof. intros H. unfold after, strip_prefix. destruct (starts_with h (bs tag)) eqn:E; auto. apply starts_with_app in E. contradiction. Qed.
Lemma starts_mid l x p : starts_with (l ++ x) p = true -> List.length p <= List.length l -> starts_with l p = true.
Proof.
  revert l. induction p as [|c p IH]; intros l H L; [destruct l; reflexivity|]. destruct l as [|d l]; [cbn in L; lia|]. cbn [app starts_with] in *.
  destruct (c =? d)%N; [|discriminate]. apply IH; auto. cbn in L; lia.
Qed.
Section Oracles.
Variable utf8_ok : bytes -> bool.
Variable lossy : bytes -> bytes.
Variable exp10 : Z -> f64.
Variable regex : bytes -> case -> res (bytes -> bool).
Variable mk_comp : bytes -> res cmpr.
Variable file_lines : bytes -> res (list bytes).
Variable gunzip : bytes -> res bytes.
Variable exec : bytes -> list bytes -> bytes -> dir -> option (option Z * bytes * bytes * dir).
Notation open_line := (open_line utf8_ok regex mk_comp file_lines).
Notation open_loop := (open_loop utf8_ok regex mk_comp file_lines).
Notation open_test := (open_test utf8_ok regex mk_comp file_lines).
Lemma nothing_line t h s : tells_nothing h -> open_line t h s = Err.
Proof.
  intros (_ & (r & E) & _ & [(x & X & ->)|U]); destruct t as [cmd inp out err code ins outs].
  - destruct x as [|c x]; [congruence|]. reflexivity.
  - unfold TestMain.open_line. rewrite !after_none by (apply U; cbn; tauto).
    destruct (starts_with h (bs "# ")) eqn:B; auto. apply starts_with_app in B. exfalso. apply (U "# "%string); cbn; tauto.
Qed.
Lemma loop_bad : forall ss sec h more pre fuel t s, Forall (section_ok utf8_ok) (sec :: ss) -> reflects utf8_ok exp10 t (asks pre) -> wf_src s -> headed h -> tells_nothing h ->
  content s = behind sec ++ test_text ss ++ ended h ++ more -> List.length (content s) < fuel -> open_loop fuel t (ended (first_line sec)) s = Err.
Proof.
  induction ss as [|sec' ss IH]; intros sec h more pre fuel t s H R W Hd U C F; inversion H as [|? ? Hs Hss]; subst; (destruct fuel as [|k]; [lia|]); cbn [TestMain.open_loop]; rewrite pop_ended.
  - cbn [test_text map concat app] in C. assert (Q : is_head (ended h ++ more)) by (right; eauto).
    destruct (section_read utf8_ok exp10 regex mk_comp file_lines pre t sec s _ Hs R Q W C) as (t' & line & s' & need & O & R' & W' & X). rewrite O. cbn [rbind].
    apply (f_equal (@List.length N)) in C. destruct (ended_cons h) as (c & y & Ec). destruct X as [[-> X]|(-> & h' & Hh & -> & X)].
    + destruct (read_ended s' h more W' (proj1 Hd) X) as (s2 & RU & W2 & C2). rewrite RU. rewrite Ec. cbn iota. rewrite <- Ec.
      destruct k as [|k]; [rewrite !app_length, Ec in *; cbn [List.length] in *; lia|]. cbn [TestMain.open_loop]. rewrite pop_ended, nothing_line by auto. reflexivity.
    + apply ended_inj in X as [<- X]; [|apply Hd|apply Hh].
      destruct k as [|k]; [rewrite !app_length, Ec in *; cbn [List.length] in *; lia|]. cbn [TestMain.open_loop]. rewrite pop_ended, nothing_line by auto. reflexivity.
  - inversion Hss as [|? ? Hs' Hss']; subst. pose proof (first_headed _ _ Hs') as Hf. pose proof Hf as (Hn & _). rewrite text_cons, <- !app_assoc in C.
    assert (Q : is_head (ended (first_line sec') ++ behind sec' ++ test_text ss ++ ended h ++ more)) by (right; eauto).
    destruct (section_read utf8_ok exp10 regex mk_comp file_lines pre t sec s _ Hs R Q W C) as (t' & line & s' & need & O & R' & W' & X). rewrite O. cbn [rbind].
    destruct (ended_cons (first_line sec')) as (c & y & Ec). destruct X as [[-> X]|(-> & h' & Hh & -> & X)].
    + destruct (read_ended s' _ _ W' Hn X) as (s2 & RU & W2 & C2). rewrite RU. rewrite Ec. cbn iota. rewrite <- Ec.
      apply (IH sec' h more (pre ++ [sec])); auto. apply (f_equal (@List.length N)) in C, C2. rewrite !app_length, Ec in *. cbn [List.length] in *. lia.
    + apply ended_inj in X as [<- X]; [|auto|apply Hh]. apply (IH sec' h more (pre ++ [sec])); auto.
      apply (f_equal (@List.length N)) in C, X. rewrite !app_length, Ec in *. cbn [List.length] in *. lia.
Qed.
Lemma nothing_headed h : tells_nothing h -> headed h.
Proof.
  intros (N & R & U & _). split; [exact N|]. split; [exact R|]. intros x. destruct (starts_with (h ++ x) (bs "#nonewline")) eqn:E; auto.
  apply starts_with_app in E as (z & E). destruct (U x z E).
Qed.
(** C81. A test file with a line that tells nothing, behind proper sections and whatever follows, is refused: no program is run, no file is
    written. *)
Theorem c81_unknown_line : forall cf ss h more s d, Forall (section_ok utf8_ok) ss -> tells_nothing h -> wf_src s -> content s = test_text ss ++ ended h ++ more ->
  do_run utf8_ok lossy exp10 regex mk_comp file_lines gunzip exec cf (Some s) d = (Err, d).
Proof.
  intros cf ss h more s d H U W C. unfold do_run. destruct (new_reflects utf8_ok exp10 regex mk_comp file_lines) as (t0 & -> & R). cbn [rbind]. unfold TestMain.open_test.
  assert (E : (let '(line, s0) := read_until NL s in match line with [] => Ok t0 | _ :: _ => open_loop (Datatypes.S (List.length (content s0))) t0 line s0 end) = Err).
  { pose proof (nothing_headed h U) as Hd. destruct ss as [|sec ss].
    - cbn [test_text map concat app] in C. destruct (read_ended s h more W (proj1 Hd) C) as (s2 & RU & _ & _). rewrite RU. destruct (ended_cons h) as (c & y & Ec).
      rewrite Ec. cbn iota. rewrite <- Ec. cbn [TestMain.open_loop]. rewrite pop_ended, nothing_line by auto. reflexivity.
    - inversion H as [|? ? Hs Hss]; subst. rewrite text_cons, <- !app_assoc in C. pose proof (first_headed _ _ Hs) as (Hn & _).
      destruct (read_ended s _ _ W Hn C) as (s2 & RU & W2 & C2). rewrite RU. destruct (ended_cons (first_line sec)) as (c & y & Ec). rewrite Ec. cbn iota. rewrite <- Ec.
      apply (loop_bad ss sec h more [] _ t0 s2); auto. }
  rewrite E. reflexivity.
Qed.
Lemma write_bad : forall ins d, Exists (fun x => ~ file_name (fst x)) ins -> exists d', write_in ins d = (d', false).
Proof.
  induction ins as [|(n, c) ins IH]; intros d X; [inversion X|]. cbn [write_in]. destruct (plain_name n) eqn:P; [|eauto].
  apply plain_iff in P. inversion X; subst; [contradiction|auto].
Qed.
(** C81. A test that asks for an input file with a name that is none in the directory fails, whatever the program would do. *)
Theorem c81_bad_name : forall cf ss s d, Forall (section_ok utf8_ok) ss -> wf_src s -> content s = test_text ss -> Exists (fun x => ~ file_name (fst x)) (a_in (asks ss)) ->
  fst (do_run utf8_ok lossy exp10 regex mk_comp file_lines gunzip exec cf (Some s) d) = Err.
Proof.
  intros cf ss s d H W C X. destruct (opened_test utf8_ok lossy exp10 regex mk_comp file_lines gunzip exec ss s H W C) as (t & O & R). unfold do_run. rewrite O. unfold run_test.
  destruct R as (_ & _ & _ & _ & _ & -> & _). destruct (write_bad _ d X) as (d' & ->). reflexivity.
Qed.
End Oracles.
Example c81_unknown_line_ex : tells_nothing (bs "#stdin now") /\ tells_nothing (bs "#input") /\
  content (mksrc (lines_of ["#command echo hi"; "#stdin now"; "#stdout"; "hi"]%string) []) = test_text [TCmd [[Word (bs "echo")]; [Word (bs "hi")]]] ++ ended (bs "#stdin now") ++ lines_of ["#stdout"; "hi"]%string /\
  ex_run ex_cf (file_of ["#command echo hi"; "#stdin now"; "#stdout"; "hi"]%string) [] = (Err, []) /\
  ex_run ex_cf (file_of ["#command echo hi"; "#stdin"; "#stdout"; "hi"]%string) [] = (Ok true, []).
Proof.
  split; [|split; [|repeat split]].
  - split; [cbn; intuition discriminate|]. split; [eexists; reflexivity|]. split; [intros x y; discriminate|]. left. exists (bs " now"). split; [discriminate|reflexivity].
  - split; [cbn; intuition discriminate|]. split; [eexists; reflexivity|]. split; [intros x y; discriminate|]. right. intros tag I (x & E). cbn in I.
    repeat (destruct I as [<-|I]; [discriminate E|]). destruct I.
Qed.
Example c81_bad_name_ex : ~ file_name (bs "x/y") /\ fst (ex_run ex_cf (file_of ["#command echo hi"; "#infile x/y"; "1"; "#stdout"; "hi"]%string) []) = Err /\
  a_in (asks [TIn (bs "x/y") (mkbody [bs "1"] false)]) = [(bs "x/y", bs "1" ++ [NL])].
Proof. split; [intros (_ & N & _); apply N; cbn; tauto|]. split; reflexivity. Qed.
