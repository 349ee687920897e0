(** C81: the tooltest tool passes a test exactly when the program did what its test file says. *)
From Coq Require Import String List NArith ZArith Bool Arith Lia.
Open Scope list_scope.
Import ListNotations.
From Verif Require Import Base StrModel StrSpec FloatModel ReadModel ReadProofs CompModel CheckModel HdrModel ToolModel MatchModel TestMain TestSpec TestProofs.
Close Scope Z_scope. Open Scope nat_scope.

Section Oracles.
Variable utf8_ok : bytes -> bool.
Variable lossy : bytes -> bytes.
Variable exp10 : Z -> f64.
Variable regex : bytes -> case -> res (bytes -> bool).
Variable mk_comp : bytes -> res cmpr.
Variable file_lines : bytes -> res (list bytes).
Variable gunzip : bytes -> res bytes.
Variable exec : bytes -> list bytes -> bytes -> dir -> option (option Z * bytes * bytes * dir).
Variable fresh : bytes.
Variable make_dir : bytes -> option dir.

(** C81. However the test file is cut into reads: the test passes if and only if the status, the output, the errors and the named files are the
    ones asked for, and no file was left besides those the test knows of. *)
Theorem c81_verdict : forall cf ss s x, cf_keep cf = false -> Forall (fun c => (32 < c)%N) (cf_tmp cf) -> wf_src s -> content s = test_text ss ->
  fair utf8_ok lossy exec (cf_bin cf) (cf_tmp cf) ss [] x ->
  (fst (do_run utf8_ok lossy exp10 regex mk_comp file_lines gunzip exec cf (Some s) []) = Ok true <-> answers (asks ss) x /\ nothing_else (asks ss) x).
Proof. exact (fair_verdict utf8_ok lossy exp10 regex mk_comp file_lines gunzip exec). Qed.
(** C81. The directory is empty again after a test whose files are all there in the end, whether it passed or not. *)
Theorem c81_clean : forall cf ss s x, cf_keep cf = false -> Forall (fun c => (32 < c)%N) (cf_tmp cf) -> wf_src s -> content s = test_text ss ->
  fair utf8_ok lossy exec (cf_bin cf) (cf_tmp cf) ss [] x -> tidy ss x ->
  snd (do_run utf8_ok lossy exp10 regex mk_comp file_lines gunzip exec cf (Some s) []) = [].
Proof.
  intros cf ss s x K T W C F Y. destruct (fair_run utf8_ok lossy exp10 regex mk_comp file_lines gunzip exec cf ss s x K T W C F) as (A & _).
  rewrite (A Y). reflexivity.
Qed.
(** C81. With --tmp the directory is kept: what was in it under other names is there for the program, and other files may be left. *)
Theorem c81_kept : forall cf ss s d0 x, cf_keep cf = true -> Forall (fun c => (32 < c)%N) (cf_tmp cf) -> wf_src s -> content s = test_text ss ->
  fair utf8_ok lossy exec (cf_bin cf) (cf_tmp cf) ss d0 x -> (forall n, In n (bs "stdin" :: map fst (a_in (asks ss))) -> ~ In n (map fst d0)) ->
  (fst (do_run utf8_ok lossy exp10 regex mk_comp file_lines gunzip exec cf (Some s) d0) = Ok true <-> answers (asks ss) x).
Proof. exact (fair_kept utf8_ok lossy exp10 regex mk_comp file_lines gunzip exec). Qed.
(** C81. The tool on any number of files, each of which is missing, or no test file, or the test of a program whose files are all there in the end:
    what is written is how many there are and how many pass and fail, and the tool fails if and only if one of them did. *)
Theorem c81_counts_partial : forall opts fs vs, Forall (fun o => fst o = bs "bin" \/ fst o = bs "verbose") opts -> Forall (fun c => (32 < c)%N) fresh ->
  Forall2 (judged utf8_ok lossy exec (given (bs "bin") opts (bs "./")) (slashed fresh)) fs vs ->
  tooltest_main utf8_ok lossy exp10 regex mk_comp file_lines gunzip exec fresh make_dir opts fs =
    (summary (count true vs) (count false vs), if (0 <? count false vs)%N then Err else Ok tt).
Proof. exact (tool_run utf8_ok lossy exp10 regex mk_comp file_lines gunzip exec fresh make_dir). Qed.
(** C81. The tool with --tmp on one test: its directory is used, and what the test says of status, output, errors and files decides. *)
Theorem c81_kept_tool : forall opts dir0 d0 opts' ss s x v,
  Forall (fun o => fst o = bs "bin" \/ fst o = bs "verbose") opts -> Forall (fun o => fst o = bs "bin" \/ fst o = bs "verbose") opts' ->
  Forall (fun c => (32 < c)%N) dir0 -> make_dir (slashed dir0) = Some d0 ->
  wf_src s -> content s = test_text ss -> fair utf8_ok lossy exec (given (bs "bin") (opts ++ opts') (bs "./")) (slashed dir0) ss d0 x ->
  (forall n, In n (bs "stdin" :: map fst (a_in (asks ss))) -> ~ In n (map fst d0)) -> (v = true <-> answers (asks ss) x) ->
  tooltest_main utf8_ok lossy exp10 regex mk_comp file_lines gunzip exec fresh make_dir (opts ++ (bs "tmp", dir0) :: opts') [Some s] =
    if v then (summary 1 0, Ok tt) else (summary 0 1, Err).
Proof. exact (tool_kept utf8_ok lossy exp10 regex mk_comp file_lines gunzip exec fresh make_dir). Qed.
(** C81. --file-format writes the description of the format and runs no test. *)
Theorem c81_format : forall opts v fs rest, Forall (fun o => fst o = bs "bin" \/ fst o = bs "verbose") opts ->
  tooltest_main utf8_ok lossy exp10 regex mk_comp file_lines gunzip exec fresh make_dir (opts ++ (bs "file-format", v) :: rest) fs =
    (concat (map (fun x => ended (bs x)) format_text), Ok tt).
Proof. exact (tool_format utf8_ok lossy exp10 regex mk_comp file_lines gunzip exec fresh make_dir). Qed.
End Oracles.

(** * Cases *)
Definition all_utf8 (b : bytes) : bool := true.
Definition same (b : bytes) : bytes := b.
Definition any_exp (z : Z) : f64 := f_of_Z z.
Definition no_regex (p : bytes) (c : case) : res (bytes -> bool) := Err.
Definition no_comp (p : bytes) : res cmpr := Err.
Definition no_lines (p : bytes) : res (list bytes) := Err.
Definition no_gz (p : bytes) : res bytes := Err.
(** A program: bin/echo writes its arguments with a blank between, bin/copy the input to the named file below t/, bin/cat the named file below t/,
    bin/none nothing and bin/bad nothing with status 1. *)
Definition ex_exec (p : bytes) (args : list bytes) (inp : bytes) (d : dir) : option (option Z * bytes * bytes * dir) :=
  if beq p (bs "bin/echo") then Some (Some 0%Z, spaced args ++ [NL], [], d)
  else if beq p (bs "bin/copy") then Some (Some 0%Z, [], [], match args with [a] => put_file (skipn 2 a) (fun _ => inp) d | _ => d end)
  else if beq p (bs "bin/cat") then Some (Some 0%Z, match args with [a] => match find_file (skipn 2 a) d with Some c => c | None => [] end | _ => [] end, [], d)
  else if beq p (bs "bin/none") then Some (Some 0%Z, [], [], d)
  else if beq p (bs "bin/bad") then Some (Some 1%Z, [], [], d)
  else None.
Notation ex_run := (do_run all_utf8 same any_exp no_regex no_comp no_lines no_gz ex_exec).
Notation ex_files := (run_files all_utf8 same any_exp no_regex no_comp no_lines no_gz ex_exec).
Notation ex_tool := (tooltest_main all_utf8 same any_exp no_regex no_comp no_lines no_gz ex_exec (bs "t") (fun _ => None)).
Definition ex_cf : config := mkconf 0 0 (bs "bin/") (bs "t/") false.
Definition kept_cf : config := mkconf 0 0 (bs "bin/") (bs "t/") true.
Definition lines_of (l : list string) : bytes := concat (map (fun x => bs x ++ [NL]) l).
Definition file_of (l : list string) : option src := Some (mksrc (lines_of l) []).

Definition copy_test : list section :=
  [TNote (bs "copies its input"); TCmd [[Word (bs "copy")]; [Tmp; Word (bs "b")]]; TStdin (mkbody [bs "one"; []; bs "two"] true);
   TStdout (mkbody [] false); TIn (bs "a") (mkbody [bs "x"] false); TOut (bs "b") (mkbody [bs "one"; []; bs "two"] true)].
Definition copy_done : done :=
  mkdone (Some 0%Z) [] [] [(bs "a", lines_of ["x"%string]); (bs "stdin", bs "one" ++ [NL; NL] ++ bs "two"); (bs "b", bs "one" ++ [NL; NL] ++ bs "two")].
Example c81_text_ex : test_text copy_test = lines_of
  ["# copies its input"; "#command copy $TMPb"; "#stdin"; "one"; ""; "two"; "#nonewline"; "#stdout"; "#infile a"; "x"; "#outfile b"; "one"; ""; "two"; "#nonewline"]%string.
Proof. reflexivity. Qed.
Ltac solid := apply Forall_forall; intros c I; cbn in I; repeat (destruct I as [I|I]; [subst c; reflexivity|]); destruct I.
Lemma lines_ok : forall l, Forall (fun x => existsb (N.eqb 10) x = false /\ hd_error x <> Some 35%N) l -> Forall line_ok l.
Proof.
  intros l H. eapply Forall_impl; [|apply H]. intros x (A & B). split; auto. intros I.
  assert (X : existsb (N.eqb 10) x = true) by (apply existsb_exists; exists 10%N; auto). congruence.
Qed.
Lemma ex_fair : fair all_utf8 same ex_exec (bs "bin/") (bs "t/") copy_test [] copy_done.
Proof.
  assert (B : body_ok (mkbody [bs "one"; []; bs "two"] true)) by (apply lines_ok; repeat constructor; discriminate).
  assert (B1 : body_ok (mkbody [bs "x"] false)) by (apply lines_ok; repeat constructor; discriminate).
  split; [|split; [reflexivity|split; [|split; [|split]]]].
  - constructor; [cbn; intros I; intuition discriminate|]. constructor.
    { split; [discriminate|]. constructor; [|constructor; [|constructor]].
      - split; [|discriminate]. constructor; [|constructor]. cbn. repeat constructor; try lia.
      - split; [|discriminate]. constructor; [cbn; auto|constructor; [|constructor]]. cbn. repeat constructor; try lia. }
    constructor; [split; [exact B|discriminate]|]. constructor; [split; [constructor|reflexivity]|].
    assert (Na : name_text (bs "a")) by (split; [discriminate|solid]). assert (Nb : name_text (bs "b")) by (split; [discriminate|solid]).
    constructor; [split; [exact Na|split; [reflexivity|exact B1]]|].
    constructor; [split; [exact Nb|split; [reflexivity|split; [exact B|reflexivity]]]|]. constructor.
  - split.
    + cbn. repeat (constructor; [cbn; intros I; intuition discriminate|]). constructor.
    + assert (Fa : file_name (bs "a")) by (repeat split; try discriminate; cbn; intros I; intuition discriminate).
      assert (Fb : file_name (bs "b")) by (repeat split; try discriminate; cbn; intros I; intuition discriminate).
      cbn [asks map fst app]. constructor; [exact Fa|constructor; [exact Fb|constructor]].
  - eexists _, _. split; [reflexivity|]. vm_compute. reflexivity.
  - cbn. repeat (constructor; [cbn; intros I; intuition discriminate|]). constructor.
  - intros n c [<-|[]] I. cbn [d_files copy_done] in I. destruct I as [I|[I|[I|[]]]]; [discriminate|discriminate|]. injection I as <-. vm_compute. discriminate.
Qed.
Lemma ex_tidy : tidy copy_test copy_done.
Proof. intros n I. vm_compute in I |- *. tauto. Qed.
Lemma ex_answers : answers (asks copy_test) copy_done /\ nothing_else (asks copy_test) copy_done.
Proof.
  split.
  - split; [reflexivity|split; [reflexivity|split; [reflexivity|]]]. intros n c I. vm_compute in I |- *. tauto.
  - intros n. vm_compute. tauto.
Qed.
Example c81_verdict_ex : fst (ex_run ex_cf (Some (mksrc (bs "# cop") [skipn 5 (test_text copy_test)])) []) = Ok true.
Proof.
  apply (c81_verdict all_utf8 same any_exp no_regex no_comp no_lines no_gz ex_exec ex_cf copy_test _ copy_done);
    [reflexivity|solid|repeat constructor; discriminate|reflexivity|exact ex_fair|exact ex_answers].
Qed.
Example c81_clean_ex : snd (ex_run ex_cf (Some (mksrc (test_text copy_test) [])) []) = [].
Proof. apply (c81_clean all_utf8 same any_exp no_regex no_comp no_lines no_gz ex_exec ex_cf copy_test _ copy_done); [reflexivity|solid|constructor|reflexivity|exact ex_fair|exact ex_tidy]. Qed.
(** The same test with a directory which is kept and has a file in it. *)
Example c81_kept_ex : ex_run kept_cf (Some (mksrc (test_text copy_test) [])) [(bs "z", bs "old")] =
  (Ok true, [(bs "z", bs "old"); (bs "a", lines_of ["x"%string]); (bs "stdin", bs "one" ++ [NL; NL] ++ bs "two"); (bs "b", bs "one" ++ [NL; NL] ++ bs "two");
             (bs "stdout", []); (bs "stderr", [])]).
Proof. vm_compute. reflexivity. Qed.
Example c81_counts_partial_ex : ex_tool [(bs "bin", bs "x"); (bs "verbose", []); (bs "bin", bs "bin")] [Some (mksrc (test_text copy_test) []); None; file_of ["hello"%string]] =
  (bs "3 test run, 1 pass, 2 failed" ++ [NL], Err).
Proof.
  apply (c81_counts_partial all_utf8 same any_exp no_regex no_comp no_lines no_gz ex_exec (bs "t") (fun _ => None) [(bs "bin", bs "x"); (bs "verbose", []); (bs "bin", bs "bin")] _ [true; false; false]);
    [constructor; [left; reflexivity|constructor; [right; reflexivity|constructor; [left; reflexivity|constructor]]]|solid|].
  constructor; [right; right|constructor; [left; auto|constructor; [right; left|constructor]]].
  - exists (mksrc (test_text copy_test) []), copy_test, copy_done. split; [reflexivity|]. split; [constructor|]. split; [apply app_nil_r|].
    split; [exact ex_fair|]. split; [exact ex_tidy|]. split; [intros _; exact ex_answers|reflexivity].
  - exists (mksrc (lines_of ["hello"%string]) []), (bs "hello"), []. split; [reflexivity|]. split; [constructor|]. split; [reflexivity|].
    split; [cbn; intros I; intuition discriminate|]. split; [discriminate|reflexivity].
Qed.
Example c81_kept_tool_ex : tooltest_main all_utf8 same any_exp no_regex no_comp no_lines no_gz ex_exec (bs "t") (fun d => if beq d (bs "t/") then Some [] else None)
  [(bs "bin", bs "bin/"); (bs "tmp", bs "t")] [Some (mksrc (test_text copy_test) [])] = (bs "1 test run, 1 pass, 0 failed" ++ [NL], Ok tt).
Proof.
  apply (c81_kept_tool all_utf8 same any_exp no_regex no_comp no_lines no_gz ex_exec (bs "t") (fun d => if beq d (bs "t/") then Some [] else None)
    [(bs "bin", bs "bin/")] (bs "t") [] [] copy_test _ copy_done true); try reflexivity.
  - constructor; [left; reflexivity|constructor].
  - constructor.
  - solid.
  - constructor.
  - exact ex_fair.
  - intros n _ [].
  - split; [intros _; apply ex_answers|reflexivity].
Qed.
Example c81_format_ex : fst (ex_tool [(bs "verbose", []); (bs "file-format", [])] [None]) =
  lines_of ["#command CMD : the command to be run";
   "#stdin : followed by the input to the program. Default empty.";
   "#stdout : followed by the expected stdout output. Default empty.";
   "#stderr : followed by the expected stderr output. Default empty.";
   "#infile Filename : followed by the contents of the named file. '#infile foo' means that the file $TMP/foo is available to the command.";
   "#outfile Filename : followed by the contents of the named file. '#outfile foo' means that the file $TMP/foo must be created by the command, with exactly that contents.";
   "#nonewline : must follow the contents of one of the above four. Removes the final newline from the input or expected output.";
   "#status Number : the expected exit status. Default zero.";
   "'# ' : a line starting with # and a space is a comment, and is ignored"]%string.
Proof. reflexivity. Qed.
Example c81_wrong_ex : ex_run ex_cf (file_of ["#command echo a b"; "#stdout"; "a c"]%string) [] = (Ok false, []) /\
  ex_run ex_cf (file_of ["#command bad"]%string) [] = (Ok false, []) /\ ex_run ex_cf (file_of ["#command bad"; "#status 1"]%string) [] = (Ok true, []) /\
  ex_run ex_cf (file_of ["#command copy $TMPb"; "#stdin"; "x"]%string) [] = (Ok false, []) /\
  ex_run ex_cf (file_of ["#command echo a b"; "#stdout infix,a"]%string) [] = (Ok true, []).
Proof. vm_compute. auto. Qed.

(** * What does not hold *)
(** A test whose file was not written leaves the other files, and the next test fails for it although there is nothing wrong with it. *)
Theorem c81_missing_refuted : exists bad good, fst (ex_run ex_cf good []) = Ok true /\
  ex_files ex_cf [good; bad; good] [] = (Ok (mkconf 1 2 (bs "bin/") (bs "t/") false), []) /\
  ex_files ex_cf [good; good] [] = (Ok (mkconf 2 0 (bs "bin/") (bs "t/") false), []).
Proof.
  exists (file_of ["#command copy $TMPc"; "#outfile b"; "x"; "#outfile c"]%string), (file_of ["#command echo hi"; "#stdout"; "hi"]%string).
  vm_compute. auto.
Qed.
(** So does a test whose program could not be started: its input files stay. *)
Theorem c81_unstarted_refuted : exists bad good, fst (ex_run ex_cf good []) = Ok true /\ fst (ex_run ex_cf bad []) = Err /\
  ex_files ex_cf [bad; good] [] = (Ok (mkconf 0 2 (bs "bin/") (bs "t/") false), []).
Proof.
  exists (file_of ["#command nosuch"; "#infile a"; "x"]%string), (file_of ["#command echo hi"; "#stdout"; "hi"]%string). vm_compute. auto.
Qed.
(** With --tmp an input file written over a longer one of an earlier test keeps the tail of that one: a test which passes by itself fails. The
    other way round, the longer file after the shorter one, both pass. *)
Theorem c81_stale_refuted : exists first second, fst (ex_run kept_cf second []) = Ok true /\ fst (ex_run kept_cf first []) = Ok true /\
  fst (ex_files kept_cf [first; second] []) = Ok (mkconf 1 1 (bs "bin/") (bs "t/") true) /\
  fst (ex_files kept_cf [second; first] []) = Ok (mkconf 2 0 (bs "bin/") (bs "t/") true).
Proof.
  exists (file_of ["#command cat $TMPa"; "#infile a"; "long"; "#stdout"; "long"]%string), (file_of ["#command cat $TMPa"; "#infile a"; "x"; "#stdout"; "x"]%string).
  vm_compute. auto.
Qed.
(** An empty test file is not ignored, as the comment at /repo/src/tooltest.rs:176 has it: it is a failure. *)
Theorem c81_empty_refuted : exists s, content s = [] /\ ex_tool [(bs "bin", bs "bin")] [Some s] = (bs "1 test run, 0 pass, 1 failed" ++ [NL], Err).
Proof. exists (mksrc [] []). vm_compute. auto. Qed.
(** A test cannot ask for a file the program changes in place: the file is gone before it is looked at. *)
Theorem c81_in_place_refuted : exists f, f = ["#command copy $TMPa"; "#stdin"; "new"; "#infile a"; "old"; "#outfile a"; "new"]%string /\
  (exists d, ex_exec (bs "bin/copy") [bs "t/a"] (bs "new" ++ [NL]) [(bs "a", bs "old" ++ [NL]); (bs "stdin", bs "new" ++ [NL])] = Some (Some 0%Z, [], [], d) /\
     find_file (bs "a") d = Some (bs "new" ++ [NL])) /\
  ex_run ex_cf (file_of f) [] = (Err, []).
Proof. eexists. split; [reflexivity|]. split; [eexists; split|]; vm_compute; reflexivity. Qed.
(** The status asked for is taken modulo 2^32. *)
Theorem c81_status_refuted : exists f, f = ["#command bad"; "#status 4294967297"]%string /\ ex_run ex_cf (file_of f) [] = (Ok true, []).
Proof. eexists. split; [reflexivity|]. vm_compute. reflexivity. Qed.
(** A negated matcher is not negated: the output which must not be is the only one accepted. *)
Theorem c81_not_refuted : exists f g, f = ["#command echo ok"; "#stdout not.infix,err"]%string /\ g = ["#command echo err"; "#stdout not.infix,err"]%string /\
  ex_run ex_cf (file_of f) [] = (Ok false, []) /\ ex_run ex_cf (file_of g) [] = (Ok true, []).
Proof. eexists _, _. split; [reflexivity|]. split; [reflexivity|]. vm_compute. auto. Qed.
(** Two blanks in the command make an empty argument; so does one at its end. *)
Theorem c81_blanks_refuted : exists f, f = ["#command echo a  b "; "#stdout"; "a  b "]%string /\ ex_run ex_cf (file_of f) [] = (Ok true, []) /\
  split_blank (bs "echo a  b ") = [bs "echo"; bs "a"; []; bs "b"; []].
Proof. eexists. split; [reflexivity|]. vm_compute. auto. Qed.
(** A blank in the name of the directory for the files splits every $TMP in two. *)
Theorem c81_tmp_blank_refuted : exists cf f, cf_tmp cf = bs "my t/" /\ f = ["#command echo $TMPa"; "#stdout"; "my t/a"]%string /\
  split_blank (replace_tmp (cf_tmp cf) 0 (bs "echo $TMPa")) = [bs "echo"; bs "my"; bs "t/a"] /\ fst (ex_run cf (file_of f) []) = Ok true.
Proof. exists (mkconf 0 0 (bs "bin/") (bs "my t/") false). eexists. split; [reflexivity|]. split; [reflexivity|]. vm_compute. auto. Qed.
(** An expected output cannot have a line which begins with a number sign; the last one is dropped without a word if a blank follows the sign. *)
Theorem c81_hash_refuted : exists f, f = ["#command none"; "#stdout"; "# total"]%string /\ ex_run ex_cf (file_of f) [] = (Ok true, []).
Proof. eexists. split; [reflexivity|]. vm_compute. reflexivity. Qed.
(** #nonewline behind a second #stdin with nothing in it takes the newline off the first one. *)
Theorem c81_twice_refuted : exists f, f = ["#command copy $TMPb"; "#stdin"; "x"; "#stdin"; "#nonewline"; "#outfile b"; "x"; "#nonewline"]%string /\
  ex_run ex_cf (file_of f) [] = (Ok true, []).
Proof. eexists. split; [reflexivity|]. vm_compute. reflexivity. Qed.
