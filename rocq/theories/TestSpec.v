(** What the .test files of the tooltest tool say, stated from /repo/src/tooltest.rs:14-25 and not from the code which reads them. *)
From Coq Require Import String List NArith ZArith Bool Arith.
Open Scope list_scope.
Import ListNotations.
From Verif Require Import Base StrSpec.
Close Scope Z_scope. Open Scope nat_scope.

(** A word of the command: plain text and places for the directory of the files, /repo/src/tooltest.rs:16-21. *)
Inductive part := Word (b : bytes) | Tmp.
Definition part_text (p : part) : bytes := match p with Word b => b | Tmp => bs "$TMP" end. (* /repo/src/tooltest.rs:20 *)
Definition part_means (tmp : bytes) (p : part) : bytes := match p with Word b => b | Tmp => tmp end. (* /repo/src/tooltest.rs:20 *)
Definition word_text (w : list part) : bytes := concat (map part_text w). (* /repo/src/tooltest.rs:16 *)
Definition word_means (tmp : bytes) (w : list part) : bytes := concat (map (part_means tmp) w). (* /repo/src/tooltest.rs:20 *)
Definition part_ok (p : part) : Prop := match p with Word b => Forall (fun c => (32 < c)%N /\ c <> 36%N) b | Tmp => True end. (* /repo/src/tooltest.rs:20 *)
Definition word_ok (w : list part) : Prop := Forall part_ok w /\ word_text w <> []. (* /repo/src/tooltest.rs:16 *)
(** Words with one blank between them, /repo/src/tooltest.rs:16. *)
Fixpoint spaced (l : list bytes) : bytes := match l with [] => [] | [x] => x | x :: r => x ++ 32%N :: spaced r end.

(** The text following a line: its lines, and whether #nonewline is put behind, /repo/src/tooltest.rs:17-22. *)
Record body := mkbody { b_lines : list bytes; b_bare : bool }.
Definition line_ok (l : bytes) : Prop := ~ In 10%N l /\ hd_error l <> Some 35%N. (* /repo/src/tooltest.rs:17 *)
Definition ended (l : bytes) : bytes := l ++ [10%N]. (* /repo/src/tooltest.rs:17 *)
Definition body_text (b : body) : bytes := concat (map ended (b_lines b)) ++ (if b_bare b then bs "#nonewline" ++ [10%N] else []). (* /repo/src/tooltest.rs:22 *)
(** What the text says: the lines, without the last newline if so asked, /repo/src/tooltest.rs:22. *)
Fixpoint body_of (ls : list bytes) (bare : bool) : bytes :=
  match ls with [] => [] | [x] => if bare then x else ended x | x :: r => ended x ++ body_of r bare end.
Definition body_means (b : body) : bytes := body_of (b_lines b) (b_bare b). (* /repo/src/tooltest.rs:22 *)
Definition body_ok (b : body) : Prop := Forall line_ok (b_lines b). (* /repo/src/tooltest.rs:17 *)

(** The sections of a test file, /repo/src/tooltest.rs:16-24. *)
Inductive section :=
  | TCmd (ws : list (list part)) | TStdin (b : body) | TStdout (b : body) | TStderr (b : body) | TStatus (z : Z)
  | TIn (name : bytes) (b : body) | TOut (name : bytes) (b : body) | TNote (text : bytes).
Definition section_text (s : section) : bytes := (* /repo/src/tooltest.rs:16-24 *)
  match s with
  | TCmd ws => bs "#command " ++ ended (spaced (map word_text ws))
  | TStdin b => ended (bs "#stdin") ++ body_text b
  | TStdout b => ended (bs "#stdout") ++ body_text b
  | TStderr b => ended (bs "#stderr") ++ body_text b
  | TStatus z => bs "#status " ++ ended (print_Z z)
  | TIn n b => bs "#infile " ++ ended n ++ body_text b
  | TOut n b => bs "#outfile " ++ ended n ++ body_text b
  | TNote t => bs "# " ++ ended t
  end.
Definition test_text (ss : list section) : bytes := concat (map section_text ss). (* /repo/src/tooltest.rs:16-24 *)
(** A name: no blank or control character in it, /repo/src/tooltest.rs:20. *)
Definition name_text (n : bytes) : Prop := n <> [] /\ Forall (fun c => (32 < c)%N) n.
Definition section_ok (utf8_ok : bytes -> bool) (s : section) : Prop := (* /repo/src/tooltest.rs:16-24 *)
  match s with
  | TCmd ws => ws <> [] /\ Forall word_ok ws
  | TStdin b => body_ok b /\ (b_bare b = true -> b_lines b <> [])
  | TStdout b | TStderr b => body_ok b /\ utf8_ok (body_means b) = true
  | TStatus z => (- 2147483648 <= z < 2147483648)%Z
  | TIn n b => name_text n /\ utf8_ok n = true /\ body_ok b
  | TOut n b => name_text n /\ utf8_ok (32%N :: n) = true /\ body_ok b /\ utf8_ok (body_means b) = true
  | TNote t => ~ In 10%N t
  end.

(** What a test asks for, /repo/src/tooltest.rs:16-23: the last command, all of the input, the last output, the last status, all of the files. *)
Record asked := mkask { a_words : list (list part); a_stdin : bytes; a_stdout : bytes; a_stderr : bytes; a_code : Z;
                        a_in : list (bytes * bytes); a_out : list (bytes * bytes) }.
Definition last_of {A} (f : section -> option A) (ss : list section) (d : A) : A := (* /repo/src/tooltest.rs:16-23 *)
  fold_left (fun a s => match f s with Some x => x | None => a end) ss d.
Definition each {A} (f : section -> list A) (ss : list section) : list A := concat (map f ss). (* /repo/src/tooltest.rs:16-23 *)
Definition asks (ss : list section) : asked := (* /repo/src/tooltest.rs:16-23 *)
  mkask (last_of (fun s => match s with TCmd ws => Some ws | _ => None end) ss [])
        (each (fun s => match s with TStdin b => body_means b | _ => [] end) ss)
        (last_of (fun s => match s with TStdout b => Some (body_means b) | _ => None end) ss [])
        (last_of (fun s => match s with TStderr b => Some (body_means b) | _ => None end) ss [])
        (last_of (fun s => match s with TStatus z => Some z | _ => None end) ss 0%Z)
        (each (fun s => match s with TIn n b => [(n, body_means b)] | _ => [] end) ss)
        (each (fun s => match s with TOut n b => [(n, body_means b)] | _ => [] end) ss).

(** What a program did: its exit code if there is one, what it wrote, and the files there afterwards, /repo/src/tooltest.rs:298-308. *)
Record done := mkdone { d_code : option Z; d_out : bytes; d_err : bytes; d_files : list (bytes * bytes) }.
(** A name for a file of the directory, /repo/src/tooltest.rs:20. *)
Definition file_name (n : bytes) : Prop := n <> [] /\ ~ In 47%N n /\ n <> bs "." /\ n <> bs "..".
(** The names the test knows of, /repo/src/tooltest.rs:17-21. *)
Definition known (a : asked) : list bytes := bs "stdin" :: map fst (a_in a) ++ map fst (a_out a).
(** Every file has a name of its own, /repo/src/tooltest.rs:20-21. *)
Definition apart (a : asked) : Prop := NoDup (known a) /\ Forall file_name (map fst (a_in a) ++ map fst (a_out a)).
(** What was written is what was asked for, /repo/src/tooltest.rs:18-23. *)
Definition answers (a : asked) (x : done) : Prop :=
  d_code x = Some (a_code a) /\ d_out x = a_stdout a /\ d_err x = a_stderr a /\ forall n c, In (n, c) (a_out a) -> In (n, c) (d_files x).
(** And there are no other files, /repo/src/tooltest.rs:373. *)
Definition nothing_else (a : asked) (x : done) : Prop := forall n, In n (map fst (d_files x)) <-> In n (known a).
(** The file of the name does not look like a compressed one, /repo/src/util.rs:1257. *)
Definition not_packed (a : asked) (x : done) : Prop :=
  forall n c, In n (map fst (a_out a)) -> In (n, c) (d_files x) -> firstn 3 c <> [31; 139; 8]%N.
(** The command was run with the directory [tmp] in which there were the files [d0], the ones asked for and the input, and did [x];
    [exec] tells what programs do, /repo/src/tooltest.rs:266-307. *)
Definition ran (exec : bytes -> list bytes -> bytes -> list (bytes * bytes) -> option (option Z * bytes * bytes * list (bytes * bytes)))
    (bin tmp : bytes) (a : asked) (d0 : list (bytes * bytes)) (x : done) : Prop :=
  exists w0 ws, a_words a = w0 :: ws /\
    exec (bin ++ word_means tmp w0) (map (word_means tmp) ws) (a_stdin a) (d0 ++ a_in a ++ [(bs "stdin", a_stdin a)]) =
    Some (d_code x, d_out x, d_err x, d_files x).
(** A test in good order which could be run, /repo/src/tooltest.rs:16-24: its sections are written properly, its command is UTF-8, it uses each
    name once, and what the program left are different files. *)
Definition fair (utf8_ok : bytes -> bool) (lossy : bytes -> bytes)
    (exec : bytes -> list bytes -> bytes -> list (bytes * bytes) -> option (option Z * bytes * bytes * list (bytes * bytes)))
    (bin tmp : bytes) (ss : list section) (d0 : list (bytes * bytes)) (x : done) : Prop :=
  Forall (section_ok utf8_ok) ss /\ lossy (spaced (map word_text (a_words (asks ss)))) = spaced (map word_text (a_words (asks ss))) /\
  apart (asks ss) /\ ran exec bin tmp (asks ss) d0 x /\ NoDup (map fst (d_files x)) /\ not_packed (asks ss) x.
(** All of the files the test knows of are there in the end, /repo/src/tooltest.rs:309-312 and 370. *)
Definition tidy (ss : list section) (x : done) : Prop := incl (known (asks ss)) (map fst (d_files x)).
(** The line in the end, /repo/src/tooltest.rs:438-443. *)
Definition summary (pass fail : N) : bytes :=
  print_N (pass + fail) ++ bs " test run, " ++ print_N pass ++ bs " pass, " ++ print_N fail ++ ended (bs " failed").
Definition count (v : bool) (vs : list bool) : N := N.of_nat (List.length (filter (Bool.eqb v) vs)). (* /repo/src/tooltest.rs:437-443 *)
(** A directory with the slash at its end, and the last one given by an option, /repo/src/tooltest.rs:421-435. *)
Definition slashed (p : bytes) : bytes := if (last p 0 =? 47)%N then p else p ++ [47%N].
Definition given (name : bytes) (opts : list (bytes * bytes)) (dflt : bytes) : bytes := (* /repo/src/bin/cdx/tooltest_main.rs:16-32 *)
  fold_left (fun a o => if beq (fst o) name then slashed (snd o) else a) opts dflt.
(** The description of the format, /repo/src/tooltest.rs:14-25. *)
Definition format_text : list string :=
  ["#command CMD : the command to be run";
   "#stdin : followed by the input to the program. Default empty.";
   "#stdout : followed by the expected stdout output. Default empty.";
   "#stderr : followed by the expected stderr output. Default empty.";
   "#infile Filename : followed by the contents of the named file. '#infile foo' means that the file $TMP/foo is available to the command.";
   "#outfile Filename : followed by the contents of the named file. '#outfile foo' means that the file $TMP/foo must be created by the command, with exactly that contents.";
   "#nonewline : must follow the contents of one of the above four. Removes the final newline from the input or expected output.";
   "#status Number : the expected exit status. Default zero.";
   "'# ' : a line starting with # and a space is a comment, and is ignored"]%string.
