(** Model of the tooltest tool, /repo/src/tooltest.rs:15-476 and /repo/src/bin/cdx/tooltest_main.rs:5-41, on top of MatchModel. *)
From Coq Require Import String List NArith ZArith Bool Arith.
Open Scope list_scope.
Import ListNotations.
From Verif Require Import Base StrModel FloatModel ReadModel CompModel CheckModel ReadModel StrSpec HdrModel ToolModel MatchModel.
Close Scope Z_scope. Open Scope nat_scope.

(** The files of the temporary directory, /repo/src/tooltest.rs:82-89: names and contents. Simplified: the command leaves plain files only,
    no directories, and their names are UTF-8. *)
Definition dir := list (bytes * bytes).
(** The names read_dir gives, /repo/src/tooltest.rs:82-89; the order the system gives them in is that of the list. *)
Definition names (d : dir) : list bytes := map fst d.
Fixpoint find_file (n : bytes) (d : dir) : option bytes := (* fs::File::open, /repo/src/util.rs:1252 *)
  match d with [] => None | (x, c) :: r => if beq x n then Some c else find_file n r end.
(** Writing a whole file: its new contents from the old ones, if any; /repo/src/tooltest.rs:273-280 and /repo/src/util.rs:1203-1214. *)
Fixpoint put_file (n : bytes) (f : option bytes -> bytes) (d : dir) : dir :=
  match d with
  | [] => [(n, f None)]
  | (x, c) :: r => if beq x n then (x, f (Some c)) :: r else (x, c) :: put_file n f r
  end.
(** write_all through get_writer, which neither truncates nor appends, /repo/src/util.rs:1203-1214. *)
Definition written_over (new : bytes) (old : option bytes) : bytes := match old with None => new | Some o => new ++ skipn (List.length new) o end.
(** A name which is that of a file in the directory when put behind the path, /repo/src/tooltest.rs:267-269 and 345-347. Simplified: a name
    with a slash is taken to be refused by the system. *)
Definition plain_name (n : bytes) : bool :=
  negb (beq n []) && negb (existsb (N.eqb 47) n) && negb (beq n (bs ".")) && negb (beq n (bs "..")).
(** delete_file, /repo/src/tooltest.rs:64-69. *)
Fixpoint delete_file (n : bytes) (d : dir) : option dir :=
  match d with
  | [] => None
  | (x, c) :: r => if beq x n then Some r else match delete_file n r with Some r' => Some ((x, c) :: r') | None => None end
  end.
(** nuke, /repo/src/tooltest.rs:72-79. *)
Definition nuke (v : list bytes) (n : bytes) (keep : bool) (d : dir) : option (list bytes * dir) :=
  let v := filter (fun x => negb (beq x n)) v in
  if keep then Some (v, d) else match delete_file n d with Some d => Some (v, d) | None => None end.

(** [x as i32] for an isize, /repo/src/tooltest.rs:207. *)
Definition as_i32 (z : Z) : Z := let w := (z mod 4294967296)%Z in if (w <? 2147483648)%Z then w else (w - 4294967296)%Z.
(** str::replace with $TMP, /repo/src/tooltest.rs:283; [skip] counts the bytes of an occurrence which are still to be passed over. *)
Fixpoint replace_tmp (tmp : bytes) (skip : nat) (l : bytes) : bytes :=
  match l with
  | [] => []
  | c :: r => match skip with
              | S k => replace_tmp tmp k r
              | O => if starts_with l (bs "$TMP") then tmp ++ replace_tmp tmp 3 r else c :: replace_tmp tmp 0 r
              end
  end.
(** split at every byte up to the blank, /repo/src/tooltest.rs:287. *)
Fixpoint split_blank (l : bytes) : list bytes :=
  match l with
  | [] => [[]]
  | c :: r => if (c <=? 32)%N then [] :: split_blank r
              else match split_blank r with x :: xs => (c :: x) :: xs | [] => [[c]] end
  end.
(** strip_prefix, then trimw_start on bytes, as in /repo/src/tooltest.rs:189-190; trimw_start is /repo/src/text.rs:529-534. *)
Definition after (tag : string) (line : bytes) : option bytes := strip_prefix line (bs tag).

(** Test, /repo/src/tooltest.rs:51-62. Left out: the name and the contents kept for the messages only. *)
Record test := mkt { t_cmd : bytes; t_stdin : bytes; t_stdout : matcher; t_stderr : matcher; t_code : Z;
                     t_in : list (bytes * bytes); t_out : list (bytes * matcher) }.
(** Config, /repo/src/tooltest.rs:402-408: the counts, the directory of the programs, the one for the files and whether it was given. *)
Record config := mkconf { cf_pass : N; cf_fail : N; cf_bin : bytes; cf_tmp : bytes; cf_keep : bool }.
(** show_format, /repo/src/tooltest.rs:15-25. *)
Definition show_format : bytes :=
  bs "#command CMD : the command to be run" ++ [NL] ++
  bs "#stdin : followed by the input to the program. Default empty." ++ [NL] ++
  bs "#stdout : followed by the expected stdout output. Default empty." ++ [NL] ++
  bs "#stderr : followed by the expected stderr output. Default empty." ++ [NL] ++
  bs "#infile Filename : followed by the contents of the named file. '#infile foo' means that the file $TMP/foo is available to the command." ++ [NL] ++
  bs "#outfile Filename : followed by the contents of the named file. '#outfile foo' means that the file $TMP/foo must be created by the command, with exactly that contents." ++ [NL] ++
  bs "#nonewline : must follow the contents of one of the above four. Removes the final newline from the input or expected output." ++ [NL] ++
  bs "#status Number : the expected exit status. Default zero." ++ [NL] ++
  bs "'# ' : a line starting with # and a space is a comment, and is ignored" ++ [NL].

(** The loop of grab, /repo/src/tooltest.rs:106-124: the collected text, the line last read, the rest of the file, and need_read. *)
Fixpoint grab_loop (fuel : nat) (buff : bytes) (s : src) : res (bytes * bytes * src * bool) :=
  match fuel with
  | O => Panic
  | S k =>
      let '(line, s) := read_until NL s in
      match line with
      | [] => Ok (buff, [], s, true)
      | _ => if starts_with line (bs "#")
             then if starts_with line (bs "#nonewline") then Ok (removelast buff, line, s, true) else Ok (buff, line, s, false)
             else grab_loop k (buff ++ line) s
      end
  end.
(** The loop with enough fuel, /repo/src/tooltest.rs:106-124. *)
Definition grab_body (buff : bytes) (s : src) : res (bytes * bytes * src * bool) := grab_loop (S (List.length (content s))) buff s.

Section Test.
(** What is outside of the model: UTF-8 checks, String::from_utf8_lossy (/repo/src/tooltest.rs:282), regular expressions and the other oracles
    of MatchModel, and the gzip decoder of /repo/src/util.rs:1257-1259. *)
Variable utf8_ok : bytes -> bool.
Variable lossy : bytes -> bytes.
Variable exp10 : Z -> f64.
Variable regex : bytes -> case -> res (bytes -> bool).
Variable mk_comp : bytes -> res cmpr.
Variable file_lines : bytes -> res (list bytes).
Variable gunzip : bytes -> res bytes.
(** Running a program with arguments, standard input and the files of the directory, /repo/src/tooltest.rs:291-307: None if it cannot be started,
    else its exit code if it was not ended by a signal, its standard output and error, and the files afterwards. *)
Variable exec : bytes -> list bytes -> bytes -> dir -> option (option Z * bytes * bytes * dir).

(** Matcher::do_match_safe, /repo/src/matcher.rs:1583-1593. *)
Definition match_safe (m : matcher) (b : bytes) : res bool :=
  if m_string m then if utf8_ok b then m_smatch exp10 m b else Ok false else m_umatch exp10 m b.
(** Test::new with the defaults, /repo/src/tooltest.rs:40-47 and 134-136. *)
Definition test_new : res test :=
  match make regex mk_comp file_lines (bs "empty") with
  | Ok m => Ok (mkt [] [] m m 0%Z [] [])
  | _ => Panic
  end.
(** from_utf8, then make2 exact, /repo/src/tooltest.rs:150 and 231. *)
Definition exact_of (buf : bytes) : res matcher := if utf8_ok buf then make2 regex mk_comp file_lines (bs "exact") buf else Err.
(** from_utf8, then make, /repo/src/tooltest.rs:157. *)
Definition made_of (spec : bytes) : res matcher := if utf8_ok spec then make regex mk_comp file_lines spec else Err.
(** Test::add_outfile, /repo/src/tooltest.rs:137-170, once the tag is there: [x] is what follows it. The matcher, the line last read, the rest
    of the file and need_read. *)
Definition outfile_of (x line : bytes) (s : src) : res (matcher * bytes * src * bool) :=
  match x with
  | [] => rbind (grab_body [] s) (fun '(buf, line, s, need) => rbind (exact_of buf) (fun m => Ok (m, line, s, need)))
  | _ => rbind (made_of (trim_left x)) (fun m => Ok (m, line, s, true))
  end.
(** One line of the file, /repo/src/tooltest.rs:182-238; its newline is gone. The test, the line last read, the rest and need_read. *)
Definition open_line (t : test) (line : bytes) (s : src) : res (test * bytes * src * bool) :=
  let '(mkt cmd inp out err code ins outs) := t in
  match after "#command" line with
  | Some x => Ok (mkt (trim_left x) inp out err code ins outs, line, s, true)
  | None =>
  match after "#stdout" line with
  | Some x => rbind (outfile_of x line s) (fun '(m, line, s, need) => Ok (mkt cmd inp m err code ins outs, line, s, need))
  | None =>
  match after "#stderr" line with
  | Some x => rbind (outfile_of x line s) (fun '(m, line, s, need) => Ok (mkt cmd inp out m code ins outs, line, s, need))
  | None =>
  match after "#stdin" line with
  | Some x => match x with
              | [] => rbind (grab_body inp s) (fun '(buf, line, s, need) => Ok (mkt cmd buf out err code ins outs, line, s, need))
              | _ => Err
              end
  | None =>
  match after "#status" line with
  | Some x => rbind (to_isize_whole (trim_left x)) (fun z => Ok (mkt cmd inp out err (as_i32 z) ins outs, line, s, true))
  | None =>
  match after "#infile" line with
  | Some x =>
      let name := trim_left x in
      if utf8_ok name then
        rbind (grab_body [] s) (fun '(buf, line, s, need) => Ok (mkt cmd inp out err code (ins ++ [(name, buf)]) outs, line, s, need))
      else Err
  | None =>
  match after "#outfile" line with
  | Some x =>
      if utf8_ok x then
        let y := trim_white x in
        match split_once SPC y with
        | Some (name, spec) => rbind (make regex mk_comp file_lines spec) (fun m => Ok (mkt cmd inp out err code ins (outs ++ [(name, m)]), line, s, true))
        | None => rbind (grab_body [] s) (fun '(buf, line, s, need) =>
            rbind (exact_of buf) (fun m => Ok (mkt cmd inp out err code ins (outs ++ [(y, m)]), line, s, need)))
        end
      else Err
  | None => if starts_with line (bs "# ") then Ok (t, line, s, true) else Err
  end end end end end end end.
(** [if line.last() == Some(b'\n') { line.pop(); }], /repo/src/tooltest.rs:183-185. *)
Definition pop_nl (line : bytes) : bytes := if (last line 0 =? NL)%N then removelast line else line.
(** The loop of Test::open, /repo/src/tooltest.rs:182-250. *)
Fixpoint open_loop (fuel : nat) (t : test) (line : bytes) (s : src) : res test :=
  match fuel with
  | O => Panic
  | S k =>
      rbind (open_line t (pop_nl line) s) (fun '(t, line, s, need) =>
      if need then let '(line, s) := read_until NL s in match line with [] => Ok t | _ => open_loop k t line s end
      else open_loop k t line s)
  end.
(** Test::open, /repo/src/tooltest.rs:172-251. Left out: the file name, kept for the messages; a test file is not compressed. *)
Definition open_test (t : test) (s : src) : res test :=
  let '(line, s) := read_until NL s in
  match line with [] => Ok t | _ => open_loop (S (List.length (content s))) t line s end.

(** Writing the input files, /repo/src/tooltest.rs:266-271. *)
Fixpoint write_in (ins : list (bytes * bytes)) (d : dir) : dir * bool :=
  match ins with
  | [] => (d, true)
  | (n, c) :: r => if plain_name n then write_in r (put_file n (written_over c) d) else (d, false)
  end.
(** Removing the input files, /repo/src/tooltest.rs:310-312. *)
Fixpoint nuke_all (v ns : list bytes) (keep : bool) (d : dir) : list bytes * dir * bool :=
  match ns with
  | [] => (v, d, true)
  | n :: r => match nuke v n keep d with Some (v, d) => nuke_all v r keep d | None => (v, d, false) end
  end.
(** get_reader and read_to_end, /repo/src/tooltest.rs:348-355 and /repo/src/util.rs:1252-1260. *)
Definition decoded (body : bytes) : res bytes := if starts_with body [31; 139; 8]%N then gunzip body else Ok body.
(** The loop over the files to be written, /repo/src/tooltest.rs:344-371: failed, the names left and the files left, or what went wrong. *)
Fixpoint check_out (outs : list (bytes * matcher)) (failed : bool) (v : list bytes) (keep : bool) (d : dir) : res (bool * list bytes) * dir :=
  match outs with
  | [] => (Ok (failed, v), d)
  | (n, m) :: r =>
      match (match (if plain_name n then find_file n d else None) with
             | None => Ok true
             | Some c => rbind (decoded c) (fun body => rbind (match_safe m body) (fun ok => Ok (failed || negb ok)))
             end) with
      | Ok failed => match nuke v n keep d with Some (v, d) => check_out r failed v keep d | None => (Err, d) end
      | Err => (Err, d)
      | Panic => (Panic, d)
      end
  end.
(** Removing what is left over, /repo/src/tooltest.rs:375-378. *)
Fixpoint delete_all (ns : list bytes) (d : dir) : dir * bool :=
  match ns with
  | [] => (d, true)
  | n :: r => match delete_file n d with Some d => delete_all r d | None => (d, false) end
  end.
(** Test::run, /repo/src/tooltest.rs:254-394: the verdict and the files left. The messages on standard error are left out. *)
Definition run_test (cf : config) (t : test) (d : dir) : res bool * dir :=
  let keep := cf_keep cf in
  let '(d, ok) := write_in (t_in t) d in
  if negb ok then (Err, d) else
  let d := put_file (bs "stdin") (fun _ => t_stdin t) d in
  match split_blank (replace_tmp (cf_tmp cf) 0 (lossy (t_cmd t))) with
  | [] => (Err, d)
  | c0 :: args =>
      match exec (cf_bin cf ++ c0) args (t_stdin t) d with
      | None => (Err, d)
      | Some (code, out, err, d) =>
          let '(v, d, ok) := nuke_all (names d) (bs "stdin" :: map fst (t_in t)) keep d in
          if negb ok then (Err, d) else
          let failed := match code with Some c => negb (c =? t_code t)%Z | None => true end in
          match match_safe (t_stderr t) err, match_safe (t_stdout t) out with
          | Ok a, Ok b =>
              match check_out (t_out t) (failed || negb a || negb b) v keep d with
              | (Ok (failed, v), d) =>
                  if keep then
                    let d := put_file (bs "stdout") (written_over out) d in
                    (Ok (negb failed), put_file (bs "stderr") (written_over err) d)
                  else match v with
                       | [] => (Ok (negb failed), d)
                       | _ => let '(d, ok) := delete_all v d in (if ok then Ok false else Err, d)
                       end
              | (Err, d) => (Err, d)
              | (Panic, d) => (Panic, d)
              end
          | _, _ => (Panic, d)
          end
      end
  end.

(** Config::do_run, /repo/src/tooltest.rs:450-454: the verdict and the files left; None is a test file which cannot be opened. *)
Definition do_run (cf : config) (f : option src) (d : dir) : res bool * dir :=
  match f with
  | None => (Err, d)
  | Some s => match rbind test_new (fun t => open_test t s) with
              | Ok t => run_test cf t d
              | Err => (Err, d)
              | Panic => (Panic, d)
              end
  end.
(** Config::run, /repo/src/tooltest.rs:456-471, for one file after the other, /repo/src/bin/cdx/tooltest_main.rs:33-38. *)
Fixpoint run_files (cf : config) (fs : list (option src)) (d : dir) : res config * dir :=
  match fs with
  | [] => (Ok cf, d)
  | f :: r =>
      let '(mkconf p n b t k) := cf in
      match do_run cf f d with
      | (Ok true, d) => run_files (mkconf (p + 1) n b t k) r d
      | (Panic, d) => (Panic, d)
      | (_, d) => run_files (mkconf p (n + 1) b t k) r d
      end
  end.
(** Config::report, /repo/src/tooltest.rs:437-449. *)
Definition report (cf : config) : tool :=
  (print_N (cf_pass cf + cf_fail cf) ++ bs " test run, " ++ print_N (cf_pass cf) ++ bs " pass, " ++ print_N (cf_fail cf) ++ bs " failed" ++ [NL],
   if (0 <? cf_fail cf)%N then Err else Ok tt).

(** A path with a slash at its end, /repo/src/tooltest.rs:262-264, 423-425 and 432-434. *)
Definition with_slash (p : bytes) : bytes := if (last p 0 =? 47)%N then p else p ++ [47%N].
(** The directory made by TempDir::new, and create_dir_all with what is in the directory already, /repo/src/tooltest.rs:418 and 426. *)
Variable fresh : bytes.
Variable make_dir : bytes -> option dir.
(** The options, /repo/src/bin/cdx/tooltest_main.rs:16-32, and Config::new, tmp and bin, /repo/src/tooltest.rs:411-435: None is --file-format.
    Left out: --verbose writes the names to standard error. *)
Fixpoint test_args (cf : config) (d : dir) (args : list (bytes * bytes)) : res (option (config * dir)) :=
  match args with
  | [] => Ok (Some (cf, d))
  | (name, value) :: r =>
      if beq name (bs "bin") then test_args (mkconf (cf_pass cf) (cf_fail cf) (with_slash value) (cf_tmp cf) (cf_keep cf)) d r
      else if beq name (bs "verbose") then test_args cf d r
      else if beq name (bs "tmp") then
        match make_dir (with_slash value) with
        | None => Err
        | Some d => test_args (mkconf (cf_pass cf) (cf_fail cf) (cf_bin cf) (with_slash value) true) d r
        end
      else if beq name (bs "file-format") then Ok None else Panic
  end.
(** main, /repo/src/bin/cdx/tooltest_main.rs:5-41. *)
Definition tooltest_main (args : list (bytes * bytes)) (fs : list (option src)) : tool :=
  need (test_args (mkconf 0 0 (bs "./") (with_slash fresh) false) [] args) (fun x =>
  match x with
  | None => (show_format, Ok tt)
  | Some (cf, d) => need (fst (run_files cf fs d)) report
  end).
End Test.
