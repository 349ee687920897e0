(** Opening a file as the tools do, and the tools transpose, paste, sample, verify and cat of /repo/src/bin/cdx. *)
From Coq Require Import String List NArith ZArith Bool Arith.
Open Scope list_scope.
Import ListNotations.
From Verif Require Import Base TextModel TextSpec StrModel ReadModel HeadModel HdrModel ColModel.
Open Scope nat_scope.

(** What a tool has written, and how it ended; standard for every main of /repo/src/bin/cdx (e.g. paste_main.rs:28). *)
Notation tool := (bytes * res unit)%type (only parsing).
(** Writing and going on, w.write_all(..)? as in /repo/src/bin/cdx/paste_main.rs:129. *)
Definition say {A} (t : bytes) (k : bytes * res A) : bytes * res A := (t ++ fst k, snd k).
(** The question mark operator inside a tool, e.g. /repo/src/bin/cdx/paste_main.rs:69. *)
Definition need {A B} (x : res A) (k : A -> bytes * res B) : bytes * res B :=
  match x with Ok a => k a | Err => ([], Err) | Panic => ([], Panic) end.

(** TextFileMode, /repo/src/util.rs:248-272. *)
Record tmode := mkmode { tm_head : head_mode; tm_quote : quote_mode; tm_delim : N; tm_break : N }.
(** Reader with its InfileContext, /repo/src/util.rs:1265-1275 and 1482-1489: is_empty, the header line if has_header, the names. *)
Record tfile := mktf { tf_empty : bool; tf_head : option bytes; tf_names : list bytes; tf_rd : reader }.

Section Oracles.
(** String::from_utf8 at /repo/src/util.rs:391, char::is_alphabetic and is_alphanumeric at /repo/src/column.rs:1530 and 1535. *)
Variable utf8_ok : bytes -> bool.
Variables uni_alpha uni_alnum : N -> bool.
(** A column name acceptable in a header, /repo/src/util.rs:1917-1927, as in HeadModel. *)
Variable name_ok : bytes -> bool.
(** Transforms and matchers inside column sets, /repo/src/trans.rs and /repo/src/matcher.rs, as in ColModel. *)
Variable T : Type.
Variable match_make : bytes -> res (bytes -> bool).

(** Reader::new and Reader::open with InfileContext::read_header, /repo/src/util.rs:1509-1530, 1589-1592 and 1306-1335. *)
Definition open_file (md : tmode) (s : src) : res tfile :=
  rbind (read_header utf8_ok (tm_head md) (tm_quote md) (tm_break md) s) (fun '(empty, hd, s1) =>
  if empty then Ok (mktf true None [] (mkrd s1 (repeat tl_new 2) 0 true true 0 0))
  else match open_plain 1 (tm_quote md) (tm_delim md) (tm_break md) s1 with
       | None => Panic
       | Some r =>
           let has := match hd with [] => None | _ => Some hd end in
           let names := match hd with
                        | [] => if r_done r then [] else fake_names (tm_delim md) (List.length (tl_parts (nth 0 (r_lines r) tl_new)))
                        | _ => head_names (tm_delim md) hd
                        end in
           Ok (mktf false has names r)
       end).
(** Opening the files one after the other, /repo/src/bin/cdx/paste_main.rs:68-70, sample_main.rs:134-136, verify_main.rs:76-78. The
    tools open a file when its turn comes; here all are opened first, which matters only when opening a later one fails. *)
Fixpoint open_files (md : tmode) (ss : list src) : res (list tfile) :=
  match ss with
  | [] => Ok []
  | s :: r => rbind (open_file md s) (fun f => rbind (open_files md r) (fun fs => Ok (f :: fs)))
  end.
(** Reader::getline with the settings of the reader, /repo/src/util.rs:1621-1634. *)
Definition next_line (md : tmode) (r : reader) : res reader :=
  match getline (tm_quote md) (tm_delim md) (tm_break md) r with Some r' => Ok r' | None => Panic end.
(** Reader::do_split, /repo/src/util.rs:1514-1516. *)
Definition do_split (r : reader) (b : bool) : reader :=
  mkrd (r_src r) (r_lines r) (r_curr r) b (r_done r) (r_bytes r) (r_lineno r).
(** Turns of a loop that reads one line each: no more than there are bytes, and one; measure for the loops below, cf.
    /repo/src/util.rs:1621-1634. *)
Definition turns (r : reader) : nat := S (S (List.length (content (r_src r)))).

(** ** transpose *)
(** The reading loop of transpose, /repo/src/transpose.rs:14-20. *)
Fixpoint grab (fuel : nat) (md : tmode) (max : N) (r : reader) : res (list textline) :=
  match fuel with
  | O => Panic
  | S k =>
      if (max =? 0)%N then Ok []
      else rbind (prev_line r 0) (fun t => rbind (next_line md r) (fun r' =>
           if r_done r' then Ok [t] else rbind (grab k md (max - 1) r') (fun ts => Ok (t :: ts))))
  end.
(** One output line, /repo/src/transpose.rs:26-39: the header name first if there is a header, then field [i] of every line (TextLine's
    Index, /repo/src/util.rs:840-846). *)
Definition turned (hd : option bytes) (names : list bytes) (data : list textline) (i : nat) : bytes :=
  (match hd with
   | Some _ => nth i names [] ++ flat_map (fun t => TAB :: tl_get t i) data
   | None => match data with [] => [] | t :: r => tl_get t i ++ flat_map (fun t => TAB :: tl_get t i) r end
   end) ++ [NL].
(** transpose, /repo/src/transpose.rs:6-42, on an open file. *)
Definition transpose (md : tmode) (head : bool) (max : N) (f : tfile) : tool :=
  if tf_empty f then ([], Ok tt)
  else need (grab (turns (tf_rd f)) md max (tf_rd f)) (fun data =>
       say (if head then CDX ++ [TAB] else [])
           (flat_map (turned (tf_head f) (tf_names f) data) (seq 0 (List.length (tf_names f))), Ok tt)).

(** ** paste *)
(** EndMode, /repo/src/bin/cdx/paste_main.rs:8-13. *)
Inductive end_mode := Exact | Early | Late.
(** EndMode::new, /repo/src/bin/cdx/paste_main.rs:15-25. *)
Definition end_new (spec : bytes) : res end_mode :=
  let is w := beq (map lower spec) (bs w) in
  if is "exact"%string then Ok Exact else if is "early"%string then Ok Early else if is "late"%string then Ok Late else Err.
(** One input of paste: its reader and its range of columns, /repo/src/bin/cdx/paste_main.rs:62 and 66. *)
Record pfile := mkpf { pf_rd : reader; pf_from : nat; pf_to : nat }.
(** What is written for a file that has ended, /repo/src/bin/cdx/paste_main.rs:132-144. *)
Fixpoint fills (dflt : values T) (need_tab : bool) (from n : nat) : bytes * res unit :=
  match n with
  | O => ([], Ok tt)
  | S k => say (if need_tab then [TAB] else []) (need (values_get dflt from) (fun v => say v (fills dflt true (S from) k)))
  end.
Definition filler (use_last : bool) (dflt : values T) (p : pfile) : bytes * res unit := (* /repo/src/bin/cdx/paste_main.rs:132-144 *)
  if use_last then need (rbind (prev_line (pf_rd p) 1) tl_line_nl) (fun b => (b, Ok tt))
  else fills dflt false (pf_from p) (pf_to p - pf_from p).
(** The loop over the files for one output line, /repo/src/bin/cdx/paste_main.rs:127-152: the readers after it and how many ended. *)
Fixpoint paste_row (md : tmode) (use_last : bool) (dflt : values T) (need_tab : bool) (ps : list pfile) : bytes * res (list pfile * nat) :=
  match ps with
  | [] => ([], Ok ([], 0))
  | p :: rest =>
      say (if need_tab then [TAB] else [])
      (if r_done (pf_rd p) then
         let '(t, e) := filler use_last dflt p in
         say t (need e (fun _ => let '(t', e') := paste_row md use_last dflt true rest in
                                 say t' (need e' (fun '(ps', n) => ([], Ok (p :: ps', n))))))
       else need (rbind (prev_line (pf_rd p) 0) tl_line_nl) (fun b => say b (need (next_line md (pf_rd p)) (fun r' =>
              let '(t', e') := paste_row md use_last dflt true rest in
              say t' (need e' (fun '(ps', n) => ([], Ok (mkpf r' (pf_from p) (pf_to p) :: ps', if r_done r' then S n else n))))))))
  end.
(** The main loop, /repo/src/bin/cdx/paste_main.rs:98-153. num_live - 1 cannot underflow. The message of the error is dropped. *)
Fixpoint paste_loop (fuel : nat) (md : tmode) (mode : end_mode) (use_last : bool) (dflt : values T) (live dead : nat) (ps : list pfile)
  : tool :=
  match fuel with
  | O => ([], Panic)
  | S k =>
      if live =? 0 then ([], Ok tt)
      else if match mode with Exact => negb (dead =? 0) | _ => false end then ([], Err)
      else if match mode with Early => negb (dead =? 0) | _ => false end then ([], Ok tt)
      else let '(t, e) := paste_row md use_last dflt false ps in
           say t (need e (fun '(ps', n) => say [NL] (paste_loop k md mode use_last dflt (live - n) (dead + n) ps')))
  end.
(** The loop that opens the files, /repo/src/bin/cdx/paste_main.rs:68-91, on files already open: the header, whether it is written,
    how many files are alive and dead, and the inputs. *)
Fixpoint paste_open (fs : list tfile) (h : header) (do_header : bool) (live dead cols : nat) (ps : list pfile)
  : res (header * bool * nat * nat * list pfile) :=
  match fs with
  | [] => Ok (h, do_header, live, dead, ps)
  | f :: rest =>
      let dh := match tf_head f with Some _ => do_header | None => false end in
      let '(h', ok) := if dh then push_all uni_alpha uni_alnum h (tf_names f) else (push_all_unchecked h (tf_names f), true) in
      if negb ok then Err
      else let n := List.length (tf_names f) in
           let p := mkpf (tf_rd f) cols (cols + n) in
           if r_done (tf_rd f) then paste_open rest h' dh live (S dead) (cols + n) (ps ++ [p])
           else paste_open rest h' dh (S live) dead (cols + n) (ps ++ [p])
  end.
(** main of paste, /repo/src/bin/cdx/paste_main.rs:62-155, on open files: [h] holds the renames and the handling of repeated names,
    [dflt] the values given, [cdx] and [odelim] describe the output header. *)
Definition paste (md : tmode) (mode : end_mode) (use_last : bool) (dflt : values T) (h : header) (cdx : bool) (odelim : N) (fs : list tfile)
  : tool :=
  need (paste_open fs h true 0 0 0 []) (fun '(h', dh, live, dead, ps) =>
  if negb (check_rename h') then ([], Err)
  else need (if dh then get_head cdx odelim (h_cols h') else Ok []) (fun t =>
       say t (need (values_lookup match_make dflt (h_cols h')) (fun d =>
       paste_loop (S (list_sum (map (fun p => turns (pf_rd p)) ps))) md mode use_last d live dead ps)))).

(** ** sample *)
(** Ranges, /repo/src/bin/cdx/sample_main.rs:8-11: first and last line number of each. *)
Notation ranges := (list (N * N)) (only parsing).
(** Ranges::push, /repo/src/bin/cdx/sample_main.rs:13-24. *)
Definition range_push (spec : bytes) : res (N * N) :=
  match split_once 45 spec with
  | Some (a, b) => rbind (to_usize_whole a) (fun x => rbind (to_usize_whole b) (fun y => Ok (x, y)))
  | None => rbind (to_usize_whole spec) (fun x => Ok (x, x))
  end.
Fixpoint range_pushes (l : list bytes) : res ranges := (* /repo/src/bin/cdx/sample_main.rs:115-117 *)
  match l with
  | [] => Ok []
  | x :: r => rbind (range_push x) (fun p => rbind (range_pushes r) (fun ps => Ok (p :: ps)))
  end.
Definition ranges_new (spec : bytes) : res ranges := range_pushes (split_on 44 spec). (* /repo/src/bin/cdx/sample_main.rs:110-117 *)
Definition range_max (v : ranges) : N := fold_left (fun a p => N.max a (snd p)) v 0%N. (* /repo/src/bin/cdx/sample_main.rs:25-31 *)
Definition range_in (v : ranges) (n : N) : bool := existsb (fun p => ((fst p <=? n) && (n <=? snd p))%N) v. (* sample_main.rs:32-39 *)
(** For, /repo/src/bin/cdx/sample_main.rs:42-55. *)
Record floop := mkfor { fo_by : N; fo_from : N; fo_to : N }.
Definition for_default : floop := mkfor 1 1 (2 ^ 64 - 1). (* /repo/src/bin/cdx/sample_main.rs:47-55 *)
(** For::new, /repo/src/bin/cdx/sample_main.rs:58-83. *)
Definition for_new (spec : bytes) : res floop :=
  match spec with
  | [] => Err
  | _ =>
      let part (i : nat) (d : N) := match nth_error (split_on 44 spec) i with Some x => to_usize_whole x | None => Ok d end in
      rbind (part 0 1%N) (fun by_ => rbind (part 1 1%N) (fun from => rbind (part 2 (2 ^ 64 - 1)%N) (fun to =>
      if 3 <? List.length (split_on 44 spec) then Err
      else if ((by_ =? 0) || (from =? 0) || (to =? 0))%N then Err
      else Ok (mkfor by_ from to))))
  end.
Definition line_no (r : reader) : N := N.of_nat (r_lineno r). (* Reader::line_number, /repo/src/util.rs:1610-1612 *)
(** The loop for --for, /repo/src/bin/cdx/sample_main.rs:157-166. The sum overflows only with line numbers near 2^64: a panic in builds
    with overflow checks. *)
Fixpoint for_loop (fuel : nat) (md : tmode) (by_ to next : N) (r : reader) : tool :=
  match fuel with
  | O => ([], Panic)
  | S k =>
      if (line_no r <=? to)%N then
        let go n := need (next_line md r) (fun r' => if r_done r' then ([], Ok tt) else for_loop k md by_ to n r') in
        if (line_no r =? next)%N then
          need (prev_line r 0) (fun t => say (tl_text t) (if (next + by_ <? 2 ^ 64)%N then go (next + by_)%N else ([], Panic)))
        else go next
      else ([], Ok tt)
  end.
(** The loop for --range, /repo/src/bin/cdx/sample_main.rs:168-176. *)
Fixpoint range_loop (fuel : nat) (md : tmode) (v : ranges) (r : reader) : tool :=
  match fuel with
  | O => ([], Panic)
  | S k =>
      if (line_no r <=? range_max v)%N then
        let go := need (next_line md r) (fun r' => if r_done r' then ([], Ok tt) else range_loop k md v r') in
        if range_in v (line_no r) then need (prev_line r 0) (fun t => say (tl_text t) go) else go
      else ([], Ok tt)
  end.
(** The two ways of choosing lines; --sample is in SampModel. /repo/src/bin/cdx/sample_main.rs:147-177. *)
Inductive choice := ByFor (f : floop) | ByRange (v : ranges).
Definition choose (md : tmode) (c : choice) (r : reader) : tool := (* /repo/src/bin/cdx/sample_main.rs:156-177 *)
  match c with
  | ByFor f => for_loop (turns r) md (fo_by f) (fo_to f) (fo_from f) r
  | ByRange v => range_loop (turns r) md v r
  end.
(** The loop over the files, /repo/src/bin/cdx/sample_main.rs:134-178, on files already open. *)
Fixpoint sample (md : tmode) (c : choice) (ck : checker) (fs : list tfile) : tool :=
  match fs with
  | [] => ([], Ok tt)
  | f :: rest =>
      if tf_empty f then sample md c ck rest
      else let '(v, ck') := check_file utf8_ok name_ok MMatch ck (tf_head f) in
           need v (fun b =>
           say (if b then match tf_head f with Some h => h | None => [] end else [])
           (if r_done (tf_rd f) then ([], Ok tt)
            else let '(t, e) := choose md c (do_split (tf_rd f) false) in
                 say t (need e (fun _ => sample md c ck' rest))))
  end.

(** ** verify *)
(** What verify is told to check, /repo/src/bin/cdx/verify_main.rs:36-42. The list of patterns, the comparison of two lines and the
    checks of the first and last line are modelled in MatchModel, CompModel and CheckModel; here they are functions of the line.
    They may depend on the names of the file, of which only the number matters here. [vr_max] is max_fails, always 5. *)
Record rules := mkrules { vr_line : textline -> bool; vr_sort : bool; vr_unique : bool; vr_comp : textline -> textline -> comparison;
  vr_first : option (textline -> bool); vr_last : option (textline -> bool); vr_max : nat }.
(** comp_check, /repo/src/comp.rs:1937-1956. *)
Definition out_of_order (v : rules) (a b : textline) : bool :=
  match vr_comp v a b with Lt => false | Eq => vr_unique v | Gt => true end.
Definition passes (c : option (textline -> bool)) (t : textline) : bool := (* /repo/src/bin/cdx/verify_main.rs:88-96 and 113-121 *)
  match c with Some f => f t | None => true end.
(** The loop over the lines of a file, /repo/src/bin/cdx/verify_main.rs:98-133: the number of failures. *)
Fixpoint verify_loop (fuel : nat) (md : tmode) (v : rules) (cols fails : nat) (r : reader) : res nat :=
  match fuel with
  | O => Panic
  | S k =>
      rbind (prev_line r 0) (fun t =>
      let bad := negb (List.length (tl_parts t) =? cols) || negb (vr_line v t) in
      rbind (next_line md r) (fun r' =>
      if r_done r' then rbind (prev_line r' 1) (fun p => Ok (if passes (vr_last v) p then fails else S fails))
      else rbind (prev_line r' 0) (fun t' => rbind (prev_line r' 1) (fun p =>
           let bad' := bad || (vr_sort v && out_of_order v p t') in
           if bad' then if vr_max v <=? S fails then Ok (S fails) else verify_loop k md v cols (S fails) r'
           else verify_loop k md v cols fails r'))))
  end.
(** One file, /repo/src/bin/cdx/verify_main.rs:80-133: the failures, 0 for a file without data lines. *)
Definition verify_file (md : tmode) (v : rules) (f : tfile) : res nat :=
  if tf_empty f || r_done (tf_rd f) then Ok 0
  else rbind (prev_line (tf_rd f) 0) (fun t =>
       verify_loop (turns (tf_rd f)) md v (List.length (tf_names f)) (if passes (vr_first v) t then 0 else 1) (tf_rd f)).
(** The loop over the files, /repo/src/bin/cdx/verify_main.rs:77-137. *)
Fixpoint verify (md : tmode) (v : rules) (fs : list tfile) : res unit :=
  match fs with
  | [] => Ok tt
  | f :: rest => rbind (verify_file md v f) (fun n => if n =? 0 then verify md v rest else Err)
  end.

(** ** cat *)
(** PadMode, /repo/src/bin/cdx/cat_main.rs:7-11. *)
Inductive pad_mode := PadNone | PadAll | PadEnd.
(** The loop over the files when no line has to be numbered or dropped, /repo/src/bin/cdx/cat_main.rs:184-210. A read of the rest of a
    file gives what is buffered or the next chunk, an empty one ends it; what counts is that [last_was_cr] is set from the first line
    whenever something is read. *)
Fixpoint copy_rest (cs : list bytes) : bytes * bool := (* /repo/src/bin/cdx/cat_main.rs:195-202: the bytes and whether there were any *)
  match cs with
  | [] => ([], false)
  | [] :: _ => ([], false)
  | c :: r => (c ++ fst (copy_rest r), true)
  end.
Definition copy_src (s : src) : bytes * bool := (* /repo/src/bin/cdx/cat_main.rs:195-202 *)
  match s_buf s with
  | [] => copy_rest (s_chunks s)
  | b => (b ++ fst (copy_rest (s_chunks s)), true)
  end.
Definition ends_nl (l : bytes) : bool := (last l 0 =? NL)%N. (* /repo/src/bin/cdx/cat_main.rs:193 and 201; the line is not empty *)
Fixpoint cat (m : hmode) (pad : pad_mode) (last_cr : bool) (ck : checker) (fs : list src) : tool :=
  match fs with (* /repo/src/bin/cdx/cat_main.rs:184-210 *)
  | [] => (match pad with PadEnd => if last_cr then [] else [NL] | _ => [] end, Ok tt)
  | s :: rest =>
      let '(line, s1) := read_until NL s in
      match line with
      | [] => cat m pad last_cr ck rest
      | _ =>
          let '(v, ck') := check utf8_ok name_ok m ck line in
          need v (fun b =>
          let cr1 := if b then ends_nl line else last_cr in
          let '(more, any) := copy_src s1 in
          let cr2 := if any then ends_nl line else cr1 in
          say ((if b then line else []) ++ more)
          (match pad with
           | PadAll => if cr2 then cat m pad cr2 ck' rest else say [NL] (cat m pad true ck' rest)
           | _ => cat m pad cr2 ck' rest
           end))
      end
  end.
End Oracles.
