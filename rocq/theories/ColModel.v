(** Model of column sets, column writers, scoped values and composite columns, /repo/src/column.rs.
    A Rust str is modelled as the list of its characters; see HdrModel. *)
From Coq Require Import String List NArith ZArith Bool Arith.
Open Scope list_scope.
From Verif Require Import Base TextSpec TextModel StrSpec StrModel MatchModel ReadModel HdrModel.
Import ListNotations.

(** OutCol, /repo/src/column.rs:331-338. *)
Record outcol := mkoc { oc_num : N; oc_name : bytes; oc_trans : option nat }.
(** ColSetPart, /repo/src/column.rs:316-319. *)
Record part := mkpart { p_val : bytes; p_trans : option nat }.

Section Col.
(** char::is_alphabetic and is_alphanumeric outside ASCII, /repo/src/column.rs:780,1507,1530,1535. *)
Variable uni_alpha uni_alnum : N -> bool.
(** A TransList, TransList::new and TransList::trans, /repo/src/column.rs:312,796,1081. The scratch buffers inside are not followed:
    by c35_chain the result does not depend on them. *)
Variable T : Type.
Variable trans_make : bytes -> res T.
Variable trans_run : T -> bytes -> res bytes.
(** MatchMaker::make and Matcher::smatch, /repo/src/column.rs:882-884. *)
Variable match_make : bytes -> res (bytes -> bool).

(** ColumnSet, /repo/src/column.rs:307-313. *)
Record colset := mkset { cs_pos : list part; cs_neg : list part; cs_cols : list outcol; cs_done : bool; cs_trans : list T }.
Definition set_new : colset := mkset [] [] [] false []. (* /repo/src/column.rs:731-733 *)

(** add_one, /repo/src/column.rs:758-774. *)
Definition add_one (c : colset) (s : bytes) (negate : bool) (tr : option nat) : colset :=
  let yes st := mkset (cs_pos c ++ [st]) (cs_neg c) (cs_cols c) (cs_done c) (cs_trans c) in
  let no st := mkset (cs_pos c) (cs_neg c ++ [st]) (cs_cols c) (cs_done c) (cs_trans c) in
  match s with
  | ch :: r => if (ch =? 126)%N then if negate then yes (mkpart r tr) else no (mkpart r tr)
               else if negate then no (mkpart s tr) else yes (mkpart s tr)
  | [] => if negate then no (mkpart s tr) else yes (mkpart s tr)
  end.
(** find_trans, /repo/src/column.rs:776-790; [seen] is the text before, in reverse, without a plus sign just seen. *)
Fixpoint find_trans_loop (l seen : bytes) (plus : bool) : option (bytes * bytes) :=
  match l with
  | [] => None
  | x :: r =>
      if plus then if alphabetic uni_alpha x then Some (rev seen, l) else find_trans_loop r (x :: 43%N :: seen) false
      else if (x =? 43)%N then find_trans_loop r seen true
      else find_trans_loop r (x :: seen) false
  end.
Definition find_trans (spec : bytes) : option (bytes * bytes) := find_trans_loop spec [] false. (* /repo/src/column.rs:776-790 *)
(** The loop of add, /repo/src/column.rs:801-816; every turn shortens the text, so the fuel never runs out. *)
Fixpoint add_loop (fuel : nat) (c : colset) (spc : bytes) (negate : bool) (tr : option nat) : res colset :=
  match fuel with
  | O => Panic
  | S f =>
      match spc with
      | [] => Panic
      | ch :: _ =>
          if (ch =? 40)%N then
            rbind (find_close spc) (fun pos =>
              let c' := add_one c (firstn pos spc) negate tr in
              match skipn pos spc with [] => Ok c' | rest => add_loop f c' rest negate tr end)
          else match split_once 44 spc with
               | Some (a, b) => add_loop f (add_one c a negate tr) b negate tr
               | None => Ok (add_one c spc negate tr)
               end
      end
  end.
(** add, /repo/src/column.rs:792-818; add_yes and add_no, 748-755, pass the flag. *)
Definition add (c : colset) (spec : bytes) (negate : bool) : res colset :=
  match find_trans spec with
  | Some (a, b) =>
      rbind (trans_make b) (fun t =>
        add_loop (S (List.length a)) (mkset (cs_pos c) (cs_neg c) (cs_cols c) (cs_done c) (cs_trans c ++ [t])) a negate
                 (Some (List.length (cs_trans c))))
  | None => add_loop (S (List.length spec)) c spec negate None
  end.

(** A sequence of add_yes (false) and add_no (true) calls, /repo/src/column.rs:748-755, as made for repeated options. *)
Fixpoint adds (c : colset) (calls : list (bool * bytes)) : res colset :=
  match calls with
  | [] => Ok c
  | (negate, spec) :: r => rbind (add c spec negate) (fun c => adds c r)
  end.

(** lookup_col, /repo/src/column.rs:828-835. *)
Fixpoint lookup_col (names : list bytes) (name : bytes) (i : N) : res N :=
  match names with
  | [] => Err
  | x :: r => if beq x name then Ok i else lookup_col r name (i + 1)
  end.
(** single, /repo/src/column.rs:855-877. *)
Definition single (names : list bytes) (col : bytes) : res N :=
  match col with
  | [] => Panic
  | ch :: r =>
      if (ch =? 43)%N then
        rbind (to_usize_whole r) (fun n =>
          let len := N.of_nat (List.length names) in if (len <? n)%N then Err else Ok (len - n)%N)
      else if is_digit ch && negb (ch =? 48)%N then
        rbind (to_usize_whole col) (fun n => if (n <? 1)%N then Err else Ok (n - 1)%N)
      else lookup_col names col 0
  end.
(** match_range, /repo/src/column.rs:880-890. *)
Fixpoint match_all (f : bytes -> bool) (names : list bytes) (i : N) : list N :=
  match names with
  | [] => []
  | x :: r => if f x then i :: match_all f r (i + 1) else match_all f r (i + 1)
  end.
(** The numbers of an inclusive Rust range, /repo/src/column.rs:948. *)
Definition upto (a b : N) : list N := map (fun k => (a + N.of_nat k)%N) (seq 0 (N.to_nat (b - a) + 1)).
(** range, /repo/src/column.rs:907-952. The slice at 919 panics when the text has one character or ends in a character outside ASCII. *)
Definition range (names : list bytes) (rng : bytes) : res (list outcol) :=
  match rng with
  | [] => Err
  | _ =>
      let '(name, body) := match split_once 58 rng with None => ([], rng) | Some x => x end in
      match body with
      | [] => Panic
      | ch :: inner =>
          if (ch =? 40)%N then
            match inner with
            | [] => Panic
            | _ => if (127 <? last inner 0)%N then Panic
                   else rbind (match_make (removelast inner)) (fun f => Ok (map (fun n => mkoc n name None) (match_all f names 0)))
            end
          else
            match split_str 45 body with
            | [a] => rbind (single names (match a with [] => bs "1" | _ => a end)) (fun k => Ok [mkoc k name None])
            | [a; b] =>
                rbind (single names (match a with [] => bs "1" | _ => a end)) (fun s =>
                rbind (single names (match b with [] => bs "+1" | _ => b end)) (fun e =>
                if (e <? s)%N then Err else Ok (map (fun n => mkoc n name None) (upto s e))))
            | _ => Err
            end
      end
  end.
Fixpoint ranges (names : list bytes) (ps : list part) : res (list outcol) := (* the loops of lookup, /repo/src/column.rs:970-974 and 983-990 *)
  match ps with
  | [] => Ok []
  | p :: r => rbind (range names (p_val p)) (fun l => rbind (ranges names r) (fun l' =>
      Ok (map (fun x => mkoc (oc_num x) (oc_name x) (p_trans p)) l ++ l')))
  end.
(** lookup, /repo/src/column.rs:965-993. On an error the columns are left partly filled; only the Ok case is kept. *)
Definition lookup (c : colset) (names : list bytes) : res colset :=
  rbind (ranges names (cs_neg c)) (fun no =>
    let keep n := negb (existsb (fun x => (oc_num x =? n)%N) no) in
    rbind (match cs_pos c with
           | [] => Ok (map (fun k => mkoc (N.of_nat k) [] None) (filter (fun k => keep (N.of_nat k)) (seq 0 (List.length names))))
           | ps => rbind (ranges names ps) (fun l => Ok (filter (fun x => keep (oc_num x)) l))
           end) (fun cols => Ok (mkset (cs_pos c) (cs_neg c) cols true (cs_trans c)))).
(** lookup_cols, /repo/src/column.rs:1208-1213. *)
Definition lookup_cols (spec : bytes) (names : list bytes) : res (list N) :=
  rbind (add set_new spec false) (fun c => rbind (lookup c names) (fun c => Ok (map oc_num (cs_cols c)))).
(** lookup1, /repo/src/column.rs:1232-1244. *)
Definition lookup1 (spec : bytes) (names : list bytes) : res N :=
  rbind (lookup_cols spec names) (fun l => match l with [n] => Ok n | _ => Err end).

(** What was written and how the call ended. *)
Definition wout := (bytes * res unit)%type. (* the writer argument and the result, e.g. /repo/src/column.rs:1030 *)
(** One write after another, the second only if the first succeeds: the question marks of e.g. /repo/src/column.rs:1038-1043. *)
Definition wseq (a b : wout) : wout := match snd a with Ok _ => (fst a ++ fst b, snd b) | _ => a end.
Definition wput (b : bytes) : wout := (b, Ok tt). (* write_all on a writer that does not fail, e.g. /repo/src/column.rs:1041 *)
Definition wall (l : list wout) : wout := fold_right wseq ([], Ok tt) l. (* a loop of writes, e.g. /repo/src/column.rs:1040-1051 *)

(** Slice indexing, which panics, and TextLine::get, which gives an empty text; /repo/src/column.rs:1038,1067 and 1070. *)
Definition at_or_panic (fields : list bytes) (n : N) : wout :=
  match nth_error fields (N.to_nat n) with Some x => wput x | None => ([], Panic) end.
Definition get_or_empty (fields : list bytes) (n : N) : bytes := nth (N.to_nat n) fields []. (* /repo/src/util.rs:840-846 and 921-927 *)
Definition at_or_err (fields : list bytes) (n : N) : wout := (* /repo/src/column.rs:1042-1050 *)
  match nth_error fields (N.to_nat n) with Some x => wput x | None => ([], Err) end.

(** select, /repo/src/column.rs:1009-1026, and select_sloppy, 1157-1175. *)
Fixpoint select_loop (cols : list outcol) (fields : list bytes) : res (list bytes) :=
  match cols with
  | [] => Ok []
  | x :: r => match nth_error fields (N.to_nat (oc_num x)) with Some f => rbind (select_loop r fields) (fun l => Ok (f :: l)) | None => Err end
  end.
Definition select (c : colset) (fields : list bytes) : res (list bytes) := (* /repo/src/column.rs:1009-1026 *)
  if negb (cs_done c) then Err else select_loop (cs_cols c) fields.
Definition select_sloppy (c : colset) (fields : list bytes) (rest : bytes) : res (list bytes) := (* /repo/src/column.rs:1157-1175 *)
  if negb (cs_done c) then Err
  else Ok (map (fun x => match nth_error fields (N.to_nat (oc_num x)) with Some f => f | None => rest end) (cs_cols c)).
(** write, /repo/src/column.rs:1030-1056. *)
Definition write (c : colset) (fields : list bytes) (delim : bytes) : wout :=
  if negb (cs_done c) then ([], Err)
  else wseq (match cs_cols c with
             | [] => wput []
             | x :: r => wseq (at_or_panic fields (oc_num x)) (wall (map (fun x => wseq (wput delim) (at_or_err fields (oc_num x))) r))
             end) (wput [NL]).
(** write2, /repo/src/column.rs:1059-1076. *)
Definition write2 (c : colset) (fields : list bytes) (delim : N) : wout :=
  if negb (cs_done c) then ([], Err)
  else wseq (match cs_cols c with
             | [] => wput []
             | x :: r => wseq (at_or_panic fields (oc_num x)) (wall (map (fun x => wput (delim :: get_or_empty fields (oc_num x))) r))
             end) (wput [NL]).
(** TextFileMode, /repo/src/util.rs:248-260, without its header mode. *)
Record tmode := mktm { tm_quote : quote_mode; tm_delim : N; tm_break : N; tm_repl : N }.
Definition text_write (t : tmode) (b : bytes) : wout := wput (mode_write (tm_quote t) b (tm_delim t) (tm_break t) (tm_repl t)). (* util.rs:348-354 *)
(** fetch, /repo/src/column.rs:1078-1085: unwrap panics when a transform fails. *)
Definition fetch (c : colset) (fields : list bytes) (x : outcol) : res bytes :=
  match oc_trans x with
  | None => Ok (get_or_empty fields (oc_num x))
  | Some i => match nth_error (cs_trans c) i with
              | None => Panic
              | Some t => match trans_run t (get_or_empty fields (oc_num x)) with Ok b => Ok b | _ => Panic end
              end
  end.
(** write3, /repo/src/column.rs:1088-1106. *)
Definition fetch_write (c : colset) (fields : list bytes) (t : tmode) (x : outcol) : wout := (* /repo/src/column.rs:1100 and 1103 *)
  match fetch c fields x with Ok b => text_write t b | Err => ([], Err) | Panic => ([], Panic) end.
Definition write3 (c : colset) (fields : list bytes) (t : tmode) : wout := (* /repo/src/column.rs:1088-1106 *)
  if negb (cs_done c) then ([], Err)
  else match cs_cols c with
       | [] => wput []
       | x :: r => wseq (fetch_write c fields t x) (wall (map (fun x => wseq (wput [tm_delim t]) (fetch_write c fields t x)) r))
       end.
(** write3s, /repo/src/column.rs:1109-1125. *)
Definition write3s (c : colset) (fields : list bytes) (delim : N) : wout :=
  if negb (cs_done c) then ([], Err)
  else match cs_cols c with
       | [] => wput []
       | x :: r => wseq (wput (get_or_empty fields (oc_num x))) (wall (map (fun x => wput (delim :: get_or_empty fields (oc_num x))) r))
       end.
(** write_sloppy, /repo/src/column.rs:1129-1141. *)
Definition write_sloppy (c : colset) (fields : list bytes) (rest : bytes) : wout :=
  if negb (cs_done c) then ([], Err)
  else wall (map (fun x => wput (match nth_error fields (N.to_nat (oc_num x)) with Some f => f | None => rest end)) (cs_cols c)).

(** ScopedValue, /repo/src/column.rs:381-384. *)
Record scoped := mksv { sv_cols : colset; sv_value : bytes }.
(** The loop of ScopedValue::new, /repo/src/column.rs:406-414. *)
Fixpoint sv_loop (spec : bytes) (del : N) (value : bytes) : res scoped :=
  match spec with
  | [] => Ok (mksv set_new value)
  | ch :: r => if (ch =? del)%N then rbind (add set_new r false) (fun c => Ok (mksv c value)) else sv_loop r del (value ++ [ch])
  end.
(** ScopedValue::new, /repo/src/column.rs:388-415. The result of skip_first at 396 is dropped, so the text still starts with the
    delimiter afterwards. *)
Definition sv_new (spec : bytes) (del : N) : res scoped :=
  match spec with
  | [] => Ok (mksv set_new [])
  | ch :: _ => if (ch =? del)%N then sv_loop spec del [del] else sv_loop spec del []
  end.
Definition sv_new2 (value cols : bytes) : res scoped := rbind (add set_new cols false) (fun c => Ok (mksv c value)). (* column.rs:417-422 *)

(** ScopedValues, /repo/src/column.rs:431-439, without the numbers. *)
Record values := mkvals { vs_default : bytes; vs_data : list scoped; vs_has : list bool; vs_strings : list bytes }.
(** Assigning one element of a vector, /repo/src/column.rs:461-462. *)
Fixpoint set_at {A} (l : list A) (n : nat) (x : A) : res (list A) :=
  match l, n with
  | [], _ => Panic
  | _ :: r, O => Ok (x :: r)
  | y :: r, S n => rbind (set_at r n x) (fun r => Ok (y :: r))
  end.
Fixpoint assign (cols : list outcol) (v : bytes) (s : list bytes) (h : list bool) : res (list bytes * list bool) := (* column.rs:459-463 *)
  match cols with
  | [] => Ok (s, h)
  | x :: r => rbind (set_at s (N.to_nat (oc_num x)) v) (fun s => rbind (set_at h (N.to_nat (oc_num x)) true) (fun h => assign r v s h))
  end.
Fixpoint values_loop (data : list scoped) (names : list bytes) (s : list bytes) (h : list bool) : res (list scoped * list bytes * list bool) :=
  match data with (* /repo/src/column.rs:457-464 *)
  | [] => Ok ([], s, h)
  | d :: r => rbind (lookup (sv_cols d) names) (fun c => rbind (assign (cs_cols c) (sv_value d) s h) (fun '(s, h) =>
              rbind (values_loop r names s h) (fun '(r, s, h) => Ok (mksv c (sv_value d) :: r, s, h))))
  end.
(** ScopedValues::lookup, /repo/src/column.rs:452-466. *)
Definition values_lookup (v : values) (names : list bytes) : res values :=
  let n := List.length names in
  rbind (values_loop (vs_data v) names (repeat (vs_default v) n) (repeat false n)) (fun '(d, s, h) => Ok (mkvals (vs_default v) d h s)).
(** ScopedValues::get, /repo/src/column.rs:498-504. *)
Definition values_get (v : values) (col : nat) : res bytes :=
  match nth_error (vs_strings v) col with
  | Some x => Ok x
  | None => match vs_strings v with [] => Panic | s => Ok (last s []) end
  end.
Definition values_has (v : values) (col : nat) : bool := nth col (vs_has v) false. (* /repo/src/column.rs:525-531 *)
(** make_ints, /repo/src/column.rs:468-476: the vector is cleared and then indexed. *)
Definition make_ints (v : values) : res (list Z) := match vs_strings v with [] => Ok [] | _ => Panic end.

(** NamedCol, /repo/src/column.rs:1430-1437. *)
Record named_col := mknc { nc_name : bytes; nc_num : N; nc_end : N }.
Definition nc_new : named_col := mknc [] 0 0. (* /repo/src/column.rs:1455-1457 *)
(** NamedCol::parse, /repo/src/column.rs:1485-1518. After a plus sign, take_first gives the plus sign again, so the branches for it
    are not reached. num - 1 underflows when the number wraps to zero: a panic in builds with overflow checks. *)
Definition nc_parse (c : named_col) (spec : bytes) : res (named_col * bytes) :=
  match spec with
  | [] => Err
  | ch :: _ =>
      if is_digit ch && negb (ch =? 48)%N then
        let '(n, rest) := to_usize spec in if (n =? 0)%N then Panic else Ok (mknc [] (n - 1) (nc_end c), rest)
      else if alphabetic uni_alpha ch then
        let pos := get_col_name uni_alpha uni_alnum spec in Ok (mknc (firstn pos spec) 0 (nc_end c), skipn pos spec)
      else Err
  end.
(** NamedCol::lookup, /repo/src/column.rs:1469-1483. *)
Definition nc_lookup (c : named_col) (names : list bytes) : res named_col :=
  match nc_name c with
  | _ :: _ => rbind (lookup_col names (nc_name c) 0) (fun n => Ok (mknc (nc_name c) n (nc_end c)))
  | [] => if (0 <? nc_end c)%N then
            if (N.of_nat (List.length names) <? nc_end c)%N then Err
            else Ok (mknc [] (N.of_nat (List.length names) - nc_end c) (nc_end c))
          else Ok c
  end.
(** CompositeColumn, /repo/src/column.rs:1545-1565. *)
Record composite := mkcomp { cc_parts : list (bytes * named_col); cc_suffix : bytes; cc_name : bytes }.
(** The loop of CompositeColumn::set, /repo/src/column.rs:1602-1629; every turn shortens the text, so the fuel never runs out. *)
Fixpoint comp_loop (fuel : nat) (curr : bytes) (parts : list (bytes * named_col)) (suffix : bytes) : res (list (bytes * named_col) * bytes) :=
  match fuel with
  | O => Panic
  | S f =>
      match curr with
      | [] => Ok (parts, suffix)
      | ch :: r =>
          if negb (ch =? 94)%N then comp_loop f r parts (suffix ++ [ch])
          else match r with
               | [] => comp_loop f r parts (suffix ++ [94%N])
               | c2 :: r2 =>
                   if (c2 =? 94)%N then comp_loop f r2 parts (suffix ++ [94%N])
                   else if (c2 =? 123)%N then
                     rbind (nc_parse nc_new r2) (fun '(col, rest) =>
                       match rest with
                       | c3 :: r3 => if (c3 =? 125)%N then comp_loop f r3 (parts ++ [(suffix, col)]) [] else Err
                       | [] => Err
                       end)
                   else rbind (nc_parse nc_new r) (fun '(col, rest) => comp_loop f rest (parts ++ [(suffix, col)]) [])
               end
      end
  end.
(** CompositeColumn::set and new, /repo/src/column.rs:1569-1573 and 1591-1631. *)
Definition comp_set (spec : bytes) : res composite :=
  match split_once 58 spec with
  | None => Err
  | Some (name, body) => rbind (comp_loop (S (List.length body)) body [] []) (fun '(p, s) => Ok (mkcomp p s name))
  end.
Fixpoint comp_lookup_parts (ps : list (bytes * named_col)) (names : list bytes) : res (list (bytes * named_col)) := (* column.rs:1576-1578 *)
  match ps with
  | [] => Ok []
  | (p, c) :: r => rbind (nc_lookup c names) (fun c => rbind (comp_lookup_parts r names) (fun r => Ok ((p, c) :: r)))
  end.
Definition comp_lookup (c : composite) (names : list bytes) : res composite := (* /repo/src/column.rs:1575-1580 *)
  rbind (comp_lookup_parts (cc_parts c) names) (fun p => Ok (mkcomp p (cc_suffix c) (cc_name c))).
(** CompositeColumn::get, /repo/src/column.rs:1582-1589. The literal texts are written as UTF-8. *)
Fixpoint comp_get_parts (ps : list (bytes * named_col)) (fields : list bytes) : res bytes :=
  match ps with
  | [] => Ok []
  | (p, c) :: r => match nth_error fields (N.to_nat (nc_num c)) with
                   | None => Panic
                   | Some f => rbind (comp_get_parts r fields) (fun b => Ok (utf8 p ++ f ++ b))
                   end
  end.
Definition comp_get (c : composite) (fields : list bytes) : res bytes := (* /repo/src/column.rs:1582-1589 *)
  rbind (comp_get_parts (cc_parts c) fields) (fun b => Ok (b ++ utf8 (cc_suffix c))).
(** CompositeColumn as ColumnFun, /repo/src/column.rs:1640-1647. *)
Definition comp_write (c : composite) (fields : list bytes) (t : tmode) : wout :=
  wseq (wall (map (fun pc => wseq (text_write t (utf8 (fst pc))) (text_write t (get_or_empty fields (nc_num (snd pc))))) (cc_parts c)))
       (text_write t (utf8 (cc_suffix c))).

(** The writers of the cut tool and their neighbours, /repo/src/column.rs:551-720, 1248-1364, 1634-1652. The value of an expression is
    taken as its text for the line. *)
Inductive colfun :=
  | FExpr (name : bytes) (value : list bytes -> bytes) (* ColumnExpr, 551-586 *)
  | FSingle (col : named_col) (new_name : bytes) (* ColumnSingle, 590-631 *)
  | FWhole (* ColumnWhole, 635-651 *)
  | FCount (num : Z) (name : bytes) (* ColumnCount, 655-686 *)
  | FLiteral (value name : bytes) (* ColumnLiteral, 690-720 *)
  | FSet (c : colset) (* ReaderColumns, 1323-1364 *)
  | FClump (name : bytes) (delim : N) (c : colset) (* ColumnClump over ReaderColumns, 1248-1319 *)
  | FComp (c : composite). (* CompositeColumn, 1561-1652 *)
(** ColumnClump::from_spec, /repo/src/column.rs:1275-1304. *)
Definition clump_spec (spec : bytes) : res colfun :=
  match spec with
  | [] => Err
  | d :: r => if (127 <? d)%N then Err
              else match split_once 58 r with
                   | None => Err
                   | Some (name, cols) => rbind (add set_new cols false) (fun c => Ok (FClump name d c))
                   end
  end.
(** ColumnFun::lookup: /repo/src/column.rs:583,628,648,683,717,1316,1361,1649. The expression's own lookup is not followed. *)
Definition fun_lookup (x : colfun) (names : list bytes) : res colfun :=
  match x with
  | FSingle c n => rbind (nc_lookup c names) (fun c => Ok (FSingle c n))
  | FSet c => rbind (lookup c names) (fun c => Ok (FSet c))
  | FClump n d c => rbind (lookup c names) (fun c => Ok (FClump n d c))
  | FComp c => rbind (comp_lookup c names) (fun c => Ok (FComp c))
  | _ => Ok x
  end.
(** The names a writer adds, /repo/src/column.rs:574,614,639,673,708,1313,1351,1636; before they are pushed. Indexing the header panics (616). *)
Definition fun_names (x : colfun) (head : list bytes) : res (list bytes) :=
  match x with
  | FExpr n _ => Ok [n]
  | FSingle c [] => match nth_error head (N.to_nat (nc_num c)) with Some n => Ok [n] | None => Panic end
  | FSingle _ n => Ok [n]
  | FWhole => Ok head
  | FCount _ n => Ok [n]
  | FLiteral _ n => Ok [n]
  | FSet c => Ok (map (fun x => match oc_name x with [] => get_or_empty head (oc_num x) | n => n end) (cs_cols c))
  | FClump n _ _ => Ok [n]
  | FComp c => Ok [cc_name c]
  end.
(** ColumnFun::write: /repo/src/column.rs:578,622,643,677,712,1308,1346,1640, with the writer afterwards (a count moves on); [whole] is the text of
    the line with its line break. *)
Definition fun_write (x : colfun) (whole : bytes) (fields : list bytes) (t : tmode) : wout * colfun :=
  match x with
  | FExpr _ v => (wput (v fields), x)
  | FSingle c _ => (match nth_error fields (N.to_nat (nc_num c)) with Some f => text_write t f | None => ([], Panic) end, x)
  | FWhole => (match whole with [] => ([], Panic) | _ => wput (removelast whole) end, x)
  | FCount n m => (wput (print_Z n), FCount (n + 1) m)
  | FLiteral v _ => (text_write t v, x)
  | FSet c => (write3 c fields t, x)
  | FClump _ d c => (write3 c fields (mktm QPlain d NL 32), x)
  | FComp c => (comp_write c fields t, x)
  end.
(** Writer::write, /repo/src/column.rs:1411-1425. *)
Definition writer_write (v : list colfun) (whole : bytes) (fields : list bytes) (t : tmode) : wout * list colfun :=
  (wseq (match map (fun x => fst (fun_write x whole fields t)) v with
         | [] => wput []
         | o :: r => wseq o (wall (map (fun o => wseq (wput [tm_delim t]) o) r))
         end) (wput [NL]),
   map (fun x => snd (fun_write x whole fields t)) v).
(** Writer::lookup and Writer::add_names, /repo/src/column.rs:1393-1409. *)
Fixpoint writer_lookup (v : list colfun) (names : list bytes) : res (list colfun) :=
  match v with
  | [] => Ok []
  | x :: r => rbind (fun_lookup x names) (fun x => rbind (writer_lookup r names) (fun r => Ok (x :: r)))
  end.
Fixpoint writer_names (v : list colfun) (head : list bytes) : res (list bytes) := (* /repo/src/column.rs:1404-1409 *)
  match v with
  | [] => Ok []
  | x :: r => rbind (fun_names x head) (fun l => rbind (writer_names r head) (fun l' => Ok (l ++ l')))
  end.
End Col.
Arguments cs_pos {T}. Arguments cs_neg {T}. Arguments cs_cols {T}. Arguments cs_done {T}. Arguments cs_trans {T}. Arguments mkset {T}. Arguments write {T}. Arguments write2 {T}. Arguments write3 {T}. Arguments write3s {T}. Arguments write_sloppy {T}. Arguments select {T}. Arguments select_sloppy {T}. Arguments fetch {T}. Arguments fetch_write {T}. Arguments sv_new _ {T}. Arguments sv_new2 _ {T}. Arguments sv_loop _ {T}. Arguments values_lookup {T}. Arguments values_get {T}. Arguments values_has {T}. Arguments make_ints {T}. Arguments values_loop {T}. Arguments FExpr {T}. Arguments FSingle {T}. Arguments FWhole {T}. Arguments FCount {T}. Arguments FLiteral {T}. Arguments FSet {T}. Arguments FClump {T}. Arguments FComp {T}. Arguments clump_spec _ {T}. Arguments fun_lookup {T}. Arguments fun_names {T}. Arguments fun_write {T}. Arguments writer_write {T}. Arguments writer_lookup {T}. Arguments writer_names {T}.
Arguments mksv {T}. Arguments sv_cols {T}. Arguments sv_value {T}. Arguments vs_default {T}. Arguments vs_data {T}. Arguments vs_has {T}.
Arguments vs_strings {T}. Arguments mkvals {T}. Arguments set_new {T}. Arguments add_one {T}. Arguments add_loop {T}. Arguments add _ {T}. Arguments adds _ {T}.
Arguments lookup {T}. Arguments lookup_cols _ {T}. Arguments lookup1 _ {T}.

(** get_col, /repo/src/column.rs:91-102. *)
Definition get_col (data : bytes) (col : nat) (delim : N) : bytes :=
  match nth_error (split_on delim data) col with
  | Some s => match s with [] => s | _ => if (last s 0 =? NL)%N then removelast s else s end
  | None => []
  end.
