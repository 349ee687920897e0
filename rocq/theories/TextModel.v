(** Model of the column encoders and splitters of /repo/src/util.rs. *)
From Coq Require Import List NArith Bool Arith.
Import ListNotations.
From Verif Require Import Base.

(** FakeSlice, /repo/src/util.rs:470-474: begin/end offsets.
    Simplified: unbounded naturals instead of u32. *)
Definition slice := (nat * nat)%type.

(** FakeSlice::get, /repo/src/util.rs:505-507; also TextLine::get 840-846 for an
    existing column. Simplified: total (the panic of an out-of-range slice is in
    [slice_get] of StrModel.v). *)
Definition get_part (l : bytes) (s : slice) : bytes :=
  firstn (snd s - fst s) (skipn (fst s) l).

(** write_plain, /repo/src/util.rs:525-534. *)
Fixpoint write_plain (buf : bytes) (tab eol repl : byte) : bytes :=
  match buf with
  | [] => []
  | ch :: r =>
      (if (ch =? tab)%N || (ch =? eol)%N then repl else ch) :: write_plain r tab eol repl
  end.

(** unslash, /repo/src/util.rs:588-595. *)
Definition unslash (ch : byte) : byte :=
  if (ch =? 110)%N then NL else if (ch =? 114)%N then CR else if (ch =? 116)%N then TAB else ch.

(** enslash, /repo/src/util.rs:599-606. *)
Definition enslash (ch : byte) : byte :=
  if (ch =? NL)%N then 110%N else if (ch =? CR)%N then 114%N else if (ch =? TAB)%N then 116%N else ch.

(** write_backslash, /repo/src/util.rs:536-546. *)
Fixpoint write_backslash (buf : bytes) (tab eol : byte) : bytes :=
  match buf with
  | [] => []
  | ch :: r =>
      if (ch =? tab)%N || (ch =? eol)%N || (ch =? BSL)%N
      then BSL :: enslash ch :: write_backslash r tab eol
      else ch :: write_backslash r tab eol
  end.

(** write_quotes, /repo/src/util.rs:548-562; [made] is made_quote. *)
Fixpoint write_quotes_loop (made : bool) (buf : bytes) (tab eol : byte) : bytes :=
  match buf with
  | [] => []
  | ch :: r =>
      if (ch =? DQ)%N then DQ :: DQ :: write_quotes_loop made r tab eol
      else if negb made && ((ch =? tab)%N || (ch =? eol)%N)
           then DQ :: ch :: write_quotes_loop true r tab eol
           else ch :: write_quotes_loop made r tab eol
  end.
(** write_quotes entry, /repo/src/util.rs:548-549. *)
Definition write_quotes (buf : bytes) (tab eol : byte) : bytes :=
  write_quotes_loop false buf tab eol.

(** Body of the loop of split_plain, /repo/src/util.rs:570-576. *)
Fixpoint split_plain_loop (delim : byte) (line : bytes) (parts : list slice) (begin end_ : nat)
  : list slice * nat * nat :=
  match line with
  | [] => (parts, begin, end_)
  | ch :: r =>
      if (ch =? delim)%N
      then split_plain_loop delim r (parts ++ [(begin, end_)]) (end_ + 1) (end_ + 1)
      else split_plain_loop delim r parts begin (end_ + 1)
  end.

(** split_plain, /repo/src/util.rs:565-584. *)
Definition split_plain (line : bytes) (delim : byte) : list slice :=
  let '(parts, begin, end_) := split_plain_loop delim line [] 0 0 in
  if Nat.eqb begin end_ then parts
  else if (nth (end_ - 1) line 0 =? NL)%N
       then parts ++ [(begin, end_ - 1)]
       else parts ++ [(begin, end_)].

(** The stripping loop at the head of split_backslash and split_quotes,
    /repo/src/util.rs:612-615 and 648-651. [strip_nl_rev] works on the reversed line. *)
Fixpoint strip_nl_rev (l : bytes) : bytes :=
  match l with
  | c :: r => if (c =? NL)%N then strip_nl_rev r else l
  | [] => []
  end.
(** Same stripping loop, on the line itself; /repo/src/util.rs:613-615. *)
Definition strip_nls (l : bytes) : bytes := rev (strip_nl_rev (rev l)).

(** State of the decoding splitters: decoded buffer, parts, begin, end;
    the locals of /repo/src/util.rs:610-618 (end is always the length of tmp, kept explicit). *)
Record dec := mkdec { d_tmp : bytes; d_parts : list slice; d_begin : nat; d_end : nat }.

(** Loop of split_backslash, /repo/src/util.rs:619-638; [ls] is last_was_slash. *)
Fixpoint split_backslash_loop (delim : byte) (line : bytes) (ls : bool) (s : dec) : dec :=
  match line with
  | [] => s
  | ch :: r =>
      if ls then
        split_backslash_loop delim r false
          (mkdec (d_tmp s ++ [unslash ch]) (d_parts s) (d_begin s) (d_end s + 1))
      else if (ch =? BSL)%N then split_backslash_loop delim r true s
      else if (ch =? delim)%N then
        split_backslash_loop delim r false
          (mkdec (d_tmp s ++ [ch]) (d_parts s ++ [(d_begin s, d_end s)]) (d_end s + 1) (d_end s + 1))
      else
        split_backslash_loop delim r false
          (mkdec (d_tmp s ++ [ch]) (d_parts s) (d_begin s) (d_end s + 1))
  end.

(** Closing of both decoding splitters, /repo/src/util.rs:639-641 and 684-686. *)
Definition dec_finish (s : dec) : list slice * bytes :=
  ((if Nat.eqb (d_begin s) (d_end s) then d_parts s else d_parts s ++ [(d_begin s, d_end s)]), d_tmp s).

(** split_backslash, /repo/src/util.rs:609-642: returns parts and the decoded line. *)
Definition split_backslash (line : bytes) (delim : byte) : list slice * bytes :=
  dec_finish (split_backslash_loop delim (strip_nls line) false (mkdec [] [] 0 0)).

(** Loop of split_quotes, /repo/src/util.rs:656-683;
    [lq] is last_was_quote, [iq] is in_quote. *)
Fixpoint split_quotes_loop (delim : byte) (line : bytes) (lq iq : bool) (s : dec) : dec :=
  match line with
  | [] => s
  | ch :: r =>
      let emit (iq' : bool) :=
        if (ch =? delim)%N then
          split_quotes_loop delim r lq iq'
            (mkdec (d_tmp s ++ [ch]) (d_parts s ++ [(d_begin s, d_end s)]) (d_end s + 1) (d_end s + 1))
        else
          split_quotes_loop delim r lq iq'
            (mkdec (d_tmp s ++ [ch]) (d_parts s) (d_begin s) (d_end s + 1)) in
      if iq then
        if lq then
          if (ch =? DQ)%N then
            split_quotes_loop delim r lq iq
              (mkdec (d_tmp s ++ [ch]) (d_parts s) (d_begin s) (d_end s + 1))
          else emit false
        else if (ch =? DQ)%N then split_quotes_loop delim r true iq s
        else emit iq
      else if (ch =? DQ)%N then split_quotes_loop delim r true true s
      else emit iq
  end.

(** split_quotes, /repo/src/util.rs:645-687. *)
Definition split_quotes (line : bytes) (delim : byte) : list slice * bytes :=
  dec_finish (split_quotes_loop delim (strip_nls line) false false (mkdec [] [] 0 0)).

(** QuoteMode, /repo/src/util.rs:157-164. *)
Inductive quote_mode := QPlain | QQuote | QBackslash.

(** TextFileMode::write, /repo/src/util.rs:348-354. *)
Definition mode_write (m : quote_mode) (buf : bytes) (delim line_break repl : byte) : bytes :=
  match m with
  | QPlain => write_plain buf delim line_break repl
  | QBackslash => write_backslash buf delim line_break
  | QQuote => write_quotes buf delim line_break
  end.

(** TextFileMode::split followed by reading every column with TextLine::get,
    /repo/src/util.rs:356-370 and 840-846. *)
Definition mode_columns (m : quote_mode) (line : bytes) (delim : byte) : list bytes :=
  match m with
  | QPlain => map (get_part line) (split_plain line delim)
  | QBackslash => let '(parts, tmp) := split_backslash line delim in map (get_part tmp) parts
  | QQuote => let '(parts, tmp) := split_quotes line delim in map (get_part tmp) parts
  end.
