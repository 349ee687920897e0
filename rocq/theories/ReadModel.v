(** Model of line reading: BufRead over a schedule of chunks, TextFileMode::read_line,
    read_header, InfileContext, Reader and S3Reader of /repo/src/util.rs. *)
From Coq Require Import List NArith Bool Arith.
Import ListNotations.
From Verif Require Import Base TextModel.

(** A buffered source: std BufReader as used through [impl BufRead] in
    /repo/src/util.rs:395-450 and 1255-1260. [s_buf] is what is buffered and not consumed,
    [s_chunks] the results of the future reads, [[]] meaning a read that returns 0 bytes. *)
Record src := mksrc { s_buf : bytes; s_chunks : list bytes }.

(** BufRead::fill_buf as used in /repo/src/util.rs:397,413,418. *)
Definition fill_buf (s : src) : bytes * src :=
  match s_buf s, s_chunks s with
  | [], c :: cs => (c, mksrc c cs)
  | b, _ => (b, s)
  end.

(** Position of the delimiter (memchr inside BufRead::read_until, used at
    /repo/src/util.rs:426,445): text through the delimiter, and the rest. *)
Fixpoint cut_after (d : byte) (l : bytes) : option (bytes * bytes) :=
  match l with
  | [] => None
  | c :: r =>
      if (c =? d)%N then Some ([c], r)
      else match cut_after d r with Some (a, b) => Some (c :: a, b) | None => None end
  end.

(** The part of BufRead::read_until that refills the buffer; used at /repo/src/util.rs:426,445. *)
Fixpoint read_until_chunks (d : byte) (cs : list bytes) (acc : bytes) : bytes * src :=
  match cs with
  | [] => (acc, mksrc [] [])
  | [] :: cs' => (acc, mksrc [] cs')
  | c :: cs' =>
      match cut_after d c with
      | Some (a, b) => (acc ++ a, mksrc b cs')
      | None => read_until_chunks d cs' (acc ++ c)
      end
  end.

(** BufRead::read_until, used at /repo/src/util.rs:426,445; returns the bytes read. *)
Definition read_until (d : byte) (s : src) : bytes * src :=
  match s_buf s with
  | [] => read_until_chunks d (s_chunks s) []
  | _ =>
      match cut_after d (s_buf s) with
      | Some (a, b) => (a, mksrc b (s_chunks s))
      | None => read_until_chunks d (s_chunks s) (s_buf s)
      end
  end.

(** TextFileMode::ensure_eof, /repo/src/util.rs:379-384, on a non-empty line. *)
Definition ensure_eof (lb : byte) (line : bytes) : bytes :=
  if (last line 0 =? lb)%N then line else line ++ [lb].

(** The quote toggling loop of read_line, /repo/src/util.rs:436-440. *)
Fixpoint toggle_quotes (within : bool) (l : bytes) : bool :=
  match l with
  | [] => within
  | c :: r => toggle_quotes (if (c =? DQ)%N then negb within else within) r
  end.

(** The record loop of read_line in quote mode, /repo/src/util.rs:435-449.
    [line] is what has been read, [fresh] its not yet inspected tail. Fuel: every
    iteration consumes at least one byte. *)
Fixpoint quote_loop (fuel : nat) (lb : byte) (s : src) (line fresh : bytes) (within : bool)
  : option (bytes * src) :=
  match fuel with
  | 0 => None
  | S f =>
      let within' := toggle_quotes within fresh in
      if negb within' then Some (ensure_eof lb line, s)
      else let '(more, s') := read_until lb s in
           match more with
           | [] => Some (ensure_eof lb line, s')
           | _ => quote_loop f lb s' (line ++ more) more within'
           end
  end.

(** Bytes not yet consumed of a source; measure for fuel, cf. /repo/src/util.rs:424. *)
Definition content (s : src) : bytes := s_buf s ++ concat (s_chunks s).

(** Result of read_line: end of file, or a line; /repo/src/util.rs:424-450. *)
Inductive rl := Eof (s : src) | Line (l : bytes) (s : src) | Fuel.

(** TextFileMode::read_line, /repo/src/util.rs:424-450. Simplified: I/O errors are not modelled. *)
Definition read_line (m : quote_mode) (lb : byte) (s : src) : rl :=
  let '(line, s') := read_until lb s in
  match line with
  | [] => Eof s'
  | _ =>
      match m with
      | QQuote =>
          match quote_loop (S (length (content s'))) lb s' line line false with
          | Some (l, s'') => Line l s''
          | None => Fuel
          end
      | _ => Line (ensure_eof lb line) s'
      end
  end.

(** Reading lines until end of file, the loop every tool runs through
    Reader::getline, /repo/src/util.rs:1621-1634. *)
Fixpoint read_all (fuel : nat) (m : quote_mode) (lb : byte) (s : src) : option (list bytes) :=
  match fuel with
  | 0 => None
  | S f =>
      match read_line m lb s with
      | Eof _ => Some []
      | Fuel => None
      | Line l s' => match read_all f m lb s' with Some r => Some (l :: r) | None => None end
      end
  end.

(** HeadMode, /repo/src/util.rs:135-146. *)
Inductive head_mode := HYes | HNo | HMaybe | HSkip | HCdx.

(** The literal b" CDX" of /repo/src/util.rs:406,414. *)
Definition CDX : bytes := [32; 67; 68; 88]%N.

(** TextFileMode::read_string, /repo/src/util.rs:386-393. [utf8_ok] is String::from_utf8.
    [None] stands for end of file. On end of file the target is left alone, here [[]] because
    read_header clears it first. *)
Definition read_string (utf8_ok : bytes -> bool) (m : quote_mode) (lb : byte) (s : src)
  : res (bool * bytes * src) :=
  match read_line m lb s with
  | Eof s' => Ok (true, [], s')
  | Line l s' => if utf8_ok l then Ok (false, l, s') else Err
  | Fuel => Err
  end.

(** TextFileMode::read_header, /repo/src/util.rs:395-422: (is empty, header line, source). *)
Definition read_header (utf8_ok : bytes -> bool) (h : head_mode) (m : quote_mode) (lb : byte) (s : src)
  : res (bool * bytes * src) :=
  let '(start, s1) := fill_buf s in
  match start with
  | [] => Ok (true, [], s1)
  | _ =>
      match h with
      | HYes | HCdx => read_string utf8_ok m lb s1
      | HNo => Ok (false, [], s1)
      | HMaybe => if starts_with start CDX then read_string utf8_ok m lb s1 else Ok (false, [], s1)
      | HSkip =>
          let '(start2, s2) := fill_buf s1 in
          let r := if starts_with start2 CDX
                   then rbind (read_string utf8_ok m lb s2) (fun '(_, _, s3) => Ok s3)
                   else Ok s2 in
          rbind r (fun s3 =>
            let '(start3, s4) := fill_buf s3 in
            Ok (match start3 with [] => true | _ => false end, [], s4))
      end
  end.

(** TextLine, /repo/src/util.rs:708-715. *)
Record textline := mktl { tl_line : bytes; tl_parts : list slice; tl_orig : bytes }.

(** TextLine::new, /repo/src/util.rs:803-809. *)
Definition tl_new : textline := mktl [] [] [].

(** TextLine::line, /repo/src/util.rs:778-784. *)
Definition tl_text (t : textline) : bytes :=
  match tl_orig t with [] => tl_line t | o => o end.

(** TextLine::get, /repo/src/util.rs:840-846. *)
Definition tl_get (t : textline) (i : nat) : bytes :=
  match nth_error (tl_parts t) i with
  | None => []
  | Some p => get_part (tl_line t) p
  end.

(** The columns of a line, TextLineIter, /repo/src/util.rs:1000-1012. *)
Definition tl_cols (t : textline) : list bytes := map (get_part (tl_line t)) (tl_parts t).

(** TextLine::assign, /repo/src/util.rs:795-800: [orig] is not copied. *)
Definition tl_assign (t x : textline) : textline := mktl (tl_line x) (tl_parts x) (tl_orig t).

(** TextFileMode::split, /repo/src/util.rs:356-370. *)
Definition tl_split (m : quote_mode) (delim : byte) (t : textline) : textline :=
  match m with
  | QPlain => mktl (tl_line t) (split_plain (tl_line t) delim) (tl_orig t)
  | QBackslash => let '(p, l) := split_backslash (tl_line t) delim in mktl l p (tl_line t)
  | QQuote => let '(p, l) := split_quotes (tl_line t) delim in mktl l p (tl_line t)
  end.

(** TextLine::line_nl / Reader::curr_nl, /repo/src/util.rs:787-789 and 1563-1566:
    everything but the last byte of the decoded line; an empty line panics. *)
Definition tl_line_nl (t : textline) : res bytes :=
  match tl_line t with [] => Panic | l => Ok (removelast l) end.

(** Overwriting the raw line, as read_line does through [&mut lines[curr].line],
    /repo/src/util.rs:1627. *)
Definition tl_set_line (t : textline) (l : bytes) : textline := mktl l (tl_parts t) (tl_orig t).

(** Reader, /repo/src/util.rs:1482-1489, without the header: source, ring of lines, current
    position, split flag, done flag and FileLocData (bytes, line; 1340-1347). *)
Record reader := mkrd {
  r_src : src; r_lines : list textline; r_curr : nat; r_split : bool; r_done : bool;
  r_bytes : nat; r_lineno : nat }.

(** Replacing one element of a vector, [v[i] = x] (e.g. /repo/src/util.rs:1627). *)
Fixpoint list_set {A} (l : list A) (i : nat) (x : A) : list A :=
  match l, i with
  | [], _ => []
  | _ :: r, 0 => x :: r
  | y :: r, S i' => y :: list_set r i' x
  end.

(** Reader::incr, /repo/src/util.rs:1613-1619. *)
Definition incr_pos (curr len : nat) : nat :=
  if len <=? curr + 1 then 0 else curr + 1.

(** Reader::getline, /repo/src/util.rs:1621-1634. Returns the new reader; its [r_done] is the result. *)
Definition getline (m : quote_mode) (delim lb : byte) (r : reader) : option reader :=
  let bytes' := r_bytes r + length (tl_line (nth (r_curr r) (r_lines r) tl_new)) in
  let curr' := incr_pos (r_curr r) (length (r_lines r)) in
  let old := nth curr' (r_lines r) tl_new in
  match read_line m lb (r_src r) with
  | Fuel => None
  | Eof s' =>
      Some (mkrd s' (list_set (r_lines r) curr' (tl_set_line old [])) curr' (r_split r) true
              bytes' (r_lineno r + 1))
  | Line l s' =>
      let t := tl_set_line old l in
      let t' := if r_split r then tl_split m delim t else t in
      Some (mkrd s' (list_set (r_lines r) curr' t') curr' (r_split r) (r_done r)
              bytes' (r_lineno r + 1))
  end.

(** Reader::prev_line, /repo/src/util.rs:1652-1658; Reader::curr_line 1637 is [prev_line r 0]. *)
Definition prev_line (r : reader) (k : nat) : res textline :=
  let i := if k <=? r_curr r then Some (r_curr r - k)
           else if k <=? r_curr r + length (r_lines r) then Some (r_curr r + length (r_lines r) - k)
           else None in
  match i with
  | None => Panic
  | Some i => match nth_error (r_lines r) i with Some t => Ok t | None => Panic end
  end.

(** Reader::new_open_with after the header has been consumed, /repo/src/util.rs:1540-1560 and
    InfileContext::read_header 1315-1319: reads and splits the first data line into slot 0.
    [hdr] is the length of the header line (0 without header). Simplified: the header itself
    is modelled by [read_header]. *)
Definition open_with (lookback : nat) (m : quote_mode) (delim lb : byte) (hdr : nat) (s : src)
  : option reader :=
  let lines := repeat tl_new (lookback + 1) in
  match read_line m lb s with
  | Fuel => None
  | Eof s' => Some (mkrd s' lines 0 true true hdr 1)
  | Line l s' =>
      Some (mkrd s' (list_set lines 0 (tl_split m delim (tl_set_line tl_new l))) 0 true false hdr 1)
  end.

(** Reader::open, /repo/src/util.rs:1589-1592, on a reader from Reader::new: same as
    [open_with] but the location data stays at its default (bytes 0, line 0). *)
Definition open_plain (lookback : nat) (m : quote_mode) (delim lb : byte) (s : src) : option reader :=
  match open_with lookback m delim lb 0 s with
  | Some r => Some (mkrd (r_src r) (r_lines r) (r_curr r) (r_split r) (r_done r) 0 0)
  | None => None
  end.

(** Reader::write_curr and Reader::write, /repo/src/util.rs:1584-1587 and 1660-1663: the bytes written. *)
Definition write_curr (r : reader) : res bytes := rbind (prev_line r 0) (fun t => Ok (tl_line t)).

(** [n] calls of getline, as the tools do in their loops (/repo/src/util.rs:1621). *)
Fixpoint getlines (n : nat) (m : quote_mode) (delim lb : byte) (r : reader) : option reader :=
  match n with
  | 0 => Some r
  | S n' => match getline m delim lb r with
            | None => None
            | Some r' => getlines n' m delim lb r'
            end
  end.

(** ** S3Reader, /repo/src/util.rs:1064-1098 *)

(** State: the part of the last chunk not delivered yet ([left]) and the chunks the remote
    body will deliver ([f.body.try_next()]). Network errors are not modelled. *)
Record s3 := mks3 { s3_left : option bytes; s3_body : list bytes }.

(** Delivering from a chunk into a buffer of [n] bytes, /repo/src/util.rs:1067-1076 and 1084-1093. *)
Definition s3_deliver (chunk : bytes) (n : nat) (body : list bytes) : bytes * s3 :=
  if n <? length chunk
  then (firstn n chunk, mks3 (Some (skipn n chunk)) body)
  else (chunk, mks3 None body).

(** S3Reader::read with a buffer of [n] bytes, /repo/src/util.rs:1064-1098. *)
Definition s3_read (n : nat) (s : s3) : bytes * s3 :=
  match s3_left s with
  | Some b => s3_deliver b n (s3_body s)
  | None =>
      match s3_body s with
      | [] => ([], mks3 None [])
      | c :: cs => s3_deliver c n cs
      end
  end.

(** A caller reading with buffer sizes [ns] until a read returns 0 bytes, which
    std::io::Read defines as end of file; e.g. cdx's copy, /repo/src/util.rs:2028-2037. *)
Fixpoint s3_read_all (ns : list nat) (s : s3) : bytes * bool :=
  match ns with
  | [] => ([], false)
  | n :: ns' =>
      let '(got, s') := s3_read n s in
      match got with
      | [] => ([], true)
      | _ => let '(r, fin) := s3_read_all ns' s' in (got ++ r, fin)
      end
  end.
