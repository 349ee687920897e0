(** Model of column names and output headers, /repo/src/column.rs:11-263 and 1524-1542.
    A Rust str is modelled as the list of its characters. *)
From Coq Require Import String List NArith Bool Arith.
Open Scope list_scope.
From Verif Require Import Base TextSpec TextModel StrSpec StrModel MatchModel ReadModel.
Import ListNotations.

(** DupColHandling, /repo/src/column.rs:11-19. *)
Inductive dup_mode := DFail | DAllow | DNumeric.
(** DupColHandling::new, /repo/src/column.rs:23-33. *)
Definition dup_new (spec : bytes) : res dup_mode :=
  if beq (map lower spec) (bs "fail") then Ok DFail
  else if beq (map lower spec) (bs "allow") then Ok DAllow
  else if beq (map lower spec) (bs "numeric") then Ok DNumeric
  else Err.

(** NameMap::new, /repo/src/column.rs:48-57: from and to. *)
Definition name_map (spec : bytes) : res (bytes * bytes) :=
  match split_once 46 spec with Some p => Ok p | None => Err end.

(** ColumnHeader, /repo/src/column.rs:67-72. *)
Record header := mkhdr { h_cols : list bytes; h_dups : dup_mode; h_rename : list (bytes * bytes); h_sloppy : bool }.
(** ColumnHeader::new, /repo/src/column.rs:107-109. *)
Definition hdr_new : header := mkhdr [] DFail [] false.
Definition set_handling (h : header) (d : dup_mode) : header := mkhdr (h_cols h) d (h_rename h) (h_sloppy h). (* column.rs:111-113 *)
Definition hdr_clear (h : header) : header := mkhdr [] (h_dups h) (h_rename h) (h_sloppy h). (* /repo/src/column.rs:115-117 *)
Definition rename_sloppy (h : header) : header := mkhdr (h_cols h) (h_dups h) (h_rename h) true. (* /repo/src/column.rs:128-130 *)
(** The loop of rename, /repo/src/column.rs:121-123: entries before a malformed one stay. *)
Fixpoint rename_loop (l : list bytes) (h : header) : header * bool :=
  match l with
  | [] => (h, true)
  | x :: r => match name_map x with
              | Ok p => rename_loop r (mkhdr (h_cols h) (h_dups h) (h_rename h ++ [p]) (h_sloppy h))
              | _ => (h, false)
              end
  end.
Definition hdr_rename (spec : bytes) (h : header) : header * bool := (* /repo/src/column.rs:119-126 *)
  match spec with [] => (h, true) | _ => rename_loop (split_str 44 spec) h end.
(** ColumnHeader::contains, /repo/src/column.rs:156-163. *)
Definition contains (cols : list bytes) (name : bytes) : bool := existsb (fun x => beq x name) cols.
(** check_rename, /repo/src/column.rs:170-181: true when no error is returned. *)
Definition check_rename (h : header) : bool :=
  negb (negb (h_sloppy h) && match h_rename h with [] => false | _ => true end).

Section Chars.
(** char::is_alphabetic and char::is_alphanumeric on characters outside ASCII, /repo/src/column.rs:1530 and 1535. *)
Variable uni_alpha uni_alnum : N -> bool.

Definition ascii_letter (c : N) : bool := ((65 <=? c) && (c <=? 90) || (97 <=? c) && (c <=? 122))%N. (* column.rs:1530, ASCII part *)
Definition alphabetic (c : N) : bool := if (c <? 128)%N then ascii_letter c else uni_alpha c. (* /repo/src/column.rs:1530 *)
Definition alphanumeric (c : N) : bool := if (c <? 128)%N then ascii_letter c || is_digit c else uni_alnum c. (* /repo/src/column.rs:1535 *)

(** The loop of get_col_name, /repo/src/column.rs:1533-1540: how many characters belong to the name. *)
Fixpoint name_rest (l : bytes) : nat :=
  match l with
  | c :: r => if alphanumeric c || (c =? 95)%N then S (name_rest r) else 0
  | [] => 0
  end.
(** get_col_name, /repo/src/column.rs:1524-1542; in characters where the code counts bytes. *)
Definition get_col_name (spec : bytes) : nat :=
  match spec with [] => 0 | c :: r => if alphabetic c then S (name_rest r) else 0 end.
(** is_valid_column_name, /repo/src/column.rs:76-78. *)
Definition is_valid (name : bytes) : bool := get_col_name name =? List.length name.

(** The search for a rename, /repo/src/column.rs:187-192, and its removal at 203: what comes before, the entry, what comes after. *)
Fixpoint take_rename (l : list (bytes * bytes)) (name : bytes) : option (list (bytes * bytes) * bytes * list (bytes * bytes)) :=
  match l with
  | [] => None
  | x :: r => if beq (fst x) name then Some ([], snd x, r)
              else match take_rename r name with Some (a, t, b) => Some (x :: a, t, b) | None => None end
  end.
(** The loop over numbers, /repo/src/column.rs:213-219; [fuel] counts down to 10000. *)
Fixpoint numeric_loop (fuel : nat) (x : N) (name : bytes) (cols : list bytes) : list bytes :=
  match fuel with
  | O => cols
  | S f => if contains cols (name ++ print_N x) then numeric_loop f (x + 1) name cols else cols ++ [name ++ print_N x]
  end.
(** ColumnHeader::push, /repo/src/column.rs:183-226: the header afterwards, and whether the result is Ok. *)
Definition push (h : header) (name : bytes) : header * bool :=
  if negb (is_valid name) then (h, false)
  else if contains (h_cols h) name then
    match take_rename (h_rename h) name with
    | Some (a, to, b) =>
        if contains (h_cols h) to then (h, false)
        else (mkhdr (h_cols h ++ [to]) (h_dups h) (a ++ b) (h_sloppy h), true)
    | None =>
        match h_dups h with
        | DFail => (h, false)
        | DAllow => (mkhdr (h_cols h ++ [name]) (h_dups h) (h_rename h) (h_sloppy h), true)
        | DNumeric => (mkhdr (numeric_loop (N.to_nat 9999) 1 name (h_cols h)) (h_dups h) (h_rename h) (h_sloppy h), true)
        end
    end
  else (mkhdr (h_cols h ++ [name]) (h_dups h) (h_rename h) (h_sloppy h), true).
(** push_all, /repo/src/column.rs:141-146, which stops at the first error. *)
Fixpoint push_all (h : header) (names : list bytes) : header * bool :=
  match names with
  | [] => (h, true)
  | x :: r => let '(h', ok) := push h x in if ok then push_all h' r else (h', false)
  end.
(** push_all_unchecked and push_unchecked, /repo/src/column.rs:148-152 and 166-168. *)
Definition push_all_unchecked (h : header) (names : list bytes) : header :=
  mkhdr (h_cols h ++ names) (h_dups h) (h_rename h) (h_sloppy h).
End Chars.

(** add_head, /repo/src/column.rs:253-262; the delimiter is a byte turned into a character. *)
Definition add_head (cols : list bytes) (delim : N) : bytes :=
  match cols with [] => [] | c :: r => c ++ flat_map (fun x => delim :: x) r end.
(** get_head, /repo/src/column.rs:230-239, with [cdx] for has_cdx at 232. get_size at 250 underflows for a header without columns:
    a panic in builds with overflow checks. *)
Definition get_head (cdx : bool) (delim : N) (cols : list bytes) : res bytes :=
  match cols with
  | [] => Panic
  | _ => Ok ((if cdx then bs " CDX" ++ [delim] else []) ++ add_head cols delim ++ [NL])
  end.

(** The UTF-8 bytes of a character, as written at /repo/src/bin/cdx/cut_main.rs:52 (as_bytes). *)
Definition utf8_char (c : N) : bytes :=
  if (c <? 128)%N then [c]
  else if (c <? 2048)%N then [192 + c / 64; 128 + c mod 64]%N
  else if (c <? 65536)%N then [224 + c / 4096; 128 + (c / 64) mod 64; 128 + c mod 64]%N
  else [240 + c / 262144; 128 + (c / 4096) mod 64; 128 + (c / 64) mod 64; 128 + c mod 64]%N.
Definition utf8 (s : bytes) : bytes := flat_map utf8_char s. (* str::as_bytes, /repo/src/bin/cdx/cut_main.rs:52 *)

(** InfileContext::read_header with TextFileMode::split_head, /repo/src/util.rs:1311-1313 and 372-377: the names of a file whose
    first line is the header [line]. Names are kept as bytes. *)
Definition head_names (delim : N) (line : bytes) : list bytes :=
  let cols := map (get_part line) (split_plain line delim) in
  if starts_with line CDX then tl cols else cols.
(** The same function at /repo/src/util.rs:1320-1332: the names made up for a file without header whose first line has [n] columns. *)
Definition fake_head (n : nat) : bytes :=
  removelast (flat_map (fun i => bs "c" ++ print_N (N.of_nat i) ++ [TAB]) (seq 1 n)) ++ [NL].
Definition fake_names (delim : N) (n : nat) : list bytes := (* /repo/src/util.rs:1331-1332 *)
  map (get_part (fake_head n)) (split_plain (fake_head n) delim).
(** make_header, /repo/src/util.rs:1279-1292, called by the sorter, /repo/src/sort.rs:513. Simplified: from_utf8_lossy is the identity,
    as it is on valid UTF-8. Slicing from 5 panics on shorter lines. *)
Definition make_header (line : bytes) : res (list bytes) :=
  if starts_with line CDX then
    if List.length line <? 5 then Panic
    else let l := skipn 5 line in Ok (map (get_part l) (split_plain l TAB))
  else let l := removelast (flat_map (fun i => bs "c" ++ print_N (N.of_nat i) ++ [TAB]) (seq 1 (List.length (split_on TAB line)))) in
       Ok (map (get_part l) (split_plain l TAB)).
