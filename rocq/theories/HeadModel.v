(** Model of HeaderChecker, /repo/src/util.rs:1827-2025. *)
From Coq Require Import List NArith Bool Arith.
Import ListNotations.
From Verif Require Import Base TextSpec ReadModel.

(** HeaderMode, /repo/src/util.rs:1829-1843. *)
Inductive hmode := MMatch | MRequire | MStrip | MNone | MTrust | MIgnore.

(** HeaderChecker without its mode, /repo/src/util.rs:1877-1885. *)
Record checker := mkchk { ck_head : bytes; ck_saw : bool }.

(** HeaderChecker::from_mode, /repo/src/util.rs:1939-1944 (Default for the other fields). *)
Definition ck_new : checker := mkchk [] false.

(** is_cdx, /repo/src/util.rs:1888-1891. *)
Definition is_cdx (l : bytes) : bool := starts_with l CDX.

Section Oracles.
(** [str::from_utf8] succeeds, /repo/src/util.rs:1914. *)
Variable utf8_ok : bytes -> bool.
(** A column name is acceptable: non-empty, starts with an alphabetic character, only
    alphanumeric characters and underscores; /repo/src/util.rs:1917-1927 (Unicode classes). *)
Variable name_ok : bytes -> bool.

(** The delimiter test of /repo/src/util.rs:1911: newline, ASCII alphanumeric, or above 127. *)
Definition bad_delim (d : byte) : bool :=
  (d =? NL)%N || is_digit d || ((65 <=? d) && (d <=? 90))%N || ((97 <=? d) && (d <=? 122))%N || (127 <? d)%N.

(** is_valid_cdx, /repo/src/util.rs:1893-1930. Splitting at an ASCII delimiter is the same on
    bytes and on characters. *)
Definition is_valid_cdx (m : hmode) (line : bytes) : res bool :=
  match m with
  | MIgnore => Ok false
  | _ =>
      if negb (starts_with line CDX) then Ok false
      else match m with
           | MStrip | MNone => Ok true
           | _ =>
               let data := if (last line 0 =? NL)%N then removelast line else line in
               if length data <? 6 then Err
               else let delim := nth 4 data 0%N in
                    if bad_delim delim then Err
                    else let names := skipn 5 data in
                         if negb (utf8_ok names) then Err
                         else if forallb name_ok (split_on delim names) then Ok true else Err
           end
  end.

(** HeaderChecker::check, /repo/src/util.rs:1960-2024: the verdict and the new state. The state
    is returned also when the verdict is an error ([saw_one] is set before the first-file errors). *)
Definition check (m : hmode) (c : checker) (line : bytes) : res bool * checker :=
  match is_valid_cdx m line with
  | Panic => (Panic, c)
  | Err => (Err, c)
  | Ok cdx =>
      match line with
      | [] => (Ok false, c)
      | _ =>
          if negb (last line 0 =? NL)%N && cdx then (Err, c)
          else if ck_saw c then
            (match m with
             | MMatch =>
                 if cdx then
                   match ck_head c with
                   | [] => Err
                   | h => if beq line h then Ok false else Err
                   end
                 else match ck_head c with [] => Ok true | _ => Err end
             | MRequire => if cdx then Ok false else Err
             | MStrip => Ok (negb cdx)
             | MIgnore => Ok true
             | MNone => if cdx then Err else Ok true
             | MTrust => Ok (negb cdx)
             end, c)
          else
            let c1 := mkchk (ck_head c) true in
            if cdx && match m with MStrip => true | _ => false end then (Err, c1)
            else if negb cdx && match m with MRequire => true | _ => false end then (Err, c1)
            else (Ok true, if cdx then mkchk line true else c1)
      end
  end.

(** Checking the first lines of a list of files in order, stopping at the first error, as every
    tool does (e.g. /repo/src/bin/cdx/cut_main.rs:50-56). Returns the verdicts. *)
Fixpoint check_all (m : hmode) (c : checker) (lines : list bytes) : res (list bool) :=
  match lines with
  | [] => Ok []
  | l :: rest =>
      let '(r, c') := check m c l in
      rbind r (fun b => rbind (check_all m c' rest) (fun bs => Ok (b :: bs)))
  end.

(** HeaderChecker::check_file, /repo/src/util.rs:1948-1956. [hdr] is the reader's header line if
    it has a header. The literal is the word fake. *)
Definition check_file (m : hmode) (c : checker) (hdr : option bytes) : res bool * checker :=
  let first := negb (ck_saw c) in
  let line := match hdr with Some h => h | None => [102; 97; 107; 101]%N end in
  let '(r, c') := check m c line in
  (rbind r (fun _ => Ok (match hdr with Some _ => first | None => false end)), c').

(** check_file over a list of files, /repo/src/bin/cdx/sample_main.rs:134-142. *)
Fixpoint check_files (m : hmode) (c : checker) (hs : list (option bytes)) : res (list bool) :=
  match hs with
  | [] => Ok []
  | h :: rest =>
      let '(r, c') := check_file m c h in
      rbind r (fun b => rbind (check_files m c' rest) (fun bs => Ok (b :: bs)))
  end.
End Oracles.
