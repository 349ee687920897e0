(** Model of the text primitives of /repo/src/text.rs and small helpers of /repo/src/util.rs and
    /repo/src/num.rs: globbing, heads and tails, integers, ranges, brackets, unescaping. *)
From Coq Require Import List NArith ZArith Bool Arith.
Import ListNotations.
From Verif Require Import Base.

(** Case, /repo/src/text.rs:9-15. *)
Inductive case := Sens | Insens.

(** chars_equal on bytes, /repo/src/text.rs:543-554. [c1] comes from the pattern. *)
Definition chars_equal (c1 c2 : byte) (ic : case) : bool :=
  if (c1 =? c2)%N then true
  else if (c1 =? 63)%N then true
  else match ic with Sens => false | Insens => (lower c1 =? lower c2)%N end.

(** The byte of the star in patterns, /repo/src/text.rs:223. *)
Definition STAR : byte := 42%N.

(** First loop of Text::glob, /repo/src/text.rs:222-232; [inl b] is an early return. *)
Fixpoint glob_head (buff wild : bytes) (ic : case) : bool + (bytes * bytes) :=
  match buff, wild with
  | b :: buff', w :: wild' =>
      if (w =? STAR)%N then inr (buff, wild)
      else if chars_equal w b ic then glob_head buff' wild' ic else inl false
  | _ :: _, [] => inl false
  | [], _ => inr ([], wild)
  end.

(** Third loop of Text::glob, /repo/src/text.rs:255-258. *)
Fixpoint glob_tail (wild : bytes) : bool :=
  match wild with
  | [] => true
  | w :: wild' => if (w =? STAR)%N then glob_tail wild' else false
  end.

(** Main loop of Text::glob, /repo/src/text.rs:237-253, on bytes. [None]: out of fuel; [Panic]:
    skip_first of an empty slice. *)
Fixpoint glob_loop (fuel : nat) (buff wild cp mp : bytes) (ic : case) : option (res bool) :=
  match fuel with
  | 0 => None
  | S f =>
      match buff with
      | [] => Some (Ok (glob_tail wild))
      | b :: buff' =>
          let mismatch :=
            match cp with
            | [] => Some Panic
            | _ :: cp' => glob_loop f cp' mp cp' mp ic
            end in
          match wild with
          | w :: wild' =>
              if (w =? STAR)%N then
                match wild' with
                | [] => Some (Ok true)
                | _ => glob_loop f buff wild' buff' wild' ic
                end
              else if chars_equal w b ic then glob_loop f buff' wild' cp mp ic
              else mismatch
          | [] => mismatch
          end
      end
  end.

(** Iterations that are always enough, see [glob_terminates]; cf. /repo/src/text.rs:237. *)
Definition glob_fuel (buff wild : bytes) : nat :=
  S ((length wild + 1) * ((length buff + 1) * (length buff + 1))).

(** Text::glob for bytes, /repo/src/text.rs:218-259. *)
Definition glob (buff wild : bytes) (ic : case) : option (res bool) :=
  match glob_head buff wild ic with
  | inl b => Some (Ok b)
  | inr (buff', wild') => glob_loop (glob_fuel buff' wild') buff' wild' [] [] ic
  end.

(** tail_u8_len, /repo/src/text.rs:23-37, scanning [pos] bytes from the end. *)
Fixpoint tail_scan (buff : bytes) (delim : byte) (pos left : nat) : nat :=
  match pos with
  | 0 => 0
  | S p =>
      if (nth p buff 0 =? delim)%N
      then match left with
           | 1 => p + 1
           | _ => tail_scan buff delim p (left - 1)
           end
      else tail_scan buff delim p left
  end.

(** tail_u8_len, /repo/src/text.rs:23-37. *)
Definition tail_u8_len (buff : bytes) (num : nat) (delim : byte) : nat :=
  match num with 0 => length buff | _ => tail_scan buff delim (length buff) num end.

(** Text::tail_u8 for bytes, /repo/src/text.rs:612-614. *)
Definition tail_u8 (buff : bytes) (num : nat) (delim : byte) : bytes :=
  skipn (tail_u8_len buff num delim) buff.

(** The loop of Text::head, /repo/src/text.rs:268-278, returning the length of [rest] at the stop. *)
Fixpoint head_scan (rest : bytes) (delim : byte) (left : nat) : option nat :=
  match rest with
  | [] => None
  | c :: rest' =>
      if (c =? delim)%N
      then match left with
           | 1 => Some (length rest)
           | _ => head_scan rest' delim (left - 1)
           end
      else head_scan rest' delim left
  end.

(** Text::head for bytes, /repo/src/text.rs:263-279. *)
Definition head (buff : bytes) (num : nat) (delim : byte) : bytes :=
  match num, buff with
  | 0, _ => []
  | _, [] => []
  | _, _ => match head_scan buff delim num with
            | Some n => firstn (length buff - n) buff
            | None => buff
            end
  end.

(** Text::tail_path_u8, /repo/src/text.rs:281-290. *)
Definition tail_path_u8 (buff : bytes) (num : nat) (delim : byte) : bytes :=
  match buff with
  | [] => []
  | _ => if (last buff 0 =? delim)%N then tail_u8 buff (num + 1) delim else tail_u8 buff num delim
  end.

(** Text::head_path, /repo/src/text.rs:293-302. *)
Definition head_path (buff : bytes) (num : nat) (delim : byte) : bytes :=
  match buff with
  | [] => []
  | c :: _ => if (c =? delim)%N then head buff (num + 1) delim else head buff num delim
  end.

(** Wrap-around of usize (64 bit, release build; a debug build panics instead), e.g. the
    multiplications of /repo/src/text.rs:634-641. *)
Definition wrapU (n : N) : N := (n mod 2 ^ 64)%N.

(** Wrap-around of isize, /repo/src/text.rs:661-672 (64 bit, release build). *)
Definition wrapI (z : Z) : Z := ((z + 2 ^ 63) mod 2 ^ 64 - 2 ^ 63)%Z.

(** P2_LETTERS, /repo/src/num.rs:261. *)
Definition P2_LETTERS : bytes := [48; 75; 77; 71; 84; 80; 69; 90; 89]%N.

(** P10_LETTERS, /repo/src/num.rs:262. *)
Definition P10_LETTERS : bytes := [48; 107; 109; 103; 116; 112; 101; 122; 121]%N.

(** P2_VALUES_U, /repo/src/num.rs:263-273: the hat is exclusive or. *)
Definition P2_VALUES_U : list N :=
  [1; 1024; N.lxor 1024 2; N.lxor 1024 3; N.lxor 1024 4; N.lxor 1024 5; N.lxor 1024 6; 2 ^ 64 - 1; 2 ^ 64 - 1]%N.

(** P10_VALUES_U, /repo/src/num.rs:285-295. *)
Definition P10_VALUES_U : list N :=
  [1; 1000; N.lxor 1000 2; N.lxor 1000 3; N.lxor 1000 4; N.lxor 1000 5; N.lxor 1000 6; 2 ^ 64 - 1; 2 ^ 64 - 1]%N.

(** The letter search loops of suffix_valu, /repo/src/num.rs:326-335. *)
Fixpoint find_letter (ch : byte) (letters : bytes) (vals : list N) : option N :=
  match letters, vals with
  | l :: ls, v :: vs => if (l =? ch)%N then Some v else find_letter ch ls vs
  | _, _ => None
  end.

(** suffix_valu, /repo/src/num.rs:325-337. *)
Definition suffix_valu (ch : byte) : option N :=
  match find_letter ch P2_LETTERS P2_VALUES_U with
  | Some v => Some v
  | None => find_letter ch P10_LETTERS P10_VALUES_U
  end.

(** The digit loop of to_usize, /repo/src/text.rs:633-637. *)
Fixpoint usize_loop (curr : bytes) (ret : N) : N * bytes :=
  match curr with
  | c :: r => if is_digit c then usize_loop r (wrapU (wrapU (ret * 10) + (c - 48)))%N else (ret, curr)
  | [] => (ret, curr)
  end.

(** Text::to_usize for bytes, /repo/src/text.rs:624-645. *)
Definition to_usize (l : bytes) : N * bytes :=
  let curr := match l with c :: r => if (c =? 43)%N then r else l | [] => l end in
  match curr with
  | c :: _ =>
      if is_digit c then
        let '(ret, rest) := usize_loop curr 0%N in
        match rest with
        | c' :: rest' =>
            match suffix_valu c' with
            | Some mul => (wrapU (ret * mul), rest')
            | None => (ret, rest)
            end
        | [] => (ret, [])
        end
      else (0%N, l)
  | [] => (0%N, l)
  end.

(** to_usize_whole, /repo/src/text.rs:103-115. *)
Definition to_usize_whole (l : bytes) : res N :=
  let '(v, rest) := to_usize l in match rest with [] => Ok v | _ => Err end.

(** The digit loop of to_isize, /repo/src/text.rs:661-665. *)
Fixpoint isize_loop (curr : bytes) (ret : Z) : Z * bytes :=
  match curr with
  | c :: r => if is_digit c then isize_loop r (wrapI (wrapI (ret * 10) + Z.of_N (c - 48)))%Z else (ret, curr)
  | [] => (ret, curr)
  end.

(** Text::to_isize for bytes, /repo/src/text.rs:646-674. *)
Definition to_isize (l : bytes) : Z * bytes :=
  let '(neg, curr) := match l with
                      | c :: r => if (c =? 43)%N then (1%Z, r) else if (c =? 45)%N then ((-1)%Z, r) else (1%Z, l)
                      | [] => (1%Z, l)
                      end in
  match curr with
  | c :: _ =>
      if is_digit c then
        let '(ret, rest) := isize_loop curr 0%Z in
        let '(ret, rest) :=
          match rest with
          | c' :: rest' =>
              match suffix_valu c' with
              | Some mul => (wrapI (ret * wrapI (Z.of_N mul)), rest')
              | None => (ret, rest)
              end
          | [] => (ret, [])
          end in
        (wrapI (ret * neg), rest)
      else (0%Z, l)
  | [] => (0%Z, l)
  end.

(** to_isize_whole, /repo/src/text.rs:143-154. *)
Definition to_isize_whole (l : bytes) : res Z :=
  let '(v, rest) := to_isize l in match rest with [] => Ok v | _ => Err end.

(** str::split_once, used in /repo/src/util.rs:478: text before and after the first occurrence. *)
Fixpoint split_once (d : byte) (l : bytes) : option (bytes * bytes) :=
  match l with
  | [] => None
  | c :: r => if (c =? d)%N then Some ([], r)
              else match split_once d r with Some (a, b) => Some (c :: a, b) | None => None end
  end.

(** The cast [as u32], /repo/src/util.rs:479,480,492. *)
Definition as_u32 (n : N) : N := (n mod 2 ^ 32)%N.

(** FakeSlice::new, /repo/src/util.rs:477-502. *)
Definition fake_slice_new (spec : bytes) : res (N * N) :=
  match split_once 45 spec with
  | Some (a, b) =>
      rbind (to_usize_whole a) (fun begin0 =>
      rbind (to_usize_whole b) (fun end0 =>
        let begin := as_u32 begin0 in let end_ := as_u32 end0 in
        if (begin =? 0)%N || (end_ =? 0)%N then Err
        else if (end_ <? begin)%N then Err
        else Ok (begin - 1, end_)%N))
  | None =>
      rbind (to_usize_whole spec) (fun num0 =>
        let num := as_u32 num0 in
        if (num =? 0)%N then Err else Ok (num - 1, num)%N)
  end.

(** FakeSlice::get, /repo/src/util.rs:505-507: panics when the range leaves the data. *)
Definition slice_get (s : N * N) (data : bytes) : res bytes :=
  let b := N.to_nat (fst s) in let e := N.to_nat (snd s) in
  if (b <=? e) && (e <=? length data) then Ok (firstn (e - b) (skipn b data)) else Panic.

(** FakeSlice::get_safe, /repo/src/util.rs:510-512. *)
Definition slice_get_safe (s : N * N) (data : bytes) : res bytes :=
  let b := min (N.to_nat (fst s)) (length data) in
  let e := min (N.to_nat (snd s)) (length data) in
  if (b <=? e) && (e <=? length data) then Ok (firstn (e - b) (skipn b data)) else Panic.

(** closer, /repo/src/util.rs:2379-2387. *)
Definition closer (ch : byte) : res byte :=
  if (ch =? 40)%N then Ok 41%N else if (ch =? 123)%N then Ok 125%N
  else if (ch =? 91)%N then Ok 93%N else if (ch =? 60)%N then Ok 62%N else Err.

(** The loop of find_close, /repo/src/util.rs:2398-2407; [depth] is an i32, overflow not modelled. *)
Fixpoint find_close_loop (open close : byte) (l : bytes) (i : nat) (depth : Z) : res nat :=
  match l with
  | [] => Err
  | x :: r =>
      let d := if (x =? open)%N then (depth + 1)%Z else if (x =? close)%N then (depth - 1)%Z else depth in
      if (d =? 0)%Z then Ok (i + 1) else find_close_loop open close r (i + 1) d
  end.

(** find_close, /repo/src/util.rs:2390-2409. *)
Definition find_close (spec : bytes) : res nat :=
  match spec with
  | [] => Err
  | open :: _ => rbind (closer open) (fun close => find_close_loop open close spec 0 0%Z)
  end.

(** chomp, /repo/src/util.rs:2413-2423; on the reversed text. *)
Fixpoint chomp_rev (l : bytes) : bytes :=
  match l with
  | c :: r => if (c =? NL)%N || (c =? CR)%N then chomp_rev r else l
  | [] => []
  end.

(** chomp, /repo/src/util.rs:2413-2423. *)
Definition chomp (l : bytes) : bytes := rev (chomp_rev (rev l)).

(** The escapes of unescape_vec, /repo/src/util.rs:1222-1227. *)
Definition unescape_char (x : byte) : byte :=
  if (x =? 110)%N then NL else if (x =? 116)%N then TAB else if (x =? 115)%N then SPC else x.

(** The loop of unescape_vec, /repo/src/util.rs:1220-1237. *)
Fixpoint unescape_loop (l : bytes) (slash : bool) : bytes :=
  match l with
  | [] => if slash then [BSL] else []
  | x :: r =>
      if slash then unescape_char x :: unescape_loop r false
      else if (x =? BSL)%N then unescape_loop r true
      else x :: unescape_loop r false
  end.

(** unescape_vec, /repo/src/util.rs:1217-1239. *)
Definition unescape_vec (l : bytes) : bytes := unescape_loop l false.

(** trimw, /repo/src/text.rs:521-528. *)
Fixpoint trim_left (l : bytes) : bytes :=
  match l with c :: r => if (32 <? c)%N then l else trim_left r | [] => [] end.

(** trimw, /repo/src/text.rs:521-528: first and last byte above space. *)
Definition trimw (l : bytes) : bytes := rev (trim_left (rev (trim_left l))).
