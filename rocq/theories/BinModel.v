(** Model of binary search in text, /repo/src/binsearch.rs and the search of
    /repo/src/bin/cdx/binsearch_main.rs. *)
From Coq Require Import List NArith Bool Arith.
Import ListNotations.
From Verif Require Import Base.

(** The loop of find_end, /repo/src/binsearch.rs:78-83: [l] is the data from [pos] on. *)
Fixpoint end_loop (l : bytes) (pos : nat) : nat :=
  match l with
  | [] => pos
  | c :: r => if (c =? NL)%N then pos + 1 else end_loop r (pos + 1)
  end.
(** find_end, /repo/src/binsearch.rs:77-85. *)
Definition find_end (data : bytes) (start : nat) : nat := end_loop (skipn start data) start.

(** The loop of find_start, /repo/src/binsearch.rs:91-96, for a start inside the data. *)
Fixpoint start_loop (data : bytes) (start : nat) : nat :=
  if (nth start data 0 =? NL)%N then start + 1
  else match start with 0 => 0 | S p => start_loop data p end.
(** find_start, /repo/src/binsearch.rs:90-98: indexing past the end panics. *)
Definition find_start (data : bytes) (start : nat) : res nat :=
  if start <? length data then Ok (start_loop data start) else Panic.

(** find_prev, /repo/src/binsearch.rs:103-111. *)
Definition find_prev (data : bytes) (start : nat) : res nat :=
  if start <=? 1 then Ok 0
  else match nth_error data (start - 1) with
       | None => Panic
       | Some c => if negb (c =? NL)%N then find_start data start else find_start data (start - 2)
       end.

(** A slice data[start..stop], /repo/src/binsearch.rs:161. *)
Definition bslice (data : bytes) (start stop : nat) : bytes := firstn (stop - start) (skipn start data).

Section Search.
(** LineCompList::comp_self_line, /repo/src/comp.rs:1454-1462: the value searched for against a line. *)
Variable c : bytes -> comparison.
Variable data : bytes.

(** The line looked at, /repo/src/binsearch.rs:146-160 and 186-197. *)
Definition probe (trapped : bool) (b e : nat) : res (nat * nat) :=
  let mid := (e + b - 1) / 2 in
  let start := if trapped then b else find_end data mid in
  if Nat.eqb start e
  then rbind (find_start data mid) (fun s => Ok (s, start))
  else Ok (start, find_end data start).

(** The loop of lower_bound_n, /repo/src/binsearch.rs:144-177; None while it is still running when the fuel is
    used up. *)
Fixpoint lower_loop (fuel : nat) (trapped : bool) (b e : nat) : option (res (nat * nat)) :=
  if b <? e then
    match fuel with
    | 0 => None
    | S f =>
        match probe trapped b e with
        | Ok (start, stop) =>
            match c (bslice data start stop) with
            | Eq => if Nat.eqb start b then Some (Ok (start, stop)) else lower_loop f (Nat.eqb stop e) b stop
            | Lt => lower_loop f trapped b start
            | Gt => lower_loop f trapped stop e
            end
        | _ => Some Panic
        end
    end
  else Some (Ok (b, e)).
(** lower_bound_n, /repo/src/binsearch.rs:140-178. *)
Definition lower_bound_n (fuel : nat) : option (res (nat * nat)) := lower_loop fuel false 0 (length data).

(** The loop of upper_bound_n, /repo/src/binsearch.rs:184-204. *)
Fixpoint upper_loop (fuel : nat) (b e : nat) : option (res nat) :=
  if b <? e then
    match fuel with
    | 0 => None
    | S f =>
        match probe false b e with
        | Ok (start, stop) =>
            match c (bslice data start stop) with
            | Lt => upper_loop f b start
            | _ => upper_loop f stop e
            end
        | _ => Some Panic
        end
    end
  else Some (Ok b).
(** upper_bound_n, /repo/src/binsearch.rs:181-205. *)
Definition upper_bound_n (fuel : nat) : option (res nat) := upper_loop fuel 0 (length data).

(** equal_range_n, /repo/src/binsearch.rs:129-136. *)
Definition equal_range_n (fuel : nat) : option (res (nat * nat)) :=
  match lower_bound_n fuel with
  | Some (Ok (start1, stop1)) =>
      if Nat.eqb start1 stop1 then Some (Ok (start1, stop1))
      else match upper_bound_n fuel with
           | Some (Ok u) => Some (Ok (start1, u))
           | Some Err => Some Err
           | Some Panic => Some Panic
           | None => None
           end
  | x => x
  end.
End Search.

(** Widening by lines of context, /repo/src/bin/cdx/binsearch_main.rs:161-166: backwards. *)
Fixpoint back_lines (data : bytes) (n start : nat) : res nat :=
  match n with
  | 0 => Ok start
  | S k => if Nat.eqb start 0 then Ok start else rbind (find_prev data start) (back_lines data k)
  end.
(** The same forwards, /repo/src/bin/cdx/binsearch_main.rs:167-169. *)
Fixpoint forward_lines (data : bytes) (n stop : nat) : nat :=
  match n with 0 => stop | S k => forward_lines data k (find_end data stop) end.

(** Context::get, /repo/src/bin/cdx/binsearch_main.rs:66-72. *)
Record context := mkctx { before_match : nat; before_non : nat; after_match : nat; after_non : nat }.

(** write_all_nl, /repo/src/util.rs:761-769. *)
Definition write_nl (b : bytes) : bytes :=
  match rev b with [] => [] | c :: _ => if (c =? NL)%N then b else b ++ [NL] end.

(** The lines written one by one with the file name in front, /repo/src/bin/cdx/binsearch_main.rs:174-180. Fuel: one more
    than the bytes. *)
Fixpoint named_loop (fuel : nat) (name data : bytes) (start stop : nat) : bytes :=
  match fuel with
  | 0 => []
  | S f => if start <? stop
           then let e := find_end data start in
                name ++ [TAB] ++ write_nl (bslice data start e) ++ named_loop f name data e stop
           else []
  end.

(** Everything written for one file after its header, /repo/src/bin/cdx/binsearch_main.rs:159-181; [name] is the
    shortened path with --filename. The whole map is searched, header line included; the header has been written
    before (145-157). *)
Definition search_main (c : bytes -> comparison) (fuel : nat) (ctx : context) (name : option bytes) (data : bytes) : option (res bytes) :=
  match equal_range_n c data fuel with
  | Some (Ok (start, stop)) =>
      let '(before, after) := if Nat.eqb start stop then (before_non ctx, after_non ctx) else (before_match ctx, after_match ctx) in
      Some (rbind (back_lines data before start) (fun start =>
        let stop := forward_lines data after stop in
        Ok (match name with
            | None => write_nl (bslice data start stop)
            | Some n => named_loop (S (length data)) n data start stop
            end)))
  | Some Err => Some Err
  | Some Panic => Some Panic
  | None => None
  end.
