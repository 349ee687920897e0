(** Model of sorting and merging, /repo/src/sort.rs. *)
From Coq Require Import List NArith Bool Arith.
Import ListNotations.
From Verif Require Import Base ReadModel HeadModel.

Section Items.
(** Sorting works on items through LineCompList::comp_items; here any type [A] and comparison [cmp],
    as /repo/src/sort.rs:474. *)
Context {A : Type}.
Variable cmp : A -> A -> comparison.

(** Comparing with Ordering::Greater, /repo/src/sort.rs:641. *)
Definition is_gt (c : comparison) : bool := match c with Gt => true | _ => false end.

(** merge_lines, /repo/src/sort.rs:631-665. [pos] is dst_pos; slices and indexing out of range panic,
    and so does running out of fuel. *)
Fixpoint merge_lines (fuel : nat) (dst low : list A) (hi_start hi_end pos : nat) : res (list A) :=
  match fuel with
  | 0 => Panic
  | S f =>
      match low, nth_error dst hi_start with
      | x :: low', Some y =>
          if is_gt (cmp x y)
          then let dst := list_set dst pos y in
               let hi_start := hi_start + 1 in
               if Nat.eqb hi_start hi_end
               then Ok (firstn (pos + 1) dst ++ low ++ skipn (pos + 1 + length low) dst)
               else merge_lines f dst low hi_start hi_end (pos + 1)
          else let dst := list_set dst pos x in
               match low' with
               | [] => Ok dst
               | _ => merge_lines f dst low' hi_start hi_end (pos + 1)
               end
      | _, _ => Panic
      end
  end.

(** sort_lines and sort_lines_temp, /repo/src/sort.rs:668-705: [false] sorts in place, [true] into
    temp. Items and temp come back; a sub-slice is cut out and put back. Lengths 0 and 1 would recurse
    for ever, here until the fuel is gone. *)
Fixpoint sort_lines (to_temp : bool) (fuel : nat) (items temp : list A) : res (list A * list A) :=
  match fuel with
  | 0 => Panic
  | S f =>
      let n := length items in
      if to_temp then
        match items with
        | [x; y] =>
            match temp with
            | _ :: _ :: t => Ok (items, if is_gt (cmp x y) then y :: x :: t else x :: y :: t)
            | _ => Panic
            end
        | _ =>
            let low := n / 2 in
            if length temp <? n then Panic else
            rbind (sort_lines true f (skipn low items) (firstn (n - low) (skipn low temp))) (fun '(hi, tmid) =>
            let items := firstn low items ++ hi in
            let temp := firstn low temp ++ tmid ++ skipn n temp in
            rbind (if 1 <? low
                   then rbind (sort_lines false f (firstn low items) temp) (fun '(lo, temp) => Ok (lo ++ skipn low items, temp))
                   else Ok (items, temp)) (fun '(items, temp) =>
            rbind (merge_lines n temp (firstn low items) low n 0) (fun temp => Ok (items, temp))))
        end
      else
        match items with
        | [x; y] => Ok (if is_gt (cmp x y) then [y; x] else [x; y], temp)
        | _ =>
            let low := n / 2 in
            rbind (sort_lines false f (skipn low items) temp) (fun '(hi, temp) =>
            let items := firstn low items ++ hi in
            rbind (if Nat.eqb low 1
                   then match items, temp with
                        | x :: _, _ :: t => Ok (items, x :: t)
                        | _, _ => Panic
                        end
                   else rbind (sort_lines true f (firstn low items) temp) (fun '(lo, temp) => Ok (lo ++ skipn low items, temp)))
              (fun '(items, temp) =>
            if length temp <? low then Panic else
            rbind (merge_lines n items (firstn low temp) low n 0) (fun items => Ok (items, temp))))
        end
  end.

(** do_sort_lines, /repo/src/sort.rs:708-715; [dflt] is Item::default. *)
Definition do_sort_lines (dflt : A) (items : list A) : res (list A) :=
  if 1 <? length items
  then rbind (sort_lines false (length items) items (repeat dflt (length items / 2 + 1))) (fun '(i, _) => Ok i)
  else Ok items.

(** slice::sort_by, /repo/src/sort.rs:473-474: the standard library's stable sort, modelled by
    insertion sort. *)
Fixpoint std_insert (x : A) (l : list A) : list A :=
  match l with
  | [] => [x]
  | y :: r => if is_gt (cmp x y) then y :: std_insert x r else x :: l
  end.
Definition std_sort (l : list A) : list A := fold_right std_insert [] l. (* /repo/src/sort.rs:474 *)

Variable eqv : A -> A -> bool.
(** Vec::dedup_by, /repo/src/sort.rs:477-478: drops an element equal to the last one kept. *)
Fixpoint dedup_from (prev : A) (l : list A) : list A :=
  match l with
  | [] => []
  | x :: r => if eqv x prev then dedup_from prev r else x :: dedup_from x r
  end.
Definition dedup (l : list A) : list A := match l with [] => [] | x :: r => x :: dedup_from x r end. (* /repo/src/sort.rs:478 *)

(** Sorter::do_sort, /repo/src/sort.rs:469-480 with alt_sort off, which is the only setting Sorter::new
    makes (343-362). *)
Definition do_sort (unique : bool) (l : list A) : list A :=
  if unique then dedup (std_sort l) else std_sort l.

(** A reader as the lines it still has, the current one first; empty when done. The readers are
    numbered by position. /repo/src/sort.rs:155-158. *)
Definition readers := list (list A).
(** Reader::is_done, /repo/src/sort.rs:585. *)
Definition rd_done (rs : readers) (f : nat) : bool := match nth f rs [] with [] => true | _ => false end.
(** Reader::getline, /repo/src/sort.rs:590: moves to the next line. *)
Definition rd_next (rs : readers) (f : nat) : readers := list_set rs f (tl (nth f rs [])).
(** Comparison of the current lines of two readers, /repo/src/sort.rs:614 and 24-28. Simplified: Eq if
    one is done, which the callers exclude. *)
Definition rd_cmp (rs : readers) (a b : nat) : comparison :=
  match nth a rs [], nth b rs [] with x :: _, y :: _ => cmp x y | _, _ => Eq end.

(** MergeTreeItem, /repo/src/sort.rs:526-557. *)
Inductive tree :=
| Leaf (file : nat) (first : bool)
| Node (l r : tree) (ld rd : option nat).

(** MergeTreeItem::new_tree, /repo/src/sort.rs:560-572. Fuel: the number of files. *)
Fixpoint new_tree (fuel : nat) (nums : list nat) : res tree :=
  match fuel with
  | 0 => Panic
  | S f =>
      match nums with
      | [] => Panic
      | [x] => Ok (Leaf x true)
      | _ =>
          let mid := length nums / 2 in
          rbind (new_tree f (firstn mid nums)) (fun l =>
          rbind (new_tree f (skipn mid nums)) (fun r => Ok (Node l r None None)))
      end
  end.

(** MergeTreeItem::next, /repo/src/sort.rs:582-627. *)
Fixpoint next (t : tree) (rs : readers) : option nat * tree * readers :=
  match t with
  | Leaf f first =>
      if rd_done rs f then (None, t, rs)
      else if first then (Some f, Leaf f false, rs)
      else let rs := rd_next rs f in
           if rd_done rs f then (None, t, rs) else (Some f, t, rs)
  | Node l r ld rd =>
      let '(ld, l, rs) := match ld with None => next l rs | Some x => (Some x, l, rs) end in
      let '(rd, r, rs) := match rd with None => next r rs | Some x => (Some x, r, rs) end in
      match ld, rd with
      | None, None => (None, Node l r None None, rs)
      | None, Some b => (Some b, Node l r None None, rs)
      | Some a, None => (Some a, Node l r None None, rs)
      | Some a, Some b =>
          if is_gt (rd_cmp rs a b) then (Some b, Node l r (Some a) None, rs)
          else (Some a, Node l r None (Some b), rs)
      end
  end.

(** The loop of merge_t1 without unique, /repo/src/sort.rs:191-198; None when the fuel is gone. *)
Fixpoint tree_loop (fuel : nat) (t : tree) (rs : readers) : option (list A) :=
  match fuel with
  | 0 => None
  | S f =>
      match next t rs with
      | (None, _, _) => Some []
      | (Some x, t, rs) =>
          match nth x rs [] with
          | [] => None
          | line :: _ => match tree_loop f t rs with Some out => Some (line :: out) | None => None end
          end
      end
  end.
(** The loop of merge_t1 with unique, /repo/src/sort.rs:179-189: the line is written unless equal to the
    previous one, which is replaced either way. *)
Fixpoint tree_uloop (fuel : nat) (prev : A) (t : tree) (rs : readers) : option (list A) :=
  match fuel with
  | 0 => None
  | S f =>
      match next t rs with
      | (None, _, _) => Some []
      | (Some x, t, rs) =>
          match nth x rs [] with
          | [] => None
          | line :: _ =>
              match tree_uloop f line t rs with
              | Some out => Some (if eqv prev line then out else line :: out)
              | None => None
              end
          end
      end
  end.
(** Number of lines in all the readers, for the fuel; no counterpart in /repo/src/sort.rs:140. *)
Definition total (rs : readers) : nat := length (concat rs).
(** merge_t1 on opened files, /repo/src/sort.rs:169-200. *)
Definition merge_t1 (unique : bool) (rs : readers) : option (list A) :=
  match rs with
  | [] => Some []
  | _ =>
      match new_tree (length rs) (seq 0 (length rs)) with
      | Ok t =>
          if unique then
            match next t rs with
            | (None, _, _) => Some []
            | (Some x, t, rs') =>
                match nth x rs' [] with
                | [] => None
                | line :: _ =>
                    match tree_uloop (S (total rs)) line t rs' with Some out => Some (line :: out) | None => None end
                end
            end
          else tree_loop (S (total rs)) t rs
      | _ => None
      end
  end.

(** Heap merge: [push] and [pop] are those of the BinaryHeap crate, given the comparison of two file
    numbers; /repo/src/sort.rs:77-81. *)
Variable push : (nat -> nat -> comparison) -> nat -> list nat -> list nat.
Variable pop : (nat -> nat -> comparison) -> list nat -> option (nat * list nat).

(** MergeContext::compare, /repo/src/sort.rs:24-28: reversed, so that the greatest is the least line. *)
Definition hcmp (rs : readers) (a b : nat) : comparison := CompOpp (rd_cmp rs a b).

(** Pushing the files that have lines, /repo/src/sort.rs:97-101. *)
Definition heap_init (rs : readers) : list nat :=
  fold_left (fun h i => if rd_done rs i then h else push (hcmp rs) i h) (seq 0 (length rs)) [].
(** Advancing a file and pushing it back unless done, e.g. /repo/src/sort.rs:130-132. *)
Definition heap_back (rs : readers) (h : list nat) (x : nat) : list nat * readers :=
  let rs := rd_next rs x in
  (if rd_done rs x then h else push (hcmp rs) x h, rs).
(** The loop of merge_t2 without unique, /repo/src/sort.rs:126-134. *)
Fixpoint heap_loop (fuel : nat) (h : list nat) (rs : readers) : option (list A) :=
  match fuel with
  | 0 => None
  | S f =>
      match pop (hcmp rs) h with
      | None => Some []
      | Some (x, h) =>
          match nth x rs [] with
          | [] => None
          | line :: _ =>
              let '(h, rs) := heap_back rs h x in
              match heap_loop f h rs with Some out => Some (line :: out) | None => None end
          end
      end
  end.
(** The loop of merge_t2 with unique, /repo/src/sort.rs:113-124. *)
Fixpoint heap_uloop (fuel : nat) (prev : A) (h : list nat) (rs : readers) : option (list A) :=
  match fuel with
  | 0 => None
  | S f =>
      match pop (hcmp rs) h with
      | None => Some []
      | Some (x, h) =>
          match nth x rs [] with
          | [] => None
          | line :: _ =>
              let eq := eqv prev line in
              let '(h, rs) := heap_back rs h x in
              match heap_uloop f (if eq then prev else line) h rs with
              | Some out => Some (if eq then out else line :: out)
              | None => None
              end
          end
      end
  end.
(** merge_t2 on opened files, /repo/src/sort.rs:97-136. *)
Definition merge_t2 (unique : bool) (rs : readers) : option (list A) :=
  let h := heap_init rs in
  if unique then
    match pop (hcmp rs) h with
    | None => Some []
    | Some (x, h) =>
        match nth x rs [] with
        | [] => None
        | line :: _ =>
            let '(h, rs') := heap_back rs h x in
            match heap_uloop (S (total rs)) line h rs' with Some out => Some (line :: out) | None => None end
        end
    end
  else heap_loop (S (total rs)) h rs.
End Items.

(** The BinaryHeap of the crate binary_heap_plus, used at /repo/src/sort.rs:13 and 81, from its published
    algorithm (the same as the standard library's): a list holding the children of i at 2i+1, 2i+2. *)
Section Heap.
Variable cmp : nat -> nat -> comparison.
(** sift_up, used by push (/repo/src/sort.rs:99): moves the element at [pos] up while it is greater than
    its parent. *)
Fixpoint sift_up (fuel : nat) (h : list nat) (pos : nat) : list nat :=
  match fuel with
  | 0 => h
  | S f =>
      if Nat.eqb pos 0 then h
      else let parent := (pos - 1) / 2 in
           let x := nth pos h 0 in
           let p := nth parent h 0 in
           if is_gt (cmp x p) then sift_up f (list_set (list_set h pos p) parent x) parent else h
  end.
(** BinaryHeap::push, /repo/src/sort.rs:99. *)
Definition bh_push (x : nat) (h : list nat) : list nat := sift_up (S (length h)) (h ++ [x]) (length h).
(** First part of sift_down_to_bottom, used by pop (/repo/src/sort.rs:106): the element at [pos] goes all
    the way down, swapping with the greater child (the right one if equal). Returns its final place. *)
Fixpoint sift_down (fuel : nat) (h : list nat) (pos : nat) : list nat * nat :=
  match fuel with
  | 0 => (h, pos)
  | S f =>
      let child := 2 * pos + 1 in
      if child + 1 <? length h then
        let child := if is_gt (cmp (nth child h 0) (nth (child + 1) h 0)) then child else child + 1 in
        sift_down f (list_set (list_set h pos (nth child h 0)) child (nth pos h 0)) child
      else if child <? length h then (list_set (list_set h pos (nth child h 0)) child (nth pos h 0), child)
      else (h, pos)
  end.
(** BinaryHeap::pop, /repo/src/sort.rs:106: the last element replaces the first, goes to the bottom, then
    up again. *)
Definition bh_pop (h : list nat) : option (nat * list nat) :=
  match h with
  | [] => None
  | x :: _ =>
      match rev h with
      | [] => None
      | y :: _ =>
          let h' := removelast h in
          match h' with
          | [] => Some (y, [])
          | _ :: r =>
              let '(h2, pos) := sift_down (length h) (y :: r) 0 in
              Some (x, sift_up (S pos) h2 pos)
          end
      end
  end.
End Heap.

Section Sorter.
Variable cmp : bytes -> bytes -> comparison.
Variable eqv : bytes -> bytes -> bool.
(** LineCompList::comp_items and equal_items, /repo/src/sort.rs:474 and 478: what the items in memory are compared with. Merging compares
    lines read back, with [cmp] and [eqv]. *)
Variable icmp : bytes -> bytes -> comparison.
Variable ieqv : bytes -> bytes -> bool.
Variable push : (nat -> nat -> comparison) -> nat -> list nat -> list nat.
Variable pop : (nat -> nat -> comparison) -> list nat -> option (nat * list nat).
(** Sorter::new, /repo/src/sort.rs:343-362: capacity of the data buffer, and the unique flag. *)
Variable cap : nat.
Variable unique : bool.

(** Sorter, /repo/src/sort.rs:312-336. Simplified: [so_data] is the used part of the buffer; items are
    the lines they point at, with their cached keys inside [icmp] and [ieqv]; a temporary file is its content. *)
Record sorter := mkso { so_data : bytes; so_tmp : list bytes }.

(** Sorter::calc, /repo/src/sort.rs:432-446: the complete lines, and what is left over. *)
Fixpoint calc (l cur : bytes) : list bytes * bytes :=
  match l with
  | [] => ([], rev cur)
  | c :: r => if (c =? NL)%N then let '(ls, rest) := calc r [] in (rev (c :: cur) :: ls, rest)
              else calc r (c :: cur)
  end.

(** calc, do_sort, write_tmp as called together, /repo/src/sort.rs:425-427, 449-466. The bytes kept are
    those after the last newline; at these calls the buffer is full, so its length is data_used. *)
Definition spill (s : sorter) : sorter :=
  let '(ls, rest) := calc (so_data s) [] in
  mkso rest (so_tmp s ++ [concat (do_sort icmp ieqv unique ls)]).

(** Sorter::prepare, /repo/src/sort.rs:377-391: bytes available, at most [n]. *)
Definition prepare (s : sorter) (n : nat) : nat := Nat.min n (cap - length (so_data s)).

(** Sorter::add_data, /repo/src/sort.rs:395-405. *)
Definition add_data (s : sorter) (d : bytes) : res sorter :=
  if negb (Nat.eqb (prepare s (length d)) (length d)) then Err
  else Ok (mkso (so_data s ++ d) (so_tmp s)).

(** Sorter::add, /repo/src/sort.rs:408-430. The reader is the bytes left and a schedule of read sizes:
    each read gives at least one byte unless the data or the space is used up. [size] is SIZE, 16 KiB.
    Fuel: one more than the bytes left. *)
Fixpoint add (fuel : nat) (size : nat) (s : sorter) (r : bytes) (sched : list nat) : res sorter :=
  match fuel with
  | 0 => Panic
  | S f =>
      let sz := prepare s size in
      let want := match sched with [] => sz | w :: _ => Nat.max 1 w end in
      let n := Nat.min want (Nat.min sz (length r)) in
      if Nat.eqb n 0 then
        match rev (so_data s) with
        | [] => Ok s
        | c :: _ => if (c =? NL)%N then Ok s
                    else if Nat.eqb sz 0 then Panic
                    else Ok (mkso (so_data s ++ [NL]) (so_tmp s))
        end
      else
        let s := mkso (so_data s ++ firstn n r) (so_tmp s) in
        let s := if cap <=? length (so_data s) then spill s else s in
        add f size s (skipn n r) (tl sched)
  end.

(** Lines of a file as a Reader gives them, /repo/src/util.rs:424-455: a missing last newline is added. *)
Definition file_lines (f : bytes) : list bytes :=
  let '(ls, rest) := calc f [] in ls ++ match rest with [] => [] | _ => [rest ++ [NL]] end.
(** Opening a file for merging, /repo/src/sort.rs:84-95 and /repo/src/util.rs:1306-1335: if it
    starts like a header the first line is taken as one. Simplified: the header is not parsed (a bad one
    would be an error), and the first read shows its first four bytes. *)
Definition open_tmp (f : bytes) : option bytes * list bytes :=
  let ls := file_lines f in
  if starts_with f CDX then match ls with [] => (None, []) | h :: r => (Some h, r) end else (None, ls).

(** merge_t, merge_t1 and merge_t2 on file contents, /repo/src/sort.rs:45-201, as also called by merge
    (203-216): header of the first file, then the merge. One file without unique is copied. [alt] is
    alt_merge. Headers of the other files are not looked at, and keys are not looked up. *)
Definition merge_files (alt : bool) (fs : list bytes) : option bytes :=
  match fs with
  | [] => Some []
  | f :: rest =>
      if (match rest with [] => true | _ => false end && negb unique)%bool then Some f
      else let h := match fst (open_tmp f) with Some h => h | None => [] end in
           let rs := map (fun x => snd (open_tmp x)) fs in
           match (if alt then merge_t1 cmp eqv unique rs else merge_t2 cmp eqv push pop unique rs) with
           | Some out => Some (h ++ concat out)
           | None => None
           end
  end.

(** Sorter::finalize, /repo/src/sort.rs:482-495: the bytes written. alt_merge is off (343-362). *)
Definition finalize (s : sorter) : option bytes :=
  match so_tmp s with
  | [] => Some (concat (do_sort icmp ieqv unique (fst (calc (so_data s) []))))
  | _ => merge_files false (so_tmp (spill s))
  end.

(** Sorter::add_file, /repo/src/sort.rs:505-522, after HeaderChecker::check has said [keep]: gives the
    bytes written and the new state. [first] is the first line, [rest] the bytes after it. Key lookup is not
    modelled. *)
Definition add_file (size : nat) (s : sorter) (keep : bool) (first rest : bytes) (sched : list nat) : res (bytes * sorter) :=
  match first with
  | [] => Ok ([], s)
  | _ =>
      rbind (if keep then if is_cdx first then Ok (first, s) else rbind (add_data s first) (fun s => Ok ([], s))
             else Ok ([], s)) (fun '(w, s) =>
      rbind (add (S (length rest)) size s rest sched) (fun s => Ok (w, s)))
  end.

(** read_until a newline, /repo/src/sort.rs:508: the first line and the rest. *)
Fixpoint first_line (l : bytes) : bytes * bytes :=
  match l with
  | [] => ([], [])
  | c :: r => if (c =? NL)%N then ([c], r) else let '(f, rest) := first_line r in (c :: f, rest)
  end.

(** Is a name acceptable, is text valid: as in HeadModel, /repo/src/util.rs:1914-1927. *)
Variable utf8_ok : bytes -> bool.
Variable name_ok : bytes -> bool.

(** SortConfig::sort, /repo/src/sort.rs:292-307: each file with its schedule of reads, then finalize. The
    checker is the default one (357), mode Match. The first error ends the run. *)
Fixpoint sort_files (size : nat) (c : checker) (s : sorter) (fs : list (bytes * list nat)) : res bytes :=
  match fs with
  | [] => match finalize s with Some o => Ok o | None => Panic end
  | (f, sched) :: more =>
      let '(first, rest) := first_line f in
      match first with
      | [] => sort_files size c s more
      | _ =>
          let '(v, c) := check utf8_ok name_ok MMatch c first in
          rbind v (fun keep =>
          rbind (add_file size s keep first rest sched) (fun '(w, s) =>
          rbind (sort_files size c s more) (fun o => Ok (w ++ o))))
      end
  end.
End Sorter.
