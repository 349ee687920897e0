(** cgrep over files, with the columns that tell where a line was found: /repo/src/bin/cdx/cgrep_main.rs and FileLocList of /repo/src/util.rs. *)
From Coq Require Import String List NArith Bool Arith.
Open Scope list_scope.
Import ListNotations.
From Verif Require Import Base TextModel TextSpec StrModel StrSpec ReadModel HeadModel HdrModel ToolModel.
Open Scope nat_scope.

(** FileLocItem, /repo/src/util.rs:1351-1358. *)
Inductive locitem := LBytes | LLine | LName (n : N).
(** FileLocItem::new, /repo/src/util.rs:1360-1378. *)
Definition item_new (spec : bytes) : res locitem :=
  let is x w := beq (map lower x) (bs w) in
  if is spec "bytes"%string then Ok LBytes
  else if is spec "line"%string then Ok LLine
  else if is spec "name"%string then Ok (LName 0)
  else match split_once 46 spec with
       | Some (a, b) => if is a "name"%string then rbind (to_usize_whole b) (fun n => Ok (LName n)) else Err
       | None => Err
       end.
Definition dflt_name (i : locitem) : bytes := (* /repo/src/util.rs:1379-1385 *)
  match i with LBytes => bs "bytes" | LLine => bs "line" | LName _ => bs "filename" end.
(** FileLoc, /repo/src/util.rs:1404-1407: the name of the column and what it shows. *)
Record floc := mkloc { lo_name : bytes; lo_item : locitem }.
Definition loc_new (spec : bytes) : res floc := (* FileLoc::new, /repo/src/util.rs:1409-1423 *)
  match split_once 58 spec with
  | Some (a, b) => rbind (item_new b) (fun i => Ok (mkloc a i))
  | None => rbind (item_new spec) (fun i => Ok (mkloc (dflt_name i) i))
  end.
Fixpoint locs_new (l : list bytes) : res (list floc) := (* the loop of FileLocList::push, /repo/src/util.rs:1447-1449 *)
  match l with [] => Ok [] | x :: r => rbind (loc_new x) (fun i => rbind (locs_new r) (fun v => Ok (i :: v))) end.
Definition loc_push (v : list floc) (spec : bytes) : res (list floc) := (* FileLocList::push, /repo/src/util.rs:1446-1451 *)
  rbind (locs_new (split_on 44 spec)) (fun w => Ok (v ++ w)).
(** FileLocItem::write_data, /repo/src/util.rs:1386-1400, for the file [name] and a reader. The number of parts is a usize; adding one to it
    (text.rs:286) overflows only with the largest and a name that ends with a slash. *)
Definition item_write (name : bytes) (r : reader) (i : locitem) : bytes :=
  match i with
  | LBytes => print_N (N.of_nat (r_bytes r))
  | LLine => print_N (N.of_nat (r_lineno r))
  | LName n => if (n =? 0)%N then name else tail_path_u8 name (N.to_nat n) 47
  end.
Definition locs_write (d : N) (name : bytes) (r : reader) (v : list floc) : bytes := (* FileLocList::write_data, /repo/src/util.rs:1453-1464 *)
  flat_map (fun x => item_write name r (lo_item x) ++ [d]) v.

(** What Reader::new_open_with adds to an open file, /repo/src/util.rs:1552-1558: the location. *)
Definition set_loc (f : tfile) : reader :=
  let r := tf_rd f in
  mkrd (r_src r) (r_lines r) (r_curr r) (r_split r) (r_done r) (match tf_head f with Some h => List.length h | None => 0 end) 1.

Section Grep.
(** As in ToolModel. *)
Variable utf8_ok : bytes -> bool.
Variables uni_alpha uni_alnum : N -> bool.
Variable name_ok : bytes -> bool.
(** LineMatcherList::lookup and then ok, /repo/src/bin/cdx/cgrep_main.rs:46 and 62, see MatchModel; simplified: the columns are looked up
    anew for each file, whatever came before. *)
Variable resolve : list bytes -> res (textline -> res bool).

(** The loop over the lines, /repo/src/bin/cdx/cgrep_main.rs:61-73. *)
Fixpoint find_loop (fuel : nat) (md : tmode) (locs : list floc) (reverse : bool) (name : bytes) (ok : textline -> res bool) (r : reader) : tool :=
  match fuel with
  | O => ([], Panic)
  | S k =>
      need (prev_line r 0) (fun t => need (ok t) (fun b =>
      say (if xorb b reverse then locs_write TAB name r locs ++ tl_line t else [])
      (need (next_line md r) (fun r' => if r_done r' then ([], Ok tt) else find_loop k md locs reverse name ok r'))))
  end.
(** The loop over the files, /repo/src/bin/cdx/cgrep_main.rs:41-74; [cdx] and [d] are the output format's. *)
Fixpoint find_files (md : tmode) (cdx : bool) (d : N) (m : hmode) (locs : list floc) (reverse : bool) (ck : checker) (fs : list (bytes * src)) : tool :=
  match fs with
  | [] => ([], Ok tt)
  | (name, s) :: rest =>
      need (open_file utf8_ok md s) (fun f =>
      if tf_empty f then find_files md cdx d m locs reverse ck rest
      else need (resolve (tf_names f)) (fun ok =>
           let '(h, good) := push_all uni_alpha uni_alnum hdr_new (map lo_name locs ++ tf_names f) in
           if negb good then ([], Err)
           else need (match tf_head f with Some _ => get_head cdx d (h_cols h) | None => Ok [] end) (fun hd =>
                let '(b, ck') := check utf8_ok name_ok m ck hd in
                need b (fun b =>
                say (if b then hd else [])
                (if r_done (tf_rd f) then find_files md cdx d m locs reverse ck' rest
                 else let '(t, e) := find_loop (turns (tf_rd f)) md locs reverse name ok (set_loc f) in
                      say t (need e (fun _ => find_files md cdx d m locs reverse ck' rest)))))))
  end.
Fixpoint all_locs (v : list floc) (opts : list bytes) : res (list floc) := (* /repo/src/bin/cdx/cgrep_main.rs:28-29 *)
  match opts with [] => Ok v | x :: r => rbind (loc_push v x) (fun v => all_locs v r) end.
(** main of cgrep, /repo/src/bin/cdx/cgrep_main.rs:18-75, with the texts of the location options in order; the conditions are behind [resolve]. *)
Definition cgrep (md : tmode) (cdx : bool) (d : N) (m : hmode) (opts : list bytes) (reverse : bool) (fs : list (bytes * src)) : tool :=
  need (all_locs [] opts) (fun locs => find_files md cdx d m locs reverse ck_new fs).
End Grep.
