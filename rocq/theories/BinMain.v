(** Model of the binsearch tool, /repo/src/bin/cdx/binsearch_main.rs, and of MemMap, /repo/src/binsearch.rs, on top of the search. *)
From Coq Require Import String List NArith ZArith Bool Arith.
Open Scope list_scope.
Import ListNotations.
From Verif Require Import Base TextModel TextSpec StrModel FloatModel ReadModel HdrModel HeadModel StrSpec MatchModel CompModel ToolModel KeyModel BinModel.
Close Scope Z_scope. Open Scope nat_scope.

(** FileNameColumn, /repo/src/bin/cdx/binsearch_main.rs:8-12. *)
Record fncol := mkfn { fn_name : bytes; fn_tail : nat }.
(** FileNameColumn::set on a new one, /repo/src/bin/cdx/binsearch_main.rs:13-34. *)
Definition fn_set (spec : bytes) : res fncol :=
  match spec with
  | [] => Ok (mkfn [] 0)
  | ch :: _ =>
      match split_once 58 spec with
      | Some (name, tail) => rbind (to_usize_whole tail) (fun n => Ok (mkfn name (N.to_nat n)))
      | None => if is_digit ch then rbind (to_usize_whole spec) (fun n => Ok (mkfn [] (N.to_nat n))) else Ok (mkfn spec 0)
      end
  end.

(** do_set, /repo/src/bin/cdx/binsearch_main.rs:45-57: the number with and without a match. *)
Definition do_set (spec : bytes) : res (nat * nat) :=
  match split_on 46 spec with
  | [a] => rbind (to_usize_whole a) (fun n => Ok (N.to_nat n, N.to_nat n))
  | [a; b] => rbind (to_usize_whole a) (fun n => rbind (to_usize_whole b) (fun m => Ok (N.to_nat n, N.to_nat m)))
  | _ => Err
  end.
(** Context::set, /repo/src/bin/cdx/binsearch_main.rs:73-86. All four fields are set when it succeeds, and the tool ends when it fails. *)
Definition ctx_set (spec : bytes) : res context :=
  match split_on 44 spec with
  | [a] => rbind (do_set a) (fun '(y, n) => Ok (mkctx y n y n))
  | [a; b] => rbind (do_set a) (fun '(y, n) => rbind (do_set b) (fun '(y2, n2) => Ok (mkctx y n y2 n2)))
  | _ => Err
  end.

(** StringLine::fake, /repo/src/util.rs:890-899. *)
Definition fake_cdx (n : nat) (delim : byte) : bytes :=
  CDX ++ flat_map (fun i => delim :: bs "c" ++ print_N (N.of_nat i)) (seq 1 n) ++ [NL].
(** MemMap, /repo/src/binsearch.rs:13-20: the data, header_len, the header line, the names (the parts of the header without the first),
    delim. *)
Record memmap := mkmm { mm_data : bytes; mm_len : nat; mm_head : bytes; mm_names : list bytes; mm_delim : byte }.

Section BinTool.
(** Oracles as in ToolModel and KeyModel. *)
Variable utf8_ok name_ok : bytes -> bool.
Variable uni_alpha uni_alnum : N -> bool.
Variable expr : Type.
Variable expr_new : bytes -> res expr.
Variable expr_lookup : expr -> list bytes -> res expr.
Variable expr_eval : expr -> textline -> f64.
Variable expr_eval_line : expr -> bytes -> byte -> f64.
Variable expr_none : f64.
Variable exp10 : Z -> f64.

(** MemMap::new, /repo/src/binsearch.rs:23-47, for a file with this content that could be opened and mapped; a delimiter that cannot be
    read is out of range, and so is the first part of a header without parts. *)
Definition mm_new (data : bytes) : res memmap :=
  let n := find_end data 0 in
  let line := firstn n data in
  if is_cdx data then
    match nth_error data 4 with
    | None => Panic
    | Some d => if utf8_ok line then
                  match map (get_part line) (split_plain line d) with [] => Panic | _ :: names => Ok (mkmm data n line names d) end
                else Err
    end
  else let head := fake_cdx (List.length (split_on TAB line)) TAB in
       match map (get_part head) (split_plain head TAB) with [] => Panic | _ :: names => Ok (mkmm data 0 head names TAB) end.
Definition mm_has (m : memmap) : bool := 0 <? mm_len m. (* MemMap::has_header, /repo/src/binsearch.rs:59-61 *)

(** The variables of main, /repo/src/bin/cdx/binsearch_main.rs:100-104. *)
Record bconf := mkbc { bc_keys : list (key expr); bc_file : option fncol; bc_ctx : context; bc_sub : byte; bc_pat : option bytes }.
Definition bconf_new : bconf := mkbc [] None (mkctx 0 0 0 0) 44 None. (* /repo/src/bin/cdx/binsearch_main.rs:100-104 *)
(** One option, /repo/src/bin/cdx/binsearch_main.rs:106-131. The option declared as sub-delim has no branch; the branch asks for subdelim. *)
Definition bin_arg (c : bconf) (a : bytes * bytes) : res bconf :=
  let '(name, value) := a in
  if beq name (bs "key") then
    rbind (make_line_comp uni_alpha uni_alnum expr expr_new value) (fun k => Ok (mkbc (bc_keys c ++ [k]) (bc_file c) (bc_ctx c) (bc_sub c) (bc_pat c)))
  else if beq name (bs "filename") then
    match bc_file c with
    | Some _ => Err
    | None => rbind (fn_set value) (fun f => Ok (mkbc (bc_keys c) (Some f) (bc_ctx c) (bc_sub c) (bc_pat c)))
    end
  else if beq name (bs "context") then rbind (ctx_set value) (fun x => Ok (mkbc (bc_keys c) (bc_file c) x (bc_sub c) (bc_pat c)))
  else if beq name (bs "subdelim") then
    match value with [d] => Ok (mkbc (bc_keys c) (bc_file c) (bc_ctx c) d (bc_pat c)) | _ => Err end
  else if beq name (bs "pattern") then Ok (mkbc (bc_keys c) (bc_file c) (bc_ctx c) (bc_sub c) (Some value))
  else Panic.
Fixpoint bin_args (c : bconf) (l : list (bytes * bytes)) : res bconf := (* /repo/src/bin/cdx/binsearch_main.rs:106-131 *)
  match l with [] => Ok c | a :: r => rbind (bin_arg c a) (fun c => bin_args c r) end.

(** The header written for one file, /repo/src/bin/cdx/binsearch_main.rs:147-157. The slice from 4 never fails: the header has one. *)
Definition bin_head (file : option fncol) (m : memmap) : bytes :=
  if mm_has m then match file with Some f => CDX ++ TAB :: fn_name f ++ skipn 4 (mm_head m) | None => mm_head m end else [].
(** LineCompList::set keeps the parts of the pattern, /repo/src/comp.rs:1415-1433; ll_values of CompModel only counts the keys. *)
Definition key_values (ks : list (key expr)) (v : bytes) (delim : byte) : res (list bytes) :=
  ll_values (map (fun _ => mklc false TAB (LWhole (mkcomp false CPlain))) ks) v delim.
(** The loop over the files, /repo/src/bin/cdx/binsearch_main.rs:145-182: each with its name; [ck] is the HeaderChecker. Every lookup is for
    file number 0 (/repo/src/comp.rs:1377-1379). Simplified: a search that does not end is a Panic (the fuel is enough for any that does,
    see C21), and so is the random comparison, left out as in KeyModel. *)
Fixpoint bin_files (md : hmode) (c : bconf) (ks : list (key expr)) (vs : list bytes) (ck : checker) (fs : list (bytes * bytes)) : tool :=
  match fs with
  | [] => ([], Ok tt)
  | (fname, data) :: rest =>
      need (mm_new data) (fun m =>
      let hd := bin_head (bc_file c) m in
      let '(b, ck') := check utf8_ok name_ok md ck hd in
      need b (fun b =>
      say (if b then hd else [])
      (need (keys_lookup expr expr_new expr_lookup ks (mm_names m) 0) (fun ks' =>
       need (match key_lines expr expr_eval expr_eval_line expr_none ks' with
             | None => Panic
             | Some cs =>
                 match search_main (ll_comp_self_line exp10 cs vs) (S (2 * List.length data)) (bc_ctx c)
                         (match bc_file c with Some f => Some (tail_path_u8 fname (fn_tail f) 47) | None => None end) (mm_data m) with
                 | Some r => r
                 | None => Panic
                 end
             end) (fun out => say out (bin_files md c ks' vs ck' rest))))))
  end.
(** main, /repo/src/bin/cdx/binsearch_main.rs:89-184, with the options and the files, each a name and its content; [md] is the mode of the
    checker. *)
Definition bin_main (md : hmode) (args : list (bytes * bytes)) (fs : list (bytes * bytes)) : tool :=
  need (bin_args bconf_new args) (fun c =>
  match bc_pat c, fs with
  | None, _ => ([], Err)
  | Some _, [] => ([], Err)
  | Some pat, _ =>
      need (match bc_keys c with [] => rbind (make_line_comp uni_alpha uni_alnum expr expr_new (bs "1")) (fun k => Ok [k]) | ks => Ok ks end) (fun ks =>
      need (key_values ks pat (bc_sub c)) (fun vs => bin_files md c ks vs ck_new fs))
  end).
End BinTool.
Arguments mkbc {expr}. Arguments bc_keys {expr}. Arguments bc_file {expr}. Arguments bc_ctx {expr}. Arguments bc_sub {expr}. Arguments bc_pat {expr}.
