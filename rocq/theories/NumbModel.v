(** cat when lines are numbered or dropped, /repo/src/bin/cdx/cat_main.rs. *)
From Coq Require Import String List NArith ZArith Bool Arith.
Open Scope list_scope.
Import ListNotations.
From Verif Require Import Base TextModel TextSpec StrModel StrSpec ReadModel HeadModel HdrModel ColModel ToolModel.
Close Scope Z_scope.
Open Scope nat_scope.

(** LineNumber, /repo/src/bin/cdx/cat_main.rs:13-20. *)
Record numbering := mknum { nm_do : bool; nm_start : Z; nm_name : bytes; nm_end : bool }.
Definition num_new : numbering := mknum false 0 [] false. (* /repo/src/bin/cdx/cat_main.rs:24-26 *)
(** The comparison of a word in lower case with what was given, equal_insens_quick as used at /repo/src/bin/cdx/cat_main.rs:48 and 50
    (the body is /repo/src/text.rs:395-402; ASCII letters only). *)
Definition word_is (w given : bytes) : bool := beq w (map lower given).
(** LineNumber::set, /repo/src/bin/cdx/cat_main.rs:28-68; settings of an earlier call stay where a part is missing. *)
Definition num_set (n : numbering) (spec : bytes) : res numbering :=
  let parts := split_on 44 spec in
  let name := nth 0 parts [] in
  match nth_error parts 1 with
  | None => Ok (mknum true (nm_start n) name (nm_end n))
  | Some s =>
      rbind (to_isize_whole s) (fun z =>
      match nth_error parts 2 with
      | None => Ok (mknum true z name (nm_end n))
      | Some w =>
          rbind (if word_is (bs "begin") w then Ok false else if word_is (bs "end") w then Ok true else Err) (fun e =>
          match nth_error parts 3 with None => Ok (mknum true z name e) | Some _ => Err end)
      end)
  end.

Section Oracles.
(** As in ToolModel: String::from_utf8 at /repo/src/util.rs:391, the character classes at /repo/src/column.rs:1530 and 1535, a column name
    acceptable in a header at /repo/src/util.rs:1917-1927, transforms and matchers inside column sets. *)
Variable utf8_ok : bytes -> bool.
Variables uni_alpha uni_alnum : N -> bool.
Variable name_ok : bytes -> bool.
Variable T : Type.
Variable match_make : bytes -> res (bytes -> bool).
Variable apply_trans : T -> bytes -> res bytes.
(** The lists of matchers given with --remove and --skip, /repo/src/bin/cdx/cat_main.rs:94-95; see MatchModel. *)
Variables removes skips : bytes -> bool.

(** The writers, /repo/src/bin/cdx/cat_main.rs:128-144: the number or an empty value, before or behind the whole line. *)
Definition writers (n : numbering) (w : colfun T) : list (colfun T) :=
  (if nm_do n && negb (nm_end n) then [w] else []) ++ [FWhole] ++ (if nm_do n && nm_end n then [w] else []).
Definition with_number (n : numbering) : list (colfun T) := writers n (FCount (nm_start n) (nm_name n)). (* cat_main.rs:128-135 *)
Definition without_number (n : numbering) : list (colfun T) := writers n (FLiteral [] (bs "unused")). (* cat_main.rs:137-144 *)
(** curr_nl, /repo/src/util.rs:1563-1566: the line as read or decoded, without its last byte. *)
Definition curr_nl (t : textline) : res bytes := match tl_line t with [] => Panic | l => Ok (removelast l) end.
(** The loop over the lines, /repo/src/bin/cdx/cat_main.rs:166-177: what is written, and the writers afterwards. The number is an unbounded
    integer (isize in the code); the writers here look at no single field, so none are passed. *)
Fixpoint slow_loop (fuel : nat) (md : tmode) (ot : ColModel.tmode) (v nv : list (colfun T)) (r : reader) : bytes * res (list (colfun T)) :=
  match fuel with
  | O => ([], Panic)
  | S k =>
      need (prev_line r 0) (fun t =>
      need (curr_nl t) (fun txt =>
      let '((w, e), v') :=
        if removes txt then (wput [], v)
        else if skips txt then (fst (writer_write apply_trans nv (tl_text t) [] ot), v)
        else writer_write apply_trans v (tl_text t) [] ot in
      say w (need e (fun _ =>
      need (next_line md r) (fun r' => if r_done r' then ([], Ok v') else slow_loop k md ot v' nv r')))))
  end.
(** The loop over the files, /repo/src/bin/cdx/cat_main.rs:147-178, on files already open. *)
Fixpoint cat_slow (md : tmode) (ot : ColModel.tmode) (cdx : bool) (m : hmode) (v nv : list (colfun T)) (ck : checker) (fs : list tfile) : tool :=
  match fs with
  | [] => ([], Ok tt)
  | f :: rest =>
      if tf_empty f then cat_slow md ot cdx m v nv ck rest
      else need (writer_lookup match_make v (tf_names f)) (fun v1 =>
           need (writer_names v1 (tf_names f)) (fun names =>
           let '(h, ok) := push_all uni_alpha uni_alnum hdr_new names in
           if negb ok then ([], Err)
           else need (match tf_head f with Some _ => get_head cdx (ColModel.tm_delim ot) (h_cols h) | None => Ok [] end) (fun hd =>
                let '(b, ck') := check utf8_ok name_ok m ck hd in
                need b (fun b =>
                say (if b then hd else [])
                (if r_done (tf_rd f) then ([], Ok tt)
                 else let '(t, e) := slow_loop (turns (tf_rd f)) md ot v1 nv (do_split (tf_rd f) false) in
                      say t (need e (fun v2 => cat_slow md ot cdx m v2 nv ck' rest)))))))
  end.
End Oracles.
