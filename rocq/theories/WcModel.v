(** wc, /repo/src/bin/cdx/wc_main.rs, with AggList and Agger of /repo/src/agg.rs and Tri of /repo/src/util.rs. *)
From Coq Require Import String List NArith ZArith Bool Arith SpecFloat.
Open Scope list_scope.
Import ListNotations.
From Verif Require Import Base TextModel TextSpec StrModel FloatModel ReadModel HeadModel HdrModel ColModel CompModel AggModel ToolModel.
Close Scope Z_scope.
Open Scope nat_scope.

(** Tri, /repo/src/util.rs:83-91. *)
Inductive tri := TYes | TNo | TMaybe.
(** Tri::new, /repo/src/util.rs:94-113. *)
Definition tri_new (x : bytes) : res tri :=
  let is w := beq (map lower x) (bs w) in
  if is "yes"%string || is "true"%string || is "1"%string || is "on"%string then Ok TYes
  else if is "no"%string || is "false"%string || is "0"%string || is "off"%string then Ok TNo
  else if is "maybe"%string || is "sometimes"%string then Ok TMaybe
  else Err.
(** A Tri turned into a decision, e.g. /repo/src/bin/cdx/wc_main.rs:174-178. *)
Definition decide (t : tri) (maybe : bool) : bool := match t with TYes => true | TNo => false | TMaybe => maybe end.

Section Wc.
(** NumFormat, its default, its parser and its printer, /repo/src/num.rs:129-259: any type here. *)
Variable F : Type.
Variable fmt_default : F.
Variable fmt_new : bytes -> res F.
Variable fmt_print : F -> f64 -> bytes.
(** As in AggModel. *)
Variable exp10 : Z -> f64.
Variable decode : bytes -> list N.
Variable is_space is_alnum : N -> bool.
Variable comp_make : bytes -> res comp_t.
(** As in ToolModel. *)
Variable utf8_ok : bytes -> bool.
Variables uni_alpha uni_alnum : N -> bool.

(** Agger, /repo/src/agg.rs:438-447. *)
Record agger := mkag { ag_spec : bytes; ag_agg : agg; ag_out : bytes; ag_fmt : F }.
(** Agger::new and new2, /repo/src/agg.rs:482-497. *)
Definition agger_new (spec : bytes) : res agger :=
  let '(name, rest) := match split_once 44 spec with Some p => p | None => ([], spec) end in
  rbind (agg_make comp_make rest) (fun a => Ok (mkag spec a name fmt_default)).
(** AggList, /repo/src/agg.rs:507-512. *)
Record agglist := mkal { al_v : list agger; al_fmt : F }.
Definition al_new : agglist := mkal [] fmt_default. (* /repo/src/agg.rs:517-519 *)
Definition al_push (l : agglist) (spec : bytes) : res agglist := (* /repo/src/agg.rs:577-584 *)
  rbind (agger_new spec) (fun a => Ok (mkal (al_v l ++ [a]) (al_fmt l))).
Definition with_fmt (f : F) (a : agger) : agger := mkag (ag_spec a) (ag_agg a) (ag_out a) f. (* /repo/src/agg.rs:529 *)
Definition al_set_fmt (l : agglist) (f : F) : agglist := mkal (map (with_fmt f) (al_v l)) f. (* /repo/src/agg.rs:526-531 *)
(** AggList::deep_clone, /repo/src/agg.rs:534-541: made again from the texts; unwrap panics. *)
Fixpoint push_specs (l : agglist) (v : list agger) : res agglist := (* /repo/src/agg.rs:536-538 *)
  match v with
  | [] => Ok l
  | a :: r => match al_push l (ag_spec a) with Ok l' => push_specs l' r | _ => Panic end
  end.
Definition al_deep (l : agglist) : res agglist := rbind (push_specs al_new (al_v l)) (fun n => Ok (al_set_fmt n (al_fmt l))). (* agg.rs:534-541 *)
Definition on_agg (f : agg -> agg) (a : agger) : agger := mkag (ag_spec a) (f (ag_agg a)) (ag_out a) (ag_fmt a). (* /repo/src/agg.rs:466 and 474 *)
(** AggList::add, AggList::reset, /repo/src/agg.rs:586-590 and 566-570, on the aggregators. *)
Definition al_add (data : bytes) (v : list agger) : list agger := map (on_agg (fun a => agg_add exp10 decode is_space is_alnum a data)) v.
Definition al_reset (v : list agger) : list agger := map (on_agg agg_reset) v. (* /repo/src/agg.rs:566-570 *)
(** Agg::result through a number format, /repo/src/agg.rs:455-457 and num.rs:190. *)
Definition show (f : F) (a : agg) : bytes := match agg_result exp10 a with OText b => b | ONum x => fmt_print f x end.
(** The values with a byte between them: Writer::write over aggregators, /repo/src/column.rs:1411-1424, and the loop at
    /repo/src/bin/cdx/wc_main.rs:152-158. *)
Fixpoint between (d : N) (l : list bytes) : bytes :=
  match l with [] => [] | [x] => x | x :: r => x ++ d :: between d r end.
Definition row_own (d : N) (v : list agger) : bytes := between d (map (fun a => show (ag_fmt a) (ag_agg a)) v) ++ [NL]. (* /repo/src/column.rs:1411-1425 *)
Definition row_fmt (f : F) (v : list agger) : bytes := between TAB (map (fun a => show f (ag_agg a)) v) ++ [NL]. (* wc_main.rs:149-156 *)
(** totals[i] += value, /repo/src/bin/cdx/wc_main.rs:162-167 and 228-230. *)
Fixpoint sum_into (tot : list f64) (v : list agger) : list f64 :=
  match tot, v with t :: tr, a :: r => fadd t (agg_value exp10 (ag_agg a)) :: sum_into tr r | _, _ => tot end.
(** The header line, /repo/src/bin/cdx/wc_main.rs:136-145 and 199-207: a first name if there is one, then those of the aggregators. *)
Definition wc_head (cdx : bool) (d : N) (first : option bytes) (v : list agger) : res bytes :=
  let '(h, ok) := push_all uni_alpha uni_alnum hdr_new ((match first with Some n => [n] | None => [] end) ++ map ag_out v) in
  if ok then get_head cdx d (h_cols h) else Err.

(** The options, /repo/src/bin/cdx/wc_main.rs:24-36. *)
Inductive wopt := WAgg (s : bytes) | WLines | WBytes | WChars | WWords | WFormat (s : bytes) | WColumns | WTotal (s : bytes) | WHeader (s : bytes) | WFile (s : bytes).
(** The variables set by them, /repo/src/bin/cdx/wc_main.rs:38-45. *)
Record wset := mkws { ws_agg : agglist; ws_col : bytes; ws_file : tri; ws_header : tri; ws_totals : tri; ws_only : bool; ws_columns : bool; ws_fmt : F }.
Definition ws_new : wset := mkws al_new (bs "file") TMaybe TMaybe TMaybe false false fmt_default. (* /repo/src/bin/cdx/wc_main.rs:38-45 *)
(** One option, /repo/src/bin/cdx/wc_main.rs:47-78. *)
Definition wc_opt (s : wset) (o : wopt) : res wset :=
  let '(mkws g c f h t b k m) := s in
  let push x := rbind (al_push g x) (fun g => Ok (mkws g c f h t b k m)) in
  match o with
  | WAgg x => push x
  | WLines => push (bs "lines,count")
  | WBytes => push (bs "bytes,asum,chars")
  | WChars => push (bs "chars,asum,utf8.chars")
  | WWords => push (bs "words,asum,swords")
  | WFormat x => rbind (fmt_new x) (fun m => Ok (mkws g c f h t b k m))
  | WColumns => Ok (mkws g c f h t b true m)
  | WTotal x => if beq (map lower x) (bs "only") then Ok (mkws g c f h t true k m) else rbind (tri_new x) (fun t => Ok (mkws g c f h t b k m))
  | WHeader x => rbind (tri_new x) (fun h => Ok (mkws g c f h t b k m))
  | WFile x => match split_once 44 x with
               | Some (a, n) => rbind (tri_new a) (fun f => Ok (mkws g n f h t b k m))
               | None => rbind (tri_new x) (fun f => Ok (mkws g c f h t b k m))
               end
  end.
Fixpoint wc_opts (s : wset) (os : list wopt) : res wset := (* the loop, /repo/src/bin/cdx/wc_main.rs:46-79 *)
  match os with [] => Ok s | o :: r => rbind (wc_opt s o) (fun s => wc_opts s r) end.

(** The loop over the lines of a file, /repo/src/bin/cdx/wc_main.rs:214-219. *)
Fixpoint wc_lines (fuel : nat) (md : tmode) (v : list agger) (r : reader) : res (list agger) :=
  match fuel with
  | O => Panic
  | S k => rbind (prev_line r 0) (fun t => let v' := al_add (tl_text t) v in
           rbind (next_line md r) (fun r' => if r_done r' then Ok v' else wc_lines k md v' r'))
  end.
(** The loop over the files, /repo/src/bin/cdx/wc_main.rs:189-232: what is written, and the totals. text_out2 with the delimiter of the
    input is text_out, /repo/src/bin/cdx/globals.rs:44-59; [ot] is that format. The Writer's lookup does nothing here
    (/repo/src/agg.rs:459-461). *)
Fixpoint wc_files (md : tmode) (ot : ColModel.tmode) (cdx do_header show_file only : bool) (col : bytes) (first : bool) (v : list agger)
  (tot : list f64) (fs : list (bytes * src)) : bytes * res (list f64) :=
  match fs with
  | [] => ([], Ok tot)
  | (name, s) :: rest =>
      need (open_file utf8_ok md s) (fun f =>
      if tf_empty f then wc_files md ot cdx do_header show_file only col first v tot rest
      else need (if do_header && first then wc_head cdx (ColModel.tm_delim ot) (if show_file then Some col else None) v else Ok []) (fun hd =>
           let first' := first && negb do_header in
           say hd
           (if r_done (tf_rd f) then wc_files md ot cdx do_header show_file only col first' v tot rest
            else need (wc_lines (turns (tf_rd f)) md v (do_split (tf_rd f) false)) (fun v1 =>
                 say (if only then [] else (if show_file then name ++ [TAB] else []) ++ row_own (ColModel.tm_delim ot) v1)
                     (wc_files md ot cdx do_header show_file only col first' (al_reset v1) (sum_into tot v1) rest)))))
  end.
(** The totals line, /repo/src/bin/cdx/wc_main.rs:234-245. *)
Definition totals_line (do_totals show_file : bool) (f : F) (tot : list f64) : bytes :=
  if do_totals then (if show_file then bs "totals" ++ [TAB] else []) ++ between TAB (map (fmt_print f) tot) ++ [NL] else [].

(** A column with its aggregators, /repo/src/bin/cdx/wc_main.rs:9-20. *)
Notation named := (bytes * list agger)%type.
(** position of the first one of this name, /repo/src/bin/cdx/wc_main.rs:102. *)
Fixpoint name_pos (aggs : list named) (x : bytes) : option nat :=
  match aggs with [] => None | (n, _) :: r => if beq n x then Some 0 else option_map S (name_pos r x) end.
(** The map of a file's columns, /repo/src/bin/cdx/wc_main.rs:100-108. *)
Fixpoint map_cols (g : agglist) (aggs : list named) (names : list bytes) : res (list named * list nat) :=
  match names with
  | [] => Ok (aggs, [])
  | x :: r => match name_pos aggs x with
              | Some p => rbind (map_cols g aggs r) (fun '(aggs, m) => Ok (aggs, p :: m))
              | None => rbind (al_deep g) (fun g' => rbind (map_cols g (aggs ++ [(x, al_v g')]) r) (fun '(aggs', m) => Ok (aggs', List.length aggs :: m)))
              end
  end.
Fixpoint add_at (aggs : list named) (p : nat) (x : bytes) : list named := (* aggs[p].agg.add(x), /repo/src/bin/cdx/wc_main.rs:114 *)
  match aggs, p with
  | [], _ => []
  | (n, v) :: r, O => (n, al_add x v) :: r
  | a :: r, S q => a :: add_at r q x
  end.
(** The loop over the fields of a line, /repo/src/bin/cdx/wc_main.rs:113-115; indexing past the map panics. *)
Fixpoint add_fields (aggs : list named) (m : list nat) (fields : list bytes) : res (list named) :=
  match fields, m with
  | [], _ => Ok aggs
  | x :: r, p :: m' => add_fields (add_at aggs p x) m' r
  | _ :: _, [] => Panic
  end.
Fixpoint col_lines (fuel : nat) (md : tmode) (aggs : list named) (m : list nat) (r : reader) : res (list named) := (* wc_main.rs:111-118 *)
  match fuel with
  | O => Panic
  | S k => rbind (prev_line r 0) (fun t => rbind (add_fields aggs m (tl_cols t)) (fun aggs' =>
           rbind (next_line md r) (fun r' => if r_done r' then Ok aggs' else col_lines k md aggs' m r')))
  end.
(** The loop over the files by columns, /repo/src/bin/cdx/wc_main.rs:94-120. *)
Fixpoint col_files (md : tmode) (g : agglist) (aggs : list named) (fs : list (bytes * src)) : res (list named) :=
  match fs with
  | [] => Ok aggs
  | (_, s) :: rest =>
      rbind (open_file utf8_ok md s) (fun f =>
      if tf_empty f then col_files md g aggs rest
      else rbind (map_cols g aggs (tf_names f)) (fun '(aggs, m) =>
           if r_done (tf_rd f) then Ok aggs
           else rbind (col_lines (turns (tf_rd f)) md aggs m (tf_rd f)) (fun aggs => col_files md g aggs rest)))
  end.

(** main after the options, /repo/src/bin/cdx/wc_main.rs:80-247. *)
Definition wc_run (md : tmode) (ot : ColModel.tmode) (cdx : bool) (s : wset) (fs : list (bytes * src)) : bytes * res unit :=
  let '(mkws g0 col ftri htri ttri only columns fm) := s in
  let g1 := al_set_fmt g0 fm in
  if columns then
    need (match al_v g1 with [] => al_push g1 (bs "bytes,asum,chars") | _ => Ok g1 end) (fun g =>
    need (col_files md g [] fs) (fun aggs =>
    let many := 1 <? List.length aggs in
    let show_file := decide ftri (many && negb only) in
    let do_totals := decide ttri many || only in
    let do_header := decide htri ((1 <? List.length (al_v g)) || show_file) in
    let label := match ftri with TNo => false | _ => true end in
    need (if do_header then wc_head cdx (ColModel.tm_delim ot) (if label then Some (bs "column") else None) (al_v g) else Ok []) (fun hd =>
    let rows := if only then [] else flat_map (fun '(n, v) => (if label then n ++ [TAB] else []) ++ row_fmt fm v) aggs in
    let tot := if do_totals then fold_left (fun t '(_, v) => sum_into t v) aggs (repeat f_zero (List.length (al_v g))) else repeat f_zero (List.length (al_v g)) in
    (hd ++ rows ++ totals_line do_totals show_file fm tot, Ok tt))))
  else
    need (match al_v g1 with [] => al_push g1 (bs "lines,count") | _ => Ok g1 end) (fun g =>
    let many := 1 <? List.length fs in
    let show_file := decide ftri (many && negb only) in
    let do_totals := decide ttri many || only in
    let do_header := decide htri ((1 <? List.length (al_v g)) || show_file) in
    let '(t, e) := wc_files md ot cdx do_header show_file only col true (al_v g) (repeat f_zero (List.length (al_v g))) fs in
    say t (need e (fun tot => (totals_line do_totals show_file fm tot, Ok tt)))).
(** main, /repo/src/bin/cdx/wc_main.rs:22-247, on the options already parsed by args::parse. *)
Definition wc (md : tmode) (ot : ColModel.tmode) (cdx : bool) (os : list wopt) (fs : list (bytes * src)) : bytes * res unit :=
  need (wc_opts ws_new os) (fun s => wc_run md ot cdx s fs).
End Wc.
