(** The tabs tool, /repo/src/bin/cdx/tabs_main.rs, and the reading of the files in /repo/src/tabs.rs. *)
From Coq Require Import String List NArith ZArith Bool Arith.
Open Scope list_scope.
Import ListNotations.
From Verif Require Import Base TextModel ReadModel HdrModel ToolModel TabsModel.
Close Scope Z_scope. Open Scope nat_scope.

(** Rect::from_screen, /repo/src/tabs.rs:23-41: width and height. [ws] is the answer of the terminal, rows and columns, None if there is no
    terminal; ws_row - 1 overflows for no rows. *)
Definition from_screen (ws : option (nat * nat)) : res (nat * nat) :=
  match ws with
  | Some (rows, cols) => if rows <? 1 then Panic else Ok (cols, rows - 1)
  | None => Ok (100, 24)
  end.

Section Oracles.
Variable utf8_ok : bytes -> bool. (* String::from_utf8, /repo/src/util.rs:391 *)
Variable width : bytes -> nat. (* UnicodeWidthStr::width, /repo/src/tabs.rs:158 *)
Variable trunc : bytes -> nat -> bytes * nat. (* unicode_truncate, /repo/src/tabs.rs:178 *)
Variable lossy : bytes -> bytes. (* String::from_utf8_lossy, /repo/src/tabs.rs:149 *)

(** The loop that takes lines, /repo/src/tabs.rs:146-154: [n] lines are there already; [fuel] bounds the turns. *)
Fixpoint take_lines (fuel : nat) (md : tmode) (height n : nat) (r : reader) : res (list textline) :=
  match fuel with
  | O => Panic
  | S k =>
      if n <? height then
        rbind (prev_line r 0) (fun t => rbind (next_line md r) (fun r' =>
        if r_done r' then Ok [t] else rbind (take_lines k md height (S n) r') (fun ts => Ok (t :: ts))))
      else Ok []
  end.
(** The fields of a data line, /repo/src/tabs.rs:148-150 with StringLine::split, get and the iterator, /repo/src/util.rs:957-959, 933-939 and
    1014-1026. Slicing a String inside a character would panic; it is not modelled, the delimiter is ASCII. *)
Definition text_fields (delim : N) (t : textline) : list bytes := map (get_part (lossy (tl_text t))) (split_plain (lossy (tl_text t)) delim).
(** show2, /repo/src/tabs.rs:134-204, from the opening of the file on. *)
Definition show_file (md : tmode) (s : src) (scr_width height : nat) : res (list bytes * nat) :=
  rbind (open_file utf8_ok md s) (fun f =>
  if tf_empty f then Ok ([], 0)
  else let head := match tf_head f with Some _ => Some (tf_names f) | None => None end in
       let n := match head with Some _ => 1 | None => 0 end in
       rbind (if r_done (tf_rd f) then Ok [] else take_lines (turns (tf_rd f)) md height n (tf_rd f)) (fun ts =>
       show2 width trunc (List.length (tf_names f)) head (map (text_fields (tm_delim md)) ts) scr_width height)).
(** println of every line, /repo/src/bin/cdx/tabs_main.rs:38-40 and 51-53. *)
Definition put_lines (v : list bytes) : bytes := concat (map (fun x => x ++ [NL]) v).
(** show, /repo/src/tabs.rs:63-131: the same lines, written instead of collected. *)
Definition show (md : tmode) (s : src) (scr_width height : nat) : tool := need (show_file md s scr_width height) (fun '(v, _) => (put_lines v, Ok tt)).
(** basic, /repo/src/tabs.rs:57-61: one is taken off a width that is not used. *)
Definition basic (md : tmode) (ws : option (nat * nat)) (s : src) : tool :=
  need (from_screen ws) (fun '(w, _) => if w <? 1 then ([], Panic) else need (from_screen ws) (fun '(w, h) => show md s w h)).
(** print_centered, /repo/src/bin/cdx/tabs_main.rs:5-12. *)
Definition print_centered (txt : bytes) (w : nat) : bytes :=
  if w <? List.length txt then []
  else let left := (w - List.length txt) / 2 in
       let right := w - List.length txt - left in
       spaces left ++ txt ++ spaces right ++ [NL].
(** The loop over several files, /repo/src/bin/cdx/tabs_main.rs:46-61. files_left is the number of files still to come. *)
Fixpoint tabs_loop (md : tmode) (scr_width lines_left : nat) (files : list (bytes * src)) : tool :=
  match files with
  | [] => ([], Ok tt)
  | (name, s) :: rest =>
      need (show_file md s scr_width (lines_left / List.length files)) (fun '(v, real) =>
      say (print_centered name real) (say (put_lines v)
      (if lines_left <? List.length v then ([], Panic)
       else match rest with
            | [] => ([], Ok tt)
            | _ => say (repeat 45%N real ++ [NL]) (tabs_loop md scr_width (lines_left - List.length v) rest)
            end)))
  end.
(** main of tabs, /repo/src/bin/cdx/tabs_main.rs:14-64, after the arguments are read: the only option, end, writes to stderr. *)
Definition tabs_main (md : tmode) (ws : option (nat * nat)) (files : list (bytes * src)) : tool :=
  match files with
  | [(_, s)] => need (from_screen ws) (fun '(w, h) => need (show_file md s w h) (fun '(v, _) => (put_lines v, Ok tt)))
  | _ => need (from_screen ws) (fun '(w, h) =>
         if h <? 2 * List.length files then ([], Panic) else tabs_loop md w (h - 2 * List.length files + 1) files)
  end.
End Oracles.
