(** Tables on the screen, /repo/src/tabs.rs. *)
From Coq Require Import List Bool Arith NArith.
Import ListNotations.
From Verif Require Import Base.
Open Scope nat_scope.

(** The loop of dec_max, /repo/src/tabs.rs:45-52: the first of the widest columns. *)
Fixpoint max_pos (sizes : list nat) (i mp mx : nat) : nat :=
  match sizes with
  | [] => mp
  | x :: r => if mx <? x then max_pos r (S i) i x else max_pos r (S i) mp mx
  end.
(** [sizes[i] -= 1], /repo/src/tabs.rs:53: panics beyond the end and at zero. *)
Fixpoint dec_at (sizes : list nat) (i : nat) : res (list nat) :=
  match sizes, i with
  | [], _ => Panic
  | O :: _, O => Panic
  | S x :: r, O => Ok (x :: r)
  | x :: r, S j => rbind (dec_at r j) (fun r' => Ok (x :: r'))
  end.
(** dec_max, /repo/src/tabs.rs:44-54. *)
Definition dec_max (sizes : list nat) : res (list nat) := dec_at sizes (max_pos sizes 0 0 0).
Definition total (sizes : list nat) : nat := fold_right Nat.add 0 sizes. (* sizes.iter().sum(), /repo/src/tabs.rs:164 and 168 *)
(** The shrinking loop, /repo/src/tabs.rs:93-98 and 164-169; [fuel] bounds the number of steps. *)
Fixpoint shrink (fuel : nat) (sizes : list nat) (target : nat) : res (list nat) :=
  if total sizes <=? target then Ok sizes
  else match fuel with O => Panic | S k => rbind (dec_max sizes) (fun s => shrink k s target) end.

Section Tabs.
(** UnicodeWidthStr::width and unicode_truncate of the external crates unicode_width and unicode_truncate, /repo/src/tabs.rs:4-5. *)
Variable width : bytes -> nat.
Variable trunc : bytes -> nat -> bytes * nat.

(** Widening one line's columns, /repo/src/tabs.rs:86-91 and 157-162: a field beyond the sizes is an index panic. *)
Fixpoint widen (sizes : list nat) (fields : list bytes) : res (list nat) :=
  match fields, sizes with
  | [], _ => Ok sizes
  | _ :: _, [] => Panic
  | c :: fr, s :: sr => rbind (widen sr fr) (fun r => Ok ((if s <? width c then width c else s) :: r))
  end.
Fixpoint widen_all (sizes : list nat) (rows : list (list bytes)) : res (list nat) := (* /repo/src/tabs.rs:85-92 and 156-163 *)
  match rows with
  | [] => Ok sizes
  | x :: r => rbind (widen sizes x) (fun s => widen_all s r)
  end.
Definition spaces (n : nat) : bytes := repeat 32%N n. (* /repo/src/tabs.rs:110-112, 117-122, 183-185, 190-196 *)
(** One field in its column, /repo/src/tabs.rs:104-124 and 177-197, without the separator. *)
Definition cell (center : bool) (t : bytes) (n : nat) : res bytes :=
  let '(s, w) := trunc t n in
  if n <? w then Panic
  else let num := (n - w) / 2 in
       Ok (if center then spaces num ++ s ++ spaces (n - w - num) else s ++ spaces (n - w)).
(** One line, /repo/src/tabs.rs:102-126 and 174-199. *)
Fixpoint row (center need_space : bool) (sizes : list nat) (fields : list bytes) : res bytes :=
  match fields, sizes with
  | [], _ => Ok []
  | _ :: _, [] => Panic
  | y :: fr, n :: sr =>
      rbind (cell center y n) (fun c => rbind (row center true sr fr) (fun r => Ok ((if need_space then [32%N] else []) ++ c ++ r)))
  end.
Fixpoint rows_out (center : bool) (sizes : list nat) (rows : list (list bytes)) : res (list bytes) := (* /repo/src/tabs.rs:173-202 *)
  match rows with
  | [] => Ok []
  | x :: r => rbind (row center false sizes x) (fun l => rbind (rows_out false sizes r) (fun ls => Ok (l :: ls)))
  end.
(** The lines shown, /repo/src/tabs.rs:69-84 and 140-155: the header, if the file has one, and data lines up to the height. The fields of
    the data lines come from StringLine::split of the line decoded as text, which is not followed here. *)
Definition shown (header : option (list bytes)) (data : list (list bytes)) (height : nat) : list (list bytes) :=
  match header with
  | Some h => h :: firstn (height - 1) data
  | None => firstn height data
  end.
(** show2, /repo/src/tabs.rs:134-204, for a file that is not empty: [ncols] columns in the (given or made-up) header, the lines as fields. show, 63-131, differs
    only in writing the lines, each with a newline, instead of collecting them. *)
Definition show2 (ncols : nat) (header : option (list bytes)) (data : list (list bytes)) (scr_width height : nat) : res (list bytes * nat) :=
  let lines := shown header data height in
  rbind (widen_all (repeat 0 ncols) lines) (fun sizes =>
  if scr_width <? length sizes then Panic
  else rbind (shrink (total sizes) sizes (scr_width - length sizes)) (fun sizes =>
       rbind (rows_out (match header with Some _ => true | None => false end) sizes lines) (fun out =>
       Ok (out, total sizes + length sizes)))).
End Tabs.
