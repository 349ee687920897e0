(** Model of the comparators of /repo/src/comp.rs, of the insensitive comparisons of
    /repo/src/text.rs, and of the check operators of /repo/src/util.rs.
    [exp10] stands for libm::exp10 on integers wherever text is read as a double. *)
From Coq Require Import List NArith ZArith Bool Arith SpecFloat.
Import ListNotations.
From Verif Require Import Base TextModel ReadModel StrModel FloatModel.

(** Ordering is [comparison]; Ord::cmp on byte slices, as used in /repo/src/comp.rs:1583. *)
Fixpoint bcmp (a b : bytes) : comparison :=
  match a, b with
  | [], [] => Eq
  | [], _ :: _ => Lt
  | _ :: _, [] => Gt
  | x :: a', y :: b' => match (x ?= y)%N with Eq => bcmp a' b' | c => c end
  end.

(** Ordering::reverse, /repo/src/comp.rs:265. *)
Definition ord_rev (c : comparison) : comparison := CompOpp c.

(** Loop of cmp_insens, /repo/src/text.rs:569-581: the loop over the zip, then the lengths. *)
Fixpoint insens_loop (a b : bytes) (la lb : nat) : comparison :=
  match a, b with
  | x :: a', y :: b' =>
      if (lower x <? lower y)%N then Lt
      else if (lower y <? lower x)%N then Gt
      else insens_loop a' b' la lb
  | _, _ => Nat.compare la lb
  end.
(** cmp_insens, /repo/src/text.rs:568-582. *)
Definition cmp_insens (a b : bytes) : comparison := insens_loop a b (length a) (length b).

(** Loop of cmp_insens_quick, /repo/src/text.rs:584-592: only the right side is lowered. *)
Fixpoint insens_quick_loop (a b : bytes) (la lb : nat) : comparison :=
  match a, b with
  | x :: a', y :: b' =>
      if (x <? lower y)%N then Lt
      else if (lower y <? x)%N then Gt
      else insens_quick_loop a' b' la lb
  | _, _ => Nat.compare la lb
  end.
(** cmp_insens_quick, /repo/src/text.rs:583-593. *)
Definition cmp_insens_quick (a b : bytes) : comparison := insens_quick_loop a b (length a) (length b).

(** eq_ignore_ascii_case, /repo/src/text.rs:562-567. *)
Fixpoint equal_insens (a b : bytes) : bool :=
  match a, b with
  | [], [] => true
  | x :: a', y :: b' => (lower x =? lower y)%N && equal_insens a' b'
  | _, _ => false
  end.

(** skip_comma_zero, /repo/src/comp.rs:636-641. *)
Fixpoint skip_comma_zero (a : bytes) : bytes :=
  match a with c :: r => if ((c =? 48) || (c =? 44))%N then skip_comma_zero r else a | [] => [] end.

(** skip_comma, /repo/src/comp.rs:643-648. *)
Fixpoint skip_comma (a : bytes) : bytes :=
  match a with c :: r => if (c =? 44)%N then skip_comma r else a | [] => [] end.

(** Loop of frac_cmp, /repo/src/comp.rs:657-660: drop the common digits. *)
Fixpoint frac_skip (a b : bytes) : bytes * bytes :=
  match a, b with
  | x :: a', y :: b' => if ((x =? y)%N && is_digit x)%bool then frac_skip a' b' else (a, b)
  | _, _ => (a, b)
  end.

(** frac_cmp, /repo/src/comp.rs:650-684; called with the leading dots still present. *)
Definition frac_cmp (a b : bytes) : comparison :=
  let '(a, b) := frac_skip (tl a) (tl b) in
  match a, b with
  | [], [] => Eq
  | [], y :: _ => if is_digit y then Lt else Eq
  | x :: _, [] => if is_digit x then Gt else Eq
  | x :: _, y :: _ =>
      if is_digit x then if is_digit y then (x ?= y)%N else Gt
      else if is_digit y then Lt else Eq
  end.

(** First loop of num_cmp_unsigned, /repo/src/comp.rs:689-694. The fuel is the length of [a], which
    every step shortens. *)
Fixpoint num_skip (fuel : nat) (a b : bytes) : bytes * bytes :=
  match fuel with
  | 0 => (a, b)
  | S f =>
      match a, b with
      | x :: a', y :: b' =>
          if ((x =? y)%N && is_digit x)%bool then num_skip f (skip_comma a') (skip_comma b') else (a, b)
      | _, _ => (a, b)
      end
  end.

(** Digit counting loops of num_cmp_unsigned, /repo/src/comp.rs:717-729; fuel as above. *)
Fixpoint num_log (fuel : nat) (a : bytes) : nat :=
  match fuel with
  | 0 => 0
  | S f => match a with
           | x :: a' => if is_digit x then S (num_log f (skip_comma a')) else 0
           | [] => 0
           end
  end.

(** num_cmp_unsigned, /repo/src/comp.rs:686-736. *)
Definition num_cmp_unsigned (a b : bytes) : comparison :=
  let a := skip_comma_zero a in
  let b := skip_comma_zero b in
  let '(a, b) := num_skip (length a) a b in
  match a, b with
  | [], [] => Eq
  | [], y :: _ => if is_digit y then Lt else Eq
  | x :: _, [] => if is_digit x then Gt else Eq
  | x :: _, y :: _ =>
      if ((x =? 46) && (y =? 46))%N then frac_cmp a b
      else
        let tmp := (x ?= y)%N in
        let log_a := num_log (length a) a in
        let log_b := num_log (length b) b in
        if negb (Nat.eqb log_a log_b) then Nat.compare log_a log_b
        else if Nat.eqb log_a 0 then Eq else tmp
  end.

(** Sign handling at the head of num_cmp_signed, /repo/src/comp.rs:742-754. *)
Definition take_minus (a : bytes) : bool * bytes :=
  match a with c :: r => if (c =? 45)%N then (true, r) else (false, a) | [] => (false, []) end.

(** num_cmp_signed, /repo/src/comp.rs:738-767. trimw_start, /repo/src/text.rs:529-534, is [trim_left]. *)
Definition num_cmp_signed (a b : bytes) : comparison :=
  let '(left_minus, a) := take_minus (trim_left a) in
  let '(right_minus, b) := take_minus (trim_left b) in
  if left_minus then if right_minus then num_cmp_unsigned b a else Lt
  else if right_minus then Gt else num_cmp_unsigned a b.

(** The digit scanning loops of ip_cmp, /repo/src/comp.rs:774-781. *)
Fixpoint digit_run (a : bytes) : nat :=
  match a with c :: r => if is_digit c then S (digit_run r) else 0 | [] => 0 end.

(** The loop comparing two digit runs of equal length, /repo/src/comp.rs:785-789. *)
Fixpoint run_cmp (n : nat) (a b : bytes) : comparison :=
  match n, a, b with
  | S n', x :: a', y :: b' => if (x =? y)%N then run_cmp n' a' b' else (x ?= y)%N
  | _, _, _ => Eq
  end.

(** a.len() > a2 && a[a2] == dot, /repo/src/comp.rs:790-791. *)
Definition dot_at (a : bytes) (n : nat) : bool :=
  match nth_error a n with Some c => (c =? 46)%N | None => false end.

(** Main loop of ip_cmp, /repo/src/comp.rs:773-804; every round shortens [a], so its length is
    enough fuel. *)
Fixpoint ip_loop (fuel : nat) (a b : bytes) : comparison :=
  match fuel with
  | 0 => Eq
  | S f =>
      let a2 := digit_run a in
      let b2 := digit_run b in
      if negb (Nat.eqb a2 b2) then Nat.compare a2 b2
      else match run_cmp a2 a b with
           | Eq =>
               let a_dot := dot_at a a2 in
               let b_dot := dot_at b b2 in
               if negb a_dot && negb b_dot then Eq
               else if negb a_dot then Lt
               else if negb b_dot then Gt
               else ip_loop f (skipn (a2 + 1) a) (skipn (b2 + 1) b)
           | c => c
           end
  end.

(** ip_cmp, /repo/src/comp.rs:769-804. *)
Definition ip_cmp (a b : bytes) : comparison :=
  ip_loop (S (length a)) (trim_left a) (trim_left b).

(** The Compare implementations, /repo/src/comp.rs:1474-1734. CompareRandom (1474-1503) is left out:
    it draws random answers. *)
Inductive cmpr := CPlain | CLower | CIP | CNumeric | CEqual | CF64 | CLen.

(** Compare::comp of each implementation, /repo/src/comp.rs:1582-1717. *)
Definition c_comp (exp10 : Z -> f64) (c : cmpr) (l r : bytes) : comparison :=
  match c with
  | CPlain => bcmp l r
  | CLower => cmp_insens l r
  | CIP => ip_cmp l r
  | CNumeric => num_cmp_signed l r
  | CEqual => Eq
  | CF64 => fcmp (to_f64_lossy exp10 l) (to_f64_lossy exp10 r)
  | CLen => Nat.compare (length l) (length r)
  end.

(** ord == Ordering::Equal, /repo/src/comp.rs:1634. *)
Definition is_eq (c : comparison) : bool := match c with Eq => true | _ => false end.

(** Compare::equal of each implementation, /repo/src/comp.rs:1585-1720. *)
Definition c_equal (exp10 : Z -> f64) (c : cmpr) (l r : bytes) : bool :=
  match c with
  | CPlain => beq l r
  | CLower => equal_insens l r
  | CIP => is_eq (ip_cmp l r)
  | CNumeric => is_eq (num_cmp_signed l r)
  | CEqual => true
  | CF64 => f_eqb (to_f64_lossy exp10 l) (to_f64_lossy exp10 r)
  | CLen => Nat.eqb (length l) (length r)
  end.

(** Compare::set followed by Compare::comp_self, /repo/src/comp.rs:1592-1730; [v] is the value set. *)
Definition c_comp_self (exp10 : Z -> f64) (c : cmpr) (v r : bytes) : comparison :=
  match c with
  | CPlain => bcmp v r
  | CLower => cmp_insens_quick (map lower v) r
  | CIP => ip_cmp v r
  | CNumeric => num_cmp_signed v r
  | CEqual => Eq
  | CF64 => fcmp (to_f64_lossy exp10 v) (to_f64_lossy exp10 r)
  | CLen => (as_u32 (N.of_nat (length v)) ?= as_u32 (N.of_nat (length r)))%N
  end.

(** Compare::set followed by Compare::equal_self, /repo/src/comp.rs:1592-1733. *)
Definition c_equal_self (exp10 : Z -> f64) (c : cmpr) (v r : bytes) : bool :=
  match c with
  | CPlain => beq v r
  | CLower => equal_insens (map lower v) r
  | CIP => is_eq (ip_cmp v r)
  | CNumeric => is_eq (num_cmp_signed v r)
  | CEqual => true
  | CF64 => f_eqb (to_f64_lossy exp10 v) (to_f64_lossy exp10 r)
  | CLen => (as_u32 (N.of_nat (length v)) =? as_u32 (N.of_nat (length r)))%N
  end.

(** Item, /repo/src/comp.rs:808-815. *)
Record item := mkitem { it_off : N; it_plus : N; it_cache : N }.

(** Item::size, /repo/src/comp.rs:1753-1755. *)
Definition it_size (i : item) : N := (it_plus i mod 2 ^ 31)%N.
(** Item::complete, /repo/src/comp.rs:1758-1760. *)
Definition it_complete (i : item) : bool := N.testbit (it_plus i) 31.
(** Item::set_complete, /repo/src/comp.rs:1762-1764. *)
Definition set_complete (i : item) : item := mkitem (it_off i) (N.lor (it_plus i) (2 ^ 31)) (it_cache i).
(** Item::clear_complete, /repo/src/comp.rs:1766-1768. *)
Definition clear_complete (i : item) : item := mkitem (it_off i) (it_plus i mod 2 ^ 31)%N (it_cache i).
(** Item::assign_complete, /repo/src/comp.rs:1770-1776. *)
Definition assign_complete (i : item) (b : bool) : item := if b then set_complete i else clear_complete i.
(** Assignment to the cache field, e.g. /repo/src/comp.rs:1590. *)
Definition set_cache (i : item) (k : N) : item := mkitem (it_off i) (it_plus i) k.

(** Item::get, /repo/src/comp.rs:1748-1750. Simplified: total; an item reaching past the buffer would panic. *)
Definition it_get (i : item) (base : bytes) : bytes :=
  firstn (N.to_nat (it_size i)) (skipn (N.to_nat (it_off i)) base).

(** make_array, /repo/src/comp.rs:611-626: eight bytes, zero padded. *)
Definition make_array (v : bytes) : bytes := firstn 8 (v ++ repeat 0%N 8).

(** u64::from_be_bytes, /repo/src/comp.rs:1590. *)
Fixpoint from_be (l : bytes) (acc : N) : N :=
  match l with [] => acc | c :: r => from_be r (acc * 256 + c)%N end.

(** Compare::fill_cache of each implementation, /repo/src/comp.rs:1588-1724. *)
Definition c_fill_cache (exp10 : Z -> f64) (c : cmpr) (i : item) (v : bytes) : item :=
  match c with
  | CPlain => assign_complete (set_cache i (from_be (make_array v) 0)) (Nat.leb (length v) 8)
  | CLower => assign_complete (set_cache i (from_be (map lower (make_array v)) 0)) (Nat.leb (length v) 8)
  | CIP => clear_complete (set_cache i 0)
  | CNumeric => set_cache i (ulp_to_ulong (to_f64_lossy exp10 v))
  | CEqual => set_complete (set_cache i 0)
  | CF64 => set_complete (set_cache i (ulp_to_ulong (to_f64_lossy exp10 v)))
  | CLen => set_complete (set_cache i (N.of_nat (length v)))
  end.

(** Item::compare2, /repo/src/comp.rs:1813-1824, with the direct comparison abstracted; also the
    decision in LineComp::comp_items, 242-251. *)
Definition cache_decide (l r : item) (direct : comparison) : comparison :=
  if (it_cache l <? it_cache r)%N then Lt
  else if (it_cache r <? it_cache l)%N then Gt
  else if it_complete l && it_complete r then Eq
  else direct.

(** slice::split on a byte, /repo/src/column.rs:92. *)
Fixpoint bsplit_loop (d : byte) (l cur : bytes) : list bytes :=
  match l with
  | [] => [rev cur]
  | c :: r => if (c =? d)%N then rev cur :: bsplit_loop d r [] else bsplit_loop d r (c :: cur)
  end.
Definition bsplit (d : byte) (l : bytes) : list bytes := bsplit_loop d l []. (* /repo/src/column.rs:92 *)

(** get_col, /repo/src/column.rs:91-102. *)
Definition get_col (data : bytes) (col : nat) (delim : byte) : bytes :=
  match nth_error (bsplit delim data) col with
  | None => []
  | Some s => match rev s with
              | c :: r => if (c =? NL)%N then rev r else s
              | [] => s
              end
  end.

(** Comp, /repo/src/comp.rs:111-123: direction flag and comparator. The flag is never used by
    Comp::comp and friends (163-190); junk and pattern are not used by any comparator. *)
Record comp_t := mkcomp { cp_rev : bool; cp_cmpr : cmpr }.

(** LineCompare implementations, /repo/src/comp.rs:380-582 and 1834-1933. [LCol] maps a file number to
    its column number (after lookup); [LExpr] has the value of the expression on a split line and on
    a raw line, per file number. *)
Inductive lcmp :=
| LWhole (c : comp_t)
| LCol (cols : nat -> nat) (c : comp_t)
| LExpr (ev : nat -> textline -> f64) (evl : nat -> bytes -> byte -> f64).

(** LineComp, /repo/src/comp.rs:192-208. *)
Record linecomp := mklc { lc_rev : bool; lc_delim : byte; lc_cmp : lcmp }.

Section LineComp.
Variable exp10 : Z -> f64.

(** Comp::comp, /repo/src/comp.rs:162-164. *)
Definition cp_comp (c : comp_t) := c_comp exp10 (cp_cmpr c).
(** Comp::equal, /repo/src/comp.rs:167-169. *)
Definition cp_equal (c : comp_t) := c_equal exp10 (cp_cmpr c).
(** Comp::fill_cache, /repo/src/comp.rs:171-173. *)
Definition cp_fill (c : comp_t) := c_fill_cache exp10 (cp_cmpr c).
(** Comp::set and Comp::comp_self, /repo/src/comp.rs:175-182. *)
Definition cp_comp_self (c : comp_t) := c_comp_self exp10 (cp_cmpr c).
(** Comp::set and Comp::equal_self, /repo/src/comp.rs:175-187. *)
Definition cp_equal_self (c : comp_t) := c_equal_self exp10 (cp_cmpr c).

(** LineComp::reverse, /repo/src/comp.rs:264-270. *)
Definition lc_reverse (lc : linecomp) (x : comparison) : comparison :=
  if lc_rev lc then ord_rev x else x.

(** LineCompare::comp_cols, /repo/src/comp.rs:393-401, 493-504, 1849-1859. *)
Definition l_comp_cols (m : lcmp) (l r : textline) (lf rf : nat) : comparison :=
  match m with
  | LWhole c => cp_comp c (tl_text l) (tl_text r)
  | LCol cols c => cp_comp c (tl_get l (cols lf)) (tl_get r (cols rf))
  | LExpr ev _ => fcmp (ev lf l) (ev rf r)
  end.
(** LineCompare::equal_cols, /repo/src/comp.rs:403-411, 506-517, 1863-1873. *)
Definition l_equal_cols (m : lcmp) (l r : textline) (lf rf : nat) : bool :=
  match m with
  | LWhole c => cp_equal c (tl_text l) (tl_text r)
  | LCol cols c => cp_equal c (tl_get l (cols lf)) (tl_get r (cols rf))
  | LExpr ev _ => f_eqb (ev lf l) (ev rf r)
  end.
(** LineCompare::comp_lines, /repo/src/comp.rs:413-422, 519-531, 1874-1885. *)
Definition l_comp_lines (m : lcmp) (l r : bytes) (delim : byte) (lf rf : nat) : comparison :=
  match m with
  | LWhole c => cp_comp c l r
  | LCol cols c => cp_comp c (get_col l (cols lf) delim) (get_col r (cols rf) delim)
  | LExpr _ evl => fcmp (evl lf l delim) (evl rf r delim)
  end.
(** LineCompare::equal_lines, /repo/src/comp.rs:424-433, 533-545, 1886-1897. *)
Definition l_equal_lines (m : lcmp) (l r : bytes) (delim : byte) (lf rf : nat) : bool :=
  match m with
  | LWhole c => cp_equal c l r
  | LCol cols c => cp_equal c (get_col l (cols lf) delim) (get_col r (cols rf) delim)
  | LExpr _ evl => f_eqb (evl lf l delim) (evl rf r delim)
  end.
(** LineCompare::fill_cache_line, /repo/src/comp.rs:446-448, 557-560, 1909-1913. The whole line
    variant passes the whole buffer, not the line of the item. *)
Definition l_fill_cache_line (m : lcmp) (i : item) (base : bytes) (delim : byte) : item :=
  match m with
  | LWhole c => cp_fill c i base
  | LCol cols c => cp_fill c i (get_col (it_get i base) (cols 0) delim)
  | LExpr _ evl => set_complete (set_cache i (ulp_to_ulong (evl 0 (it_get i base) delim)))
  end.
(** LineCompare::fill_cache_cols, /repo/src/comp.rs:442-444, 553-555, 1905-1908. *)
Definition l_fill_cache_cols (m : lcmp) (i : item) (v : textline) : item :=
  match m with
  | LWhole c => cp_fill c i (tl_text v)
  | LCol cols c => cp_fill c i (tl_get v (cols 0))
  | LExpr ev _ => set_complete (set_cache i (ulp_to_ulong (ev 0 v)))
  end.
(** LineCompare::set followed by comp_self_cols, /repo/src/comp.rs:450-456, 562-568, 1914-1920. *)
Definition l_comp_self_cols (m : lcmp) (v : bytes) (r : textline) : comparison :=
  match m with
  | LWhole c => cp_comp_self c v (tl_text r)
  | LCol cols c => cp_comp_self c v (tl_get r (cols 0))
  | LExpr ev _ => fcmp (to_f64_lossy exp10 v) (ev 0 r)
  end.
(** LineCompare::set followed by equal_self_cols, /repo/src/comp.rs:458-460, 570-572, 1921-1924. *)
Definition l_equal_self_cols (m : lcmp) (v : bytes) (r : textline) : bool :=
  match m with
  | LWhole c => cp_equal_self c v (tl_text r)
  | LCol cols c => cp_equal_self c v (tl_get r (cols 0))
  | LExpr ev _ => f_eqb (to_f64_lossy exp10 v) (ev 0 r)
  end.
(** LineCompare::set followed by comp_self_line, /repo/src/comp.rs:462-464, 574-576, 1925-1928. *)
Definition l_comp_self_line (m : lcmp) (v : bytes) (r : bytes) (delim : byte) : comparison :=
  match m with
  | LWhole c => cp_comp_self c v r
  | LCol cols c => cp_comp_self c v (get_col r (cols 0) delim)
  | LExpr _ evl => fcmp (to_f64_lossy exp10 v) (evl 0 r delim)
  end.

(** LineComp::comp_cols_n (and comp_cols with file 0), /repo/src/comp.rs:272-286. *)
Definition lc_comp_cols_n (lc : linecomp) (l r : textline) (lf rf : nat) : comparison :=
  lc_reverse lc (l_comp_cols (lc_cmp lc) l r lf rf).
(** LineComp::equal_cols_n, /repo/src/comp.rs:288-300. *)
Definition lc_equal_cols_n (lc : linecomp) (l r : textline) (lf rf : nat) : bool :=
  l_equal_cols (lc_cmp lc) l r lf rf.
(** LineComp::comp_lines_n (and comp_lines with file 0), /repo/src/comp.rs:302-318. *)
Definition lc_comp_lines_n (lc : linecomp) (l r : bytes) (lf rf : nat) : comparison :=
  lc_reverse lc (l_comp_lines (lc_cmp lc) l r (lc_delim lc) lf rf).
(** LineComp::equal_lines_n, /repo/src/comp.rs:320-333. *)
Definition lc_equal_lines_n (lc : linecomp) (l r : bytes) (lf rf : nat) : bool :=
  l_equal_lines (lc_cmp lc) l r (lc_delim lc) lf rf.
(** LineComp::comp_items, /repo/src/comp.rs:242-253. *)
Definition lc_comp_items (lc : linecomp) (base : bytes) (l r : item) : comparison :=
  lc_reverse lc (cache_decide l r (lc_comp_lines_n lc (it_get l base) (it_get r base) 0 0)).
(** LineComp::equal_items, /repo/src/comp.rs:255-261. *)
Definition lc_equal_items (lc : linecomp) (base : bytes) (l r : item) : bool :=
  if it_complete l && it_complete r then (it_cache l =? it_cache r)%N
  else lc_equal_lines_n lc (it_get l base) (it_get r base) 0 0.
(** LineComp::fill_cache_line, /repo/src/comp.rs:352-354. *)
Definition lc_fill_cache_line (lc : linecomp) (i : item) (base : bytes) : item :=
  l_fill_cache_line (lc_cmp lc) i base (lc_delim lc).
(** LineComp::fill_cache_cols, /repo/src/comp.rs:348-350. *)
Definition lc_fill_cache_cols (lc : linecomp) (i : item) (v : textline) : item :=
  l_fill_cache_cols (lc_cmp lc) i v.
(** LineComp::set then comp_self_cols, /repo/src/comp.rs:356-363. *)
Definition lc_comp_self_cols (lc : linecomp) (v : bytes) (r : textline) : comparison :=
  lc_reverse lc (l_comp_self_cols (lc_cmp lc) v r).
(** LineComp::set then equal_self_cols, /repo/src/comp.rs:356-367. *)
Definition lc_equal_self_cols (lc : linecomp) (v : bytes) (r : textline) : bool :=
  l_equal_self_cols (lc_cmp lc) v r.
(** LineComp::set then comp_self_line, /repo/src/comp.rs:356-372. *)
Definition lc_comp_self_line (lc : linecomp) (v : bytes) (r : bytes) : comparison :=
  lc_reverse lc (l_comp_self_line (lc_cmp lc) v r (lc_delim lc)).

(** The loop shared by every comparing method of CompList and LineCompList, e.g.
    /repo/src/comp.rs:1171-1177 and 1310-1316: first answer that is not Equal. *)
Fixpoint first_diff {A} (f : A -> comparison) (l : list A) : comparison :=
  match l with
  | [] => Eq
  | x :: r => match f x with Eq => first_diff f r | c => c end
  end.
(** The loop shared by the equality methods, e.g. /repo/src/comp.rs:1182-1187. *)
Fixpoint all_equal {A} (f : A -> bool) (l : list A) : bool :=
  match l with
  | [] => true
  | x :: r => if negb (f x) then false else all_equal f r
  end.

(** CompList::comp, /repo/src/comp.rs:1170-1178. *)
Definition cl_comp (cs : list comp_t) (l r : bytes) : comparison := first_diff (fun c => cp_comp c l r) cs.
(** CompList::equal, /repo/src/comp.rs:1181-1188. *)
Definition cl_equal (cs : list comp_t) (l r : bytes) : bool := all_equal (fun c => cp_equal c l r) cs.

(** LineCompList::comp_cols_n, /repo/src/comp.rs:1303-1317. *)
Definition ll_comp_cols_n (cs : list linecomp) (l r : textline) (lf rf : nat) : comparison :=
  first_diff (fun c => lc_comp_cols_n c l r lf rf) cs.
(** LineCompList::equal_cols_n, /repo/src/comp.rs:1323-1336. *)
Definition ll_equal_cols_n (cs : list linecomp) (l r : textline) (lf rf : nat) : bool :=
  all_equal (fun c => lc_equal_cols_n c l r lf rf) cs.
(** LineCompList::comp_lines_n, /repo/src/comp.rs:1342-1356. *)
Definition ll_comp_lines_n (cs : list linecomp) (l r : bytes) (lf rf : nat) : comparison :=
  first_diff (fun c => lc_comp_lines_n c l r lf rf) cs.
(** LineCompList::equal_lines_n, /repo/src/comp.rs:1362-1375. *)
Definition ll_equal_lines_n (cs : list linecomp) (l r : bytes) (lf rf : nat) : bool :=
  all_equal (fun c => lc_equal_lines_n c l r lf rf) cs.
(** LineCompList::comp_items, /repo/src/comp.rs:1267-1282. *)
Definition ll_comp_items (cs : list linecomp) (base : bytes) (l r : item) : comparison :=
  match cs with
  | [] => Eq
  | c :: rest =>
      match lc_comp_items c base l r with
      | Eq => first_diff (fun x => lc_comp_lines_n x (it_get l base) (it_get r base) 0 0) rest
      | o => o
      end
  end.
(** LineCompList::equal_items, /repo/src/comp.rs:1284-1297. *)
Definition ll_equal_items (cs : list linecomp) (base : bytes) (l r : item) : bool :=
  match cs with
  | [] => true
  | c :: rest =>
      if negb (lc_equal_items c base l r) then false
      else all_equal (fun x => lc_equal_lines_n x (it_get l base) (it_get r base) 0 0) rest
  end.
(** LineCompList::fill_cache_line, /repo/src/comp.rs:1404-1408. *)
Definition ll_fill_cache_line (cs : list linecomp) (i : item) (base : bytes) : item :=
  match cs with [] => i | c :: _ => lc_fill_cache_line c i base end.

(** LineCompList::set, /repo/src/comp.rs:1415-1433, then comp_self_cols, 1435-1443: with one key the
    whole text is its value, otherwise the parts between delimiters must be as many as the keys. *)
Definition ll_values (cs : list linecomp) (v : bytes) (delim : byte) : res (list bytes) :=
  if Nat.eqb (length cs) 1 then Ok [v]
  else let vs := bsplit delim v in
       if negb (Nat.eqb (length vs) (length cs)) then Err else Ok vs.
Definition ll_comp_self_cols (cs : list linecomp) (vs : list bytes) (r : textline) : comparison :=
  first_diff (fun cv => lc_comp_self_cols (fst cv) (snd cv) r) (combine cs vs). (* /repo/src/comp.rs:1435-1443 *)
(** LineCompList::equal_self_cols, /repo/src/comp.rs:1445-1452. *)
Definition ll_equal_self_cols (cs : list linecomp) (vs : list bytes) (r : textline) : bool :=
  all_equal (fun cv => lc_equal_self_cols (fst cv) (snd cv) r) (combine cs vs).
(** LineCompList::comp_self_line, /repo/src/comp.rs:1454-1462. *)
Definition ll_comp_self_line (cs : list linecomp) (vs : list bytes) (r : bytes) : comparison :=
  first_diff (fun cv => lc_comp_self_line (fst cv) (snd cv) r) (combine cs vs).

(** comp_check, /repo/src/comp.rs:1937-1956; [prev] and [curr] are prev_line(1) and curr_line. *)
Definition comp_check (cs : list linecomp) (unique : bool) (prev curr : textline) : bool :=
  match ll_comp_cols_n cs prev curr 0 0 with
  | Lt => false
  | Eq => unique
  | Gt => true
  end.

(** Inner loop of the checking branch of sort, /repo/src/bin/cdx/sort_main.rs:61-71: walks the lines
    of one file after the first; [rep] is the number of reports so far. *)
Fixpoint sort_check_file (cs : list linecomp) (unique : bool) (num_checks : nat)
    (prev : textline) (rest : list textline) (rep : nat) : nat :=
  match rest with
  | [] => rep
  | cur :: r =>
      if comp_check cs unique prev cur
      then let rep' := rep + 1 in
           if Nat.leb num_checks rep' then rep' else sort_check_file cs unique num_checks cur r rep'
      else sort_check_file cs unique num_checks cur r rep
  end.
(** Loop over the files, /repo/src/bin/cdx/sort_main.rs:55-75; true when the command succeeds. *)
Fixpoint sort_check (cs : list linecomp) (unique : bool) (num_checks : nat)
    (files : list (list textline)) (rep : nat) : bool :=
  match files with
  | [] => negb (Nat.ltb 0 rep)
  | f :: fs =>
      match f with
      | [] => sort_check cs unique num_checks fs rep
      | l :: ls => sort_check cs unique num_checks fs (sort_check_file cs unique num_checks l ls rep)
      end
  end.
End LineComp.

(** CompareOp, /repo/src/util.rs:2041-2054. *)
Inductive compare_op := OpLT | OpGT | OpLE | OpGE | OpEQ | OpNE.

(** CompareOp::from_str, /repo/src/util.rs:2063-2094. *)
Definition parse_op (s : bytes) : res compare_op :=
  if equal_insens s [108; 116]%N then Ok OpLT
  else if equal_insens s [103; 116]%N then Ok OpGT
  else if equal_insens s [108; 101]%N then Ok OpLE
  else if equal_insens s [103; 101]%N then Ok OpGE
  else if equal_insens s [101; 113]%N then Ok OpEQ
  else if equal_insens s [110; 101]%N then Ok OpNE
  else if equal_insens s [60]%N then Ok OpLT
  else if equal_insens s [62]%N then Ok OpGT
  else if equal_insens s [60; 61]%N then Ok OpLE
  else if equal_insens s [62; 61]%N then Ok OpGE
  else if equal_insens s [61; 61]%N then Ok OpEQ
  else if equal_insens s [33; 61]%N then Ok OpNE
  else Err.

(** CompareOp::invert, /repo/src/util.rs:2100-2110. *)
Definition op_invert (o : compare_op) : compare_op :=
  match o with OpLT => OpGT | OpGT => OpLT | OpLE => OpGE | OpGE => OpLE | OpEQ => OpEQ | OpNE => OpNE end.

(** CompareOp::ord_ok, /repo/src/util.rs:2136-2147. *)
Definition ord_ok (o : compare_op) (c : comparison) : bool :=
  match o, c with
  | OpLT, Lt => true | OpLT, _ => false
  | OpGT, Gt => true | OpGT, _ => false
  | OpLE, Gt => false | OpLE, _ => true
  | OpGE, Lt => false | OpGE, _ => true
  | OpEQ, Eq => true | OpEQ, _ => false
  | OpNE, Eq => false | OpNE, _ => true
  end.

(** CompareOp::line_ok, /repo/src/util.rs:2130-2133; [vs] are the values set in the comparison list. *)
Definition op_line_ok (exp10 : Z -> f64) (o : compare_op) (cs : list linecomp) (vs : list bytes) (line : textline) : bool :=
  ord_ok o (ll_comp_self_cols exp10 cs vs line).
(** CompareOp::line_ok_verbose, /repo/src/util.rs:2112-2128, without the message. *)
Definition op_line_ok_verbose (exp10 : Z -> f64) (o : compare_op) (cs : list linecomp) (vs : list bytes) (line : textline) : bool :=
  op_line_ok exp10 (op_invert o) cs vs line.

(** RangeSpec, /repo/src/util.rs:2150-2155: operator texts and values. *)
Record range_spec := mkrs { rs_op1 : bytes; rs_val1 : bytes; rs_op2 : option bytes; rs_val2 : option bytes }.

(** CheckLine, /repo/src/util.rs:2256-2261. *)
Record check_line := mkcl { ck_op : compare_op; ck_val : bytes; ck_op2 : option compare_op; ck_val2 : option bytes }.

(** CheckLine::set_with, /repo/src/util.rs:2271-2285: the second value is taken from the second
    operator text. *)
Definition check_set_with (r : range_spec) : res check_line :=
  rbind (parse_op (rs_op1 r)) (fun o =>
  rbind (match rs_op2 r with None => Ok None | Some t => rbind (parse_op t) (fun o2 => Ok (Some o2)) end) (fun o2 =>
  match rs_val2 r with
  | None => Ok (mkcl o (rs_val1 r) o2 None)
  | Some _ => match rs_op2 r with
              | None => Panic
              | Some t => Ok (mkcl o (rs_val1 r) o2 (Some t))
              end
  end)).

(** CheckLine::line_ok_verbose, /repo/src/util.rs:2291-2299. *)
Definition check_line_ok_verbose (exp10 : Z -> f64) (k : check_line) (cs : list linecomp) (line : textline) : res bool :=
  rbind (ll_values cs (ck_val k) 44%N) (fun vs => Ok (op_line_ok_verbose exp10 (ck_op k) cs vs line)).

(** CheckLine::line_ok, /repo/src/util.rs:2301-2314. *)
Definition check_line_ok (exp10 : Z -> f64) (k : check_line) (cs : list linecomp) (line : textline) : res bool :=
  rbind (ll_values cs (ck_val k) 44%N) (fun vs =>
  if negb (op_line_ok exp10 (ck_op k) cs vs line) then Ok false
  else match ck_op2 k with
       | None => Ok true
       | Some o => match ck_val2 k with
                   | None => Panic
                   | Some v => rbind (ll_values cs v 44%N) (fun vs2 => Ok (op_line_ok exp10 o cs vs2 line))
                   end
       end).

(** CheckBuff, /repo/src/util.rs:2320-2325: comparator with the values set. *)
Record check_buff := mkcb { cb_cmp : cmpr; cb_op : compare_op; cb_val : bytes; cb_second : option (compare_op * bytes) }.

(** CheckBuff::new_with, /repo/src/util.rs:2339-2360, given the comparator. A second operator without
    a second value would panic later, in buff_ok; RangeSpec never builds one. *)
Definition check_buff_new (c : cmpr) (r : range_spec) : res check_buff :=
  rbind (parse_op (rs_op1 r)) (fun o =>
  match rs_op2 r, rs_val2 r with
  | Some t, Some v => rbind (parse_op t) (fun o2 => Ok (mkcb c o (rs_val1 r) (Some (o2, v))))
  | Some t, None => Panic
  | None, _ => Ok (mkcb c o (rs_val1 r) None)
  end).

(** CheckBuff::buff_ok, /repo/src/util.rs:2363-2375. *)
Definition buff_ok (exp10 : Z -> f64) (k : check_buff) (right : bytes) : bool :=
  if negb (ord_ok (op_invert (cb_op k)) (c_comp_self exp10 (cb_cmp k) (cb_val k) right)) then false
  else match cb_second k with
       | None => true
       | Some (o, v) => ord_ok (op_invert o) (c_comp_self exp10 (cb_cmp k) v right)
       end.
