(** Model of /repo/src/matcher.rs: thresholds, determiners, text matchers, line matchers and lists of them. *)
From Coq Require Import String List NArith ZArith Bool Arith SpecFloat.
From Verif Require Import Base StrModel FloatModel ReadModel CompModel CheckModel.
Import ListNotations.
Open Scope list_scope.
Close Scope Z_scope.

(** Tri, /repo/src/util.rs:82-91. *)
Inductive tri := TYes | TNo | TMaybe.
(** Tri::yes_if, /repo/src/util.rs:114-120. *)
Definition yes_if (x : bool) : tri := if x then TYes else TMaybe.
(** Tri::no_if, /repo/src/util.rs:123-129. *)
Definition no_if (x : bool) : tri := if x then TNo else TMaybe.

(** f64::mul_add, used in /repo/src/num.rs:10-11, 20, 29: x*y+z rounded once. When one of them is zero or not finite the
    two roundings of the separate operations change nothing (the sign of a product lost to underflow aside). *)
Definition f_fma (x y z : f64) : f64 :=
  match x, y, z with
  | S754_finite sx mx ex, S754_finite sy my ey, S754_finite sz mz ez =>
      (let e := Z.min (ex + ey) ez in
       let p := cond_Zopp (xorb sx sy) (Zpos (mx * my)) * 2 ^ (ex + ey - e) in
       let q := cond_Zopp sz (Zpos mz) * 2 ^ (ez - e) in
       binary_normalize 53 1024 (p + q) e false)%Z
  | _, _, _ => fadd (fmul x y) z
  end.
(** lower, /repo/src/num.rs:10 and 20. *)
Definition half_below (num denom : N) : f64 :=
  fdiv (f_fma (f_of_Z 2) (f_of_Z (Z.of_N num)) (f_of_Z (-1))) (fmul (f_of_Z 2) (f_of_Z (Z.of_N denom))).
(** upper, /repo/src/num.rs:11 and 29. *)
Definition half_above (num denom : N) : f64 :=
  fdiv (f_fma (f_of_Z 2) (f_of_Z (Z.of_N num)) (f_of_Z 1)) (fmul (f_of_Z 2) (f_of_Z (Z.of_N denom))).
(** f64_equal, /repo/src/num.rs:7-13. *)
Definition f64_equal (target : f64) (num denom : N) : bool :=
  SFleb (half_below num denom) target && SFltb target (half_above num denom).
(** f64_greater, /repo/src/num.rs:17-22. *)
Definition f64_greater (target : f64) (num denom : N) : bool := SFltb (half_below num denom) target.
(** f64_less, /repo/src/num.rs:26-31. *)
Definition f64_less (target : f64) (num denom : N) : bool := SFltb target (half_above num denom).

(** Thresh, /repo/src/matcher.rs:129-137. *)
Inductive thresh := TCount (c : N) | TFrac (f : f64).
(** Thresh::at_most_mid, /repo/src/matcher.rs:170-175. *)
Definition at_most_mid (t : thresh) (n : N) : tri := match t with TCount c => no_if (c <? n)%N | TFrac _ => TMaybe end.
(** Thresh::at_least_mid, /repo/src/matcher.rs:178-183. *)
Definition at_least_mid (t : thresh) (n : N) : tri := match t with TCount c => yes_if (c <=? n)%N | TFrac _ => TMaybe end.
(** Thresh::at_most_final, /repo/src/matcher.rs:186-191. *)
Definition at_most_final (t : thresh) (n tot : N) : bool :=
  match t with TCount c => (n <=? c)%N | TFrac f => f64_less f n tot end.
(** Thresh::at_least_final, /repo/src/matcher.rs:194-199. *)
Definition at_least_final (t : thresh) (n tot : N) : bool :=
  match t with TCount c => (c <=? n)%N | TFrac f => f64_greater f n tot end.
(** Thresh::exactly, /repo/src/matcher.rs:202-207. *)
Definition exactly_t (t : thresh) (n tot : N) : bool :=
  match t with TCount c => (n =? c)%N | TFrac f => f64_equal f n tot end.

(** Determiner, /repo/src/matcher.rs:211-236. *)
Inductive determiner :=
  | DAll | DSome | DNone | DNotAll | DMixed | DUniform
  | DAtMost (t : thresh) | DAtLeast (t : thresh) | DExactly (t : thresh)
  | DAtMostNo (t : thresh) | DAtLeastNo (t : thresh) | DExactlyNo (t : thresh).

(** Determiner::match_mid, /repo/src/matcher.rs:277-296. *)
Definition match_mid (d : determiner) (yes no : N) : tri :=
  match d with
  | DAll => no_if (0 <? no)%N
  | DSome => yes_if (0 <? yes)%N
  | DNone => no_if (0 <? yes)%N
  | DNotAll => yes_if (0 <? no)%N
  | DMixed => yes_if ((0 <? yes)%N && (0 <? no)%N)
  | DUniform => no_if ((0 <? yes)%N && (0 <? no)%N)
  | DAtMost t => at_most_mid t yes
  | DAtLeast t => at_least_mid t yes
  | DExactly t => at_most_mid t yes
  | DAtMostNo t => at_most_mid t no
  | DAtLeastNo t => at_least_mid t no
  | DExactlyNo t => at_most_mid t no
  end.
(** Determiner::match_final, /repo/src/matcher.rs:300-321. *)
Definition match_final (d : determiner) (yes no : N) : bool :=
  let tot := (yes + no)%N in
  match d with
  | DAll => (no =? 0)%N
  | DSome => (0 <? yes)%N
  | DNone => (yes =? 0)%N
  | DNotAll => (0 <? no)%N
  | DMixed => (0 <? yes)%N && (0 <? no)%N
  | DUniform => (yes =? 0)%N || (no =? 0)%N
  | DAtMost t => at_most_final t yes tot
  | DAtLeast t => at_least_final t yes tot
  | DExactly t => exactly_t t yes tot
  | DAtMostNo t => at_most_final t no tot
  | DAtLeastNo t => at_least_final t no tot
  | DExactlyNo t => exactly_t t no tot
  end.

(** eq_ignore_ascii_case, as in /repo/src/matcher.rs:247-258. *)
Definition same_word (a b : bytes) : bool := beq (map lower a) (map lower b).
(** str::strip_prefix, /repo/src/matcher.rs:259. *)
Definition strip_prefix (l p : bytes) : option bytes := if starts_with l p then Some (skipn (List.length p) l) else None.
(** Thresh::new_frac, /repo/src/matcher.rs:161-167. *)
Definition thresh_new_frac (f : f64) : res thresh :=
  if SFleb f_zero f && SFleb f f_one then Ok (TFrac f) else Err.
(** Thresh::new, /repo/src/matcher.rs:145-154, with to_f64_whole of /repo/src/text.rs:183-194. *)
Definition thresh_new (exp10 : Z -> f64) (spec : bytes) : res thresh :=
  if existsb (N.eqb 46) spec
  then match to_f64 exp10 spec with (f, []) => thresh_new_frac f | _ => Err end
  else rbind (to_usize_whole spec) (fun n => Ok (TCount n)).
(** Determiner::new, /repo/src/matcher.rs:246-274. *)
Definition determiner_new (exp10 : Z -> f64) (spec : bytes) : res determiner :=
  let th p (k : thresh -> determiner) (next : res determiner) :=
    match strip_prefix spec p with Some t => rbind (thresh_new exp10 t) (fun t => Ok (k t)) | None => next end in
  if same_word spec (bs "all") then Ok DAll
  else if same_word spec (bs "some") then Ok DSome
  else if same_word spec (bs "none") then Ok DNone
  else if same_word spec (bs "notall") then Ok DNotAll
  else if same_word spec (bs "mixed") then Ok DMixed
  else if same_word spec (bs "uniform") then Ok DUniform
  else th (bs "atmost,") DAtMost (th (bs "atleast,") DAtLeast (th (bs "exactly,") DExactly
    (th (bs "atmostno,") DAtMostNo (th (bs "atleastno,") DAtLeastNo (th (bs "exactlyno,") DExactlyNo Err))))).

(** bcase_prefix, /repo/src/matcher.rs:393-403. *)
Definition bcase_prefix (hay needle : bytes) : bool := starts_with (map lower hay) needle.
(** slice::ends_with, /repo/src/matcher.rs:470. *)
Definition ends_with (l s : bytes) : bool := starts_with (rev l) (rev s).
(** bcase_suffix, /repo/src/matcher.rs:405-418: with an empty needle, needle.len() - 1 panics (in a build with overflow
    checks; without them the answer is true). *)
Definition bcase_suffix (hay needle : bytes) : res bool :=
  if List.length hay <? List.length needle then Ok false
  else if Nat.eqb (List.length needle) 0 then Panic
  else Ok (ends_with (map lower hay) needle).
(** memmem::find(..).is_some(), /repo/src/matcher.rs:522 and 546. *)
Fixpoint infix (hay needle : bytes) : bool :=
  starts_with hay needle || match hay with [] => false | _ :: r => infix r needle end.

(** The dyn Match types, /repo/src/matcher.rs:323-865. A regular expression is the set of texts it accepts
    (the regex crate is not modelled); the file matchers hold the lines of the file. *)
Inductive kind :=
  | KPrefix (p : bytes) | KPrefixC (p : bytes)
  | KSuffix (p : bytes) | KSuffixC (p : bytes)
  | KInfix (p : bytes) | KInfixC (p : bytes)
  | KExact (p : bytes) | KExactC (p : bytes)
  | KFile (set : list bytes) | KFileC (set : list bytes)
  | KGlob (p : bytes) (ic : case)
  | KLen (min : N) (max : option N)
  | KYes | KNo
  | KRange (k : check_buff)
  | KRegex (accepts : bytes -> bool).

(** LengthMatch::umatch, /repo/src/matcher.rs:841-850. *)
Definition len_ok (min : N) (max : option N) (b : bytes) : bool :=
  let n := N.of_nat (List.length b) in
  if (n <? min)%N then false else match max with None => true | Some m => (n <=? m)%N end.

(** Glob match, GlobMatch::umatch /repo/src/matcher.rs:732-734; the fuel of the glob model is always enough (C10). *)
Definition glob_ok (b p : bytes) (ic : case) : res bool := match glob b p ic with Some r => r | None => Panic end.

Section Match.
Variable exp10 : Z -> f64.
(** Match::umatch of each type, /repo/src/matcher.rs:323-850. *)
Definition kind_umatch (k : kind) (b : bytes) : res bool :=
  match k with
  | KPrefix p => Ok (starts_with b p)
  | KPrefixC p => Ok (bcase_prefix b (map lower p))
  | KSuffix p => Ok (ends_with b p)
  | KSuffixC p => bcase_suffix b (map lower p)
  | KInfix p => Ok (infix b p)
  | KInfixC p => Ok (infix (map lower b) (map lower p))
  | KExact p => Ok (beq p b)
  | KExactC p => Ok (same_word b (map lower p))
  | KFile set => Ok (existsb (beq b) set)
  | KFileC set => Ok (existsb (beq (map lower b)) set)
  | KGlob p ic => glob_ok b p ic
  | KLen mn mx => Ok (len_ok mn mx b)
  | KYes => Ok true
  | KNo => Ok false
  | KRange k => Ok (buff_ok exp10 k b)
  | KRegex f => Ok (f b)
  end.
(** Match::smatch of each type, /repo/src/matcher.rs:323-840, for ASCII text: a char is a byte and char::to_lowercase is
    to_ascii_lowercase. ExactMatchC (757-759) calls equal_insens_quick (/repo/src/text.rs:395-402) with the target as the
    side which is taken as lower case already. *)
Definition kind_smatch (k : kind) (b : bytes) : res bool :=
  match k with
  | KSuffixC p => Ok (ends_with (map lower b) (map lower p))
  | KExactC p => Ok (beq b (map lower p))
  | _ => kind_umatch k b
  end.

(** Combiner, /repo/src/matcher.rs:867-872. *)
Inductive combiner := COr | CAnd.
(** str::trim on ASCII text, /repo/src/text.rs:348-350: white space is 9 to 13 and 32. *)
Definition is_white (c : N) : bool := ((9 <=? c) && (c <=? 13) || (c =? 32))%N.
Fixpoint trim_white (l : bytes) : bytes := match l with c :: r => if is_white c then trim_white r else l | [] => [] end. (* /repo/src/text.rs:348-350 *)
Definition str_trim (l : bytes) : bytes := rev (trim_white (rev (trim_white l))). (* /repo/src/text.rs:348-350 *)

(** Matcher, /repo/src/matcher.rs:1480-1499, for a single pattern. ctype and case are used up when it is made. *)
Record single := mks { s_string : bool; s_negate : bool; s_trim : bool; s_empty : bool; s_kind : kind }.
(** Matcher::umatch, /repo/src/matcher.rs:1561-1570. *)
Definition single_umatch (m : single) (b : bytes) : res bool :=
  let b := if s_trim m then trimw b else b in
  if s_empty m && match b with [] => true | _ => false end then Ok true else kind_umatch (s_kind m) b.
(** Matcher::smatch, /repo/src/matcher.rs:1549-1558. *)
Definition single_smatch (m : single) (b : bytes) : res bool :=
  let b := if s_trim m then str_trim b else b in
  if s_empty m && match b with [] => true | _ => false end then Ok true else kind_smatch (s_kind m) b.

(** The loops of smatch_and, umatch_and and ok_and, /repo/src/matcher.rs:1384-1391, 1406-1413 and 1248-1255. *)
Fixpoint all_match {A} (f : A -> res bool) (l : list A) : res bool :=
  match l with
  | [] => Ok true
  | x :: r => rbind (f x) (fun b => if b then all_match f r else Ok false)
  end.
(** The loops of smatch_or, umatch_or and ok_or, /repo/src/matcher.rs:1392-1399, 1414-1421 and 1267-1274. *)
Fixpoint some_match {A} (f : A -> res bool) (l : list A) : res bool :=
  match l with
  | [] => Ok false
  | x :: r => rbind (f x) (fun b => if b then Ok true else some_match f r)
  end.
(** MatcherList::umatch_tagged and smatch_tagged, /repo/src/matcher.rs:1378-1383 and 1400-1405. *)
Definition tagged {A} (c : combiner) (f : A -> res bool) (l : list A) : res bool :=
  match c with CAnd => all_match f l | COr => some_match f l end.
(** MatcherList::umatch, /repo/src/matcher.rs:1444-1446. *)
Definition list_umatch (c : combiner) (l : list single) (b : bytes) : res bool := tagged c (fun m => single_umatch m b) l.
Definition list_smatch (c : combiner) (l : list single) (b : bytes) : res bool := tagged c (fun m => single_smatch m b) l. (* /repo/src/matcher.rs:1439-1441 *)
(** MatcherList::verbose_smatch, /repo/src/matcher.rs:1449-1460: its result. *)
Definition list_verbose_smatch (c : combiner) (l : list single) (b : bytes) (negate : bool) : res bool := list_smatch c l b.

(** Matcher when made by make2, /repo/src/matcher.rs:1851-1892: either one pattern or, with and/or, a list of them, in
    which case the flags of the outer Matcher are those of the members before their patterns were made. *)
Record matcher := mkm { m_string : bool; m_negate : bool; m_trim : bool; m_empty : bool; m_body : kind + (combiner * list single) }.
(** Matcher::umatch, /repo/src/matcher.rs:1561-1570. *)
Definition m_umatch (m : matcher) (b : bytes) : res bool :=
  let b := if m_trim m then trimw b else b in
  if m_empty m && match b with [] => true | _ => false end then Ok true
  else match m_body m with inl k => kind_umatch k b | inr (c, l) => list_umatch c l b end.
(** Matcher::smatch, /repo/src/matcher.rs:1549-1558. *)
Definition m_smatch (m : matcher) (b : bytes) : res bool :=
  let b := if m_trim m then str_trim b else b in
  if m_empty m && match b with [] => true | _ => false end then Ok true
  else match m_body m with inl k => kind_smatch k b | inr (c, l) => list_smatch c l b end.
(** MatcherList made from the command line, /repo/src/matcher.rs:1365-1368 and 1439-1446. *)
Definition mlist_umatch (c : combiner) (l : list matcher) (b : bytes) : res bool := tagged c (fun m => m_umatch m b) l.
Definition mlist_smatch (c : combiner) (l : list matcher) (b : bytes) : res bool := tagged c (fun m => m_smatch m b) l. (* /repo/src/matcher.rs:1439-1441 *)
(** The choice in /repo/src/matcher.rs:1034-1039, 1119-1124 and 1170-1175; String::from_utf8_lossy is the identity on ASCII. *)
Definition m_match (m : matcher) (b : bytes) : res bool := if m_string m then m_smatch m b else m_umatch m b.

(** The counting loop of ColSetMatcher::ok and CompMatcher::ok, /repo/src/matcher.rs:1116-1135 and 987-1001, over the
    columns' verdicts. *)
Fixpoint count_loop {A} (f : A -> res bool) (d : determiner) (cols : list A) (yes no : N) : res bool :=
  match cols with
  | [] => Ok (match_final d yes no)
  | x :: r => rbind (f x) (fun b =>
      let yes := if b then (yes + 1)%N else yes in
      let no := if b then no else (no + 1)%N in
      match match_mid d yes no with
      | TMaybe => count_loop f d r yes no
      | t => Ok match t with TYes => true | _ => false end
      end)
  end.

(** The line matchers, /repo/src/matcher.rs:944-1184 and 1964-2005, with resolved column numbers; the expression of
    ExprMatcher is the function from lines to its value. *)
Inductive line_matcher :=
  | LMWhole (m : matcher)
  | LMCol (col : nat) (m : matcher)
  | LMColSet (d : determiner) (cols : list nat) (m : matcher)
  | LMComp (target : nat) (op : compare_op) (d : determiner) (cols : list nat) (c : comp_t)
  | LMCount (n : nat)
  | LMExpr (ev : textline -> f64).

(** LineMatch::ok, /repo/src/matcher.rs:986-1002, 1032-1040, 1066-1068, 1115-1136, 1168-1176, 1979-1981. *)
Definition lm_ok (m : line_matcher) (t : textline) : res bool :=
  match m with
  | LMWhole m => rbind (tl_line_nl t) (fun l => rbind (m_match m l) (fun b => Ok (xorb (m_negate m) b)))
  | LMCol c m => rbind (m_match m (tl_get t c)) (fun b => Ok (xorb (m_negate m) b))
  | LMColSet d cols m =>
      rbind (count_loop (fun c => m_match m (tl_get t c)) d cols 0 0) (fun b => Ok (xorb (m_negate m) b))
  | LMComp target op d cols c =>
      count_loop (fun x => Ok (ord_ok op (cp_comp exp10 c (tl_get t target) (tl_get t x)))) d cols 0 0
  | LMCount n => Ok (Nat.eqb (List.length (tl_parts t)) n)
  | LMExpr ev => Ok (negb (f_eqb (ev t) f_zero))
  end.
(** LineMatch::ok_verbose, /repo/src/matcher.rs:53-59, 1076-1088 and 1982-1994: its result. *)
Definition lm_ok_verbose (m : line_matcher) (t : textline) : res bool :=
  match m with
  | LMExpr ev => if f_eqb (ev t) f_zero then Ok false else Ok true
  | _ => lm_ok m t
  end.

(** The loop of ok_verbose_and, /repo/src/matcher.rs:1257-1265: every member is asked. *)
Fixpoint verbose_and (l : list line_matcher) (t : textline) (ret : bool) : res bool :=
  match l with
  | [] => Ok ret
  | x :: r => rbind (lm_ok_verbose x t) (fun b => verbose_and r t (if b then ret else false))
  end.
(** LineMatcherList::ok, /repo/src/matcher.rs:1228-1233 and 1288-1290. *)
Definition lines_ok (c : combiner) (l : list line_matcher) (t : textline) : res bool := tagged c (fun m => lm_ok m t) l.
(** LineMatcherList::ok_verbose, /repo/src/matcher.rs:1235-1246, 1276-1286 and 1292-1294. *)
Definition lines_ok_verbose (c : combiner) (l : list line_matcher) (t : textline) : res bool :=
  match c with CAnd => verbose_and l t true | COr => some_match (fun m => lm_ok m t) l end.

(** The loop of cgrep, /repo/src/bin/cdx/cgrep_main.rs:61-72, without location columns: the lines written. *)
Fixpoint grep_loop (c : combiner) (l : list line_matcher) (reverse : bool) (lines : list textline) : res bytes :=
  match lines with
  | [] => Ok []
  | t :: r => rbind (lines_ok c l t) (fun b =>
      rbind (grep_loop c l reverse r) (fun out => Ok (if xorb b reverse then tl_line t ++ out else out)))
  end.
End Match.

(** LengthMatch::new, /repo/src/matcher.rs:806-821. *)
Definition length_new (p : bytes) : res kind :=
  match p with
  | [] => Err
  | _ => match split_once 44 p with
         | None => rbind (to_usize_whole p) (fun n => Ok (KLen n None))
         | Some (a, b) => rbind (to_usize_whole a) (fun n =>
             if existsb (N.eqb 44) b
             then match split_once 44 b with Some (x, _) => rbind (to_usize_whole x) (fun _ => Err) | None => Err end
             else rbind (to_usize_whole b) (fun m => Ok (KLen n (Some m))))
         end
  end.

(** The lines of a file as loaded by load_hashset and load_hashset_c, /repo/src/matcher.rs:609-626 and 656-681 (bytes);
    [lines] are the file's lines with their newline; empty lines are left out. *)
Definition load_set (ic : case) (lines : list bytes) : list bytes :=
  map (fun l => match ic with Sens => removelast l | Insens => map lower (removelast l) end)
    (filter (fun l => 1 <? List.length l) lines).

Section Make.
(** What is outside of the model: the regular expressions of the regex crate, the comparator parsed for range, and the
    lines of a named file. *)
Variable regex : bytes -> case -> res (bytes -> bool).
Variable mk_comp : bytes -> res cmpr.
Variable file_lines : bytes -> res (list bytes).

(** The builtin makers, /repo/src/matcher.rs:1632-1766: a name, the trim and empty flags it switches on, and the type made. *)
Definition make_kind (ctype : bytes) (ic : case) (p : bytes) : res (bool * kind) :=
  let plain k := Ok (false, k) in
  let ci a b := plain (match ic with Insens => b | Sens => a end) in
  if beq ctype (bs "prefix") then ci (KPrefix p) (KPrefixC p)
  else if beq ctype (bs "float") then rbind (regex (bs "^[-]?[0-9]*\.?[0-9]+([eE][-+]?[0-9]+)?$") Sens) (fun r => plain (KRegex r))
  else if beq ctype (bs "integer") then rbind (regex (bs "^[-]?[0-9]+$") Sens) (fun r => plain (KRegex r))
  else if beq ctype (bs "number") then rbind (regex (bs "^[-]?[0-9]+(\.[0-9]+)?$") Sens) (fun r => plain (KRegex r))
  else if beq ctype (bs "ip") then rbind (regex (bs "^((25[0-5]|2[0-4][0-9]|[01]?[0-9][0-9]?)\.){3}(25[0-5]|2[0-4][0-9]|[01]?[0-9][0-9]?)$") Sens) (fun r => plain (KRegex r))
  else if beq ctype (bs "regex") then rbind (regex p ic) (fun r => plain (KRegex r))
  else if beq ctype (bs "range") then rbind (check_buff_of mk_comp p) (fun k => plain (KRange k))
  else if beq ctype (bs "file-exact") then rbind (file_lines p) (fun ls => ci (KFile (load_set Sens ls)) (KFileC (load_set Insens ls)))
  else if beq ctype (bs "exact") then ci (KExact p) (KExactC p)
  else if beq ctype (bs "length") then rbind (length_new p) plain
  else if beq ctype (bs "yes") then plain KYes
  else if beq ctype (bs "suffix") then ci (KSuffix p) (KSuffixC p)
  else if beq ctype (bs "infix") then ci (KInfix p) (KInfixC p)
  else if beq ctype (bs "glob") then plain (KGlob p ic)
  else if beq ctype (bs "empty") then plain (KLen 0 (Some 0%N))
  else if beq ctype (bs "blank") then Ok (true, KNo)
  else if beq ctype (bs "comment") then Ok (true, KPrefix p)
  else if beq ctype (bs "hash") then Ok (true, KPrefix (bs "#"))
  else if beq ctype (bs "slash") then Ok (true, KPrefix (bs "//"))
  else Err.
(** resolve_alias with the builtin aliases, /repo/src/matcher.rs:1629-1631 and 1782-1789. *)
Definition resolve_alias (name : bytes) : bytes :=
  if beq name (bs "substr") || beq name (bs "substring") then bs "infix"
  else if beq name (bs "fileexact") then bs "file-exact" else name.

(** The flags collected from the parts of a method, /repo/src/matcher.rs:1855-1874 and the defaults 1516-1529. *)
Record flags := mkf { f_ctype : bytes; f_string : bool; f_case : case; f_negate : bool; f_trim : bool; f_empty : bool; f_multi : option combiner }.
Definition flags_default : flags := mkf (bs "regex") false Sens false false false None. (* /repo/src/matcher.rs:1516-1529 *)
(** One part of the method, /repo/src/matcher.rs:1856-1872. *)
Definition add_part (f : flags) (x : bytes) : flags :=
  let '(mkf t s c n tr e mu) := f in
  if same_word x (bs "utf8") then mkf t true c n tr e mu
  else if same_word x (bs "not") then mkf t s c true tr e mu
  else if same_word x (bs "trim") then mkf t s c n true e mu
  else if same_word x (bs "null") then mkf t s c true tr e mu
  else if same_word x (bs "case") then mkf t s Insens n tr e mu
  else if same_word x (bs "and") then mkf t s c n tr e (Some CAnd)
  else if same_word x (bs "or") then mkf t s c n tr e (Some COr)
  else mkf x s c n tr e mu.
(** str::split, /repo/src/matcher.rs:1855 and 1881. *)
Fixpoint split_str (d : N) (l : bytes) : list bytes :=
  match l with
  | [] => [[]]
  | c :: r => if (c =? d)%N then [] :: split_str d r
              else match split_str d r with x :: xs => (c :: x) :: xs | [] => [[c]] end
  end.
Definition method_flags (method : bytes) : flags := (* /repo/src/matcher.rs:1854-1875 *)
  match method with
  | [] => flags_default
  | _ => let f := fold_left add_part (split_str 46 method) flags_default in
         mkf (resolve_alias (f_ctype f)) (f_string f) (f_case f) (f_negate f) (f_trim f) (f_empty f) (f_multi f)
  end.
(** The members of a multi pattern, /repo/src/matcher.rs:1881-1886. *)
Fixpoint make_members (f : flags) (ps : list bytes) : res (list single) :=
  match ps with
  | [] => Ok []
  | p :: r => rbind (make_kind (f_ctype f) (f_case f) p) (fun x =>
      rbind (make_members f r) (fun l =>
      Ok (mks (f_string f) (f_negate f) (f_trim f || fst x) (f_empty f || fst x) (snd x) :: l)))
  end.
(** MatchMaker::make2, /repo/src/matcher.rs:1851-1892. *)
Definition make2 (method pattern : bytes) : res matcher :=
  let f := method_flags method in
  match f_multi f with
  | Some c =>
      match pattern with
      | [] => Panic
      | d :: rest => rbind (make_members f (split_str d rest)) (fun l =>
          Ok (mkm (f_string f) (f_negate f) (f_trim f) (f_empty f) (inr (c, l))))
      end
  | None =>
      rbind (make_kind (f_ctype f) (f_case f) pattern) (fun x =>
      Ok (mkm (f_string f) (f_negate f) (f_trim f || fst x) (f_empty f || fst x) (inl (snd x))))
  end.
(** MatchMaker::make, /repo/src/matcher.rs:1894-1900. *)
Definition make (spec : bytes) : res matcher :=
  match split_once 44 spec with Some (a, b) => make2 a b | None => make2 spec [] end.
End Make.

(** Which line matcher a spec asks for, /repo/src/matcher.rs:1902-1928; making it is left to make2, determiner_new and the
    column sets. *)
Inductive line_spec :=
  | SpExpr (p : bytes) | SpComp (cols p : bytes) | SpCount (p : bytes)
  | SpWhole (method p : bytes)
  | SpColSet (cols method p : bytes)
  | SpCol (cols method p : bytes).
(** MatchMaker::make_line3, /repo/src/matcher.rs:1902-1928: in the column set case one byte is cut off at both ends of the
    columns, which panics for a single bracket. *)
Definition make_line3 (cols method p : bytes) : res line_spec :=
  let nocols := match cols with [] => true | _ => false end in
  if beq method (bs "expr") then if nocols then Ok (SpExpr p) else Err
  else if beq method (bs "comp") then Ok (SpComp cols p)
  else if beq method (bs "count") then if nocols then Ok (SpCount p) else Err
  else match cols with
       | [] => Ok (SpWhole method p)
       | c :: r => if (c =? 91)%N then match r with [] => Panic | _ => Ok (SpColSet (removelast r) method p) end
                   else Ok (SpCol cols method p)
       end.
(** MatchMaker::make_line, /repo/src/matcher.rs:1930-1949; the slice after the bracket panics at the end of the text. *)
Definition make_line (spec : bytes) : res line_spec :=
  match spec with
  | [] => make_line3 [] [] []
  | c0 :: _ =>
      if (c0 =? 91)%N then
        rbind (find_close spec) (fun len =>
          let cols := firstn (len - 1) (skipn 1 spec) in
          let rest := skipn (len + 1) spec in
          if List.length spec <? len + 1 then Panic else match split_once 44 rest with
          | Some (c, d) => make_line3 cols c d
          | None => make_line3 cols rest []
          end)
      else match split_once 44 spec with
           | Some (a, b) => match split_once 44 b with Some (c, d) => make_line3 a c d | None => make_line3 a b [] end
           | None => make_line3 spec [] []
           end
  end.
(** ColSetMatcher::new, /repo/src/matcher.rs:1101-1111: the determiner and the column set from the text before and after
    the first comma. *)
Definition colset_parts (exp10 : Z -> f64) (cols : bytes) : res (determiner * bytes) :=
  match split_once 44 cols with
  | Some (a, b) => rbind (determiner_new exp10 a) (fun d => Ok (d, b))
  | None => Err
  end.
(** ColGroup::new_with, /repo/src/matcher.rs:901-937: the determiner, the text of the column set and the rest. *)
Definition colgroup_parts (spec : bytes) : res (determiner * bytes * bytes) :=
  match spec with
  | [] => Ok (DSome, [], [])
  | c :: r =>
      if (c =? 44)%N then Ok (DSome, [], r)
      else if (c =? 91)%N then
        rbind (find_close spec) (fun len => if List.length spec <? len + 1 then Panic else Ok (DSome, firstn (len - 1) r, skipn (len + 1) spec))
      else match split_once 44 spec with
           | Some (a, b) => Ok (DSome, a, b)
           | None => Ok (DSome, spec, [])
           end
  end.
