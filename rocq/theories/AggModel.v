(** Model of the aggregators and counters of /repo/src/agg.rs. *)
From Coq Require Import String List NArith ZArith Bool Arith SpecFloat.
Open Scope list_scope.
Import ListNotations.
From Verif Require Import Base TextModel StrModel FloatModel CompModel SortModel MatchModel RegModel HdrModel ColModel.

(** The counters Chars, Swords and Awords with their utf8 flag, /repo/src/agg.rs:243-338. *)
Inductive counter := Chars (utf8 : bool) | Swords (utf8 : bool) | Awords (utf8 : bool).

(** Merge, /repo/src/agg.rs:689-710, without its scratch line. *)
Record merge := mkmerge { m_delim : N; m_out : N; m_parts : N; m_comp : comp_t; m_sort : bool; m_uniq : bool;
                          m_min : N; m_max : N; m_count : bool }.
(** Merge::default, /repo/src/agg.rs:712-727; Comp::default is the plain comparator, /repo/src/comp.rs:131-141. *)
Definition merge_default : merge := mkmerge 44 44 (2 ^ 64 - 1) (CompModel.mkcomp false CPlain) false false 0 (2 ^ 64 - 1) false.

(** The aggregators with their state, /repo/src/agg.rs:689-1241: Merge (its joined text), Min, Max, Mean (sum and count), Sum, ASum,
    AMin, AMax, AMean, Prefix, Suffix, Count (value and start). *)
Inductive agg :=
  | GMerge (o : merge) (data : bytes)
  | GMin (c : comp_t) (val : bytes) (empty : bool)
  | GMax (c : comp_t) (val : bytes)
  | GMean (val cnt : f64)
  | GSum (val : f64)
  | GASum (k : counter) (val : N)
  | GAMin (k : counter) (val : N)
  | GAMax (k : counter) (val : N)
  | GAMean (k : counter) (val num : N)
  | GPrefix (val : bytes) (empty : bool)
  | GSuffix (val : bytes) (empty : bool)
  | GCount (val init : Z).

(** What Agg::result writes, /repo/src/agg.rs:18: bytes, or a number for the number formatter. *)
Inductive out := OText (b : bytes) | ONum (x : f64).

Section Agg.
(** libm::exp10 in the reading of numbers; the characters of String::from_utf8_lossy; char::is_whitespace and
    char::is_alphanumeric; CompMaker::make_comp. /repo/src/agg.rs:254,275,314,780. *)
Variable exp10 : Z -> f64.
Variable decode : bytes -> list N.
Variable is_space is_alnum : N -> bool.
Variable comp_make : bytes -> res comp_t.

(** The loops of Swords and Awords, /repo/src/agg.rs:275-295 and 314-334, over characters or bytes. *)
Fixpoint words_loop (inword : N -> bool) (saw_space : bool) (ret : N) (l : list N) : N :=
  match l with
  | [] => ret
  | x :: r => if inword x
              then if saw_space then words_loop inword false (ret + 1) r else words_loop inword saw_space ret r
              else words_loop inword true ret r
  end.
(** u8::is_ascii_alphanumeric, /repo/src/agg.rs:325. *)
Definition byte_alnum (c : N) : bool := ascii_letter c || is_digit c.
(** Counter::counter, /repo/src/agg.rs:252-260, 271-299, 310-338. *)
Definition count_things (k : counter) (data : bytes) : N :=
  match k with
  | Chars true => N.of_nat (List.length (decode data))
  | Chars false => N.of_nat (List.length data)
  | Swords true => words_loop (fun c => negb (is_space c)) true 0 (decode data)
  | Swords false => words_loop (fun c => 32 <? c)%N true 0 data
  | Awords true => words_loop is_alnum true 0 (decode data)
  | Awords false => words_loop byte_alnum true 0 data
  end.

(** common_prefix, /repo/src/agg.rs:1126-1137: truncate to the length of the data, then at the first difference. *)
Fixpoint truncate_diff (val data : bytes) : bytes := (* the loop, /repo/src/agg.rs:1131-1136 *)
  match val, data with
  | v :: vr, d :: dr => if (v =? d)%N then v :: truncate_diff vr dr else []
  | _, _ => []
  end.
Definition common_prefix (val data : bytes) : bytes := truncate_diff (firstn (List.length data) val) data. (* /repo/src/agg.rs:1126-1137 *)

(** common_suffix, /repo/src/agg.rs:1179-1191. *)
Fixpoint ok_bytes (v d : bytes) : nat := (* the loop over both reversed, /repo/src/agg.rs:1180-1187 *)
  match v, d with
  | x :: v', y :: d' => if (x =? y)%N then S (ok_bytes v' d') else 0
  | _, _ => 0
  end.
Definition common_suffix (val data : bytes) : bytes := (* /repo/src/agg.rs:1179-1191 *)
  let ok := ok_bytes (rev val) (rev data) in
  if ok <? List.length val then skipn (List.length val - ok) val else val.

(** Agg::add: /repo/src/agg.rs:795-802, 861-871, 898-901, 934-936, 966-968, 995-997, 1024-1026, 1059-1062, 1087-1092, 1140-1147,
    1194-1201, 1232-1234. usize and isize sums wrap around at their 64 bits (a panic in builds with overflow checks). *)
Definition agg_add (a : agg) (data : bytes) : agg :=
  match a with
  | GMerge o old =>
      match data with
      | [] => a
      | _ => GMerge o (match old with [] => data | _ => old ++ m_delim o :: data end)
      end
  | GMin c val true => GMin c (val ++ data) false
  | GMin c val false => match cp_comp exp10 c val data with Gt => GMin c data false | _ => a end
  | GMax c val => match cp_comp exp10 c val data with Lt => GMax c data | _ => a end
  | GMean val cnt => GMean (fadd val (to_f64_lossy exp10 data)) (fadd cnt f_one)
  | GSum val => GSum (fadd val (to_f64_lossy exp10 data))
  | GASum k val => GASum k (wrapU (val + count_things k data))
  | GAMin k val => GAMin k (N.min val (count_things k data))
  | GAMax k val => GAMax k (N.max val (count_things k data))
  | GAMean k val num => GAMean k (wrapU (val + count_things k data)) (wrapU (num + 1))
  | GPrefix val true => GPrefix (val ++ data) false
  | GPrefix val false => GPrefix (common_prefix val data) false
  | GSuffix val true => GSuffix (val ++ data) false
  | GSuffix val false => GSuffix (common_suffix val data) false
  | GCount val init => GCount (wrapI (val + 1)) init
  end.
Definition agg_adds (a : agg) (vs : list bytes) : agg := fold_left agg_add vs a. (* AggList::add called for each value, /repo/src/agg.rs:586-590 *)

(** Agg::reset: /repo/src/agg.rs:836-838, 876-879, 913-916, 943-945, 972-974, 1001-1003, 1030-1032, 1066-1069, 1097-1099,
    1152-1155, 1206-1209, 1238-1240. *)
Definition agg_reset (a : agg) : agg :=
  match a with
  | GMerge o _ => GMerge o []
  | GMin c _ _ => GMin c [] true
  | GMax c _ => GMax c []
  | GMean _ _ => GMean f_zero f_zero
  | GSum _ => GSum f_zero
  | GASum k _ => GASum k 0
  | GAMin k _ => GAMin k (2 ^ 64 - 1)
  | GAMax k _ => GAMax k 0
  | GAMean k _ _ => GAMean k 0 0
  | GPrefix _ _ => GPrefix [] true
  | GSuffix _ _ => GSuffix [] true
  | GCount _ init => GCount init init
  end.

(** usize as f64, e.g. /repo/src/agg.rs:818. *)
Definition f_of_N (n : N) : f64 := f_of_Z (Z.of_N n).

(** The parts after splitting, sorting and dedup_by, /repo/src/agg.rs:804-816, as texts. sort_by is the standard library's stable sort, dedup_by
    keeps an element unless it equals the last one kept. *)
Definition merge_list (o : merge) (data : bytes) : list bytes :=
  let parts := map (get_part data) (split_plain data (m_delim o)) in
  let parts := if m_sort o then std_sort (cp_comp exp10 (m_comp o)) parts else parts in
  if m_uniq o then dedup (cp_equal exp10 (m_comp o)) parts else parts.
(** The writing loop of Merge::result, /repo/src/agg.rs:820-832. *)
Fixpoint merge_write (o : merge) (written : N) (parts : list bytes) : bytes :=
  match parts with
  | [] => []
  | x :: r =>
      let n := N.of_nat (List.length x) in
      if (m_min o <=? n)%N && (n <=? m_max o)%N then
        (if (0 <? written)%N then [m_out o] else []) ++ x ++
        (if (m_parts o <=? written + 1)%N then [] else merge_write o (written + 1) r)
      else merge_write o written r
  end.
(** Merge::result, /repo/src/agg.rs:803-835. *)
Definition merge_result (o : merge) (data : bytes) : out :=
  let parts := merge_list o data in
  if m_count o then ONum (f_of_N (N.of_nat (List.length parts))) else OText (merge_write o 0 parts).

(** Agg::value: the default 0 (/repo/src/agg.rs:22-24) and 858-860, 906-912, 940-942, 963-965, 992-994, 1021-1023, 1052-1058,
    1100-1102, 1229-1231. *)
Definition agg_value (a : agg) : f64 :=
  match a with
  | GMerge _ _ | GPrefix _ _ | GSuffix _ _ => f_zero
  | GMin _ val _ | GMax _ val => to_f64_lossy exp10 val
  | GMean val cnt => if f_ltb f_zero cnt then fdiv val cnt else f_zero
  | GSum val => val
  | GASum _ val | GAMin _ val | GAMax _ val => f_of_N val
  | GAMean _ val num => if (0 <? num)%N then fdiv (f_of_N val) (f_of_N num) else f_zero
  | GCount val _ => f_of_Z val
  end.
(** Agg::result: /repo/src/agg.rs:803-835, 872-875, 903-905, 937-939, 969-971, 998-1000, 1027-1029, 1063-1065, 1093-1096,
    1148-1151, 1202-1205, 1235-1237. *)
Definition agg_result (a : agg) : out :=
  match a with
  | GMerge o data => merge_result o data
  | GMin _ val _ | GMax _ val | GPrefix val _ | GSuffix val _ => OText val
  | GMean _ _ | GSum _ | GCount _ _ => ONum (agg_value a)
  | GASum _ val | GAMin _ val | GAMax _ val | GAMean _ val _ => ONum (f_of_N val)
  end.

(** str::strip_prefix, /repo/src/agg.rs:779. *)
Fixpoint strip_prefix (p l : bytes) : option bytes :=
  match p, l with
  | [], _ => Some l
  | x :: p', y :: l' => if (x =? y)%N then strip_prefix p' l' else None
  | _ :: _, [] => None
  end.
(** Merge::add_one, /repo/src/agg.rs:764-791. *)
Definition merge_add_one (m : merge) (spec : bytes) : res merge :=
  let set_delim d o := mkmerge d o (m_parts m) (m_comp m) (m_sort m) (m_uniq m) (m_min m) (m_max m) (m_count m) in
  match spec with
  | [] => Err
  | c :: r =>
      if (c =? 68)%N then match r with [x; y] => Ok (set_delim x y) | _ => Err end
      else if equal_insens spec (bs "sort") then
        Ok (mkmerge (m_delim m) (m_out m) (m_parts m) (m_comp m) true (m_uniq m) (m_min m) (m_max m) (m_count m))
      else if equal_insens spec (bs "uniq") then
        Ok (mkmerge (m_delim m) (m_out m) (m_parts m) (m_comp m) (m_sort m) true (m_min m) (m_max m) (m_count m))
      else if equal_insens spec (bs "count") then
        Ok (mkmerge (m_delim m) (m_out m) (m_parts m) (m_comp m) (m_sort m) (m_uniq m) (m_min m) (m_max m) true)
      else match strip_prefix (bs "comp:") spec with
      | Some v => rbind (comp_make v) (fun c =>
          Ok (mkmerge (m_delim m) (m_out m) (m_parts m) c (m_sort m) (m_uniq m) (m_min m) (m_max m) (m_count m)))
      | None =>
      match strip_prefix (bs "min_len:") spec with
      | Some v => rbind (to_usize_whole v) (fun n =>
          Ok (mkmerge (m_delim m) (m_out m) (m_parts m) (m_comp m) (m_sort m) (m_uniq m) n (m_max m) (m_count m)))
      | None =>
      match strip_prefix (bs "max_len:") spec with
      | Some v => rbind (to_usize_whole v) (fun n =>
          Ok (mkmerge (m_delim m) (m_out m) (m_parts m) (m_comp m) (m_sort m) (m_uniq m) (m_min m) n (m_count m)))
      | None =>
      match strip_prefix (bs "max_parts:") spec with
      | Some v => rbind (to_usize_whole v) (fun n =>
          Ok (mkmerge (m_delim m) (m_out m) n (m_comp m) (m_sort m) (m_uniq m) (m_min m) (m_max m) (m_count m)))
      | None => Err
      end end end end
  end.
(** The loop of Merge::new, /repo/src/agg.rs:730-763; every turn but the last removes a dot, so the fuel of [merge_new] never runs
    out. Bytes for characters: slicing a character in the middle (743) would panic and is left out. *)
Definition merge_step (rec : merge -> bytes -> res merge) (m : merge) (sp : bytes) : res merge := (* /repo/src/agg.rs:754-760 *)
  match split_once 46 sp with
  | Some (a, b) => rbind (merge_add_one m a) (fun m => rec m b)
  | None => merge_add_one m sp
  end.
Fixpoint merge_loop (fuel : nat) (m : merge) (sp : bytes) : res merge := (* /repo/src/agg.rs:733-761 *)
  match fuel with
  | O => Panic
  | S f =>
      match sp with
      | [] => Ok m
      | c :: _ =>
          match strip_prefix (bs "comp:") sp with
          | Some _ => merge_add_one m sp
          | None =>
              if (c =? 68)%N then
                match sp with
                | c1 :: c2 :: c3 :: r =>
                    rbind (merge_add_one m [c1; c2; c3]) (fun m =>
                      match r with
                      | [] => merge_step (merge_loop f) m []
                      | d :: r' => if (d =? 46)%N then merge_step (merge_loop f) m r' else Err
                      end)
                | _ => Err
                end
              else merge_step (merge_loop f) m sp
          end
      end
  end.
Definition merge_new (spec : bytes) : res merge := merge_loop (S (List.length spec)) merge_default spec. (* /repo/src/agg.rs:730-763 *)

(** The counters registered by AggMaker::init, /repo/src/agg.rs:1288-1296, as functions of the utf8 flag; the pattern is not used. *)
Definition counter_ops : list (op (bool -> counter)) :=
  [Push (bs "chars") Chars; Push (bs "swords") Swords; Push (bs "awords") Awords].
Definition agg_aliases {A} : list (op A) := (* /repo/src/agg.rs:1284-1287 *)
  [Alias (bs "min") (bs "minimum"); Alias (bs "max") (bs "maximum"); Alias (bs "mean") (bs "avg"); Alias (bs "amean") (bs "aavg")].
(** make_counter and make_counter2, /repo/src/agg.rs:1495-1517 and 1527-1533. *)
Definition counter_make (spec : bytes) : res counter :=
  let name := match split_once 44 spec with Some (a, _) => a | None => spec end in
  match made counter_style (history counter_style (agg_aliases ++ counter_ops) (mkreg [] [])) name with
  | Some mk => Ok (mk (existsb (fun p => equal_insens p (bs "utf8")) (split_str 46 name)))
  | None => Err
  end.
(** The constructors, /repo/src/agg.rs:848-854, 888-894, 924-930, 954-959, 983-988, 1012-1017, 1042-1048, 1078-1083, 1111-1123,
    1164-1176, 1218-1225. *)
Definition no_pattern (a : agg) (p : bytes) : res agg := match p with [] => Ok a | _ => Err end. (* e.g. /repo/src/agg.rs:889-893 *)
Definition agg_ops : list (op (bytes -> res agg)) := (* /repo/src/agg.rs:1297-1340 *)
  [Push (bs "asum") (fun p => rbind (counter_make p) (fun k => Ok (GASum k 0)));
   Push (bs "amin") (fun p => rbind (counter_make p) (fun k => Ok (GAMin k (2 ^ 64 - 1))));
   Push (bs "amax") (fun p => rbind (counter_make p) (fun k => Ok (GAMax k 0)));
   Push (bs "amean") (fun p => rbind (counter_make p) (fun k => Ok (GAMean k 0 0)));
   Push (bs "merge") (fun p => rbind (merge_new p) (fun o => Ok (GMerge o [])));
   Push (bs "count") (fun p => match p with [] => Ok (GCount 0 0) | _ => rbind (to_isize_whole p) (fun v => Ok (GCount v v)) end);
   Push (bs "prefix") (no_pattern (GPrefix [] true));
   Push (bs "suffix") (no_pattern (GSuffix [] true));
   Push (bs "min") (fun p => rbind (comp_make p) (fun c => Ok (GMin c [] true)));
   Push (bs "max") (fun p => rbind (comp_make p) (fun c => Ok (GMax c [])));
   Push (bs "mean") (no_pattern (GMean f_zero f_zero));
   Push (bs "sum") (no_pattern (GSum f_zero))].
(** make and make2, /repo/src/agg.rs:1476-1493 and 1519-1525. *)
Definition agg_make (spec : bytes) : res agg :=
  let '(name, p) := match split_once 44 spec with Some ab => ab | None => (spec, []) end in
  match made agg_style (history agg_style (agg_aliases ++ agg_ops) (mkreg [] [])) name with
  | Some mk => mk p
  | None => Err
  end.

(** A line aggregator: AggCol (its column and aggregator, /repo/src/agg.rs:359-414) or ExprAgg (start value, value, and the value of
    the expression from the old value and the fields, /repo/src/agg.rs:179-235; the expression's own lookup is not followed). *)
Inductive lineagg := LAgg (src : named_col) (a : agg) | LExprAgg (ev : f64 -> list bytes -> f64) (start val : f64).
(** AggType, /repo/src/agg.rs:342-349. *)
Inductive place := Replace | Prefix (name : bytes) | Append (name : bytes).
(** LineAgger, /repo/src/agg.rs:71-80, without the spec and with the default number format. *)
Record lineagger := mkla { la_out : place; la_agg : lineagg }.

(** Unicode letters and digits in column names, /repo/src/column.rs:1520-1543. The expression aggregator's constructor
    (/repo/src/agg.rs:214-235) and NumFormat::print with the default format. *)
Variable uni_alpha uni_alnum : N -> bool.
Variable expr_make : bytes -> res lineagg.
Variable print_num : f64 -> bytes.

(** NamedCol::new_from, /repo/src/column.rs:1459-1467. *)
Definition nc_from (spec : bytes) : res named_col :=
  rbind (nc_parse uni_alpha uni_alnum nc_new spec) (fun '(c, rest) => match rest with [] => Ok c | _ => Err end).
(** AggMaker::make_line, AggCol::new and new2, Agger::new, /repo/src/agg.rs:1467-1474, 397-414, 482-497. *)
Definition make_line (spec : bytes) : res lineagg :=
  match split_once 44 spec with
  | None => Err
  | Some (a, b) => if beq a (bs "expr") then expr_make b
                   else rbind (nc_from a) (fun c => rbind (agg_make b) (fun g => Ok (LAgg c g)))
  end.
(** LineAgger::new2, /repo/src/agg.rs:169-176. *)
Definition la_new2 (p : place) (rep : bytes) : res lineagger := rbind (make_line rep) (fun l => Ok (mkla p l)).
(** new_replace, new_prefix and new_append, /repo/src/agg.rs:137-167. *)
Definition new_replace (spec : bytes) : res lineagger := la_new2 Replace spec.
Definition new_prefix (spec : bytes) : res lineagger := (* /repo/src/agg.rs:145-155 *)
  match split_once 44 spec with Some (a, b) => la_new2 (Prefix a) b | None => Err end.
Definition new_append (spec : bytes) : res lineagger := (* /repo/src/agg.rs:157-167 *)
  match split_once 44 spec with Some (a, b) => la_new2 (Append a) b | None => Err end.
(** LineAgger::new, /repo/src/agg.rs:121-135: replace gets the rest of the spec, the others the whole spec again. *)
Definition la_new (spec : bytes) : res lineagger :=
  match split_once 44 spec with
  | None => Err
  | Some (a, b) => if equal_insens a (bs "replace") then new_replace b
                   else if equal_insens a (bs "prefix") || equal_insens a (bs "prepend") then new_prefix spec
                   else if equal_insens a (bs "suffix") || equal_insens a (bs "append") then new_append spec
                   else Err
  end.

(** LineAgg::add, reset, lookup, is_col, result: /repo/src/agg.rs:186-213 and 366-396. *)
Definition la_map (f : lineagg -> lineagg) (x : lineagger) : lineagger := mkla (la_out x) (f (la_agg x)). (* /repo/src/agg.rs:93-103 *)
Definition line_add (fields : list bytes) (l : lineagg) : lineagg := (* /repo/src/agg.rs:187-190 and 376-378 *)
  match l with
  | LAgg src a => LAgg src (agg_add a (get_or_empty fields (nc_num src)))
  | LExprAgg ev start val => LExprAgg ev start (ev val fields)
  end.
Definition line_reset (l : lineagg) : lineagg := (* /repo/src/agg.rs:194-197 and 372-374 *)
  match l with LAgg src a => LAgg src (agg_reset a) | LExprAgg ev start _ => LExprAgg ev start start end.
Definition line_lookup (names : list bytes) (l : lineagg) : res lineagg := (* /repo/src/agg.rs:201-203 and 380-382 *)
  match l with LAgg src a => rbind (nc_lookup src names) (fun s => Ok (LAgg s a)) | _ => Ok l end.
Definition is_col (l : lineagg) (i : nat) : bool := (* /repo/src/agg.rs:210-212 and 368-370 *)
  match l with LAgg src _ => (nc_num src =? N.of_nat i)%N | _ => false end.
Definition out_text (o : out) : bytes := match o with OText b => b | ONum x => print_num x end. (* NumFormat::print, /repo/src/num.rs:190 *)
Definition line_result (l : lineagg) : bytes := (* /repo/src/agg.rs:191-193 and 384-386 *)
  match l with LAgg _ a => out_text (agg_result a) | LExprAgg _ _ val => print_num val end.
Fixpoint lookup_all (v : list lineagger) (names : list bytes) : res (list lineagger) := (* LineAggList::lookup, /repo/src/agg.rs:658-663 *)
  match v with
  | [] => Ok []
  | x :: r => rbind (line_lookup names (la_agg x)) (fun l => rbind (lookup_all r names) (fun r => Ok (mkla (la_out x) l :: r)))
  end.
Definition list_add (v : list lineagger) (fields : list bytes) : list lineagger := map (la_map (line_add fields)) v. (* /repo/src/agg.rs:652-656 *)
Definition list_reset (v : list lineagger) : list lineagger := map (la_map line_reset) v. (* /repo/src/agg.rs:613-617 *)

(** A column writer put into Writer by fill: a shared aggregator, by its place in the list, or ColumnSingle. *)
Inductive ocol := OAgg (i : nat) | OSingle (c : named_col). (* the boxes pushed at /repo/src/agg.rs:668,674,678,682 *)
Definition is_prefix (p : place) : bool := match p with Prefix _ => true | _ => false end. (* /repo/src/agg.rs:667 *)
Definition is_append (p : place) : bool := match p with Append _ => true | _ => false end. (* /repo/src/agg.rs:681 *)
Definition is_replace (p : place) : bool := match p with Replace => true | _ => false end. (* /repo/src/agg.rs:673 *)
Fixpoint positions (f : lineagger -> bool) (v : list lineagger) (i : nat) : list nat := (* the loops of fill, /repo/src/agg.rs:666,672,680 *)
  match v with [] => [] | x :: r => if f x then i :: positions f r (S i) else positions f r (S i) end.
(** The loop over the header columns, /repo/src/agg.rs:671-679; unwrap panics on a name that does not parse. *)
Fixpoint fill_head (v : list lineagger) (head : list bytes) (i : nat) : res (list ocol) :=
  match head with
  | [] => Ok []
  | x :: r =>
      rbind (match positions (fun y => is_replace (la_out y) && is_col (la_agg y) i) v 0 with
             | k :: _ => Ok (OAgg k)
             | [] => match nc_from x with Ok c => Ok (OSingle c) | _ => Panic end
             end) (fun o => rbind (fill_head v r (S i)) (fun os => Ok (o :: os)))
  end.
(** LineAggList::fill, /repo/src/agg.rs:665-685. *)
Definition fill (v : list lineagger) (head : list bytes) : res (list ocol) :=
  rbind (fill_head v head 0) (fun os =>
    Ok (map OAgg (positions (fun x => is_prefix (la_out x)) v 0) ++ os ++ map OAgg (positions (fun x => is_append (la_out x)) v 0))).
(** Writer::lookup over these, /repo/src/column.rs:1393-1398; the aggregators look up their column again. *)
Fixpoint ocols_lookup (os : list ocol) (names : list bytes) : res (list ocol) :=
  match os with
  | [] => Ok []
  | OAgg i :: r => rbind (ocols_lookup r names) (fun r => Ok (OAgg i :: r))
  | OSingle c :: r => rbind (nc_lookup c names) (fun c => rbind (ocols_lookup r names) (fun r => Ok (OSingle c :: r)))
  end.
(** ColumnFun::add_names, /repo/src/agg.rs:418-424 and /repo/src/column.rs:614-620, before ColumnHeader::push checks the names. *)
Definition ocol_name (v : list lineagger) (head : list bytes) (o : ocol) : res bytes :=
  match o with
  | OAgg i => match nth_error v i with
              | Some x => match la_out x, la_agg x with
                          | Replace, LAgg src _ => Ok (get_or_empty head (nc_num src))
                          | Replace, LExprAgg _ _ _ => Ok []
                          | Prefix s, _ | Append s, _ => Ok s
                          end
              | None => Panic
              end
  | OSingle c => match nth_error head (N.to_nat (nc_num c)) with Some n => Ok n | None => Panic end
  end.
(** ColumnFun::write, /repo/src/agg.rs:426-428 and /repo/src/column.rs:622-626; [t] is the text mode. *)
Definition ocol_value (v : list lineagger) (t : tmode) (fields : list bytes) (o : ocol) : res bytes :=
  match o with
  | OAgg i => match nth_error v i with Some x => Ok (line_result (la_agg x)) | None => Panic end
  | OSingle c => match nth_error fields (N.to_nat (nc_num c)) with Some f => Ok (fst (text_write t f)) | None => Panic end
  end.
Fixpoint all_ok {A B} (f : A -> res B) (l : list A) : res (list B) := (* the loops of Writer, /repo/src/column.rs:1404-1425 *)
  match l with [] => Ok [] | x :: r => rbind (f x) (fun y => rbind (all_ok f r) (fun ys => Ok (y :: ys))) end.

(** The setup of uniq with aggregators, /repo/src/bin/cdx/uniq_main.rs:200-209: look up, fill, look up the writer. [v] includes
    the count column. *)
Definition setup (v : list lineagger) (names : list bytes) : res (list lineagger * list ocol) :=
  rbind (lookup_all v names) (fun v => rbind (fill v names) (fun os => rbind (ocols_lookup os names) (fun os => Ok (v, os)))).
(** One written row for a group of lines, /repo/src/bin/cdx/uniq_main.rs:234-251: reset, add every line, write with the kept line. *)
Definition group_row (v : list lineagger) (os : list ocol) (t : tmode) (kept : list bytes) (added : list (list bytes)) : res (list bytes) :=
  all_ok (ocol_value (fold_left list_add added (list_reset v)) t kept) os.
End Agg.
