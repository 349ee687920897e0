(** Model of the value transforms, /repo/src/trans.rs. *)
From Coq Require Import String List NArith Bool Arith.
Open Scope list_scope.
From Verif Require Import Base StrModel MatchModel.
Import ListNotations.

(** The transforms the builtin makers can build, /repo/src/trans.rs:20-159 and 279-316. *)
Inductive trans :=
  | TBytes (v : list (N * N)) (* BytesTrans, 21-40 *)
  | TEncode | TDecode (* Base64Trans, 43-61 *)
  | TLower | TLowerUtf | TUpper | TUpperUtf (* 64-114 *)
  | TNorm | TNormUtf. (* 117-155 *)

(** The loop of NormSpace::trans, /repo/src/trans.rs:121-131, and of NormSpaceUtf8::trans, 145-155, with [blank] for the test at
    122 or 146. [need_space] is left set when the target is still empty. *)
Fixpoint norm_loop (blank : N -> bool) (src : list N) (need : bool) (dst : list N) : list N :=
  match src with
  | [] => dst
  | x :: r =>
      if blank x then norm_loop blank r true dst
      else if need && match dst with [] => false | _ => true end then norm_loop blank r false (dst ++ [32%N; x])
      else norm_loop blank r need (dst ++ [x])
  end.
(** [*x <= b' '], /repo/src/trans.rs:122. *)
Definition low_byte (x : N) : bool := (x <=? 32)%N.

(** The length of the base64 text of [n] bytes, with padding, as produced by the base64 crate called at /repo/src/trans.rs:55. *)
Definition base64_len (n : nat) : nat := 4 * ((n + 2) / 3).
(** The size given to the target, /repo/src/trans.rs:54. *)
Definition base64_room (n : nat) : nat := n * 4 / 3 + 4.

Section Run.
(** The base64 crate, /repo/src/trans.rs:55 and 58: encoding, and decoding which may fail. *)
Variable encode : bytes -> bytes.
Variable decode : bytes -> option bytes.
(** String::from_utf8_lossy then chars, /repo/src/trans.rs:82,97,145, as code points; writing code points back, 85,100,156. *)
Variable lossy : bytes -> list N.
Variable utf8 : list N -> bytes.
(** char::to_lowercase and char::to_uppercase, called through /repo/src/text.rs:431-443. *)
Variable uni_lower uni_upper : N -> list N.
(** [x.is_whitespace()] or the replacement character, /repo/src/trans.rs:146. *)
Variable uni_blank : N -> bool.

(** Reading every slice in turn, /repo/src/trans.rs:35-37. *)
Fixpoint slices_get (v : list (N * N)) (src dst : bytes) : res bytes :=
  match v with
  | [] => Ok dst
  | s :: r => rbind (slice_get_safe s src) (fun x => slices_get r src (dst ++ x))
  end.

(** Trans::trans of each transform, /repo/src/trans.rs:33-159: the new contents of [dst]. *)
Definition run (t : trans) (src dst : bytes) : res bytes :=
  match t with
  | TBytes v => slices_get v src dst
  | TEncode => if base64_len (List.length src) <=? base64_room (List.length src) then Ok (encode src) else Err
  | TDecode => match decode src with Some x => Ok (dst ++ x) | None => Err end
  | TLower => Ok (dst ++ map lower src)
  | TUpper => Ok (dst ++ map upper src)
  | TLowerUtf => Ok (dst ++ utf8 (flat_map uni_lower (lossy src)))
  | TUpperUtf => Ok (dst ++ utf8 (flat_map uni_upper (lossy src)))
  | TNorm => Ok (norm_loop low_byte src false dst)
  | TNormUtf => Ok (dst ++ utf8 (norm_loop uni_blank (lossy src) false []))
  end.

(** The two scratch buffers of TransList, /repo/src/trans.rs:198-202. *)
Record scratch := mkscr { tmp1 : bytes; tmp2 : bytes }.
(** The loop of TransList::trans, /repo/src/trans.rs:221-234; [i] is the index, the returned flag is [use_1]. *)
Fixpoint trans_loop (v : list trans) (i : nat) (src : bytes) (s : scratch) (use1 : bool) : res (scratch * bool) :=
  match v with
  | [] => Ok (s, use1)
  | x :: r =>
      if i =? 0 then rbind (run x src []) (fun d => trans_loop r (i + 1) src (mkscr d (tmp2 s)) use1)
      else if i mod 2 =? 0 then rbind (run x (tmp2 s) []) (fun d => trans_loop r (i + 1) src (mkscr d (tmp2 s)) true)
      else rbind (run x (tmp1 s) []) (fun d => trans_loop r (i + 1) src (mkscr (tmp1 s) d) false)
  end.
(** TransList::trans, /repo/src/trans.rs:219-240: the value returned and the buffers left behind. *)
Definition trans_list (v : list trans) (s : scratch) (src : bytes) : res (bytes * scratch) :=
  rbind (trans_loop v 0 src s true) (fun '(s', use1) => Ok (if use1 then tmp1 s' else tmp2 s', s')).
End Run.

(** BytesTrans::new, /repo/src/trans.rs:25-31. *)
Fixpoint bytes_new (ps : list bytes) : res (list (N * N)) :=
  match ps with
  | [] => Ok []
  | p :: r => rbind (fake_slice_new p) (fun s => rbind (bytes_new r) (fun l => Ok (s :: l)))
  end.
(** TransMaker::make_box with the builtin makers, /repo/src/trans.rs:279-316 and 417-425. *)
Definition make_box (kind : bytes) (utf : bool) (p : bytes) : res trans :=
  if beq kind (bs "normspace") then Ok (if utf then TNormUtf else TNorm)
  else if beq kind (bs "lower") then Ok (if utf then TLowerUtf else TLower)
  else if beq kind (bs "upper") then Ok (if utf then TUpperUtf else TUpper)
  else if beq kind (bs "from_base64") then Ok TDecode
  else if beq kind (bs "to_base64") then Ok TEncode
  else if beq kind (bs "bytes") then rbind (bytes_new (split_str 44 p)) (fun v => Ok (TBytes v))
  else Err.
(** resolve_alias with the builtin aliases, /repo/src/trans.rs:283-284 and 331-338. *)
Definition trans_alias (name : bytes) : bytes :=
  if beq name (bs "lowercase") then bs "lower" else if beq name (bs "uppercase") then bs "upper" else name.
(** The parts of a name, /repo/src/trans.rs:399-408: the last part that is not utf8 is the kind. *)
Fixpoint name_parts (ps : list bytes) (kind : bytes) (utf : bool) : bytes * bool :=
  match ps with
  | [] => (kind, utf)
  | x :: r => if same_word x (bs "utf8") then name_parts r kind true else name_parts r x utf
  end.
(** TransMaker::make2, /repo/src/trans.rs:392-415. [ready] tells whether the registry was filled before: the name is resolved at 408,
    before make_box calls init at 418, so the first call of a program sees no aliases. *)
Definition make2 (ready : bool) (name p : bytes) : res trans :=
  let '(kind, utf) := match name with
                      | [] => ([], false)
                      | _ => let '(k, u) := name_parts (split_str 46 name) [] false in (if ready then trans_alias k else k, u)
                      end in
  make_box kind utf p.
(** TransMaker::make, /repo/src/trans.rs:428-434. *)
Definition make (ready : bool) (spec : bytes) : res trans :=
  match split_once 44 spec with Some (a, b) => make2 ready a b | None => make2 ready spec [] end.
(** The loop of TransList::new, /repo/src/trans.rs:208-210. *)
Fixpoint make_all (ready : bool) (ps : list bytes) : res (list trans) :=
  match ps with
  | [] => Ok []
  | p :: r => rbind (make ready p) (fun t => rbind (make_all true r) (fun l => Ok (t :: l)))
  end.
(** TransList::new, /repo/src/trans.rs:206-212. *)
Definition trans_new (ready : bool) (spec : bytes) : res (list trans) := make_all ready (split_str 43 spec).
