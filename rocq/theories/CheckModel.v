(** Model of the bound specifications of /repo/src/util.rs: RangeSpec and its regular expressions. *)
From Coq Require Import String List NArith ZArith Bool.
Open Scope list_scope.
Import ListNotations.
From Verif Require Import Base StrModel FloatModel CompModel.

(** Regular expressions are modelled by their matches in order of preference (leftmost-first), each
    with the text taken and the text left; used for /repo/src/util.rs:2161-2166 and 2201-2206.
    Simplified: classes and repetition work on bytes; the patterns only name ASCII characters. *)
(** An alternation of literal texts, /repo/src/util.rs:2161. *)
Definition re_alt (ws : list bytes) (s : bytes) : list (bytes * bytes) :=
  flat_map (fun w => if starts_with s w then [(w, skipn (length w) s)] else []) ws.

(** Greedy repetition of one or more bytes of a class, longest first, /repo/src/util.rs:2161. *)
Fixpoint re_plus (p : byte -> bool) (s : bytes) : list (bytes * bytes) :=
  match s with
  | c :: r => if p c then map (fun tr => (c :: fst tr, snd tr)) (re_plus p r) ++ [([c], r)] else []
  | [] => []
  end.

(** .+ up to the end of the text: at least one byte, no newline; /repo/src/util.rs:2161. *)
Definition re_rest (s : bytes) : list (bytes * bytes) :=
  match s with
  | [] => []
  | _ :: _ => if forallb (fun c => negb (c =? NL)%N) s then [(s, [])] else []
  end.

(** [^=].* up to the end, /repo/src/util.rs:2202. *)
Definition re_rest_noteq (s : bytes) : list (bytes * bytes) :=
  match s with
  | [] => []
  | c :: r => if (negb (c =? 61)%N && forallb (fun c => negb (c =? NL)%N) r)%bool then [(s, [])] else []
  end.

(** (<|>|<=|>=|==|!=), /repo/src/util.rs:2161. *)
Definition sym_ops : list bytes := [[60]; [62]; [60; 61]; [62; 61]; [61; 61]; [33; 61]]%N.
(** (LT|GT|LE|GE|EQ|NE), /repo/src/util.rs:2164. *)
Definition word_ops : list bytes :=
  map bs ["LT"%string; "GT"%string; "LE"%string; "GE"%string; "EQ"%string; "NE"%string].
(** [^<>!=], /repo/src/util.rs:2161. *)
Definition not_op (c : byte) : bool := negb ((c =? 60) || (c =? 62) || (c =? 33) || (c =? 61))%N.
(** [^,], /repo/src/util.rs:2164. *)
Definition not_comma (c : byte) : bool := negb (c =? 44)%N.
(** A literal comma, /repo/src/util.rs:2164. *)
Definition re_comma (s : bytes) : list (bytes * bytes) := re_alt [[44%N]] s.

(** op class+ op rest, RE1 of /repo/src/util.rs:2161 and, with another [rest], of 2202. *)
Definition re_two (rest : bytes -> list (bytes * bytes)) (s : bytes) : list range_spec :=
  flat_map (fun o => flat_map (fun v => flat_map (fun o2 => map (fun v2 =>
    mkrs (fst o) (fst v) (Some (fst o2)) (Some (fst v2))) (rest (snd o2)))
    (re_alt sym_ops (snd v))) (re_plus not_op (snd o))) (re_alt sym_ops s).
(** op rest, RE2 of /repo/src/util.rs:2162 and 2203. *)
Definition re_one (rest : bytes -> list (bytes * bytes)) (s : bytes) : list range_spec :=
  flat_map (fun o => map (fun v => mkrs (fst o) (fst v) None None) (rest (snd o))) (re_alt sym_ops s).
(** OP,value,OP,value: RE3 of /repo/src/util.rs:2163-2164 and 2204-2205. *)
Definition re_word_two (s : bytes) : list range_spec :=
  flat_map (fun o => flat_map (fun k1 => flat_map (fun v => flat_map (fun k2 => flat_map (fun o2 =>
    flat_map (fun k3 => map (fun v2 => mkrs (fst o) (fst v) (Some (fst o2)) (Some (fst v2))) (re_rest (snd k3)))
    (re_comma (snd o2))) (re_alt word_ops (snd k2))) (re_comma (snd v))) (re_plus not_comma (snd k1)))
    (re_comma (snd o))) (re_alt word_ops s).
(** OP,value: RE4 of /repo/src/util.rs:2165 and 2206. *)
Definition re_word_one (s : bytes) : list range_spec :=
  flat_map (fun o => flat_map (fun k => map (fun v => mkrs (fst o) (fst v) None None) (re_rest (snd k)))
    (re_comma (snd o))) (re_alt word_ops s).

(** RangeSpec::new, /repo/src/util.rs:2158-2198. *)
Definition range_new (s : bytes) : res range_spec :=
  match re_two re_rest s with
  | r :: _ => Ok r
  | [] => match re_one re_rest s with
    | r :: _ => Ok r
    | [] => match re_word_two s with
      | r :: _ => Ok r
      | [] => match re_word_one s with r :: _ => Ok r | [] => Err end
      end
    end
  end.

(** Searching for (^|,) followed by a pattern: leftmost start, the empty choice first at the start of
    the text; gives the match and where it starts. /repo/src/util.rs:2202-2206 and 2216. *)
Fixpoint re_search (pat : bytes -> list range_spec) (s : bytes) (pos : nat) : option (range_spec * nat) :=
  match (if Nat.eqb pos 0 then pat s else []) ++ (match s with c :: r => if (c =? 44)%N then pat r else [] | [] => [] end) with
  | r :: _ => Some (r, pos)
  | [] => match s with _ :: s' => re_search pat s' (pos + 1) | [] => None end
  end.

(** RangeSpec::new_trail, /repo/src/util.rs:2199-2251. *)
Definition range_new_trail (s : bytes) : res (range_spec * nat) :=
  match re_search (re_two re_rest_noteq) s 0 with
  | Some r => Ok r
  | None => match re_search (re_one re_rest_noteq) s 0 with
    | Some r => Ok r
    | None => match re_search re_word_two s 0 with
      | Some r => Ok r
      | None => match re_search re_word_one s 0 with Some r => Ok r | None => Err end
      end
    end
  end.

(** CheckLine::new, /repo/src/util.rs:2265-2269 and 2287-2289. *)
Definition check_line_new (s : bytes) : res check_line := rbind (range_new s) check_set_with.

(** CheckBuff::new, /repo/src/util.rs:2334-2337. [mk] is CompMaker::make_comp_box: comparator for a
    spec, failing on an unknown one. *)
Definition check_buff_of (mk : bytes -> res cmpr) (s : bytes) : res check_buff :=
  rbind (range_new_trail s) (fun rp =>
  rbind (mk (firstn (snd rp) s)) (fun c => check_buff_new c (fst rp))).
