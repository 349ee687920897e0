(** Model of the registries of named makers: MatchMaker of /repo/src/matcher.rs, CompMaker of /repo/src/comp.rs, TransMaker of
    /repo/src/trans.rs, AggMaker of /repo/src/agg.rs and GenMaker of /repo/src/textgen.rs. They share one shape. *)
From Coq Require Import String List NArith Bool Arith.
Open Scope list_scope.
From Verif Require Import Base StrModel MatchModel.
Import ListNotations.

Section Registry.
(** What is registered under a name, the [maker] of e.g. /repo/src/trans.rs:253-260. *)
Variable A : Type.

(** The two static vectors, /repo/src/trans.rs:267-268, matcher.rs:1612-1613, comp.rs:858-860, agg.rs:1270-1272, textgen.rs:286-287:
    pairs of tag and maker, and pairs of new and old name. *)
Record registry := mkreg { items : list (bytes * A); aliases : list (bytes * bytes) }.
(** Which parts of a name are modifiers and how a name is compared with a tag. [mods] is MODIFIERS: trans.rs:270,
    matcher.rs:1615-1616, comp.rs:862, agg.rs:1273, textgen.rs:288. [skipped] are the words the make functions take for modifiers:
    trans.rs:401-407, matcher.rs:1855-1874, comp.rs:1046-1058, agg.rs:1480-1484 (none), 1502-1508 (utf8 for a counter),
    textgen.rs:400-404 (none). [exact] is true where tags are compared with [==], false where with eq_ignore_ascii_case
    (comp.rs:1103,1115,1122). *)
Record style := mkstyle { mods : list bytes; skipped : list bytes; exact : bool }.
Variable st : style.

(** The loop over the vector in do_push and do_add_alias, e.g. /repo/src/trans.rs:372-378 and 347-353: replace the first entry with
    the same name or append. *)
Fixpoint put {B} (k : bytes) (v : B) (l : list (bytes * B)) : list (bytes * B) :=
  match l with
  | [] => [(k, v)]
  | x :: r => if beq (fst x) k then (k, v) :: r else x :: put k v r
  end.
Definition reserved (k : bytes) : bool := existsb (beq k) (mods st). (* MODIFIERS.contains, /repo/src/trans.rs:340 and 361 *)

(** A call of push or add_alias, /repo/src/trans.rs:317-329. *)
Inductive op := Push (tag : bytes) (maker : A) | Alias (old new : bytes).
(** do_push and do_add_alias: /repo/src/trans.rs:339-381, matcher.rs:1790-1832, comp.rs:940-1007, agg.rs:1374-1439,
    textgen.rs:342-382. *)
Definition step (r : registry) (o : op) : res registry :=
  match o with
  | Push t m => if reserved t then Err else Ok (mkreg (put t m (items r)) (aliases r))
  | Alias old new => if reserved new then Err else Ok (mkreg (items r) (put new old (aliases r)))
  end.
(** A history of registrations; a rejected one leaves the registry alone, as the early return at /repo/src/trans.rs:341,362 does. *)
Definition history (ops : list op) (r : registry) : registry :=
  fold_left (fun r o => match step r o with Ok r' => r' | _ => r end) ops r.

(** resolve_alias, /repo/src/trans.rs:331-338, matcher.rs:1782-1789, comp.rs:931-939, agg.rs:1366-1373, textgen.rs:334-341. *)
Definition resolve (r : registry) (name : bytes) : bytes :=
  match find (fun x => beq (fst x) name) (aliases r) with Some x => snd x | None => name end.
(** The loop that finds the maker, /repo/src/trans.rs:419-423, matcher.rs:1951-1960, comp.rs:1102-1107, agg.rs:1487-1491 and 1511-1515,
    textgen.rs:407-414. *)
Definition lookup (r : registry) (name : bytes) : option A :=
  match find (fun x => if exact st then beq (fst x) name else same_word name (fst x)) (items r) with Some x => Some (snd x) | None => None end.
(** The loop over the parts of a name: the last part that is not taken for a modifier; same lines as [skipped]. *)
Definition last_part (name : bytes) : bytes :=
  fold_left (fun k x => if existsb (same_word x) (skipped st) then k else x) (split_str 46 name) [].
(** From a name to the maker that is called, /repo/src/trans.rs:392-425. Simplified: an empty name keeps the empty kind
    (matchers and comparators keep their default type instead), and the pattern is not followed. *)
Definition made (r : registry) (name : bytes) : option A :=
  lookup r (match name with [] => [] | _ => resolve r (last_part name) end).
End Registry.
Arguments mkreg {A}. Arguments items {A}. Arguments aliases {A}. Arguments Push {A}. Arguments Alias {A}.
Arguments step {A}. Arguments history {A}. Arguments resolve {A}. Arguments lookup {A}. Arguments made {A}.

(** The five styles; /repo/src/matcher.rs:1615-1616, comp.rs:862, trans.rs:270, agg.rs:1273, textgen.rs:288. *)
Definition match_style : style :=
  let w := [bs "utf8"; bs "not"; bs "trim"; bs "null"; bs "case"; bs "and"; bs "or"] in mkstyle w w true.
Definition comp_style : style := (* /repo/src/comp.rs:862,1046-1058,1103 *)
  let w := [bs "rev"; bs "strict"; bs "trail"; bs "low"] in mkstyle w w false.
Definition trans_style : style := mkstyle [bs "utf8"] [bs "utf8"] true. (* /repo/src/trans.rs:270,401-407 *)
Definition agg_style : style := mkstyle [] [] true. (* /repo/src/agg.rs:1273,1480-1484 *)
Definition counter_style : style := mkstyle [] [bs "utf8"] true. (* /repo/src/agg.rs:1273,1502-1508 *)
Definition gen_style : style := mkstyle [] [] true. (* /repo/src/textgen.rs:288,400-404 *)
