(** The text format options --text-in and --text-out: TextFileMode::new of /repo/src/util.rs and Settings of /repo/src/bin/cdx/globals.rs. *)
From Coq Require Import String List NArith Bool Arith.
Open Scope list_scope.
Import ListNotations.
From Verif Require Import Base TextModel ReadModel.
Open Scope nat_scope.

(** TextFileMode, /repo/src/util.rs:246-260. *)
Record form := mkform { fo_head : head_mode; fo_quote : quote_mode; fo_delim : N; fo_break : N; fo_repl : N }.
Definition form_default : form := mkform HMaybe QPlain TAB NL SPC. (* /repo/src/util.rs:261-271 *)
(** auto_escape, /repo/src/util.rs:181-195, of a character given by its code point; [ch as u8] keeps the low byte. *)
Definition auto_escape (c : N) : N :=
  if (c =? 116)%N then TAB else if (c =? 115)%N then SPC else if (c =? 114)%N then CR else if (c =? 110)%N then NL else (c mod 256)%N.
(** The chains of tests at /repo/src/util.rs:288-302 and 311-319. *)
Definition head_char (c : N) : res head_mode :=
  if (c =? 121)%N then Ok HYes else if (c =? 110)%N then Ok HNo else if (c =? 115)%N then Ok HSkip else if (c =? 109)%N then Ok HMaybe
  else if (c =? 120)%N then Ok HCdx else Err.
Definition quote_char (c : N) : res quote_mode := (* /repo/src/util.rs:311-319 *)
  if (c =? 112)%N then Ok QPlain else if (c =? 113)%N then Ok QQuote else if (c =? 98)%N then Ok QBackslash else Err.
(** One step of TextFileMode::new_with, /repo/src/util.rs:288-331: take the first character if there is one. *)
Definition take {A} (spec : list N) (dflt : A) (f : N -> res A) : res (A * list N) :=
  match spec with [] => Ok (dflt, []) | c :: r => rbind (f c) (fun a => Ok (a, r)) end.
(** TextFileMode::new_with, /repo/src/util.rs:279-339; the text as code points. *)
Definition form_new_with (spec : list N) (dflt : form) : res form :=
  rbind (take spec (fo_head dflt) head_char) (fun '(h, spec) =>
  rbind (take spec (fo_delim dflt) (fun c => Ok (auto_escape c))) (fun '(d, spec) =>
  rbind (take spec (fo_quote dflt) quote_char) (fun '(q, spec) =>
  rbind (take spec (fo_repl dflt) (fun c => Ok (auto_escape c))) (fun '(r, spec) =>
  rbind (take spec (fo_break dflt) (fun c => Ok (auto_escape c))) (fun '(b, _) =>
  Ok (mkform h q d b r)))))).
Definition form_new (spec : list N) : res form := form_new_with spec form_default. (* /repo/src/util.rs:275-277 *)

(** Settings, /repo/src/bin/cdx/globals.rs:32-38, without the header checker, which no option changes. *)
Record settings := mkset { se_in : form; se_out : option form }.
Definition set_new : settings := mkset form_default None. (* Settings::new, /repo/src/bin/cdx/globals.rs:41-43 *)
Definition text_out (s : settings) : form := match se_out s with Some x => x | None => se_in s end. (* /repo/src/bin/cdx/globals.rs:44-49 *)
Definition text_out2 (s : settings) (d : N) : form := (* /repo/src/bin/cdx/globals.rs:50-59 *)
  match se_out s with Some x => x | None => mkform (fo_head (se_in s)) (fo_quote (se_in s)) d (fo_break (se_in s)) (fo_repl (se_in s)) end.
Definition has_cdx (h : head_mode) : bool := match h with HCdx | HMaybe => true | _ => false end. (* HeadMode::has_cdx, /repo/src/util.rs:150-152 *)
