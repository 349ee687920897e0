(** Model of the matchers in utf8 mode, /repo/src/matcher.rs:323-850, and of Text for str, /repo/src/text.rs:319-473. A str is its
    bytes. What the standard library knows about characters enters as parameters: char::to_lowercase, char::is_whitespace, and the
    properties Cased and Case_Ignorable that str::to_lowercase asks for around a capital sigma. *)
From Coq Require Import List NArith ZArith Bool Arith.
Import ListNotations.
From Verif Require Import Base FloatModel StrModel CompModel MatchModel.
Open Scope list_scope.

(** str::chars, as used in /repo/src/matcher.rs:376: next_code_point of the standard library, which trusts the bytes to be UTF-8.
    Simplified: bytes that end inside of a character, which no str has, end the text. *)
Fixpoint chars (b : bytes) : list N :=
  match b with
  | [] => []
  | x :: r =>
      if (x <? 128)%N then x :: chars r else
      match r with
      | [] => []
      | y :: r =>
          if (x <? 224)%N then (x mod 32 * 64 + y mod 64)%N :: chars r else
          match r with
          | [] => []
          | z :: r =>
              if (x <? 240)%N then (x mod 32 * 4096 + (y mod 64 * 64 + z mod 64))%N :: chars r else
              match r with
              | [] => []
              | w :: r => (x mod 8 * 262144 + (y mod 64 * 4096 + z mod 64 * 64) + w mod 64)%N :: chars r
              end
          end
      end
  end.
(** String::push and String::extend, as used in /repo/src/text.rs:433: char::encode_utf8 of the standard library. *)
Definition enc (c : N) : bytes :=
  (if c <? 128 then [c]
   else if c <? 2048 then [192 + c / 64; 128 + c mod 64]
   else if c <? 65536 then [224 + c / 4096; 128 + (c / 64) mod 64; 128 + c mod 64]
   else [240 + c / 262144; 128 + (c / 4096) mod 64; 128 + (c / 64) mod 64; 128 + c mod 64])%N.
Definition string_of (s : list N) : bytes := flat_map enc s. (* /repo/src/text.rs:431-434 *)

Section Uni.
(** char::to_lowercase, char::is_whitespace, Cased and Case_Ignorable of the standard library; libm::exp10. *)
Variable lowc : N -> list N.
Variable white cased ignorable : N -> bool.
Variable exp10 : Z -> f64.

(** chars().flat_map(char::to_lowercase), e.g. /repo/src/matcher.rs:377. *)
Definition low (s : list N) : list N := flat_map lowc s.
(** case_ignorable_then_cased of the standard library, used by str::to_lowercase, /repo/src/matcher.rs:369. *)
Fixpoint then_cased (s : list N) : bool :=
  match s with [] => false | c :: r => if ignorable c then then_cased r else cased c end.
(** str::to_lowercase, /repo/src/matcher.rs:369, 486, 512 and 519: char by char, but a capital sigma at the end of a word becomes a
    final sigma. [before] are the characters before, the nearest first. *)
Fixpoint lows (before s : list N) : list N :=
  match s with
  | [] => []
  | c :: r =>
      (if (c =? 931)%N then [if then_cased before && negb (then_cased r) then 962%N else 963%N] else lowc c) ++ lows (c :: before) r
  end.
Definition to_lowercase (b : bytes) : bytes := string_of (lows [] (chars b)). (* /repo/src/matcher.rs:369 *)
(** Text::new_lower and assign_lower for str, /repo/src/text.rs:431-439. *)
Definition new_lower (b : bytes) : bytes := string_of (low (chars b)).

(** Text::chars_equal for str, /repo/src/text.rs:362-373. [c1] comes from the pattern. *)
Definition schars_equal (c1 c2 : N) (ic : case) : bool :=
  if (c1 =? c2)%N then true
  else if (c1 =? 63)%N then true
  else match ic with Sens => false | Insens => beq (lowc c1) (lowc c2) end.
(** First loop of Text::glob, /repo/src/text.rs:222-232, on characters. *)
Fixpoint sglob_head (buff wild : list N) (ic : case) : bool + (list N * list N) :=
  match buff, wild with
  | b :: buff', w :: wild' =>
      if (w =? STAR)%N then inr (buff, wild)
      else if schars_equal w b ic then sglob_head buff' wild' ic else inl false
  | _ :: _, [] => inl false
  | [], _ => inr ([], wild)
  end.
(** Main loop of Text::glob, /repo/src/text.rs:237-253, on characters; skip_first of an empty str panics (354-357). *)
Fixpoint sglob_loop (fuel : nat) (buff wild cp mp : list N) (ic : case) : option (res bool) :=
  match fuel with
  | 0 => None
  | S f =>
      match buff with
      | [] => Some (Ok (glob_tail wild))
      | b :: buff' =>
          let mismatch :=
            match cp with
            | [] => Some Panic
            | _ :: cp' => sglob_loop f cp' mp cp' mp ic
            end in
          match wild with
          | w :: wild' =>
              if (w =? STAR)%N then
                match wild' with
                | [] => Some (Ok true)
                | _ => sglob_loop f buff wild' buff' wild' ic
                end
              else if schars_equal w b ic then sglob_loop f buff' wild' cp mp ic
              else mismatch
          | [] => mismatch
          end
      end
  end.
(** Text::glob for str, /repo/src/text.rs:218-259. *)
Definition sglob (buff wild : list N) (ic : case) : option (res bool) :=
  match sglob_head buff wild ic with
  | inl b => Some (Ok b)
  | inr (buff', wild') => sglob_loop (glob_fuel buff' wild') buff' wild' [] [] ic
  end.
Definition sglob_ok (b p : bytes) (ic : case) : res bool := (* /repo/src/matcher.rs:729-731 *)
  match sglob (chars b) (chars p) ic with Some r => r | None => Panic end.

(** The zip loops of equal_insens and equal_insens_quick, /repo/src/text.rs:383-391 and 396-400. *)
Fixpoint zip_same (a b : list N) : bool :=
  match a, b with x :: a, y :: b => if (x =? y)%N then zip_same a b else false | _, _ => true end.
(** Text::equal_insens for str, /repo/src/text.rs:382-393; len is in bytes. *)
Definition equal_insens_str (a b : bytes) : bool := zip_same (low (chars a)) (low (chars b)) && Nat.eqb (length a) (length b).
(** Text::equal_insens_quick for str, /repo/src/text.rs:395-402. *)
Definition equal_quick_str (a b : bytes) : bool := zip_same (chars a) (low (chars b)) && Nat.eqb (length a) (length b).
(** The zip loops of cmp_insens and cmp_insens_quick, /repo/src/text.rs:405-416 and 421-428; [la] and [lb] are the lengths in bytes. *)
Fixpoint zip_cmp (a b : list N) (la lb : nat) : comparison :=
  match a, b with
  | x :: a, y :: b => if (x <? y)%N then Lt else if (y <? x)%N then Gt else zip_cmp a b la lb
  | _, _ => Nat.compare la lb
  end.
(** Text::cmp_insens for str, /repo/src/text.rs:404-418. *)
Definition cmp_insens_str (a b : bytes) : comparison := zip_cmp (low (chars a)) (low (chars b)) (length a) (length b).
(** Text::cmp_insens_quick for str, /repo/src/text.rs:420-430. *)
Definition cmp_quick_str (a b : bytes) : comparison := zip_cmp (chars a) (low (chars b)) (length a) (length b).

(** scase_prefix, /repo/src/matcher.rs:375-391. *)
Fixpoint chars_begin (needle hay : list N) : bool :=
  match needle, hay with
  | [], _ => true
  | _ :: _, [] => false
  | a :: needle, b :: hay => if (a =? b)%N then chars_begin needle hay else false
  end.
Definition scase_prefix (hay needle : bytes) : bool := chars_begin (chars needle) (low (chars hay)). (* /repo/src/matcher.rs:375-391 *)
(** scase_suffix, /repo/src/matcher.rs:420-439. *)
Definition scase_suffix (hay needle : bytes) : bool :=
  let n := chars needle in
  let h := low (chars hay) in
  if length h <? length n then false else chars_begin n (skipn (length h - length n) h).

(** Match::smatch of each type, /repo/src/matcher.rs:323-840. A regular expression is the set of texts its str form accepts; a set of
    lines for file-exact is the one load_hashset_c makes with unicode set. *)
Definition u_kind_smatch (k : kind) (b : bytes) : res bool :=
  match k with
  | KPrefix p => Ok (starts_with b p)
  | KPrefixC p => Ok (scase_prefix b (to_lowercase p))
  | KSuffix p => Ok (ends_with b p)
  | KSuffixC p => Ok (scase_suffix b (to_lowercase p))
  | KInfix p => Ok (infix b p)
  | KInfixC p => Ok (infix (to_lowercase b) (to_lowercase p))
  | KExact p => Ok (beq p b)
  | KExactC p => Ok (equal_quick_str b (new_lower p))
  | KFile set => Ok (existsb (beq b) set)
  | KFileC set => Ok (existsb (beq (new_lower b)) set)
  | KGlob p ic => sglob_ok b p ic
  | KLen mn mx => Ok (len_ok mn mx (chars b))
  | KYes => Ok true
  | KNo => Ok false
  | KRange k => Ok (buff_ok exp10 k b)
  | KRegex f => Ok (f b)
  end.
(** str::trim, /repo/src/text.rs:348-350. *)
Fixpoint drop_white (l : list N) : list N := match l with c :: r => if white c then drop_white r else l | [] => [] end.
Definition u_trim (b : bytes) : bytes := string_of (rev (drop_white (rev (drop_white (chars b))))). (* /repo/src/text.rs:348-350 *)
(** Matcher::smatch, /repo/src/matcher.rs:1549-1558, of a single pattern. *)
Definition u_single_smatch (m : single) (b : bytes) : res bool :=
  let b := if s_trim m then u_trim b else b in
  if s_empty m && match b with [] => true | _ => false end then Ok true else u_kind_smatch (s_kind m) b.
(** Matcher::smatch, /repo/src/matcher.rs:1549-1558. *)
Definition u_smatch (m : matcher) (b : bytes) : res bool :=
  let b := if m_trim m then u_trim b else b in
  if m_empty m && match b with [] => true | _ => false end then Ok true
  else match m_body m with inl k => u_kind_smatch k b | inr (c, l) => tagged c (fun x => u_single_smatch x b) l end.

(** String::from_utf8_lossy and str::from_utf8: the text itself where it is UTF-8; what lossy makes of other bytes is a parameter. *)
Variable lossy : bytes -> bytes.
Variable utf8_ok : bytes -> bool.
(** The choice in /repo/src/matcher.rs:1034-1039, 1119-1124 and 1170-1175. *)
Definition u_match (m : matcher) (b : bytes) : res bool := if m_string m then u_smatch m (lossy b) else m_umatch exp10 m b.
(** Matcher::do_match, /repo/src/matcher.rs:1572-1578. *)
Definition do_match (m : matcher) (b : bytes) : res bool :=
  if m_string m then (if utf8_ok b then u_smatch m b else Err) else m_umatch exp10 m b.
(** Matcher::do_match_safe, /repo/src/matcher.rs:1583-1593. *)
Definition do_match_safe (m : matcher) (b : bytes) : res bool :=
  if m_string m then (if utf8_ok b then u_smatch m b else Ok false) else m_umatch exp10 m b.
(** load_hashset_c with unicode set, /repo/src/matcher.rs:656-681; [lines] are the lines with their newline. *)
Fixpoint load_set_u (lines : list bytes) : res (list bytes) :=
  match lines with
  | [] => Ok []
  | l :: r =>
      if 1 <? length l then
        let x := if (last l 0 =? 10)%N then removelast l else l in
        if utf8_ok x then rbind (load_set_u r) (fun s => Ok (new_lower x :: s)) else Err
      else load_set_u r
  end.
End Uni.
