(** What transforms mean. *)
From Coq Require Import String List NArith Bool Arith.
Open Scope list_scope.
Import ListNotations.
From Verif Require Import Base TextSpec StrSpec TransModel.

(** Applying the functions [fs] one after the other, stopping at the first failure. *)
Definition chain {A} (fs : list (A -> res A)) (x : A) : res A := fold_left (fun acc f => rbind acc f) fs (Ok x).

(** Cutting a text at every blank. *)
Fixpoint pieces (blank : N -> bool) (l : list N) : list (list N) :=
  match l with
  | [] => [[]]
  | c :: r => if blank c then [] :: pieces blank r
              else match pieces blank r with p :: ps => (c :: p) :: ps | [] => [[c]] end
  end.
(** The words of a text: what stands between blanks. *)
Definition words (blank : N -> bool) (l : list N) : list (list N) :=
  filter (fun w => match w with [] => false | _ => true end) (pieces blank l).
Definition word (blank : N -> bool) (w : list N) : Prop := w <> [] /\ Forall (fun c => blank c = false) w.

(** The bytes at the one-based positions a to b, as far as the text has them. *)
Definition between (a b : N) (l : bytes) : bytes := firstn (N.to_nat b + 1 - N.to_nat a) (skipn (N.to_nat a - 1) l).

(** The text of a transform and the transform it should make. *)
Inductive named : bytes -> trans -> Prop :=
  | nm_lower : named (bs "lower") TLower
  | nm_lower_alias : named (bs "lowercase") TLower
  | nm_lower_utf : named (bs "utf8.lower") TLowerUtf
  | nm_upper : named (bs "upper") TUpper
  | nm_upper_alias : named (bs "uppercase") TUpper
  | nm_upper_utf : named (bs "upper.utf8") TUpperUtf
  | nm_space : named (bs "normspace") TNorm
  | nm_space_utf : named (bs "utf8.normspace") TNormUtf
  | nm_encode : named (bs "to_base64") TEncode
  | nm_decode : named (bs "from_base64") TDecode
  | nm_bytes rs : rs <> [] -> Forall (fun r => 1 <= fst r /\ fst r <= snd r /\ snd r < 2 ^ 32)%N rs ->
      named (bs "bytes," ++ join 44%N (map (fun r => print_N (fst r) ++ bs "-" ++ print_N (snd r)) rs))
            (TBytes (map (fun r => (fst r - 1, snd r)%N) rs)).
