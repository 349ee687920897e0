(** C48: comparison operators and bounds. *)
From Coq Require Import String List NArith ZArith Bool Arith Lia SpecFloat.
Open Scope list_scope.
Import ListNotations.
From Verif Require Import Base ReadModel StrModel FloatModel FloatValid CompModel CompSpec LineSpec CheckModel
  OrdProofs CompProofs IpProofs LineProofs CheckProofs CompProps.

(** C48. Every symbol and every word names an operator accepting exactly the outcomes it says; words
    and symbols agree. *)
Theorem c48_operators : forall s, symbol s -> exists o, parse_op s = Ok o /\
  forall d, ord_ok o d = true <-> relation_holds s d.
Proof. exact op_of_symbol. Qed.

Example c48_operators_ex : symbol (bs "<=") /\ parse_op (bs "<=") = Ok OpLE /\ ord_ok OpLE Eq = true /\ ord_ok OpLE Gt = false.
Proof. split; [unfold symbol; right; right; left; reflexivity|repeat split]. Qed.

Theorem c48_words : forall w s, spelling w s -> parse_op w = parse_op s /\ symbol s.
Proof. exact op_of_word. Qed.

Example c48_words_ex : spelling (bs "NE") (bs "!=") /\ parse_op (bs "NE") = Ok OpNE.
Proof. split; [unfold spelling; repeat right; split; reflexivity|reflexivity]. Qed.

(** C48. invert is the operator for the operands swapped, and is its own inverse. *)
Theorem c48_invert : forall o d, ord_ok (op_invert o) d = ord_ok o (CompOpp d) /\ op_invert (op_invert o) = o.
Proof. intros o d. destruct o, d; split; reflexivity. Qed.

Example c48_invert_ex : op_invert OpLE = OpGE /\ ord_ok OpGE Gt = ord_ok OpLE Lt.
Proof. split; reflexivity. Qed.

(** C48. The six operators are three complementary pairs. *)
Theorem c48_complement : forall d,
  ord_ok OpGE d = negb (ord_ok OpLT d) /\ ord_ok OpLE d = negb (ord_ok OpGT d) /\ ord_ok OpNE d = negb (ord_ok OpEQ d).
Proof. destruct d; repeat split. Qed.

Example c48_complement_ex : ord_ok OpGE Eq = true /\ ord_ok OpLT Eq = false.
Proof. split; reflexivity. Qed.

(** C48. A bound on a value, as the range matcher takes it (comparator, then operator and value):
    accepts exactly the values standing in that relation. Likewise with two bounds. For every
    comparator that answers opposite ways round. *)
Lemma side_of : forall exp10 c x v, c <> CF64 -> (N.of_nat (List.length v) < 2 ^ 32)%N -> (N.of_nat (List.length x) < 2 ^ 32)%N ->
  side_ok exp10 c x v.
Proof. intros. split; [unfold self_len; auto|apply comp_antisym; auto]. Qed.

Theorem c48_range_one : forall exp10 mk spec c s v, Forall (fun c => not_op c = true) spec -> mk spec = Ok c -> c <> CF64 ->
  symbol s -> plain_value v -> (N.of_nat (List.length v) < 2 ^ 32)%N ->
  exists k, check_buff_of mk (spec ++ 44%N :: s ++ v) = Ok k /\
    forall x, (N.of_nat (List.length x) < 2 ^ 32)%N -> (buff_ok exp10 k x = true <-> relation_holds s (c_comp exp10 c x v)).
Proof.
  intros exp10 mk spec c s v H1 H2 H3 H4 H5 H6. destruct (buff_one exp10 mk spec c s v H1 H2 H4 H5) as (k & E & K).
  exists k. split; auto. intros x Hx. apply K. apply side_of; auto.
Qed.

Definition ex_mk (s : bytes) : res cmpr := if beq s (bs "num") then Ok CNumeric else Err.
Example c48_range_one_ex : exists k, check_buff_of ex_mk (bs "num,<=10") = Ok k /\
  buff_ok ex10 k (bs "9") = true /\ buff_ok ex10 k (bs "10") = true /\ buff_ok ex10 k (bs "11") = false.
Proof. eexists. split; [reflexivity|]. repeat split. Qed.

Theorem c48_range_two : forall exp10 mk spec c s v s2 v2, Forall (fun c => not_op c = true) spec -> mk spec = Ok c -> c <> CF64 ->
  symbol s -> plain_value v -> symbol s2 -> plain_value v2 ->
  (N.of_nat (List.length v) < 2 ^ 32)%N -> (N.of_nat (List.length v2) < 2 ^ 32)%N ->
  exists k, check_buff_of mk (spec ++ 44%N :: s ++ v ++ s2 ++ v2) = Ok k /\
    forall x, (N.of_nat (List.length x) < 2 ^ 32)%N ->
      (buff_ok exp10 k x = true <-> relation_holds s (c_comp exp10 c x v) /\ relation_holds s2 (c_comp exp10 c x v2)).
Proof.
  intros exp10 mk spec c s v s2 v2 H1 H2 H3 H4 H5 H6 H7 H8 H9.
  destruct (buff_two exp10 mk spec c s v s2 v2 H1 H2 H4 H5 H6 H7) as (k & E & K).
  exists k. split; auto. intros x Hx. apply K; apply side_of; auto.
Qed.

Example c48_range_two_ex : exists k, check_buff_of ex_mk (bs "num,>5<=10") = Ok k /\
  buff_ok ex10 k (bs "5") = false /\ buff_ok ex10 k (bs "10") = true /\ buff_ok ex10 k (bs "11") = false.
Proof. eexists. split; [reflexivity|]. repeat split. Qed.

(** C48. A check on whole lines, word form with one bound: the reporting check is exact for one key on
    the line or on a column. *)
Definition one_key (c : cmpr) (col : option nat) : linecomp :=
  mklc false TAB (match col with None => LWhole (mkcomp false c) | Some n => LCol (fun _ => n) (mkcomp false c) end).
Definition key_value (col : option nat) (l : textline) : bytes := match col with None => tl_text l | Some n => tl_get l n end.

Lemma one_key_ok : forall exp10 c col line v, c <> CF64 ->
  (N.of_nat (List.length v) < 2 ^ 32)%N -> (N.of_nat (List.length (key_value col line)) < 2 ^ 32)%N ->
  whole_or_col exp10 (one_key c col) line v (c_comp exp10 c (key_value col line) v).
Proof. intros exp10 c [n|] line v H1 H2 H3; split; auto; cbn; split; auto using side_of. Qed.

Theorem c48_line_verbose_partial : forall exp10 w sym v, spelling w sym -> line_value v -> (N.of_nat (List.length v) < 2 ^ 32)%N ->
  exists ck, check_line_new (w ++ 44%N :: v) = Ok ck /\
    forall c col line, c <> CF64 -> (N.of_nat (List.length (key_value col line)) < 2 ^ 32)%N ->
      exists b, check_line_ok_verbose exp10 ck [one_key c col] line = Ok b /\
                (b = true <-> relation_holds sym (c_comp exp10 c (key_value col line) v)).
Proof.
  intros exp10 w sym v Hw Hv HL. destruct (line_verbose_one exp10 w sym v Hw Hv) as (ck & E & K).
  exists ck. split; auto. intros c col line Hc Hx. apply K. apply one_key_ok; auto.
Qed.

Example c48_line_verbose_partial_ex : exists ck, check_line_new (bs "GE,10") = Ok ck /\
  check_line_ok_verbose ex10 ck [one_key CNumeric (Some 1)] (ex_line (bs "k") (bs "12")) = Ok true /\
  check_line_ok_verbose ex10 ck [one_key CNumeric (Some 1)] (ex_line (bs "k") (bs "9")) = Ok false.
Proof. eexists. split; [reflexivity|]. split; reflexivity. Qed.

(** C48. The silent check asks the mirrored question, so the two disagree. *)
Theorem c48_silent_mirrored : forall exp10 w sym v, spelling w sym -> line_value v -> (N.of_nat (List.length v) < 2 ^ 32)%N ->
  exists ck, check_line_new (w ++ 44%N :: v) = Ok ck /\
    forall c col line, c <> CF64 -> (N.of_nat (List.length (key_value col line)) < 2 ^ 32)%N ->
      exists b, check_line_ok exp10 ck [one_key c col] line = Ok b /\
                (b = true <-> relation_holds sym (c_comp exp10 c v (key_value col line))).
Proof.
  intros exp10 w sym v Hw Hv HL. destruct (line_silent_one exp10 w sym v Hw Hv) as (ck & E & K).
  exists ck. split; auto. intros c col line Hc Hx.
  destruct (K _ _ _ (one_key_ok exp10 c col line v Hc HL Hx)) as (b & Eb & Hb). exists b. split; auto.
  rewrite Hb. rewrite (comp_antisym exp10 c v (key_value col line) Hc), CompOpp_involutive. tauto.
Qed.

Theorem c48_silent_refuted : exists spec ck line, check_line_new spec = Ok ck /\ forall exp10,
  check_line_ok_verbose exp10 ck [one_key CPlain None] line = Ok true /\
  check_line_ok exp10 ck [one_key CPlain None] line = Ok false.
Proof.
  exists (bs "LT,m"), (mkcl OpLT (bs "m") None None), (mktl (bs "a") [] []). split; [reflexivity|]. intros. split; reflexivity.
Qed.

(** C48. The reporting check ignores a second bound, and the silent one compares against the text of
    the second operator. *)
Theorem c48_second_bound_refuted : exists spec ck line, check_line_new spec = Ok ck /\
  spec = bs "GT,b,LT,d" /\ tl_text line = bs "z" /\ forall exp10,
  check_line_ok_verbose exp10 ck [one_key CPlain None] line = Ok true /\ ck_val2 ck = Some (bs "LT").
Proof.
  exists (bs "GT,b,LT,d"), (mkcl OpGT (bs "b") (Some OpLT) (Some (bs "LT"))), (mktl (bs "z") [] []).
  repeat split; reflexivity.
Qed.

(** C48. Less-or-equal and greater-or-equal written as symbols lose their equals sign in a line check. *)
Theorem c48_symbol_cut_refuted : forall v, plain_value v ->
  exists ck, check_line_new (le_sym ++ v) = Ok ck /\ ck_op ck = OpLT /\ ck_val ck = 61%N :: v.
Proof.
  intros v Hv. destruct (range_le_cut v Hv) as [E _]. unfold check_line_new. rewrite E.
  eexists. split; [reflexivity|]. split; reflexivity.
Qed.

Example c48_symbol_cut_refuted_ex : exists ck, check_line_new (bs "<=b") = Ok ck /\
  check_line_ok_verbose ex10 ck [one_key CPlain None] (mktl (bs "b") [] []) = Ok false.
Proof. eexists. split; reflexivity. Qed.
