(** Comparison operators and bounds. *)
From Coq Require Import String List NArith ZArith Bool Arith Lia SpecFloat.
From Coq Require Import ZifyBool ZifyN ZifyNat.
Open Scope list_scope.
Import ListNotations.
From Verif Require Import Base ReadModel StrModel FloatModel CompModel CheckModel CompSpec LineSpec OrdProofs CompProofs
  NumProofs IpProofs LineProofs.
Close Scope Q_scope.
Close Scope Z_scope.
Notation length := List.length (only parsing).

(** Operators. *)
Lemma op_of_symbol : forall s, symbol s -> exists o, parse_op s = Ok o /\ forall c, ord_ok o c = true <-> relation_holds s c.
Proof.
  intros s [->|[->|[->|[->|[->| ->]]]]]; eexists; (split; [reflexivity|]); intros c; unfold relation_holds;
    cbv [lt_sym gt_sym le_sym ge_sym eq_sym_ ne_sym]; destruct c; cbn; intuition congruence.
Qed.
Lemma op_of_word : forall w s, spelling w s -> parse_op w = parse_op s /\ symbol s.
Proof.
  unfold spelling, symbol. intros w s [[-> ->]|[[-> ->]|[[-> ->]|[[-> ->]|[[-> ->]|[-> ->]]]]]]; (split; [reflexivity|auto 8]).
Qed.
Lemma op_invert_opp : forall o c, ord_ok (op_invert o) c = ord_ok o (CompOpp c).
Proof. intros [] []; reflexivity. Qed.
Lemma op_table : forall o c, ord_ok o c = true <->
  match o with OpLT => c = Lt | OpGT => c = Gt | OpLE => c <> Gt | OpGE => c <> Lt | OpEQ => c = Eq | OpNE => c <> Eq end.
Proof. intros [] []; cbn; split; intros; congruence. Qed.

(** Every comparator except the float one answers opposite ways round. *)
Lemma num_skip_swap : forall f g a b, Nat.min (length a) (length b) <= f -> Nat.min (length a) (length b) <= g ->
  num_skip g b a = (snd (num_skip f a b), fst (num_skip f a b)).
Proof.
  assert (L : forall a, length (skip_comma a) <= length a).
  { induction a as [|c a IH]; cbn; auto. destruct (c =? 44)%N; cbn; lia. }
  induction f as [|f IH]; intros g a b Hf Hg.
  - destruct a as [|x a], b as [|y b]; cbn [length] in *; destruct g; cbn; auto; lia.
  - destruct a as [|x a], b as [|y b]; destruct g; cbn [length num_skip fst snd] in *; auto; try lia.
    destruct (N.eqb_spec x y) as [->|E].
    + rewrite N.eqb_refl. cbn [andb]. destruct (is_digit y); [|auto].
      pose proof (L a). pose proof (L b). rewrite (IH g); auto; lia.
    + replace (y =? x)%N with false by lia. auto.
Qed.
Lemma frac_antisym : forall a b, frac_cmp b a = CompOpp (frac_cmp a b).
Proof.
  intros a b. unfold frac_cmp. generalize (tl a) (tl b). clear a b.
  induction l as [|x l IH]; intros [|y m]; cbn [frac_skip]; auto.
  - destruct (is_digit y); auto.
  - destruct (is_digit x); auto.
  - destruct (N.eqb_spec x y) as [->|E].
    + rewrite N.eqb_refl. cbn [andb]. destruct (is_digit y) eqn:D; [apply IH|]. rewrite D. auto.
    + replace (y =? x)%N with false by lia. cbn [andb]. destruct (is_digit x), (is_digit y); auto.
      rewrite (N.compare_antisym x y). auto.
Qed.
Lemma num_unsigned_antisym : forall a b, num_cmp_unsigned b a = CompOpp (num_cmp_unsigned a b).
Proof.
  intros a b. unfold num_cmp_unsigned. set (p := skip_comma_zero a). set (q := skip_comma_zero b).
  rewrite (num_skip_swap (length p) (length q) p q) by lia.
  destruct (num_skip (length p) p q) as [u v]. cbn [fst snd].
  destruct u as [|x u], v as [|y v]; auto.
  - destruct (is_digit y); auto.
  - destruct (is_digit x); auto.
  - rewrite (andb_comm (y =? 46)%N). destruct ((x =? 46) && (y =? 46))%N; [apply frac_antisym|].
    set (n := num_log _ (x :: u)). set (m := num_log _ (y :: v)).
    destruct (Nat.eqb_spec n m) as [E|E].
    + rewrite E, Nat.eqb_refl. cbn [negb]. destruct (Nat.eqb m 0); auto. apply N.compare_antisym.
    + replace (Nat.eqb m n) with false by lia. cbn [negb]. apply Nat.compare_antisym.
Qed.
Lemma num_signed_antisym : forall a b, num_cmp_signed b a = CompOpp (num_cmp_signed a b).
Proof.
  intros. unfold num_cmp_signed. destruct (take_minus (trim_left a)) as [[] x], (take_minus (trim_left b)) as [[] y]; auto;
    apply num_unsigned_antisym.
Qed.
Lemma comp_antisym : forall exp10 c a b, c <> CF64 -> c_comp exp10 c b a = CompOpp (c_comp exp10 c a b).
Proof.
  intros exp10 c a b H. destruct c; try congruence; cbn [c_comp].
  - apply bcmp_antisym.
  - rewrite !cmp_insens_bcmp. apply bcmp_antisym.
  - apply ip_preorder.
  - apply num_signed_antisym.
  - auto.
  - apply Nat.compare_antisym.
Qed.

(** Regular expressions. *)
Definition plain_value (v : bytes) : Prop := v <> [] /\ Forall (fun c => not_op c = true /\ c <> NL) v.

Definition op_head (s : bytes) : Prop := match s with [] => True | c :: _ => not_op c = false end.
Lemma not_op_spec : forall c, not_op c = true <-> c <> 60%N /\ c <> 62%N /\ c <> 33%N /\ c <> 61%N.
Proof. intros. unfold not_op. lia. Qed.

Lemma sym_none : forall s, (match s with [] => True | c :: _ => not_op c = true end) -> re_alt sym_ops s = [].
Proof.
  intros [|c s] H; auto. apply not_op_spec in H as (A & B & C & D). unfold re_alt, sym_ops. cbn [flat_map starts_with].
  replace (60 =? c)%N with false by lia. replace (62 =? c)%N with false by lia.
  replace (61 =? c)%N with false by lia. replace (33 =? c)%N with false by lia. reflexivity.
Qed.

Lemma plus_unique : forall (p : byte -> bool) v rest {B} (g : bytes * bytes -> list B), v <> [] -> Forall (fun c => p c = true) v ->
  (match rest with [] => True | c :: _ => p c = false end) ->
  (forall t c r, p c = true -> g (t, c :: r) = []) ->
  flat_map g (re_plus p (v ++ rest)) = g (v, rest).
Proof.
  intros p v rest B g Hv HF Hr. revert g. induction HF as [|c v Hc HF IH]; intros g Hg; [congruence|].
  cbn [app re_plus]. rewrite Hc, flat_map_app. destruct v as [|d v].
  - cbn [app]. destruct rest as [|x rest]; cbn [re_plus]; [cbn; apply app_nil_r|]. rewrite Hr. cbn. apply app_nil_r.
  - replace (flat_map g [([c], (d :: v) ++ rest)]) with (@nil B).
    + rewrite app_nil_r. rewrite flat_map_concat_map, map_map, <- flat_map_concat_map.
      rewrite (IH ltac:(discriminate) (fun x => g (c :: fst x, snd x))); [auto|]. intros; cbn; auto.
    + cbn [flat_map app]. inversion HF; subst. rewrite Hg by auto. auto.
Qed.

Lemma plain_head : forall v, plain_value v -> exists c r, v = c :: r /\ not_op c = true.
Proof. intros [|c r] [H1 H2]; [congruence|]. inversion H2 as [|? ? [H _] _]; subst. eauto. Qed.

Lemma plain_rest : forall v, plain_value v -> re_rest v = [(v, [])] /\ re_rest_noteq v = [(v, [])].
Proof.
  intros v [H1 H2]. destruct v as [|c r]; [congruence|]. unfold re_rest, re_rest_noteq.
  assert (F : forallb (fun c => negb (c =? NL)%N) (c :: r) = true).
  { apply forallb_forall. intros x Hx. rewrite Forall_forall in H2. apply H2 in Hx as [_ Hx]. lia. }
  rewrite F. cbn [forallb] in F. apply andb_prop in F as [_ F]. rewrite F.
  inversion H2 as [|? ? [H _] _]; subst. apply not_op_spec in H. replace (c =? 61)%N with false by lia. auto.
Qed.

Lemma plain_not_op : forall v, plain_value v -> Forall (fun c => not_op c = true) v.
Proof. intros v [_ H]. eapply Forall_impl; [|apply H]. cbn. tauto. Qed.

(** The operator alternatives in front of a value. *)
Lemma sym_alt : forall s v, symbol s -> plain_value v ->
  (re_alt sym_ops (s ++ v) = [(s, v)] /\ s <> le_sym /\ s <> ge_sym) \/
  (s = le_sym /\ re_alt sym_ops (s ++ v) = [(lt_sym, 61%N :: v); (s, v)]) \/
  (s = ge_sym /\ re_alt sym_ops (s ++ v) = [(gt_sym, 61%N :: v); (s, v)]).
Proof.
  intros s v Hs Hv. destruct (plain_head v Hv) as (c & r & -> & H). apply not_op_spec in H as (A & B & C & D).
  assert (E : (61 =? c)%N = false) by lia. cbn in E.
  destruct Hs as [->|[->|[->|[->|[->| ->]]]]];
    unfold re_alt, sym_ops, lt_sym, gt_sym, le_sym, ge_sym, eq_sym_, ne_sym; cbn; rewrite ?E; cbn; auto;
    (left; split; [reflexivity|split; discriminate]).
Qed.

Lemma eq_no_plus : forall v, re_plus not_op (61%N :: v) = [].
Proof. reflexivity. Qed.

Lemma two_none : forall rest s v, symbol s -> plain_value v -> re_two rest (s ++ v) = [].
Proof.
  intros rest s v Hs Hv. unfold re_two.
  assert (G : forall o, flat_map (fun w => flat_map (fun o2 => map (fun v2 => mkrs o (fst w) (Some (fst o2)) (Some (fst v2))) (rest (snd o2)))
    (re_alt sym_ops (snd w))) (re_plus not_op v) = []).
  { intros o. rewrite <- (app_nil_r v). rewrite plus_unique; auto.
    - apply Hv.
    - apply plain_not_op; auto.
    - intros t c r Hc. cbn [fst snd]. rewrite sym_none; auto. }
  destruct (sym_alt s v Hs Hv) as [[-> _]|[[-> ->]|[-> ->]]]; cbn [flat_map fst snd]; rewrite ?G; reflexivity.
Qed.

Lemma one_noteq : forall s v, symbol s -> plain_value v -> re_one re_rest_noteq (s ++ v) = [mkrs s v None None].
Proof.
  intros s v Hs Hv. unfold re_one. destruct (plain_rest v Hv) as [_ R].
  destruct (sym_alt s v Hs Hv) as [[-> _]|[[-> ->]|[-> ->]]]; cbn [flat_map map fst snd app re_rest_noteq N.eqb Pos.eqb negb andb];
    rewrite R; reflexivity.
Qed.

Lemma one_rest : forall s v, symbol s -> plain_value v -> s <> le_sym -> s <> ge_sym ->
  re_one re_rest (s ++ v) = [mkrs s v None None].
Proof.
  intros s v Hs Hv N1 N2. unfold re_one. destruct (plain_rest v Hv) as [R _].
  destruct (sym_alt s v Hs Hv) as [[-> _]|[[-> _]|[-> _]]]; try congruence. cbn. rewrite R. reflexivity.
Qed.

Lemma two_some : forall s v s2 v2, symbol s -> plain_value v -> symbol s2 -> plain_value v2 ->
  re_two re_rest_noteq (s ++ v ++ s2 ++ v2) = [mkrs s v (Some s2) (Some v2)].
Proof.
  intros s v s2 v2 Hs Hv Hs2 Hv2. unfold re_two.
  assert (OH : op_head (s2 ++ v2)).
  { destruct Hs2 as [->|[->|[->|[->|[->| ->]]]]]; reflexivity. }
  assert (R : re_alt sym_ops (s ++ v ++ s2 ++ v2) = re_alt sym_ops (s ++ v ++ s2 ++ v2)) by auto.
  assert (G : forall o, flat_map (fun w => flat_map (fun o2 => map (fun v2 => mkrs o (fst w) (Some (fst o2)) (Some (fst v2))) (re_rest_noteq (snd o2)))
    (re_alt sym_ops (snd w))) (re_plus not_op (v ++ s2 ++ v2)) = [mkrs o v (Some s2) (Some v2)]).
  { intros o. rewrite plus_unique.
    - cbn [fst snd]. destruct (plain_rest v2 Hv2) as [_ R2].
      destruct (sym_alt s2 v2 Hs2 Hv2) as [[-> _]|[[-> ->]|[-> ->]]];
        cbn [flat_map map fst snd app re_rest_noteq N.eqb Pos.eqb negb andb]; rewrite R2; reflexivity.
    - apply Hv.
    - apply plain_not_op; auto.
    - unfold op_head in OH. destruct (s2 ++ v2); auto.
    - intros t c r Hc. cbn [fst snd]. rewrite sym_none; auto. }
  destruct (plain_head v Hv) as (c & r & E & H). apply not_op_spec in H as (A & B & C & D).
  assert (E1 : (61 =? c)%N = false) by lia. cbn in E1.
  set (tl_ := v ++ s2 ++ v2) in *. assert (T : exists r', tl_ = c :: r').
  { unfold tl_. rewrite E. cbn. eauto. } destruct T as [r' T].
  assert (SA : re_alt sym_ops (s ++ tl_) = [(s, tl_)] \/
    (exists x, re_alt sym_ops (s ++ tl_) = [(x, 61%N :: tl_); (s, tl_)])).
  { rewrite T. destruct Hs as [->|[->|[->|[->|[->| ->]]]]];
      unfold re_alt, sym_ops, lt_sym, gt_sym, le_sym, ge_sym, eq_sym_, ne_sym; cbn; rewrite ?E1; cbn; eauto. }
  destruct SA as [-> |[x ->]]; cbn [flat_map fst snd app]; rewrite ?eq_no_plus; cbn [flat_map]; rewrite ?G; reflexivity.
Qed.

(** Searching after a comma. *)
Definition shy (pat : bytes -> list range_spec) : Prop :=
  forall s, match s with [] => True | c :: _ => not_op c = true end -> pat s = [].
Lemma shy_two : forall rest, shy (re_two rest).
Proof. intros rest s H. unfold re_two. rewrite sym_none; auto. Qed.
Lemma shy_one : forall rest, shy (re_one rest).
Proof. intros rest s H. unfold re_one. rewrite sym_none; auto. Qed.

Lemma search_skip : forall pat spec t pos, shy pat -> Forall (fun c => not_op c = true) spec ->
  (match t with [] => False | c :: _ => c = 44%N end) ->
  re_search pat (spec ++ t) pos = re_search pat t (pos + length spec) \/
  (pos = 0 /\ spec = []).
Proof.
  intros pat spec t pos Hp H Ht. revert pos. induction H as [|c spec Hc H IH]; intros pos.
  - left. cbn. rewrite Nat.add_0_r. auto.
  - left. cbn [app re_search length].
    replace (if Nat.eqb pos 0 then pat (c :: spec ++ t) else []) with (@nil range_spec).
    2:{ destruct (Nat.eqb pos 0); auto. symmetry. apply Hp. auto. }
    replace (if (c =? 44)%N then pat (spec ++ t) else []) with (@nil range_spec).
    2:{ destruct (c =? 44)%N; auto. symmetry. apply Hp. destruct spec as [|d spec]; cbn.
        - destruct t as [|x t]; [auto|]. subst. reflexivity.
        - inversion H; auto. }
    cbn [app]. destruct (IH (pos + 1)) as [-> |[? ?]]; [|lia]. f_equal. lia.
Qed.

Lemma search_found : forall pat spec u r rs, shy pat -> Forall (fun c => not_op c = true) spec -> pat u = r :: rs ->
  re_search pat (spec ++ 44%N :: u) 0 = Some (r, length spec).
Proof.
  intros pat spec u r rs Hp H E.
  assert (K : forall pos, re_search pat (44%N :: u) pos = Some (r, pos)).
  { intros pos. cbn [re_search]. replace (if Nat.eqb pos 0 then pat (44%N :: u) else []) with (@nil range_spec).
    - cbn [app]. rewrite N.eqb_refl, E. auto.
    - destruct (Nat.eqb pos 0); auto. symmetry. apply Hp. reflexivity. }
  destruct (search_skip pat spec (44%N :: u) 0 Hp H eq_refl) as [-> |[_ ->]]; apply K.
Qed.

Lemma search_tail_none : forall pat v pos, shy pat -> Forall (fun c => not_op c = true) v -> re_search pat v (S pos) = None.
Proof.
  intros pat v pos Hp H. revert pos. induction H as [|c v Hc H IH]; intros pos; cbn [re_search Nat.eqb app]; auto.
  replace (if (c =? 44)%N then pat v else []) with (@nil range_spec).
  - apply IH.
  - destruct (c =? 44)%N; auto. symmetry. apply Hp. destruct v; auto. inversion H; auto.
Qed.

Lemma search_sym_none : forall pat s v pos, shy pat -> symbol s -> Forall (fun c => not_op c = true) v ->
  re_search pat (s ++ v) (S pos) = None.
Proof.
  intros pat s v pos Hp Hs H.
  destruct Hs as [->|[->|[->|[->|[->| ->]]]]]; cbn [re_search app lt_sym gt_sym le_sym ge_sym eq_sym_ ne_sym Nat.eqb Nat.add N.eqb Pos.eqb];
    apply search_tail_none; auto.
Qed.

Lemma search_none : forall pat spec s v, shy pat -> Forall (fun c => not_op c = true) spec -> symbol s ->
  Forall (fun c => not_op c = true) v -> pat (s ++ v) = [] ->
  re_search pat (spec ++ 44%N :: s ++ v) 0 = None.
Proof.
  intros pat spec s v Hp H Hs Hv E.
  assert (K : forall pos, re_search pat (44%N :: s ++ v) pos = None).
  { intros pos. cbn [re_search]. replace (if Nat.eqb pos 0 then pat (44%N :: s ++ v) else []) with (@nil range_spec).
    - cbn [app]. rewrite N.eqb_refl, E. rewrite Nat.add_1_r. apply search_sym_none; auto.
    - destruct (Nat.eqb pos 0); auto. symmetry. apply Hp. reflexivity. }
  destruct (search_skip pat spec (44%N :: s ++ v) 0 Hp H eq_refl) as [-> |[_ ->]]; apply K.
Qed.

(** The comparator part of a bound: any text without the characters of the operators. *)
Theorem trail_one : forall spec s v, Forall (fun c => not_op c = true) spec -> symbol s -> plain_value v ->
  range_new_trail (spec ++ 44%N :: s ++ v) = Ok (mkrs s v None None, length spec).
Proof.
  intros spec s v H Hs Hv. unfold range_new_trail.
  rewrite search_none; auto using shy_two, plain_not_op, two_none.
  rewrite (search_found _ spec (s ++ v) (mkrs s v None None) []); auto using shy_one, one_noteq.
Qed.
Theorem trail_two : forall spec s v s2 v2, Forall (fun c => not_op c = true) spec -> symbol s -> plain_value v ->
  symbol s2 -> plain_value v2 ->
  range_new_trail (spec ++ 44%N :: s ++ v ++ s2 ++ v2) = Ok (mkrs s v (Some s2) (Some v2), length spec).
Proof.
  intros spec s v s2 v2 H Hs Hv Hs2 Hv2. unfold range_new_trail.
  rewrite (search_found _ spec (s ++ v ++ s2 ++ v2) (mkrs s v (Some s2) (Some v2)) []); auto using shy_two, two_some.
Qed.

Lemma firstn_app_l : forall (a b : bytes), firstn (length a) (a ++ b) = a.
Proof. intros. rewrite firstn_app, Nat.sub_diag, firstn_all. cbn. apply app_nil_r. Qed.

(** Answers of the range matcher. *)
Definition side_ok (exp10 : Z -> f64) (c : cmpr) (x v : bytes) : Prop :=
  self_len c v x /\ c_comp exp10 c x v = CompOpp (c_comp exp10 c v x).

Lemma side_decides : forall exp10 c s o x v, side_ok exp10 c x v -> parse_op s = Ok o ->
  (forall d, ord_ok o d = true <-> relation_holds s d) ->
  (ord_ok (op_invert o) (c_comp_self exp10 c v x) = true <-> relation_holds s (c_comp exp10 c x v)).
Proof.
  intros exp10 c s o x v [HL HA] Ho HR. destruct (comp_self_comp c exp10 v x HL) as [-> _].
  rewrite op_invert_opp, HR, HA. tauto.
Qed.

Theorem buff_one : forall exp10 mk spec c s v, Forall (fun c => not_op c = true) spec -> mk spec = Ok c ->
  symbol s -> plain_value v ->
  exists k, check_buff_of mk (spec ++ 44%N :: s ++ v) = Ok k /\
    forall x, side_ok exp10 c x v -> (buff_ok exp10 k x = true <-> relation_holds s (c_comp exp10 c x v)).
Proof.
  intros exp10 mk spec c s v H Hm Hs Hv. destruct (op_of_symbol s Hs) as (o & Ho & HR).
  exists (mkcb c o v None). split.
  - unfold check_buff_of. rewrite trail_one by auto. cbn [rbind snd fst]. rewrite firstn_app_l, Hm. cbn [rbind].
    unfold check_buff_new. cbn [rs_op1 rs_op2 rs_val2 rs_val1]. rewrite Ho. auto.
  - intros x Hx. unfold buff_ok. cbn [cb_op cb_cmp cb_val cb_second].
    rewrite <- (side_decides exp10 c s o x v Hx Ho HR). destruct (ord_ok (op_invert o) _); cbn; tauto.
Qed.

Theorem buff_two : forall exp10 mk spec c s v s2 v2, Forall (fun c => not_op c = true) spec -> mk spec = Ok c ->
  symbol s -> plain_value v -> symbol s2 -> plain_value v2 ->
  exists k, check_buff_of mk (spec ++ 44%N :: s ++ v ++ s2 ++ v2) = Ok k /\
    forall x, side_ok exp10 c x v -> side_ok exp10 c x v2 ->
      (buff_ok exp10 k x = true <-> relation_holds s (c_comp exp10 c x v) /\ relation_holds s2 (c_comp exp10 c x v2)).
Proof.
  intros exp10 mk spec c s v s2 v2 H Hm Hs Hv Hs2 Hv2.
  destruct (op_of_symbol s Hs) as (o & Ho & HR). destruct (op_of_symbol s2 Hs2) as (o2 & Ho2 & HR2).
  exists (mkcb c o v (Some (o2, v2))). split.
  - unfold check_buff_of. rewrite trail_two by auto. cbn [rbind snd fst]. rewrite firstn_app_l, Hm. cbn [rbind].
    unfold check_buff_new. cbn [rs_op1 rs_op2 rs_val2 rs_val1]. rewrite Ho. cbn [rbind]. rewrite Ho2. auto.
  - intros x Hx Hx2. unfold buff_ok. cbn [cb_op cb_cmp cb_val cb_second].
    rewrite <- (side_decides exp10 c s o x v Hx Ho HR), <- (side_decides exp10 c s2 o2 x v2 Hx2 Ho2 HR2).
    destruct (ord_ok (op_invert o) _); cbn; intuition congruence.
Qed.

(** Word form of a bound: OP,value. *)
Definition line_value (v : bytes) : Prop := v <> [] /\ Forall (fun c => c <> 44%N /\ c <> NL) v.

Lemma line_rest : forall v, line_value v -> re_rest v = [(v, [])].
Proof.
  intros v [H1 H2]. destruct v as [|c r]; [congruence|]. unfold re_rest.
  assert (F : forallb (fun c => negb (c =? NL)%N) (c :: r) = true).
  { apply forallb_forall. intros x Hx. rewrite Forall_forall in H2. apply H2 in Hx as [_ Hx]. lia. }
  rewrite F. auto.
Qed.
Lemma comma_none : forall s, (match s with [] => True | c :: _ => not_comma c = true end) -> re_comma s = [].
Proof.
  intros [|c s] H; auto. unfold re_comma, re_alt. cbn [flat_map starts_with]. unfold not_comma in H. replace (44 =? c)%N with false by lia. auto.
Qed.
Lemma word_alt : forall w sym t, spelling w sym ->
  re_alt word_ops (w ++ t) = [(w, t)] /\ re_alt sym_ops (w ++ t) = [].
Proof.
  intros w sym t [[-> _]|[[-> _]|[[-> _]|[[-> _]|[[-> _]|[-> _]]]]]]; split; reflexivity.
Qed.
Lemma comma_some : forall t, re_comma (44%N :: t) = [([44%N], t)].
Proof. reflexivity. Qed.

Lemma range_word_one : forall w sym v, spelling w sym -> line_value v ->
  range_new (w ++ 44%N :: v) = Ok (mkrs w v None None).
Proof.
  intros w sym v Hw Hv. destruct (word_alt w sym (44%N :: v) Hw) as [W1 W2].
  unfold range_new, re_two, re_one, re_word_two, re_word_one. rewrite W1, W2. cbn [flat_map fst snd].
  rewrite comma_some. cbn [flat_map fst snd app].
  rewrite <- (app_nil_r v) at 1. rewrite plus_unique.
  - cbn [fst snd]. rewrite (comma_none []); auto. cbn [flat_map app]. rewrite line_rest by auto. reflexivity.
  - apply Hv.
  - destruct Hv as [_ Hv]. eapply Forall_impl; [|apply Hv]. intros c [Hc _]. unfold not_comma. lia.
  - auto.
  - intros t c r Hc. cbn [fst snd]. rewrite comma_none; auto.
Qed.

Lemma range_word_two : forall w sym v w2 sym2 v2, spelling w sym -> line_value v -> spelling w2 sym2 -> line_value v2 ->
  range_new (w ++ 44%N :: v ++ 44%N :: w2 ++ 44%N :: v2) = Ok (mkrs w v (Some w2) (Some v2)).
Proof.
  intros w sym v w2 sym2 v2 Hw Hv Hw2 Hv2.
  destruct (word_alt w sym (44%N :: v ++ 44%N :: w2 ++ 44%N :: v2) Hw) as [W1 W2].
  destruct (word_alt w2 sym2 (44%N :: v2) Hw2) as [W3 _].
  unfold range_new, re_two, re_one, re_word_two, re_word_one. rewrite W1, W2. cbn [flat_map fst snd].
  rewrite comma_some. cbn [flat_map fst snd app].
  rewrite plus_unique.
  - cbn [fst snd]. rewrite comma_some. cbn [flat_map fst snd app]. rewrite W3. cbn [flat_map fst snd app].
    rewrite comma_some. cbn [flat_map fst snd app]. rewrite line_rest by auto. reflexivity.
  - apply Hv.
  - destruct Hv as [_ Hv]. eapply Forall_impl; [|apply Hv]. intros c [Hc _]. unfold not_comma. lia.
  - reflexivity.
  - intros t c r Hc. cbn [fst snd]. rewrite comma_none; auto.
Qed.

(** Line checks with one key. *)
Definition whole_or_col (exp10 : Z -> f64) (k : linecomp) (line : textline) (v : bytes) (d : comparison) : Prop :=
  lc_rev k = false /\
  match lc_cmp k with
  | LWhole c => side_ok exp10 c.(cp_cmpr) (tl_text line) v /\ d = c_comp exp10 (cp_cmpr c) (tl_text line) v
  | LCol cols c => side_ok exp10 c.(cp_cmpr) (tl_get line (cols 0)) v /\ d = c_comp exp10 (cp_cmpr c) (tl_get line (cols 0)) v
  | LExpr _ _ => False
  end.

Lemma self_one : forall exp10 k line v d, whole_or_col exp10 k line v d ->
  ll_comp_self_cols exp10 [k] [v] line = CompOpp d.
Proof.
  intros exp10 k line v d [Hr H]. unfold ll_comp_self_cols. cbn [combine first_diff fst snd].
  unfold lc_comp_self_cols, lc_reverse. rewrite Hr. unfold l_comp_self_cols, cp_comp_self.
  destruct (lc_cmp k) as [c|cols c|]; [| |tauto]; destruct H as [[HL HA] ->];
    destruct (comp_self_comp (cp_cmpr c) exp10 _ _ HL) as [-> _]; rewrite HA, CompOpp_involutive;
    destruct (c_comp exp10 (cp_cmpr c) v _); auto.
Qed.

Theorem line_verbose_one : forall exp10 w sym v, spelling w sym -> line_value v ->
  exists ck, check_line_new (w ++ 44%N :: v) = Ok ck /\
    forall k line d, whole_or_col exp10 k line v d ->
      exists b, check_line_ok_verbose exp10 ck [k] line = Ok b /\ (b = true <-> relation_holds sym d).
Proof.
  intros exp10 w sym v Hw Hv. destruct (op_of_word w sym Hw) as [Hp Hsym].
  destruct (op_of_symbol sym Hsym) as (o & Ho & HR).
  exists (mkcl o v None None). split.
  - unfold check_line_new. rewrite (range_word_one w sym) by auto. cbn [rbind]. unfold check_set_with.
    cbn [rs_op1 rs_op2 rs_val1 rs_val2]. rewrite Hp, Ho. auto.
  - intros k line d Hk. eexists. split; [reflexivity|].
    unfold op_line_ok_verbose, op_line_ok. cbn [ck_op ck_val]. rewrite (self_one exp10 k line v d Hk).
    rewrite op_invert_opp, CompOpp_involutive. apply HR.
Qed.

(** The silent check answers the mirrored question. *)
Theorem line_silent_one : forall exp10 w sym v, spelling w sym -> line_value v ->
  exists ck, check_line_new (w ++ 44%N :: v) = Ok ck /\
    forall k line d, whole_or_col exp10 k line v d ->
      exists b, check_line_ok exp10 ck [k] line = Ok b /\ (b = true <-> relation_holds sym (CompOpp d)).
Proof.
  intros exp10 w sym v Hw Hv. destruct (op_of_word w sym Hw) as [Hp Hsym].
  destruct (op_of_symbol sym Hsym) as (o & Ho & HR).
  exists (mkcl o v None None). split.
  - unfold check_line_new. rewrite (range_word_one w sym) by auto. cbn [rbind]. unfold check_set_with.
    cbn [rs_op1 rs_op2 rs_val1 rs_val2]. rewrite Hp, Ho. auto.
  - intros k line d Hk. unfold check_line_ok, op_line_ok. cbn [ck_val ck_op ck_op2 ll_values length Nat.eqb rbind].
    rewrite (self_one exp10 k line v d Hk). destruct (ord_ok o (CompOpp d)) eqn:E; cbn.
    + exists true. split; auto. rewrite <- HR, E. tauto.
    + exists false. split; auto. rewrite <- HR, E. tauto.
Qed.

(** Both symbols <= and >= are cut after their first character. *)
Theorem range_le_cut : forall v, plain_value v ->
  range_new (le_sym ++ v) = Ok (mkrs lt_sym (61%N :: v) None None) /\
  range_new (ge_sym ++ v) = Ok (mkrs gt_sym (61%N :: v) None None).
Proof.
  intros v Hv. assert (Hl : symbol le_sym) by (unfold symbol; auto). assert (Hg : symbol ge_sym) by (unfold symbol; auto 6).
  assert (R : re_rest (61%N :: v) = [(61%N :: v, [])]).
  { destruct (plain_rest v Hv) as [R _]. destruct v as [|c r]; [destruct Hv; congruence|].
    unfold re_rest in *. cbn [forallb] in *. destruct (negb (c =? NL)%N && forallb _ r); [reflexivity|discriminate]. }
  unfold range_new. rewrite !two_none by auto. unfold re_one.
  destruct (sym_alt le_sym v Hl Hv) as [[_ [? _]]|[[_ ->]|[? _]]]; try congruence; [|discriminate].
  destruct (sym_alt ge_sym v Hg Hv) as [[_ [_ ?]]|[[? _]|[_ ->]]]; try congruence; [discriminate|].
  cbn [flat_map fst snd]. rewrite R. auto.
Qed.
Theorem range_sym_one : forall s v, symbol s -> plain_value v -> s <> le_sym -> s <> ge_sym ->
  range_new (s ++ v) = Ok (mkrs s v None None).
Proof. intros. unfold range_new. rewrite two_none, one_rest by auto. auto. Qed.
