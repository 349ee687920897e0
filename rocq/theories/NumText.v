(** Reading decimal text as a double. *)
From Coq Require Import List NArith ZArith Bool Arith Lia SpecFloat.
From Coq Require Import ZifyBool ZifyN ZifyNat.
Import ListNotations.
From Verif Require Import Base StrModel FloatModel FloatSpec FloatProofs FloatValid FloatInt
  CompModel CompSpec OrdProofs CompProofs NumProofs CacheProofs NumCache.
Close Scope Q_scope.
Close Scope Z_scope.

(** ** Specification *)
(** Optional sign, then what it does to a number. *)
Inductive sign := SNone | SPlus | SMinus.
Definition sign_text (s : sign) : bytes := match s with SNone => [] | SPlus => [43%N] | SMinus => [45%N] end.
Definition signed (s : sign) (z : Z) : Z := match s with SMinus => (- z)%Z | _ => z end.
(** Text that cannot continue a number: it starts with neither digit, point, letter nor is it an exponent. *)
Definition ends_number (rest : bytes) : Prop :=
  match rest with
  | [] => True
  | c :: _ => ~ (48 <= c <= 57)%N /\ c <> 46%N /\ ~ (65 <= c <= 90)%N /\ ~ (97 <= c <= 122)%N
  end.
(** The multiplier a letter stands for. *)
Definition magnitude (c : byte) (m : Z) : Prop :=
  In (c, m) [(75%N, 1024); (77%N, 1024 ^ 2); (71%N, 1024 ^ 3); (84%N, 1024 ^ 4); (80%N, 1024 ^ 5);
             (107%N, 1000); (109%N, 1000 ^ 2); (103%N, 1000 ^ 3); (116%N, 1000 ^ 4); (112%N, 1000 ^ 5)]%Z.

(** ** Proofs *)
Definition exp_stage (exp10 : Z -> f64) (ret : f64) (curr : bytes) : f64 * bytes :=
  if is_exp curr then
    match curr with
    | _ :: r =>
        let '(neg_exp, r) := match r with
                             | s :: r' => if (s =? 43)%N then (1, r')%Z
                                          else if (s =? 45)%N then (-1, r')%Z else (1, r)%Z
                             | [] => (1, r)%Z
                             end in
        let '(e, r) := f64_exp_loop r 0%Z in
        let e := wrapI32 (e * neg_exp) in
        ((if (e =? -2)%Z then fmul ret (f_ratio 1 100)
          else if (e =? -1)%Z then fmul ret (f_ratio 1 10)
          else if (e =? 0)%Z then ret
          else if (e =? 1)%Z then fmul ret (f_of_Z 10)
          else if (e =? 2)%Z then fmul ret (f_of_Z 100)
          else if (e =? 3)%Z then fmul ret (f_of_Z 1000)
          else fmul ret (exp10 e)), r)
    | [] => (ret, curr)
    end
  else (ret, curr).
Definition suffix_stage (ret : f64) (curr : bytes) : f64 * bytes :=
  match curr with
  | c :: r => match suffix_valf c with Some mul => (fmul ret mul, r) | None => (ret, curr) end
  | [] => (ret, curr)
  end.
Definition point_stage (ret : f64) (curr : bytes) : f64 * bytes :=
  match curr with
  | d :: r => if (d =? 46)%N then f64_frac_loop r ret (f_ratio 1 10) else (ret, curr)
  | [] => (ret, curr)
  end.
Definition sign_f (s : sign) : f64 := match s with SMinus => fneg f_one | _ => f_one end.

Lemma to_f64_stages : forall exp10 s ds rest, Forall digit_byte ds -> ds <> [] ->
  to_f64 exp10 (sign_text s ++ ds ++ rest) =
  let '(ret, curr) := f64_int_loop (ds ++ rest) f_zero in
  let '(ret, curr) := point_stage ret curr in
  let '(ret, curr) := exp_stage exp10 ret curr in
  let '(ret, curr) := suffix_stage ret curr in
  (fmul (sign_f s) ret, curr).
Proof.
  intros exp10 s ds rest H Hn. destruct s; cbn [sign_text app]; try reflexivity.
  destruct ds as [|c ds]; [congruence|]. inversion H as [|? ? Hc]; subst. unfold digit_byte in Hc.
  cbn [app]. unfold to_f64. replace (c =? 43)%N with false by lia. replace (c =? 45)%N with false by lia. reflexivity.
Qed.

Definition no_digit (rest : bytes) : Prop := match rest with [] => True | c :: _ => is_digit c = false end.

Lemma int_loop_app : forall ds rest x, Forall digit_byte ds -> no_digit rest ->
  f64_int_loop (ds ++ rest) x = (fst (f64_int_loop ds x), rest).
Proof.
  intros ds rest x H. revert x. induction H as [|c l Hc _ IH]; intros x Hr; cbn [app f64_int_loop].
  - destruct rest as [|c r]; auto. cbn in Hr. cbn [f64_int_loop]. rewrite Hr. auto.
  - apply digit_is in Hc. rewrite Hc. apply IH; auto.
Qed.

Lemma exp_loop_app : forall ds rest acc, Forall digit_byte ds -> no_digit rest -> (0 <= acc)%Z ->
  (dval_ ds acc < 2 ^ 31)%Z -> f64_exp_loop (ds ++ rest) acc = (dval_ ds acc, rest).
Proof.
  intros ds rest acc H. revert acc. induction H as [|c l Hc Hl IH]; intros acc Hr Ha Hb; cbn [app f64_exp_loop].
  - destruct rest as [|c r]; auto. cbn in Hr. cbn [f64_exp_loop]. rewrite Hr. auto.
  - pose proof (proj2 (digit_is c) Hc) as D. rewrite D.
    change (dval_ (c :: l) acc) with (dval_ l (acc * 10 + (Z.of_N c - 48))) in *. unfold digit_byte in Hc.
    pose proof (dval_ge l (acc * 10 + (Z.of_N c - 48)) Hl ltac:(lia)) as G.
    assert (W : wrapI32 (wrapI32 (acc * 10) + (Z.of_N c - 48)) = (acc * 10 + (Z.of_N c - 48))%Z).
    { unfold wrapI32. rewrite (Z.mod_small (acc * 10 + 2 ^ 31)) by lia. rewrite Z.mod_small by lia. lia. }
    rewrite W. apply IH; auto; lia.
Qed.

Lemma digits_val_is : forall l, Forall digit_byte l -> digits_val l = dval_ l 0.
Proof. intros. rewrite digits_val_dg, dg_digit_id; auto. Qed.

Lemma sign_holds : forall s x n, holds_int x n -> small n -> holds_int (fmul (sign_f s) x) (signed s n).
Proof.
  intros s x n H Hs. assert (One : holds_int f_one 1) by (apply holds_of_Z; reflexivity).
  destruct s; cbn [sign_f signed].
  - replace n with (1 * n)%Z by lia. apply holds_mul; auto. unfold small in *. lia.
  - replace n with (1 * n)%Z by lia. apply holds_mul; auto. unfold small in *. lia.
  - replace (- n)%Z with (-1 * n)%Z by lia. apply holds_mul; auto; [apply (holds_neg f_one 1); auto|]. unfold small in *. lia.
Qed.

Lemma suffix_none : forall c, ~ (48 <= c <= 57)%N -> ~ (65 <= c <= 90)%N -> ~ (97 <= c <= 122)%N -> suffix_valf c = None.
Proof.
  intros c H1 H2 H3. unfold suffix_valf, P2_LETTERS, P10_LETTERS, P2_VALUES_F, P10_VALUES_F. cbn [map find_letter_f].
  repeat match goal with |- context [(?k =? c)%N] => replace (k =? c)%N with false by lia end. reflexivity.
Qed.

Lemma ends_stages : forall exp10 x rest, ends_number rest ->
  no_digit rest /\ point_stage x rest = (x, rest) /\ exp_stage exp10 x rest = (x, rest) /\ suffix_stage x rest = (x, rest).
Proof.
  intros exp10 x [|c r] H; [repeat split|]. destruct H as (H1 & H2 & H3 & H4). split; [|split; [|split]].
  - cbn. unfold is_digit. lia.
  - cbn. replace (c =? 46)%N with false by lia. auto.
  - unfold exp_stage, is_exp. replace ((c =? 101) || (c =? 69))%N with false by lia. destruct r; auto.
  - unfold suffix_stage. rewrite suffix_none; auto.
Qed.

Theorem whole_read : forall exp10 s ds rest, Forall digit_byte ds -> ds <> [] -> (digits_val ds < 2 ^ 53)%Z ->
  ends_number rest ->
  holds_int (fst (to_f64 exp10 (sign_text s ++ ds ++ rest))) (signed s (digits_val ds)) /\
  snd (to_f64 exp10 (sign_text s ++ ds ++ rest)) = rest.
Proof.
  intros exp10 s ds rest H Hn Hv He. rewrite to_f64_stages, digits_val_is in * by auto.
  destruct (int_loop_holds ds 0 f_zero H holds_zero ltac:(lia) Hv) as [_ HL].
  destruct (ends_stages exp10 (fst (f64_int_loop ds f_zero)) rest He) as (E0 & E1 & E2 & E3).
  rewrite int_loop_app, E1, E2, E3 by auto. cbn [fst snd]. split; auto.
  apply sign_holds; auto. pose proof (dval_bound ds H). unfold small. lia.
Qed.

(** The exponent marker and a digit string after it. *)
Definition exp_text (c : byte) (s : sign) (es : bytes) : bytes := c :: sign_text s ++ es.

Definition exp_factor (exp10 : Z -> f64) (x : f64) (e : Z) : f64 :=
  if (e =? -2)%Z then fmul x (f_ratio 1 100)
  else if (e =? -1)%Z then fmul x (f_ratio 1 10)
  else if (e =? 0)%Z then x
  else if (e =? 1)%Z then fmul x (f_of_Z 10)
  else if (e =? 2)%Z then fmul x (f_of_Z 100)
  else if (e =? 3)%Z then fmul x (f_of_Z 1000)
  else fmul x (exp10 e).

Lemma exp_stage_is : forall exp10 x c s es rest, c = 101%N \/ c = 69%N -> Forall digit_byte es -> es <> [] ->
  (digits_val es < 2 ^ 31)%Z -> no_digit rest ->
  exp_stage exp10 x (exp_text c s es ++ rest) = (exp_factor exp10 x (signed s (digits_val es)), rest).
Proof.
  intros exp10 x c s es rest Hc He Hn Hv Hr. rewrite digits_val_is in * by auto.
  pose proof (dval_bound es He) as B.
  destruct es as [|e es]; [congruence|]. inversion He as [|? ? Hd Hl]; subst.
  pose proof (proj2 (digit_is e) Hd) as D. unfold digit_byte in Hd.
  assert (X : is_exp (exp_text c s (e :: es) ++ rest) = true).
  { unfold is_exp, exp_text. cbn [app]. replace ((c =? 101) || (c =? 69))%N with true by lia.
    destruct s; cbn [sign_text app].
    - rewrite D. reflexivity.
    - change (is_digit 43) with false. change ((43 =? 43) || (43 =? 45))%N with true. cbv iota. rewrite D. auto.
    - change (is_digit 45) with false. change ((45 =? 43) || (45 =? 45))%N with true. cbv iota. rewrite D. auto. }
  unfold exp_stage. rewrite X. unfold exp_text. cbn [app].
  assert (L : f64_exp_loop (e :: es ++ rest) 0 = (dval_ (e :: es) 0, rest)).
  { apply (exp_loop_app (e :: es)); auto; lia. }
  assert (W1 : wrapI32 (dval_ (e :: es) 0 * 1) = dval_ (e :: es) 0).
  { unfold wrapI32. rewrite Z.mod_small by lia. lia. }
  assert (W2 : wrapI32 (dval_ (e :: es) 0 * -1) = (- dval_ (e :: es) 0)%Z).
  { unfold wrapI32. rewrite Z.mod_small by lia. lia. }
  destruct s; cbn [sign_text app signed].
  - replace (e =? 43)%N with false by lia. replace (e =? 45)%N with false by lia. cbv iota. rewrite L. cbv zeta. rewrite W1. reflexivity.
  - change (43 =? 43)%N with true. cbv iota. rewrite L. cbv zeta. rewrite W1. reflexivity.
  - change (45 =? 43)%N with false. change (45 =? 45)%N with true. cbv iota. rewrite L. cbv zeta. rewrite W2. reflexivity.
Qed.

Lemma exp_text_start : forall c s es rest, c = 101%N \/ c = 69%N ->
  no_digit (exp_text c s es ++ rest) /\ forall x, point_stage x (exp_text c s es ++ rest) = (x, exp_text c s es ++ rest).
Proof. intros c s es rest [-> | ->]; split; intros; reflexivity. Qed.

Theorem exponent_read : forall exp10 s ds c se es rest, Forall digit_byte ds -> ds <> [] -> (digits_val ds < 2 ^ 53)%Z ->
  c = 101%N \/ c = 69%N -> Forall digit_byte es -> es <> [] -> (digits_val es < 2 ^ 31)%Z -> ends_number rest ->
  exists m, holds_int m (digits_val ds) /\
    to_f64 exp10 (sign_text s ++ ds ++ exp_text c se es ++ rest) =
    (fmul (sign_f s) (exp_factor exp10 m (signed se (digits_val es))), rest).
Proof.
  intros exp10 s ds c se es rest H Hn Hv Hc He Hne Hve Hr.
  destruct (exp_text_start c se es rest Hc) as [S1 S2].
  exists (fst (f64_int_loop ds f_zero)).
  rewrite to_f64_stages, int_loop_app, S2 by auto.
  destruct (ends_stages exp10 f_zero rest Hr) as (E0 & _ & _ & _).
  rewrite exp_stage_is by auto.
  destruct (ends_stages exp10 (exp_factor exp10 (fst (f64_int_loop ds f_zero)) (signed se (digits_val es))) rest Hr)
    as (_ & _ & _ & E3). rewrite E3. split; auto.
  rewrite digits_val_is in * by auto. apply (int_loop_holds ds 0 f_zero H holds_zero ltac:(lia) Hv).
Qed.

Theorem small_exponent_read : forall exp10 s ds c se es rest, Forall digit_byte ds -> ds <> [] ->
  c = 101%N \/ c = 69%N -> Forall digit_byte es -> es <> [] -> ends_number rest ->
  let e := signed se (digits_val es) in
  (0 <= e <= 3)%Z -> (digits_val ds * 10 ^ e < 2 ^ 53)%Z ->
  holds_int (fst (to_f64 exp10 (sign_text s ++ ds ++ exp_text c se es ++ rest))) (signed s (digits_val ds * 10 ^ e)).
Proof.
  intros exp10 s ds c se es rest H Hn Hc He Hne Hr e Hs Hv.
  pose proof (dval_bound ds H) as B. rewrite <- digits_val_is in B by auto.
  pose proof (dval_bound es He) as Be. rewrite <- digits_val_is in Be by auto.
  assert (P : (1 <= 10 ^ e)%Z) by (change 1%Z with (10 ^ 0)%Z; apply Z.pow_le_mono_r; lia).
  assert (V : (digits_val ds < 2 ^ 53)%Z) by nia.
  assert (Ve : (digits_val es < 2 ^ 31)%Z) by (destruct se; cbn [signed] in e; lia).
  destruct (exponent_read exp10 s ds c se es rest H Hn V Hc He Hne Ve Hr) as (m & Hm & E).
  rewrite E. fold e. cbn [fst]. apply sign_holds; [|unfold small; nia].
  assert (K : forall k, (k = 10 \/ k = 100 \/ k = 1000)%Z -> (digits_val ds * k < 2 ^ 53)%Z ->
    holds_int (fmul m (f_of_Z k)) (digits_val ds * k)).
  { intros k Hk Hx. apply holds_mul; auto; [apply holds_of_Z; unfold small; lia|unfold small; lia]. }
  unfold exp_factor.
  assert (Cs : (e = 0 \/ e = 1 \/ e = 2 \/ e = 3)%Z) by lia. clearbody e.
  destruct Cs as [-> | [-> | [-> | ->]]]; cbn [Z.eqb Pos.eqb].
  - replace (digits_val ds * 10 ^ 0)%Z with (digits_val ds) by (cbn; lia). auto.
  - apply K; auto.
  - apply (K 100%Z); auto.
  - apply (K 1000%Z); auto.
Qed.

Theorem magnitude_read : forall exp10 s ds c m rest, Forall digit_byte ds -> ds <> [] -> magnitude c m ->
  (digits_val ds * m < 2 ^ 53)%Z ->
  holds_int (fst (to_f64 exp10 (sign_text s ++ ds ++ c :: rest))) (signed s (digits_val ds * m)) /\
  snd (to_f64 exp10 (sign_text s ++ ds ++ c :: rest)) = rest.
Proof.
  intros exp10 s ds c m rest H Hn Hm Hv.
  pose proof (dval_bound ds H) as B. rewrite <- digits_val_is in B by auto.
  rewrite to_f64_stages by auto.
  assert (C : no_digit (c :: rest) /\ (c =? 46)%N = false /\ is_exp (c :: rest) = false /\
    (suffix_valf c = Some (f_of_Z m) /\ (1 <= m < 2 ^ 53)%Z)).
  { cbn [magnitude In] in Hm.
    repeat (destruct Hm as [Hm|Hm]; [injection Hm as <- <-; split; [reflexivity|split; [reflexivity|split;
      [destruct rest; reflexivity|split; [reflexivity|cbn; lia]]]]|]). contradiction. }
  destruct C as (C1 & C2 & C3 & C4 & C5).
  assert (V : (digits_val ds < 2 ^ 53)%Z) by nia.
  rewrite int_loop_app by auto. unfold point_stage. rewrite C2. unfold exp_stage. rewrite C3. unfold suffix_stage. rewrite C4.
  cbn [fst snd]. split; auto.
  rewrite digits_val_is in * by auto.
  destruct (int_loop_holds ds 0 f_zero H holds_zero ltac:(lia) V) as [_ HL].
  apply sign_holds; [|unfold small; nia].
  apply holds_mul; auto; [apply holds_of_Z; unfold small; lia|unfold small; nia].
Qed.
