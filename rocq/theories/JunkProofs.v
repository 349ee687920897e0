(** Proofs about the form of numbers. *)
From Coq Require Import List NArith ZArith Bool Arith Lia SpecFloat.
Import ListNotations.
From Verif Require Import Base StrModel StrProofs FloatModel CompSpec NumProofs NumCache NumText DecSpec JunkModel JunkSpec.
Close Scope Z_scope. Open Scope nat_scope.

Lemma digit_iff : forall c, is_digit c = true <-> digit_byte c.
Proof. intros c. unfold is_digit, digit_byte. lia. Qed.
Lemma not_digit : forall c, is_digit c = false -> ~ digit_byte c.
Proof. intros c H D. apply digit_iff in D. congruence. Qed.
Lemma span_digits : forall l, exists ds r, l = ds ++ r /\ Forall digit_byte ds /\ nodigit r.
Proof.
  induction l as [|c l (ds & r & -> & D & N)]; [exists [], []; repeat split; constructor|].
  destruct (is_digit c) eqn:E.
  - exists (c :: ds), r. split; [reflexivity|]. split; auto. constructor; auto. apply digit_iff. auto.
  - exists [], (c :: ds ++ r). split; [reflexivity|]. split; [constructor|exact E].
Qed.
(** Of two splits after digits, the one that stops at no digit is the longer. *)
Lemma digits_longer : forall ds x ds' y, ds ++ x = ds' ++ y -> Forall digit_byte ds' -> nodigit x -> exists e, ds = ds' ++ e /\ y = e ++ x.
Proof.
  intros ds x ds'. revert ds. induction ds' as [|c ds' IH]; intros ds y E D N; [exists ds; auto|].
  inversion D as [|? ? Dc D']; subst. destruct ds as [|b ds].
  - cbn in E. subst x. cbn in N. apply digit_iff in Dc. congruence.
  - cbn in E. injection E as -> E. destruct (IH ds y E D' N) as (e & -> & ->). exists e. auto.
Qed.

Definition unit_part (u : option byte) : bytes := match u with Some c => [c] | None => [] end.
Definition unit_fine (u : option byte) : Prop := match u with Some c => unit_letter c | None => True end.
Definition no_unit (r : bytes) : Prop := match r with c :: _ => ~ unit_letter c | [] => True end.
Lemma unit_cases : forall c, unit_letter c -> In c [75; 77; 71; 84; 80; 69; 90; 89; 107; 109; 103; 116; 112; 101; 122; 121]%N.
Proof.
  intros c H. unfold unit_letter, unit_of in H. destruct (find (fun p => (fst p =? c)%N) units) as [[b m]|] eqn:E; [|elim H; reflexivity].
  apply find_some in E. destruct E as [I E]. apply N.eqb_eq in E. cbn [fst] in E. subst b. apply (in_map fst) in I. exact I.
Qed.
Lemma unit_no_digit : forall c, unit_letter c -> is_digit c = false.
Proof. intros c H. apply unit_cases in H. cbn [In] in H. repeat (destruct H as [<- |H]; [reflexivity|]). elim H. Qed.
Lemma unit_dec : forall c, {unit_letter c} + {~ unit_letter c}.
Proof. intros c. unfold unit_letter. destruct (unit_of c); [left; discriminate|right; intros H; apply H; reflexivity]. Qed.
Lemma valu_letter : forall c, is_digit c = false -> (suffix_valu c <> None <-> unit_letter c).
Proof.
  intros c D. split.
  - unfold suffix_valu, find_letter, P2_LETTERS, P10_LETTERS, P2_VALUES_U, P10_VALUES_U, unit_letter, unit_of, units. cbn [find fst].
    unfold is_digit in D. replace (48 =? c)%N with false by lia.
    repeat (match goal with |- context [(?k =? c)%N] => destruct (k =? c)%N; [intros _; discriminate|] end). intros K. elim K. reflexivity.
  - intros H. apply unit_cases in H. cbn [In] in H. repeat (destruct H as [<- |H]; [discriminate|]). elim H.
Qed.
Lemma valf_letter : forall c, is_digit c = false -> (suffix_valf c <> None <-> unit_letter c).
Proof.
  intros c D. split.
  - unfold suffix_valf, find_letter_f, P2_LETTERS, P10_LETTERS, P2_VALUES_F, P10_VALUES_F, unit_letter, unit_of, units. cbn [map find fst].
    unfold is_digit in D. replace (48 =? c)%N with false by lia.
    repeat (match goal with |- context [(?k =? c)%N] => destruct (k =? c)%N; [intros _; discriminate|] end). intros K. elim K. reflexivity.
  - intros H. apply unit_cases in H. cbn [In] in H. repeat (destruct H as [<- |H]; [discriminate|]). elim H.
Qed.
(** After the digits: a letter, or none where none stands. *)
Lemma unit_split : forall x, exists u r, x = unit_part u ++ r /\ unit_fine u /\ (u = None -> no_unit r).
Proof.
  intros [|c x]; [exists None, []; repeat split|]. destruct (unit_dec c) as [H|H].
  - exists (Some c), x. repeat split; auto. discriminate.
  - exists None, (c :: x). repeat split; auto.
Qed.

(** ** Whole numbers *)
Definition dstep (a : Z) (c : byte) : Z := (a * 10 + (Z.of_N c - 48))%Z.
Lemma digits_val_fold : forall ds, Forall digit_byte ds -> digits_val ds = fold_left dstep ds 0%Z.
Proof.
  intros ds. unfold digits_val. generalize 0%Z. induction ds as [|c ds IH]; intros a D; [reflexivity|]. inversion D as [|? ? Dc D']; subst. cbn [fold_left].
  unfold digit_byte in Dc. replace (c =? 44)%N with false by lia. apply IH. auto.
Qed.
Lemma usize_loop_run : forall ds r a, Forall digit_byte ds -> nodigit r -> (0 <= a)%Z ->
  usize_loop (ds ++ r) (wrapU (Z.to_N a)) = (wrapU (Z.to_N (fold_left dstep ds a)), r) /\ (0 <= fold_left dstep ds a)%Z.
Proof.
  induction ds as [|c ds IH]; intros r a D N A; [split; [apply usize_loop_nodigit; auto|auto]|]. inversion D as [|? ? Dc D']; subst. cbn [app usize_loop fold_left].
  pose proof (proj2 (digit_iff c) Dc) as E. rewrite E, wrapU_step. unfold digit_byte in Dc.
  replace (Z.to_N a * 10 + (c - 48))%N with (Z.to_N (dstep a c)) by (unfold dstep; lia). apply IH; auto. unfold dstep. lia.
Qed.
Lemma isize_loop_run : forall ds r a, Forall digit_byte ds -> nodigit r -> isize_loop (ds ++ r) (wrapI a) = (wrapI (fold_left dstep ds a), r).
Proof.
  induction ds as [|c ds IH]; intros r a D N; [apply isize_loop_nodigit; auto|]. inversion D as [|? ? Dc D']; subst. cbn [app isize_loop fold_left].
  pose proof (proj2 (digit_iff c) Dc) as E. rewrite E, wrapI_step. unfold digit_byte in Dc.
  replace (a * 10 + Z.of_N (c - 48))%Z with (dstep a c) by (unfold dstep; lia). apply IH; auto.
Qed.

Lemma whole_parts : forall s ds u, whole_text (mkwhole s ds u) = sign_text s ++ ds ++ unit_part u.
Proof. intros. unfold whole_text. cbn [w_sign w_digits w_unit]. destruct u; reflexivity. Qed.
(** The greedy reading of a whole number is the longest. *)
Lemma whole_longest : forall (ok : whole -> Prop) s ds u rest, whole_ok (mkwhole s ds u) -> ok (mkwhole s ds u) -> nodigit (unit_part u ++ rest) -> (u = None -> no_unit rest) ->
  longest (fun w => whole_ok w /\ ok w) whole_text (whole_text (mkwhole s ds u) ++ rest) (mkwhole s ds u) rest.
Proof.
  intros ok s ds u rest W O N NU. split; [reflexivity|]. split; [split; auto|]. intros [s' ds' u'] r E [W' O']. rewrite !whole_parts in *.
  destruct W as (D & Dn & U), W' as (D' & Dn' & U'). cbn [w_digits w_unit] in *.
  destruct ds as [|c ds]; [congruence|]. destruct ds' as [|c' ds']; [congruence|].
  pose proof (Forall_inv D) as Dc. pose proof (Forall_inv D') as Dc'. cbv beta in Dc, Dc'. unfold digit_byte in Dc, Dc'.
  assert (S : s = s' /\ (c :: ds) ++ unit_part u ++ rest = (c' :: ds') ++ unit_part u' ++ r).
  { rewrite <- !app_assoc in E. destruct s, s'; cbn [sign_text app] in E; try (injection E; intros; subst; exfalso; lia); split; auto; injection E; intros; cbn [app]; congruence. }
  destruct S as [<- S]. destruct (digits_longer _ _ _ _ S D' N) as (e & Ee & Ey). rewrite !app_length.
  assert (L : length (unit_part u') <= 1) by (destruct u'; cbn; lia).
  apply (f_equal (@length byte)) in Ee as Le. rewrite app_length in Le.
  destruct e as [|b e]; [|cbn [length] in *; lia].
  cbn [app] in Ey. cbn [length] in Le |- *. destruct u as [b|]; [cbn [unit_part length]; lia|]. destruct u' as [b|]; [|cbn; lia]. cbn [unit_part app] in Ey. specialize (NU eq_refl).
  rewrite <- Ey in NU. cbn in NU. elim NU. exact U'.
Qed.
(** Every text begins with a whole number or does not. *)
Lemma sign_split : forall l, exists s r, l = sign_text s ++ r /\ (s = SNone -> match r with c :: _ => c <> 43%N /\ c <> 45%N | [] => True end).
Proof.
  intros [|c l]; [exists SNone, []; auto|]. destruct (N.eq_dec c 43) as [-> |H1]; [exists SPlus, l; split; [reflexivity|discriminate]|].
  destruct (N.eq_dec c 45) as [-> |H2]; [exists SMinus, l; split; [reflexivity|discriminate]|]. exists SNone, (c :: l). auto.
Qed.
Lemma no_whole : forall (ok : whole -> Prop) s r, (forall w, ok w -> w_sign w = SMinus -> s = SMinus -> nodigit r) -> (s <> SMinus -> nodigit r) ->
  (s = SNone -> match r with c :: _ => c <> 43%N /\ c <> 45%N | [] => True end) -> no_start (fun w => whole_ok w /\ ok w) whole_text (sign_text s ++ r).
Proof.
  intros ok s r N1 N2 H [s' ds u] x E [(D & Dn & _) O]. rewrite whole_parts in E. cbn [w_digits] in *. destruct ds as [|c ds]; [congruence|].
  pose proof (Forall_inv D) as Dc. cbv beta in Dc. pose proof Dc as Dd. apply digit_iff in Dd. unfold digit_byte in Dc. rewrite <- !app_assoc in E.
  destruct s, s'; cbn [sign_text app] in E.
  - specialize (N2 ltac:(discriminate)). subst r. cbn in N2. congruence.
  - subst r. destruct (H eq_refl). congruence.
  - subst r. destruct (H eq_refl). congruence.
  - injection E. intros. lia.
  - injection E as E. specialize (N2 ltac:(discriminate)). subst r. cbn in N2. congruence.
  - discriminate.
  - injection E. intros. lia.
  - discriminate.
  - injection E as E. specialize (N1 _ O eq_refl eq_refl). subst r. cbn in N1. congruence.
Qed.

Lemma unit_head : forall u rest, unit_fine u -> nodigit rest -> nodigit (unit_part u ++ rest).
Proof. intros [c|] rest U N; cbn; auto. apply unit_no_digit. auto. Qed.
Lemma unit_nodigit : forall u rest, unit_fine u -> nodigit (unit_part u ++ rest) -> u = None -> nodigit rest.
Proof. intros u rest _ N ->. exact N. Qed.

(** ** to_usize *)
Lemma usize_sign : forall s r, s <> SMinus -> (s = SNone -> match r with c :: _ => c <> 43%N /\ c <> 45%N | [] => True end) ->
  match sign_text s ++ r with c :: r' => if (c =? 43)%N then r' else sign_text s ++ r | [] => sign_text s ++ r end = r.
Proof.
  intros [| |] r S H; cbn [sign_text app]; [|reflexivity|congruence]. destruct r as [|c r]; auto. destruct (H eq_refl) as [H1 _]. replace (c =? 43)%N with false by lia. auto.
Qed.
Lemma usize_read : forall l,
  (exists w rest, longest (fun w => whole_ok w /\ unsigned w) whole_text l w rest /\ snd (to_usize l) = rest /\
    forall m, plain_unit (w_unit w) m -> fst (to_usize l) = (Z.to_N (digits_val (w_digits w) * m) mod 2 ^ 64)%N) \/
  (no_start (fun w => whole_ok w /\ unsigned w) whole_text l /\ to_usize l = (0%N, l)).
Proof.
  intros l. destruct (sign_split l) as (s & r & -> & H). destruct (span_digits r) as (ds & x & -> & D & N).
  assert (M : s = SMinus \/ s <> SMinus) by (destruct s; auto; right; discriminate). destruct M as [-> |M].
  { right. split; [|reflexivity]. apply no_whole; [|congruence|discriminate]. intros w O W _. elim O. auto. }
  destruct ds as [|c ds].
  { right. cbn [app] in *. split; [apply no_whole; auto; congruence|]. unfold to_usize. rewrite usize_sign by auto. destruct x as [|b x]; auto. cbn in N. rewrite N. reflexivity. }
  left. destruct (unit_split x) as (u & rest & -> & U & NU).
  assert (W : whole_ok (mkwhole s (c :: ds) u)) by (split; [exact D|]; split; [discriminate|destruct u; auto]).
  exists (mkwhole s (c :: ds) u), rest. split; [|].
  { pose proof (whole_longest unsigned s (c :: ds) u rest W M N NU) as L. rewrite whole_parts, <- !app_assoc in L. exact L. }
  cbn [w_digits w_unit]. pose proof (proj2 (digit_iff c) (Forall_inv D)) as Dc. unfold to_usize. rewrite usize_sign by auto.
  destruct (usize_loop_run (c :: ds) (unit_part u ++ rest) 0 D N ltac:(lia)) as [R P]. change (wrapU (Z.to_N 0)) with 0%N in R.
  rewrite <- digits_val_fold in R, P by auto. cbn [app] in R |- *. rewrite Dc, R. destruct u as [b|]; cbn [unit_part app] in *.
  - pose proof (unit_no_digit b U) as B. apply valu_letter in U; auto. destruct (suffix_valu b) as [m|] eqn:E; [|congruence]. split; [reflexivity|].
    intros k [[Hk _]|[[Hk ->]|[Hk ->]]]; [discriminate| |]; injection Hk as ->; injection E as <-; cbn [fst]; unfold wrapU; rewrite N.mul_mod_idemp_l by discriminate; f_equal; lia.
  - assert (E : match rest with c' :: rest' => match suffix_valu c' with Some mul => (wrapU (wrapU (Z.to_N (digits_val (c :: ds))) * mul), rest') | None => (wrapU (Z.to_N (digits_val (c :: ds))), rest) end | [] => (wrapU (Z.to_N (digits_val (c :: ds))), []) end = (wrapU (Z.to_N (digits_val (c :: ds))), rest)).
    { destruct rest as [|b rest]; auto. specialize (NU eq_refl). cbn in NU, N. destruct (suffix_valu b) eqn:E; auto. elim NU. apply valu_letter; auto. congruence. }
    rewrite E. split; [reflexivity|]. intros k [[_ ->]|[[Hk _]|[Hk _]]]; try discriminate. cbn [fst]. unfold wrapU. f_equal. lia.
Qed.
(** ** to_isize *)
Lemma isize_sign : forall s r, (s = SNone -> match r with c :: _ => c <> 43%N /\ c <> 45%N | [] => True end) ->
  match sign_text s ++ r with
  | c :: r' => if (c =? 43)%N then (1%Z, r') else if (c =? 45)%N then ((-1)%Z, r') else (1%Z, sign_text s ++ r)
  | [] => (1%Z, sign_text s ++ r) end = (match s with SMinus => (-1)%Z | _ => 1%Z end, r).
Proof.
  intros [| |] r H; cbn [sign_text app]; try reflexivity. destruct r as [|c r]; auto. destruct (H eq_refl) as [H1 H2]. replace (c =? 43)%N with false by lia. replace (c =? 45)%N with false by lia. auto.
Qed.
Lemma wrapI_range : forall z, (- 2 ^ 63 <= wrapI z < 2 ^ 63)%Z.
Proof. intros z. unfold wrapI. pose proof (Z.mod_pos_bound (z + 2 ^ 63) (2 ^ 64) ltac:(lia)). lia. Qed.
Lemma isize_read : forall l,
  (exists w rest, longest (fun w => whole_ok w /\ True) whole_text l w rest /\ snd (to_isize l) = rest /\
    forall m, plain_unit (w_unit w) m -> fst (to_isize l) = wrapI (signed (w_sign w) (digits_val (w_digits w) * m))) \/
  (no_start (fun w => whole_ok w /\ True) whole_text l /\ to_isize l = (0%Z, l)).
Proof.
  intros l. destruct (sign_split l) as (s & r & -> & H). destruct (span_digits r) as (ds & x & -> & D & N).
  destruct ds as [|c ds].
  { right. cbn [app] in *. split; [apply no_whole; auto|]. unfold to_isize. rewrite isize_sign by auto. destruct x as [|b x]; auto. cbn in N. rewrite N. reflexivity. }
  left. destruct (unit_split x) as (u & rest & -> & U & NU).
  assert (W : whole_ok (mkwhole s (c :: ds) u)) by (split; [exact D|]; split; [discriminate|destruct u; auto]).
  exists (mkwhole s (c :: ds) u), rest. split; [|].
  { pose proof (whole_longest (fun _ => True) s (c :: ds) u rest W I N NU) as L. rewrite whole_parts, <- !app_assoc in L. exact L. }
  cbn [w_digits w_unit w_sign]. pose proof (proj2 (digit_iff c) (Forall_inv D)) as Dc. unfold to_isize. rewrite isize_sign by auto.
  pose proof (isize_loop_run (c :: ds) (unit_part u ++ rest) 0 D N) as R. change (wrapI 0) with 0%Z in R.
  rewrite <- digits_val_fold in R by auto. set (v := digits_val (c :: ds)) in *. cbn [app] in R |- *. rewrite Dc, R. destruct u as [b|]; cbn [unit_part app] in *.
  - pose proof (unit_no_digit b U) as B. apply valu_letter in U; auto. destruct (suffix_valu b) as [m|] eqn:E; [|congruence]. split; [reflexivity|].
    intros k [[Hk _]|[[Hk ->]|[Hk ->]]]; [discriminate| |]; injection Hk as ->; injection E as <-; cbn [fst];
    (match goal with |- context [wrapI (Z.of_N ?k)] => change (wrapI (Z.of_N k)) with (Z.of_N k) end);
    destruct (wrapI_spec v) as [k1 E1];
    match goal with |- wrapI (wrapI ?a * _) = _ => destruct (wrapI_spec a) as [k2 E2]; rewrite E2, E1 end;
    (destruct s; cbn [signed]; [apply (wrapI_congr _ _ (k2 + k1 * 1024))|apply (wrapI_congr _ _ (k2 + k1 * 1024))|apply (wrapI_congr _ _ (- k2 - k1 * 1024))]; lia) ||
    (destruct s; cbn [signed]; [apply (wrapI_congr _ _ (k2 + k1 * 1000))|apply (wrapI_congr _ _ (k2 + k1 * 1000))|apply (wrapI_congr _ _ (- k2 - k1 * 1000))]; lia).
  - assert (E : match rest with c' :: rest' => match suffix_valu c' with Some mul => (wrapI (wrapI v * wrapI (Z.of_N mul)), rest') | None => (wrapI v, rest) end | [] => (wrapI v, []) end = (wrapI v, rest)).
    { destruct rest as [|b rest]; auto. specialize (NU eq_refl). cbn in NU, N. destruct (suffix_valu b) eqn:E; auto. elim NU. apply valu_letter; auto. congruence. }
    rewrite E. split; [reflexivity|]. intros k [[_ ->]|[[Hk _]|[Hk _]]]; try discriminate. cbn [fst]. destruct (wrapI_spec v) as [k1 E1]. rewrite E1.
    destruct s; cbn [signed]; [apply (wrapI_congr _ _ k1)|apply (wrapI_congr _ _ k1)|apply (wrapI_congr _ _ (- k1))]; lia.
Qed.

(** ** to_f64 *)
Definition ftext (f : option bytes) : bytes := match f with Some fs => 46%N :: fs | None => [] end.
Definition etext (e : option (byte * sign * bytes)) : bytes := match e with Some (c, s, es) => c :: sign_text s ++ es | None => [] end.
Definition efine (e : option (byte * sign * bytes)) : Prop := match e with Some (c, s, es) => (c = 101%N \/ c = 69%N) /\ Forall digit_byte es /\ es <> [] | None => True end.
Definition ffine (f : option bytes) : Prop := match f with Some fs => Forall digit_byte fs | None => True end.
Lemma dec_parts : forall s i f e u, dec_text (mkdec s i f e u) = sign_text s ++ i ++ ftext f ++ etext e ++ unit_part u.
Proof. intros. unfold dec_text, frac_text, exp_part, unit_text. cbn [d_sign d_int d_frac d_exp d_unit]. destruct f, e as [[[? ?] ?]|], u; reflexivity. Qed.
Lemma float_fine : forall s i f e u, float_ok (mkdec s i f e u) <-> Forall digit_byte i /\ ffine f /\ efine e /\ unit_fine u.
Proof.
  intros. unfold float_ok, frac_digits. cbn [d_sign d_int d_frac d_exp d_unit]. destruct f, e as [[[? ?] ?]|], u; cbn [ffine efine unit_fine]; intuition auto; constructor.
Qed.
Lemma tail_digit : forall e u r b t, efine e -> unit_fine u -> etext e ++ unit_part u ++ r = b :: t -> is_digit b = true -> length (etext e) + length (unit_part u) = 0.
Proof.
  intros [[[c s] es]|] u r b t E U Q B; cbn [etext app] in Q.
  - injection Q as -> _. destruct E as ([-> | ->] & _); discriminate.
  - destruct u as [c|]; auto. cbn in Q. injection Q as -> _. cbn in U. apply unit_no_digit in U. congruence.
Qed.
Lemma tail_sign : forall f e u r b t, efine e -> unit_fine u -> ftext f ++ etext e ++ unit_part u ++ r = b :: t -> b = 43%N \/ b = 45%N -> length (ftext f) + (length (etext e) + length (unit_part u)) = 0.
Proof.
  intros [fs|] e u r b t E U Q B; [cbn in Q; injection Q as Q _; lia|]. cbn [ftext app length] in *. destruct e as [[[c s] es]|]; cbn [etext app] in Q.
  - injection Q as -> _. destruct E as (E & _). lia.
  - destruct u as [c|]; auto. cbn in Q. injection Q as -> _. cbn in U. apply unit_cases in U. cbn [In] in U. lia.
Qed.
Lemma unit_longest : forall u rest u' r, unit_fine u' -> (u = None -> no_unit rest) -> unit_part u ++ rest = unit_part u' ++ r -> length (unit_part u') <= length (unit_part u).
Proof. intros [c|] rest [c'|] r U N E; cbn; try lia. cbn in E. specialize (N eq_refl). rewrite E in N. cbn in N. elim N. exact U. Qed.
Lemma exp_split : forall y, exists e z, y = etext e ++ z /\ efine e /\ (e <> None -> nodigit z) /\ (e = None -> is_exp y = false) /\ (e <> None -> is_exp y = true).
Proof.
  intros y. destruct (is_exp y) eqn:X.
  - unfold is_exp in X. destruct y as [|c [|d y]]; try discriminate. destruct ((c =? 101) || (c =? 69))%N eqn:C; [|discriminate].
    assert (K : exists s r, d :: y = sign_text s ++ r /\ match r with b :: _ => is_digit b = true | [] => False end).
    { destruct (is_digit d) eqn:D; [exists SNone, (d :: y); split; [reflexivity|exact D]|]. destruct ((d =? 43) || (d =? 45))%N eqn:G; [|discriminate].
      destruct y as [|b y]; [discriminate|]. apply orb_true_iff in G. destruct G as [G|G]; apply N.eqb_eq in G; subst d; [exists SPlus, (b :: y)|exists SMinus, (b :: y)]; auto. }
    destruct K as (s & r & K & R). destruct (span_digits r) as (es & z & -> & E & Z). exists (Some (c, s, es)), z. cbn [etext efine]. rewrite K. cbn [app]. rewrite <- app_assoc.
    split; [reflexivity|]. split; [|split; [auto|split; [discriminate|auto]]]. split; [lia|]. split; [auto|]. intros ->. cbn [app] in R. destruct z as [|b z]; auto. cbn in Z. congruence.
  - exists None, y. split; [reflexivity|]. split; [exact I|]. split; [congruence|]. split; [auto|congruence].
Qed.
Lemma etext_exp : forall c s es r, efine (Some (c, s, es)) -> is_exp (etext (Some (c, s, es)) ++ r) = true.
Proof.
  intros c s [|b es] r (C & E & N); [congruence|]. pose proof (proj2 (digit_iff b) (Forall_inv E)) as B. unfold is_exp. cbn [etext app].
  replace ((c =? 101) || (c =? 69))%N with true by lia. destruct s; cbn [sign_text app]; [rewrite B; reflexivity|exact B|exact B].
Qed.
Lemma exp_longest : forall e u rest e' u' r, efine e -> efine e' -> unit_fine u' -> (e <> None -> nodigit (unit_part u ++ rest)) -> (e = None -> is_exp (unit_part u ++ rest) = false) ->
  (u = None -> no_unit rest) -> etext e ++ unit_part u ++ rest = etext e' ++ unit_part u' ++ r ->
  length (etext e') + length (unit_part u') <= length (etext e) + length (unit_part u).
Proof.
  intros e u rest e' u' r E E' U' N X NU Q. assert (L : length (unit_part u') <= 1) by (destruct u'; cbn; lia).
  destruct e as [[[c s] es]|]; destruct e' as [[[c' s'] es']|].
  - cbn [etext app] in Q. rewrite <- !app_assoc in Q. injection Q as _ Q. destruct E as (_ & E & En), E' as (_ & E' & En'). specialize (N ltac:(discriminate)).
    destruct es as [|b es]; [congruence|]. destruct es' as [|b' es']; [congruence|]. pose proof (Forall_inv E) as Eb. pose proof (Forall_inv E') as Eb'. cbv beta in Eb, Eb'. unfold digit_byte in Eb, Eb'.
    assert (S : s = s' /\ (b :: es) ++ unit_part u ++ rest = (b' :: es') ++ unit_part u' ++ r).
    { destruct s, s'; cbn [sign_text app] in Q; try (injection Q; intros; subst; exfalso; lia); split; auto; injection Q; intros; cbn [app]; congruence. }
    destruct S as [<- S]. destruct (digits_longer _ _ _ _ S E' N) as (k & K & Y). apply (f_equal (@length byte)) in K. rewrite app_length in K.
    cbn [etext length]. rewrite !app_length. destruct k as [|d k].
    + pose proof (unit_longest u rest u' r U' NU ltac:(cbn in Y; auto)). cbn [length] in *. lia.
    + cbn [length] in *. lia.
  - destruct E as (_ & _ & En). destruct es as [|b es]; [congruence|]. cbn [etext length]. rewrite app_length. cbn [length]. lia.
  - pose proof (etext_exp c' s' es' (unit_part u' ++ r) E') as T. rewrite <- Q in T. cbn [etext app] in T. rewrite X in T by auto. discriminate.
  - cbn [etext app length] in *. apply (unit_longest u rest u' r); auto.
Qed.
Lemma frac_longest : forall f e u rest f' e' u' r, ffine f -> ffine f' -> efine e -> efine e' -> unit_fine u' -> (e <> None -> nodigit (unit_part u ++ rest)) -> (e = None -> is_exp (unit_part u ++ rest) = false) ->
  (u = None -> no_unit rest) -> (f <> None -> nodigit (etext e ++ unit_part u ++ rest)) -> (f = None -> match etext e ++ unit_part u ++ rest with c :: _ => c <> 46%N | [] => True end) ->
  ftext f ++ etext e ++ unit_part u ++ rest = ftext f' ++ etext e' ++ unit_part u' ++ r ->
  length (ftext f') + (length (etext e') + length (unit_part u')) <= length (ftext f) + (length (etext e) + length (unit_part u)).
Proof.
  intros f e u rest f' e' u' r F F' E E' U' N X NU ND P Q. destruct f as [fs|], f' as [fs'|]; cbn [ftext app length] in *.
  - injection Q as Q. destruct (digits_longer _ _ _ _ Q F' (ND ltac:(discriminate))) as (k & K & Y). pose proof K as K0. apply (f_equal (@length byte)) in K. rewrite app_length in K. destruct k as [|d k].
    + cbn [app] in Y. pose proof (exp_longest e u rest e' u' r E E' U' N X NU (eq_sym Y)). cbn [length] in *. lia.
    + assert (D : is_digit d = true). { apply digit_iff. subst fs. cbn [ffine] in F. rewrite Forall_app in F. destruct F as [_ F]. exact (Forall_inv F). }
      pose proof (tail_digit e' u' r d (k ++ etext e ++ unit_part u ++ rest) E' U' Y D). cbn [length] in *. lia.
  - symmetry in Q. destruct e' as [[[c s] es]|]; cbn [etext app] in Q; [injection Q as -> _; destruct E' as (E' & _); lia|]. cbn [etext length].
    destruct u' as [c|]; [|cbn; lia]. cbn in Q. injection Q as -> _. cbn in U'. apply unit_cases in U'. cbn [In] in U'. lia.
  - specialize (P eq_refl). rewrite Q in P. congruence.
  - apply (exp_longest e u rest e' u' r); auto.
Qed.
Lemma dec_longest : forall s i f e u rest, Forall digit_byte i -> ffine f -> efine e -> unit_fine u ->
  (s = SNone -> match i ++ ftext f ++ etext e ++ unit_part u ++ rest with c :: _ => c <> 43%N /\ c <> 45%N | [] => True end) ->
  nodigit (ftext f ++ etext e ++ unit_part u ++ rest) ->
  (e <> None -> nodigit (unit_part u ++ rest)) -> (e = None -> is_exp (unit_part u ++ rest) = false) -> (u = None -> no_unit rest) ->
  (f <> None -> nodigit (etext e ++ unit_part u ++ rest)) -> (f = None -> match etext e ++ unit_part u ++ rest with c :: _ => c <> 46%N | [] => True end) ->
  longest float_ok dec_text (dec_text (mkdec s i f e u) ++ rest) (mkdec s i f e u) rest.
Proof.
  intros s i f e u rest I F E U S N0 N X NU ND P. split; [reflexivity|]. split; [apply float_fine; auto|].
  intros [s' i' f' e' u'] r Q G. apply float_fine in G. destruct G as (I' & F' & E' & U'). rewrite !dec_parts in *. rewrite <- !app_assoc in Q. rewrite !app_length.
  assert (K : s = s' \/ (s' = SNone /\ s <> SNone)).
  { destruct s, s'; auto; try (right; split; auto; discriminate); cbn [sign_text app] in Q; try discriminate; specialize (S eq_refl); rewrite Q in S; destruct S; congruence. }
  destruct K as [<- |[-> K]].
  - apply app_inv_head in Q. destruct (digits_longer _ _ _ _ Q I' N0) as (k & K & Y). pose proof K as K0. apply (f_equal (@length byte)) in K. rewrite app_length in K. destruct k as [|d k].
    + cbn [app] in Y. pose proof (frac_longest f e u rest f' e' u' r F F' E E' U' N X NU ND P (eq_sym Y)). cbn [length] in *. lia.
    + assert (D : is_digit d = true). { apply digit_iff. subst i. rewrite Forall_app in I. destruct I as [_ I]. exact (Forall_inv I). }
      assert (Z : length (ftext f') + (length (etext e') + length (unit_part u')) = 0).
      { destruct f' as [fs'|]; cbn [ftext app] in Y; [injection Y as Y _; subst d; discriminate|]. cbn [ftext length]. apply (tail_digit e' u' r d _ E' U' Y D). }
      cbn [length] in *. lia.
  - assert (B : exists b t, (b = 43%N \/ b = 45%N) /\ i' ++ ftext f' ++ etext e' ++ unit_part u' ++ r = b :: t).
    { destruct s; [congruence| |]; cbn [sign_text app] in Q; eexists _, _; (split; [|exact (eq_sym Q)]); auto. }
    destruct B as (b & t & B & T). destruct i' as [|c i']; [|cbn in T; injection T as -> _; apply Forall_inv in I'; unfold digit_byte in I'; lia].
    cbn [app] in T. pose proof (tail_sign f' e' u' r b t E' U' T B). cbn [sign_text length]. lia.
Qed.

Lemma int_rest : forall ds r x, Forall digit_byte ds -> nodigit r -> snd (f64_int_loop (ds ++ r) x) = r.
Proof.
  induction ds as [|c ds IH]; intros r x D N; cbn [app f64_int_loop].
  - destruct r as [|c r]; auto. cbn in N. cbn [f64_int_loop]. rewrite N. auto.
  - inversion D as [|? ? Dc D']; subst. apply digit_iff in Dc. rewrite Dc. apply IH; auto.
Qed.
Lemma frac_rest : forall ds r x p, Forall digit_byte ds -> nodigit r -> snd (f64_frac_loop (ds ++ r) x p) = r.
Proof.
  induction ds as [|c ds IH]; intros r x p D N; cbn [app f64_frac_loop].
  - destruct r as [|c r]; auto. cbn in N. cbn [f64_frac_loop]. rewrite N. auto.
  - inversion D as [|? ? Dc D']; subst. apply digit_iff in Dc. rewrite Dc. apply IH; auto.
Qed.
Lemma exp_rest : forall ds r x, Forall digit_byte ds -> nodigit r -> snd (f64_exp_loop (ds ++ r) x) = r.
Proof.
  induction ds as [|c ds IH]; intros r x D N; cbn [app f64_exp_loop].
  - destruct r as [|c r]; auto. cbn in N. cbn [f64_exp_loop]. rewrite N. auto.
  - inversion D as [|? ? Dc D']; subst. apply digit_iff in Dc. rewrite Dc. apply IH; auto.
Qed.
Lemma exp_stage_rest : forall exp10 x e z, efine e -> (e <> None -> nodigit z) -> (e = None -> is_exp z = false) -> snd (exp_stage exp10 x (etext e ++ z)) = z.
Proof.
  intros exp10 x [[[c s] es]|] z E N X; unfold exp_stage.
  - rewrite etext_exp by auto. cbn [etext app]. rewrite <- app_assoc. destruct E as (_ & E & En). specialize (N ltac:(discriminate)).
    assert (K : exists k, match sign_text s ++ es ++ z with s0 :: r' => if (s0 =? 43)%N then (1%Z, r') else if (s0 =? 45)%N then ((-1)%Z, r') else (1%Z, sign_text s ++ es ++ z) | [] => (1%Z, sign_text s ++ es ++ z) end = (k, es ++ z)).
    { destruct s; cbn [sign_text app]; [|eexists; reflexivity|eexists; reflexivity]. destruct es as [|b es]; [congruence|]. apply Forall_inv in E. unfold digit_byte in E. cbn [app].
      replace (b =? 43)%N with false by lia. replace (b =? 45)%N with false by lia. eexists. reflexivity. }
    destruct K as (k & K). rewrite K. pose proof (exp_rest es z 0 E N) as R. destruct (f64_exp_loop (es ++ z) 0) as [v r]. cbn [snd] in *. exact R.
  - cbn [etext app]. rewrite X by auto. reflexivity.
Qed.
Lemma suffix_stage_rest : forall x u rest, unit_fine u -> (u = None -> no_unit rest) -> nodigit (unit_part u ++ rest) -> snd (suffix_stage x (unit_part u ++ rest)) = rest.
Proof.
  intros x [c|] rest U N D; cbn [unit_part app suffix_stage].
  - pose proof (unit_no_digit c U) as B. apply valf_letter in U; auto. destruct (suffix_valf c); [reflexivity|congruence].
  - destruct rest as [|c rest]; auto. cbn [suffix_stage]. specialize (N eq_refl). cbn in N, D. destruct (suffix_valf c) eqn:E; auto. elim N. apply valf_letter; auto. congruence.
Qed.
Lemma f64_stages : forall exp10 s r, sign_text s ++ r <> [] -> (s = SNone -> match r with c :: _ => c <> 43%N /\ c <> 45%N | [] => True end) ->
  snd (to_f64 exp10 (sign_text s ++ r)) = snd (let '(ret, curr) := f64_int_loop r f_zero in
  let '(ret, curr) := point_stage ret curr in
  let '(ret, curr) := exp_stage exp10 ret curr in suffix_stage ret curr).
Proof.
  intros exp10 s r Ne H. assert (K : forall k c0 r0 (H0 : (if (c0 =? 43)%N then (f_one, r0) else if (c0 =? 45)%N then (fneg f_one, r0) else (f_one, c0 :: r0)) = (k, r)),
    snd (to_f64 exp10 (c0 :: r0)) = snd (let '(ret, curr) := f64_int_loop r f_zero in let '(ret, curr) := point_stage ret curr in let '(ret, curr) := exp_stage exp10 ret curr in suffix_stage ret curr)).
  { intros k c0 r0 H0. unfold to_f64. rewrite H0. destruct (f64_int_loop r f_zero) as [v1 y1]. fold (point_stage v1 y1). destruct (point_stage v1 y1) as [v2 y2].
    fold (exp_stage exp10 v2 y2). destruct (exp_stage exp10 v2 y2) as [v3 y3]. fold (suffix_stage v3 y3). destruct (suffix_stage v3 y3). reflexivity. }
  destruct s; cbn [sign_text app] in *; [|eapply K; reflexivity|eapply K; reflexivity].
  destruct r as [|c r]; [congruence|]. destruct (H eq_refl) as [H1 H2]. eapply K. replace (c =? 43)%N with false by lia. replace (c =? 45)%N with false by lia. reflexivity.
Qed.
Lemma float_read : forall exp10 l, exists d rest, longest float_ok dec_text l d rest /\ snd (to_f64 exp10 l) = rest.
Proof.
  intros exp10 l. destruct (sign_split l) as (s & r & -> & H). destruct (span_digits r) as (i & x & -> & I & NX).
  assert (F : exists f y, x = ftext f ++ y /\ ffine f /\ (f <> None -> nodigit y) /\ (f = None -> match y with c :: _ => c <> 46%N | [] => True end) /\ nodigit y).
  { destruct x as [|c x]; [exists None, []; repeat split; auto; congruence|]. destruct (N.eq_dec c 46) as [-> |C].
    - destruct (span_digits x) as (fs & y & -> & F & N). exists (Some fs), y. repeat split; auto. discriminate.
    - exists None, (c :: x). repeat split; auto; congruence. }
  destruct F as (f & y & -> & F & NF & P & NY). destruct (exp_split y) as (e & z & -> & E & NE & X & _). destruct (unit_split z) as (u & rest & -> & U & NU).
  assert (X' : e = None -> is_exp (unit_part u ++ rest) = false) by (intros ->; apply X; auto).
  assert (NZ : nodigit (unit_part u ++ rest)) by (destruct e as [e|]; [apply NE; discriminate|exact NY]).
  exists (mkdec s i f e u), rest. split.
  - pose proof (dec_longest s i f e u rest I F E U H NX NE X' NU NF P) as L. rewrite dec_parts, <- !app_assoc in L. exact L.
  - destruct (sign_text s ++ i ++ ftext f ++ etext e ++ unit_part u ++ rest) as [|b t] eqn:L0.
    + cbn [to_f64 snd]. apply (f_equal (@length byte)) in L0. rewrite !app_length in L0. destruct rest; auto. cbn [length] in L0. lia.
    + rewrite <- L0. rewrite f64_stages; [|rewrite L0; discriminate|auto].
      pose proof (int_rest i _ f_zero I NX) as R1. destruct (f64_int_loop (i ++ ftext f ++ etext e ++ unit_part u ++ rest) f_zero) as [v1 y1]. cbn [snd] in R1. subst y1.
      assert (R2 : snd (point_stage v1 (ftext f ++ etext e ++ unit_part u ++ rest)) = etext e ++ unit_part u ++ rest).
      { destruct f as [fs|]; cbn [ftext app point_stage]; [apply frac_rest; auto|]. specialize (P eq_refl). destruct (etext e ++ unit_part u ++ rest) as [|c q]; auto. cbn [point_stage]. replace (c =? 46)%N with false by lia. auto. }
      destruct (point_stage v1 _) as [v2 y2]. cbn [snd] in R2. subst y2.
      pose proof (exp_stage_rest exp10 v2 e (unit_part u ++ rest) E NE X') as R3. destruct (exp_stage exp10 v2 _) as [v3 y3]. cbn [snd] in R3. subst y3.
      apply suffix_stage_rest; auto.
Qed.
