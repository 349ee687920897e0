(** C88: which text counts as a number. *)
From Coq Require Import String List NArith ZArith Bool Arith Lia SpecFloat.
Open Scope list_scope.
Import ListNotations.
From Verif Require Import Base StrModel StrProofs FloatModel CompSpec NumText CompProps DecSpec JunkModel JunkSpec JunkProofs.
Close Scope Z_scope. Open Scope nat_scope.

Ltac digs := apply Forall_forall; let c := fresh in let H := fresh in intros c H; cbn in H; unfold digit_byte; lia.

Notation unsigned_ok := (fun w => whole_ok w /\ unsigned w).
Notation signed_ok := (fun w => whole_ok w /\ True).

(** C88. Reading an unsigned number takes the longest beginning of the text that is a number and leaves the rest; its value is
    taken modulo 2^64. Where no number stands, the value is 0 and nothing is taken. *)
Theorem c88_unsigned : forall l,
  (exists w rest, longest unsigned_ok whole_text l w rest /\ snd (to_usize l) = rest /\
    forall m, plain_unit (w_unit w) m -> fst (to_usize l) = (Z.to_N (digits_val (w_digits w) * m) mod 2 ^ 64)%N) \/
  (no_start unsigned_ok whole_text l /\ to_usize l = (0%N, l)).
Proof. exact usize_read. Qed.
Example c88_unsigned_ex : longest unsigned_ok whole_text (bs "+12K3") (mkwhole SPlus (bs "12") (Some 75%N)) (bs "3") /\ to_usize (bs "+12K3") = (12288%N, bs "3") /\
  no_start unsigned_ok whole_text (bs "-1") /\ to_usize (bs "-1") = (0%N, bs "-1").
Proof.
  split; [|split; [reflexivity|]].
  - apply (whole_longest unsigned SPlus (bs "12") (Some 75%N) (bs "3")); [|discriminate|reflexivity|discriminate].
    split; [digs|split; [discriminate|discriminate]].
  - split; [|reflexivity]. apply (no_whole unsigned SMinus (bs "1")); [|congruence|discriminate]. intros w U S _. elim (U S).
Qed.

(** C88. The same for numbers with a sign; the value is the number that fits 64 bits. *)
Theorem c88_signed : forall l,
  (exists w rest, longest signed_ok whole_text l w rest /\ snd (to_isize l) = rest /\
    forall m, plain_unit (w_unit w) m -> (- 2 ^ 63 <= fst (to_isize l) < 2 ^ 63)%Z /\
      exists k, (fst (to_isize l) = signed (w_sign w) (digits_val (w_digits w) * m) + k * 2 ^ 64)%Z) \/
  (no_start signed_ok whole_text l /\ to_isize l = (0%Z, l)).
Proof.
  intros l. destruct (isize_read l) as [(w & rest & L & R & V)|H]; [left|right; auto]. exists w, rest. split; auto. split; auto.
  intros m P. rewrite (V m P). split; [apply wrapI_range|apply wrapI_spec].
Qed.
Example c88_signed_ex : longest signed_ok whole_text (bs "-12 kg") (mkwhole SMinus (bs "12") None) (bs " kg") /\ to_isize (bs "-12 kg") = ((-12)%Z, bs " kg").
Proof.
  split; [|reflexivity]. apply (whole_longest (fun _ => True) SMinus (bs "12") None (bs " kg")); auto; [|reflexivity|].
  - split; [digs|split; [discriminate|exact I]].
  - intros _. cbn. intros H. apply H. reflexivity.
Qed.

(** C88. Reading a float takes the longest beginning that is a sign, digits, a point and digits, an exponent and a letter, each
    of which may be missing. *)
Theorem c88_float : forall exp10 l, exists d rest, longest float_ok dec_text l d rest /\ snd (to_f64 exp10 l) = rest.
Proof. exact float_read. Qed.
Example c88_float_ex : longest float_ok dec_text (bs "-1.5e+k") (mkdec SMinus (bs "1") (Some (bs "5")) None (Some 101%N)) (bs "+k") /\
  to_f64 ex10 (bs "-1.5e+k") = (fmul (f_of_Z (-15)) (f_of_Z (10 ^ 17)), bs "+k").
Proof.
  split; [|vm_compute; reflexivity]. apply (dec_longest SMinus (bs "1") (Some (bs "5")) None (Some 101%N) (bs "+k")); try discriminate; auto.
  - digs.
  - digs.
  - exact I.
  - reflexivity.
  - congruence.
  - reflexivity.
Qed.

Lemma whole_inj : forall a b, whole_ok a -> whole_ok b -> whole_text a = whole_text b -> a = b.
Proof.
  intros [s ds u] [s' ds' u'] (D & Dn & U) (D' & Dn' & U') E. rewrite !whole_parts in E. cbn [w_digits w_unit] in *.
  destruct ds as [|c ds]; [congruence|]. destruct ds' as [|c' ds']; [congruence|].
  pose proof (Forall_inv D) as Dc. pose proof (Forall_inv D') as Dc'. cbv beta in Dc, Dc'. unfold digit_byte in Dc, Dc'.
  assert (S : s = s' /\ (c :: ds) ++ unit_part u = (c' :: ds') ++ unit_part u').
  { destruct s, s'; cbn [sign_text app] in E; try (injection E; intros; subst; exfalso; lia); split; auto; injection E; intros; cbn [app]; congruence. }
  destruct S as [<- S].
  assert (N : forall v, match v with Some c => unit_letter c | None => True end -> nodigit (unit_part v)) by (intros [v|] V; [apply unit_no_digit; auto|exact I]).
  destruct (digits_longer _ _ _ _ S D' (N u U)) as (e & E1 & E2). destruct (digits_longer _ _ _ _ (eq_sym S) D (N u' U')) as (e' & E3 & E4).
  assert (e = []). { apply (f_equal (@length byte)) in E1, E3. rewrite app_length in E1, E3. destruct e; auto. cbn [length] in *. lia. } subst e.
  rewrite app_nil_r in E1. cbn [app] in E2. destruct u, u'; cbn in E2; congruence.
Qed.
(** What the longest beginning is if the whole text is a number. *)
Lemma longest_all : forall (ok : whole -> Prop) w a rest, whole_ok w -> ok w -> longest (fun w => whole_ok w /\ ok w) whole_text (whole_text w) a rest -> a = w /\ rest = [].
Proof.
  intros ok w a rest W O (E & (A & _) & M). specialize (M w [] ltac:(rewrite app_nil_r; reflexivity) (conj W O)).
  assert (R : rest = []). { apply (f_equal (@length byte)) in E. rewrite app_length in E. destruct rest; auto. cbn [length] in E. lia. }
  subst rest. rewrite app_nil_r in E. split; auto. apply whole_inj; auto.
Qed.

(** C88. An option value that must be a whole number is accepted if it is empty or the text of a number, and otherwise is an error;
    the value of the empty text is 0. *)
Theorem c88_whole : forall l,
  ((exists v, to_usize_whole l = Ok v) <-> l = [] \/ exists w, whole_ok w /\ unsigned w /\ whole_text w = l) /\
  ((exists v, to_isize_whole l = Ok v) <-> l = [] \/ exists w, whole_ok w /\ whole_text w = l) /\
  to_usize_whole l <> Panic /\ to_isize_whole l <> Panic /\
  forall w m, whole_ok w -> plain_unit (w_unit w) m ->
    (unsigned w -> (digits_val (w_digits w) * m < 2 ^ 64)%Z -> to_usize_whole (whole_text w) = Ok (Z.to_N (digits_val (w_digits w) * m))) /\
    ((- 2 ^ 63 <= signed (w_sign w) (digits_val (w_digits w) * m) < 2 ^ 63)%Z -> to_isize_whole (whole_text w) = Ok (signed (w_sign w) (digits_val (w_digits w) * m))).
Proof.
  intros l.
  assert (P : forall w m, whole_ok w -> plain_unit (w_unit w) m -> (0 <= digits_val (w_digits w) * m)%Z).
  { intros w m (D & _) [[_ ->]|[[_ ->]|[_ ->]]]; rewrite digits_val_fold by auto; pose proof (proj2 (usize_loop_run (w_digits w) [] 0 D I ltac:(lia))); lia. }
  assert (U : forall w m, whole_ok w -> plain_unit (w_unit w) m -> unsigned w -> to_usize_whole (whole_text w) = Ok (Z.to_N (digits_val (w_digits w) * m) mod 2 ^ 64)%N).
  { intros w m W Pm Uw. unfold to_usize_whole. destruct (usize_read (whole_text w)) as [(a & rest & L & R & V)|(N & _)].
    - destruct (longest_all unsigned w a rest W Uw L) as [-> ->]. specialize (V m Pm). destruct (to_usize (whole_text w)) as [v r]. cbn [fst snd] in *. subst. reflexivity.
    - elim (N w []); [rewrite app_nil_r; reflexivity|split; auto]. }
  assert (S : forall w m, whole_ok w -> plain_unit (w_unit w) m -> to_isize_whole (whole_text w) = Ok (wrapI (signed (w_sign w) (digits_val (w_digits w) * m)))).
  { intros w m W Pm. unfold to_isize_whole. destruct (isize_read (whole_text w)) as [(a & rest & L & R & V)|(N & _)].
    - destruct (longest_all (fun _ => True) w a rest W I L) as [-> ->]. specialize (V m Pm). destruct (to_isize (whole_text w)) as [v r]. cbn [fst snd] in *. subst. reflexivity.
    - elim (N w []); [rewrite app_nil_r; reflexivity|split; auto]. }
  split; [|split; [|split; [unfold to_usize_whole; destruct (to_usize l) as [v [|]]; discriminate|split; [unfold to_isize_whole; destruct (to_isize l) as [v [|]]; discriminate|]]]].
  - split.
    + intros (v & E). unfold to_usize_whole in E. destruct (usize_read l) as [(a & rest & (L & (A1 & A2) & _) & R & _)|(_ & Z)].
      * right. exists a. split; auto. split; auto. destruct (to_usize l) as [v' r]. cbn [snd] in R. subst r. destruct rest; [|discriminate]. rewrite app_nil_r in L. auto.
      * rewrite Z in E. left. destruct l; [reflexivity|discriminate].
    + intros [-> |(w & W & Uw & <-)]; [eexists; reflexivity|]. unfold to_usize_whole. destruct (usize_read (whole_text w)) as [(a & rest & L & R & V)|(N & _)].
      * destruct (longest_all unsigned w a rest W Uw L) as [-> ->]. destruct (to_usize (whole_text w)) as [v r]. cbn [snd] in R. subst r. eexists. reflexivity.
      * elim (N w []); [rewrite app_nil_r; reflexivity|split; auto].
  - split.
    + intros (v & E). unfold to_isize_whole in E. destruct (isize_read l) as [(a & rest & (L & (A1 & A2) & _) & R & _)|(_ & Z)].
      * right. exists a. split; auto. destruct (to_isize l) as [v' r]. cbn [snd] in R. subst r. destruct rest; [|discriminate]. rewrite app_nil_r in L. auto.
      * rewrite Z in E. left. destruct l; [reflexivity|discriminate].
    + intros [-> |(w & W & <-)]; [eexists; reflexivity|]. unfold to_isize_whole. destruct (isize_read (whole_text w)) as [(a & rest & L & R & V)|(N & _)].
      * destruct (longest_all (fun _ => True) w a rest W I L) as [-> ->]. destruct (to_isize (whole_text w)) as [v r]. cbn [snd] in R. subst r. eexists. reflexivity.
      * elim (N w []); [rewrite app_nil_r; reflexivity|split; auto].
  - intros w m W Pm. pose proof (P w m W Pm). split.
    + intros Uw B. rewrite (U w m W Pm Uw), N.mod_small; auto. lia.
    + intros B. rewrite (S w m W Pm), wrapI_small; auto.
Qed.
Example c88_whole_ex : whole_ok (mkwhole SMinus (bs "7") (Some 107%N)) /\ whole_text (mkwhole SMinus (bs "7") (Some 107%N)) = bs "-7k" /\
  to_isize_whole (bs "-7k") = Ok (-7000)%Z /\ to_usize_whole (bs "-7k") = Err /\ to_usize_whole (bs "7 ") = Err /\ to_usize_whole [] = Ok 0%N.
Proof. split; [split; [digs|split; discriminate]|]. repeat split; reflexivity. Qed.

(** C88. A value that must be a float is accepted exactly if all of it has the form of one. *)
Theorem c88_whole_float : forall exp10 l,
  ((exists v, to_f64_whole exp10 l = Ok v) <-> exists d, float_ok d /\ dec_text d = l) /\ to_f64_whole exp10 l <> Panic /\
  forall v, to_f64_whole exp10 l = Ok v -> v = to_f64_lossy exp10 l.
Proof.
  intros exp10 l. split; [|split].
  - destruct (float_read exp10 l) as (d & rest & (L & D & M) & R). unfold to_f64_whole. destruct (to_f64 exp10 l) as [v r]. cbn [snd] in R. subst r. split.
    + intros (x & E). destruct rest; [|discriminate]. exists d. split; auto. rewrite app_nil_r in L. auto.
    + intros (b & B & E). specialize (M b [] ltac:(rewrite app_nil_r; auto) B). destruct rest; [eexists; reflexivity|]. apply (f_equal (@length byte)) in L. rewrite app_length in L. rewrite E in M. cbn [length] in L. lia.
  - unfold to_f64_whole. destruct (to_f64 exp10 l) as [v [|]]; discriminate.
  - intros v. unfold to_f64_whole, to_f64_lossy. destruct (to_f64 exp10 l) as [x [|]]; [|discriminate]. intros [= <-]. reflexivity.
Qed.
Example c88_whole_float_ex : float_ok (mkdec SPlus (bs "2") (Some (bs "5")) (Some (69%N, SNone, bs "1")) (Some 107%N)) /\
  dec_text (mkdec SPlus (bs "2") (Some (bs "5")) (Some (69%N, SNone, bs "1")) (Some 107%N)) = bs "+2.5E1k" /\
  to_f64_whole ex10 (bs "+2.5E1k") = Ok (f_of_Z 25000) /\ to_f64_whole ex10 (bs "2.5.1") = Err.
Proof.
  split; [|repeat split; vm_compute; reflexivity]. split; [digs|]. split; [cbn [frac_digits d_frac]; digs|]. split; [|discriminate]. split; [auto|]. split; [digs|discriminate].
Qed.

Lemma whole_nonempty : forall w, whole_ok w -> whole_text w <> [].
Proof. intros [s [|c ds] u] (_ & N & _); [elim N; reflexivity|]. rewrite whole_parts. destruct s; discriminate. Qed.
(** The choice, for a text of which [a] was read. *)
Lemma pick_any : forall A v (bad x : A) l rest, junk_pick (mkjunk JAny v) bad l (x, rest) = x.
Proof. reflexivity. Qed.
Lemma pick_trail : forall A v (bad x : A) a rest, junk_pick (mkjunk JTrailing v) bad (a ++ rest) (x, rest) = match a with [] => bad | _ => x end.
Proof.
  intros A v bad x a rest. cbn [junk_pick j_type]. rewrite app_length. destruct a as [|c a]; cbn [length]; [rewrite Nat.add_0_l, Nat.eqb_refl; reflexivity|].
  destruct (Nat.eqb_spec (S (length a) + length rest) (length rest)); [lia|reflexivity].
Qed.
Lemma pick_none : forall A v (bad x : A) l rest, junk_pick (mkjunk JNone v) bad l (x, rest) = match rest, l with [], _ :: _ => x | _, _ => bad end.
Proof. reflexivity. Qed.
Lemma longest_good : forall A (good : A -> Prop) text l a rest b r, longest good text l a rest -> good b -> l = text b ++ r -> length (text b) <= length (text a).
Proof. intros A good text l a rest b r (_ & _ & M) G E. eauto. Qed.

(** C88. With any junk allowed, the value is the best guess; with trailing junk allowed, text without a number at the beginning gives
    the least or greatest value; with no junk allowed, so does every text that is not the text of a number. *)
Theorem c88_junk_unsigned : forall l v, let bad := match v with JMin => 0%N | JMax => (2 ^ 64 - 1)%N end in
  to_usize_junk l (mkjunk JAny v) = fst (to_usize l) /\
  ((exists w r, l = whole_text w ++ r /\ unsigned_ok w) -> to_usize_junk l (mkjunk JTrailing v) = fst (to_usize l)) /\
  (no_start unsigned_ok whole_text l -> to_usize_junk l (mkjunk JTrailing v) = bad) /\
  ((exists w, unsigned_ok w /\ whole_text w = l) -> to_usize_junk l (mkjunk JNone v) = fst (to_usize l)) /\
  ((forall w, unsigned_ok w -> whole_text w <> l) -> to_usize_junk l (mkjunk JNone v) = bad).
Proof.
  intros l v bad. assert (Eb : forall t, usize_junk (mkjunk t v) = bad) by (intros t; destruct v; reflexivity).
  unfold to_usize_junk. rewrite !Eb. destruct (usize_read l) as [(a & rest & L & R & _)|(N & E)].
  - destruct (to_usize l) as [x r]. cbn [snd fst] in *. subst r. pose proof L as (L0 & (A & Ua) & M). pose proof (whole_nonempty a A) as NE.
    split; [reflexivity|]. split; [|split; [|split]].
    + intros _. rewrite L0 at 1. rewrite pick_trail. destruct (whole_text a); congruence.
    + intros H. elim (H a rest L0). auto.
    + intros (w & W & Ew). specialize (M w [] ltac:(rewrite app_nil_r; auto) W). rewrite pick_none. pose proof (whole_nonempty w (proj1 W)) as Nw. destruct rest as [|c rest].
      * destruct l; congruence.
      * rewrite Ew in M. apply (f_equal (@length byte)) in L0. rewrite app_length in L0. cbn [length] in L0. lia.
    + intros H. rewrite pick_none. destruct rest; auto. rewrite app_nil_r in L0. elim (H a); auto.
  - rewrite E. cbn [fst]. split; [reflexivity|]. split; [|split; [|split]].
    + intros (w & r & Lw & W). elim (N w r Lw W).
    + intros _. pose proof (pick_trail _ v bad 0%N [] l) as P. exact P.
    + intros (w & W & Ew). elim (N w [] ltac:(rewrite app_nil_r; auto) W).
    + intros _. rewrite pick_none. destruct l; reflexivity.
Qed.
Example c88_junk_unsigned_ex : to_usize_junk (bs "12 kg") (mkjunk JTrailing JMax) = 12%N /\ to_usize_junk (bs "kg") (mkjunk JTrailing JMax) = (2 ^ 64 - 1)%N /\
  to_usize_junk (bs "12 kg") (mkjunk JNone JMin) = 0%N /\ to_usize_junk (bs "12k") (mkjunk JNone JMin) = 12000%N.
Proof. repeat split; reflexivity. Qed.

(** C88. The same for signed numbers. *)
Theorem c88_junk_signed : forall l v, let bad := match v with JMin => (- 2 ^ 63)%Z | JMax => (2 ^ 63 - 1)%Z end in
  to_isize_junk l (mkjunk JAny v) = fst (to_isize l) /\
  ((exists w r, l = whole_text w ++ r /\ whole_ok w) -> to_isize_junk l (mkjunk JTrailing v) = fst (to_isize l)) /\
  (no_start whole_ok whole_text l -> to_isize_junk l (mkjunk JTrailing v) = bad) /\
  ((exists w, whole_ok w /\ whole_text w = l) -> to_isize_junk l (mkjunk JNone v) = fst (to_isize l)) /\
  ((forall w, whole_ok w -> whole_text w <> l) -> to_isize_junk l (mkjunk JNone v) = bad).
Proof.
  intros l v bad. assert (Eb : forall t, isize_junk (mkjunk t v) = bad) by (intros t; destruct v; reflexivity).
  unfold to_isize_junk. rewrite !Eb. destruct (isize_read l) as [(a & rest & L & R & _)|(N & E)].
  - destruct (to_isize l) as [x r]. cbn [snd fst] in *. subst r. pose proof L as (L0 & (A & _) & M). pose proof (whole_nonempty a A) as NE.
    split; [reflexivity|]. split; [|split; [|split]].
    + intros _. rewrite L0 at 1. rewrite pick_trail. destruct (whole_text a); congruence.
    + intros H. elim (H a rest L0). auto.
    + intros (w & W & Ew). specialize (M w [] ltac:(rewrite app_nil_r; auto) (conj W I)). rewrite pick_none. pose proof (whole_nonempty w W) as Nw. destruct rest as [|c rest].
      * destruct l; congruence.
      * rewrite Ew in M. apply (f_equal (@length byte)) in L0. rewrite app_length in L0. cbn [length] in L0. lia.
    + intros H. rewrite pick_none. destruct rest; auto. rewrite app_nil_r in L0. elim (H a); auto.
  - rewrite E. cbn [fst]. split; [reflexivity|]. split; [|split; [|split]].
    + intros (w & r & Lw & W). elim (N w r Lw (conj W I)).
    + intros _. pose proof (pick_trail _ v bad 0%Z [] l) as P. exact P.
    + intros (w & W & Ew). elim (N w [] ltac:(rewrite app_nil_r; auto) (conj W I)).
    + intros _. rewrite pick_none. destruct l; reflexivity.
Qed.
Example c88_junk_signed_ex : to_isize_junk (bs "-12 kg") (mkjunk JTrailing JMax) = (-12)%Z /\ to_isize_junk (bs "kg") (mkjunk JTrailing JMin) = (- 2 ^ 63)%Z /\
  to_isize_junk (bs "-12 kg") (mkjunk JNone JMax) = (2 ^ 63 - 1)%Z /\ to_isize_junk [] (mkjunk JNone JMax) = (2 ^ 63 - 1)%Z.
Proof. repeat split; reflexivity. Qed.

(** C88. The same for floats, where any beginning that is not empty counts as a number; the values for junk are the greatest finite
    double and its opposite. *)
Theorem c88_junk_float : forall exp10 l v, let bad := S754_finite (match v with JMin => true | JMax => false end) (2 ^ 53 - 1) 971 in
  to_f64_junk exp10 l (mkjunk JAny v) = to_f64_lossy exp10 l /\
  ((exists d r, l = dec_text d ++ r /\ float_ok d /\ dec_text d <> []) -> to_f64_junk exp10 l (mkjunk JTrailing v) = to_f64_lossy exp10 l) /\
  ((forall d r, l = dec_text d ++ r -> float_ok d -> dec_text d = []) -> to_f64_junk exp10 l (mkjunk JTrailing v) = bad) /\
  ((exists d, float_ok d /\ dec_text d = l) -> l <> [] -> to_f64_junk exp10 l (mkjunk JNone v) = to_f64_lossy exp10 l) /\
  (l = [] \/ (forall d, float_ok d -> dec_text d <> l) -> to_f64_junk exp10 l (mkjunk JNone v) = bad).
Proof.
  intros exp10 l v bad. assert (Eb : forall t, f64_junk (mkjunk t v) = bad) by (intros t; destruct v; reflexivity).
  unfold to_f64_junk, to_f64_lossy. rewrite !Eb. destruct (float_read exp10 l) as (a & rest & (L0 & A & M) & R).
  destruct (to_f64 exp10 l) as [x r]. cbn [snd fst] in *. subst r.
  split; [reflexivity|]. split; [|split; [|split]].
  - intros (d & r & Ld & D & Nd). specialize (M d r Ld D). rewrite L0 at 1. rewrite pick_trail. destruct (dec_text a); auto. destruct (dec_text d); [congruence|cbn [length] in M; lia].
  - intros H. rewrite L0 at 1. rewrite pick_trail. rewrite (H a rest L0 A). reflexivity.
  - intros (d & D & Ed) Nl. specialize (M d [] ltac:(rewrite app_nil_r; auto) D). rewrite pick_none. destruct rest as [|c rest].
    + destruct l; [congruence|reflexivity].
    + apply (f_equal (@length byte)) in L0. rewrite app_length in L0. rewrite Ed in M. cbn [length] in L0. lia.
  - intros H. rewrite pick_none. destruct H as [-> |H]; [destruct rest; reflexivity|]. destruct rest; auto. rewrite app_nil_r in L0. elim (H a); auto.
Qed.
Example c88_junk_float_ex : to_f64_junk ex10 (bs "12.5 kg") (mkjunk JTrailing JMax) = f_ratio 25 2 /\ to_f64_junk ex10 (bs "x") (mkjunk JTrailing JMin) = S754_finite true (2 ^ 53 - 1) 971 /\
  to_f64_junk ex10 (bs "12.5 kg") (mkjunk JNone JMax) = S754_finite false (2 ^ 53 - 1) 971 /\ to_f64_junk ex10 (bs "12.5k") (mkjunk JNone JMax) = f_of_Z 12500.
Proof. repeat split; vm_compute; reflexivity. Qed.

(** C88. Text without any digit passes for a float, even if no junk is allowed. *)
Theorem c88_no_digit_refuted : exists l, (forall c, In c l -> ~ digit_byte c) /\ to_f64_whole ex10 l = Ok f_zero /\ (forall v, to_f64_junk ex10 l (mkjunk JNone v) = f_zero) /\
  (forall v, to_f64_junk ex10 (bs "-") (mkjunk JNone v) = S754_zero true) /\ to_f64_whole ex10 (bs ".") = Ok f_zero.
Proof.
  exists [107%N]. split; [intros c [<- |[]]; unfold digit_byte; lia|]. split; [vm_compute; reflexivity|]. split; [intros v; vm_compute; reflexivity|].
  split; [intros v; vm_compute; reflexivity|vm_compute; reflexivity].
Qed.
(** C88. The empty text passes for a whole number and for a float. *)
Theorem c88_empty_refuted : exists l, (forall w, whole_ok w -> whole_text w <> l) /\ to_usize_whole l = Ok 0%N /\ to_isize_whole l = Ok 0%Z /\ to_f64_whole ex10 l = Ok f_zero.
Proof. exists []. split; [apply whole_nonempty|]. repeat split; reflexivity. Qed.
