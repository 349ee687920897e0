(** Proofs about the tokenizer. *)
From Coq Require Import String List NArith ZArith Bool Arith Lia SpecFloat.
From Coq Require Import ZifyBool ZifyN ZifyNat.
Open Scope list_scope.
From Verif Require Import Base StrModel FloatModel HdrModel CompSpec NumProofs NumText ExprModel ExprSpec ExprProofs.
Import ListNotations.
Close Scope Z_scope.

(** What the number parser consumes. *)
Definition numchar (c : N) : bool := is_digit c || (c =? 46)%N || (c =? 43)%N || (c =? 45)%N || ascii_letter c.
Definition eats (l rest : bytes) : Prop := exists pre, l = pre ++ rest /\ forallb numchar pre = true.
Lemma eats_refl l : eats l l. Proof. exists []. auto. Qed.
Lemma eats_trans a b c : eats a b -> eats b c -> eats a c.
Proof. intros (p & -> & P) (q & -> & Q). exists (p ++ q). rewrite app_assoc, forallb_app, P, Q. auto. Qed.
Lemma eats_one c l : numchar c = true -> eats (c :: l) l.
Proof. intros H. exists [c]. cbn. now rewrite H. Qed.
Lemma digit_numchar c : is_digit c = true -> numchar c = true.
Proof. unfold numchar. now intros ->. Qed.
Lemma int_loop_eats l x : eats l (snd (f64_int_loop l x)).
Proof.
  revert x. induction l as [|c l IH]; intros x; cbn [f64_int_loop]; [apply eats_refl|].
  destruct (is_digit c) eqn:D; [|apply eats_refl]. eapply eats_trans; [apply eats_one; now apply digit_numchar|apply IH].
Qed.
Lemma frac_loop_eats l x p : eats l (snd (f64_frac_loop l x p)).
Proof.
  revert x p. induction l as [|c l IH]; intros x p; cbn [f64_frac_loop]; [apply eats_refl|].
  destruct (is_digit c) eqn:D; [|apply eats_refl]. eapply eats_trans; [apply eats_one; now apply digit_numchar|apply IH].
Qed.
Lemma exp_loop_eats l x : eats l (snd (f64_exp_loop l x)).
Proof.
  revert x. induction l as [|c l IH]; intros x; cbn [f64_exp_loop]; [apply eats_refl|].
  destruct (is_digit c) eqn:D; [|apply eats_refl]. eapply eats_trans; [apply eats_one; now apply digit_numchar|apply IH].
Qed.
Lemma point_eats x l : eats l (snd (point_stage x l)).
Proof.
  unfold point_stage. destruct l as [|d r]; [apply eats_refl|]. destruct (N.eqb_spec d 46) as [->|]; [|apply eats_refl].
  eapply eats_trans; [apply eats_one; reflexivity|apply frac_loop_eats].
Qed.
Lemma exp_eats exp10 x l : eats l (snd (exp_stage exp10 x l)).
Proof.
  unfold exp_stage. destruct (is_exp l) eqn:E; [|apply eats_refl].
  destruct l as [|e r]; [apply eats_refl|].
  assert (L : numchar e = true).
  { cbn in E. destruct r; [discriminate|]. unfold numchar, ascii_letter, is_digit. destruct ((e =? 101) || (e =? 69))%N eqn:F; [|discriminate]. lia. }
  eapply eats_trans; [apply eats_one; exact L|].
  destruct r as [|s r']; [cbn; apply eats_refl|].
  destruct (N.eqb_spec s 43) as [->|].
  - destruct (f64_exp_loop r' 0) as [e2 r2] eqn:F. cbn [snd]. eapply eats_trans; [apply eats_one; reflexivity|].
    pose proof (exp_loop_eats r' 0) as G. now rewrite F in G.
  - destruct (N.eqb_spec s 45) as [->|].
    + destruct (f64_exp_loop r' 0) as [e2 r2] eqn:F. cbn [snd]. eapply eats_trans; [apply eats_one; reflexivity|].
      pose proof (exp_loop_eats r' 0) as G. now rewrite F in G.
    + destruct (f64_exp_loop (s :: r') 0) as [e2 r2] eqn:F. cbn [snd]. pose proof (exp_loop_eats (s :: r') 0) as G. now rewrite F in G.
Qed.
Lemma suffix_eats x l : eats l (snd (suffix_stage x l)).
Proof.
  unfold suffix_stage. destruct l as [|c r]; [apply eats_refl|].
  destruct (suffix_valf c) eqn:S; [|apply eats_refl]. apply eats_one.
  destruct (numchar c) eqn:N; auto. exfalso. rewrite suffix_none in S; [discriminate| | |]; unfold numchar, ascii_letter, is_digit in N; lia.
Qed.
Lemma to_f64_eats exp10 c r : is_digit c = true -> exists pre, c :: r = c :: pre ++ snd (to_f64 exp10 (c :: r)) /\ forallb numchar pre = true.
Proof.
  intros D.
  assert (E : to_f64 exp10 (c :: r) =
    let '(ret, curr) := f64_int_loop (c :: r) f_zero in
    let '(ret, curr) := point_stage ret curr in
    let '(ret, curr) := exp_stage exp10 ret curr in
    let '(ret, curr) := suffix_stage ret curr in
    (fmul f_one ret, curr)).
  { pose proof (to_f64_stages exp10 SNone [c] r) as T. cbn [sign_text app] in T. rewrite T; auto; [|discriminate].
    constructor; [|constructor]. now apply digit_is. }
  assert (G : eats r (snd (to_f64 exp10 (c :: r)))).
  { rewrite E. cbn [f64_int_loop]. rewrite D.
    destruct (f64_int_loop r _) as [x1 l1] eqn:E1. pose proof (int_loop_eats r (fadd (fmul f_zero (f_of_Z 10)) (f_of_Z (Z.of_N c - 48)))) as G1. rewrite E1 in G1.
    pose proof (point_eats x1 l1) as G2. destruct (point_stage x1 l1) as [x2 l2].
    pose proof (exp_eats exp10 x2 l2) as G3. destruct (exp_stage exp10 x2 l2) as [x3 l3].
    pose proof (suffix_eats x3 l3) as G4. destruct (suffix_stage x3 l3) as [x4 l4]. cbn [snd] in *.
    eauto using eats_trans. }
  destruct G as (pre & P & F). exists pre. rewrite <- P. auto.
Qed.

(** Reading a literal followed by something that does not continue it. *)
Lemma frac_loop_app ds rest x p : forallb is_digit ds = true -> no_digit rest ->
  f64_frac_loop (ds ++ rest) x p = (fst (f64_frac_loop ds x p), rest).
Proof.
  revert x p. induction ds as [|c l IH]; intros x p F Hr; cbn [app f64_frac_loop forallb] in *.
  - destruct rest as [|c r]; auto. cbn in Hr. cbn [f64_frac_loop]. now rewrite Hr.
  - apply andb_prop in F. destruct F as [F1 F2]. rewrite F1. apply IH; auto.
Qed.
Lemma digits_forall ds : forallb is_digit ds = true -> Forall digit_byte ds.
Proof. intros H. apply Forall_forall. intros c Hc. rewrite forallb_forall in H. apply digit_is. auto. Qed.
Lemma literal_read exp10 s rest : literal s -> ends_number rest -> to_f64 exp10 (s ++ rest) = (to_f64_lossy exp10 s, rest).
Proof.
  intros (ds & fs & NE & D & F & E) R. unfold to_f64_lossy.
  pose proof (digits_forall _ D) as D'.
  destruct E as [-> | ->].
  - pose proof (to_f64_stages exp10 SNone ds rest D' NE) as T. cbn [sign_text app] in T. rewrite T. clear T.
    pose proof (to_f64_stages exp10 SNone ds [] D' NE) as T. cbn [sign_text app] in T. rewrite app_nil_r in T. rewrite T. clear T.
    destruct (ends_stages exp10 (fst (f64_int_loop ds f_zero)) rest R) as (E0 & E1 & E2 & E3).
    destruct (ends_stages exp10 (fst (f64_int_loop ds f_zero)) [] I) as (F0 & F1 & F2 & F3).
    rewrite int_loop_app, E1, E2, E3 by auto.
    rewrite <- (app_nil_r ds) at 2. rewrite int_loop_app, F1, F2, F3 by auto. reflexivity.
  - pose proof (to_f64_stages exp10 SNone ds (46%N :: fs ++ rest) D' NE) as T. cbn [sign_text app] in T.
    rewrite <- app_assoc. cbn [app]. rewrite T. clear T.
    pose proof (to_f64_stages exp10 SNone ds (46%N :: fs) D' NE) as T. cbn [sign_text app] in T. rewrite T. clear T.
    rewrite !int_loop_app by (auto; reflexivity). cbn [point_stage]. change ((46 =? 46)%N) with true. cbn [fst snd].
    set (x := fst (f64_int_loop ds f_zero)).
    destruct (ends_stages exp10 (fst (f64_frac_loop fs x (f_ratio 1 10))) rest R) as (E0 & E1 & E2 & E3).
    destruct (ends_stages exp10 (fst (f64_frac_loop fs x (f_ratio 1 10))) [] I) as (F0 & F1 & F2 & F3).
    rewrite frac_loop_app, E2, E3 by auto.
    rewrite <- (app_nil_r fs) at 2. rewrite frac_loop_app, F2, F3 by auto. reflexivity.
Qed.

Section Tok.
Variable exp10 : Z -> f64.
Variable uni_alpha uni_alnum : N -> bool.
Notation alphabetic := (alphabetic uni_alpha).
Notation alphanumeric := (alphanumeric uni_alnum).
Notation tok_loop := (tok_loop exp10 uni_alpha uni_alnum).
Notation tokenize := (tokenize exp10 uni_alpha uni_alnum).
Notation take_name := (take_name uni_alnum).
Notation spells := (spells exp10 alphabetic alphanumeric).

Lemma take_name_app l : exists a, l = a ++ snd (take_name l) /\ fst (take_name l) = a /\ forallb alphanumeric a = true.
Proof.
  induction l as [|c l (a & E & F & G)]; cbn [ExprModel.take_name]. { exists []. auto. }
  destruct (alphanumeric c) eqn:A.
  - destruct (take_name l) as [x y]. cbn [fst snd] in *. exists (c :: a). cbn [forallb]. rewrite A, G. cbn [app]. rewrite <- E, F. auto.
  - exists []. auto.
Qed.

(** The tokenizer always ends. *)
Lemma tok_no_panic : forall fuel acc input, List.length input < fuel -> tok_loop fuel acc input <> Panic.
Proof.
  induction fuel as [|f IH]; intros acc input L; [lia|]. cbn [ExprModel.tok_loop].
  destruct input as [|ch rest]; [discriminate|]. cbn [List.length] in L.
  assert (G : forall acc, tok_loop f acc rest <> Panic) by (intros; apply IH; lia).
  repeat match goal with |- context [if ?b then _ else _] => destruct b eqn:? end; auto; try discriminate.
  all: try (destruct acc as [|t acc']; auto; destruct t; cbn [can_binary]; auto; fail).
  - destruct (take_name_app rest) as (a & E & _ & _). destruct (take_name rest) as [x y]. cbn [snd] in E. apply IH. rewrite E in L. rewrite app_length in L. lia.
  - destruct (to_f64_eats exp10 ch rest) as (pre & E & _); auto. destruct (to_f64 exp10 (ch :: rest)) as [x y]. cbn [snd] in E. injection E as E.
    apply IH. rewrite E in L. rewrite app_length in L. lia.
Qed.
Lemma tokenize_no_panic s : tokenize s <> Panic.
Proof. apply tok_no_panic. lia. Qed.

(** Characters an accepted text can have. *)
Definition allowed (c : N) : bool := alphabetic c || alphanumeric c || existsb (N.eqb c) (bs "().,^%/*+-!<>").
Lemma numchar_allowed c : numchar c = true -> allowed c = true.
Proof.
  unfold numchar, allowed. intros H. destruct (is_digit c) eqn:D.
  { unfold HdrModel.alphanumeric. rewrite D. replace (c <? 128)%N with true by (unfold is_digit in D; lia). now rewrite !orb_true_r. }
  destruct (ascii_letter c) eqn:L.
  { unfold HdrModel.alphabetic. rewrite L. replace (c <? 128)%N with true by (unfold ascii_letter in L; lia). reflexivity. }
  rewrite !orb_false_r in H. cbn [orb] in H. rewrite orb_true_iff. right.
  destruct (N.eqb_spec c 46) as [->|]; [reflexivity|]. destruct (N.eqb_spec c 43) as [->|]; [reflexivity|]. destruct (N.eqb_spec c 45) as [->|]; [reflexivity|].
  discriminate.
Qed.
Lemma tok_allowed : forall fuel acc input ts, tok_loop fuel acc input = Ok ts -> forallb allowed input = true.
Proof.
  induction fuel as [|f IH]; intros acc input ts; [discriminate|]. cbn [ExprModel.tok_loop].
  destruct input as [|ch rest]; [reflexivity|]. cbn [forallb].
  assert (G : forall acc, tok_loop f acc rest = Ok ts -> forallb allowed rest = true) by (intros a; apply IH).
  assert (D : forall acc, allowed ch = true -> tok_loop f acc rest = Ok ts -> allowed ch && forallb allowed rest = true).
  { intros a A H. rewrite A. now rewrite (G _ H). }
  assert (K : In ch (bs "().,^%/*+-!<>") -> allowed ch = true).
  { intros H. unfold allowed. apply orb_true_iff. right. apply existsb_exists. exists ch. split; auto. apply N.eqb_refl. }
  destruct (N.eqb_spec ch 40) as [E|]. { destruct acc as [|[] acc']; apply D; apply K; subst; cbn; auto 20. }
  destruct (N.eqb_spec ch 41) as [E|]. { apply D; apply K; subst; cbn; auto 20. }
  destruct (N.eqb_spec ch 44) as [E|]. { apply D; apply K; subst; cbn; auto 20. }
  destruct (N.eqb_spec ch 94) as [E|]. { apply D; apply K; subst; cbn; auto 20. }
  destruct (N.eqb_spec ch 37) as [E|]. { apply D; apply K; subst; cbn; auto 20. }
  destruct (N.eqb_spec ch 47) as [E|]. { apply D; apply K; subst; cbn; auto 20. }
  destruct (N.eqb_spec ch 42) as [E|]. { apply D; apply K; subst; cbn; auto 20. }
  destruct (N.eqb_spec ch 43) as [E|]. { destruct acc as [|t acc']; [|destruct (can_binary t)]; apply D; apply K; subst; cbn; auto 20. }
  destruct (N.eqb_spec ch 45) as [E|]. { destruct acc as [|t acc']; [|destruct (can_binary t)]; apply D; apply K; subst; cbn; auto 20. }
  destruct (N.eqb_spec ch 33) as [E|]. { destruct (hd 0%N rest =? 61)%N; apply D; apply K; subst; cbn; auto 20. }
  destruct (N.eqb_spec ch 60) as [E|]. { destruct (hd 0%N rest =? 61)%N; apply D; apply K; subst; cbn; auto 20. }
  destruct (N.eqb_spec ch 62) as [E|]. { destruct (hd 0%N rest =? 61)%N; apply D; apply K; subst; cbn; auto 20. }
  destruct (N.eqb_spec ch 61) as [E|].
  { destruct (N.eqb_spec (hd 0%N rest) 61) as [H|]; [|discriminate]. intros T. exfalso. apply G in T.
    destruct rest as [|c r]; [discriminate H|]. cbn in H. subst c. cbn in T. discriminate. }
  destruct (alphabetic ch) eqn:A.
  { destruct (take_name_app rest) as (a & E & _ & F). destruct (take_name rest) as [x y]. cbn [snd] in E. intros T. apply IH in T.
    unfold allowed at 1. rewrite A. cbn [orb andb]. rewrite E, forallb_app, T, andb_true_r.
    rewrite forallb_forall in F |- *. intros c Hc. unfold allowed. rewrite (F c Hc). now rewrite orb_true_r. }
  destruct (is_digit ch) eqn:Dg; [|discriminate].
  destruct (to_f64_eats exp10 ch rest Dg) as (pre & E & F). destruct (to_f64 exp10 (ch :: rest)) as [x y]. cbn [snd] in E. injection E as E.
  intros T. apply IH in T. rewrite (numchar_allowed ch) by now apply digit_numchar. cbn [andb]. rewrite E, forallb_app, T, andb_true_r.
  rewrite forallb_forall in F |- *. intros c Hc. auto using numchar_allowed.
Qed.
Lemma tokenize_allowed s ts c : tokenize s = Ok ts -> In c s -> allowed c = true.
Proof. intros T H. apply tok_allowed in T. rewrite forallb_forall in T. auto. Qed.

(** ** Reading back written tokens *)
Definition fits (a b : token) : bool :=
  match b with
  | TUn UPlus | TUn UMinus => negb (can_binary a)
  | TBin BPlus | TBin BMinus => can_binary a
  | TNum _ | TVar _ | TFunc _ _ => match a with TNum _ | TVar _ => false | _ => true end
  | TLParen => match a with TVar _ => false | _ => true end
  | _ => true
  end.
Definition first_fits (b : token) : bool := match b with TBin BPlus | TBin BMinus => false | _ => true end.

Lemma alphabetic_special c : alphabetic c = true -> existsb (N.eqb c) (bs "().,^%/*+-!<>=") = false /\ is_digit c = false.
Proof.
  unfold HdrModel.alphabetic. intros H. destruct (N.ltb_spec c 128).
  - unfold ascii_letter in H. split; [|unfold is_digit; lia]. apply not_true_is_false. intros E. apply existsb_exists in E. destruct E as (x & Hx & E).
    apply N.eqb_eq in E. subst x. cbn in Hx. repeat (destruct Hx as [<-|Hx]; [discriminate H|]). destruct Hx.
  - split; [|unfold is_digit; lia]. apply not_true_is_false. intros E. apply existsb_exists in E. destruct E as (x & Hx & E).
    apply N.eqb_eq in E. subst x. cbn in Hx. repeat (destruct Hx as [<-|Hx]; [lia|]). destruct Hx.
Qed.
Lemma take_name_exact a rest : forallb alphanumeric a = true -> match rest with [] => True | c :: _ => alphanumeric c = false end ->
  take_name (a ++ rest) = (a, rest).
Proof.
  induction a as [|c a IH]; cbn [app forallb]; intros F R.
  - destruct rest as [|c r]; auto. cbn. now rewrite R.
  - apply andb_prop in F. destruct F as [F1 F2]. cbn [ExprModel.take_name]. rewrite F1, IH; auto.
Qed.
Lemma tok_alpha f acc ch rest : alphabetic ch = true ->
  tok_loop (S f) acc (ch :: rest) = let '(a, b) := take_name rest in tok_loop f (TVar (ch :: a) :: acc) b.
Proof.
  intros H. cbn [ExprModel.tok_loop]. destruct (alphabetic_special _ H) as [SP _].
  assert (K : forall k, In k (bs "().,^%/*+-!<>=") -> (ch =? k)%N = false).
  { intros k Hk. apply not_true_is_false. intros E. apply N.eqb_eq in E. subst k.
    assert (existsb (N.eqb ch) (bs "().,^%/*+-!<>=") = true) by (apply existsb_exists; exists ch; split; auto; apply N.eqb_refl). congruence. }
  rewrite !K by (cbn; auto 20). now rewrite H.
Qed.
Lemma tok_digit f acc ch rest : is_digit ch = true ->
  tok_loop (S f) acc (ch :: rest) = let '(x, y) := to_f64 exp10 (ch :: rest) in tok_loop f (TNum x :: acc) y.
Proof.
  intros H. cbn [ExprModel.tok_loop].
  assert (NA : alphabetic ch = false). { unfold HdrModel.alphabetic. unfold is_digit in H. replace (ch <? 128)%N with true by lia. unfold ascii_letter. lia. }
  rewrite NA, H. unfold is_digit in H. repeat match goal with |- context [(ch =? ?k)%N] => replace (ch =? k)%N with false by lia end. reflexivity.
Qed.
(** The first character of the text of a token that may follow a name or a number. *)
Lemma spelled_head t s : spells t s -> has_equals t = false -> match t with TNum _ | TVar _ | TFunc _ _ => False | _ => True end ->
  exists c, s = [c] /\ In c (bs "(),^%/*+-!<>") /\ (c = 40%N -> t = TLParen).
Proof.
  intros S H K. inversion S; subst; try contradiction.
  - destruct o; try discriminate H; eexists; (split; [reflexivity|]); split; cbn; auto 20; discriminate.
  - destruct u; eexists; (split; [reflexivity|]); split; cbn; auto 20; discriminate.
  - eexists; (split; [reflexivity|]); split; cbn; auto 20.
  - eexists; (split; [reflexivity|]); split; cbn; auto 20. discriminate.
  - eexists; (split; [reflexivity|]); split; cbn; auto 20. discriminate.
Qed.
Lemma special_not c : In c (bs "(),^%/*+-!<>") -> alphanumeric c = false /\ ends_number [c] /\ c <> 61%N.
Proof.
  intros H. cbn in H. repeat (destruct H as [<-|H]; [split; [reflexivity|]; split; [cbn; lia|discriminate]|]). destruct H.
Qed.
Lemma rest_heads ts ss : Forall2 spells ts ss -> forallb (fun t => negb (has_equals t)) ts = true ->
  match concat ss with [] => True | c :: _ => c <> 61%N end.
Proof.
  intros F E. destruct F as [|t s ts ss S F]; cbn [concat]; auto. cbn [forallb] in E. apply andb_prop in E. destruct E as [E _]. apply negb_true_iff in E.
  inversion S; subst; cbn [app].
  - destruct H as (ds & fs & NE & D & _ & [-> | ->]); destruct ds as [|d ds]; try congruence; cbn [app]; cbn [forallb] in D; apply andb_prop in D; destruct D as [D _]; unfold is_digit in D; lia.
  - apply alphabetic_special in H. destruct H as [H _]. cbn [bs existsb] in H. intros ->. discriminate H.
  - apply alphabetic_special in H. destruct H as [H _]. intros ->. discriminate H.
  - destruct o; try discriminate E; cbn; discriminate.
  - destruct u; cbn; discriminate.
  - cbn; discriminate.
  - cbn; discriminate.
  - cbn; discriminate.
Qed.

Lemma tok_spelled : forall ts ss, Forall2 spells ts ss -> forallb (fun t => negb (has_equals t)) ts = true ->
  forall fuel acc, List.length (concat ss) < fuel ->
  pairs fits ts = true -> match ts with [] => True | b :: _ => match acc with [] => first_fits b = true | a :: _ => fits a b = true end end ->
  tok_loop fuel acc (concat ss) = Ok (rev acc ++ ts).
Proof.
  intros ts ss F. induction F as [|t s ts ss S F IH]; intros E fuel acc L P A.
  { destruct fuel; [cbn in L; lia|]. cbn. now rewrite app_nil_r. }
  cbn [forallb] in E. apply andb_prop in E. destruct E as [Et E]. apply negb_true_iff in Et.
  pose proof (rest_heads _ _ F E) as RH.
  assert (P' : pairs fits ts = true /\ match ts with [] => True | b :: _ => fits t b = true end).
  { cbn [pairs] in P. destruct ts; auto. apply andb_prop in P. destruct P. auto. }
  destruct P' as [P1 P2].
  assert (NX : (hd 0%N (concat ss) =? 61)%N = false). { destruct (concat ss); cbn; auto. now apply N.eqb_neq. }
  assert (GO : forall f, List.length (concat ss) < f -> tok_loop f (t :: acc) (concat ss) = Ok (rev acc ++ t :: ts)).
  { intros f Lf. rewrite IH; auto. cbn [rev]. now rewrite <- app_assoc. }
  cbn [concat] in L |- *. rewrite app_length in L.
  destruct fuel as [|f]; [lia|].
  inversion S; subst; clear S.
  - (* number *)
    assert (EN : ends_number (concat ss)).
    { destruct F as [|t2 s2 ts ss S2 F]; [exact I|]. cbn [forallb] in E. apply andb_prop in E. destruct E as [E2 _]. apply negb_true_iff in E2.
      destruct (spelled_head _ _ S2 E2) as (c & -> & Hc & _). { destruct t2; auto; discriminate P2. }
      cbn. apply special_not in Hc. apply Hc. }
    pose proof (literal_read exp10 s (concat ss) H EN) as LR.
    destruct H as (ds & fs & NE & D & _ & SE).
    assert (exists d r, s = d :: r /\ is_digit d = true) as (d & r & -> & Dd).
    { destruct ds as [|d ds]; [congruence|]. cbn [forallb] in D. apply andb_prop in D. destruct D as [D _]. destruct SE as [-> | ->]; eexists; eexists; split; eauto. reflexivity. }
    cbn [app] in LR |- *. cbn [List.length] in L. rewrite tok_digit, LR by auto. apply GO. lia.
  - (* name *)
    assert (EN : match concat ss with [] => True | c :: _ => alphanumeric c = false end).
    { destruct F as [|t2 s2 ts ss S2 F]; [exact I|]. cbn [forallb] in E. apply andb_prop in E. destruct E as [E2 _]. apply negb_true_iff in E2.
      destruct (spelled_head _ _ S2 E2) as (c2 & -> & Hc & _). { destruct t2; auto; discriminate P2. }
      cbn. apply special_not in Hc. apply Hc. }
    cbn [app List.length] in *. rewrite tok_alpha by auto. rewrite take_name_exact by auto. apply GO. lia.
  - (* call *)
    cbn [app List.length] in *. rewrite <- app_assoc. rewrite tok_alpha by auto. rewrite take_name_exact by (auto; reflexivity).
    cbn [bs app]. rewrite app_length in L. cbn [List.length bs] in L.
    destruct f as [|f]; [lia|]. cbn. apply GO. lia.
  - (* operator *)
    destruct o; try discriminate Et; cbn [op_text bs app List.length] in *; cbn [ExprModel.tok_loop];
      cbn [N.eqb Pos.eqb]; rewrite ?NX; try (apply GO; lia).
    + destruct acc as [|a acc]; [discriminate A|]. cbn [fits] in A. cbn. rewrite A. apply GO. lia.
    + destruct acc as [|a acc]; [discriminate A|]. cbn [fits] in A. cbn. rewrite A. apply GO. lia.
  - (* sign *)
    destruct u; cbn [un_text bs app List.length] in *; cbn [ExprModel.tok_loop]; cbn; rewrite ?NX; try (apply GO; lia).
    + destruct acc as [|a acc]; [apply GO; lia|]. cbn [fits] in A. apply negb_true_iff in A. rewrite A. apply GO. lia.
    + destruct acc as [|a acc]; [apply GO; lia|]. cbn [fits] in A. apply negb_true_iff in A. rewrite A. apply GO. lia.
  - cbn [bs app List.length] in *. cbn [ExprModel.tok_loop]. cbn. destruct acc as [|a acc]; [apply GO; lia|]. cbn [fits] in A. destruct a; try discriminate A; apply GO; lia.
  - cbn [bs app List.length] in *. cbn [ExprModel.tok_loop]. cbn. apply GO. lia.
  - cbn [bs app List.length] in *. cbn [ExprModel.tok_loop]. cbn. apply GO. lia.
Qed.

(** ** Sentences have the neighbours the tokenizer expects *)
Definition starts (t : token) : bool := match t with TNum _ | TVar _ | TFunc _ _ | TLParen | TUn UPlus | TUn UMinus => true | _ => false end.
Definition ends (t : token) : bool := match t with TNum _ | TVar _ | TRParen | TUn UFact => true | _ => false end.
Definition adj (a b : token) : bool := if ends a then negb (starts b) else starts b.
Lemma pairs_app R a x y b : pairs R (a ++ [x]) = true -> R x y = true -> pairs R (y :: b) = true -> pairs R ((a ++ [x]) ++ y :: b) = true.
Proof.
  intros A X B. induction a as [|c a IH]; cbn [app] in *.
  - cbn [pairs]. rewrite X. exact B.
  - destruct a as [|d a]; cbn [app pairs] in *.
    + apply andb_prop in A. destruct A as [A1 A2]. rewrite A1, X. exact B.
    + apply andb_prop in A. destruct A as [A1 A2]. rewrite A1. cbn [andb]. apply IH. exact A2.
Qed.
(** A list of tokens with its first and last. *)
Definition span (ts : list token) : Prop :=
  exists b m e, (ts = b :: m /\ exists m', ts = m' ++ [e]) /\ starts b = true /\ ends e = true /\ pairs adj ts = true.
Lemma span_one t : starts t = true -> ends t = true -> span [t].
Proof. intros S E. exists t, [], t. split; [split; [reflexivity|exists []; reflexivity]|]. auto. Qed.
Lemma span_join ts o us : span ts -> span us -> starts o = false -> ends o = false -> span (ts ++ o :: us).
Proof.
  intros (b & m & e & (-> & m' & E) & Sb & Ee & P) (b2 & m2 & e2 & (-> & m2' & E2) & Sb2 & Ee2 & P2) So Eo.
  exists b, (m ++ o :: b2 :: m2), e2. split; [split; [reflexivity|]|].
  - rewrite E2. exists (b :: m ++ o :: m2'). cbn [app]. now rewrite <- app_assoc.
  - split; auto. split; auto. rewrite E in P |- *. apply pairs_app; auto.
    + unfold adj. now rewrite Ee, So.
    + cbn [pairs]. unfold adj at 1. rewrite Eo, Sb2. exact P2.
Qed.
Lemma span_pre o us : span us -> starts o = true -> ends o = false -> span (o :: us).
Proof.
  intros (b2 & m2 & e2 & (-> & m2' & E2) & Sb2 & Ee2 & P2) So Eo.
  exists o, (b2 :: m2), e2. split; [split; [reflexivity|]|].
  - rewrite E2. now exists (o :: m2').
  - split; auto. split; auto. cbn [pairs]. unfold adj at 1. rewrite Eo, Sb2. exact P2.
Qed.
Lemma span_post ts o : span ts -> starts o = false -> ends o = true -> span (ts ++ [o]).
Proof.
  intros (b & m & e & (-> & m' & E) & Sb & Ee & P) So Eo.
  exists b, (m ++ [o]), o. split; [split; [reflexivity|now exists (b :: m)]|].
  split; auto. split; auto. rewrite E in P |- *. apply pairs_app; auto. unfold adj. now rewrite Ee, So.
Qed.
Lemma sentence_span : (forall n ts t, sentence n ts t -> span ts) /\ (forall ts l, arglist ts l -> span ts).
Proof.
  apply sentence_both; intros; auto using span_one.
  - apply span_join; auto.
  - apply span_pre; auto; now destruct u.
  - apply span_join; auto.
  - apply span_post; auto.
  - change (TLParen :: ts ++ [TRParen]) with ((TLParen :: ts) ++ [TRParen]). apply span_post; auto. apply span_pre; auto.
  - change (TFunc s None :: ts ++ [TRParen]) with ((TFunc s None :: ts) ++ [TRParen]). apply span_post; auto. apply span_pre; auto.
  - apply span_join; auto.
Qed.
Lemma pairs_both R1 R2 R3 ts : (forall a b, R1 a b = true -> R2 a b = true -> R3 a b = true) -> pairs R1 ts = true -> pairs R2 ts = true -> pairs R3 ts = true.
Proof.
  intros H. induction ts as [|a ts IH]; auto. destruct ts as [|b ts]; auto. cbn [pairs] in *. intros P1 P2.
  apply andb_prop in P1. apply andb_prop in P2. destruct P1, P2. rewrite H by auto. cbn [andb]. auto.
Qed.
Lemma adj_fits a b : adj a b = true -> negb (misread a b) = true -> fits a b = true.
Proof. destruct a as [o|u| | | |x|s|s k]; destruct b as [o'|u'| | | |x'|s'|s' k']; try destruct u; try destruct u'; try destruct o'; cbn; auto. Qed.

Lemma sentence_text n ts t ss : sentence n ts t -> Forall2 spells ts ss ->
  forallb (fun t => negb (has_equals t)) ts = true -> pairs (fun a b => negb (misread a b)) ts = true ->
  tokenize (concat ss) = Ok ts.
Proof.
  intros S F E M. destruct (proj1 sentence_span _ _ _ S) as (b & m & e & (Eb & _) & Sb & _ & P).
  unfold ExprModel.tokenize. rewrite (tok_spelled ts ss F E (Datatypes.S (List.length (concat ss))) []); auto.
  - eapply pairs_both; [|exact P|exact M]. apply adj_fits.
  - subst ts. destruct b as [o|u| | | |x|s|s k]; try discriminate Sb; reflexivity.
Qed.
End Tok.
