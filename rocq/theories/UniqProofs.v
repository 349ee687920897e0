(** Proofs about uniq. *)
From Coq Require Import List NArith ZArith Bool Arith Lia.
From Verif Require Import Base StrSpec FloatModel ReadModel CompModel CompSpec OrdProofs UniqModel UniqSpec JoinProofs.
Import ListNotations.
Close Scope Z_scope.

Section Runs.
Context {A : Type}.
Variable eq : A -> A -> bool.
Fixpoint runs_from (run : list A) (prev : A) (rest : list A) : list (list A) :=
  match rest with
  | [] => [run]
  | x :: rest' => if eq prev x then runs_from (run ++ [x]) x rest' else run :: runs_from [x] x rest'
  end.
Definition runs (l : list A) : list (list A) := match l with [] => [] | x :: r => runs_from [x] x r end.

Lemma chain_snoc : forall p x y, chain eq (p ++ [x]) -> eq x y = true -> chain eq ((p ++ [x]) ++ [y]).
Proof.
  induction p as [|a p IH]; intros x y C E; cbn in *; auto.
  destruct p as [|b p]; cbn in *; [tauto|]. destruct C as [C1 C2]. split; auto. apply (IH x y); auto.
Qed.
Lemma runs_from_head : forall rest p prev, exists e rs, runs_from (p ++ [prev]) prev rest = ((p ++ [prev]) ++ e) :: rs.
Proof.
  induction rest as [|x rest IH]; intros p prev; cbn [runs_from].
  - exists [], []. rewrite app_nil_r. auto.
  - destruct (eq prev x).
    + destruct (IH (p ++ [prev]) x) as (e & rs & E). exists (x :: e), rs. rewrite E. rewrite <- !app_assoc. auto.
    + exists [], (runs_from [x] x rest). rewrite app_nil_r. auto.
Qed.
Lemma runs_from_ok : forall rest p prev, chain eq (p ++ [prev]) ->
  runs_of eq ((p ++ [prev]) ++ rest) (runs_from (p ++ [prev]) prev rest).
Proof.
  induction rest as [|x rest IH]; intros p prev C; cbn [runs_from].
  - split; [cbn; auto|]. split; [|cbn; auto]. constructor; auto. split; auto. destruct p; discriminate.
  - destruct (eq prev x) eqn:E.
    + replace ((p ++ [prev]) ++ x :: rest) with (((p ++ [prev]) ++ [x]) ++ rest) by (rewrite <- !app_assoc; auto).
      apply IH. apply chain_snoc; auto.
    + destruct (IH [] x I) as (H1 & H2 & H3). cbn [app] in *. split; [cbn [concat]; rewrite H1; auto|]. split.
      * constructor; auto. split; auto. destruct p; discriminate.
      * destruct (runs_from_head rest [] x) as (e & rs & R). cbn [app] in R. rewrite R in *. split; [|apply H3].
        exists p, prev, x, e. auto.
Qed.
Lemma runs_ok : forall l, runs_of eq l (runs l).
Proof.
  intros [|x r]; [split; [|split]; cbn; auto|]. apply (runs_from_ok r [] x I).
Qed.

(** There is only one such cutting. *)
Lemma chain_app : forall p x y q, chain eq (p ++ x :: y :: q) -> eq x y = true.
Proof.
  induction p as [|a p IH]; intros x y q C; cbn [app] in C.
  - cbn in C. tauto.
  - destruct p; cbn in C; destruct C as [_ C]; [apply (IH x y q); exact C|]. apply (IH x y q). exact C.
Qed.
Lemma head_prefix : forall (r s : list A) a b, r ++ a = s ++ b -> (exists e, s = r ++ e) \/ (exists e, r = s ++ e).
Proof.
  induction r as [|x r IH]; intros s a b H; [left; exists s; auto|].
  destruct s as [|y s]; [right; exists (x :: r); auto|]. cbn in H. injection H as -> H.
  destruct (IH s a b H) as [[e ->]|[e ->]]; [left|right]; exists e; auto.
Qed.
Lemma runs_head_same : forall r rs s ss, runs_of eq (concat (s :: ss)) (r :: rs) -> runs_of eq (concat (s :: ss)) (s :: ss) ->
  forall x e, s = r ++ x :: e -> False.
Proof.
  intros r rs s ss (H1 & H2 & H3) (G1 & G2 & G3) x e ->.
  inversion H2 as [|? ? [N C] F]; subst. inversion G2 as [|? ? [N' C'] F']; subst.
  cbn [concat] in H1. rewrite <- app_assoc in H1. apply app_inv_head in H1.
  destruct rs as [|r' rs]; [discriminate|]. destruct H3 as [(p & a & y & q & E1 & E2 & E3) _]. subst.
  cbn in H1. injection H1 as -> _. rewrite <- app_assoc in C'. cbn in C'. apply chain_app in C'. congruence.
Qed.
Lemma apart_tail : forall r rs, apart eq (r :: rs) -> apart eq rs.
Proof. intros r [|s rs] H; [exact I|]. cbn in H. tauto. Qed.
Lemma runs_unique : forall rs ss l, runs_of eq l rs -> runs_of eq l ss -> rs = ss.
Proof.
  induction rs as [|r rs IH]; intros ss l H G.
  - destruct ss as [|s ss]; auto. destruct H as (H1 & _). destruct G as (G1 & G2 & _). cbn in H1. subst.
    inversion G2 as [|? ? [N _] _]; subst. destruct s; [congruence|discriminate].
  - destruct ss as [|s ss].
    + destruct G as (G1 & _). destruct H as (H1 & H2 & _). cbn in G1. subst.
      inversion H2 as [|? ? [N _] _]; subst. destruct r; [congruence|discriminate].
    + assert (E : r = s).
      { destruct H as (H1 & H2 & H3). destruct G as (G1 & G2 & G3). subst l.
        assert (R1 : runs_of eq (concat (s :: ss)) (r :: rs)) by (split; [congruence|split; auto]).
        assert (R2 : runs_of eq (concat (s :: ss)) (s :: ss)) by (split; [congruence|split; auto]).
        assert (S1 : runs_of eq (concat (r :: rs)) (r :: rs)) by (split; [congruence|split; auto]).
        assert (S2 : runs_of eq (concat (r :: rs)) (s :: ss)) by (split; [congruence|split; auto]).
        cbn [concat] in G1. destruct (head_prefix _ _ _ _ (eq_sym G1)) as [[e E]|[e E]].
        - destruct e as [|x e]; [rewrite app_nil_r in E; auto|]. destruct (runs_head_same r rs s ss R1 R2 x e E).
        - destruct e as [|x e]; [rewrite app_nil_r in E; auto|]. destruct (runs_head_same s ss r rs S2 S1 x e E). }
      subst s. f_equal. destruct H as (H1 & H2 & H3). destruct G as (G1 & G2 & G3). cbn [concat] in *. subst l.
      apply app_inv_head in G1. inversion H2; subst. inversion G2; subst.
      apply (IH ss (concat rs)); (split; [auto|split; [auto|eapply apart_tail; eauto]]).
Qed.
End Runs.

Definition plain_line (t : textline) : Prop := tl_orig t = [].
Lemma assign_plain : forall t x, plain_line t -> plain_line x -> tl_assign t x = x.
Proof. intros [a b c] [d e f]. unfold plain_line, tl_assign. cbn. congruence. Qed.

Section P.
Variable eq : textline -> textline -> bool.
Variable cmp : textline -> textline -> comparison.
Hypothesis P : total_preorder cmp.

Lemma chosen_step : forall w run tmp x, Forall plain_line run -> plain_line x -> chosen cmp w run tmp ->
  chosen cmp w (run ++ [x]) (count_assign cmp w tmp x).
Proof.
  intros w run tmp x FP PX (p & q & E & C). pose proof P as (R & S & T).
  assert (PT : plain_line tmp) by (rewrite Forall_forall in FP; apply FP; subst; apply in_or_app; right; left; auto).
  unfold count_assign. rewrite !assign_plain by auto. destruct w.
  - subst. exists [], (q ++ [x]). auto.
  - exists run, []. auto.
  - destruct C as [C1 C2]. destruct (cmp tmp x) eqn:D.
    + exists p, (q ++ [x]). subst. rewrite <- app_assoc. split; auto. split; auto. apply Forall_app. split; auto.
      constructor; auto. rewrite S, D. discriminate.
    + exists p, (q ++ [x]). subst. rewrite <- app_assoc. split; auto. split; auto. apply Forall_app. split; auto.
      constructor; auto. rewrite S, D. discriminate.
    + exists run, []. split; auto. split; auto. assert (L : cmp x tmp = Lt) by (rewrite S, D; auto).
      subst. apply Forall_app. split; [|constructor].
      * eapply Forall_impl; [|apply C1]. cbn. intros y G. rewrite S. rewrite (ord_lt_le _ _ P x tmp y); auto. rewrite S, G. discriminate.
      * rewrite S, L. auto.
      * eapply Forall_impl; [|apply C2]. cbn. intros y G. rewrite S. rewrite (ord_lt_le _ _ P x tmp y); auto.
        rewrite S. destruct (cmp y tmp); cbn; congruence.
  - destruct C as [C1 C2]. destruct (cmp tmp x) eqn:D.
    + exists p, (q ++ [x]). subst. rewrite <- app_assoc. split; auto. split; auto. apply Forall_app. split; auto.
      constructor; auto. rewrite S, D. discriminate.
    + exists run, []. split; auto. split; auto.
      subst. apply Forall_app. split; [|constructor].
      * eapply Forall_impl; [|apply C1]. cbn. intros y G. apply (ord_le_lt _ _ P y tmp x); auto. congruence.
      * auto.
      * eapply Forall_impl; [|apply C2]. cbn. intros y G. apply (ord_le_lt _ _ P y tmp x); auto.
    + exists p, (q ++ [x]). subst. rewrite <- app_assoc. split; auto. split; auto. apply Forall_app. split; auto.
      constructor; auto. rewrite S, D. discriminate.
Qed.
Lemma chosen_one : forall w x, chosen cmp w [x] x.
Proof. intros w x. exists [], []. split; auto. destruct w; auto. Qed.

Definition shows (w : which) (r : list textline) (p : nat * textline) : Prop := fst p = length r /\ chosen cmp w r (snd p).

Lemma uniq_general_ok : forall w rest run tmp prev n, Forall plain_line run -> Forall plain_line rest -> n = length run ->
  chosen cmp w run tmp ->
  Forall2 (shows w) (runs_from eq run prev rest) (uniq_general eq cmp w tmp prev n rest).
Proof.
  intros w. induction rest as [|x rest IH]; intros run tmp prev n FR FS -> C; cbn [runs_from uniq_general].
  - repeat constructor; auto.
  - inversion FS; subst. assert (PT : plain_line tmp).
    { destruct C as (p & q & E & _). rewrite Forall_forall in FR. apply FR. subst. apply in_or_app. right. left. auto. }
    destruct (eq prev x).
    + apply IH; auto; [apply Forall_app; auto|rewrite app_length; auto|]. apply chosen_step; auto.
    + constructor; [split; auto|]. rewrite assign_plain by auto. apply IH; auto. apply chosen_one.
Qed.
Lemma uniq_last_ok : forall rest run prev n, n = length run -> chosen cmp Last run prev ->
  Forall2 (shows Last) (runs_from eq run prev rest) (uniq_last eq prev n rest).
Proof.
  induction rest as [|x rest IH]; intros run prev n -> C; cbn [runs_from uniq_last].
  - repeat constructor; auto.
  - destruct (eq prev x).
    + apply IH; [rewrite app_length; auto|]. exists run, []. auto.
    + constructor; [split; auto|]. apply IH; auto. exists [], []. auto.
Qed.
Lemma uniq_plain_ok : forall rest run prev, run <> [] ->
  exists r0 rs, runs_from eq run prev rest = (run ++ r0) :: rs /\ Forall2 (chosen cmp First) rs (uniq_plain eq prev rest).
Proof.
  induction rest as [|x rest IH]; intros run prev N; cbn [runs_from uniq_plain].
  - exists [], []. rewrite app_nil_r. auto.
  - destruct (eq prev x).
    + destruct (IH (run ++ [x]) x) as (r0 & rs & E & F); [destruct run; discriminate|].
      exists (x :: r0), rs. rewrite E, <- app_assoc. auto.
    + destruct (IH [x] x) as (r0 & rs & E & F); [discriminate|]. exists [], (([x] ++ r0) :: rs). rewrite E, app_nil_r. split; auto.
      constructor; auto. exists [], r0. auto.
Qed.
Lemma uniq_agg_ok : forall w rest run tmp prev, Forall plain_line run -> Forall plain_line rest ->
  chosen cmp w run tmp ->
  Forall2 (fun r p => snd p = r /\ chosen cmp w r (fst p)) (runs_from eq run prev rest) (uniq_agg eq cmp w tmp prev run rest).
Proof.
  intros w. induction rest as [|x rest IH]; intros run tmp prev FR FS C; cbn [runs_from uniq_agg].
  - repeat constructor; auto.
  - inversion FS; subst. assert (PT : plain_line tmp).
    { destruct C as (p & q & E & _). rewrite Forall_forall in FR. apply FR. subst. apply in_or_app. right. left. auto. }
    destruct (eq prev x).
    + apply IH; auto; [apply Forall_app; auto|]. apply chosen_step; auto.
    + constructor; [split; auto|]. rewrite assign_plain by auto. apply IH; auto. apply chosen_one.
Qed.

Lemma forall2_impl : forall T U (R Q : T -> U -> Prop), (forall a b, R a b -> Q a b) -> forall l m, Forall2 R l m -> Forall2 Q l m.
Proof. induction 2; constructor; auto. Qed.

(** The lines written, one per run. *)
Definition line_for (w : which) (pos : count_pos) (delim : N) (r : list textline) (out : bytes) : Prop :=
  exists x, chosen cmp w r x /\ out = count_write pos (length r) (tl_text x) delim.
Lemma forall2_map : forall T U V (R : T -> V -> Prop) (f : U -> V) l m, Forall2 (fun a b => R a (f b)) l m -> Forall2 R l (map f m).
Proof. induction 1; cbn; constructor; auto. Qed.
Lemma chosen_in : forall w r x, chosen cmp w r x -> In x r.
Proof. intros w r x (p & q & -> & _). apply in_or_app. right. left. auto. Qed.
Lemma uniq_lines_ok : forall w pos delim ls, Forall plain_line ls ->
  Forall2 (line_for w pos delim) (runs eq ls) (uniq_lines eq cmp w pos delim ls).
Proof.
  intros w pos delim [|x rest] F; [constructor|]. inversion F; subst.
  assert (GEN : Forall2 (line_for w pos delim) (runs eq (x :: rest))
     (map (fun p => count_write pos (fst p) (tl_text (snd p)) delim) (uniq_general eq cmp w x x 1 rest))).
  { apply forall2_map. cbn [runs]. assert (G : Forall2 (shows w) (runs_from eq [x] x rest) (uniq_general eq cmp w x x 1 rest)) by (apply uniq_general_ok; auto; apply chosen_one).
    eapply forall2_impl; [|apply G]. intros r p [E C]. exists (snd p). rewrite E. auto. }
  unfold uniq_lines. destruct w; auto.
  - destruct pos; auto. clear GEN. cbn [runs].
    destruct (uniq_plain_ok rest [x] x) as (r0 & rs & E & G); [discriminate|]. rewrite E. cbn [map].
    pose proof (proj1 (runs_from_ok eq rest [] x I)) as CC. cbn [app] in CC. rewrite E in CC.
    assert (PR : Forall (Forall plain_line) rs).
    { apply Forall_forall. intros r Hr. apply Forall_forall. intros y Hy. rewrite Forall_forall in F. apply F.
      rewrite <- CC. cbn [concat]. apply in_or_app. right. apply in_concat. eauto. }
    constructor.
    + exists x. split; [exists [], r0; auto|]. unfold count_write, tl_text. rewrite H1. auto.
    + apply forall2_map. clear - G PR. induction G; constructor; [|inversion PR; auto].
      inversion PR; subst. exists y. split; auto. cbn. unfold tl_text.
      apply chosen_in in H. rewrite Forall_forall in H2. rewrite (H2 _ H). auto.
  - clear GEN. apply forall2_map. cbn [runs].
    assert (G : Forall2 (shows Last) (runs_from eq [x] x rest) (uniq_last eq x 1 rest)) by (apply uniq_last_ok; auto; apply chosen_one).
    eapply forall2_impl; [|apply G]. intros r p [E C]. exists (snd p). rewrite E. auto.
Qed.
End P.
