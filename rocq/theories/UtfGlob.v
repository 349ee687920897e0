(** Lemmas on patterns with star and question mark over characters; the same steps as for bytes. *)
From Coq Require Import List NArith Bool Arith Lia.
Import ListNotations.
From Verif Require Import Base StrModel StrSpec GlobProofs MatchModel UtfSpec UtfModel.
Open Scope list_scope.
Section Glob.
Variable lowc : N -> list N.
Lemma s_chars_equal_spec w b ic : schars_equal lowc w b ic = true <-> stands_for lowc (ins ic) w b.
Proof.
  unfold schars_equal, stands_for. destruct (N.eqb_spec w b); [tauto|].
  destruct (N.eqb_spec w 63); [tauto|]. destruct ic; cbn [ins].
  - split; [discriminate|]. intros [H|[H|[H _]]]; congruence.
  - rewrite beq_eq. split; [auto|]. intros [H|[H|[_ H]]]; congruence.
Qed.

Lemma s_gmatch_star_self ic p t : globs lowc ic p t -> globs lowc ic (STAR :: p) t.
Proof. intros H. apply (gl_star lowc ic p [] t H). Qed.

Lemma s_gmatch_star_suffix ic p r t : globs lowc ic p t -> globs lowc ic (STAR :: p) (r ++ t).
Proof. apply (gl_star lowc). Qed.

Lemma s_glob_tail_sound ic wild : glob_tail wild = true -> globs lowc ic wild [].
Proof.
  induction wild as [|w wild IH]; intros H; [constructor|]. simpl in H.
  destruct (N.eqb_spec w STAR); [|discriminate]. subst. apply s_gmatch_star_self. auto.
Qed.

Lemma s_glob_tail_complete ic wild : globs lowc ic wild [] -> glob_tail wild = true.
Proof.
  induction wild as [|w wild IH]; intros H; auto. simpl. inversion H; subst.
  - destruct any; [|discriminate]. simpl in *; subst. auto.
Qed.

Lemma s_glob_loop_sound ic fuel : forall buff wild cp mp,
  sglob_loop lowc fuel buff wild cp mp ic = Some (Ok true) ->
  globs lowc (ins ic) wild buff \/ exists r t, cp = r ++ t /\ globs lowc (ins ic) mp t.
Proof.
  induction fuel as [|f IH]; intros buff wild cp mp H; [discriminate|]. cbn [sglob_loop] in H.
  destruct buff as [|b buff']. { left. apply s_glob_tail_sound. congruence. }
  assert (Hmm : match cp with [] => Some Panic | _ :: cp' => sglob_loop lowc f cp' mp cp' mp ic end = Some (Ok true) ->
     exists r t, cp = r ++ t /\ globs lowc (ins ic) mp t).
  { destruct cp as [|c cp']; [discriminate|]. intros Hr. apply IH in Hr as [Hr|(r & t & -> & Hr)].
    - exists [c], cp'. auto.
    - exists (c :: r), t; auto. }
  destruct wild as [|w wild']; [right; auto|].
  destruct (N.eqb_spec w STAR) as [->|Hw].
  - destruct wild' as [|w' wild']. { left. rewrite <- (app_nil_r (b :: buff')). apply (gl_star lowc). constructor. }
    apply IH in H as [H|(r & t & -> & H)].
    + left. apply s_gmatch_star_self; auto.
    + left. apply (gl_star lowc _ _ (b :: r) t); auto.
  - destruct (schars_equal lowc w b ic) eqn:E; [|right; auto].
    apply IH in H as [H|H]; auto. left. apply s_chars_equal_spec in E. constructor; auto.
Qed.

Lemma s_glob_head_inr ic buff : forall wild b' w', sglob_head lowc buff wild ic = inr (b', w') ->
  (globs lowc (ins ic) w' b' <-> globs lowc (ins ic) wild buff) /\ (b' = [] \/ exists w'', w' = STAR :: w'').
Proof.
  induction buff as [|b buff IH]; intros wild b' w' H; cbn [sglob_head] in H.
  - inversion H; subst. split; [tauto|auto].
  - destruct wild as [|w wild]; [discriminate|]. destruct (N.eqb_spec w STAR) as [->|Hw].
    + inversion H; subst. split; [tauto|]. right; eauto.
    + destruct (schars_equal lowc w b ic) eqn:E; [|discriminate]. apply IH in H as [H1 H2]. split; auto. rewrite H1. split.
      * constructor; auto. apply s_chars_equal_spec; auto.
      * intros G; inversion G; subst; auto; unfold STAR in Hw; congruence.
Qed.

Lemma s_glob_head_inl ic buff : forall wild b, sglob_head lowc buff wild ic = inl b -> b = false /\ ~ globs lowc (ins ic) wild buff.
Proof.
  induction buff as [|x buff IH]; intros wild b H; cbn [sglob_head] in H; [discriminate|].
  destruct wild as [|w wild]. { inversion H; split; auto. intros G; inversion G. }
  destruct (N.eqb_spec w STAR) as [->|Hw]; [discriminate|].
  destruct (schars_equal lowc w x ic) eqn:E.
  - apply IH in H as [-> H]. split; auto. intros G; inversion G; subst; auto; unfold STAR in Hw; congruence.
  - inversion H; split; auto. intros G; inversion G; subst; [unfold STAR in Hw; congruence|].
    match goal with Hc : stands_for lowc _ _ _ |- _ => apply s_chars_equal_spec in Hc; congruence end.
Qed.

(** Termination *)
Lemma s_glob_loop_total ic K fuel : forall buff wild cp mp,
  length buff < K -> length cp < K -> length wild <= length mp ->
  length mp * (K * K) + length cp * K + length buff < fuel ->
  exists r, sglob_loop lowc fuel buff wild cp mp ic = Some r.
Proof.
  induction fuel as [|f IH]; intros buff wild cp mp Hb Hc Hw Hf; [lia|]. cbn [sglob_loop].
  destruct buff as [|b buff']; [eauto|]. simpl length in *.
  assert (Hmm : exists r, match cp with [] => Some Panic | _ :: cp' => sglob_loop lowc f cp' mp cp' mp ic end = Some r).
  { destruct cp as [|c cp']; [eauto|]. simpl length in *. apply IH; try lia; try nia. }
  destruct wild as [|w wild']; [exact Hmm|]. simpl length in *. destruct (w =? STAR)%N.
  - destruct wild' as [|w' wild']; [eauto|]. simpl length in *. apply IH; simpl length; try lia.
    destruct (length mp) as [|m]; [lia|]. 
    assert (S (length wild') * (K * K) + length buff' * K + S (length buff') < S m * (K * K)); [|lia].
    assert (S (length wild') * (K * K) <= m * (K * K)) by (apply Nat.mul_le_mono_r; lia). nia.
  - destruct (schars_equal lowc w b ic); [|exact Hmm]. apply IH; try lia.
Qed.

Lemma s_glob_total buff wild ic : exists r, sglob lowc buff wild ic = Some r.
Proof.
  unfold sglob. destruct (sglob_head lowc buff wild ic) as [b|[b' w']] eqn:E; [eauto|].
  apply s_glob_head_inr in E as [_ [->|(w'' & ->)]].
  - cbn [sglob_loop glob_fuel]. eauto.
  - unfold glob_fuel. cbn [sglob_loop]. destruct b' as [|b b']; [eauto|]. rewrite N.eqb_refl.
    destruct w'' as [|w w'']; [eauto|]. 
    apply (s_glob_loop_total ic (S (length (b :: b')))); simpl length; try lia; try nia.
Qed.

Lemma s_glob_loop_mono ic f : forall k buff wild cp mp r,
  sglob_loop lowc f buff wild cp mp ic = Some r -> sglob_loop lowc (f + k) buff wild cp mp ic = Some r.
Proof.
  induction f as [|f IH]; intros k buff wild cp mp r H; [discriminate|]. cbn [sglob_loop Nat.add] in *.
  destruct buff as [|b buff']; auto.
  destruct wild as [|w wild'].
  - destruct cp; auto.
  - destruct (w =? STAR)%N. { destruct wild'; auto. }
    destruct (schars_equal lowc w b ic); auto. destruct cp; auto.
Qed.

Lemma s_glob_loop_det ic f1 f2 buff wild cp mp r1 r2 :
  sglob_loop lowc f1 buff wild cp mp ic = Some r1 -> sglob_loop lowc f2 buff wild cp mp ic = Some r2 -> r1 = r2.
Proof.
  intros H1 H2. apply (s_glob_loop_mono _ _ f2) in H1. apply (s_glob_loop_mono _ _ f1) in H2.
  rewrite Nat.add_comm in H2. congruence.
Qed.

(** Patterns without a star. *)
Fixpoint char_match (ic : case) (w b : bytes) : bool :=
  match w, b with
  | [], [] => true
  | x :: w', y :: b' => schars_equal lowc x y ic && char_match ic w' b'
  | _, _ => false
  end.

Lemma s_smatch_spec ic w : ~ In STAR w -> forall b, char_match ic w b = true <-> globs lowc (ins ic) w b.
Proof.
  induction w as [|x w IH]; intros Hn b; destruct b as [|y b]; simpl; split; intros H; try discriminate; auto.
  - constructor.
  - inversion H.
  - inversion H; subst. destruct any; [|discriminate]. exfalso; apply Hn; left; auto.
  - apply andb_true_iff in H as [H1 H2]. constructor.
    + intros ->; apply Hn; left; auto.
    + apply s_chars_equal_spec; auto.
    + apply IH; auto. intro; apply Hn; right; auto.
  - inversion H; subst. { exfalso; apply Hn; left; auto. }
    apply andb_true_iff; split. { apply s_chars_equal_spec; auto. } apply IH; auto. intro; apply Hn; right; auto.
Qed.

Lemma s_smatch_length ic w : forall b, char_match ic w b = true -> length w = length b.
Proof. induction w as [|x w IH]; intros [|y b] H; simpl in *; try discriminate; auto. apply andb_true_iff in H as [_ H]. f_equal; auto. Qed.

Definition s_evals ic buff wild cp mp r := exists f, sglob_loop lowc f buff wild cp mp ic = Some r.

(** Running a star-free pattern: either the text ends, or we fall back to [cp]. *)
Lemma s_evals_nostar ic mp cp w : ~ In STAR w -> forall b,
  (length b <= length w -> char_match ic w b = true -> s_evals ic b w cp mp (Ok true)) /\
  (char_match ic w b = false ->
     (length b < length w /\ s_evals ic b w cp mp (Ok false)) \/
     (forall r, (b <> [] -> match cp with [] => r = Panic | _ :: cp' => s_evals ic cp' mp cp' mp r end) -> 
        b <> [] -> s_evals ic b w cp mp r)).
Proof.
  induction w as [|x w IH]; intros Hn b.
  - destruct b as [|y b]; split; intros; simpl in *; try discriminate; try lia.
    + exists 1. reflexivity.
    + right. intros r Hr _. specialize (Hr ltac:(discriminate)). destruct cp as [|c cp'].
      * subst. exists 1; reflexivity.
      * destruct Hr as [f Hf]. exists (S f). cbn [sglob_loop]. exact Hf.
  - assert (Hx : (x =? STAR)%N = false). { apply N.eqb_neq. intros ->; apply Hn; left; auto. }
    assert (Hn' : ~ In STAR w) by (intro; apply Hn; right; auto).
    destruct b as [|y b]; split; intros; simpl in *; try discriminate.
    + left. split; [lia|]. exists 1. cbn [sglob_loop glob_tail]. rewrite Hx. reflexivity.
    + apply andb_true_iff in H0 as [H1 H2]. destruct (IH Hn' b) as [I1 _]. destruct I1 as [f Hf]; [lia|auto|].
      exists (S f). cbn [sglob_loop]. rewrite Hx, H1. exact Hf.
    + destruct (schars_equal lowc x y ic) eqn:E.
      * simpl in H. destruct (IH Hn' b) as [_ I2]. destruct (I2 H) as [[L [f Hf]]|I].
        -- left. split; [lia|]. exists (S f). cbn [sglob_loop]. rewrite Hx, E. exact Hf.
        -- destruct b as [|z b].
           ++ left. destruct w as [|x' w]; [discriminate|]. split; [simpl; lia|].
              exists 2. cbn [sglob_loop glob_tail]. rewrite Hx, E. 
              replace (x' =? STAR)%N with false; auto. symmetry. apply N.eqb_neq. intros ->; apply Hn'; left; auto.
           ++ right. intros r Hr _. destruct (I r) as [f Hf].
              { intros _. apply Hr; discriminate. } { discriminate. }
              exists (S f). cbn [sglob_loop]. rewrite Hx, E. exact Hf.
      * right. intros r Hr _. specialize (Hr ltac:(discriminate)). destruct cp as [|c cp'].
        -- subst. exists 1. cbn [sglob_loop]. rewrite Hx, E. reflexivity.
        -- destruct Hr as [f Hf]. exists (S f). cbn [sglob_loop]. rewrite Hx, E. exact Hf.
Qed.

(** The suffix of the right length matches. *)
Definition s_suffix_match ic (s t : bytes) : bool :=
  (length s <=? length t) && char_match ic s (skipn (length t - length s) t).

Lemma s_evals_try ic s : s <> [] -> ~ In STAR s -> forall n t, length t <= n ->
  s_evals ic t s t s (Ok (s_suffix_match ic s t)).
Proof.
  intros Hs Hn. induction n as [|n IH]; intros t Ht.
  - destruct t; [|simpl in Ht; lia]. exists 1. cbn [sglob_loop]. unfold s_suffix_match. destruct s as [|x s]; [congruence|].
    simpl. destruct (N.eqb_spec x STAR); auto. exfalso; apply Hn; left; auto.
  - destruct (char_match ic s t) eqn:E.
    + pose proof (s_smatch_length _ _ _ E) as L. 
      destruct (s_evals_nostar ic s t s Hn t) as [I _]. replace (s_suffix_match ic s t) with true.
      * apply I; auto. lia.
      * unfold s_suffix_match. rewrite L, Nat.leb_refl, Nat.sub_diag. simpl. auto.
    + destruct (s_evals_nostar ic s t s Hn t) as [_ I]. destruct (I E) as [[L H]|H].
      * unfold s_suffix_match. replace (length s <=? length t) with false; auto. symmetry; apply Nat.leb_gt; auto.
      * destruct t as [|c t].
        { exists 1. cbn [sglob_loop]. unfold s_suffix_match. destruct s as [|x s]; [congruence|].
          simpl. destruct (N.eqb_spec x STAR); auto. exfalso; apply Hn; left; auto. }
        apply H; [|discriminate]. intros _. replace (s_suffix_match ic s (c :: t)) with (s_suffix_match ic s t).
        { apply IH. simpl in Ht; lia. }
        unfold s_suffix_match. simpl length.
        destruct (Nat.leb_spec (length s) (length t)).
        -- replace (length s <=? S (length t)) with true by (symmetry; apply Nat.leb_le; lia).
           replace (S (length t) - length s) with (S (length t - length s)) by lia. reflexivity.
        -- destruct (Nat.leb_spec (length s) (S (length t))); auto.
           replace (S (length t) - length s) with 0 by lia. simpl skipn. rewrite E. reflexivity.
Qed.

(** Pattern star then [s] on text [t]. *)
Definition s_one_star_result ic (s t : bytes) : res bool :=
  match t with
  | [_] => if char_match ic (firstn 1 s) t then Ok (char_match ic s t) else Panic
  | _ => Ok (s_suffix_match ic s t && negb (length t - length s =? 1))
  end.

Lemma s_star_evals ic s t : s <> [] -> ~ In STAR s -> t <> [] -> s_evals ic t (STAR :: s) [] [] (s_one_star_result ic s t).
Proof.
  intros Hs Hn Ht.
  assert (H : s_evals ic t s (tl t) s (s_one_star_result ic s t)).
  2:{ destruct H as [f Hf]. exists (S f). cbn [sglob_loop]. destruct t as [|c t]; [congruence|]. rewrite N.eqb_refl.
      destruct s as [|x s]; [congruence|]. exact Hf. }
  destruct t as [|c [|c2 t]]; [congruence| |].
  - unfold s_one_star_result. simpl tl. destruct s as [|x s]; [congruence|].
    assert (Hx : (x =? STAR)%N = false). { apply N.eqb_neq. intros ->; apply Hn; left; auto. }
    simpl char_match. destruct (schars_equal lowc x c ic) eqn:E; cbn [andb].
    + exists 2. cbn [sglob_loop]. rewrite Hx, E. destruct s as [|y s]; [reflexivity|]. simpl.
      destruct (N.eqb_spec y STAR); auto. exfalso; apply Hn; right; left; auto.
    + exists 1. cbn [sglob_loop]. rewrite Hx, E. auto.
  - change (tl (c :: c2 :: t)) with (c2 :: t). set (T := c :: c2 :: t).
    change (s_one_star_result ic s T) with (Ok (s_suffix_match ic s T && negb (length T - length s =? 1))).
    destruct (s_evals_nostar ic s (c2 :: t) s Hn T) as [I1 I2].
    destruct (char_match ic s T) eqn:E.
    + pose proof (s_smatch_length _ _ _ E) as L. unfold s_suffix_match. rewrite L, Nat.leb_refl, Nat.sub_diag.
      change (skipn 0 T) with T. rewrite E. cbn [Nat.eqb negb andb]. apply I1; auto. rewrite L; auto.
    + destruct (I2 eq_refl) as [[L H]|H].
      * unfold s_suffix_match. replace (length s <=? length T) with false by (symmetry; apply Nat.leb_gt; auto). exact H.
      * apply H; [|discriminate]. intros _.
        replace (s_suffix_match ic s T && negb (length T - length s =? 1)) with (s_suffix_match ic s t).
        { apply s_evals_try with (n := length t); auto. }
        unfold s_suffix_match, T. simpl length.
        destruct (Nat.leb_spec (length s) (length t)).
        -- replace (length s <=? S (S (length t))) with true by (symmetry; apply Nat.leb_le; lia).
           replace (S (S (length t)) - length s) with (S (S (length t - length s))) by lia. simpl. rewrite andb_true_r. reflexivity.
        -- destruct (Nat.leb_spec (length s) (S (S (length t)))); auto.
           assert (Hc : S (S (length t)) - length s = 0 \/ S (S (length t)) - length s = 1) by lia.
           destruct Hc as [-> | ->]; simpl; [|rewrite andb_false_r; auto].
           change (skipn 0 (c :: c2 :: t)) with T. fold T. unfold T in *. rewrite E. reflexivity.
Qed.

Lemma s_glob_nostar ic p buff : ~ In STAR p -> sglob lowc buff p ic = Some (Ok (char_match ic p buff)).
Proof.
  intros Hn. unfold sglob. destruct (sglob_head lowc buff p ic) as [b|[b' w']] eqn:E.
  - apply s_glob_head_inl in E as [-> E]. do 2 f_equal. destruct (char_match ic p buff) eqn:S; auto. apply s_smatch_spec in S; auto; contradiction.
  - assert (Hw : ~ In STAR w').
    { clear -E Hn. revert p Hn E. induction buff as [|b buff IH]; intros p Hn E; cbn [sglob_head] in E; [inversion E; subst; auto|].
      destruct p as [|x p]; [discriminate|]. destruct (N.eqb_spec x STAR); [inversion E; subst; auto|].
      destruct (schars_equal lowc x b ic); [|discriminate]. apply (IH p); auto. intro; apply Hn; right; auto. }
    apply s_glob_head_inr in E as [E1 [->|(w'' & ->)]]; [|exfalso; apply Hw; left; auto].
    unfold glob_fuel. cbn [sglob_loop]. do 2 f_equal.
    apply eq_true_iff_eq. split; intros H.
    + apply s_smatch_spec; auto. apply E1. apply s_glob_tail_sound; auto.
    + apply s_smatch_spec in H; auto. apply E1 in H. eapply s_glob_tail_complete; eauto.
Qed.

(** The head loop strips a star-free prefix. *)
Lemma s_glob_head_prefix ic p : ~ In STAR p -> forall buff rest,
  sglob_head lowc buff (p ++ STAR :: rest) ic =
  if length buff <? length p then
    (if char_match ic (firstn (length buff) p) buff then inr ([], skipn (length buff) p ++ STAR :: rest) else inl false)
  else if char_match ic p (firstn (length p) buff) then inr (skipn (length p) buff, STAR :: rest) else inl false.
Proof.
  induction p as [|x p IH]; intros Hn buff rest.
  - simpl. destruct buff; reflexivity.
  - assert (Hx : (x =? STAR)%N = false). { apply N.eqb_neq. intros ->; apply Hn; left; auto. }
    destruct buff as [|b buff]; [reflexivity|]. cbn [app sglob_head length]. rewrite Hx.
    change (S (length buff) <? S (length p)) with (length buff <? length p).
    cbn [firstn skipn char_match]. destruct (schars_equal lowc x b ic); cbn [andb].
    + apply IH. intro; apply Hn; right; auto.
    + destruct (length buff <? length p); reflexivity.
Qed.

Lemma s_glob_one_star ic p s t : ~ In STAR p -> ~ In STAR s -> s <> [] -> t <> [] ->
  forall pre, char_match ic p pre = true ->
  sglob lowc (pre ++ t) (p ++ STAR :: s) ic = Some (s_one_star_result ic s t).
Proof.
  intros Hp Hs Hne Ht pre Hpre. pose proof (s_smatch_length _ _ _ Hpre) as L.
  unfold sglob. rewrite s_glob_head_prefix by auto.
  replace (length (pre ++ t) <? length p) with false by (symmetry; apply Nat.ltb_ge; rewrite app_length; lia).
  rewrite L. rewrite firstn_app, Nat.sub_diag, firstn_all. cbn [firstn]. rewrite app_nil_r, Hpre.
  rewrite skipn_app, Nat.sub_diag, skipn_all. cbn [skipn app].
  destruct (s_star_evals ic s t Hne Hs Ht) as [f Hf].
  assert (Ht2 : exists r, sglob_loop lowc (glob_fuel t (STAR :: s)) t (STAR :: s) [] [] ic = Some r).
  { pose proof (s_glob_total t (STAR :: s) ic) as [r Hr]. unfold sglob in Hr.
    replace (sglob_head lowc t (STAR :: s) ic) with (@inr bool _ (t, STAR :: s)) in Hr; [eauto|].
    destruct t; [congruence|]. reflexivity. }
  destruct Ht2 as [r Hr]. rewrite Hr. f_equal. eapply s_glob_loop_det; eauto.
Qed.

Lemma s_smatch_app_inv ic s r : forall t, char_match ic s t = true -> length t = length s -> char_match ic s (skipn (length r) (r ++ t)) = true.
Proof. intros t H _. rewrite skipn_app, skipn_all, Nat.sub_diag. exact H. Qed.

Lemma s_one_star_spec ic p s pre t : ~ In STAR p -> ~ In STAR s -> s <> [] -> 2 <= length t ->
  globs lowc (ins ic) p pre ->
  exists b, sglob lowc (pre ++ t) (p ++ STAR :: s) ic = Some (Ok b) /\
    (b = true <-> exists run t', t = run ++ t' /\ globs lowc (ins ic) s t' /\ length run <> 1).
Proof.
  intros Hp Hs Hne Ht Hpre. apply s_smatch_spec in Hpre; auto.
  exists (s_suffix_match ic s t && negb (length t - length s =? 1)). split.
  - rewrite s_glob_one_star; auto. 2:{ destruct t; [simpl in Ht; lia|discriminate]. }
    destruct t as [|a [|b t]]; simpl in Ht; try lia. reflexivity.
  - unfold s_suffix_match. rewrite !andb_true_iff, negb_true_iff, Nat.leb_le, Nat.eqb_neq. split.
    + intros [[H1 H2] H3]. exists (firstn (length t - length s) t), (skipn (length t - length s) t).
      rewrite firstn_skipn. split; auto. split. { apply s_smatch_spec; auto. }
      rewrite firstn_length. lia.
    + intros (run & t' & -> & G & Hl). apply s_smatch_spec in G; auto. pose proof (s_smatch_length _ _ _ G) as L.
      rewrite app_length. split; [split; [lia|]|lia].
      replace (length run + length t' - length s) with (length run) by lia.
      rewrite skipn_app, skipn_all, Nat.sub_diag. exact G.
Qed.

Lemma s_one_star_panic ic p s x c pre : ~ In STAR p -> ~ In STAR (x :: s) ->
  globs lowc (ins ic) p pre -> ~ stands_for lowc (ins ic) x c ->
  sglob lowc (pre ++ [c]) (p ++ STAR :: x :: s) ic = Some Panic.
Proof.
  intros Hp Hs Hpre Hx. apply s_smatch_spec in Hpre; auto. rewrite s_glob_one_star; auto; try discriminate.
  unfold s_one_star_result. simpl. destruct (schars_equal lowc x c ic) eqn:E; auto.
  apply s_chars_equal_spec in E. contradiction.
Qed.

Lemma s_trailing_star ic p buff : ~ In STAR p -> exists b, sglob lowc buff (p ++ [STAR]) ic = Some (Ok b) /\
  (b = true <-> globs lowc (ins ic) (p ++ [STAR]) buff).
Proof.
  intros Hp. unfold sglob. destruct (sglob_head lowc buff (p ++ [STAR]) ic) as [b|[b' w']] eqn:E.
  - apply s_glob_head_inl in E as [-> E]. exists false. split; auto. split; [discriminate|contradiction].
  - pose proof (s_glob_head_inr _ _ _ _ _ E) as [H _].
    enough (exists b, sglob_loop lowc (glob_fuel b' w') b' w' [] [] ic = Some (Ok b) /\ (b = true <-> globs lowc (ins ic) w' b'))
      as (b & G1 & G2) by (exists b; rewrite <- H; auto). clear H.
    rewrite s_glob_head_prefix in E by auto.
    destruct (length buff <? length p).
    + destruct (char_match _ _ _); inversion E; subst. exists (glob_tail (skipn (length buff) p ++ [STAR])).
      split; [reflexivity|]. split; [apply s_glob_tail_sound|apply s_glob_tail_complete].
    + destruct (char_match _ _ _); inversion E; subst. exists true. unfold glob_fuel.
      destruct (skipn (length p) buff) as [|x r] eqn:Es; cbn [sglob_loop].
      * split; [reflexivity|]. split; auto. intros _. apply (gl_star lowc _ [] []). constructor.
      * rewrite N.eqb_refl. split; [reflexivity|]. split; auto. intros _.
        rewrite <- (app_nil_r (x :: r)). apply (gl_star lowc). constructor.
Qed.

Lemma s_glob_sound buff wild ic : sglob lowc buff wild ic = Some (Ok true) -> globs lowc (ins ic) wild buff.
Proof.
  intros H. unfold sglob in H. destruct (sglob_head lowc buff wild ic) as [b|[b' w']] eqn:E.
  - apply s_glob_head_inl in E as [-> _]. discriminate.
  - apply s_glob_head_inr in E as [E [->|(w'' & ->)]]; apply E; clear E; unfold glob_fuel in H; cbn [sglob_loop] in H.
    + apply s_glob_tail_sound. congruence.
    + destruct b' as [|b b']; [apply s_glob_tail_sound; congruence|]. rewrite N.eqb_refl in H.
      destruct w'' as [|w w'']. { rewrite <- (app_nil_r (b :: b')). apply (gl_star lowc). constructor. }
      apply s_glob_loop_sound in H as [H|(r & t & -> & H)].
      * apply s_gmatch_star_self; auto.
      * apply (gl_star lowc _ _ (b :: r) t); auto.
Qed.
End Glob.
