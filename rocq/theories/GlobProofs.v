(** Lemmas on globbing. *)
From Coq Require Import List NArith Bool Arith Lia.
Import ListNotations.
From Verif Require Import Base StrModel StrSpec.

Definition ins (ic : case) : bool := match ic with Insens => true | Sens => false end.

Lemma chars_equal_spec w b ic : chars_equal w b ic = true <-> same_char (ins ic) w b.
Proof.
  unfold chars_equal, same_char. destruct (N.eqb_spec w b); [tauto|].
  destruct (N.eqb_spec w 63); [tauto|]. destruct ic; cbn [ins].
  - split; [discriminate|]. intros [H|[H|[H _]]]; congruence.
  - rewrite N.eqb_eq. split; [auto|]. intros [H|[H|[_ H]]]; congruence.
Qed.

Lemma gmatch_star_self ic p t : gmatch ic p t -> gmatch ic (STAR :: p) t.
Proof. intros H. apply (gm_star ic p [] t H). Qed.

Lemma gmatch_star_suffix ic p r t : gmatch ic p t -> gmatch ic (STAR :: p) (r ++ t).
Proof. apply gm_star. Qed.

Lemma glob_tail_sound ic wild : glob_tail wild = true -> gmatch ic wild [].
Proof.
  induction wild as [|w wild IH]; intros H; [constructor|]. simpl in H.
  destruct (N.eqb_spec w STAR); [|discriminate]. subst. apply gmatch_star_self. auto.
Qed.

Lemma glob_tail_complete ic wild : gmatch ic wild [] -> glob_tail wild = true.
Proof.
  induction wild as [|w wild IH]; intros H; auto. simpl. inversion H; subst.
  - destruct run; [|discriminate]. simpl in *; subst. auto.
Qed.

Lemma glob_loop_sound ic fuel : forall buff wild cp mp,
  glob_loop fuel buff wild cp mp ic = Some (Ok true) ->
  gmatch (ins ic) wild buff \/ exists r t, cp = r ++ t /\ gmatch (ins ic) mp t.
Proof.
  induction fuel as [|f IH]; intros buff wild cp mp H; [discriminate|]. cbn [glob_loop] in H.
  destruct buff as [|b buff']. { left. apply glob_tail_sound. congruence. }
  assert (Hmm : match cp with [] => Some Panic | _ :: cp' => glob_loop f cp' mp cp' mp ic end = Some (Ok true) ->
     exists r t, cp = r ++ t /\ gmatch (ins ic) mp t).
  { destruct cp as [|c cp']; [discriminate|]. intros Hr. apply IH in Hr as [Hr|(r & t & -> & Hr)].
    - exists [c], cp'. auto.
    - exists (c :: r), t; auto. }
  destruct wild as [|w wild']; [right; auto|].
  destruct (N.eqb_spec w STAR) as [->|Hw].
  - destruct wild' as [|w' wild']. { left. rewrite <- (app_nil_r (b :: buff')). apply gm_star. constructor. }
    apply IH in H as [H|(r & t & -> & H)].
    + left. apply gmatch_star_self; auto.
    + left. apply (gm_star _ _ (b :: r) t); auto.
  - destruct (chars_equal w b ic) eqn:E; [|right; auto].
    apply IH in H as [H|H]; auto. left. apply chars_equal_spec in E. constructor; auto.
Qed.

Lemma glob_head_inr ic buff : forall wild b' w', glob_head buff wild ic = inr (b', w') ->
  (gmatch (ins ic) w' b' <-> gmatch (ins ic) wild buff) /\ (b' = [] \/ exists w'', w' = STAR :: w'').
Proof.
  induction buff as [|b buff IH]; intros wild b' w' H; cbn [glob_head] in H.
  - inversion H; subst. split; [tauto|auto].
  - destruct wild as [|w wild]; [discriminate|]. destruct (N.eqb_spec w STAR) as [->|Hw].
    + inversion H; subst. split; [tauto|]. right; eauto.
    + destruct (chars_equal w b ic) eqn:E; [|discriminate]. apply IH in H as [H1 H2]. split; auto. rewrite H1. split.
      * constructor; auto. apply chars_equal_spec; auto.
      * intros G; inversion G; subst; auto; unfold STAR in Hw; congruence.
Qed.

Lemma glob_head_inl ic buff : forall wild b, glob_head buff wild ic = inl b -> b = false /\ ~ gmatch (ins ic) wild buff.
Proof.
  induction buff as [|x buff IH]; intros wild b H; cbn [glob_head] in H; [discriminate|].
  destruct wild as [|w wild]. { inversion H; split; auto. intros G; inversion G. }
  destruct (N.eqb_spec w STAR) as [->|Hw]; [discriminate|].
  destruct (chars_equal w x ic) eqn:E.
  - apply IH in H as [-> H]. split; auto. intros G; inversion G; subst; auto; unfold STAR in Hw; congruence.
  - inversion H; split; auto. intros G; inversion G; subst; [unfold STAR in Hw; congruence|].
    match goal with Hc : same_char _ _ _ |- _ => apply chars_equal_spec in Hc; congruence end.
Qed.

(** Termination *)
Lemma glob_loop_total ic K fuel : forall buff wild cp mp,
  length buff < K -> length cp < K -> length wild <= length mp ->
  length mp * (K * K) + length cp * K + length buff < fuel ->
  exists r, glob_loop fuel buff wild cp mp ic = Some r.
Proof.
  induction fuel as [|f IH]; intros buff wild cp mp Hb Hc Hw Hf; [lia|]. cbn [glob_loop].
  destruct buff as [|b buff']; [eauto|]. simpl length in *.
  assert (Hmm : exists r, match cp with [] => Some Panic | _ :: cp' => glob_loop f cp' mp cp' mp ic end = Some r).
  { destruct cp as [|c cp']; [eauto|]. simpl length in *. apply IH; try lia; try nia. }
  destruct wild as [|w wild']; [exact Hmm|]. simpl length in *. destruct (w =? STAR)%N.
  - destruct wild' as [|w' wild']; [eauto|]. simpl length in *. apply IH; simpl length; try lia.
    destruct (length mp) as [|m]; [lia|]. 
    assert (S (length wild') * (K * K) + length buff' * K + S (length buff') < S m * (K * K)); [|lia].
    assert (S (length wild') * (K * K) <= m * (K * K)) by (apply Nat.mul_le_mono_r; lia). nia.
  - destruct (chars_equal w b ic); [|exact Hmm]. apply IH; try lia.
Qed.

Lemma glob_total buff wild ic : exists r, glob buff wild ic = Some r.
Proof.
  unfold glob. destruct (glob_head buff wild ic) as [b|[b' w']] eqn:E; [eauto|].
  apply glob_head_inr in E as [_ [->|(w'' & ->)]].
  - cbn [glob_loop glob_fuel]. eauto.
  - unfold glob_fuel. cbn [glob_loop]. destruct b' as [|b b']; [eauto|]. rewrite N.eqb_refl.
    destruct w'' as [|w w'']; [eauto|]. 
    apply (glob_loop_total ic (S (length (b :: b')))); simpl length; try lia; try nia.
Qed.

Lemma glob_loop_mono ic f : forall k buff wild cp mp r,
  glob_loop f buff wild cp mp ic = Some r -> glob_loop (f + k) buff wild cp mp ic = Some r.
Proof.
  induction f as [|f IH]; intros k buff wild cp mp r H; [discriminate|]. cbn [glob_loop Nat.add] in *.
  destruct buff as [|b buff']; auto.
  destruct wild as [|w wild'].
  - destruct cp; auto.
  - destruct (w =? STAR)%N. { destruct wild'; auto. }
    destruct (chars_equal w b ic); auto. destruct cp; auto.
Qed.

Lemma glob_loop_det ic f1 f2 buff wild cp mp r1 r2 :
  glob_loop f1 buff wild cp mp ic = Some r1 -> glob_loop f2 buff wild cp mp ic = Some r2 -> r1 = r2.
Proof.
  intros H1 H2. apply (glob_loop_mono _ _ f2) in H1. apply (glob_loop_mono _ _ f1) in H2.
  rewrite Nat.add_comm in H2. congruence.
Qed.

(** Patterns without a star. *)
Fixpoint smatch (ic : case) (w b : bytes) : bool :=
  match w, b with
  | [], [] => true
  | x :: w', y :: b' => chars_equal x y ic && smatch ic w' b'
  | _, _ => false
  end.

Lemma smatch_spec ic w : ~ In STAR w -> forall b, smatch ic w b = true <-> gmatch (ins ic) w b.
Proof.
  induction w as [|x w IH]; intros Hn b; destruct b as [|y b]; simpl; split; intros H; try discriminate; auto.
  - constructor.
  - inversion H.
  - inversion H; subst. destruct run; [|discriminate]. exfalso; apply Hn; left; auto.
  - apply andb_true_iff in H as [H1 H2]. constructor.
    + intros ->; apply Hn; left; auto.
    + apply chars_equal_spec; auto.
    + apply IH; auto. intro; apply Hn; right; auto.
  - inversion H; subst. { exfalso; apply Hn; left; auto. }
    apply andb_true_iff; split. { apply chars_equal_spec; auto. } apply IH; auto. intro; apply Hn; right; auto.
Qed.

Lemma smatch_length ic w : forall b, smatch ic w b = true -> length w = length b.
Proof. induction w as [|x w IH]; intros [|y b] H; simpl in *; try discriminate; auto. apply andb_true_iff in H as [_ H]. f_equal; auto. Qed.

Definition evals ic buff wild cp mp r := exists f, glob_loop f buff wild cp mp ic = Some r.

(** Running a star-free pattern: either the text ends, or we fall back to [cp]. *)
Lemma evals_nostar ic mp cp w : ~ In STAR w -> forall b,
  (length b <= length w -> smatch ic w b = true -> evals ic b w cp mp (Ok true)) /\
  (smatch ic w b = false ->
     (length b < length w /\ evals ic b w cp mp (Ok false)) \/
     (forall r, (b <> [] -> match cp with [] => r = Panic | _ :: cp' => evals ic cp' mp cp' mp r end) -> 
        b <> [] -> evals ic b w cp mp r)).
Proof.
  induction w as [|x w IH]; intros Hn b.
  - destruct b as [|y b]; split; intros; simpl in *; try discriminate; try lia.
    + exists 1. reflexivity.
    + right. intros r Hr _. specialize (Hr ltac:(discriminate)). destruct cp as [|c cp'].
      * subst. exists 1; reflexivity.
      * destruct Hr as [f Hf]. exists (S f). cbn [glob_loop]. exact Hf.
  - assert (Hx : (x =? STAR)%N = false). { apply N.eqb_neq. intros ->; apply Hn; left; auto. }
    assert (Hn' : ~ In STAR w) by (intro; apply Hn; right; auto).
    destruct b as [|y b]; split; intros; simpl in *; try discriminate.
    + left. split; [lia|]. exists 1. cbn [glob_loop glob_tail]. rewrite Hx. reflexivity.
    + apply andb_true_iff in H0 as [H1 H2]. destruct (IH Hn' b) as [I1 _]. destruct I1 as [f Hf]; [lia|auto|].
      exists (S f). cbn [glob_loop]. rewrite Hx, H1. exact Hf.
    + destruct (chars_equal x y ic) eqn:E.
      * simpl in H. destruct (IH Hn' b) as [_ I2]. destruct (I2 H) as [[L [f Hf]]|I].
        -- left. split; [lia|]. exists (S f). cbn [glob_loop]. rewrite Hx, E. exact Hf.
        -- destruct b as [|z b].
           ++ (* text exhausted inside *) left. destruct w as [|x' w]; [discriminate|]. split; [simpl; lia|].
              exists 2. cbn [glob_loop glob_tail]. rewrite Hx, E. 
              replace (x' =? STAR)%N with false; auto. symmetry. apply N.eqb_neq. intros ->; apply Hn'; left; auto.
           ++ right. intros r Hr _. destruct (I r) as [f Hf].
              { intros _. apply Hr; discriminate. } { discriminate. }
              exists (S f). cbn [glob_loop]. rewrite Hx, E. exact Hf.
      * right. intros r Hr _. specialize (Hr ltac:(discriminate)). destruct cp as [|c cp'].
        -- subst. exists 1. cbn [glob_loop]. rewrite Hx, E. reflexivity.
        -- destruct Hr as [f Hf]. exists (S f). cbn [glob_loop]. rewrite Hx, E. exact Hf.
Qed.

(** The suffix of the right length matches. *)
Definition suffix_match ic (s t : bytes) : bool :=
  (length s <=? length t) && smatch ic s (skipn (length t - length s) t).

Lemma evals_try ic s : s <> [] -> ~ In STAR s -> forall n t, length t <= n ->
  evals ic t s t s (Ok (suffix_match ic s t)).
Proof.
  intros Hs Hn. induction n as [|n IH]; intros t Ht.
  - destruct t; [|simpl in Ht; lia]. exists 1. cbn [glob_loop]. unfold suffix_match. destruct s as [|x s]; [congruence|].
    simpl. destruct (N.eqb_spec x STAR); auto. exfalso; apply Hn; left; auto.
  - destruct (smatch ic s t) eqn:E.
    + pose proof (smatch_length _ _ _ E) as L. 
      destruct (evals_nostar ic s t s Hn t) as [I _]. replace (suffix_match ic s t) with true.
      * apply I; auto. lia.
      * unfold suffix_match. rewrite L, Nat.leb_refl, Nat.sub_diag. simpl. auto.
    + destruct (evals_nostar ic s t s Hn t) as [_ I]. destruct (I E) as [[L H]|H].
      * unfold suffix_match. replace (length s <=? length t) with false; auto. symmetry; apply Nat.leb_gt; auto.
      * destruct t as [|c t].
        { exists 1. cbn [glob_loop]. unfold suffix_match. destruct s as [|x s]; [congruence|].
          simpl. destruct (N.eqb_spec x STAR); auto. exfalso; apply Hn; left; auto. }
        apply H; [|discriminate]. intros _. replace (suffix_match ic s (c :: t)) with (suffix_match ic s t).
        { apply IH. simpl in Ht; lia. }
        unfold suffix_match. simpl length.
        destruct (Nat.leb_spec (length s) (length t)).
        -- replace (length s <=? S (length t)) with true by (symmetry; apply Nat.leb_le; lia).
           replace (S (length t) - length s) with (S (length t - length s)) by lia. reflexivity.
        -- destruct (Nat.leb_spec (length s) (S (length t))); auto.
           replace (S (length t) - length s) with 0 by lia. simpl skipn. rewrite E. reflexivity.
Qed.

(** Pattern star then [s] on text [t]. *)
Definition one_star_result ic (s t : bytes) : res bool :=
  match t with
  | [_] => if smatch ic (firstn 1 s) t then Ok (smatch ic s t) else Panic
  | _ => Ok (suffix_match ic s t && negb (length t - length s =? 1))
  end.

Lemma star_evals ic s t : s <> [] -> ~ In STAR s -> t <> [] -> evals ic t (STAR :: s) [] [] (one_star_result ic s t).
Proof.
  intros Hs Hn Ht.
  assert (H : evals ic t s (tl t) s (one_star_result ic s t)).
  2:{ destruct H as [f Hf]. exists (S f). cbn [glob_loop]. destruct t as [|c t]; [congruence|]. rewrite N.eqb_refl.
      destruct s as [|x s]; [congruence|]. exact Hf. }
  destruct t as [|c [|c2 t]]; [congruence| |].
  - (* one character *)
    unfold one_star_result. simpl tl. destruct s as [|x s]; [congruence|].
    assert (Hx : (x =? STAR)%N = false). { apply N.eqb_neq. intros ->; apply Hn; left; auto. }
    simpl smatch. destruct (chars_equal x c ic) eqn:E; cbn [andb].
    + exists 2. cbn [glob_loop]. rewrite Hx, E. destruct s as [|y s]; [reflexivity|]. simpl.
      destruct (N.eqb_spec y STAR); auto. exfalso; apply Hn; right; left; auto.
    + exists 1. cbn [glob_loop]. rewrite Hx, E. auto.
  - change (tl (c :: c2 :: t)) with (c2 :: t). set (T := c :: c2 :: t).
    change (one_star_result ic s T) with (Ok (suffix_match ic s T && negb (length T - length s =? 1))).
    destruct (evals_nostar ic s (c2 :: t) s Hn T) as [I1 I2].
    destruct (smatch ic s T) eqn:E.
    + pose proof (smatch_length _ _ _ E) as L. unfold suffix_match. rewrite L, Nat.leb_refl, Nat.sub_diag.
      change (skipn 0 T) with T. rewrite E. cbn [Nat.eqb negb andb]. apply I1; auto. rewrite L; auto.
    + destruct (I2 eq_refl) as [[L H]|H].
      * unfold suffix_match. replace (length s <=? length T) with false by (symmetry; apply Nat.leb_gt; auto). exact H.
      * apply H; [|discriminate]. intros _.
        replace (suffix_match ic s T && negb (length T - length s =? 1)) with (suffix_match ic s t).
        { apply evals_try with (n := length t); auto. }
        unfold suffix_match, T. simpl length.
        destruct (Nat.leb_spec (length s) (length t)).
        -- replace (length s <=? S (S (length t))) with true by (symmetry; apply Nat.leb_le; lia).
           replace (S (S (length t)) - length s) with (S (S (length t - length s))) by lia. simpl. rewrite andb_true_r. reflexivity.
        -- destruct (Nat.leb_spec (length s) (S (S (length t)))); auto.
           assert (Hc : S (S (length t)) - length s = 0 \/ S (S (length t)) - length s = 1) by lia.
           destruct Hc as [-> | ->]; simpl; [|rewrite andb_false_r; auto].
           change (skipn 0 (c :: c2 :: t)) with T. fold T. unfold T in *. rewrite E. reflexivity.
Qed.

Lemma glob_nostar ic p buff : ~ In STAR p -> glob buff p ic = Some (Ok (smatch ic p buff)).
Proof.
  intros Hn. unfold glob. destruct (glob_head buff p ic) as [b|[b' w']] eqn:E.
  - apply glob_head_inl in E as [-> E]. do 2 f_equal. destruct (smatch ic p buff) eqn:S; auto. apply smatch_spec in S; auto; contradiction.
  - assert (Hw : ~ In STAR w').
    { clear -E Hn. revert p Hn E. induction buff as [|b buff IH]; intros p Hn E; cbn [glob_head] in E; [inversion E; subst; auto|].
      destruct p as [|x p]; [discriminate|]. destruct (N.eqb_spec x STAR); [inversion E; subst; auto|].
      destruct (chars_equal x b ic); [|discriminate]. apply (IH p); auto. intro; apply Hn; right; auto. }
    apply glob_head_inr in E as [E1 [->|(w'' & ->)]]; [|exfalso; apply Hw; left; auto].
    unfold glob_fuel. cbn [glob_loop]. do 2 f_equal.
    apply eq_true_iff_eq. split; intros H.
    + apply smatch_spec; auto. apply E1. apply glob_tail_sound; auto.
    + apply smatch_spec in H; auto. apply E1 in H. eapply glob_tail_complete; eauto.
Qed.

(** The head loop strips a star-free prefix. *)
Lemma glob_head_prefix ic p : ~ In STAR p -> forall buff rest,
  glob_head buff (p ++ STAR :: rest) ic =
  if length buff <? length p then
    (if smatch ic (firstn (length buff) p) buff then inr ([], skipn (length buff) p ++ STAR :: rest) else inl false)
  else if smatch ic p (firstn (length p) buff) then inr (skipn (length p) buff, STAR :: rest) else inl false.
Proof.
  induction p as [|x p IH]; intros Hn buff rest.
  - simpl. destruct buff; reflexivity.
  - assert (Hx : (x =? STAR)%N = false). { apply N.eqb_neq. intros ->; apply Hn; left; auto. }
    destruct buff as [|b buff]; [reflexivity|]. cbn [app glob_head length]. rewrite Hx.
    change (S (length buff) <? S (length p)) with (length buff <? length p).
    cbn [firstn skipn smatch]. destruct (chars_equal x b ic); cbn [andb].
    + apply IH. intro; apply Hn; right; auto.
    + destruct (length buff <? length p); reflexivity.
Qed.

Lemma glob_one_star ic p s t : ~ In STAR p -> ~ In STAR s -> s <> [] -> t <> [] ->
  forall pre, smatch ic p pre = true ->
  glob (pre ++ t) (p ++ STAR :: s) ic = Some (one_star_result ic s t).
Proof.
  intros Hp Hs Hne Ht pre Hpre. pose proof (smatch_length _ _ _ Hpre) as L.
  unfold glob. rewrite glob_head_prefix by auto.
  replace (length (pre ++ t) <? length p) with false by (symmetry; apply Nat.ltb_ge; rewrite app_length; lia).
  rewrite L. rewrite firstn_app, Nat.sub_diag, firstn_all. cbn [firstn]. rewrite app_nil_r, Hpre.
  rewrite skipn_app, Nat.sub_diag, skipn_all. cbn [skipn app].
  destruct (star_evals ic s t Hne Hs Ht) as [f Hf].
  assert (Ht2 : exists r, glob_loop (glob_fuel t (STAR :: s)) t (STAR :: s) [] [] ic = Some r).
  { pose proof (glob_total t (STAR :: s) ic) as [r Hr]. unfold glob in Hr.
    replace (glob_head t (STAR :: s) ic) with (@inr bool _ (t, STAR :: s)) in Hr; [eauto|].
    destruct t; [congruence|]. reflexivity. }
  destruct Ht2 as [r Hr]. rewrite Hr. f_equal. eapply glob_loop_det; eauto.
Qed.

Lemma smatch_app_inv ic s r : forall t, smatch ic s t = true -> length t = length s -> smatch ic s (skipn (length r) (r ++ t)) = true.
Proof. intros t H _. rewrite skipn_app, skipn_all, Nat.sub_diag. exact H. Qed.

Lemma one_star_spec ic p s pre t : ~ In STAR p -> ~ In STAR s -> s <> [] -> 2 <= length t ->
  gmatch (ins ic) p pre ->
  exists b, glob (pre ++ t) (p ++ STAR :: s) ic = Some (Ok b) /\
    (b = true <-> exists run t', t = run ++ t' /\ gmatch (ins ic) s t' /\ length run <> 1).
Proof.
  intros Hp Hs Hne Ht Hpre. apply smatch_spec in Hpre; auto.
  exists (suffix_match ic s t && negb (length t - length s =? 1)). split.
  - rewrite glob_one_star; auto. 2:{ destruct t; [simpl in Ht; lia|discriminate]. }
    destruct t as [|a [|b t]]; simpl in Ht; try lia. reflexivity.
  - unfold suffix_match. rewrite !andb_true_iff, negb_true_iff, Nat.leb_le, Nat.eqb_neq. split.
    + intros [[H1 H2] H3]. exists (firstn (length t - length s) t), (skipn (length t - length s) t).
      rewrite firstn_skipn. split; auto. split. { apply smatch_spec; auto. }
      rewrite firstn_length. lia.
    + intros (run & t' & -> & G & Hl). apply smatch_spec in G; auto. pose proof (smatch_length _ _ _ G) as L.
      rewrite app_length. split; [split; [lia|]|lia].
      replace (length run + length t' - length s) with (length run) by lia.
      rewrite skipn_app, skipn_all, Nat.sub_diag. exact G.
Qed.

Lemma one_star_panic ic p s x c pre : ~ In STAR p -> ~ In STAR (x :: s) ->
  gmatch (ins ic) p pre -> ~ same_char (ins ic) x c ->
  glob (pre ++ [c]) (p ++ STAR :: x :: s) ic = Some Panic.
Proof.
  intros Hp Hs Hpre Hx. apply smatch_spec in Hpre; auto. rewrite glob_one_star; auto; try discriminate.
  unfold one_star_result. simpl. destruct (chars_equal x c ic) eqn:E; auto.
  apply chars_equal_spec in E. contradiction.
Qed.

Lemma trailing_star ic p buff : ~ In STAR p -> exists b, glob buff (p ++ [STAR]) ic = Some (Ok b) /\
  (b = true <-> gmatch (ins ic) (p ++ [STAR]) buff).
Proof.
  intros Hp. unfold glob. destruct (glob_head buff (p ++ [STAR]) ic) as [b|[b' w']] eqn:E.
  - apply glob_head_inl in E as [-> E]. exists false. split; auto. split; [discriminate|contradiction].
  - pose proof (glob_head_inr _ _ _ _ _ E) as [H _].
    enough (exists b, glob_loop (glob_fuel b' w') b' w' [] [] ic = Some (Ok b) /\ (b = true <-> gmatch (ins ic) w' b'))
      as (b & G1 & G2) by (exists b; rewrite <- H; auto). clear H.
    rewrite glob_head_prefix in E by auto.
    destruct (length buff <? length p).
    + destruct (smatch _ _ _); inversion E; subst. exists (glob_tail (skipn (length buff) p ++ [STAR])).
      split; [reflexivity|]. split; [apply glob_tail_sound|apply glob_tail_complete].
    + destruct (smatch _ _ _); inversion E; subst. exists true. unfold glob_fuel.
      destruct (skipn (length p) buff) as [|x r] eqn:Es; cbn [glob_loop].
      * split; [reflexivity|]. split; auto. intros _. apply (gm_star _ [] []). constructor.
      * rewrite N.eqb_refl. split; [reflexivity|]. split; auto. intros _.
        rewrite <- (app_nil_r (x :: r)). apply gm_star. constructor.
Qed.

Lemma glob_sound buff wild ic : glob buff wild ic = Some (Ok true) -> gmatch (ins ic) wild buff.
Proof.
  intros H. unfold glob in H. destruct (glob_head buff wild ic) as [b|[b' w']] eqn:E.
  - apply glob_head_inl in E as [-> _]. discriminate.
  - apply glob_head_inr in E as [E [->|(w'' & ->)]]; apply E; clear E; unfold glob_fuel in H; cbn [glob_loop] in H.
    + apply glob_tail_sound. congruence.
    + destruct b' as [|b b']; [apply glob_tail_sound; congruence|]. rewrite N.eqb_refl in H.
      destruct w'' as [|w w'']. { rewrite <- (app_nil_r (b :: b')). apply gm_star. constructor. }
      apply glob_loop_sound in H as [H|(r & t & -> & H)].
      * apply gmatch_star_self; auto.
      * apply (gm_star _ _ (b :: r) t); auto.
Qed.
