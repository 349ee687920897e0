(** Lemmas on patterns with any number of stars. *)
From Coq Require Import List NArith Bool Arith Lia.
Import ListNotations.
From Verif Require Import Base TextSpec TextProofs StrModel StrSpec GlobProofs GlobSpec.

Lemma like_smatch ic s : forall t, like (same_char (ins ic)) s t <-> smatch ic s t = true.
Proof.
  induction s as [|x s IH]; intros [|y t]; cbn [smatch]; split; intros H; try discriminate; auto; try (inversion H; fail); try constructor.
  - inversion H; subst. apply andb_true_iff. split; [apply chars_equal_spec; auto|apply IH; auto].
  - apply andb_true_iff in H as [H _]. apply chars_equal_spec; auto.
  - apply andb_true_iff in H as [_ H]. apply IH; auto.
Qed.
Lemma like_length i s t : like i s t -> length s = length t.
Proof. intros H. induction H; cbn [length]; congruence. Qed.
Lemma put_unique i s t run rest run' rest' : put i s t run rest -> put i s t run' rest' -> length run = length run' -> rest = rest'.
Proof.
  intros (m & E & _ & L) (m' & E' & _ & L') H. apply like_length in L, L'. rewrite E in E'. rewrite !app_assoc in E'. 
  assert (X : length (run ++ m) = length (run' ++ m')) by (rewrite !app_length; lia).
  revert E' X. generalize (run ++ m) (run' ++ m'). clear. induction l as [|a l IH]; intros [|b l'] E X; cbn [length app] in *; try lia; auto. injection E as _ E. apply (IH l'); auto. 
Qed.
Lemma after_det i segs t o : after i segs t o -> forall o', after i segs t o' -> o = o'.
Proof.
  intros H. induction H as [segs|c t|s t b N L B|s r segs t run rest o N P F A IH|s r segs t L P|x c S|x y s segs c S|x s segs c S]; intros o' H'.
  - inversion H' as [|ct|s0 t0 b0 N0 L0 B0|s0 r0 segs0 t0 run0 rest0 o0 N0 P0 F0 A0|s0 r0 segs0 t0 L0 P0| | |]; subst; auto; cbn [length] in *; try lia. congruence.
  - inversion H'; subst; auto; try congruence.
  - inversion H' as [|ct|s0 t0 b0 N0 L0 B0|s0 r0 segs0 t0 run0 rest0 o0 N0 P0 F0 A0|s0 r0 segs0 t0 L0 P0| | |]; subst; cbn [length] in *; try lia; try congruence.
    f_equal. destruct b, b0; auto; tauto || (symmetry; tauto) || idtac. 
  - inversion H' as [|ct|s0 t0 b0 N0 L0 B0|s0 r0 segs0 t0 run0 rest0 o0 N0 P0 F0 A0|s0 r0 segs0 t0 L0 P0| |x y s0 segs0 c S|x s0 segs0 c S]; subst; try congruence.
    + assert (E : length run = length run0) by (apply Nat.le_antisymm; [eapply F; eauto|eapply F0; eauto]). rewrite (put_unique _ _ _ _ _ _ _ P P0 E) in *. auto.
    + exfalso. eapply P0; eauto.
    + exfalso. destruct P as (m & E & L & K). apply like_length in K. cbn [length] in K. assert (X : length [c] = length (run ++ m ++ rest)) by congruence. rewrite !app_length in X. cbn [length] in X. lia.
    + exfalso. destruct P as (m & E & L & K). destruct run as [|a [|a' run]]; cbn [length app] in *; [|lia|]; [|discriminate E]. inversion K; subst. cbn [app] in E. injection E as -> _. auto.
  - inversion H' as [|ct|s0 t0 b0 N0 L0 B0|s0 r0 segs0 t0 run0 rest0 o0 N0 P0 F0 A0|s0 r0 segs0 t0 L0 P0| |x y s0 segs0 c S|x s0 segs0 c S]; subst; cbn [length] in *; try lia; auto. exfalso. eapply P; eauto.
  - inversion H' as [|ct|s0 t0 b0 N0 L0 B0|s0 r0 segs0 t0 run0 rest0 o0 N0 P0 F0 A0|s0 r0 segs0 t0 L0 P0|x0 c0 S0|x0 y s0 segs0 c0 S0|x0 s0 segs0 c0 S0]; subst; cbn [length] in *; try lia; auto. contradiction.
  - inversion H' as [|ct|s0 t0 b0 N0 L0 B0|s0 r0 segs0 t0 run0 rest0 o0 N0 P0 F0 A0|s0 r0 segs0 t0 L0 P0|x0 c0 S0|x0 y0 s0 segs0 c0 S0|x0 s0 segs0 c0 S0]; subst; cbn [length] in *; try lia; auto; try contradiction.
    exfalso. destruct P0 as (m & E & L & K). apply like_length in K. cbn [length] in K. assert (X : length [c] = length (run0 ++ m ++ rest0)) by congruence. rewrite !app_length in X. cbn [length] in X. lia.
  - inversion H' as [|ct|s0 t0 b0 N0 L0 B0|s0 r0 segs0 t0 run0 rest0 o0 N0 P0 F0 A0|s0 r0 segs0 t0 L0 P0|x0 c0 S0|x0 y0 s0 segs0 c0 S0|x0 s0 segs0 c0 S0]; subst; cbn [length] in *; try lia; auto; try contradiction.
    exfalso. destruct P0 as (m & E & L & K). destruct run0 as [|a [|a' run0]]; cbn [length app] in *; [|lia|]; [|discriminate E]. inversion K; subst. cbn [app] in E. injection E as -> _. auto.
Qed.
(** Running a piece that is followed by a star. *)
Lemma run_seg ic R s : ~ In STAR s -> forall b cp mp,
  (exists m t', b = m ++ t' /\ like (same_char (ins ic)) s m /\ forall o, evals ic t' (STAR :: R) cp mp o -> evals ic b (s ++ STAR :: R) cp mp o) \/
  (length b < length s /\ evals ic b (s ++ STAR :: R) cp mp (Ok false)) \/
  (b <> [] /\ (forall m t', b = m ++ t' -> ~ like (same_char (ins ic)) s m) /\
    forall o, match cp with [] => o = Panic | _ :: cp' => evals ic cp' mp cp' mp o end -> evals ic b (s ++ STAR :: R) cp mp o).
Proof.
  induction s as [|x s IH]; intros Hn b cp mp.
  - left. exists [], b. repeat split; [constructor|auto].
  - assert (Hx : (x =? STAR)%N = false) by (apply N.eqb_neq; intros ->; apply Hn; left; auto).
    assert (Hn' : ~ In STAR s) by (intro; apply Hn; right; auto).
    destruct b as [|y b].
    + right; left. split; [cbn [length]; lia|]. exists 1. cbn [glob_loop glob_tail app]. rewrite Hx. reflexivity.
    + destruct (chars_equal x y ic) eqn:E.
      * assert (St : forall o, evals ic b (s ++ STAR :: R) cp mp o -> evals ic (y :: b) ((x :: s) ++ STAR :: R) cp mp o).
        { intros o [f Hf]. exists (S f). cbn [glob_loop app]. rewrite Hx, E. exact Hf. }
        apply chars_equal_spec in E.
        destruct (IH Hn' b cp mp) as [(m & t' & -> & K & G)|[[K G]|(Nb & K & G)]].
        -- left. exists (y :: m), t'. repeat split; [constructor; auto|auto].
        -- right; left. split; [cbn [length]; lia|auto].
        -- right; right. repeat split; [discriminate| |auto]. intros m t' D L. inversion L; subst. cbn [app] in D. injection D as -> D. eapply K; eauto.
      * right; right. repeat split; [discriminate| |].
        -- intros m t' D L. inversion L as [|? ? ? ? W]; subst. cbn [app] in D. injection D as -> D. apply chars_equal_spec in W. congruence.
        -- intros o Ho. destruct cp as [|c cp'].
           ++ subst. exists 1. cbn [glob_loop app]. rewrite Hx, E. reflexivity.
           ++ destruct Ho as [f Hf]. exists (S f). cbn [glob_loop app]. rewrite Hx, E. exact Hf.
Qed.
(** Trying a piece at one place after the other. *)
Lemma try_seg ic R s : ~ In STAR s -> s <> [] -> forall t,
  (exists run m t', t = run ++ m ++ t' /\ like (same_char (ins ic)) s m /\ (forall run' m' t'', t = run' ++ m' ++ t'' -> like (same_char (ins ic)) s m' -> length run <= length run') /\
    forall o, (forall cp mp, evals ic t' (STAR :: R) cp mp o) -> evals ic t (s ++ STAR :: R) t (s ++ STAR :: R) o) \/
  ((forall run m t', t = run ++ m ++ t' -> ~ like (same_char (ins ic)) s m) /\ evals ic t (s ++ STAR :: R) t (s ++ STAR :: R) (Ok false)).
Proof.
  intros Hn Hs. induction t as [|c t IH].
  - right. split.
    + intros run m t' D L. destruct run; [|discriminate]. destruct m; [|discriminate]. inversion L; subst; congruence.
    + destruct s as [|x s]; [congruence|]. exists 1. cbn [glob_loop glob_tail app]. destruct (N.eqb_spec x STAR); auto. exfalso; apply Hn; left; auto.
  - destruct (run_seg ic R s Hn (c :: t) (c :: t) (s ++ STAR :: R)) as [(m & t' & D & L & G)|[[L G]|(_ & L & G)]].
    + left. exists [], m, t'. repeat split; auto. intros; cbn [length]; lia.
    + right. split; auto. intros run m t' D K. apply like_length in K. assert (X : length (c :: t) = length (run ++ m ++ t')) by congruence. rewrite !app_length in X. lia.
    + destruct IH as [(run & m & t' & D & K & F & I)|[K I]].
      * left. exists (c :: run), m, t'. repeat split; auto.
        -- cbn [app]. congruence.
        -- intros run' m' t'' D' K'. destruct run' as [|a run']. { exfalso. exact (L m' _ D' K'). } cbn [app] in D'. injection D' as _ D'. cbn [length]. apply F in D'; auto. lia.
      * right. split; [|apply G; auto]. intros run m t' D' K'. destruct run as [|a run]. { exact (L m _ D' K'). } cbn [app] in D'. injection D' as _ D'. eapply K; eauto.
Qed.
(** The whole of a star, a piece and another star. *)
Lemma star_mid ic R s t c c2 : ~ In STAR s -> t = c :: c2 :: skipn 2 t ->
  (exists run rest, put (same_char (ins ic)) s t run rest /\ (forall run' rest', put (same_char (ins ic)) s t run' rest' -> length run <= length run') /\
    forall o cp mp, (forall cp mp, evals ic rest (STAR :: R) cp mp o) -> evals ic t (STAR :: s ++ STAR :: R) cp mp o) \/
  ((forall run rest, ~ put (same_char (ins ic)) s t run rest) /\ forall cp mp, evals ic t (STAR :: s ++ STAR :: R) cp mp (Ok false)).
Proof.
  intros Hn Et. set (t2 := skipn 2 t) in *. clearbody t2. subst t.
  assert (St : forall o cp mp, evals ic (c :: c2 :: t2) (s ++ STAR :: R) (c2 :: t2) (s ++ STAR :: R) o -> evals ic (c :: c2 :: t2) (STAR :: s ++ STAR :: R) cp mp o).
  { intros o cp mp [f Hf]. exists (S f). cbn [glob_loop]. rewrite N.eqb_refl. destruct (s ++ STAR :: R) eqn:W; [destruct s; discriminate|]. exact Hf. }
  destruct (run_seg ic R s Hn (c :: c2 :: t2) (c2 :: t2) (s ++ STAR :: R)) as [(m & t' & D & L & G)|[[L G]|(_ & L & G)]].
  - left. exists [], t'. repeat split.
    + exists m. repeat split; auto.
    + intros; cbn [length]; lia.
    + intros o cp mp H. apply St, G. auto.
  - right. split; auto. intros run rest (m & D & _ & K). apply like_length in K. assert (X : length (c :: c2 :: t2) = length (run ++ m ++ rest)) by congruence. rewrite !app_length in X. lia.
  - assert (Hs : s <> []) by (intros ->; apply (L [] (c :: c2 :: t2)); [reflexivity|constructor]).
    assert (Sk : forall run rest, put (same_char (ins ic)) s (c :: c2 :: t2) run rest -> exists r m, run = c :: c2 :: r /\ t2 = r ++ m ++ rest /\ like (same_char (ins ic)) s m).
    { intros run rest (m & D & N1 & K). destruct run as [|a [|a' r]]; cbn [length app] in *; [exfalso; exact (L m _ D K)|lia|]. injection D as -> -> D. exists r, m. auto. }
    destruct (try_seg ic R s Hn Hs t2) as [(run & m & t' & D & K & F & I)|[K I]].
    + left. exists (c :: c2 :: run), t'. repeat split.
      * exists m. repeat split; auto. cbn [app]. congruence. cbn [length]; lia.
      * intros run' rest' P. apply Sk in P as (r & m' & -> & D' & K'). cbn [length]. apply F in D'; auto. lia.
      * intros o cp mp H. apply St, G. auto.
    + right. split; [|intros; apply St, G; auto]. intros run rest P. apply Sk in P as (r & m' & -> & D' & K'). eapply K; eauto.
Qed.
Lemma star_pre ic s t cp mp o : evals ic t (STAR :: s) [] [] o -> t <> [] -> evals ic t (STAR :: s) cp mp o.
Proof.
  intros [f Hf] Ht. exists f. destruct f; [discriminate|]. cbn [glob_loop] in *. destruct t; [congruence|]. rewrite N.eqb_refl in *. exact Hf.
Qed.
Lemma glob_tail_join segs : Forall (fun s => ~ In STAR s) segs -> glob_tail (STAR :: join STAR segs) = forallb (fun s => match s with [] => true | _ => false end) segs.
Proof.
  intros H. change (glob_tail (STAR :: join STAR segs)) with (glob_tail (join STAR segs)). induction H as [|s segs Hs H IH]; auto. destruct segs as [|r segs].
  - cbn [join forallb]. destruct s as [|x s]; auto. cbn [glob_tail andb]. destruct (N.eqb_spec x STAR); auto. exfalso; apply Hs; left; auto.
  - cbn [forallb]. cbn [forallb] in IH. rewrite <- IH. cbn [join]. destruct s as [|x s]; [reflexivity|]. cbn [app glob_tail andb]. destruct (N.eqb_spec x STAR); auto. exfalso; apply Hs; left; auto.
Qed.
Lemma star_after ic segs : Forall (fun s => ~ In STAR s) segs -> segs <> [] -> forall t,
  exists o, (forall cp mp, evals ic t (STAR :: join STAR segs) cp mp o) /\ after (same_char (ins ic)) segs t o.
Proof.
  induction segs as [|s segs IH]; [congruence|]. intros H _ t. pose proof H as H0. inversion H as [|? ? Hs Hr]; subst.
  destruct t as [|c t].
  { eexists. split; [|apply af_end]. intros cp mp. exists 1. cbn [glob_loop]. rewrite glob_tail_join; auto. }
  destruct segs as [|r segs].
  - cbn [join]. destruct s as [|x s].
    + exists (Ok true). split; [|constructor]. intros cp mp. exists 1. reflexivity.
    + assert (Ev : forall cp mp, evals ic (c :: t) (STAR :: x :: s) cp mp (one_star_result ic (x :: s) (c :: t))).
      { intros cp mp. apply star_pre; [|discriminate]. apply star_evals; auto; discriminate. }
      exists (one_star_result ic (x :: s) (c :: t)). split; [exact Ev|]. destruct t as [|c2 t].
      * unfold one_star_result. cbn [firstn smatch]. destruct (chars_equal x c ic) eqn:E; cbn [andb].
        -- apply chars_equal_spec in E. destruct s; [apply af_fit|apply af_short]; auto.
        -- apply af_panic. intros Q. apply chars_equal_spec in Q. congruence.
      * unfold one_star_result. apply af_last; [discriminate|cbn [length]; lia|]. set (T := c :: c2 :: t). set (W := x :: s).
        unfold suffix_match. rewrite !andb_true_iff, negb_true_iff, Nat.leb_le, Nat.eqb_neq. split.
        -- intros [[H1 H2] H3]. exists (firstn (length T - length W) T), (skipn (length T - length W) T). rewrite app_nil_r, firstn_skipn. repeat split.
           ++ rewrite firstn_length. lia.
           ++ apply like_smatch; auto.
        -- intros (run & m & D & N1 & K). rewrite app_nil_r in D. pose proof (like_length _ _ _ K) as Lm. rewrite D, app_length. split; [split; [lia|]|lia].
           replace (length run + length m - length W) with (length run) by lia. rewrite skipn_app, skipn_all, Nat.sub_diag. apply like_smatch. exact K.
  - change (join STAR (s :: r :: segs)) with (s ++ STAR :: join STAR (r :: segs)). destruct t as [|c2 t].
    + destruct s as [|x s].
      * destruct (IH Hr ltac:(discriminate) [c]) as (o & Ev & A). exists o. split.
        -- intros cp mp. destruct (Ev [] (STAR :: join STAR (r :: segs))) as [f Hf]. exists (S f). cbn [glob_loop app]. rewrite N.eqb_refl. exact Hf.
        -- apply (af_next _ [] r segs [c] [] [c]); auto; try discriminate. exists []. repeat split; [cbn; lia|constructor]. intros; cbn [length]; lia.
      * assert (Hx : (x =? STAR)%N = false) by (apply N.eqb_neq; intros ->; apply Hs; left; auto).
        destruct (chars_equal x c ic) eqn:E.
        -- destruct s as [|y s].
           ++ destruct (IH Hr ltac:(discriminate) []) as (o & Ev & A). exists o. split.
              ** intros cp mp. destruct (Ev [] ([x] ++ STAR :: join STAR (r :: segs))) as [f Hf]. exists (S (S f)). cbn [glob_loop app]. rewrite N.eqb_refl, Hx, E. exact Hf.
              ** apply (af_next _ [x] r segs [c] [] []); auto; try discriminate; [|intros; cbn [length]; lia]. exists [c]. repeat split; [cbn; lia|]. constructor; [apply chars_equal_spec; auto|constructor].
           ++ exists (Ok false). split; [|apply af_short; apply chars_equal_spec; auto]. intros cp mp. exists 3. cbn [glob_loop app]. rewrite N.eqb_refl, Hx, E. cbn [glob_tail].
              destruct (N.eqb_spec y STAR); auto. exfalso; apply Hs; right; left; auto.
        -- exists Panic. split; [|apply af_panic; intros Q; apply chars_equal_spec in Q; congruence]. intros cp mp. exists 2. cbn [glob_loop app]. rewrite N.eqb_refl, Hx, E. reflexivity.
    + destruct (star_mid ic (join STAR (r :: segs)) s (c :: c2 :: t) c c2 Hs eq_refl) as [(run & rest & P & F & G)|[P G]].
      * destruct (IH Hr ltac:(discriminate) rest) as (o & Ev & A). exists o. split; [intros; apply G; auto|]. eapply af_next; eauto. discriminate.
      * exists (Ok false). split; auto. apply af_none; auto. cbn [length]; lia.
Qed.
Lemma split_pieces wild : Forall (fun s => ~ In STAR s) (split_on STAR wild).
Proof.
  induction wild as [|c l IH]; cbn [split_on]; [constructor; [intros []|constructor]|]. destruct (N.eqb_spec c STAR).
  - constructor; [intros []|auto].
  - destruct (split_on STAR l) as [|f fs]; [constructor; [|constructor]; intros [X|[]]; congruence|]. inversion IH; subst. constructor; auto. intros [X|X]; [congruence|contradiction].
Qed.
Lemma glob_outcome ic buff wild : exists o, glob buff wild ic = Some o /\ outcome (same_char (ins ic)) wild buff o.
Proof.
  pose proof (split_pieces wild) as F. pose proof (join_split STAR wild) as J. destruct (split_on STAR wild) as [|p [|s segs]] eqn:Sp.
  - exfalso. destruct wild; cbn [split_on] in Sp; [discriminate|]. destruct (_ =? _)%N; [discriminate|]. destruct (split_on STAR wild); discriminate.
  - cbn [join] in J. subst wild. inversion F; subst. exists (Ok (smatch ic p buff)). split; [apply glob_nostar; auto|]. eapply oc_plain; [exact Sp|]. symmetry. apply like_smatch.
  - change (p ++ STAR :: join STAR (s :: segs) = wild) in J. pose proof (Forall_inv F) as Hp. pose proof (Forall_inv_tail F) as Fs. subst wild.
    assert (Un : glob buff (p ++ STAR :: join STAR (s :: segs)) ic = match glob_head buff (p ++ STAR :: join STAR (s :: segs)) ic with inl b => Some (Ok b) | inr (b', w') => glob_loop (glob_fuel b' w') b' w' [] [] ic end) by reflexivity.
    destruct (glob_total buff (p ++ STAR :: join STAR (s :: segs)) ic) as [o Ho]. exists o. split; [exact Ho|].
    rewrite Un, glob_head_prefix in Ho by auto. destruct (Nat.ltb_spec (length buff) (length p)) as [L|L].
    + assert (o = Ok false). { destruct (smatch ic (firstn (length buff) p) buff); [|congruence]. unfold glob_fuel in Ho. cbn [glob_loop] in Ho.
        injection Ho as <-. f_equal. destruct (skipn (length buff) p) as [|x q] eqn:Q. { apply (f_equal (@length _)) in Q. rewrite skipn_length in Q. cbn [length] in Q. lia. }
        cbn [app glob_tail]. destruct (N.eqb_spec x STAR) as [->|]; auto. exfalso. apply Hp. rewrite <- (firstn_skipn (length buff) p), Q. apply in_or_app. right; left; auto. }
      subst. eapply oc_no; [exact Sp|]. intros pre t -> K. apply like_length in K. rewrite app_length in L. lia.
    + destruct (smatch ic p (firstn (length p) buff)) eqn:E.
      * destruct (star_after ic (s :: segs) Fs ltac:(discriminate) (skipn (length p) buff)) as (o' & Ev & A). destruct (Ev [] []) as [f Hf]. rewrite (glob_loop_det _ _ _ _ _ _ _ _ _ Ho Hf).
        eapply oc_stars; [exact Sp|symmetry; apply firstn_skipn|apply like_smatch; exact E|exact A].
      * injection Ho as <-. eapply oc_no; [exact Sp|]. intros pre t -> K. pose proof (like_length _ _ _ K) as Lk. rewrite Lk, firstn_app, Nat.sub_diag, firstn_all, app_nil_r in E. apply like_smatch in K. congruence.
Qed.
Lemma outcome_det i wild text o o' : outcome i wild text o -> outcome i wild text o' -> o = o'.
Proof.
  intros H H'. destruct H as [p b Sp B|p s segs pre t o Sp D K A|p s segs Sp N1]; destruct H' as [p' b' Sp' B'|p' s' segs' pre' t' o' Sp' D' K' A'|p' s' segs' Sp' N1']; rewrite Sp in Sp'; try discriminate; auto.
  - injection Sp' as <-. f_equal. destruct b, b'; auto; tauto || (symmetry; tauto).
  - injection Sp' as <- <- <-. assert (t = t'). { apply (put_unique i p text [] t [] t'); auto; [exists pre|exists pre']; repeat split; auto; cbn [length]; lia. } subst t'. eapply after_det; eauto.
  - injection Sp' as <- <- <-. exfalso. eapply N1'; eauto.
  - injection Sp' as <- <- <-. exfalso. eapply N1; eauto.
Qed.
Lemma glob_exact ic buff wild o : glob buff wild ic = Some o <-> outcome (same_char (ins ic)) wild buff o.
Proof.
  destruct (glob_outcome ic buff wild) as (o' & G & O). split; intros H.
  - congruence.
  - rewrite G. f_equal. eapply outcome_det; eauto.
Qed.
