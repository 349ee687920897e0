(** Lemmas on patterns with any number of stars over characters; the same steps as for bytes. *)
From Coq Require Import List NArith Bool Arith Lia.
Import ListNotations.
From Verif Require Import Base TextSpec TextProofs StrModel StrSpec GlobProofs GlobSpec GlobExact MatchModel UtfSpec UtfModel UtfGlob.
Section Exact.
Variable lowc : N -> list N.
Lemma s_like_smatch ic s : forall t, like (stands_for lowc (ins ic)) s t <-> char_match lowc ic s t = true.
Proof.
  induction s as [|x s IH]; intros [|y t]; cbn [char_match]; split; intros H; try discriminate; auto; try (inversion H; fail); try constructor.
  - inversion H; subst. apply andb_true_iff. split; [apply s_chars_equal_spec; auto|apply IH; auto].
  - apply andb_true_iff in H as [H _]. apply s_chars_equal_spec; auto.
  - apply andb_true_iff in H as [_ H]. apply IH; auto.
Qed.
(** Running a piece that is followed by a star. *)
Lemma s_run_seg ic R s : ~ In STAR s -> forall b cp mp,
  (exists m t', b = m ++ t' /\ like (stands_for lowc (ins ic)) s m /\ forall o, s_evals lowc ic t' (STAR :: R) cp mp o -> s_evals lowc ic b (s ++ STAR :: R) cp mp o) \/
  (length b < length s /\ s_evals lowc ic b (s ++ STAR :: R) cp mp (Ok false)) \/
  (b <> [] /\ (forall m t', b = m ++ t' -> ~ like (stands_for lowc (ins ic)) s m) /\
    forall o, match cp with [] => o = Panic | _ :: cp' => s_evals lowc ic cp' mp cp' mp o end -> s_evals lowc ic b (s ++ STAR :: R) cp mp o).
Proof.
  induction s as [|x s IH]; intros Hn b cp mp.
  - left. exists [], b. repeat split; [constructor|auto].
  - assert (Hx : (x =? STAR)%N = false) by (apply N.eqb_neq; intros ->; apply Hn; left; auto).
    assert (Hn' : ~ In STAR s) by (intro; apply Hn; right; auto).
    destruct b as [|y b].
    + right; left. split; [cbn [length]; lia|]. exists 1. cbn [sglob_loop glob_tail app]. rewrite Hx. reflexivity.
    + destruct (schars_equal lowc x y ic) eqn:E.
      * assert (St : forall o, s_evals lowc ic b (s ++ STAR :: R) cp mp o -> s_evals lowc ic (y :: b) ((x :: s) ++ STAR :: R) cp mp o).
        { intros o [f Hf]. exists (S f). cbn [sglob_loop app]. rewrite Hx, E. exact Hf. }
        apply s_chars_equal_spec in E.
        destruct (IH Hn' b cp mp) as [(m & t' & -> & K & G)|[[K G]|(Nb & K & G)]].
        -- left. exists (y :: m), t'. repeat split; [constructor; auto|auto].
        -- right; left. split; [cbn [length]; lia|auto].
        -- right; right. repeat split; [discriminate| |auto]. intros m t' D L. inversion L; subst. cbn [app] in D. injection D as -> D. eapply K; eauto.
      * right; right. repeat split; [discriminate| |].
        -- intros m t' D L. inversion L as [|? ? ? ? W]; subst. cbn [app] in D. injection D as -> D. apply s_chars_equal_spec in W. congruence.
        -- intros o Ho. destruct cp as [|c cp'].
           ++ subst. exists 1. cbn [sglob_loop app]. rewrite Hx, E. reflexivity.
           ++ destruct Ho as [f Hf]. exists (S f). cbn [sglob_loop app]. rewrite Hx, E. exact Hf.
Qed.
(** Trying a piece at one place after the other. *)
Lemma s_try_seg ic R s : ~ In STAR s -> s <> [] -> forall t,
  (exists run m t', t = run ++ m ++ t' /\ like (stands_for lowc (ins ic)) s m /\ (forall run' m' t'', t = run' ++ m' ++ t'' -> like (stands_for lowc (ins ic)) s m' -> length run <= length run') /\
    forall o, (forall cp mp, s_evals lowc ic t' (STAR :: R) cp mp o) -> s_evals lowc ic t (s ++ STAR :: R) t (s ++ STAR :: R) o) \/
  ((forall run m t', t = run ++ m ++ t' -> ~ like (stands_for lowc (ins ic)) s m) /\ s_evals lowc ic t (s ++ STAR :: R) t (s ++ STAR :: R) (Ok false)).
Proof.
  intros Hn Hs. induction t as [|c t IH].
  - right. split.
    + intros run m t' D L. destruct run; [|discriminate]. destruct m; [|discriminate]. inversion L; subst; congruence.
    + destruct s as [|x s]; [congruence|]. exists 1. cbn [sglob_loop glob_tail app]. destruct (N.eqb_spec x STAR); auto. exfalso; apply Hn; left; auto.
  - destruct (s_run_seg ic R s Hn (c :: t) (c :: t) (s ++ STAR :: R)) as [(m & t' & D & L & G)|[[L G]|(_ & L & G)]].
    + left. exists [], m, t'. repeat split; auto. intros; cbn [length]; lia.
    + right. split; auto. intros run m t' D K. apply like_length in K. assert (X : length (c :: t) = length (run ++ m ++ t')) by congruence. rewrite !app_length in X. lia.
    + destruct IH as [(run & m & t' & D & K & F & I)|[K I]].
      * left. exists (c :: run), m, t'. repeat split; auto.
        -- cbn [app]. congruence.
        -- intros run' m' t'' D' K'. destruct run' as [|a run']. { exfalso. exact (L m' _ D' K'). } cbn [app] in D'. injection D' as _ D'. cbn [length]. apply F in D'; auto. lia.
      * right. split; [|apply G; auto]. intros run m t' D' K'. destruct run as [|a run]. { exact (L m _ D' K'). } cbn [app] in D'. injection D' as _ D'. eapply K; eauto.
Qed.
(** The whole of a star, a piece and another star. *)
Lemma s_star_mid ic R s t c c2 : ~ In STAR s -> t = c :: c2 :: skipn 2 t ->
  (exists run rest, put (stands_for lowc (ins ic)) s t run rest /\ (forall run' rest', put (stands_for lowc (ins ic)) s t run' rest' -> length run <= length run') /\
    forall o cp mp, (forall cp mp, s_evals lowc ic rest (STAR :: R) cp mp o) -> s_evals lowc ic t (STAR :: s ++ STAR :: R) cp mp o) \/
  ((forall run rest, ~ put (stands_for lowc (ins ic)) s t run rest) /\ forall cp mp, s_evals lowc ic t (STAR :: s ++ STAR :: R) cp mp (Ok false)).
Proof.
  intros Hn Et. set (t2 := skipn 2 t) in *. clearbody t2. subst t.
  assert (St : forall o cp mp, s_evals lowc ic (c :: c2 :: t2) (s ++ STAR :: R) (c2 :: t2) (s ++ STAR :: R) o -> s_evals lowc ic (c :: c2 :: t2) (STAR :: s ++ STAR :: R) cp mp o).
  { intros o cp mp [f Hf]. exists (S f). cbn [sglob_loop]. rewrite N.eqb_refl. destruct (s ++ STAR :: R) eqn:W; [destruct s; discriminate|]. exact Hf. }
  destruct (s_run_seg ic R s Hn (c :: c2 :: t2) (c2 :: t2) (s ++ STAR :: R)) as [(m & t' & D & L & G)|[[L G]|(_ & L & G)]].
  - left. exists [], t'. repeat split.
    + exists m. repeat split; auto.
    + intros; cbn [length]; lia.
    + intros o cp mp H. apply St, G. auto.
  - right. split; auto. intros run rest (m & D & _ & K). apply like_length in K. assert (X : length (c :: c2 :: t2) = length (run ++ m ++ rest)) by congruence. rewrite !app_length in X. lia.
  - assert (Hs : s <> []) by (intros ->; apply (L [] (c :: c2 :: t2)); [reflexivity|constructor]).
    assert (Sk : forall run rest, put (stands_for lowc (ins ic)) s (c :: c2 :: t2) run rest -> exists r m, run = c :: c2 :: r /\ t2 = r ++ m ++ rest /\ like (stands_for lowc (ins ic)) s m).
    { intros run rest (m & D & N1 & K). destruct run as [|a [|a' r]]; cbn [length app] in *; [exfalso; exact (L m _ D K)|lia|]. injection D as -> -> D. exists r, m. auto. }
    destruct (s_try_seg ic R s Hn Hs t2) as [(run & m & t' & D & K & F & I)|[K I]].
    + left. exists (c :: c2 :: run), t'. repeat split.
      * exists m. repeat split; auto. cbn [app]. congruence. cbn [length]; lia.
      * intros run' rest' P. apply Sk in P as (r & m' & -> & D' & K'). cbn [length]. apply F in D'; auto. lia.
      * intros o cp mp H. apply St, G. auto.
    + right. split; [|intros; apply St, G; auto]. intros run rest P. apply Sk in P as (r & m' & -> & D' & K'). eapply K; eauto.
Qed.
Lemma s_star_pre ic s t cp mp o : s_evals lowc ic t (STAR :: s) [] [] o -> t <> [] -> s_evals lowc ic t (STAR :: s) cp mp o.
Proof.
  intros [f Hf] Ht. exists f. destruct f; [discriminate|]. cbn [sglob_loop] in *. destruct t; [congruence|]. rewrite N.eqb_refl in *. exact Hf.
Qed.
Lemma s_star_after ic segs : Forall (fun s => ~ In STAR s) segs -> segs <> [] -> forall t,
  exists o, (forall cp mp, s_evals lowc ic t (STAR :: join STAR segs) cp mp o) /\ after (stands_for lowc (ins ic)) segs t o.
Proof.
  induction segs as [|s segs IH]; [congruence|]. intros H _ t. pose proof H as H0. inversion H as [|? ? Hs Hr]; subst.
  destruct t as [|c t].
  { eexists. split; [|apply af_end]. intros cp mp. exists 1. cbn [sglob_loop]. rewrite glob_tail_join; auto. }
  destruct segs as [|r segs].
  - cbn [join]. destruct s as [|x s].
    + exists (Ok true). split; [|constructor]. intros cp mp. exists 1. reflexivity.
    + assert (Ev : forall cp mp, s_evals lowc ic (c :: t) (STAR :: x :: s) cp mp (s_one_star_result lowc ic (x :: s) (c :: t))).
      { intros cp mp. apply s_star_pre; [|discriminate]. apply s_star_evals; auto; discriminate. }
      exists (s_one_star_result lowc ic (x :: s) (c :: t)). split; [exact Ev|]. destruct t as [|c2 t].
      * unfold s_one_star_result. cbn [firstn char_match]. destruct (schars_equal lowc x c ic) eqn:E; cbn [andb].
        -- apply s_chars_equal_spec in E. destruct s; [apply af_fit|apply af_short]; auto.
        -- apply af_panic. intros Q. apply s_chars_equal_spec in Q. congruence.
      * unfold s_one_star_result. apply af_last; [discriminate|cbn [length]; lia|]. set (T := c :: c2 :: t). set (W := x :: s).
        unfold s_suffix_match. rewrite !andb_true_iff, negb_true_iff, Nat.leb_le, Nat.eqb_neq. split.
        -- intros [[H1 H2] H3]. exists (firstn (length T - length W) T), (skipn (length T - length W) T). rewrite app_nil_r, firstn_skipn. repeat split.
           ++ rewrite firstn_length. lia.
           ++ apply s_like_smatch; auto.
        -- intros (run & m & D & N1 & K). rewrite app_nil_r in D. pose proof (like_length _ _ _ K) as Lm. rewrite D, app_length. split; [split; [lia|]|lia].
           replace (length run + length m - length W) with (length run) by lia. rewrite skipn_app, skipn_all, Nat.sub_diag. apply s_like_smatch. exact K.
  - change (join STAR (s :: r :: segs)) with (s ++ STAR :: join STAR (r :: segs)). destruct t as [|c2 t].
    + destruct s as [|x s].
      * destruct (IH Hr ltac:(discriminate) [c]) as (o & Ev & A). exists o. split.
        -- intros cp mp. destruct (Ev [] (STAR :: join STAR (r :: segs))) as [f Hf]. exists (S f). cbn [sglob_loop app]. rewrite N.eqb_refl. exact Hf.
        -- apply (af_next _ [] r segs [c] [] [c]); auto; try discriminate. exists []. repeat split; [cbn; lia|constructor]. intros; cbn [length]; lia.
      * assert (Hx : (x =? STAR)%N = false) by (apply N.eqb_neq; intros ->; apply Hs; left; auto).
        destruct (schars_equal lowc x c ic) eqn:E.
        -- destruct s as [|y s].
           ++ destruct (IH Hr ltac:(discriminate) []) as (o & Ev & A). exists o. split.
              ** intros cp mp. destruct (Ev [] ([x] ++ STAR :: join STAR (r :: segs))) as [f Hf]. exists (S (S f)). cbn [sglob_loop app]. rewrite N.eqb_refl, Hx, E. exact Hf.
              ** apply (af_next _ [x] r segs [c] [] []); auto; try discriminate; [|intros; cbn [length]; lia]. exists [c]. repeat split; [cbn; lia|]. constructor; [apply s_chars_equal_spec; auto|constructor].
           ++ exists (Ok false). split; [|apply af_short; apply s_chars_equal_spec; auto]. intros cp mp. exists 3. cbn [sglob_loop app]. rewrite N.eqb_refl, Hx, E. cbn [glob_tail].
              destruct (N.eqb_spec y STAR); auto. exfalso; apply Hs; right; left; auto.
        -- exists Panic. split; [|apply af_panic; intros Q; apply s_chars_equal_spec in Q; congruence]. intros cp mp. exists 2. cbn [sglob_loop app]. rewrite N.eqb_refl, Hx, E. reflexivity.
    + destruct (s_star_mid ic (join STAR (r :: segs)) s (c :: c2 :: t) c c2 Hs eq_refl) as [(run & rest & P & F & G)|[P G]].
      * destruct (IH Hr ltac:(discriminate) rest) as (o & Ev & A). exists o. split; [intros; apply G; auto|]. eapply af_next; eauto. discriminate.
      * exists (Ok false). split; auto. apply af_none; auto. cbn [length]; lia.
Qed.
Lemma s_glob_outcome ic buff wild : exists o, sglob lowc buff wild ic = Some o /\ outcome (stands_for lowc (ins ic)) wild buff o.
Proof.
  pose proof (split_pieces wild) as F. pose proof (join_split STAR wild) as J. destruct (split_on STAR wild) as [|p [|s segs]] eqn:Sp.
  - exfalso. destruct wild; cbn [split_on] in Sp; [discriminate|]. destruct (_ =? _)%N; [discriminate|]. destruct (split_on STAR wild); discriminate.
  - cbn [join] in J. subst wild. inversion F; subst. exists (Ok (char_match lowc ic p buff)). split; [apply s_glob_nostar; auto|]. eapply oc_plain; [exact Sp|]. symmetry. apply s_like_smatch.
  - change (p ++ STAR :: join STAR (s :: segs) = wild) in J. pose proof (Forall_inv F) as Hp. pose proof (Forall_inv_tail F) as Fs. subst wild.
    assert (Un : sglob lowc buff (p ++ STAR :: join STAR (s :: segs)) ic = match sglob_head lowc buff (p ++ STAR :: join STAR (s :: segs)) ic with inl b => Some (Ok b) | inr (b', w') => sglob_loop lowc (glob_fuel b' w') b' w' [] [] ic end) by reflexivity.
    destruct (s_glob_total lowc buff (p ++ STAR :: join STAR (s :: segs)) ic) as [o Ho]. exists o. split; [exact Ho|].
    rewrite Un, s_glob_head_prefix in Ho by auto. destruct (Nat.ltb_spec (length buff) (length p)) as [L|L].
    + assert (o = Ok false). { destruct (char_match lowc ic (firstn (length buff) p) buff); [|congruence]. unfold glob_fuel in Ho. cbn [sglob_loop] in Ho.
        injection Ho as <-. f_equal. destruct (skipn (length buff) p) as [|x q] eqn:Q. { apply (f_equal (@length _)) in Q. rewrite skipn_length in Q. cbn [length] in Q. lia. }
        cbn [app glob_tail]. destruct (N.eqb_spec x STAR) as [->|]; auto. exfalso. apply Hp. rewrite <- (firstn_skipn (length buff) p), Q. apply in_or_app. right; left; auto. }
      subst. eapply oc_no; [exact Sp|]. intros pre t -> K. apply like_length in K. rewrite app_length in L. lia.
    + destruct (char_match lowc ic p (firstn (length p) buff)) eqn:E.
      * destruct (s_star_after ic (s :: segs) Fs ltac:(discriminate) (skipn (length p) buff)) as (o' & Ev & A). destruct (Ev [] []) as [f Hf]. rewrite (s_glob_loop_det lowc _ _ _ _ _ _ _ _ _ Ho Hf).
        eapply oc_stars; [exact Sp|symmetry; apply firstn_skipn|apply s_like_smatch; exact E|exact A].
      * injection Ho as <-. eapply oc_no; [exact Sp|]. intros pre t -> K. pose proof (like_length _ _ _ K) as Lk. rewrite Lk, firstn_app, Nat.sub_diag, firstn_all, app_nil_r in E. apply s_like_smatch in K. congruence.
Qed.
Lemma s_glob_exact ic buff wild o : sglob lowc buff wild ic = Some o <-> outcome (stands_for lowc (ins ic)) wild buff o.
Proof.
  destruct (s_glob_outcome ic buff wild) as (o' & G & O). split; intros H.
  - congruence.
  - rewrite G. f_equal. eapply outcome_det; eauto.
Qed.
End Exact.
