(** C10: what globbing says for every text and every pattern. *)
From Coq Require Import String List NArith Bool Arith Lia.
Open Scope list_scope.
Import ListNotations.
From Verif Require Import Base TextSpec StrModel StrSpec FloatModel GlobProofs GlobSpec GlobExact MatchModel.

(** C10. The outcome for any number of stars: the text before the first star is compared, every piece between two stars goes to the first place it is tried at, the last
    piece goes to the end; no star is tried with exactly one character, and one character left behind a star that does not begin the next piece panics. *)
Theorem c10_glob_exact : forall text wild ic o,
  glob text wild ic = Some o <-> outcome (same_char (match ic with Insens => true | Sens => false end)) wild text o.
Proof. intros text wild ic o. exact (glob_exact ic text wild o). Qed.
(** C10. The matchers glob and case.glob, as a user makes them. *)
Theorem c10_matcher : forall regex mk_comp file_lines exp10 (insens : bool) p,
  exists m, make2 regex mk_comp file_lines (if insens then bs "case.glob" else bs "glob") p = Ok m /\
  forall b o, m_match exp10 m b = o <-> outcome (same_char insens) p b o.
Proof.
  intros regex mk_comp file_lines exp10 insens p. exists (mkm false false false false (inl (KGlob p (if insens then Insens else Sens)))). split; [destruct insens; reflexivity|]. intros b o.
  set (ic := if insens then Insens else Sens). transitivity (glob_ok b p ic = o); [destruct insens; reflexivity|].
  assert (I : insens = ins ic) by (unfold ic; destruct insens; reflexivity). rewrite I, <- glob_exact. unfold glob_ok.
  destruct (glob_total b p ic) as [r ->]. split; [intros ->; reflexivity|intros X; injection X as ->; reflexivity].
Qed.
Example c10_matcher_ex : forall regex mk_comp file_lines exp10,
  (rbind (make2 regex mk_comp file_lines (bs "case.glob") (bs "*AB*d")) (fun m => m_match exp10 m (bs "xxabyyd")) = Ok true) /\
  (rbind (make2 regex mk_comp file_lines (bs "glob") (bs "*ab*d")) (fun m => m_match exp10 m (bs "xabyyd")) = Ok false) /\
  (rbind (make2 regex mk_comp file_lines (bs "glob") (bs "*ab*d")) (fun m => m_match exp10 m (bs "abx")) = Panic).
Proof. intros. repeat split. Qed.
(** A text with two stars that is found, through the specification alone. *)
Example c10_glob_exact_ex : outcome (same_char true) (bs "a*BC*d") (bs "axxbcyyD") (Ok true) /\ glob (bs "axxbcyyD") (bs "a*BC*d") Insens = Some (Ok true).
Proof.
  assert (O : outcome (same_char true) (bs "a*BC*d") (bs "axxbcyyD") (Ok true)).
  { apply (oc_stars _ _ _ (bs "a") (bs "BC") [bs "d"] (bs "a") (bs "xxbcyyD")); try reflexivity.
    { constructor; [left; reflexivity|constructor]. }
    apply (af_next _ _ _ _ _ (bs "xx") (bs "yyD")); [discriminate| | |].
    - exists (bs "bc"). repeat split; [discriminate|]. constructor; [right; right; split; reflexivity|]. constructor; [right; right; split; reflexivity|constructor].
    - intros run' rest' (m & D & N1 & L). inversion L as [|b ? c m1 E1 L1 ]; subst. inversion L1 as [|b2 ? c2 m2 E2 L2]; subst. inversion L2; subst.
      destruct run' as [|r [|r2 run']]; cbn in *; try lia. injection D as <- _. destruct E1 as [E|[E|[_ E]]]; discriminate E.
    - apply af_last; [discriminate|cbn; lia|]. split; auto. intros _. exists (bs "yy"), (bs "D"). repeat split; [discriminate|]. constructor; [right; right; split; reflexivity|constructor]. }
  split; [exact O|]. apply c10_glob_exact. exact O.
Qed.
(** Two stars and a piece that is nowhere: the answer is no, not a panic. *)
Example c10_glob_exact_ex2 : outcome (same_char false) (bs "*x*b") (bs "aab") (Ok false).
Proof. apply (c10_glob_exact _ _ Sens). vm_compute. reflexivity. Qed.

(** C10. Even for a text that meets the pattern with no star standing for exactly one character the answer may be no: an earlier place of a piece is never given up. *)
Theorem c10_greedy_refuted : exists p s r text run1 run2,
  text = run1 ++ s ++ run2 ++ r /\ p = 42%N :: s ++ 42%N :: r /\ List.length run1 <> 1 /\ List.length run2 <> 1 /\ gmatch false p text /\ glob text p Sens = Some (Ok false).
Proof.
  exists (bs "*a*b"), (bs "a"), (bs "b"), (bs "xxaab"), (bs "xxa"), []. repeat split; try discriminate.
  apply (gm_star _ (bs "a*b") (bs "xxa") (bs "ab")). apply gm_char; [discriminate|left; reflexivity|]. apply (gm_star _ (bs "b") [] (bs "b")). apply gm_char; [discriminate|left; reflexivity|constructor].
Qed.
