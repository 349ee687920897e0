(** Proofs for the calc tool. *)
From Coq Require Import String List NArith ZArith Bool Arith Lia.
Open Scope list_scope.
Import ListNotations.
From Verif Require UniqMainProofs VerProofs.
From Verif Require Import Base TextModel StrModel StrSpec StrProofs FloatModel ReadModel ReadSpec ReadProofs HdrModel ToolModel ToolOpen TurnProofs PasteSpec PasteProofs ExprModel ExprSpec ExprProofs ExprEval ExprTok ExprRun FmtModel
  MatchText FmtProps OrderSpec CalcMain CalcMainSpec.
Close Scope Z_scope. Open Scope nat_scope.

Lemma names_new s f : names_format s f -> fmt_new s = Ok f.
Proof.
  intros H. destruct H as [s H|s H|s H|s [H|H]|s [H|H]|s p L H|s p L H|s p L H];
    try (eapply c69_new; [exact H|cbn; auto 10]); (eapply c69_new_digits; [exact H|auto|cbn; auto]).
Qed.
Lemma lower_forty s : map lower s <> [] -> In 40%N s -> In 40%N (map lower s).
Proof. intros _ I. apply in_map_iff. exists 40%N. auto. Qed.
Lemma usize_loop_rest : forall l n v r c, usize_loop l n = (v, r) -> In c l -> is_digit c = false -> In c r.
Proof.
  induction l as [|x l IH]; intros n v r c E I D; [elim I|]. cbn [usize_loop] in E. destruct (is_digit x) eqn:X; [|injection E as <- <-; exact I].
  destruct I as [->|I]; [congruence|]. eauto.
Qed.
Lemma whole_no_bracket b p : to_usize_whole b = Ok p -> ~ In 40%N b.
Proof.
  unfold to_usize_whole, to_usize. intros E I.
  assert (G : forall curr, In 40%N curr -> (let '(v, rest) := match curr with
      | c :: _ => if is_digit c then let '(ret, rest) := usize_loop curr 0%N in match rest with c' :: rest' => match suffix_valu c' with Some mul => (wrapU (ret * mul), rest') | None => (ret, rest) end | [] => (ret, []) end else (0%N, b)
      | [] => (0%N, b) end in match rest with [] => Ok v | _ => Err end) = Ok p -> False).
  { intros curr J H. destruct curr as [|c r]; [elim J|]. destruct (is_digit c); [|destruct b; [elim I|discriminate]].
    destruct (usize_loop (c :: r) 0%N) as [v rest] eqn:U. pose proof (usize_loop_rest _ _ _ _ 40%N U J eq_refl) as R.
    destruct rest as [|x rest]; [elim R|]. destruct (suffix_valu x) as [m|] eqn:X; [|discriminate]. destruct R as [->|R]; [discriminate X|]. destruct rest; [elim R|discriminate]. }
  destruct b as [|c r]; [elim I|]. destruct (N.eqb_spec c 43) as [->|_]; [apply (G r)|apply (G (c :: r))]; auto. destruct I as [I|I]; [discriminate|exact I].
Qed.
Lemma bracket_no_format s f : In 40%N s -> fmt_new s = Ok f -> False.
Proof.
  intros I E. apply c69_new_only in E as [E|(a & b & p & -> & H & E)].
  - assert (J : In 40%N (map lower s)) by (apply in_map_iff; exists 40%N; auto). cbn [map In] in E.
    repeat (destruct E as [E|E]; [rewrite <- E in J; vm_compute in J; intuition discriminate|]). elim E.
  - apply in_app_iff in I as [I|[I|I]]; [|discriminate I|eapply whole_no_bracket; eauto].
    assert (J : In 40%N (map lower a)) by (apply in_map_iff; exists 40%N; auto). cbn [In] in H.
    repeat (destruct H as [H|H]; [apply pair_equal_spec in H as [H _]; rewrite <- H in J; vm_compute in J; intuition discriminate|]). elim H.
Qed.

(** A comma of a written expression stands within the brackets of a call. *)
Fixpoint call_first (ts : list token) : bool :=
  match ts with [] => true | TComma :: _ => false | TFunc _ _ :: _ => true | _ :: r => call_first r end.
Lemma call_first_app a b : call_first a = true -> call_first b = true -> call_first (a ++ b) = true.
Proof. induction a as [|t a IH]; intros A B; [exact B|]. destruct t; cbn [app call_first] in *; auto; discriminate. Qed.
Lemma sentence_calls n ts t : sentence n ts t -> call_first ts = true.
Proof.
  revert n ts t. apply (sentence_mind (fun _ ts _ _ => call_first ts = true) (fun _ _ _ => True)); auto; intros;
    try (apply call_first_app; auto); cbn [call_first]; auto; apply call_first_app; auto.
Qed.
Lemma spelled_calls exp10 ua un : forall ts ss, Forall2 (spells exp10 (alphabetic ua) (alphanumeric un)) ts ss -> call_first ts = true -> comma_inside (concat ss).
Proof.
  intros ts ss F. induction F as [|t s ts ss S F IH]; intros C a b E; [destruct a; discriminate E|]. cbn [concat] in E.
  assert (NA : ~ In 44%N s -> forall x y, s ++ concat ss = x ++ 44%N :: y -> exists z, x = s ++ z /\ concat ss = z ++ 44%N :: y).
  { clear. induction s as [|c s IH]; intros N x y E; [exists x; auto|]. destruct x as [|d x]; cbn [app] in E; [injection E as E1 _; elim N; left; auto|].
    injection E as <- E. destruct (IH (fun I => N (or_intror I)) x y E) as (z & -> & Z). exists z. auto. }
  assert (DN : forall x, forallb is_digit x = true -> ~ In 44%N x). { intros x X I. rewrite forallb_forall in X. specialize (X _ I). discriminate. }
  assert (AN : forall c r, alphabetic ua c = true -> forallb (alphanumeric un) r = true -> ~ In 44%N (c :: r)).
  { intros c r A B [->|I]; [discriminate A|]. rewrite forallb_forall in B. specialize (B _ I). discriminate. }
  destruct S as [s (ds & fs & _ & D1 & D2 & [-> | ->])|c r A B|c r A B|o|u| | |].
  - destruct (NA (DN _ D1) _ _ E) as (z & -> & Z). apply in_or_app. right. eapply IH; eauto.
  - destruct (NA ltac:(intros I; apply in_app_iff in I as [I|[I|I]]; [exact (DN _ D1 I)|discriminate I|exact (DN _ D2 I)]) _ _ E) as (z & -> & Z). apply in_or_app. right. eapply IH; eauto.
  - destruct (NA (AN c r A B) _ _ E) as (z & -> & Z). apply in_or_app. right. eapply IH; eauto.
  - assert (N : ~ In 44%N (c :: r ++ bs "(")). { intros I. change (c :: r ++ bs "(") with ((c :: r) ++ bs "(") in I. apply in_app_iff in I as [I|[I|[]]]; [exact (AN c r A B I)|discriminate]. }
    destruct (NA N _ _ E) as (z & -> & Z). apply in_or_app. left. right. apply in_or_app. right. left. reflexivity.
  - destruct (NA ltac:(destruct o; vm_compute; intuition discriminate) _ _ E) as (z & -> & Z). apply in_or_app. right. eapply IH; eauto.
  - destruct (NA ltac:(destruct u; vm_compute; intuition discriminate) _ _ E) as (z & -> & Z). apply in_or_app. right. eapply IH; eauto.
  - destruct (NA ltac:(vm_compute; intuition discriminate) _ _ E) as (z & -> & Z). apply in_or_app. right. eapply IH; eauto.
  - destruct (NA ltac:(vm_compute; intuition discriminate) _ _ E) as (z & -> & Z). apply in_or_app. right. eapply IH; eauto.
  - discriminate C.
Qed.
Lemma written_comma exp10 ua un s t : written exp10 (alphabetic ua) (alphanumeric un) s t -> comma_inside s.
Proof. intros (ts & ss & -> & S & F & _). eapply spelled_calls; eauto. eapply sentence_calls; eauto. Qed.

(** Tokens other than brackets stay. *)
Definition bracket (c : N) : bool := ((c =? 40) || (c =? 41))%N.
Lemma tok_keeps exp10 ua un : forall fuel acc input ts, tok_loop exp10 ua un fuel acc input = Ok ts -> forallb paren acc = false -> forallb paren ts = false.
Proof.
  induction fuel as [|f IH]; intros acc input ts H K; [discriminate|]. cbn [tok_loop] in H. destruct input as [|ch rest].
  { injection H as <-. destruct (forallb paren (rev acc)) eqn:E; auto. rewrite <- K. symmetry. rewrite forallb_forall in E. apply forallb_forall. intros x I. apply E. rewrite <- in_rev. auto. }
  assert (G : forall t, tok_loop exp10 ua un f (t :: acc) rest = Ok ts -> forallb paren ts = false) by (intros t T; apply (IH _ _ _ T); cbn [forallb]; rewrite K; apply andb_false_r).
  repeat match type of H with (if ?b then _ else _) = _ => destruct b end; try (discriminate H); eauto.
  - destruct acc as [|t acc]; [discriminate K|]. destruct t; eauto.
  - destruct acc as [|t acc]; [discriminate K|]. destruct (can_binary t); eauto.
  - destruct acc as [|t acc]; [discriminate K|]. destruct (can_binary t); eauto.
  - destruct (take_name un rest) as [a b]. apply (IH _ _ _ H). reflexivity.
  - destruct (to_f64 exp10 (ch :: rest)) as [x y]. apply (IH _ _ _ H). reflexivity.
Qed.
Lemma tok_brackets exp10 ua un : forall fuel acc input ts, tok_loop exp10 ua un fuel acc input = Ok ts -> forallb paren ts = true -> forallb bracket input = true.
Proof.
  induction fuel as [|f IH]; intros acc input ts H P; [discriminate|]. cbn [tok_loop] in H. destruct input as [|ch rest]; [reflexivity|].
  assert (N : forall acc' i', forallb paren acc' = false -> tok_loop exp10 ua un f acc' i' = Ok ts -> False).
  { intros acc' i' A T. pose proof (tok_keeps exp10 ua un _ _ _ _ T A). congruence. }
  cbn [forallb]. unfold bracket at 1. destruct (N.eqb_spec ch 40) as [E|_].
  { cbn [orb andb]. destruct acc as [|t acc]; [eauto|]. destruct t; eauto. }
  destruct (N.eqb_spec ch 41) as [E|_]; [cbn [orb andb]; eauto|]. exfalso.
  repeat match type of H with (if ?b then _ else _) = _ => destruct b end; try (discriminate H); try (eapply N; [|exact H]; reflexivity).
  - destruct acc as [|t acc]; [eapply N; [|exact H]; reflexivity|]. destruct (can_binary t); (eapply N; [|exact H]; reflexivity).
  - destruct acc as [|t acc]; [eapply N; [|exact H]; reflexivity|]. destruct (can_binary t); (eapply N; [|exact H]; reflexivity).
  - destruct (take_name un rest) as [a b]. eapply N; [|exact H]; reflexivity.
  - destruct (to_f64 exp10 (ch :: rest)) as [x y]. eapply N; [|exact H]; reflexivity.
Qed.

Section Tool.
Variable utf8_ok : bytes -> bool.
Variable lossy : bytes -> bytes.
Variables uni_alpha uni_alnum : N -> bool.
Variable frem fpow : f64 -> f64 -> f64.
Variable libm : fop -> list f64 -> f64.
Variable exp10 : Z -> f64.
Variable disp : f64 -> bytes.
Variable disp_p : N -> f64 -> bytes.
Variable expo : f64 -> bytes.
Variable expo_p : N -> f64 -> bytes.
Notation written := (written exp10 (alphabetic uni_alpha) (alphanumeric uni_alnum)).
Notation calc := (calc frem fpow libm exp10 uni_alpha uni_alnum).
Notation gives := (gives uni_alpha uni_alnum frem fpow libm exp10).
Notation answers := (answers uni_alpha uni_alnum frem fpow libm exp10).
Notation calc_loop := (calc_loop lossy uni_alpha uni_alnum frem fpow libm exp10 disp disp_p expo expo_p).
Notation calc_files := (calc_files utf8_ok lossy uni_alpha uni_alnum frem fpow libm exp10 disp disp_p expo expo_p).

Lemma comma_same f s : comma_inside s -> parse_fmt_expr f s = (f, s).
Proof.
  intros C. unfold parse_fmt_expr. destruct (split_once 44 s) as [(a, b)|] eqn:E; [|reflexivity]. destruct (fmt_new a) as [g| |] eqn:F; try reflexivity.
  exfalso. eapply bracket_no_format; [|exact F]. apply (C a b). apply split_once_some; auto.
Qed.
Lemma names_no_comma s f : names_format s f -> ~ In 44%N s.
Proof.
  assert (L : forall s w, map lower s = w -> ~ In 44%N w -> ~ In 44%N s) by (intros s0 w <- N I; apply N, in_map_iff; exists 44%N; auto).
  assert (D : forall p, ~ In 44%N (print_N p)) by (intros p; apply HdrProofs.print_no; lia).
  intros H. destruct H as [s H|s H|s H|s [H|H]|s [H|H]|s p _ H|s p _ H|s p _ H]; try (eapply L; [exact H|vm_compute; intuition discriminate]);
    intros I; apply in_app_iff in I as [I|[I|I]]; try discriminate; try (revert I; apply D); (eapply L; [exact H| |exact I]; vm_compute; intuition discriminate).
Qed.
Lemma format_taken f word g s : names_format word g -> parse_fmt_expr f (word ++ 44%N :: s) = (g, s).
Proof. intros H. unfold parse_fmt_expr. rewrite split_once_app by (eapply names_no_comma; eauto). rewrite (names_new _ _ H). reflexivity. Qed.
Lemma foreign_err s : Exists foreign s -> calc s = Err.
Proof.
  intros H. apply Exists_exists in H as (c & I & C1 & C2 & C3 & C4). unfold ExprModel.calc, eval_plain. cbn [expr_new e_str]. unfold parse. pose proof (tokenize_no_panic exp10 uni_alpha uni_alnum s) as NP.
  destruct (tokenize exp10 uni_alpha uni_alnum s) as [ts| |] eqn:T; cbn [rbind]; try congruence.
  pose proof (tokenize_allowed exp10 uni_alpha uni_alnum s ts c T I) as A. exfalso. unfold allowed, alphabetic, alphanumeric in A. apply N.ltb_lt in C1. rewrite C1, C2, C3 in A. cbn [orb] in A.
  apply existsb_exists in A as (x & X1 & X2). apply N.eqb_eq in X2. subst x. auto.
Qed.
Lemma call_err s t : written s t -> forallb fun_ok (postfix t) = false -> calc s = Err.
Proof.
  intros W F. unfold ExprModel.calc, eval_plain. cbn [expr_new e_str]. destruct (written_tokens exp10 uni_alpha uni_alnum s t W) as (ts & T & R). unfold parse. rewrite T. cbn [rbind]. rewrite R. cbn [rbind].
  pose proof (accepted frem fpow libm (expr_new s) ts (postfix t) R) as A. rewrite F in A. unfold expr_new in *. rewrite A; [reflexivity|]. intros E. rewrite E in F. discriminate.
Qed.
Lemma gives_calc s v : gives s v -> calc s = match v with Some x => Ok x | None => Err end.
Proof. intros H. destruct H as [s t v W V|s t W F|s F]; [eapply calc_written; eauto|eapply call_err; eauto|apply foreign_err; auto]. Qed.
Lemma gives_comma s v : gives s v -> (Exists foreign s -> comma_inside s) -> comma_inside s.
Proof. intros H F. destruct H as [s t v W V|s t W _|s X]; [eapply written_comma; eauto|eapply written_comma; eauto|auto]. Qed.

Definition shown_answer (x : option (numfmt * f64)) : bytes := match x with Some (f, v) => fmt_print disp disp_p expo expo_p f v ++ [NL] | None => [] end.
Lemma answers_app f ls1 : forall ls2 vs f', answers f (ls1 ++ ls2) vs f' -> exists vs1 g vs2, vs = vs1 ++ vs2 /\ answers f ls1 vs1 g /\ answers g ls2 vs2 f'.
Proof.
  revert f. induction ls1 as [|l ls1 IH]; intros f ls2 vs f' H; [exists [], f, vs; repeat split; auto; constructor|]. cbn [app] in H.
  inversion H as [|? ? v ? vs' ? G C A|? w g s v ? vs' ? W G A]; subst; destruct (IH _ _ _ _ A) as (vs1 & h & vs2 & -> & A1 & A2).
  - exists (option_map (pair f) v :: vs1), h, vs2. repeat split; auto. constructor; auto.
  - exists (option_map (pair g) v :: vs1), h, vs2. repeat split; auto. econstructor; eauto.
Qed.
Lemma answer_one f l vs f' : answers f [l] vs f' -> exists e v, parse_fmt_expr f l = (f', e) /\ calc e = (match v with Some x => Ok x | None => Err end) /\ vs = [option_map (pair f') v].
Proof.
  intros H. inversion H as [|? ? v ? vs' ? G C A|? w g s v ? vs' ? W G A]; subst; inversion A; subst.
  - exists l, v. split; [apply comma_same; eapply gives_comma; eauto|]. split; [apply gives_calc; auto|reflexivity].
  - exists s, v. split; [apply format_taken; auto|]. split; [apply gives_calc; auto|reflexivity].
Qed.

Lemma busy_calc f s : busy s -> calc (snd (parse_fmt_expr f s)) <> Panic.
Proof.
  intros B P. destruct (calc_panics _ _ _ _ _ _ _ P) as (ts & T & F & _). unfold tokenize in T. pose proof (tok_brackets _ _ _ _ _ _ _ T F) as A.
  assert (X : exists c, In c (snd (parse_fmt_expr f s)) /\ c <> 40%N /\ c <> 41%N).
  { apply B. unfold parse_fmt_expr. destruct (split_once 44 s) as [(a, b)|] eqn:E; [|left; reflexivity]. destruct (fmt_new a); auto. right. exists a. apply split_once_some in E. exact E. }
  destruct X as (c & I & C1 & C2). rewrite forallb_forall in A. specialize (A c I). unfold bracket in A. apply orb_true_iff in A as [A|A]; apply N.eqb_eq in A; congruence.
Qed.
Section Mode.
Variable md : tmode.
Hypothesis Hq : tm_quote md = QPlain.
Lemma mode_ok : md_ok md.
Proof. intros E. rewrite Hq in E. discriminate. Qed.
Lemma loop_ok : forall rest fuel r l hist f vs f', at_line md r (proc md l :: hist) rest -> List.length rest < fuel -> Forall (is_line (tm_break md)) (l :: rest) ->
  Forall (fun x => lossy (removelast x) = removelast x) (l :: rest) -> answers f (map (@removelast N) (l :: rest)) vs f' ->
  calc_loop fuel md f r = (concat (map shown_answer vs), Ok f').
Proof.
  induction rest as [|l' rest IH]; intros fuel r l hist f vs f' HA Hf HL HU A; (destruct fuel as [|k]; [lia|]); cbn [CalcMain.calc_loop];
    rewrite (ring_curr _ _ _ (proj1 HA)); cbn [rbind]; inversion HL as [|? ? L1 L2]; subst; inversion HU as [|? ? U1 U2]; subst; rewrite (line_body md Hq l L1); cbn [need]; rewrite U1;
    change (map (@removelast N) (l :: ?r)) with ([removelast l] ++ map (@removelast N) r) in A; destruct (answers_app _ _ _ _ _ A) as (vs1 & g & vs2 & -> & A1 & A2);
    destruct (answer_one _ _ _ _ A1) as (e & v & E1 & E2 & ->); rewrite E1, E2.
  - destruct (next_nil _ _ _ HA) as (r' & N1 & N2 & _). rewrite N1. inversion A2; subst. destruct v as [v|]; cbn [need]; rewrite N2; unfold say; cbn [fst snd option_map map concat app shown_answer]; rewrite ?app_nil_r; reflexivity.
  - destruct (next_cons _ _ _ _ _ HA) as (r' & N1 & N2 & _). rewrite N1. assert (D : r_done r' = false) by apply N2. cbn [List.length] in Hf.
    destruct v as [v|]; cbn [need]; rewrite D, (IH k r' l' _ g vs2 f' N2); auto; try lia; unfold say; cbn [fst snd option_map map concat app shown_answer]; rewrite ?app_nil_r; reflexivity.
Qed.
Lemma files_answer : forall ss fs f vs f', Forall2 (shows utf8_ok md) ss fs -> Forall (fun x => lossy (removelast x) = removelast x) (concat (map sh_lines fs)) ->
  answers f (map (@removelast N) (concat (map sh_lines fs))) vs f' -> calc_files md f ss = (concat (map shown_answer vs), Ok tt).
Proof.
  intros ss fs f vs f' H. revert f vs. induction H as [|s g ss fs H1 H IH]; intros f vs U A; [inversion A; subst; reflexivity|].
  cbn [map concat] in *. rewrite map_app in A. apply Forall_app in U as [U1 U2]. destruct (answers_app _ _ _ _ _ A) as (vs1 & h & vs2 & -> & A1 & A2).
  cbn [CalcMain.calc_files]. pose proof (shows_lines _ _ _ _ Hq H1) as L. destruct (open_shows _ _ _ _ H1) as (t & EO & O1 & O2 & O3). assert (E : sh_lines g <> [] -> tf_empty t = false).
  { intros N. destruct (UniqMainProofs.open_some _ _ _ _ H1 (or_intror N)) as (t' & EO' & X & _). congruence. }
  rewrite EO. cbn [need]. destruct (sh_lines g) as [|l rest].
  - rewrite O3, orb_true_r. inversion A1; subst. apply IH; auto.
  - assert (D : r_done (tf_rd t) = false) by apply O3.
    rewrite D, E by discriminate. cbn [orb]. rewrite (loop_ok rest (turns (tf_rd t)) (tf_rd t) l [] f vs1 h O3); auto; [|pose proof (at_line_turns _ _ _ _ mode_ok O3); lia].
    cbn [need]. rewrite (IH h vs2 U2 A2). unfold say. cbn [fst snd]. rewrite map_app, concat_app. reflexivity.
Qed.
Lemma loop_goes : forall rest fuel r l hist f, at_line md r (proc md l :: hist) rest -> List.length rest < fuel -> Forall (is_line (tm_break md)) (l :: rest) ->
  Forall (fun x => busy (lossy (removelast x))) (l :: rest) -> exists out f', calc_loop fuel md f r = (out, Ok f').
Proof.
  induction rest as [|l' rest IH]; intros fuel r l hist f HA Hf HL HU; (destruct fuel as [|k]; [lia|]); cbn [CalcMain.calc_loop];
    rewrite (ring_curr _ _ _ (proj1 HA)); cbn [rbind]; inversion HL as [|? ? L1 L2]; subst; inversion HU as [|? ? U1 U2]; subst; rewrite (line_body md Hq l L1); cbn [need];
    pose proof (busy_calc f _ U1) as NP; destruct (parse_fmt_expr f (lossy (removelast l))) as [g e]; cbn [snd] in NP.
  - destruct (next_nil _ _ _ HA) as (r' & N1 & N2 & _). rewrite N1. cbn [need]. rewrite N2. destruct (calc e) as [v| |]; [|eexists; exists g; reflexivity|congruence]. eexists. exists g. reflexivity.
  - destruct (next_cons _ _ _ _ _ HA) as (r' & N1 & N2 & _). rewrite N1. assert (D : r_done r' = false) by apply N2. cbn [List.length] in Hf. cbn [need]. rewrite D.
    destruct (IH k r' l' _ g N2) as (out & f' & E); auto; try lia. rewrite E. destruct (calc e) as [v| |]; [|eexists; exists f'; reflexivity|congruence]. eexists. exists f'. reflexivity.
Qed.
Lemma files_go : forall ss fs f, Forall2 (shows utf8_ok md) ss fs -> Forall (fun x => busy (lossy (removelast x))) (concat (map sh_lines fs)) ->
  exists out, calc_files md f ss = (out, Ok tt).
Proof.
  intros ss fs f H. revert f. induction H as [|s g ss fs H1 H IH]; intros f U; [eexists; reflexivity|].
  cbn [map concat] in *. apply Forall_app in U as [U1 U2]. cbn [CalcMain.calc_files].
  pose proof (shows_lines _ _ _ _ Hq H1) as L. destruct (open_shows _ _ _ _ H1) as (t & EO & O1 & O2 & O3). assert (E : sh_lines g <> [] -> tf_empty t = false).
  { intros N. destruct (UniqMainProofs.open_some _ _ _ _ H1 (or_intror N)) as (t' & EO' & X & _). congruence. }
  rewrite EO. cbn [need]. destruct (sh_lines g) as [|l rest].
  - rewrite O3, orb_true_r. apply IH; auto.
  - assert (D : r_done (tf_rd t) = false) by apply O3.
    rewrite D, E by discriminate. cbn [orb]. destruct (loop_goes rest (turns (tf_rd t)) (tf_rd t) l [] f O3) as (out & f' & ->); auto; [pose proof (at_line_turns _ _ _ _ mode_ok O3); lia|].
    cbn [need]. destruct (IH f' U2) as (out2 & ->). eexists. reflexivity.
Qed.
End Mode.
Lemma args_last : forall args names fs f0, Forall (fun a => fst a = bs "fmt") args -> map snd args = names -> Forall2 names_format names fs -> calc_args f0 args = Ok (last fs f0).
Proof.
  intros args names fs f0 A <- F. revert f0 A. remember (map snd args) as ns. revert args Heqns. induction F as [|n f ns fs H F IH]; intros [|[a b] args] E f0 A; try discriminate; [reflexivity|].
  cbn [map snd] in E. injection E as -> E. inversion A as [|? ? A1 A2]; subst. cbn [fst] in A1. subst a. cbn [calc_args]. rewrite beq_refl, (names_new _ _ H). cbn [rbind]. rewrite (IH args eq_refl f A2).
  destruct fs; [reflexivity|]. f_equal. apply (VerProofs.last_any fs).
Qed.
End Tool.
