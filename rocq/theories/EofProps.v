(** C04: a read without bytes is the end of the input. *)
From Coq Require Import String List NArith Bool Arith Lia.
Open Scope list_scope.
Import ListNotations.
From Verif Require Import Base TextSpec TextModel ReadModel ReadSpec ReadProofs.

Lemma cut_some d : forall l a b, cut_after d l = Some (a, b) -> l = a ++ b /\ exists x, a = x ++ [d].
Proof.
  induction l as [|c l IH]; intros a b H; [discriminate|]. cbn [cut_after] in H. destruct (c =? d)%N eqn:E.
  - injection H as <- <-. apply N.eqb_eq in E. subst. split; [reflexivity|exists []; reflexivity].
  - destruct (cut_after d l) as [[a' b']|]; [|discriminate]. injection H as <- <-. destruct (IH _ _ eq_refl) as (-> & x & ->). split; [reflexivity|exists (c :: x); reflexivity].
Qed.
Lemma cut_none d : forall l, cut_after d l = None -> ~ In d l.
Proof.
  induction l as [|c l IH]; intros H; [intros []|]. cbn [cut_after] in H. destruct (c =? d)%N eqn:E; [discriminate|]. destruct (cut_after d l) as [[a' b']|]; [discriminate|].
  intros [->|I]; [rewrite N.eqb_refl in E; discriminate|exact (IH eq_refl I)].
Qed.

Lemma until_end d post : forall pre acc, Forall (fun c => c <> []) pre -> ~ In d acc ->
  (exists a b cs, read_until_chunks d pre acc = (a, mksrc b cs) /\ read_until_chunks d (pre ++ [] :: post) acc = (a, mksrc b (cs ++ [] :: post)) /\
    acc ++ concat pre = a ++ b ++ concat cs /\ (exists x, a = x ++ [d]) /\ Forall (fun c => c <> []) cs) \/
  (read_until_chunks d pre acc = (acc ++ concat pre, mksrc [] []) /\ read_until_chunks d (pre ++ [] :: post) acc = (acc ++ concat pre, mksrc [] post) /\ ~ In d (acc ++ concat pre)).
Proof.
  induction pre as [|c pre IH]; intros acc F N.
  - right. cbn. rewrite app_nil_r. auto.
  - apply Forall_cons_iff in F as [F1 F2]. destruct c as [|x c]; [congruence|]. cbn [app read_until_chunks]. destruct (cut_after d (x :: c)) as [[a b]|] eqn:E.
    + left. destruct (cut_some _ _ _ _ E) as (E1 & y & E2). exists (acc ++ a), b, pre. split; [reflexivity|]. split; [reflexivity|]. split; [cbn [concat]; rewrite E1, <- !app_assoc; reflexivity|]. split; [|exact F2]. exists (acc ++ y). rewrite E2, app_assoc. reflexivity.
    + assert (N2 : ~ In d (acc ++ x :: c)). { intros I. apply in_app_or in I as [I|I]; [auto|]. exact (cut_none _ _ E I). }
      destruct (IH (acc ++ x :: c) F2 N2) as [H|H]; [left|right]; cbn [concat]; rewrite <- app_assoc in H; exact H.
Qed.

(** When the text so far ends with a line break, or is empty, what would come after the empty read is never looked at. *)
Theorem c04_end : forall m lb post fuel buf pre, m <> QQuote -> Forall (fun c => c <> []) pre ->
  (buf ++ concat pre = [] \/ exists b, buf ++ concat pre = b ++ [lb]) ->
  read_all fuel m lb (mksrc buf (pre ++ [] :: post)) = read_all fuel m lb (mksrc buf pre).
Proof.
  intros m lb post. induction fuel as [|fuel IH]; intros buf pre M F T; [reflexivity|]. cbn [read_all].
  assert (U : (exists a b cs, read_until lb (mksrc buf pre) = (a, mksrc b cs) /\ read_until lb (mksrc buf (pre ++ [] :: post)) = (a, mksrc b (cs ++ [] :: post)) /\
      buf ++ concat pre = a ++ b ++ concat cs /\ (exists x, a = x ++ [lb]) /\ Forall (fun c => c <> []) cs) \/
    (read_until lb (mksrc buf pre) = (buf ++ concat pre, mksrc [] []) /\ read_until lb (mksrc buf (pre ++ [] :: post)) = (buf ++ concat pre, mksrc [] post) /\ ~ In lb (buf ++ concat pre))).
  { unfold read_until. cbn [s_buf s_chunks]. destruct buf as [|x buf]; [apply (until_end lb post pre []); auto|]. destruct (cut_after lb (x :: buf)) as [[a b]|] eqn:E.
    - left. destruct (cut_some _ _ _ _ E) as (E1 & y & E2). exists a, b, pre. split; [reflexivity|]. split; [reflexivity|]. split; [rewrite E1, <- app_assoc; reflexivity|]. eauto.
    - apply until_end; [exact F|]. apply cut_none. exact E. }
  destruct U as [(a & b & cs & U1 & U2 & U3 & (x & ->) & U5)|(U1 & U2 & U3)].
  - assert (R : forall s', read_line m lb (mksrc buf s') = let '(line, s'') := read_until lb (mksrc buf s') in match line with [] => Eof s'' | _ => Line (ensure_eof lb line) s'' end).
    { intros s'. unfold read_line. destruct (read_until lb (mksrc buf s')) as [[|y l] s'']; [reflexivity|]. destruct m; congruence. }
    rewrite !R, U1, U2. destruct (x ++ [lb]) as [|y l] eqn:E; [destruct x; discriminate|]. rewrite IH; auto.
    destruct T as [T|(t & T)]; [rewrite T in U3; discriminate U3|]. rewrite T in U3. destruct (b ++ concat cs) as [|z w] eqn:Z; [left; reflexivity|right].
    exists (removelast (z :: w)). rewrite (app_removelast_last 0%N (l := z :: w)) at 1 by discriminate. f_equal. f_equal.
    assert (LL : last (t ++ [lb]) 0%N = last ((y :: l) ++ z :: w) 0%N) by (rewrite U3; reflexivity). rewrite last_last in LL. rewrite LL. symmetry.
    rewrite (app_removelast_last 0%N (l := z :: w)) at 1 by discriminate. rewrite app_assoc. apply last_last.
  - destruct T as [T|(t & T)].
    + rewrite T in *. unfold read_line. rewrite U1, U2. reflexivity.
    + exfalso. apply U3. rewrite T. apply in_or_app. right. left. reflexivity.
Qed.
(** A last line that is not complete is given as it is, and the next read goes past the empty one. *)
Example c04_end_ex : Forall (fun c => c <> []) [bs "ab"; [NL]] /\ (exists b, [] ++ concat [bs "ab"; [NL]] = b ++ [NL]) /\
  read_all 9 QPlain NL (mksrc [] ([bs "ab"; [NL]] ++ [] :: [bs "cd"])) = Some [bs "ab" ++ [NL]] /\
  read_all 9 QPlain NL (mksrc [] ([bs "ab"] ++ [] :: [bs "cd"])) = Some [bs "ab" ++ [NL]; bs "cd" ++ [NL]].
Proof. split; [repeat constructor; discriminate|]. split; [exists (bs "ab"); reflexivity|]. split; reflexivity. Qed.
