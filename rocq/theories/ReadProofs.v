(** Lemmas on reading. *)
From Coq Require Import List NArith Bool Arith Lia.
Import ListNotations.
From Verif Require Import Base TextSpec TextModel ReadModel ReadSpec.

(** Well-formed sources: a read of 0 bytes happens only at the end. *)
Definition wf_src (s : src) : Prop := Forall (fun c => c <> []) (s_chunks s).

Definition flat_until (d : byte) (l : bytes) : bytes * bytes :=
  match cut_after d l with Some p => p | None => (l, []) end.

Lemma cut_after_app d l1 l2 :
  cut_after d (l1 ++ l2) =
  match cut_after d l1 with
  | Some (a, b) => Some (a, b ++ l2)
  | None => match cut_after d l2 with Some (a, b) => Some (l1 ++ a, b) | None => None end
  end.
Proof.
  induction l1 as [|c l1 IH]; simpl.
  - destruct (cut_after d l2) as [[a b]|]; auto.
  - destruct (c =? d)%N; auto. rewrite IH. destruct (cut_after d l1) as [[a b]|]; auto.
    destruct (cut_after d l2) as [[a b]|]; auto.
Qed.

Lemma cut_after_some d l a b : cut_after d l = Some (a, b) ->
  l = a ++ b /\ exists a', a = a' ++ [d] /\ ~ In d a'.
Proof.
  revert a b; induction l as [|c l IH]; simpl; intros a b H; [congruence|].
  destruct (c =? d)%N eqn:E.
  - inversion H; subst. apply N.eqb_eq in E; subst. split; auto. exists []; auto.
  - destruct (cut_after d l) as [[a0 b0]|]; [|congruence]. inversion H; subst.
    destruct (IH _ _ eq_refl) as (-> & a' & -> & Hn). split; auto.
    exists (c :: a'). split; auto. intros [->|Hin]; auto. rewrite N.eqb_refl in E; congruence.
Qed.

Lemma cut_after_none d l : cut_after d l = None <-> ~ In d l.
Proof.
  induction l as [|c l IH]; simpl; [intuition|].
  destruct (c =? d)%N eqn:E.
  - apply N.eqb_eq in E. split; intros H; [congruence|]. exfalso; apply H; auto.
  - apply N.eqb_neq in E. destruct (cut_after d l) as [[a b]|].
    + split; intros H; [congruence|]. exfalso. destruct IH as [_ IH]. 
      assert (~ In d l) by (intro; apply H; auto). apply IH in H0. congruence.
    + split; auto. intros _ [?|?]; auto. destruct IH as [IH _]. apply IH; auto.
Qed.

Lemma read_until_chunks_flat d cs : forall acc,
  Forall (fun c => c <> []) cs -> cut_after d acc = None ->
  exists a s', read_until_chunks d cs acc = (a, s') /\ wf_src s' /\
    flat_until d (acc ++ concat cs) = (a, content s').
Proof.
  induction cs as [|c cs IH]; intros acc HF Hacc; simpl.
  - exists acc, (mksrc [] []). split; auto. split; [constructor|].
    unfold flat_until, content; simpl. rewrite app_nil_r, Hacc. auto.
  - inversion HF; subst. destruct c as [|x c]; [congruence|].
    destruct (cut_after d (x :: c)) as [[a b]|] eqn:E.
    + exists (acc ++ a), (mksrc b cs). split; [reflexivity|]. split; [exact H2|].
      unfold flat_until, content. cbn [s_buf s_chunks].
      rewrite !cut_after_app, Hacc, E. reflexivity.
    + destruct (IH (acc ++ x :: c)) as (a & s' & H & Hw & Hf); auto.
      { rewrite cut_after_app, Hacc, E; auto. }
      exists a, s'. split; [exact H|]. split; auto. rewrite <- app_assoc in Hf. exact Hf.
Qed.

Lemma read_until_flat d s : wf_src s ->
  exists a s', read_until d s = (a, s') /\ wf_src s' /\ flat_until d (content s) = (a, content s').
Proof.
  intros Hw. unfold read_until. destruct s as [buf cs]. cbn [s_buf s_chunks]. unfold content at 1; cbn [s_buf s_chunks].
  destruct buf as [|x buf].
  - apply (read_until_chunks_flat d cs []); auto.
  - destruct (cut_after d (x :: buf)) as [[a b]|] eqn:E.
    + exists a, (mksrc b cs). split; auto. split; auto.
      unfold flat_until. rewrite cut_after_app, E. reflexivity.
    + apply read_until_chunks_flat; auto.
Qed.

Lemma flat_until_app d l a b : flat_until d l = (a, b) -> l = a ++ b.
Proof.
  unfold flat_until. destruct (cut_after d l) as [[a0 b0]|] eqn:E; intros H; inversion H; subst.
  - apply cut_after_some in E as [-> _]; auto.
  - rewrite app_nil_r; auto.
Qed.

Lemma flat_until_nil d l b : flat_until d l = ([], b) -> l = [] /\ b = [].
Proof.
  unfold flat_until. destruct (cut_after d l) as [[a0 b0]|] eqn:E; intros H; inversion H; subst; auto.
  apply cut_after_some in E as [_ (a' & Ha & _)]. destruct a'; discriminate.
Qed.

(** Flat versions. *)
Fixpoint flat_quote (fuel : nat) (lb : byte) (rest line fresh : bytes) (within : bool) : option (bytes * bytes) :=
  match fuel with
  | 0 => None
  | S f =>
      let within' := toggle_quotes within fresh in
      if negb within' then Some (ensure_eof lb line, rest)
      else let '(more, rest') := flat_until lb rest in
           match more with
           | [] => Some (ensure_eof lb line, rest')
           | _ => flat_quote f lb rest' (line ++ more) more within'
           end
  end.

Lemma quote_loop_flat lb fuel : forall s line fresh w, wf_src s -> length (content s) < fuel ->
  exists l s', quote_loop fuel lb s line fresh w = Some (l, s') /\ wf_src s' /\
    flat_quote fuel lb (content s) line fresh w = Some (l, content s').
Proof.
  induction fuel as [|f IH]; intros s line fresh w Hw Hl; [lia|]. cbn [quote_loop flat_quote].
  destruct (negb (toggle_quotes w fresh)) eqn:E.
  - eexists _, _; repeat split; auto.
  - destruct (read_until_flat lb s Hw) as (a & s' & H1 & H2 & H3). rewrite H1, H3.
    destruct a as [|x a].
    + eexists _, _; repeat split; auto.
    + apply IH; auto. apply flat_until_app in H3. rewrite H3 in Hl. rewrite app_length in Hl. simpl in Hl. lia.
Qed.

(** One line of a flat text: [None] at the end. *)
Definition flat_line (m : quote_mode) (lb : byte) (t : bytes) : option (bytes * bytes) :=
  let '(line, rest) := flat_until lb t in
  match line with
  | [] => None
  | _ => match m with
         | QQuote => flat_quote (S (length rest)) lb rest line line false
         | _ => Some (ensure_eof lb line, rest)
         end
  end.

Lemma read_line_flat m lb s : wf_src s ->
  match flat_line m lb (content s) with
  | None => content s = [] /\ exists s', read_line m lb s = Eof s' /\ wf_src s' /\ content s' = []
  | Some (l, rest) => exists s', read_line m lb s = Line l s' /\ wf_src s' /\ content s' = rest
  end.
Proof.
  intros Hw. unfold flat_line, read_line.
  destruct (read_until_flat lb s Hw) as (a & s' & H1 & H2 & H3). rewrite H1, H3.
  destruct a as [|x a].
  - apply flat_until_nil in H3 as [H3 H4]. split; auto. exists s'; auto.
  - destruct m; try (eexists; repeat split; eauto; fail).
    destruct (quote_loop_flat lb (S (length (content s'))) s' (x :: a) (x :: a) false H2) as (l & s'' & Ha & Hb & Hc); [lia|].
    rewrite Ha, Hc. exists s''; auto.
Qed.

Fixpoint flat_all (fuel : nat) (m : quote_mode) (lb : byte) (t : bytes) : option (list bytes) :=
  match fuel with
  | 0 => None
  | S f =>
      match flat_line m lb t with
      | None => Some []
      | Some (l, t') => match flat_all f m lb t' with Some r => Some (l :: r) | None => None end
      end
  end.

Lemma flat_none m lb t : flat_line m lb t = None -> t = [].
Proof.
  unfold flat_line. destruct (flat_until lb t) as [a b] eqn:E.
  destruct a as [|x a]. { apply flat_until_nil in E; tauto. }
  destruct m; try discriminate.
  intros H. exfalso. revert H.
  destruct (quote_loop_flat lb (S (length b)) (mksrc b []) (x :: a) (x :: a) false) as (l & s' & H1 & H2 & H3).
  { constructor. } { unfold content; simpl. rewrite app_nil_r. lia. }
  unfold content at 1 in H3; simpl concat in H3; simpl s_buf in H3. rewrite app_nil_r in H3. rewrite H3. discriminate.
Qed.

Lemma read_all_flat m lb fuel : forall s, wf_src s ->
  read_all fuel m lb s = flat_all fuel m lb (content s).
Proof.
  induction fuel as [|f IH]; intros s Hw; simpl; auto.
  pose proof (read_line_flat m lb s Hw) as H.
  destruct (flat_line m lb (content s)) as [[l rest]|] eqn:E.
  - destruct H as (s' & H1 & H2 & H3). rewrite H1, IH by auto. rewrite H3. reflexivity.
  - destruct H as (_ & s' & H1 & _). rewrite H1. reflexivity.
Qed.

(** Quote parity *)
Lemma quotes_app a b : quotes (a ++ b) = quotes a + quotes b.
Proof. induction a as [|c a IH]; simpl; auto. rewrite IH. lia. Qed.

Lemma toggle_quotes_parity l : forall w, toggle_quotes w l = xorb w (Nat.odd (quotes l)).
Proof.
  induction l as [|c l IH]; intros w.
  - cbn. destruct w; reflexivity.
  - cbn [toggle_quotes quotes]. rewrite IH. destruct (c =? DQ)%N.
    + rewrite Nat.odd_add. cbn [Nat.odd Nat.even negb]. change (Nat.odd 1) with true. destruct w, (Nat.odd (quotes l)); reflexivity.
    + reflexivity.
Qed.

Lemma app_last_inj {A} (a b : list A) x y : a ++ [x] = b ++ [y] -> a = b /\ x = y.
Proof. apply app_inj_tail. Qed.

Lemma ensure_eof_spec lb l : l <> [] -> exists b, ensure_eof lb l = b ++ [lb] /\
  ((l = b ++ [lb]) \/ (l = b /\ ~ exists b', l = b' ++ [lb])).
Proof.
  intros H. unfold ensure_eof. destruct (exists_last H) as (b & c & ->).
  rewrite last_last. destruct (c =? lb)%N eqn:E.
  - apply N.eqb_eq in E; subst. exists b; auto.
  - exists (b ++ [c]). split; auto. right. split; auto. intros (b' & Hb). apply app_inj_tail in Hb as [_ ->].
    rewrite N.eqb_refl in E; congruence.
Qed.

Lemma flat_until_shape d l a b : flat_until d l = (a, b) -> a <> [] ->
  (exists a', a = a' ++ [d] /\ ~ In d a') \/ (b = [] /\ ~ In d a).
Proof.
  unfold flat_until. destruct (cut_after d l) as [[a0 b0]|] eqn:E; intros H Hne; inversion H; subst.
  - apply cut_after_some in E as [_ (a' & -> & Hn)]. left; eauto.
  - right. split; auto. apply cut_after_none; auto.
Qed.

Lemma protected_none lb b : ~ In lb b -> protected lb b.
Proof. intros H p q ->. exfalso; apply H. apply in_or_app; right; left; auto. Qed.

Lemma app_split_mid {A} (a b p q : list A) x : a ++ b = p ++ x :: q ->
  (exists r, a = p ++ x :: r /\ q = r ++ b) \/ (exists r, p = a ++ r /\ b = r ++ x :: q).
Proof.
  revert p; induction a as [|c a IH]; intros p H; simpl in *.
  - right. exists p; auto.
  - destruct p as [|y p]; simpl in *; inversion H; subst.
    + left. exists a; auto.
    + destruct (IH p H2) as [(r & -> & ->)|(r & -> & ->)].
      * left; exists r; auto.
      * right; exists r; auto.
Qed.

Lemma protected_app lb b c : lb <> DQ -> protected lb b -> Nat.odd (quotes b) = true -> ~ In lb c ->
  protected lb (b ++ lb :: c).
Proof.
  intros Hlb Hp Ho Hn p q H. apply app_split_mid in H as [(r & Hb & _)|(r & Hb & Hc)].
  - eapply Hp; eauto.
  - destruct r as [|y r]; simpl in Hc; inversion Hc; subst.
    + rewrite app_nil_r; auto.
    + exfalso; apply Hn. apply in_or_app; right; left; auto.
Qed.

(** Specification of the flat quote loop. [line] so far is [b ++ [lb]] or, at the end, [b]. *)
Definition rec_ok (lb : byte) (l rest : bytes) : Prop :=
  closed_record lb l \/ (rest = [] /\ open_record lb l).

Lemma even_odd n : Nat.odd n = negb (Nat.even n).
Proof. reflexivity. Qed.

Lemma flat_quote_spec lb fuel : lb <> DQ -> forall rest line fresh w l rest',
  line <> [] ->
  (exists b, protected lb b /\ ((line = b ++ [lb]) \/ (line = b /\ rest = [] /\ ~ exists b', line = b' ++ [lb]))) ->
  toggle_quotes w fresh = Nat.odd (quotes line) ->
  flat_quote fuel lb rest line fresh w = Some (l, rest') ->
  rec_ok lb l rest' /\
  ((l ++ rest' = line ++ rest) \/ (rest' = [] /\ l = (line ++ rest) ++ [lb] /\ ~ exists b', line ++ rest = b' ++ [lb])).
Proof.
  intros Hlb. induction fuel as [|f IH]; intros rest line fresh w l rest' Hne Hb Ht H; cbn [flat_quote] in H; [discriminate|].
  rewrite Ht in H.
  assert (Hq1 : quotes [lb] = 0). { simpl. apply N.eqb_neq in Hlb. rewrite Hlb. reflexivity. }
  destruct Hb as (b & Hp & Hb).
  destruct (Nat.odd (quotes line)) eqn:Eo; simpl in H.
  - destruct (flat_until lb rest) as [more rest2] eqn:Em. destruct more as [|x more].
    + apply flat_until_nil in Em as [-> ->]. inversion H; subst. split.
      * right. split; auto. destruct Hb as [->|(-> & _ & Hno)].
        -- exists b. unfold ensure_eof. rewrite last_last, N.eqb_refl. repeat split; auto.
           rewrite quotes_app, Hq1 in Eo. rewrite Nat.add_0_r in Eo; auto.
        -- destruct (ensure_eof_spec lb b Hne) as (b' & -> & [He|[He _]]).
           ++ exfalso; apply Hno; eauto.
           ++ subst b'. exists b. repeat split; auto.
      * rewrite !app_nil_r. destruct (ensure_eof_spec lb line Hne) as (b' & -> & [He|[He Hno]]).
        -- left; auto.
        -- right. subst b'. auto.
    + assert (Hmne : x :: more <> []) by congruence.
      pose proof (flat_until_app _ _ _ _ Em) as Happ.
      destruct Hb as [->|(-> & -> & _)]; [|unfold flat_until in Em; simpl in Em; inversion Em; fail].
      assert (Eob : Nat.odd (quotes b) = true). { rewrite quotes_app, Hq1, Nat.add_0_r in Eo; auto. }
      apply IH in H.
      * destruct H as [H1 H2]. split; auto. rewrite <- app_assoc in H2. rewrite <- Happ in H2. exact H2.
      * destruct b; simpl; congruence.
      * destruct (flat_until_shape _ _ _ _ Em Hmne) as [(a' & Ha & Hn)|(-> & Hn)].
        -- exists (b ++ lb :: a'). split. { apply protected_app; auto. } left. rewrite Ha, <- !app_assoc. reflexivity.
        -- exists (b ++ lb :: x :: more). split. { apply protected_app; auto. }
           right. rewrite <- app_assoc. cbn [app]. split; auto. split; auto.
           intros (b' & Hb'). 
           assert (Hl : In lb (x :: more)).
           { rewrite (app_removelast_last 0%N Hmne).
             assert (Hlast : last (x :: more) 0%N = lb).
             { replace (last (x :: more) 0%N) with (last (b ++ lb :: x :: more) 0%N).
               - rewrite Hb', last_last. auto.
               - clear. induction b as [|y b IHb]; auto. change ((y :: b) ++ lb :: x :: more) with (y :: (b ++ lb :: x :: more)).
                 rewrite <- IHb. destruct b; auto. }
             rewrite Hlast. apply in_or_app; right; left; auto. }
           auto.
      * rewrite toggle_quotes_parity. rewrite !quotes_app, Hq1, Nat.add_0_r, Nat.odd_add, Eob. reflexivity.
  - inversion H; subst. split.
    + left. destruct Hb as [->|(-> & -> & Hno)].
      * exists b. unfold ensure_eof. rewrite last_last, N.eqb_refl. repeat split; auto.
        rewrite quotes_app, Hq1, Nat.add_0_r, even_odd in Eo. destruct (Nat.even (quotes b)); auto.
      * destruct (ensure_eof_spec lb b Hne) as (b' & -> & [He|[He _]]).
        -- exfalso; apply Hno; eauto.
        -- subst b'. exists b. repeat split; auto. rewrite even_odd in Eo. destruct (Nat.even (quotes b)); auto.
    + destruct Hb as [->|(-> & -> & Hno)].
      * left. unfold ensure_eof. rewrite last_last, N.eqb_refl. auto.
      * rewrite !app_nil_r. right. repeat split; auto. unfold ensure_eof.
        destruct (ensure_eof_spec lb b Hne) as (b' & Heq & [He|[He _]]).
        -- exfalso; apply Hno; eauto.
        -- subst b'. exact Heq.
Qed.

(** Specification of one flat line. *)
Definition rec_mode (m : quote_mode) (lb : byte) (l rest : bytes) : Prop :=
  match m with QQuote => rec_ok lb l rest | _ => is_line lb l end.

Lemma flat_line_spec m lb t l rest : (m = QQuote -> lb <> DQ) -> flat_line m lb t = Some (l, rest) ->
  rec_mode m lb l rest /\
  ((l ++ rest = t) \/ (rest = [] /\ l = t ++ [lb] /\ ~ exists b', t = b' ++ [lb])) /\ length rest < length t.
Proof.
  intros Hlb. unfold flat_line. destruct (flat_until lb t) as [line rest0] eqn:E.
  destruct line as [|x line]; [discriminate|].
  assert (Hne : x :: line <> []) by congruence.
  pose proof (flat_until_app _ _ _ _ E) as Happ.
  assert (Hm : m = QQuote \/ m <> QQuote) by (destruct m; auto; right; discriminate).
  destruct Hm as [->|Hm].
  - intros H. specialize (Hlb eq_refl).
    destruct (flat_quote_spec lb (S (length rest0)) Hlb rest0 (x :: line) (x :: line) false l rest Hne) as [H1 H2]; auto.
    + destruct (flat_until_shape _ _ _ _ E Hne) as [(a' & Ha & Hn)|(-> & Hn)].
      * exists a'. split; auto. apply protected_none; auto.
      * exists (x :: line). split. { apply protected_none; auto. } right; repeat split; auto.
        intros (b' & Hb'). apply Hn. rewrite Hb'. apply in_or_app; right; left; auto.
    + rewrite toggle_quotes_parity. destruct (Nat.odd (quotes (x :: line))); reflexivity.
    + rewrite <- Happ in H2. split; [exact H1|]. split; [exact H2|].
      destruct H2 as [<-|(-> & _ & _)].
      * rewrite app_length. destruct H1 as [(b & -> & _)|(_ & b & -> & _)]; rewrite app_length; simpl; lia.
      * rewrite Happ. simpl. lia.
  - intros H. assert (H' : l = ensure_eof lb (x :: line) /\ rest = rest0). { destruct m; inversion H; auto; congruence. }
    destruct H' as [-> ->]. destruct (flat_until_shape _ _ _ _ E Hne) as [(a' & Ha & Hn)|(-> & Hn)].
    + rewrite Ha in *. unfold ensure_eof. rewrite last_last, N.eqb_refl. split.
      * assert (is_line lb (a' ++ [lb])) by (exists a'; auto). destruct m; auto. congruence.
      * split; auto. rewrite Happ, app_length, app_length; simpl; lia.
    + rewrite app_nil_r in Happ. destruct (ensure_eof_spec lb (x :: line) Hne) as (b & -> & [He|[He Hno]]).
      * exfalso; apply Hn. rewrite He. apply in_or_app; right; left; auto.
      * subst b. split.
        -- assert (is_line lb ((x :: line) ++ [lb])) by (exists (x :: line); auto). destruct m; auto. congruence.
        -- rewrite Happ. split; [right; repeat split; auto|simpl; lia].
Qed.

Lemma flat_all_total m lb fuel : (m = QQuote -> lb <> DQ) -> forall t, length t < fuel ->
  exists ls, flat_all fuel m lb t = Some ls.
Proof.
  intros Hlb. induction fuel as [|f IH]; intros t Ht; [lia|]. simpl.
  destruct (flat_line m lb t) as [[l rest]|] eqn:E; [|eauto].
  apply flat_line_spec in E as (_ & _ & Hl); auto.
  destruct (IH rest) as [ls ->]; [lia|]. eauto.
Qed.

Lemma flat_all_spec m lb fuel : (m = QQuote -> lb <> DQ) -> forall t ls, flat_all fuel m lb t = Some ls ->
  terminated lb t (concat ls) /\
  match m with
  | QQuote => forall l pre post, ls = pre ++ l :: post -> closed_record lb l \/ (post = [] /\ open_record lb l)
  | _ => Forall (is_line lb) ls
  end.
Proof.
  intros Hlb. induction fuel as [|f IH]; intros t ls H; simpl in H; [discriminate|].
  destruct (flat_line m lb t) as [[l rest]|] eqn:E.
  - destruct (flat_all f m lb rest) as [r|] eqn:Er; [|discriminate]. inversion H; subst; clear H.
    apply flat_line_spec in E as (Hr & Happ & Hlen); auto.
    destruct (IH _ _ Er) as [Ht Hrec]. split.
    + simpl. destruct Happ as [<-|(-> & -> & Hno)].
      * destruct Ht as [[-> ->]|[(b & -> & ->)|(Hne & Hno & ->)]].
        -- rewrite !app_nil_r.
           assert (Hb : exists b, l = b ++ [lb]). { destruct m; simpl in Hr; [destruct Hr as (b & -> & _) | destruct Hr as [(b & -> & _)|(_ & b & -> & _)] | destruct Hr as (b & -> & _)]; eauto. }
           destruct Hb as [b ->]. right; left. exists b; auto.
        -- right; left. exists (l ++ b). rewrite app_assoc; auto.
        -- right; right. split. { destruct l; simpl; auto; congruence. } split; [|rewrite app_assoc; auto].
           intros (b & Hb). destruct (exists_last Hne) as (r' & c & ->). rewrite app_assoc in Hb.
           apply app_inj_tail in Hb as [_ ->]. apply Hno; eauto.
      * destruct Ht as [[_ ->]|[(b & Hb & _)|(Hne & _)]]; [|destruct b; discriminate|congruence].
        rewrite app_nil_r. right; right. repeat split; auto. destruct t; [simpl in Hlen; lia|congruence].
    + destruct m; simpl in Hr.
      * constructor; auto.
      * intros l0 pre post Hsp. destruct pre as [|y pre]; simpl in Hsp; inversion Hsp; subst.
        -- destruct Hr as [Hc|[-> Ho]]; auto. right. split; auto.
           destruct f; simpl in Er; [discriminate|]. unfold flat_line, flat_until in Er; simpl in Er. inversion Er; auto.
        -- eapply Hrec; eauto.
      * constructor; auto.
  - inversion H; subst. apply flat_none in E. subst. split; [left; auto|].
    destruct m; auto. intros l pre post Hsp. destruct pre; discriminate.
Qed.

(** Uniqueness: the specification of plain lines determines them. *)
Lemma lines_unique lb ls1 : forall ls2, Forall (is_line lb) ls1 -> Forall (is_line lb) ls2 ->
  concat ls1 = concat ls2 -> ls1 = ls2.
Proof.
  induction ls1 as [|l1 ls1 IH]; intros ls2 H1 H2 He.
  - destruct ls2 as [|l2 ls2]; auto. inversion H2; subst. destruct H3 as (b & -> & _). simpl in He.
    destruct b; discriminate.
  - inversion H1; subst. destruct H3 as (b1 & -> & Hn1).
    destruct ls2 as [|l2 ls2]. { simpl in He. destruct b1; discriminate. }
    inversion H2; subst. destruct H3 as (b2 & -> & Hn2). simpl in He. rewrite <- !app_assoc in He. simpl in He.
    assert (Hb : b1 = b2).
    { clear -He Hn1 Hn2. revert b2 He Hn2. induction b1 as [|c b1 IH]; intros [|c2 b2] He Hn2; auto; simpl in He; inversion He; subst.
      - exfalso; apply Hn2; left; auto.
      - exfalso; apply Hn1; left; auto.
      - f_equal. apply IH; auto. { intro; apply Hn1; right; auto. } { intro; apply Hn2; right; auto. } }
    subst b2. apply app_inv_head in He. inversion He. f_equal. apply IH; auto.
Qed.

(** ** Headers *)

Lemma fill_buf_content s b s' : fill_buf s = (b, s') -> content s' = content s /\ s_buf s' = b /\ (wf_src s -> wf_src s').
Proof.
  unfold fill_buf, content. destruct s as [buf cs]; cbn [s_buf s_chunks].
  destruct buf as [|x buf].
  - destruct cs as [|c cs]; intros H; inversion H; subst; simpl; auto. repeat split; auto.
    unfold wf_src; simpl. intros HF; inversion HF; auto.
  - intros H; inversion H; subst; auto.
Qed.

Lemma fill_buf_empty s b s' : wf_src s -> fill_buf s = (b, s') -> (b = [] <-> content s = []).
Proof.
  intros Hw H. unfold fill_buf in H. destruct s as [buf cs]; cbn [s_buf s_chunks] in *.
  destruct buf as [|x buf].
  - destruct cs as [|c cs]; inversion H; subst.
    + split; auto.
    + inversion Hw; subst. unfold content; simpl. split; intros; subst; [congruence|]. destruct b; auto; discriminate.
  - inversion H; subst. unfold content; simpl. split; discriminate.
Qed.

Lemma starts_with_long b r p : length p <= length b -> starts_with (b ++ r) p = starts_with b p.
Proof.
  revert b; induction p as [|x p IH]; intros b Hl; simpl; auto.
  destruct b as [|y b]; simpl in *; [lia|]. rewrite IH by lia. reflexivity.
Qed.

(** The observable part of a header read: emptiness flag, header text, remaining content. *)
Definition obs (r : res (bool * bytes * src)) : res (bool * bytes * bytes) :=
  match r with Ok (e, h, s) => Ok (e, h, content s) | Err => Err | Panic => Panic end.

(** The first fill shows at least four bytes, or everything there is. *)
Definition shows_start (s : src) : Prop :=
  4 <= length (fst (fill_buf s)) \/ fst (fill_buf s) = content s.

Lemma read_line_Line m lb s l s' : wf_src s -> read_line m lb s = Line l s' ->
  flat_line m lb (content s) = Some (l, content s') /\ wf_src s'.
Proof.
  intros Hw H. pose proof (read_line_flat m lb s Hw) as HF.
  destruct (flat_line m lb (content s)) as [[l0 r0]|].
  - destruct HF as (s0 & H1 & H2 & H3). rewrite H1 in H. inversion H; subst. auto.
  - destruct HF as (_ & s0 & H1 & _). congruence.
Qed.

Lemma read_string_det u m lb s1 s2 : wf_src s1 -> wf_src s2 -> content s1 = content s2 ->
  obs (read_string u m lb s1) = obs (read_string u m lb s2) /\
  (forall e h s', read_string u m lb s1 = Ok (e, h, s') -> wf_src s').
Proof.
  intros H1 H2 He. pose proof (read_line_flat m lb s1 H1) as A. pose proof (read_line_flat m lb s2 H2) as B.
  rewrite <- He in B. unfold read_string.
  destruct (flat_line m lb (content s1)) as [[l r]|].
  - destruct A as (s1' & -> & Hw1 & Hc1). destruct B as (s2' & -> & Hw2 & Hc2).
    destruct (u l); simpl; [rewrite Hc1, Hc2; split; [auto|]|split; [auto|]]; intros ? ? ? H; inversion H; subst; auto.
  - destruct A as (_ & s1' & -> & Hw1 & Hc1). destruct B as (_ & s2' & -> & Hw2 & Hc2). simpl.
    rewrite Hc1, Hc2. split; auto. intros ? ? ? H; inversion H; subst; auto.
Qed.

Lemma shows_start_cdx s b s' : shows_start s -> fill_buf s = (b, s') -> starts_with b CDX = starts_with (content s) CDX.
Proof.
  intros Hs H. destruct (fill_buf_content _ _ _ H) as (Hc & Hb & _).
  unfold shows_start in Hs. rewrite H in Hs; simpl in Hs. destruct Hs as [Hs|Hs].
  - rewrite <- Hc. unfold content. rewrite Hb. symmetry. apply starts_with_long. exact Hs.
  - rewrite Hs; auto.
Qed.

Lemma read_header_det u h m lb s1 s2 : wf_src s1 -> wf_src s2 -> content s1 = content s2 ->
  (h = HMaybe \/ h = HSkip -> shows_start s1 /\ shows_start s2) ->
  obs (read_header u h m lb s1) = obs (read_header u h m lb s2).
Proof.
  intros H1 H2 He Hs. unfold read_header.
  destruct (fill_buf s1) as [b1 t1] eqn:E1. destruct (fill_buf s2) as [b2 t2] eqn:E2.
  pose proof (fill_buf_empty _ _ _ H1 E1) as Z1. pose proof (fill_buf_empty _ _ _ H2 E2) as Z2.
  destruct (fill_buf_content _ _ _ E1) as (C1 & B1 & W1). destruct (fill_buf_content _ _ _ E2) as (C2 & B2 & W2).
  specialize (W1 H1). specialize (W2 H2).
  assert (Ht : content t1 = content t2) by congruence.
  destruct b1 as [|x1 b1].
  - assert (b2 = []) as ->. { apply Z2. rewrite <- He. apply Z1; auto. } simpl. rewrite Ht; auto.
  - destruct b2 as [|x2 b2].
    { exfalso. assert (x1 :: b1 = []) by (apply Z1; rewrite He; apply Z2; auto). discriminate. }
    destruct h.
    + apply read_string_det; auto.
    + simpl. rewrite Ht; auto.
    + destruct Hs as [S1 S2]; auto.
      rewrite (shows_start_cdx _ _ _ S1 E1), (shows_start_cdx _ _ _ S2 E2), <- He.
      destruct (starts_with (content s1) CDX). { apply read_string_det; auto. } simpl. rewrite Ht; auto.
    + destruct Hs as [S1 S2]; auto.
      assert (F1 : fill_buf t1 = (x1 :: b1, t1)). { unfold fill_buf. rewrite B1. reflexivity. }
      assert (F2 : fill_buf t2 = (x2 :: b2, t2)). { unfold fill_buf. rewrite B2. reflexivity. }
      rewrite F1, F2.
      rewrite (shows_start_cdx _ _ _ S1 E1), (shows_start_cdx _ _ _ S2 E2), <- He.
      assert (Hend : forall u1 u2, wf_src u1 -> wf_src u2 -> content u1 = content u2 ->
        obs (let '(start3, s4) := fill_buf u1 in Ok (match start3 with [] => true | _ => false end, [], s4)) =
        obs (let '(start3, s4) := fill_buf u2 in Ok (match start3 with [] => true | _ => false end, [], s4))).
      { intros u1 u2 U1 U2 Uc. destruct (fill_buf u1) as [c1 v1] eqn:G1. destruct (fill_buf u2) as [c2 v2] eqn:G2.
        pose proof (fill_buf_empty _ _ _ U1 G1) as Y1. pose proof (fill_buf_empty _ _ _ U2 G2) as Y2.
        destruct (fill_buf_content _ _ _ G1) as (D1 & _). destruct (fill_buf_content _ _ _ G2) as (D2 & _).
        simpl. rewrite D1, D2, Uc.
        destruct c1, c2; auto.
        - exfalso. assert (n :: c2 = []) by (apply Y2; rewrite <- Uc; apply Y1; auto). discriminate.
        - exfalso. assert (n :: c1 = []) by (apply Y1; rewrite Uc; apply Y2; auto). discriminate. }
      destruct (starts_with (content s1) CDX).
      * destruct (read_string_det u m lb t1 t2 W1 W2 Ht) as [Ho Hw1].
        destruct (read_string_det u m lb t2 t1 W2 W1 (eq_sym Ht)) as [_ Hw2].
        destruct (read_string u m lb t1) as [[[e1 h1] v1]| |], (read_string u m lb t2) as [[[e2 h2] v2]| |]; simpl in Ho; try discriminate; auto.
        simpl. apply Hend; [eapply Hw1; eauto|eapply Hw2; eauto|congruence].
      * simpl. apply Hend; auto.
    + apply read_string_det; auto.
Qed.

(** Nothing is lost between the header and the lines. *)
Lemma read_string_conserve u m lb s e h s' : (m = QQuote -> lb <> DQ) -> wf_src s -> read_string u m lb s = Ok (e, h, s') ->
  h ++ content s' = content s \/ (content s' = [] /\ h = content s ++ [lb]).
Proof.
  intros Hlb Hw H. unfold read_string in H. pose proof (read_line_flat m lb s Hw) as A.
  destruct (flat_line m lb (content s)) as [[l r]|] eqn:E.
  - destruct A as (s0 & HA & Hw0 & Hc0). rewrite HA in H. destruct (u l); inversion H; subst.
    apply flat_line_spec in E as (_ & [E|(E1 & E2 & _)] & _); auto.
  - destruct A as (A & s0 & HA & _ & HB). rewrite HA in H. inversion H; subst. rewrite HB, A. auto.
Qed.

(** ** The ring of lines *)

Lemma list_set_length {A} (l : list A) : forall i x, length (list_set l i x) = length l.
Proof. induction l as [|y l IH]; intros [|i] x; simpl; auto. Qed.

Lemma list_set_eq {A} (l : list A) : forall i x, i < length l -> nth_error (list_set l i x) i = Some x.
Proof. induction l as [|y l IH]; intros [|i] x H; simpl in *; try lia; auto. apply IH; lia. Qed.

Lemma list_set_neq {A} (l : list A) : forall i j x, i <> j -> nth_error (list_set l i x) j = nth_error l j.
Proof. induction l as [|y l IH]; intros [|i] [|j] x H; simpl in *; try lia; auto. Qed.

(** [hist] lists the lines seen, most recent first. *)
Definition ring (L : nat) (r : reader) (hist : list textline) : Prop :=
  length (r_lines r) = L + 1 /\ r_curr r <= L /\
  forall k, k <= L -> prev_line r k = Ok (nth k hist tl_new).

Definition idx (curr len k : nat) : nat := if k <=? curr then curr - k else curr + len - k.

Lemma prev_line_idx r k : k <= r_curr r + length (r_lines r) ->
  prev_line r k = match nth_error (r_lines r) (idx (r_curr r) (length (r_lines r)) k) with Some t => Ok t | None => Panic end.
Proof.
  intros H. unfold prev_line, idx. destruct (k <=? r_curr r) eqn:E; auto.
  apply Nat.leb_le in H. rewrite H. reflexivity.
Qed.

Lemma ring_step L r hist lines' curr' t s' sp dn by' ln' :
  ring L r hist -> curr' = incr_pos (r_curr r) (length (r_lines r)) -> lines' = list_set (r_lines r) curr' t ->
  ring L (mkrd s' lines' curr' sp dn by' ln') (t :: hist).
Proof.
  intros (Hl & Hc & Hk) -> ->. set (c' := incr_pos (r_curr r) (length (r_lines r))).
  assert (Hc' : c' <= L). { unfold c', incr_pos. destruct (Nat.leb_spec (length (r_lines r)) (r_curr r + 1)); lia. }
  unfold ring; cbn [r_lines r_curr]. rewrite list_set_length. split; auto. split; auto.
  intros k Hle. rewrite prev_line_idx; cbn [r_lines r_curr]; rewrite list_set_length; [|lia].
  destruct k as [|k].
  - replace (idx c' (length (r_lines r)) 0) with c' by (unfold idx; simpl; lia).
    rewrite list_set_eq by lia. reflexivity.
  - assert (Hi : idx c' (length (r_lines r)) (S k) = idx (r_curr r) (length (r_lines r)) k).
    { unfold c', incr_pos, idx. rewrite Hl in *.
      destruct (Nat.leb_spec (L + 1) (r_curr r + 1)); destruct (Nat.leb_spec k (r_curr r));
      [ replace (S k <=? 0) with false by (symmetry; apply Nat.leb_gt; lia)
      | replace (S k <=? 0) with false by (symmetry; apply Nat.leb_gt; lia)
      | replace (S k <=? r_curr r + 1) with true by (symmetry; apply Nat.leb_le; lia)
      | replace (S k <=? r_curr r + 1) with false by (symmetry; apply Nat.leb_gt; lia) ]; lia. }
    rewrite Hi, list_set_neq.
    + rewrite <- prev_line_idx by lia. rewrite Hk by lia. reflexivity.
    + rewrite <- Hi. unfold idx. rewrite Hl. destruct (Nat.leb_spec (S k) c'); lia.
Qed.

Lemma ring_slot L r hist : ring L r hist ->
  nth (incr_pos (r_curr r) (length (r_lines r))) (r_lines r) tl_new = nth L hist tl_new.
Proof.
  intros (Hl & Hc & Hk). specialize (Hk L (le_n _)). rewrite prev_line_idx in Hk by lia.
  assert (Hi : idx (r_curr r) (length (r_lines r)) L = incr_pos (r_curr r) (length (r_lines r))).
  { unfold idx, incr_pos. rewrite Hl. destruct (Nat.leb_spec L (r_curr r)); destruct (Nat.leb_spec (L + 1) (r_curr r + 1)); lia. }
  rewrite Hi in Hk. destruct (nth_error (r_lines r) (incr_pos (r_curr r) (length (r_lines r)))) eqn:E; [|discriminate].
  inversion Hk. apply nth_error_nth with (d := tl_new) in E. rewrite E. auto.
Qed.

(** What splitting makes of a raw line, whatever the slot held before. *)
Definition process (m : quote_mode) (delim : byte) (raw : bytes) : textline := tl_split m delim (mktl raw [] []).

Lemma split_process m delim t raw : (m = QPlain -> tl_orig t = []) -> tl_split m delim (tl_set_line t raw) = process m delim raw.
Proof. intros H. unfold process, tl_split, tl_set_line; cbn [tl_line tl_orig]. destruct m; auto. rewrite H; auto. Qed.

Lemma process_orig_plain delim raw : tl_orig (process QPlain delim raw) = [].
Proof. reflexivity. Qed.

Lemma process_text m delim raw : raw <> [] -> tl_text (process m delim raw) = raw.
Proof.
  intros H. unfold process, tl_text, tl_split; cbn [tl_line tl_orig]. destruct m; auto.
  - destruct (split_quotes raw delim); cbn [tl_orig tl_line]. destruct raw; congruence.
  - destruct (split_backslash raw delim); cbn [tl_orig tl_line]. destruct raw; congruence.
Qed.

Lemma process_cols m delim raw : tl_cols (process m delim raw) = mode_columns m raw delim.
Proof.
  unfold process, tl_cols, tl_split, mode_columns; cbn [tl_line]. destruct m; auto.
Qed.

Definition plain_hist (m : quote_mode) (hist : list textline) : Prop :=
  m = QPlain -> Forall (fun t => tl_orig t = []) hist.

Lemma plain_hist_nth m hist k : plain_hist m hist -> m = QPlain -> tl_orig (nth k hist tl_new) = [].
Proof.
  intros H Hm. specialize (H Hm). rewrite Forall_forall in H.
  destruct (nth_in_or_default k hist tl_new) as [Hin|Hd]; [auto|rewrite Hd; auto].
Qed.

Lemma getline_ring L m delim lb r hist : wf_src (r_src r) -> ring L r hist -> plain_hist m hist -> r_split r = true ->
  match flat_line m lb (content (r_src r)) with
  | Some (l, rest) => exists r', getline m delim lb r = Some r' /\ ring L r' (process m delim l :: hist) /\
       wf_src (r_src r') /\ content (r_src r') = rest /\ r_done r' = r_done r /\ r_split r' = true
       /\ r_bytes r' = r_bytes r + length (tl_line (nth 0 hist tl_new)) /\ r_lineno r' = r_lineno r + 1
  | None => exists r', getline m delim lb r = Some r' /\ r_done r' = true /\ r_lineno r' = r_lineno r + 1 /\
       exists t, tl_line t = [] /\ ring L r' (t :: hist)
  end.
Proof.
  intros Hw Hr Hp Hs. pose proof (read_line_flat m lb (r_src r) Hw) as A. unfold getline.
  destruct (flat_line m lb (content (r_src r))) as [[l rest]|].
  - destruct A as (s' & -> & Hw' & Hc'). rewrite Hs. rewrite split_process.
    2:{ intros Hm. rewrite (ring_slot _ _ _ Hr). apply plain_hist_nth with (m := m); auto. }
    eexists. split; [reflexivity|]. split. { eapply ring_step; eauto. }
    cbn. repeat split; auto. f_equal. f_equal. f_equal.
    destruct Hr as (Hl & Hc & Hk). specialize (Hk 0 (Nat.le_0_l _)). rewrite prev_line_idx in Hk by lia.
    unfold idx in Hk. simpl in Hk. rewrite Nat.sub_0_r in Hk.
    destruct (nth_error (r_lines r) (r_curr r)) eqn:E; [|discriminate]. apply nth_error_nth with (d := tl_new) in E.
    destruct hist; simpl in *; congruence.
  - destruct A as (_ & s' & -> & Hw' & Hc'). eexists. split; [reflexivity|]. repeat split; auto.
    eexists. split; [|eapply ring_step; eauto]. reflexivity.
Qed.

Lemma nth_error_repeat' {A} (x : A) n i : i < n -> nth_error (repeat x n) i = Some x.
Proof. revert i; induction n as [|n IH]; intros [|i] H; simpl; auto; try lia. apply IH; lia. Qed.

Lemma open_ring L m delim lb hdr s : wf_src s ->
  match flat_line m lb (content s) with
  | Some (l, rest) => exists r, open_with L m delim lb hdr s = Some r /\ ring L r [process m delim l] /\
       wf_src (r_src r) /\ content (r_src r) = rest /\ r_done r = false /\ r_split r = true /\ r_bytes r = hdr /\ r_lineno r = 1
  | None => exists r, open_with L m delim lb hdr s = Some r /\ r_done r = true /\ ring L r []
  end.
Proof.
  intros Hw. pose proof (read_line_flat m lb s Hw) as A. unfold open_with.
  destruct (flat_line m lb (content s)) as [[l rest]|].
  - destruct A as (s' & -> & Hw' & Hc'). eexists. split; [reflexivity|].
    rewrite split_process by auto. split; [|cbn; repeat split; auto].
    unfold ring; cbn [r_lines r_curr]. rewrite list_set_length, repeat_length. split; auto. split; [lia|].
    intros k Hk. rewrite prev_line_idx; cbn [r_lines r_curr]; rewrite list_set_length, repeat_length; [|lia].
    destruct k as [|k].
    + change (idx 0 (L + 1) 0) with 0. rewrite list_set_eq by (rewrite repeat_length; lia). reflexivity.
    + unfold idx. change (S k <=? 0) with false. cbn iota. rewrite list_set_neq by lia. rewrite nth_error_repeat' by lia. destruct k; reflexivity.
  - destruct A as (_ & s' & -> & Hw' & Hc'). eexists. split; [reflexivity|]. split; auto.
    unfold ring; cbn [r_lines r_curr]. rewrite repeat_length. split; auto. split; [lia|].
    intros k Hk. rewrite prev_line_idx; cbn [r_lines r_curr]; rewrite repeat_length; [|lia].
    unfold idx. destruct (Nat.leb_spec k 0); rewrite nth_error_repeat' by lia; destruct k; reflexivity.
Qed.

(** [n] further lines. *)
Lemma getlines_ring L m delim lb : forall n fuel r hist ls,
  wf_src (r_src r) -> ring L r hist -> plain_hist m hist -> r_split r = true ->
  flat_all fuel m lb (content (r_src r)) = Some ls -> n <= length ls ->
  exists r', getlines n m delim lb r = Some r' /\
    ring L r' (rev (map (process m delim) (firstn n ls)) ++ hist) /\
    plain_hist m (rev (map (process m delim) (firstn n ls)) ++ hist) /\
    wf_src (r_src r') /\ r_split r' = true /\ r_done r' = r_done r /\ r_lineno r' = r_lineno r + n /\
    exists fuel', flat_all fuel' m lb (content (r_src r')) = Some (skipn n ls).
Proof.
  induction n as [|n IH]; intros fuel r hist ls Hw Hr Hp Hs Hf Hn.
  - exists r. simpl. repeat split; auto; try apply Hr. eauto.
  - destruct fuel as [|f]; simpl in Hf; [discriminate|].
    pose proof (getline_ring L m delim lb r hist Hw Hr Hp Hs) as G.
    destruct (flat_line m lb (content (r_src r))) as [[l rest]|].
    2:{ inversion Hf; subst. simpl in Hn; lia. }
    destruct (flat_all f m lb rest) as [ls'|] eqn:E; [|discriminate]. inversion Hf; subst ls; clear Hf.
    destruct G as (r1 & Hg & Hr1 & Hw1 & Hc1 & Hd1 & Hs1 & Hb1 & Hl1).
    assert (Hp1 : plain_hist m (process m delim l :: hist)).
    { intros ->. constructor; auto. }
    destruct (IH f r1 (process m delim l :: hist) ls') as (r' & Hg' & Hr' & Hp' & Hw' & Hs' & Hd' & Hl' & Hf'); auto.
    { rewrite Hc1; auto. } { simpl in Hn; lia. }
    exists r'. cbn [getlines]. rewrite Hg. cbn [firstn skipn map rev]. rewrite <- app_assoc. cbn [app].
    split; auto. split; auto. split; auto. split; auto. split; auto. split; [congruence|]. split; [lia|auto].
Qed.

Lemma nth_rev_app {A} (l : list A) (d : A) k : nth k (rev l) d = if k <? length l then nth (length l - S k) l d else d.
Proof.
  destruct (Nat.ltb_spec k (length l)).
  - apply rev_nth; auto.
  - apply nth_overflow. rewrite rev_length; auto.
Qed.

(** The lines of a source, all of them. *)
Lemma open_getlines L m delim lb hdr s ls n : wf_src s -> (m = QQuote -> lb <> DQ) ->
  read_all (S (length (content s))) m lb s = Some ls -> n < length ls ->
  exists r0 r, open_with L m delim lb hdr s = Some r0 /\ getlines n m delim lb r0 = Some r /\
    r_done r = false /\ r_lineno r = n + 1 /\ plain_hist m (rev (map (process m delim) (firstn (S n) ls))) /\
    ring L r (rev (map (process m delim) (firstn (S n) ls))) /\ wf_src (r_src r) /\ r_split r = true /\
    exists fuel', flat_all fuel' m lb (content (r_src r)) = Some (skipn (S n) ls).
Proof.
  intros Hw Hlb Hall Hn. rewrite read_all_flat in Hall by auto.
  cbn [flat_all] in Hall. pose proof (open_ring L m delim lb hdr s Hw) as O.
  destruct (flat_line m lb (content s)) as [[l rest]|].
  2:{ inversion Hall; subst; simpl in Hn; lia. }
  destruct (flat_all (length (content s)) m lb rest) as [ls'|] eqn:E; [|discriminate]. inversion Hall; subst ls.
  destruct O as (r0 & Ho & Hr & Hw0 & Hc & Hd & Hs & Hb & Hl).
  destruct (getlines_ring L m delim lb n (length (content s)) r0 [process m delim l] ls') as (r & G1 & G2 & G3 & G4 & G5 & G6 & G7 & G8); auto.
  { intros ->. constructor; auto. } { rewrite Hc; auto. } { simpl in Hn; lia. }
  exists r0, r. split; auto. split; auto. split; [congruence|]. split; [lia|].
  cbn [firstn map rev skipn]. auto.
Qed.

(** Byte offsets in plain mode. *)
Lemma getlines_bytes L delim lb : forall n fuel r l0 hist ls r',
  wf_src (r_src r) -> ring L r (process QPlain delim l0 :: hist) -> plain_hist QPlain (process QPlain delim l0 :: hist) -> r_split r = true ->
  flat_all fuel QPlain lb (content (r_src r)) = Some ls -> n <= length ls ->
  getlines n QPlain delim lb r = Some r' ->
  r_bytes r' = r_bytes r + length (concat (firstn n (l0 :: ls))).
Proof.
  induction n as [|n IH]; intros fuel r l0 hist ls r' Hw Hr Hp Hs Hf Hn Hg.
  - simpl in *. inversion Hg; subst. lia.
  - destruct fuel as [|f]; simpl in Hf; [discriminate|].
    pose proof (getline_ring L QPlain delim lb r _ Hw Hr Hp Hs) as G.
    destruct (flat_line QPlain lb (content (r_src r))) as [[l rest]|].
    2:{ inversion Hf; subst. simpl in Hn; lia. }
    destruct (flat_all f QPlain lb rest) as [ls'|] eqn:E; [|discriminate]. inversion Hf; subst ls; clear Hf.
    destruct G as (r1 & Hg1 & Hr1 & Hw1 & Hc1 & Hd1 & Hs1 & Hb1 & Hl1).
    cbn [getlines] in Hg. rewrite Hg1 in Hg.
    erewrite (IH f r1 l _ ls' r'); eauto.
    + rewrite Hb1. cbn [nth process tl_split tl_line firstn concat]. rewrite app_length. lia.
    + intros Hm. constructor; auto.
    + rewrite Hc1; auto.
    + simpl in Hn; lia.
Qed.

Lemma open_bytes L delim lb hdr s ls n r0 r : wf_src s ->
  read_all (S (length (content s))) QPlain lb s = Some ls -> n < length ls ->
  open_with L QPlain delim lb hdr s = Some r0 -> getlines n QPlain delim lb r0 = Some r ->
  r_bytes r = hdr + length (concat (firstn n ls)).
Proof.
  intros Hw Hall Hn Ho Hg. rewrite read_all_flat in Hall by auto.
  cbn [flat_all] in Hall. pose proof (open_ring L QPlain delim lb hdr s Hw) as O.
  destruct (flat_line QPlain lb (content s)) as [[l rest]|].
  2:{ inversion Hall; subst; simpl in Hn; lia. }
  destruct (flat_all (length (content s)) QPlain lb rest) as [ls'|] eqn:E; [|discriminate]. inversion Hall; subst ls.
  destruct O as (r0' & Ho' & Hr & Hw0 & Hc & Hd & Hs & Hb & Hl). rewrite Ho in Ho'. inversion Ho'; subst r0'.
  rewrite <- Hb. eapply (getlines_bytes L delim lb n _ r0 l [] ls' r); eauto.
  - intros _. constructor; auto.
  - rewrite Hc; eauto.
  - simpl in Hn; lia.
Qed.

(** ** S3 *)

Definition s3_content (s : s3) : bytes :=
  match s3_left s with Some b => b | None => [] end ++ concat (s3_body s).
Definition s3_wf (s : s3) : Prop := s3_left s <> Some [] /\ Forall (fun c => c <> []) (s3_body s).

Lemma s3_deliver_ok c n body got s' : c <> [] -> 0 < n -> Forall (fun c => c <> []) body ->
  s3_deliver c n body = (got, s') -> got <> [] /\ length got <= n /\ c ++ concat body = got ++ s3_content s' /\ s3_wf s'.
Proof.
  intros Hc Hn HF H. unfold s3_deliver in H. destruct (Nat.ltb_spec n (length c)); inversion H; subst; clear H.
  - unfold s3_content, s3_wf; cbn [s3_left s3_body]. repeat split; auto.
    + destruct c; [congruence|]. destruct n; [lia|]. simpl; congruence.
    + rewrite firstn_length; lia.
    + rewrite app_assoc, firstn_skipn; auto.
    + intros E; inversion E. pose proof (skipn_length n c) as L. rewrite H1 in L. simpl in L. lia.
  - unfold s3_content, s3_wf; cbn [s3_left s3_body]. repeat split; auto; congruence.
Qed.

Lemma s3_read_ok n s got s' : 0 < n -> s3_wf s -> s3_read n s = (got, s') ->
  s3_content s = got ++ s3_content s' /\ s3_wf s' /\ length got <= n /\ (got = [] <-> s3_content s = []).
Proof.
  intros Hn [Hl HF] H. unfold s3_read in H. unfold s3_content at 1 3. destruct s as [left body]; cbn [s3_left s3_body] in *.
  destruct left as [b|].
  - assert (Hb : b <> []) by congruence. destruct (s3_deliver_ok _ _ _ _ _ Hb Hn HF H) as (H1 & H2 & H3 & H4).
    repeat split; auto; try apply H4. { intros; congruence. } { intros E; exfalso. destruct b; [congruence|discriminate]. }
  - destruct body as [|c cs].
    + inversion H; subst. simpl. repeat split; auto; try lia.
    + inversion HF; subst. destruct (s3_deliver_ok _ _ _ _ _ H2 Hn H3 H) as (G1 & G2 & G3 & G4).
      cbn [concat app]. repeat split; auto; try apply G4. { intros; congruence. } { intros E; exfalso. destruct c; [congruence|discriminate]. }
Qed.

Lemma s3_all_ok ns : forall s, Forall (fun n => 0 < n) ns -> s3_wf s ->
  exists rest, s3_content s = fst (s3_read_all ns s) ++ rest /\
    (snd (s3_read_all ns s) = true -> rest = []) /\
    (length (s3_content s) < length ns -> snd (s3_read_all ns s) = true).
Proof.
  induction ns as [|n ns IH]; intros s HF Hw.
  - exists (s3_content s). simpl. repeat split; auto; try discriminate; lia.
  - inversion HF; subst. cbn [s3_read_all]. destruct (s3_read n s) as [got s'] eqn:E.
    destruct (s3_read_ok _ _ _ _ H1 Hw E) as (A & B & C & D). destruct got as [|x got].
    + exists []. simpl. repeat split; auto. apply D; auto.
    + destruct (IH s' H2 B) as (rest & R1 & R2 & R3). destruct (s3_read_all ns s') as [r fin]; cbn [fst snd] in *.
      exists rest. rewrite A, R1, app_assoc. repeat split; auto.
      intros Hl. apply R3. rewrite R1. rewrite !app_length in *. simpl in Hl. lia.
Qed.
