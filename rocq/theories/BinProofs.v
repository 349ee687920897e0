(** Binary search: proofs. *)
From Coq Require Import List NArith Bool Arith Lia Sorting.Sorted.
Import ListNotations.
From Verif Require Import Base BinModel BinSpec.

(** ** Lines *)
Definition whole (l : bytes) : Prop := exists t, l = t ++ [NL] /\ ~ In NL t.
Definition tail_line (l : bytes) : Prop := l <> [] /\ ~ In NL l.
(** All lines whole, except perhaps the last. *)
Inductive lines_ok : list bytes -> Prop :=
| lo_nil : lines_ok []
| lo_last l : tail_line l -> lines_ok [l]
| lo_cons l ls : whole l -> lines_ok ls -> lines_ok (l :: ls).

Lemma cut_concat : forall d, concat (cut_lines d) = d.
Proof.
  induction d as [|c d IH]; auto. cbn [cut_lines]. destruct (c =? NL)%N; cbn [concat app]; [congruence|].
  destruct (cut_lines d) as [|x xs]; cbn [concat app] in *; congruence.
Qed.

Lemma cut_ok : forall d, lines_ok (cut_lines d).
Proof.
  induction d as [|c d IH]; [constructor|]. cbn [cut_lines]. destruct (N.eqb_spec c NL) as [->|H].
  - apply lo_cons; auto. exists []. split; auto.
  - destruct (cut_lines d) as [|x xs].
    + apply lo_last. split; [discriminate|]. cbn. intuition congruence.
    + inversion IH as [|? T|? ? (t & E & T) K]; subst.
      * apply lo_last. destruct T as [T1 T2]. split; [discriminate|]. cbn. intuition congruence.
      * apply lo_cons; auto. exists (c :: t). split; auto. cbn. intuition congruence.
Qed.

Lemma lines_app : forall a b, lines_ok (a ++ b) -> b <> [] -> Forall whole a /\ lines_ok b.
Proof.
  induction a as [|x a IH]; intros b H Hb; [auto|]. cbn [app] in H. inversion H as [|? T E|? ? W K]; subst.
  - destruct a; [cbn in *; congruence|discriminate].
  - destruct (IH b K Hb). split; auto.
Qed.

Lemma line_cases : forall x r, lines_ok (x :: r) -> whole x \/ (r = [] /\ tail_line x).
Proof. intros x r H. inversion H; subst; auto. Qed.

Lemma line_nonempty : forall ls x, lines_ok ls -> In x ls -> x <> [].
Proof.
  intros ls x H I. apply in_split in I as (a & b & ->).
  destruct (lines_app a (x :: b) H ltac:(discriminate)) as [_ K].
  destruct (line_cases _ _ K) as [(t & -> & _)|[_ [T _]]]; auto. destruct t; discriminate.
Qed.

(** ** Finding line ends and starts *)
Lemma end_loop_nl : forall t r pos, ~ In NL t -> end_loop (t ++ NL :: r) pos = pos + length t + 1.
Proof.
  induction t as [|c t IH]; intros r pos H; cbn [app end_loop length].
  - rewrite N.eqb_refl. lia.
  - destruct (N.eqb_spec c NL) as [->|]; [exfalso; apply H; left; auto|]. rewrite IH; [lia|]. intros K. apply H. right. auto.
Qed.
Lemma end_loop_none : forall t pos, ~ In NL t -> end_loop t pos = pos + length t.
Proof.
  induction t as [|c t IH]; intros pos H; cbn [end_loop length]; [lia|].
  destruct (N.eqb_spec c NL) as [->|]; [exfalso; apply H; left; auto|]. rewrite IH; [lia|]. intros K. apply H. right. auto.
Qed.

Definition len (ls : list bytes) : nat := length (concat ls).
Lemma len_app : forall a b, len (a ++ b) = len a + len b.
Proof. intros. unfold len. rewrite concat_app, app_length. auto. Qed.
Lemma len_cons : forall a b, len (a :: b) = length a + len b.
Proof. intros. unfold len. cbn. rewrite app_length. auto. Qed.

Lemma skipn_app_at : forall A (a b : list A) n, n = length a -> skipn n (a ++ b) = b.
Proof. intros A a b n ->. rewrite skipn_app, skipn_all, Nat.sub_diag. auto. Qed.

Lemma find_end_in : forall a x r k, lines_ok (a ++ x :: r) -> k < length x ->
  find_end (concat (a ++ x :: r)) (len a + k) = len a + length x.
Proof.
  intros a x r k H Hk. unfold find_end. rewrite concat_app. cbn [concat].
  destruct (lines_app a (x :: r) H ltac:(discriminate)) as [_ K].
  rewrite skipn_app. rewrite skipn_all2 by (unfold len; lia). cbn [app].
  replace (len a + k - length (concat a)) with k by (unfold len; lia).
  rewrite skipn_app. replace (k - length x) with 0 by lia. cbn [skipn].
  assert (L : length (skipn k x) = length x - k) by apply skipn_length.
  destruct (line_cases _ _ K) as [(t & -> & T)|[-> [_ T]]].
  - rewrite app_length in *. cbn in *. assert (k <= length t) by lia.
    rewrite skipn_app. replace (k - length t) with 0 by lia. cbn [skipn]. rewrite <- app_assoc. cbn [app].
    rewrite end_loop_nl. { rewrite skipn_length. lia. }
    intros I. apply T. rewrite <- (firstn_skipn k t). apply in_app_iff. auto.
  - cbn [concat]. rewrite app_nil_r, end_loop_none; [lia|].
    intros I. apply T. rewrite <- (firstn_skipn k x). apply in_app_iff. auto.
Qed.

Lemma find_end_over : forall data n, length data <= n -> find_end data n = n.
Proof. intros. unfold find_end. rewrite skipn_all2; auto. Qed.

(** Text that is empty or ends in a newline. *)
Definition closed (p : bytes) : Prop := p = [] \/ exists q, p = q ++ [NL].
Lemma whole_closed : forall a, Forall whole a -> closed (concat a).
Proof.
  intros a H. induction H as [|x a (t & -> & _) _ IH]; [left; auto|]. right. cbn [concat].
  destruct IH as [->|(q & ->)]; [exists t; rewrite app_nil_r; auto|].
  exists ((t ++ [NL]) ++ q). rewrite app_assoc. auto.
Qed.

Lemma start_loop_in : forall p x r k, closed p -> k < length x -> ~ In NL (firstn (S k) x) ->
  start_loop (p ++ x ++ r) (length p + k) = length p.
Proof.
  intros p x r k Hp. induction k as [|k IH]; intros Hk Hn.
  - rewrite Nat.add_0_r. destruct x as [|c x]; [cbn in Hk; lia|].
    assert (C : (c =? NL)%N = false) by (apply N.eqb_neq; intros ->; apply Hn; left; auto).
    assert (E : nth (length p) (p ++ (c :: x) ++ r) 0%N = c) by (rewrite app_nth2, Nat.sub_diag by lia; auto).
    destruct Hp as [-> | (q & ->)].
    + cbn in *. rewrite C. auto.
    + rewrite app_length in *. cbn [length] in *. rewrite Nat.add_1_r in *. cbn [start_loop]. rewrite E, C.
      assert (E2 : nth (length q) ((q ++ [NL]) ++ (c :: x) ++ r) 0%N = NL).
      { rewrite <- app_assoc. rewrite app_nth2, Nat.sub_diag by lia. auto. }
      destruct (length q) eqn:Q; cbn [start_loop]; rewrite E2, N.eqb_refl; lia.
  - replace (length p + S k) with (S (length p + k)) by lia. cbn [start_loop].
    assert (E : (nth (S (length p + k)) (p ++ x ++ r) 0 =? NL)%N = false).
    { apply N.eqb_neq. intros E. rewrite app_nth2, app_nth1 in E by lia.
      apply Hn. rewrite <- E. replace (S (length p + k) - length p) with (S k) by lia.
      rewrite <- (firstn_skipn (S (S k)) x) at 1. rewrite app_nth1 by (rewrite firstn_length; lia).
      apply nth_In. rewrite firstn_length. lia. }
    rewrite E. apply IH; [lia|]. intros I. apply Hn.
    replace (S (S k)) with (S k + 1) by lia. rewrite <- (firstn_skipn (S k) (firstn (S k + 1) x)).
    rewrite firstn_firstn. replace (Nat.min (S k) (S k + 1)) with (S k) by lia. apply in_app_iff. auto.
Qed.

Lemma no_nl_prefix : forall x k, whole x \/ tail_line x -> k < length x -> (k + 1 < length x \/ tail_line x) ->
  ~ In NL (firstn (S k) x).
Proof.
  intros x k H Hk Hc I. assert (T : tail_line x -> False).
  { intros [_ T]. apply T. rewrite <- (firstn_skipn (S k) x). apply in_app_iff. auto. }
  destruct H as [(t & -> & W)|H]; auto. destruct Hc as [Hc|Hc]; auto.
  rewrite app_length in Hc. cbn in Hc. rewrite firstn_app in I. replace (S k - length t) with 0 in I by lia.
  cbn in I. rewrite app_nil_r in I. apply W. rewrite <- (firstn_skipn (S k) t). apply in_app_iff. auto.
Qed.

Lemma find_start_in : forall a x r k, lines_ok (a ++ x :: r) -> k < length x -> (k + 1 < length x \/ tail_line x) ->
  find_start (concat (a ++ x :: r)) (len a + k) = Ok (len a).
Proof.
  intros a x r k H Hk Hc. unfold find_start.
  assert (L : (len a + k <? length (concat (a ++ x :: r))) = true).
  { apply Nat.ltb_lt. fold (len (a ++ x :: r)). rewrite len_app, len_cons. lia. }
  rewrite L. f_equal. destruct (lines_app a (x :: r) H ltac:(discriminate)) as [W K].
  rewrite concat_app. cbn [concat]. unfold len. apply start_loop_in; auto using whole_closed.
  apply no_nl_prefix; auto. destruct (line_cases _ _ K) as [?|[_ ?]]; auto.
Qed.

Lemma slice_line : forall a x r, bslice (concat (a ++ x :: r)) (len a) (len a + length x) = x.
Proof.
  intros. unfold bslice. rewrite concat_app. cbn [concat]. rewrite skipn_app_at by reflexivity.
  replace (len a + length x - len a) with (length x) by lia.
  rewrite firstn_app, firstn_all, Nat.sub_diag. cbn. apply app_nil_r.
Qed.
Lemma slice_lines : forall a b r, bslice (concat (a ++ b ++ r)) (len a) (len a + len b) = concat b.
Proof.
  intros. unfold bslice. rewrite !concat_app. rewrite skipn_app_at by reflexivity.
  replace (len a + len b - len a) with (length (concat b)) by (unfold len; lia).
  rewrite firstn_app, firstn_all, Nat.sub_diag. cbn. apply app_nil_r.
Qed.

(** ** The line probed *)
Lemma locate : forall B n, n < len B -> exists Y1 y Y2, B = Y1 ++ y :: Y2 /\ len Y1 <= n < len Y1 + length y.
Proof.
  induction B as [|x B IH]; intros n H; [cbn in H; lia|]. rewrite len_cons in H.
  destruct (Nat.lt_ge_cases n (length x)).
  - exists [], x, B. split; auto. cbn. lia.
  - destruct (IH (n - length x)) as (Y1 & y & Y2 & -> & K); [lia|]. exists (x :: Y1), y, Y2. split; auto. rewrite len_cons. lia.
Qed.

Section Search.
Variable c : bytes -> comparison.

Lemma probe_trapped : forall A x B C, lines_ok (A ++ (x :: B) ++ C) ->
  probe (concat (A ++ (x :: B) ++ C)) true (len A) (len (A ++ x :: B)) = Ok (len A, len A + length x).
Proof.
  intros A x B C H. unfold probe.
  assert (Nx : x <> []) by (apply (line_nonempty _ x H); rewrite in_app_iff; right; left; auto).
  assert (0 < length x) by (destruct x; [congruence|cbn; lia]).
  rewrite len_app, len_cons. replace (len A =? _) with false by (symmetry; apply Nat.eqb_neq; lia).
  cbn [app]. rewrite <- (Nat.add_0_r (len A)) at 2. rewrite find_end_in; auto.
Qed.

Definition blank : bytes := [NL].

Lemma probe_free : forall A B C, lines_ok (A ++ B ++ C) -> B <> [] ->
  (B = [blank] /\ probe (concat (A ++ B ++ C)) false (len A) (len (A ++ B)) = Ok (len (A ++ B), len (A ++ B))) \/
  exists B1 x B2, B = B1 ++ x :: B2 /\ (B1 = [] -> B2 = []) /\
    probe (concat (A ++ B ++ C)) false (len A) (len (A ++ B)) = Ok (len (A ++ B1), len (A ++ B1) + length x).
Proof.
  intros A B C H HB. unfold probe. set (data := concat (A ++ B ++ C)).
  assert (P : 0 < len B).
  { destruct B as [|x B]; [congruence|]. rewrite len_cons.
    assert (x <> []) by (apply (line_nonempty _ x H); rewrite !in_app_iff; cbn; tauto). destruct x; [congruence|cbn; lia]. }
  set (mid := (len (A ++ B) + len A - 1) / 2).
  assert (M : len A <= mid < len A + len B).
  { unfold mid. rewrite len_app. split; [apply Nat.div_le_lower_bound; lia|apply Nat.div_lt_upper_bound; lia]. }
  assert (M2 : mid + 1 = len A + len B -> len B = 1).
  { unfold mid. rewrite len_app. intros E.
    pose proof (Nat.div_mod (len A + len B + len A - 1) 2 ltac:(lia)).
    pose proof (Nat.mod_upper_bound (len A + len B + len A - 1) 2 ltac:(lia)). lia. }
  clearbody mid.
  destruct (locate B (mid - len A)) as (Y1 & y & Y2 & EB & Hy); [lia|].
  assert (D : A ++ B ++ C = (A ++ Y1) ++ y :: (Y2 ++ C)).
  { rewrite EB, <- !app_assoc. auto. }
  assert (F : find_end data mid = len (A ++ Y1) + length y).
  { unfold data. rewrite D in *. replace mid with (len (A ++ Y1) + (mid - len (A ++ Y1))) by (rewrite len_app; lia).
    apply find_end_in; auto. rewrite len_app. lia. }
  rewrite F.
  destruct Y2 as [|x Y2].
  - assert (E : len (A ++ Y1) + length y = len (A ++ B)).
    { rewrite EB, !len_app, len_cons. cbn. lia. }
    rewrite E, Nat.eqb_refl.
    destruct (Nat.eq_dec (mid + 1) (len A + len B)) as [EM|NM].
    + specialize (M2 EM). rewrite EB, len_app, len_cons in M2. change (len []) with 0 in M2.
      assert (Y1 = []).
      { destruct Y1 as [|z Y1]; auto. exfalso. rewrite len_cons in M2.
        assert (z <> []) by (apply (line_nonempty _ z H); rewrite EB, !in_app_iff; cbn; tauto).
        destruct z; [congruence|]. cbn in M2. lia. }
      subst Y1. cbn [app] in *. assert (Ly : length y = 1) by (cbn in M2; lia).
      destruct y as [|c0 [|]]; try discriminate.
      destruct (N.eq_dec c0 NL) as [->|N0].
      * left. split; [exact EB|].
        assert (E3 : mid = len A) by (rewrite EB in EM; unfold len in EM at 2; cbn in EM; lia).
        assert (S1 : find_start data mid = Ok (mid + 1)).
        { unfold find_start. assert (mid <? length data = true) as ->.
          { apply Nat.ltb_lt. fold (len (A ++ B ++ C)) in *. unfold data. fold (len (A ++ B ++ C)). rewrite !len_app. lia. }
          f_equal. assert (NT : nth mid data 0%N = NL).
          { unfold data. rewrite concat_app. rewrite app_nth2 by (unfold len in *; lia).
            replace (mid - length (concat A)) with 0 by (unfold len in *; lia). rewrite EB. reflexivity. }
          destruct mid; cbn [start_loop]; rewrite NT, N.eqb_refl; auto. }
        rewrite S1. cbn [rbind]. rewrite EM, len_app. reflexivity.
      * right. exists [], [c0], []. split; auto. split; auto.
        replace mid with (len A + 0) by (cbn in M2; rewrite EB in EM; unfold len in EM at 2; cbn in EM; lia).
        unfold data. rewrite EB. cbn [app]. rewrite find_start_in; [|rewrite EB in H; exact H|cbn; lia|].
        -- cbn [rbind]. rewrite app_nil_r. rewrite !len_app, len_cons. cbn. auto.
        -- right. split; [discriminate|]. cbn. intuition congruence.
    + right. exists Y1, y, []. split; auto. split; auto.
      assert (S1 : find_start data mid = Ok (len (A ++ Y1))).
      { unfold data. rewrite D in *. replace mid with (len (A ++ Y1) + (mid - len (A ++ Y1))) by (rewrite len_app; lia).
        apply find_start_in; auto; [rewrite len_app; lia|]. left. rewrite len_app. rewrite EB, len_app, len_cons in NM, M. change (len []) with 0 in *. lia. }
      rewrite S1. cbn [rbind]. rewrite E. auto.
  - right. exists (Y1 ++ [y]), x, Y2.
    assert (x <> []) by (apply (line_nonempty _ x H); rewrite EB, !in_app_iff; cbn; tauto).
    assert (0 < length x) by (destruct x; [congruence|cbn; lia]).
    assert (LY : len (A ++ Y1 ++ [y]) = len (A ++ Y1) + length y).
    { rewrite !len_app, len_cons. change (len []) with 0. lia. }
    split; [rewrite EB, <- app_assoc; auto|]. split; [intros K; destruct Y1; discriminate|].
    replace (len (A ++ Y1) + length y =? len (A ++ B)) with false.
    2:{ symmetry. apply Nat.eqb_neq. rewrite EB, !len_app, !len_cons. lia. }
    rewrite <- LY. f_equal. f_equal.
    assert (D2 : A ++ B ++ C = (A ++ Y1 ++ [y]) ++ x :: (Y2 ++ C)) by (rewrite EB, <- !app_assoc; auto).
    unfold data. rewrite D2 in *. rewrite <- (Nat.add_0_r (len (A ++ Y1 ++ [y]))) at 1. apply find_end_in; auto.
Qed.

(** ** Order *)
Notation R := (fun x y => rank (c x) <= rank (c y)).
Lemma order_split : forall a x b, in_order c (a ++ x :: b) ->
  Forall (fun y => rank (c y) <= rank (c x)) a /\ Forall (fun y => rank (c x) <= rank (c y)) b.
Proof.
  unfold in_order. induction a as [|y a IH]; intros x b H; cbn [app] in H; inversion H as [|? ? S F]; subst.
  - split; auto.
  - destruct (IH _ _ S) as [K1 K2]. split; auto. constructor; auto. rewrite Forall_forall in F. apply F. rewrite in_app_iff. right. left. auto.
Qed.

Lemma filter_above : forall A B, Forall (fun x => c x = Gt) A -> Forall (fun x => c x <> Gt) B -> filter (above c) (A ++ B) = A.
Proof.
  intros A B HA HB. rewrite filter_app. replace (filter (above c) B) with (@nil bytes).
  - rewrite app_nil_r. induction HA as [|x A Hx _ IH]; auto. cbn. unfold above at 1. rewrite Hx. congruence.
  - induction HB as [|x B Hx _ IH]; auto. cbn. unfold above at 1. destruct (c x); auto. congruence.
Qed.
Lemma filter_matches : forall A E B, Forall (fun x => c x = Gt) A -> Forall (fun x => c x = Eq) E -> Forall (fun x => c x = Lt) B ->
  filter (matches c) (A ++ E ++ B) = E.
Proof.
  intros A E B HA HE HB. rewrite !filter_app.
  replace (filter (matches c) A) with (@nil bytes); [replace (filter (matches c) B) with (@nil bytes); [rewrite app_nil_r; cbn [app]|]|].
  - induction HE as [|x E Hx _ IH]; auto. cbn. unfold matches at 1. rewrite Hx. congruence.
  - induction HB as [|x B Hx _ IH]; auto. cbn. unfold matches at 1. rewrite Hx. auto.
  - induction HA as [|x A Hx _ IH]; auto. cbn. unfold matches at 1. rewrite Hx. auto.
Qed.

Lemma order_three : forall ls, in_order c ls -> exists G E L, ls = G ++ E ++ L /\
  Forall (fun x => c x = Gt) G /\ Forall (fun x => c x = Eq) E /\ Forall (fun x => c x = Lt) L.
Proof.
  unfold in_order. induction 1 as [|x ls S (G & E & L & -> & HG & HE & HL) F].
  - exists [], [], []. auto.
  - rewrite !Forall_app in F. destruct F as (F1 & F2 & F3). destruct (c x) eqn:Cx; cbn [rank] in *.
    + assert (G = []). { destruct G as [|y G]; auto. inversion HG as [|? ? K]; subst. inversion F1 as [|? ? K2]; subst. rewrite K in K2. cbn in K2. lia. }
      subst. exists [], (x :: E), L. repeat split; auto.
    + assert (G = []). { destruct G as [|y G]; auto. inversion HG as [|? ? K]; subst. inversion F1 as [|? ? K2]; subst. rewrite K in K2. cbn in K2. lia. }
      assert (E = []). { destruct E as [|y E]; auto. inversion HE as [|? ? K]; subst. inversion F2 as [|? ? K2]; subst. rewrite K in K2. cbn in K2. lia. }
      subst. exists [], [], (x :: L). repeat split; auto.
    + exists (x :: G), E, L. repeat split; auto.
Qed.

(** The lines of the data. *)
Variable ls : list bytes.
Hypothesis ok : lines_ok ls.
Hypothesis ord : in_order c ls.
Hypothesis blanks : blanks_ok c ls.
Let data := concat ls.

Definition low_pos : nat := len (filter (above c) ls).
Definition low_end : nat := low_pos + length (hd [] (filter (matches c) ls)).

Lemma three : exists G E L, ls = G ++ E ++ L /\ Forall (fun x => c x = Gt) G /\ Forall (fun x => c x = Eq) E /\
  Forall (fun x => c x = Lt) L /\ filter (above c) ls = G /\ filter (matches c) ls = E.
Proof.
  destruct (order_three ls ord) as (G & E & L & EQ & HG & HE & HL). exists G, E, L. do 4 (split; auto). split.
  - rewrite EQ. apply filter_above; auto. apply Forall_app. split; eapply Forall_impl; eauto; cbn; congruence.
  - rewrite EQ. apply filter_matches; auto.
Qed.

(** The search has found its place: everything before is smaller, nothing after is. *)
Lemma split_here : forall A C, ls = A ++ C -> Forall (fun x => c x = Gt) A -> Forall (fun x => c x <> Gt) C -> filter (above c) ls = A.
Proof. intros A C -> HA HC. apply filter_above; auto. Qed.

Lemma found_here : forall A x C, ls = A ++ x :: C -> Forall (fun x => c x = Gt) A -> c x = Eq ->
  low_pos = len A /\ low_end = len A + length x.
Proof.
  intros A x C E HA Hx. pose proof ord as O. rewrite E in O. destruct (order_split _ _ _ O) as [_ HC]. rewrite Hx in HC.
  assert (F : filter (above c) ls = A).
  { apply (split_here A (x :: C)); auto. constructor; [congruence|]. eapply Forall_impl; [|exact HC]. cbn. intros y K1 K2. rewrite K2 in K1. cbn in K1. lia. }
  unfold low_end, low_pos. rewrite F. split; auto. f_equal.
  rewrite E, filter_app. replace (filter (matches c) A) with (@nil bytes).
  - cbn. unfold matches. rewrite Hx. auto.
  - clear - HA. induction HA as [|y A Hy _ IH]; auto. cbn. unfold matches at 1. rewrite Hy. auto.
Qed.

Lemma none_here : forall A C, ls = A ++ C -> Forall (fun x => c x = Gt) A -> Forall (fun x => c x = Lt) C ->
  low_pos = len A /\ low_end = len A.
Proof.
  intros A C E HA HC. assert (F : filter (above c) ls = A).
  { apply (split_here A C); auto. eapply Forall_impl; [|exact HC]. cbn. congruence. }
  unfold low_end, low_pos. rewrite F.
  pose proof (filter_matches A [] C HA (Forall_nil _) HC) as M. cbn [app] in M. rewrite <- E in M. rewrite M. cbn. lia.
Qed.

Lemma lower_step : forall fuel A B C trapped, ls = A ++ B ++ C -> Forall (fun x => c x = Gt) A ->
  (Forall (fun x => c x = Lt) C \/ exists B0 z, B = B0 ++ [z] /\ c z = Eq) ->
  (trapped = true -> exists B0 z, B = B0 ++ [z] /\ c z = Eq) ->
  2 * length B + (if trapped then 0 else 1) <= fuel ->
  lower_loop c data fuel trapped (len A) (len (A ++ B)) = Some (Ok (low_pos, low_end)).
Proof.
  induction fuel as [|fuel IH]; intros A B C trapped E HA HC HT HF.
  - destruct B as [|x B]; [|cbn in HF; lia]. destruct trapped; [|lia].
    destruct (HT eq_refl) as (B0 & z & K & _). destruct B0; discriminate.
  - destruct B as [|x B].
    { rewrite app_nil_r. cbn [lower_loop]. rewrite Nat.ltb_irrefl.
      destruct HC as [HC|(B0 & z & K & _)]; [|destruct B0; discriminate]. cbn [app] in E.
      destruct (none_here A C E HA HC) as [-> ->]. auto. }
    assert (Lt0 : (len A <? len (A ++ x :: B)) = true).
    { apply Nat.ltb_lt. rewrite len_app, len_cons. assert (x <> []) by (apply (line_nonempty _ x ok); rewrite E, in_app_iff; right; left; auto).
      destruct x; [congruence|cbn; lia]. }
    cbn [lower_loop]. rewrite Lt0.
    assert (OK : lines_ok (A ++ (x :: B) ++ C)) by (rewrite <- E; auto).
    assert (STEP : forall B1 y B2, x :: B = B1 ++ y :: B2 ->
      ((B1 = [] -> B2 = []) \/ trapped = true) -> (trapped = true -> B1 = []) ->
      match c (bslice data (len (A ++ B1)) (len (A ++ B1) + length y)) with
      | Eq => if len (A ++ B1) =? len A then Some (Ok (len (A ++ B1), len (A ++ B1) + length y))
              else lower_loop c data fuel (len (A ++ B1) + length y =? len (A ++ x :: B)) (len A) (len (A ++ B1) + length y)
      | Lt => lower_loop c data fuel trapped (len A) (len (A ++ B1))
      | Gt => lower_loop c data fuel trapped (len (A ++ B1) + length y) (len (A ++ x :: B))
      end = Some (Ok (low_pos, low_end))).
    { intros B1 y B2 EB Hd Htr.
      assert (E2 : ls = (A ++ B1) ++ y :: (B2 ++ C)) by (rewrite E, EB, <- !app_assoc; auto).
      assert (SL : bslice data (len (A ++ B1)) (len (A ++ B1) + length y) = y) by (unfold data; rewrite E2; apply slice_line).
      rewrite SL. pose proof ord as O. rewrite E2 in O. destruct (order_split _ _ _ O) as [O1 O2].
      assert (LY : len (A ++ B1) + length y = len (A ++ B1 ++ [y])) by (rewrite !len_app, len_cons; change (len []) with 0; lia).
      assert (LB : length (x :: B) = length B1 + 1 + length B2) by (rewrite EB, app_length; cbn; lia).
      destruct (c y) eqn:Cy; cbn [rank] in *.
      - destruct (Nat.eqb_spec (len (A ++ B1)) (len A)) as [EL|NL0].
        + assert (B1 = []).
          { destruct B1 as [|z B1]; auto. exfalso. rewrite len_app, len_cons in EL.
            assert (z <> []) by (apply (line_nonempty _ z ok); rewrite E2, !in_app_iff; cbn; tauto).
            destruct z; [congruence|cbn in EL; lia]. }
          subst B1. rewrite app_nil_r in *. destruct (found_here A y (B2 ++ C) E2 HA Cy) as [-> ->]. auto.
        + assert (NB1 : B1 <> []) by (intros ->; rewrite app_nil_r in NL0; auto).
          assert (trapped = false) by (destruct trapped; auto; exfalso; apply NB1; auto). subst trapped.
          rewrite LY. assert (HLAST : exists B0 z, B1 ++ [y] = B0 ++ [z] /\ c z = Eq) by (exists B1, y; auto).
          apply (IH A (B1 ++ [y]) (B2 ++ C)); auto.
          * rewrite E, EB, <- !app_assoc. auto.
          * destruct (Nat.eqb_spec (len (A ++ B1 ++ [y])) (len (A ++ x :: B))) as [EE|NE].
            { rewrite app_length. cbn in *. lia. }
            destruct B2 as [|w B2]; [exfalso; apply NE; rewrite EB, !len_app, !len_cons; auto|].
            rewrite app_length. cbn in *. lia.
      - apply (IH A B1 (y :: B2 ++ C)); auto.
        + rewrite E, EB, <- !app_assoc. auto.
        + left. constructor; auto. eapply Forall_impl; [|exact O2]. cbn. intros z. destruct (c z); cbn; auto; lia.
        + intros TR. specialize (Htr TR). destruct (HT TR) as (B0 & z & K & Cz). subst B1. cbn [app] in *.
          exfalso. assert (In z (x :: B)) by (rewrite K, in_app_iff; right; left; auto). rewrite EB in H.
          destruct H as [->|H]; [congruence|]. rewrite Forall_forall in O2. specialize (O2 z ltac:(rewrite in_app_iff; auto)). rewrite Cz in O2. cbn in O2. lia.
        + destruct trapped; cbn in *; lia.
      - rewrite LY.
        assert (E3 : A ++ x :: B = (A ++ B1 ++ [y]) ++ B2) by (rewrite EB, <- !app_assoc; auto). rewrite E3.
        apply (IH (A ++ B1 ++ [y]) B2 C); auto.
        + rewrite E, EB, <- !app_assoc. auto.
        + rewrite Forall_app in O1. destruct O1 as [_ O1]. apply Forall_app. split; auto. apply Forall_app. split; [|constructor; auto].
          eapply Forall_impl; [|exact O1]. cbn. intros z. destruct (c z); cbn; auto; lia.
        + destruct HC as [HC|(B0 & z & K & Cz)]; auto. rewrite EB in K.
          destruct B2 as [|w B2].
          * apply app_inj_tail in K as [_ ->]. congruence.
          * right. destruct (@exists_last _ (w :: B2) ltac:(discriminate)) as (B3 & z3 & E4). exists B3, z3. split; auto.
            rewrite E4 in K. replace (B1 ++ y :: B3 ++ [z3]) with ((B1 ++ y :: B3) ++ [z3]) in K by (rewrite <- app_assoc; auto).
            apply app_inj_tail in K as [_ ->]. auto.
        + intros TR. destruct (HT TR) as (B0 & z & K & Cz). rewrite EB in K. destruct B2 as [|w B2].
          * apply app_inj_tail in K as [_ ->]. congruence.
          * destruct (@exists_last _ (w :: B2) ltac:(discriminate)) as (B3 & z3 & E4). exists B3, z3. split; auto.
            rewrite E4 in K. replace (B1 ++ y :: B3 ++ [z3]) with ((B1 ++ y :: B3) ++ [z3]) in K by (rewrite <- app_assoc; auto).
            apply app_inj_tail in K as [_ ->]. auto.
        + destruct trapped; cbn in *; lia. }
    destruct trapped.
    + unfold data in *. rewrite E at 1. rewrite probe_trapped by auto.
      specialize (STEP [] x B eq_refl (or_intror eq_refl) (fun _ => eq_refl)). rewrite app_nil_r in STEP. exact STEP.
    + destruct (probe_free A (x :: B) C OK ltac:(discriminate)) as [[EB P]|(B1 & y & B2 & EB & HB & P)].
      * injection EB as -> ->. unfold data in *. rewrite E at 1. rewrite P.
        assert (SB : bslice (concat ls) (len (A ++ [blank])) (len (A ++ [blank])) = []) by (unfold bslice; rewrite Nat.sub_diag; auto).
        rewrite SB. destruct blanks as [BE BL]; [rewrite E, !in_app_iff; right; left; left; auto|]. rewrite BE.
        assert (GOTO : forall tr, tr = true -> c blank = Eq -> lower_loop c (concat ls) fuel tr (len A) (len (A ++ [blank])) = Some (Ok (low_pos, low_end))).
        { intros tr -> CB. apply (IH A [blank] C true); [exact E|exact HA|right; exists [], blank; auto|intros _; exists [], blank; auto|cbn in *; lia]. }
        destruct (c [NL]) eqn:CB; [| congruence |].
        -- replace (len (A ++ [blank]) =? len A) with false by (symmetry; apply Nat.eqb_neq; rewrite len_app, len_cons; cbn; lia).
           apply GOTO; auto. apply Nat.eqb_refl.
        -- rewrite <- (app_nil_r (A ++ [blank])) at 2. apply (IH (A ++ [blank]) [] C false); auto.
           ++ rewrite E, <- app_assoc. auto.
           ++ apply Forall_app. split; auto.
           ++ destruct HC as [HC|(B0 & z & K & Cz)]; auto. destruct B0 as [|? []]; try discriminate. injection K as <-. unfold blank in *. congruence.
           ++ discriminate.
           ++ cbn in *. lia.
      * unfold data in *. rewrite E at 1. rewrite P. apply (STEP B1 y B2); auto. discriminate.
Qed.

Theorem lower_bound_ok : forall fuel, 2 * length ls + 1 <= fuel ->
  lower_bound_n c data fuel = Some (Ok (low_pos, low_end)).
Proof.
  intros fuel HF. unfold lower_bound_n. change 0 with (len []). change (length data) with (len ls).
  apply (lower_step fuel [] ls [] false); auto. rewrite app_nil_r. auto. discriminate.
Qed.

Definition up_pos : nat := low_pos + len (filter (matches c) ls).

Lemma upper_step : forall fuel A B C, ls = A ++ B ++ C -> Forall (fun x => c x <> Lt) A -> Forall (fun x => c x = Lt) C ->
  length B <= fuel -> upper_loop c data fuel (len A) (len (A ++ B)) = Some (Ok up_pos).
Proof.
  induction fuel as [|fuel IH]; intros A B C E HA HC HF.
  all: destruct B as [|x B]; [|try (cbn in HF; lia)].
  1,2: rewrite app_nil_r; cbn [upper_loop app] in *; rewrite Nat.ltb_irrefl; f_equal; f_equal;
    destruct three as (G & E0 & L & EQ & HG & HE & HL & F1 & F2); unfold up_pos, low_pos; rewrite F1, F2, <- len_app;
    assert (K : A = G ++ E0); [|rewrite K; auto].
  1,2: clear - E EQ HA HC HG HE HL; rewrite app_assoc in EQ; rewrite E in EQ; clear E;
    assert (HGE : Forall (fun x => c x <> Lt) (G ++ E0)) by (apply Forall_app; split; eapply Forall_impl; eauto; cbn; congruence);
    revert EQ HGE; generalize (G ++ E0); clear - HA HC HL; induction HA as [|a A Ha _ IHA]; intros [|b B] EQ HB; auto; cbn [app] in EQ.
  1,4: rewrite EQ in HC; inversion HC; inversion HB; congruence.
  1,3: rewrite <- EQ in HL; inversion HL; congruence.
  1,2: injection EQ as -> EQ; f_equal; apply IHA; auto; inversion HB; auto.
  assert (Lt0 : (len A <? len (A ++ x :: B)) = true).
  { apply Nat.ltb_lt. rewrite len_app, len_cons. assert (x <> []) by (apply (line_nonempty _ x ok); rewrite E, in_app_iff; right; left; auto).
    destruct x; [congruence|cbn; lia]. }
  cbn [upper_loop]. rewrite Lt0.
  assert (OK : lines_ok (A ++ (x :: B) ++ C)) by (rewrite <- E; auto).
  destruct (probe_free A (x :: B) C OK ltac:(discriminate)) as [[EB P]|(B1 & y & B2 & EB & HB & P)].
  - injection EB as -> ->. unfold data in *. rewrite E at 1. rewrite P.
    assert (SB : bslice (concat ls) (len (A ++ [blank])) (len (A ++ [blank])) = []) by (unfold bslice; rewrite Nat.sub_diag; auto).
    rewrite SB. destruct blanks as [BE BL]; [rewrite E, !in_app_iff; right; left; left; auto|]. rewrite BE.
    assert (GO : upper_loop c (concat ls) fuel (len (A ++ [blank])) (len (A ++ [blank])) = Some (Ok up_pos)).
    { rewrite <- (app_nil_r (A ++ [blank])) at 2. apply (IH (A ++ [blank]) [] C); auto.
      - rewrite E, <- app_assoc. auto.
      - apply Forall_app. split; auto.
      - cbn in *. lia. }
    destruct (c [NL]); auto; congruence.
  - unfold data in *. rewrite E at 1. rewrite P.
    assert (E2 : ls = (A ++ B1) ++ y :: (B2 ++ C)) by (rewrite E, EB, <- !app_assoc; auto).
    assert (SL : bslice (concat ls) (len (A ++ B1)) (len (A ++ B1) + length y) = y) by (rewrite E2; apply slice_line).
    rewrite SL. pose proof ord as O. rewrite E2 in O. destruct (order_split _ _ _ O) as [O1 O2].
    assert (LY : len (A ++ B1) + length y = len (A ++ B1 ++ [y])) by (rewrite !len_app, len_cons; change (len []) with 0; lia).
    assert (LB : length (x :: B) = length B1 + 1 + length B2) by (rewrite EB, app_length; cbn; lia).
    assert (UP : c y <> Lt -> upper_loop c (concat ls) fuel (len (A ++ B1) + length y) (len (A ++ x :: B)) = Some (Ok up_pos)).
    { intros NLT. rewrite LY. assert (E3 : A ++ x :: B = (A ++ B1 ++ [y]) ++ B2) by (rewrite EB, <- !app_assoc; auto). rewrite E3.
      apply (IH (A ++ B1 ++ [y]) B2 C); auto.
      - rewrite E, EB, <- !app_assoc. auto.
      - rewrite Forall_app in O1. destruct O1 as [_ O1]. apply Forall_app. split; auto. apply Forall_app. split; [|constructor; auto].
        eapply Forall_impl; [|exact O1]. cbn. intros z. destruct (c z), (c y); cbn; try congruence; lia.
      - cbn in *. lia. }
    destruct (c y) eqn:Cy; [apply UP; congruence| |apply UP; congruence].
    apply (IH A B1 (y :: B2 ++ C)); auto.
    + rewrite E, EB, <- !app_assoc. auto.
    + constructor; auto. eapply Forall_impl; [|exact O2]. cbn. intros z. destruct (c z); cbn; auto; lia.
    + cbn in *. lia.
Qed.

Theorem upper_bound_ok : forall fuel, length ls <= fuel -> upper_bound_n c data fuel = Some (Ok up_pos).
Proof.
  intros fuel HF. unfold upper_bound_n. change 0 with (len []). change (length data) with (len ls).
  apply (upper_step fuel [] ls []); auto. rewrite app_nil_r. auto.
Qed.

Theorem equal_range_ok : forall fuel, 2 * length ls + 1 <= fuel ->
  equal_range_n c data fuel = Some (Ok (low_pos, up_pos)) /\
  bslice data low_pos up_pos = concat (filter (matches c) ls).
Proof.
  intros fuel HF. unfold equal_range_n. rewrite lower_bound_ok, upper_bound_ok by lia.
  destruct three as (G & E0 & L & EQ & HG & HE & HL & F1 & F2).
  split.
  - unfold up_pos, low_end in *. rewrite F2. destruct E0 as [|x E0].
    + cbn [hd length]. rewrite Nat.add_0_r, Nat.eqb_refl. change (len []) with 0. rewrite Nat.add_0_r. auto.
    + cbn [hd]. assert (x <> []) by (apply (line_nonempty _ x ok); rewrite EQ, !in_app_iff; cbn; tauto).
      replace (low_pos =? low_pos + length x) with false; auto. symmetry. apply Nat.eqb_neq. destruct x; [congruence|cbn; lia].
  - unfold up_pos, low_pos, data. rewrite F1, F2. rewrite EQ at 1. apply slice_lines.
Qed.
End Search.

(** ** Context lines *)
Lemma find_prev_ok : forall A x C, lines_ok (A ++ x :: C) -> whole x ->
  find_prev (concat (A ++ x :: C)) (len (A ++ [x])) = Ok (len A).
Proof.
  intros A x C H (t & -> & T). rewrite len_app, len_cons. change (len []) with 0. rewrite app_length. cbn [length].
  destruct (lines_app A _ H ltac:(discriminate)) as [WA _].
  unfold find_prev. destruct (Nat.leb_spec (len A + (length t + 1 + 0)) 1) as [L|L].
  - f_equal. lia.
  - assert (E1 : nth_error (concat (A ++ (t ++ [NL]) :: C)) (len A + (length t + 1 + 0) - 1) = Some NL).
    { rewrite concat_app. cbn [concat]. rewrite nth_error_app2 by (unfold len; lia).
      replace (len A + (length t + 1 + 0) - 1 - length (concat A)) with (length t) by (unfold len; lia).
      rewrite <- app_assoc. rewrite nth_error_app2 by lia. rewrite Nat.sub_diag. auto. }
    rewrite E1, N.eqb_refl. cbn [negb].
    destruct t as [|c0 t].
    + (* a blank line: the byte before it is the newline of the previous line *)
      cbn [length app] in *. assert (A <> []) by (intros ->; cbn in L; lia).
      destruct (@exists_last _ A H0) as (A' & w & ->). apply Forall_app in WA as [WA' Ww]. inversion Ww as [|? ? (u & -> & U) _]; subst.
      rewrite len_app, len_cons. change (len []) with 0. rewrite app_length. cbn [length].
      unfold find_start. rewrite concat_app. cbn [concat app].
      match goal with |- (if ?b then _ else _) = _ => assert (B : b = true) end.
      { apply Nat.ltb_lt. rewrite app_length. fold (len (A' ++ [u ++ [NL]])). rewrite len_app, len_cons, app_length. change (len []) with 0. cbn [length]. lia. }
      rewrite B. f_equal.
      assert (NT : nth (len A' + (length u + 1 + 0) + (0 + 1 + 0) - 2) (concat (A' ++ [u ++ [NL]]) ++ NL :: concat C) 0%N = NL).
      { rewrite concat_app. cbn [concat]. rewrite app_nil_r, <- !app_assoc. rewrite app_nth2 by (unfold len; lia).
        rewrite app_nth2 by (unfold len; lia). replace (_ - length (concat A') - length u) with 0 by (unfold len; lia). auto. }
      set (k := len A' + (length u + 1 + 0) + (0 + 1 + 0) - 2) in *. assert (K : k = len A' + length u) by (unfold k; lia). clearbody k.
      destruct k; cbn [start_loop]; rewrite NT, N.eqb_refl; lia.
    + replace (len A + (length (c0 :: t) + 1 + 0) - 2) with (len A + length t) by (cbn; lia).
      apply find_start_in; auto; rewrite app_length; cbn; lia.
Qed.

Lemma back_lines_ok : forall n A C, lines_ok (A ++ C) -> Forall whole A ->
  back_lines (concat (A ++ C)) n (len A) = Ok (len (firstn (length A - n) A)).
Proof.
  induction n as [|n IH]; intros A C H W; cbn [back_lines].
  - rewrite Nat.sub_0_r, firstn_all. auto.
  - destruct A as [|x0 A0]; [reflexivity|].
    destruct (@exists_last _ (x0 :: A0) ltac:(discriminate)) as (A & x & E). rewrite E in *. clear E x0 A0.
    apply Forall_app in W as [WA Wx]. inversion Wx as [|? ? W1 _]; subst.
    assert (Hx : x <> []) by (destruct W1 as (t & -> & _); destruct t; discriminate).
    replace (len (A ++ [x]) =? 0) with false.
    2:{ symmetry. apply Nat.eqb_neq. rewrite len_app, len_cons. destruct x; [congruence|cbn; lia]. }
    rewrite <- app_assoc in *. cbn [app] in *. rewrite find_prev_ok by auto. cbn [rbind].
    rewrite IH by auto. f_equal. f_equal. rewrite app_length. cbn [length].
    replace (length A + 1 - S n) with (length A - n) by lia. rewrite firstn_app.
    replace (length A - n - length A) with 0 by lia. cbn. rewrite app_nil_r. auto.
Qed.

Lemma forward_lines_ok : forall n A C, lines_ok (A ++ C) ->
  forward_lines (concat (A ++ C)) n (len A) = len (A ++ firstn n C).
Proof.
  induction n as [|n IH]; intros A C H; cbn [forward_lines firstn].
  - rewrite app_nil_r. auto.
  - destruct C as [|x C].
    + rewrite app_nil_r in *. rewrite find_end_over by (unfold len; lia). specialize (IH A []). rewrite !app_nil_r in IH.
      rewrite firstn_nil, app_nil_r in IH. auto.
    + assert (x <> []) by (apply (line_nonempty _ x H); rewrite in_app_iff; right; left; auto).
      rewrite <- (Nat.add_0_r (len A)) at 1. rewrite find_end_in; [|auto|destruct x; [congruence|cbn; lia]].
      replace (len A + length x) with (len (A ++ [x])) by (rewrite len_app, len_cons; change (len []) with 0; lia).
      specialize (IH (A ++ [x]) C). rewrite <- !app_assoc in IH. cbn [app] in IH. apply IH. auto.
Qed.

Lemma write_nl_ended : forall b, write_nl b = ended b.
Proof.
  intros b. unfold write_nl, ended. destruct b as [|x b] using rev_ind; auto.
  rewrite rev_app_distr, last_last. cbn [rev app]. destruct (b ++ [x]) eqn:E; [destruct b; discriminate|]. reflexivity.
Qed.

Lemma named_loop_ok : forall fuel n A B C, lines_ok (A ++ B ++ C) -> length B < fuel ->
  named_loop fuel n (concat (A ++ B ++ C)) (len A) (len (A ++ B)) = concat (map (fun l => n ++ [TAB] ++ ended l) B).
Proof.
  induction fuel as [|fuel IH]; intros n A B C H HF; [lia|]. cbn [named_loop]. destruct B as [|x B].
  - rewrite app_nil_r, Nat.ltb_irrefl. auto.
  - assert (x <> []) by (apply (line_nonempty _ x H); rewrite !in_app_iff; cbn; tauto).
    assert (0 < length x) by (destruct x; [congruence|cbn; lia]).
    replace (len A <? len (A ++ x :: B)) with true by (symmetry; apply Nat.ltb_lt; rewrite len_app, len_cons; lia).
    cbn [app] in *. assert (FE : find_end (concat (A ++ x :: B ++ C)) (len A) = len A + length x) by (rewrite <- (Nat.add_0_r (len A)) at 1; apply find_end_in; auto). rewrite FE. cbv zeta. rewrite slice_line, write_nl_ended.
    cbn [map concat]. rewrite <- !app_assoc. 
    replace (len A + length x) with (len (A ++ [x])) by (rewrite len_app, len_cons; change (len []) with 0; lia).
    specialize (IH n (A ++ [x]) B C). rewrite <- !app_assoc in IH. cbn [app] in IH. rewrite IH; auto. cbn in HF. lia.
Qed.

Lemma lines_le_len : forall B, (forall x, In x B -> x <> []) -> length B <= len B.
Proof.
  induction B as [|x B IH]; intros H; [cbn; lia|]. rewrite len_cons. cbn [length].
  assert (x <> []) by (apply H; left; auto). destruct x; [congruence|]. cbn. 
  assert (length B <= len B) by (apply IH; intros; apply H; right; auto). lia.
Qed.

(** The whole output. *)
Theorem search_main_ok : forall c ctx name d fuel, let ls := cut_lines d in
  in_order c ls -> blanks_ok c ls -> 2 * length ls + 1 <= fuel ->
  (filter (fun l => negb (above c l)) ls <> [] \/ (exists q, d = q ++ [NL]) \/ before_non ctx = 0) ->
  let m := filter (matches c) ls in
  let lo := filter (above c) ls in
  let hi := skipn (length lo + length m) ls in
  let '(b, a) := match m with [] => (before_non ctx, after_non ctx) | _ => (before_match ctx, after_match ctx) end in
  search_main c fuel ctx name d = Some (Ok (shown name (skipn (length lo - b) lo ++ m ++ firstn a hi))).
Proof.
  intros c ctx name d fuel ls O B F Hend m lo hi.
  assert (OK : lines_ok ls) by apply cut_ok.
  assert (D : d = concat ls) by (symmetry; apply cut_concat).
  destruct (equal_range_ok c ls OK O B fuel F) as [E _].
  destruct (three c ls O) as (G & E0 & L & EQ & HG & HE & HL & F1 & F2).
  unfold search_main. rewrite D, E. unfold up_pos, low_pos. fold m lo.
  assert (LO : lo = G) by exact F1. assert (M : m = E0) by exact F2.
  assert (HI : hi = L) by (unfold hi; rewrite EQ, LO, M, app_assoc, skipn_app_at; auto; rewrite app_length; auto).
  assert (TEST : (len lo =? len lo + len m) = match m with [] => true | _ => false end).
  { destruct m as [|x m0] eqn:Em; [rewrite Nat.add_0_r; apply Nat.eqb_refl|]. apply Nat.eqb_neq. rewrite len_cons.
    assert (x <> []) by (apply (line_nonempty _ x OK); rewrite EQ, <- M, !in_app_iff; cbn; tauto). destruct x; [congruence|cbn; lia]. }
  rewrite TEST.
  assert (GO : forall b a, (b = 0 \/ Forall whole lo) ->
    rbind (back_lines (concat ls) b (len lo)) (fun start =>
      let stop := forward_lines (concat ls) a (len lo + len m) in
      Ok (match name with None => write_nl (bslice (concat ls) start stop) | Some n => named_loop (S (length (concat ls))) n (concat ls) start stop end)) =
    Ok (shown name (skipn (length lo - b) lo ++ m ++ firstn a hi))).
  { intros b a Hb.
    assert (BK : back_lines (concat ls) b (len lo) = Ok (len (firstn (length lo - b) lo))).
    { destruct Hb as [-> | W]; [cbn [back_lines]; rewrite Nat.sub_0_r, firstn_all; auto|].
      rewrite EQ, LO. apply back_lines_ok; [rewrite <- EQ; auto|rewrite <- LO; auto]. }
    rewrite BK. cbn [rbind]. cbv zeta. f_equal.
    assert (FW : forward_lines (concat ls) a (len lo + len m) = len ((lo ++ m) ++ firstn a hi)).
    { rewrite <- len_app. assert (E2 : ls = (lo ++ m) ++ hi) by (rewrite LO, M, HI, EQ, <- app_assoc; auto).
      rewrite E2 at 1. apply forward_lines_ok. rewrite <- E2. auto. }
    rewrite FW.
    set (p := firstn (length lo - b) lo). set (q := skipn (length lo - b) lo).
    assert (PQ : lo = p ++ q) by (symmetry; apply firstn_skipn).
    replace (len ((lo ++ m) ++ firstn a hi)) with (len p + len (q ++ m ++ firstn a hi)) by (rewrite PQ, !len_app; lia).
    assert (ELS : ls = p ++ (q ++ m ++ firstn a hi) ++ skipn a hi).
    { rewrite <- !app_assoc, firstn_skipn. rewrite (app_assoc p), <- PQ, LO, M, HI. auto. }
    destruct name as [n|]; cbn [shown].
    - set (Q := q ++ m ++ firstn a hi) in *. set (R := skipn a hi) in *.
      assert (NM : forall xs, xs = p ++ Q ++ R -> lines_ok xs -> named_loop (S (length (concat xs))) n (concat xs) (len p) (len p + len Q) =
        concat (map (fun l => n ++ [TAB] ++ ended l) Q)).
      { intros xs -> OKx. rewrite <- len_app. apply named_loop_ok; auto. fold (len (p ++ Q ++ R)). rewrite !len_app.
        assert (length Q <= len Q).
        { apply lines_le_len. intros x Hx. apply (line_nonempty _ x OKx). rewrite !in_app_iff. tauto. }
        lia. }
      apply NM; auto.
    - rewrite write_nl_ended. f_equal. rewrite ELS at 1. apply slice_lines. }
  assert (WLO : forall r, r <> [] -> ls = G ++ r -> Forall whole lo).
  { intros r Hr E2. rewrite E2 in OK. destruct (lines_app G r OK Hr). rewrite LO. auto. }
  destruct m as [|x m0] eqn:Em.
  - f_equal. apply GO. destruct Hend as [Hend|[(q & Hq)|Hend]]; auto; right.
    + rewrite <- M in EQ. cbn [app] in EQ. apply (WLO L); auto. intros ->. rewrite app_nil_r in EQ. apply Hend.
      clear - HG EQ. rewrite EQ. clear EQ. induction HG as [|x G Hx _ IH]; auto. cbn. unfold above at 1. rewrite Hx. auto.
    + rewrite LO. clear GO. rewrite <- M in EQ. cbn [app] in EQ. destruct L as [|l0 L].
      * rewrite app_nil_r in EQ. rewrite <- EQ. rewrite D in Hq. clear - OK Hq.
        revert q Hq. induction OK as [|l [T1 T2]|l ls0 W OK IH]; intros q Hq; auto.
        -- cbn in Hq. rewrite app_nil_r in Hq. exfalso. apply T2. rewrite Hq, in_app_iff. right. left. auto.
        -- constructor; auto. destruct ls0 as [|l1 ls1]; auto.
           assert (NE : concat (l1 :: ls1) <> []).
           { intros K. assert (l1 <> []) by (apply (line_nonempty _ l1 OK); left; auto). cbn in K. apply app_eq_nil in K as [K _]. auto. }
           destruct (@exists_last _ _ NE) as (q2 & z & E2).
           change (concat (l :: l1 :: ls1)) with (l ++ concat (l1 :: ls1)) in Hq. rewrite E2, app_assoc in Hq.
           apply app_inj_tail in Hq as [_ ->]. apply (IH q2). auto.
      * rewrite <- LO. apply (WLO (l0 :: L)); auto; discriminate.
  - f_equal. apply GO. right. rewrite <- M in EQ. apply (WLO ((x :: m0) ++ L)); auto; discriminate.
Qed.
