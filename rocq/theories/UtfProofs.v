(** Lemmas on UTF-8. *)
From Coq Require Import List NArith Bool Arith Lia ZArith.
Import ListNotations.
From Verif Require Import Base TextSpec StrModel CompModel CompSpec CompProofs MatchModel MatchSpec MatchText TextProofs HdrProofs UtfSpec UtfModel.
Open Scope list_scope.

(** A byte inside of a character. *)
Definition inner (x : N) : Prop := (128 <= x < 192)%N.
Lemma coded_shape c e : coded c e -> exists x t, e = x :: t /\ ~ inner x /\ Forall inner t /\ (x < 128 \/ 128 <= x)%N.
Proof. unfold inner. intros H. inversion H; subst; do 2 eexists; (split; [reflexivity|]); repeat split; repeat constructor; lia. Qed.
Lemma coded_scalar c e : coded c e -> scalar c.
Proof. unfold scalar. intros H. inversion H; subst; lia. Qed.
Lemma cons_inj {A} (x y : A) l m : x :: l = y :: m -> x = y /\ l = m.
Proof. intros H. inversion H. auto. Qed.
Lemma coded_free c e d f x y : coded c e -> coded d f -> e ++ x = f ++ y -> c = d /\ e = f /\ x = y.
Proof.
  intros H K E. inversion H; subst; inversion K; subst; cbn [app] in E; apply cons_inj in E as [E0 E]; try (exfalso; lia);
    repeat match goal with [E : _ :: _ = _ :: _ |- _] => apply cons_inj in E as [? E] end;
    (split; [lia|split; [repeat f_equal; lia|assumption]]).
Qed.
Lemma coded_det c e f : coded c e -> coded c f -> e = f.
Proof.
  enough (G : forall d, coded c e -> coded d f -> c = d -> e = f) by (intros; eapply G; eauto).
  intros d H K. destruct H; destruct K; intros E; try (exfalso; lia); repeat f_equal; lia.
Qed.
Lemma coded_less c e d f x y : coded c e -> coded d f -> (c < d)%N -> bcmp (e ++ x) (f ++ y) = Lt.
Proof.
  intros H K L. inversion H; subst; inversion K; subst; cbn [app bcmp];
    repeat (match goal with |- context [(?a ?= ?b)%N] => destruct (N.compare_spec a b) end); auto; exfalso; lia.
Qed.
Lemma coded_chars c e r : coded c e -> chars (e ++ r) = c :: chars r.
Proof.
  assert (M : forall a, (a < 64)%N -> ((128 + a) mod 64 = a)%N).
  { intros a A. rewrite N.add_mod by lia. change (128 mod 64)%N with 0%N. rewrite N.add_0_l, N.mod_mod by lia. apply N.mod_small; auto. }
  intros H. inversion H; subst; cbn [app chars].
  - destruct (N.ltb_spec c 128); [auto|lia].
  - destruct (N.ltb_spec (192 + a) 128); [lia|]. destruct (N.ltb_spec (192 + a) 224); [|lia]. f_equal.
    rewrite M by auto. rewrite N.add_mod by lia. change (192 mod 32)%N with 0%N. rewrite N.add_0_l, N.mod_mod by lia.
    rewrite N.mod_small by lia. lia.
  - destruct (N.ltb_spec (224 + a) 128); [lia|]. destruct (N.ltb_spec (224 + a) 224); [lia|]. destruct (N.ltb_spec (224 + a) 240); [|lia]. f_equal.
    rewrite !M by auto. rewrite N.add_mod by lia. change (224 mod 32)%N with 0%N. rewrite N.add_0_l, N.mod_mod by lia.
    rewrite N.mod_small by lia. lia.
  - destruct (N.ltb_spec (240 + a) 128); [lia|]. destruct (N.ltb_spec (240 + a) 224); [lia|]. destruct (N.ltb_spec (240 + a) 240); [lia|]. f_equal.
    rewrite !M by auto. rewrite N.add_mod by lia. change (240 mod 8)%N with 0%N. rewrite N.add_0_l, N.mod_mod by lia.
    rewrite N.mod_small by lia. lia.
Qed.
Lemma enc_coded c : scalar c -> coded c (enc c).
Proof.
  unfold scalar, enc. intros H. destruct (N.ltb_spec c 128); [constructor; auto|].
  assert (D : forall k, (k > 0)%N -> c = (k * (c / k) + c mod k)%N /\ (c mod k < k)%N).
  { intros k K. split; [apply N.div_mod; lia|apply N.mod_lt; lia]. }
  assert (D2 : forall d k, (k > 0)%N -> d = (k * (d / k) + d mod k)%N /\ (d mod k < k)%N).
  { intros d k K. split; [apply N.div_mod; lia|apply N.mod_lt; lia]. }
  assert (Q : (c / 4096 = c / 64 / 64)%N) by (rewrite N.div_div by lia; reflexivity).
  assert (Q2 : (c / 262144 = c / 64 / 64 / 64)%N) by (rewrite !N.div_div by lia; reflexivity).
  destruct (D 64%N) as [A B]; [lia|]. destruct (N.ltb_spec c 2048).
  - rewrite A at 1. constructor; lia.
  - destruct (D2 (c / 64)%N 64%N) as [A2 B2]; [lia|]. destruct (N.ltb_spec c 65536).
    + rewrite Q. set (w := (c mod 64)%N) in *. set (v := ((c / 64) mod 64)%N) in *. set (u := (c / 64 / 64)%N) in *.
      assert (E : c = (4096 * u + 64 * v + w)%N) by lia. rewrite E at 1. constructor; lia.
    + rewrite Q2, Q. destruct (D2 (c / 64 / 64)%N 64%N) as [A3 B3]; [lia|].
      set (w := (c mod 64)%N) in *. set (v := ((c / 64) mod 64)%N) in *. set (u := ((c / 64 / 64) mod 64)%N) in *. set (t := (c / 64 / 64 / 64)%N) in *.
      assert (E : c = (262144 * t + 4096 * u + 64 * v + w)%N) by lia. rewrite E at 1. constructor; lia.
Qed.

(** Texts. *)
Lemma text_chars s b : text_of s b -> chars b = s.
Proof. induction 1 as [|c e s b C _ IH]; [reflexivity|]. rewrite (coded_chars c e b C), IH. reflexivity. Qed.
Lemma text_scalar s b : text_of s b -> Forall scalar s.
Proof. induction 1; constructor; auto. eapply coded_scalar; eauto. Qed.
Lemma text_string s : Forall scalar s -> text_of s (string_of s).
Proof. induction 1; cbn [string_of flat_map]; constructor; auto. apply enc_coded; auto. Qed.
Lemma text_det s b c : text_of s b -> text_of s c -> b = c.
Proof. intros H. revert c. induction H as [|x e s b C _ IH]; intros c K; inversion K; subst; auto. rewrite (coded_det x e e0); auto. f_equal. auto. Qed.
Lemma text_same s t b : text_of s b -> text_of t b -> s = t.
Proof. intros H K. rewrite <- (text_chars _ _ H). apply text_chars; auto. Qed.
Lemma text_app s t a b : text_of s a -> text_of t b -> text_of (s ++ t) (a ++ b).
Proof. induction 1; intros K; cbn [app]; auto. rewrite <- app_assoc. constructor; auto. Qed.
Lemma text_one c : (c < 128)%N -> text_of [c] [c].
Proof. intros H. apply (text_cons c [c] [] []); constructor; auto. Qed.
Lemma text_ascii s : Forall (fun c => (c < 128)%N) s -> text_of s s.
Proof. induction 1 as [|c s C _ IH]; [constructor|]. apply (text_cons c [c]); auto. constructor; auto. Qed.
(** What begins as a text and is a text goes on as one. *)
Lemma text_rest p q s r : text_of p q -> text_of s (q ++ r) -> exists t, s = p ++ t /\ text_of t r.
Proof.
  intros H. revert s. induction H as [|c e p q C _ IH]; intros s K; cbn [app] in *; [eauto|]. rewrite <- app_assoc in K.
  inversion K as [K1 K2|d f s' b' C' T E1 E2]; subst.
  - destruct (coded_shape _ _ C) as (x & t & -> & _). discriminate.
  - destruct (coded_free _ _ _ _ _ _ C' C E2) as (-> & -> & ->). destruct (IH _ T) as (t & -> & T'). eauto.
Qed.
Definition edge (b : bytes) : Prop := match b with [] => True | x :: _ => ~ inner x end.
Lemma text_edge s b : text_of s b -> edge b.
Proof. destruct 1 as [|c e s b C]; cbn [edge]; auto. destruct (coded_shape _ _ C) as (x & t & -> & I & _). cbn [app edge]. auto. Qed.
(** A text can be cut in front of a byte that is not inside of a character. *)
Lemma text_cut s a b : text_of s (a ++ b) -> edge b -> exists u v, s = u ++ v /\ text_of u a /\ text_of v b.
Proof.
  intros H E. remember (a ++ b) as w eqn:W. revert a W. induction H as [|c e s w C T IH]; intros a W.
  - symmetry in W. apply app_eq_nil in W as [-> ->]. exists [], []. repeat constructor.
  - destruct a as [|x a].
    + cbn [app] in W. subst. exists [], (c :: s). repeat split; constructor; auto.
    + destruct (coded_shape _ _ C) as (y & t & -> & Y & I & _). cbn [app] in W. injection W as <- W.
      assert (S : (exists k, t = a ++ k /\ b = k ++ w /\ k <> []) \/ (exists k, a = t ++ k /\ w = k ++ b)).
      { clear - W. revert a W. induction t as [|z t IH]; intros a W; [right; exists a; auto|].
        destruct a as [|z' a]; cbn [app] in W; [left; exists (z :: t); repeat split; auto; discriminate|]. injection W as <- W.
        destruct (IH _ W) as [(k & -> & -> & N)|(k & -> & ->)]; [left|right]; exists k; auto. }
      destruct S as [(k & -> & -> & N)|(k & -> & ->)].
      * destruct k as [|z k]; [congruence|]. cbn [app edge] in E. apply Forall_app in I as [_ I]. inversion I; subst. contradiction.
      * destruct (IH k eq_refl) as (u & v & -> & U & V). exists (c :: u), v. repeat split; auto.
        change (y :: t ++ k) with ((y :: t) ++ k). constructor; auto.
Qed.
Lemma text_begins p q s b : text_of p q -> text_of s b -> (begins q b <-> begins p s).
Proof.
  intros P S. unfold begins. split; intros [r ->].
  - destruct (text_rest _ _ _ _ P S) as (t & -> & _). eauto.
  - assert (X : Forall scalar r). { apply text_scalar in S. apply Forall_app in S. tauto. }
    pose proof (text_app _ _ _ _ P (text_string _ X)) as Y. rewrite (text_det _ _ _ S Y). eauto.
Qed.
Lemma text_finishes p q s b : text_of p q -> text_of s b -> (finishes q b <-> finishes p s).
Proof.
  intros P S. unfold finishes. split; intros [r ->].
  - destruct (text_cut _ _ _ S (text_edge _ _ P)) as (u & v & -> & _ & V). rewrite (text_same _ _ _ P V). eauto.
  - assert (X : Forall scalar r). { apply text_scalar in S. apply Forall_app in S. tauto. }
    pose proof (text_app _ _ _ _ (text_string _ X) P) as Y. rewrite (text_det _ _ _ S Y). eauto.
Qed.
Lemma text_within p q s b : text_of p q -> text_of s b -> (within q b <-> within p s).
Proof.
  intros P S. unfold within. split.
  - intros (u & v & ->). destruct p as [|c p].
    { exists [], s. reflexivity. }
    assert (E : edge (q ++ v)). { pose proof (text_edge _ _ P) as E. inversion P; subst. destruct (coded_shape _ _ H1) as (x & t & -> & _). cbn [app edge] in *. auto. }
    destruct (text_cut _ _ _ S E) as (s1 & s2 & -> & _ & V). destruct (text_rest _ _ _ _ P V) as (t & -> & _). eauto.
  - intros (u & v & ->). assert (X : Forall scalar u /\ Forall scalar v).
    { apply text_scalar in S. apply Forall_app in S as [? S]. apply Forall_app in S. tauto. }
    destruct X as [X X']. pose proof (text_app _ _ _ _ (text_string _ X) (text_app _ _ _ _ P (text_string _ X'))) as Y.
    rewrite (text_det _ _ _ S Y). eauto.
Qed.
Lemma text_order s t a b : text_of s a -> text_of t b -> bcmp a b = bcmp s t.
Proof.
  intros H. revert t b. induction H as [|c e s a C H IH]; intros t b K.
  - destruct K as [|d f t b D K]; auto. destruct (coded_shape _ _ D) as (x & r & -> & _). reflexivity.
  - destruct K as [|d f t b D K].
    + destruct (coded_shape _ _ C) as (x & r & -> & _). reflexivity.
    + cbn [bcmp]. destruct (N.compare_spec c d) as [->|L|L].
      * rewrite (coded_det _ _ _ C D), bcmp_app. auto.
      * apply (coded_less c e d f); auto.
      * rewrite bcmp_antisym. rewrite (coded_less d f c e); auto.
Qed.
Lemma coded_lower c e : coded c e -> coded (lower c) (map lower e).
Proof.
  unfold lower. intros H. inversion H; subst; cbn [map];
    repeat (match goal with |- context [((65 <=? ?x) && (?x <=? 90))%N] => destruct (N.leb_spec 65 x); destruct (N.leb_spec x 90); cbn [andb] end); try lia; constructor; lia.
Qed.
Lemma text_lower s b : text_of s b -> text_of (map lower s) (map lower b).
Proof. induction 1; cbn [map]; [constructor|]. rewrite map_app. constructor; auto. apply coded_lower; auto. Qed.
Lemma coded_away d c e : coded c e -> (d < 128)%N -> c <> d -> ~ In d e.
Proof. intros H L N I. inversion H; subst; cbn [In] in I; lia. Qed.
Lemma split_on_away d e b : ~ In d e -> split_on d (e ++ b) = match split_on d b with f :: fs => (e ++ f) :: fs | [] => [] end.
Proof.
  induction e as [|x e IH]; intros N; cbn [app split_on]. { destruct (split_on d b) as [|f fs]; auto. }
  destruct (N.eqb_spec x d) as [->|X]; [exfalso; apply N; left; auto|]. rewrite IH; [|intros I; apply N; right; auto].
  destruct b as [|y b]; cbn [split_on]; auto. destruct (y =? d)%N; auto. destruct (split_on d b); auto.
Qed.
Lemma text_split d s b : (d < 128)%N -> text_of s b -> Forall2 text_of (split_on d s) (split_on d b).
Proof.
  intros L H. induction H as [|c e s b C H IH]; [repeat constructor|]. cbn [split_on]. destruct (N.eqb_spec c d) as [->|N].
  - inversion C; subst; try lia. cbn [app split_on]. rewrite N.eqb_refl. constructor; auto. constructor.
  - rewrite split_on_away by (eapply coded_away; eauto). inversion IH as [|x y l l' X Y E1 E2]; subst.
    + exfalso. eapply split_on_nonempty; eauto.
    + constructor; auto. constructor; auto.
Qed.
Lemma text_join d ss bs : (d < 128)%N -> Forall2 text_of ss bs -> text_of (join d ss) (join d bs).
Proof.
  intros L H. induction H as [|s b ss bs S H IH]; [constructor|]. destruct H as [|s' b' ss bs S' H]; cbn [join]; auto.
  apply text_app; auto. apply (text_cons d [d]); [constructor; auto|]. exact IH.
Qed.
Lemma text_count s b : text_of s b -> length s <= length b.
Proof. induction 1; auto. cbn [length]. rewrite app_length. destruct (coded_shape _ _ H) as (x & t & -> & _). cbn [length]. lia. Qed.
