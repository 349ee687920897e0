(** Proofs about tools run one after the other: what sort writes is read by the next tool. *)
From Coq Require Import String List NArith ZArith Bool Arith Lia Sorting.Permutation Sorting.Sorted.
Open Scope list_scope.
Import ListNotations.
From Verif Require Import Base TextSpec FloatModel CompModel CompSpec OrdProofs LineSpec LineProofs SortSpec KeySpec OrderSpec OrderProofs OrderTool UniqModel UniqSpec UniqMainSpec JoinSpec PipeSpec.
Close Scope Z_scope. Open Scope nat_scope.

(** * Sorted lists *)
Section Sorted.
Context {A : Type}.
Variable cmp : A -> A -> comparison.
Hypothesis pre : total_preorder cmp.

Lemma cmp_refl x : cmp x x = Eq.
Proof. apply pre. Qed.
Lemma cmp_flip x y : cmp y x = CompOpp (cmp x y).
Proof. apply pre. Qed.
Lemma same_sym x y : same cmp x y = same cmp y x.
Proof. unfold same. rewrite (cmp_flip y x). destruct (cmp y x); reflexivity. Qed.
Lemma lt_le x y z : cmp x y = Lt -> cmp y z <> Gt -> cmp x z = Lt.
Proof.
  intros H G. destruct pre as (_ & F & T). assert (X : cmp x z <> Gt) by (apply (T x y z); congruence). destruct (cmp x z) eqn:E; auto; [|congruence]. exfalso.
  assert (Y : cmp y x <> Gt). { apply (T y z x); auto. rewrite F, E. discriminate. } rewrite F, H in Y. apply Y. reflexivity.
Qed.
Lemma le_lt x y z : cmp x y <> Gt -> cmp y z = Lt -> cmp x z = Lt.
Proof.
  intros H G. destruct pre as (_ & F & T). assert (X : cmp x z <> Gt) by (apply (T x y z); congruence). destruct (cmp x z) eqn:E; auto; [|congruence]. exfalso.
  assert (Y : cmp z y <> Gt). { apply (T z x y); auto. rewrite F, E. discriminate. } rewrite F, G in Y. apply Y. reflexivity.
Qed.
Lemma same_le x y : same cmp x y = true -> cmp x y <> Gt /\ cmp y x <> Gt.
Proof. unfold same. rewrite (cmp_flip x y). destruct (cmp x y); try discriminate. intros _. split; discriminate. Qed.
Lemma same_trans x y z : same cmp x y = true -> same cmp y z = true -> same cmp x z = true.
Proof.
  intros H G. apply same_le in H as [H1 H2]. apply same_le in G as [G1 G2]. destruct pre as (_ & F & T). unfold same.
  pose proof (T x y z H1 G1) as P. pose proof (T z y x G2 H2) as Q. rewrite F in Q. destruct (cmp x z); cbn in *; congruence.
Qed.
Lemma sorted_app l r : sorted cmp (l ++ r) -> sorted cmp l /\ sorted cmp r /\ forall x y, In x l -> In y r -> cmp x y <> Gt.
Proof.
  induction l as [|a l IH]; cbn [app]; intros H; [split; [constructor|split; [auto|intros ? ? []]]|]. apply StronglySorted_inv in H as [H F]. destruct (IH H) as (H1 & H2 & H3).
  rewrite Forall_forall in F. split; [constructor; [auto|apply Forall_forall; intros z I; apply F; apply in_or_app; auto]|]. split; [auto|].
  intros x y [<-|I] J; [apply F; apply in_or_app; auto|auto].
Qed.
Lemma chain_same r : chain (same cmp) r -> forall x y, In x r -> In y r -> same cmp x y = true.
Proof.
  assert (G : forall t x, chain (same cmp) (x :: t) -> forall y, In y t -> same cmp x y = true).
  { induction t as [|z q IH]; intros x H y I; [destruct I|]. cbn [chain] in H. destruct H as [H C]. destruct I as [<-|I]; [auto|]. apply same_trans with z; auto. }
  destruct r as [|a r]; intros H x y I J; [destruct I|]. specialize (G r a H).
  assert (S : forall z, In z (a :: r) -> same cmp a z = true). { intros z [<-|K]; auto. unfold same. rewrite cmp_refl. reflexivity. }
  apply same_trans with a; auto. rewrite same_sym. auto.
Qed.
Lemma filter_none (p : A -> bool) l : (forall x, In x l -> p x = false) -> filter p l = [].
Proof. induction l as [|a l IH]; intros H; [reflexivity|]. cbn [filter]. rewrite (H a) by (left; auto). apply IH. intros x I. apply H. right; auto. Qed.
Lemma filter_every (p : A -> bool) l : (forall x, In x l -> p x = true) -> filter p l = l.
Proof. induction l as [|a l IH]; intros H; [reflexivity|]. cbn [filter]. rewrite (H a) by (left; auto). f_equal. apply IH. intros x I. apply H. right; auto. Qed.

Lemma runs_below r rs : runs_of (same cmp) (concat (r :: rs)) (r :: rs) -> sorted cmp (concat (r :: rs)) -> forall x y, In x r -> In y (concat rs) -> cmp x y = Lt.
Proof.
  intros (_ & F & AP) S x y I J. inversion F as [|? ? [RN RC] F']; subst. cbn [concat] in S. destruct (sorted_app _ _ S) as (_ & S2 & X).
  destruct rs as [|s rs]; [destruct J|]. destruct AP as [(p & u & v & q & -> & -> & B) _]. cbn [concat app] in S2, J.
  assert (UV : cmp u v = Lt). { assert (U : cmp u v <> Gt) by (apply X; [apply in_or_app; right; left; auto|cbn; auto]). unfold same in B. destruct (cmp u v); congruence. }
  assert (XU : cmp x u <> Gt). { apply same_le. apply (chain_same _ RC); auto. apply in_or_app. right; left; auto. }
  assert (XV : cmp x v = Lt) by (apply le_lt with u; auto). destruct J as [<-|J]; auto. apply lt_le with v; auto. apply StronglySorted_inv in S2 as [_ S2]. rewrite Forall_forall in S2. auto.
Qed.
Lemma runs_tail (e : A -> A -> bool) r rs : runs_of e (concat (r :: rs)) (r :: rs) -> runs_of e (concat rs) rs.
Proof. intros (_ & F & AP). inversion F; subst. split; [auto|]. split; [auto|]. destruct rs as [|s rs]; [exact I|]. apply AP. Qed.
(** The runs of a sorted list are its groups. *)
Lemma runs_groups rs : runs_of (same cmp) (concat rs) rs -> sorted cmp (concat rs) -> Forall (fun r => forall x, In x r -> r = filter (same cmp x) (concat rs)) rs.
Proof.
  induction rs as [|r rs IH]; intros R S; [constructor|]. pose proof (runs_below _ _ R S) as B. pose proof (runs_tail _ _ _ R) as RT.
  assert (ST : sorted cmp (concat rs)) by (cbn [concat] in S; apply sorted_app in S; tauto). destruct R as (_ & F & _). inversion F as [|? ? [RN RC] F']; subst.
  constructor.
  - intros x I. cbn [concat]. rewrite filter_app, filter_every, filter_none, app_nil_r; auto.
    + intros y J. unfold same. rewrite (B x y); auto.
    + intros y J. apply (chain_same _ RC); auto.
  - specialize (IH RT ST). rewrite Forall_forall in *. intros q Q x I. cbn [concat]. rewrite filter_app, (filter_none _ r); [cbn [app]; auto|].
    intros y J. rewrite same_sym. unfold same. rewrite (B y x); auto. apply in_concat. exists q; auto.
Qed.
(** One element of each run: one of each group, in increasing order. *)
Lemma runs_reps rs : forall xs, runs_of (same cmp) (concat rs) rs -> sorted cmp (concat rs) -> Forall2 (fun r x => In x r) rs xs -> one_of_groups cmp (concat rs) xs.
Proof.
  induction rs as [|r rs IH]; intros xs R S F; inversion F as [|? x ? xs' I F']; subst; [split; [constructor|split; [auto|intros x []]]|].
  pose proof (runs_below _ _ R S) as B. pose proof (runs_tail _ _ _ R) as RT. assert (ST : sorted cmp (concat rs)) by (cbn [concat] in S; apply sorted_app in S; tauto).
  destruct (IH xs' RT ST F') as (H1 & H2 & H3). destruct R as (_ & FR & _). inversion FR as [|? ? [RN RC] _]; subst. split; [|split].
  - constructor; [auto|]. apply Forall_forall. intros y J. apply B; auto.
  - intros y [<-|J]; cbn [concat]; apply in_or_app; auto.
  - intros y J. cbn [concat] in J. apply in_app_iff in J as [J|J].
    + exists x. split; [left; auto|]. pose proof (chain_same _ RC y x J I) as Y. unfold same in Y. destruct (cmp y x); congruence.
    + destruct (H3 y J) as (z & Z1 & Z2). exists z. split; [right; auto|auto].
Qed.

(** Sorting a sorted list again changes nothing. *)
Lemma ties_first l x r : sorted cmp l -> sorted cmp (x :: r) -> keeps_ties cmp l (x :: r) -> Permutation l (x :: r) -> exists l', l = x :: l'.
Proof.
  intros S1 S2 K P. destruct l as [|y l]; [apply Permutation_nil in P; discriminate|]. exists l. f_equal.
  assert (E : cmp x y = Eq).
  { assert (XY : cmp x y <> Gt). { assert (I : In y (x :: r)) by (eapply Permutation_in; [exact P|left; auto]). destruct I as [->|I]; [rewrite cmp_refl; discriminate|]. apply StronglySorted_inv in S2 as [_ F]. rewrite Forall_forall in F. auto. }
    assert (YX : cmp y x <> Gt). { assert (I : In x (y :: l)) by (eapply Permutation_in; [symmetry; exact P|left; auto]). destruct I as [->|I]; [rewrite cmp_refl; discriminate|]. apply StronglySorted_inv in S1 as [_ F]. rewrite Forall_forall in F. auto. }
    rewrite cmp_flip in YX. destruct (cmp x y); cbn in *; congruence. }
  specialize (K x). cbn [filter] in K. assert (E1 : same cmp x x = true) by (unfold same; rewrite cmp_refl; reflexivity). assert (E2 : same cmp x y = true) by (unfold same; rewrite E; reflexivity).
  rewrite E1, E2 in K. injection K as K _. auto.
Qed.
Lemma sort_again l : forall r, sorted cmp l -> stable_sort_of cmp l r -> r = l.
Proof.
  induction l as [|a l IH]; intros r S (P & S2 & K); [apply Permutation_nil in P; auto|]. destruct r as [|x r]; [symmetry in P; apply Permutation_nil in P; discriminate|].
  destruct (ties_first _ _ _ S S2 K P) as (l' & E). injection E as <- <-. f_equal. apply StronglySorted_inv in S as [S _]. apply IH; auto.
  split; [apply Permutation_cons_inv in P; auto|]. split; [apply StronglySorted_inv in S2; tauto|]. intros y. specialize (K y). cbn [filter] in K. destruct (same cmp y a); congruence.
Qed.
Lemma strictly_same l : strictly_sorted cmp l -> forall x, In x l -> filter (same cmp x) l = [x].
Proof.
  induction l as [|a l IH]; intros S x I; [destruct I|]. apply StronglySorted_inv in S as [S F]. rewrite Forall_forall in F. cbn [filter]. destruct I as [<-|I].
  - unfold same at 1. rewrite cmp_refl. f_equal. apply filter_none. intros y J. unfold same. rewrite (F y J). reflexivity.
  - rewrite same_sym. unfold same at 1. rewrite (F x I). auto.
Qed.
Lemma strictly_sorted_sorted l : strictly_sorted cmp l -> sorted cmp l.
Proof. intros S. induction S as [|a l S IH F]; constructor; auto. eapply Forall_impl; [|exact F]. cbn. intros b E. rewrite E. discriminate. Qed.
Lemma filter_nil_iff (p : A -> bool) l : filter p l = [] <-> forall x, In x l -> p x = false.
Proof. split; [|apply filter_none]. intros H x I. destruct (p x) eqn:E; auto. assert (J : In x (filter p l)) by (apply filter_In; auto). rewrite H in J. destruct J. Qed.
Lemma head_of (l r : list A) x : x :: r = l -> In x l.
Proof. intros <-. left; auto. Qed.
(** Taking the first of each group of a list with one of each group changes nothing. *)
Lemma first_again l : forall r, strictly_sorted cmp l -> first_of_groups cmp l r -> r = l.
Proof.
  induction l as [|a l IH]; intros r S (S2 & K).
  - destruct r as [|x r]; auto. specialize (K x). cbn [filter firstn] in K. unfold same in K at 1. rewrite cmp_refl in K. discriminate.
  - pose proof S as S0. apply StronglySorted_inv in S as [S F]. rewrite Forall_forall in F.
    assert (AX : filter (same cmp a) r = [a]). { rewrite K, (strictly_same _ S0) by (left; auto). reflexivity. }
    destruct r as [|x r]; [discriminate|]. pose proof S2 as S20. apply StronglySorted_inv in S2 as [S2 F2]. rewrite Forall_forall in F2.
    assert (XA : x = a).
    { assert (IX : In x (a :: l)). { pose proof (K x) as Kx. remember (a :: l) as al eqn:EA. cbn [filter] in Kx. assert (XX : same cmp x x = true) by (unfold same; rewrite cmp_refl; reflexivity). rewrite XX in Kx.
        destruct (filter (same cmp x) al) as [|z zs] eqn:E; [discriminate|]. cbn [firstn] in Kx. injection Kx as Kx _. assert (J : In z (filter (same cmp x) al)) by (rewrite E; left; auto). apply filter_In in J. rewrite Kx. tauto. }
      destruct IX as [<-|IX]; auto. exfalso. pose proof (F x IX) as AL. cbn [filter] in AX. assert (AXf : same cmp a x = false) by (unfold same; rewrite AL; reflexivity). rewrite AXf in AX.
      assert (IA : In a r). { assert (J : In a (filter (same cmp a) r)) by (rewrite AX; left; auto). apply filter_In in J. tauto. }
      pose proof (F2 a IA) as XL. rewrite cmp_flip, XL in AL. discriminate. }
    subst x. f_equal. apply IH; auto. split; auto. intros y. specialize (K y). cbn [filter] in K. destruct (same cmp y a) eqn:E; [|auto].
    assert (N1 : filter (same cmp y) r = []). { apply filter_none. intros z J. destruct (same cmp y z) eqn:E2; auto. rewrite same_sym in E. pose proof (same_trans _ _ _ E E2) as T. unfold same in T. rewrite (F2 z J) in T. discriminate. }
    assert (N2 : filter (same cmp y) l = []). { apply filter_none. intros z J. destruct (same cmp y z) eqn:E2; auto. rewrite same_sym in E. pose proof (same_trans _ _ _ E E2) as T. unfold same in T. rewrite (F z J) in T. discriminate. }
    rewrite N1, N2. reflexivity.
Qed.
End Sorted.

Lemma perm_filter {A} (p : A -> bool) l r : Permutation l r -> Permutation (filter p l) (filter p r).
Proof. intros P. induction P as [|x l r P IH|x y l|l m r P1 IH1 P2 IH2]; cbn [filter]; auto. - destruct (p x); auto. - destruct (p x), (p y); auto. apply perm_swap. - etransitivity; eauto. Qed.
Lemma concat_whole ls : Forall whole_line ls -> forall l, In l ls -> removelast l ++ [NL] = l.
Proof. intros F l I. rewrite Forall_forall in F. destruct (F l I) as (b & -> & _). rewrite removelast_last. reflexivity. Qed.

(** * Joining *)
Section Join.
Variables A B K : Type.
Variable ord : K -> K -> comparison.
Variables (ka : A -> K) (kb : B -> K).
Hypothesis pre : total_preorder ord.
Definition pair_meets (p : A * B) : bool := partners ord ka kb (fst p) (snd p).
Lemma one_partner a r : strictly_by ord kb r -> match find (partners ord ka kb a) r with Some b => [(a, b)] | None => [] end = map (pair a) (filter (partners ord ka kb a) r).
Proof.
  intros S. induction S as [|b r S IH F]; [reflexivity|]. cbn [find filter]. destruct (partners ord ka kb a b) eqn:E; [|auto]. cbn [map]. f_equal.
  rewrite filter_none; [reflexivity|]. intros b' I. rewrite Forall_forall in F. specialize (F b' I). unfold partners in *. destruct (ord (ka a) (kb b)) eqn:E1; try discriminate.
  rewrite (le_lt _ pre (ka a) (kb b) (kb b')); auto. rewrite E1. discriminate.
Qed.
Lemma rows_flat l r : strictly_by ord kb r -> rows_spec ord ka kb l r = flat_map (fun a => map (pair a) (filter (partners ord ka kb a) r)) l.
Proof. intros S. unfold rows_spec. induction l as [|a l IH]; [reflexivity|]. cbn [flat_map]. rewrite IH, one_partner by auto. reflexivity. Qed.
Lemma filter_map_pair a r : filter pair_meets (map (pair a) r) = map (pair a) (filter (partners ord ka kb a) r).
Proof. induction r as [|b r IH]; [reflexivity|]. cbn [map filter]. unfold pair_meets at 1. cbn [fst snd]. rewrite IH. destruct (partners ord ka kb a b); reflexivity. Qed.
Lemma prod_flat l r : filter pair_meets (list_prod l r) = flat_map (fun a => map (pair a) (filter (partners ord ka kb a) r)) l.
Proof. induction l as [|a l IH]; [reflexivity|]. cbn [list_prod flat_map]. rewrite filter_app, filter_map_pair, IH. reflexivity. Qed.
Lemma flat_perm {X Y} (f g : X -> list Y) l : (forall x, Permutation (f x) (g x)) -> Permutation (flat_map f l) (flat_map g l).
Proof. intros H. induction l as [|x l IH]; [constructor|]. cbn [flat_map]. apply Permutation_app; auto. Qed.
Lemma rows_perm l r l' r' : strictly_by ord kb r -> Permutation l l' -> Permutation r r' -> Permutation (rows_spec ord ka kb l r) (filter pair_meets (list_prod l' r')).
Proof.
  intros S P Q. rewrite rows_flat, prod_flat by auto. etransitivity; [apply Permutation_flat_map; exact P|]. apply flat_perm. intros a. apply Permutation_map, perm_filter, Q.
Qed.
Lemma exists_perm {X} (p : X -> bool) l r : Permutation l r -> existsb p l = existsb p r.
Proof. intros P. induction P as [|x l r P IH|x y l|]; cbn [existsb]; try congruence. destruct (p x), (p y); reflexivity. Qed.
Lemma left_perm l r l' r' : Permutation l l' -> Permutation r r' -> Permutation (lone_left ord ka kb l r) (lone_left ord ka kb l' r').
Proof.
  intros P Q. unfold lone_left. etransitivity; [apply perm_filter; exact P|]. erewrite filter_ext; [reflexivity|]. intros a. cbn beta. rewrite (exists_perm _ _ _ Q). reflexivity.
Qed.
Lemma right_perm l r l' r' : Permutation l l' -> Permutation r r' -> Permutation (lone_right ord ka kb l r) (lone_right ord ka kb l' r').
Proof.
  intros P Q. unfold lone_right. etransitivity; [apply perm_filter; exact Q|]. erewrite filter_ext; [reflexivity|]. intros b. cbn beta. rewrite (exists_perm _ _ _ P). reflexivity.
Qed.
Lemma rows_order (R : A -> A -> Prop) l r : StronglySorted R l -> StronglySorted (fun p q => R (fst p) (fst q)) (rows_spec ord ka kb l r).
Proof.
  intros S. induction S as [|a l S IH F]; [constructor|]. unfold rows_spec in *. cbn [flat_map]. destruct (find (partners ord ka kb a) r) as [b|]; [|exact IH]. cbn [app]. constructor; [exact IH|].
  apply Forall_forall. intros [x y] I. cbn [fst]. apply in_flat_map in I as (z & Iz & I). destruct (find (partners ord ka kb z) r); [|destruct I]. destruct I as [E|[]]. injection E as <- _. rewrite Forall_forall in F. auto.
Qed.
End Join.
Lemma differ_perm {A} (cmp : A -> A -> comparison) : total_preorder cmp -> forall l r, Permutation l r -> all_differ cmp l -> all_differ cmp r.
Proof.
  intros PRE l r P. induction P as [|x l r P IH|x y l|l m r P1 IH1 P2 IH2]; cbn [all_differ]; auto.
  - intros [F D]. split; auto. eapply Permutation_Forall; eauto.
  - intros [F1 [F2 D]]. inversion F1 as [|? ? YX F3]; subst. split; [constructor; auto|split; auto]. intros E. apply YX. rewrite (cmp_flip _ PRE x y), E. reflexivity.
Qed.
Lemma differ_strict {A} (cmp : A -> A -> comparison) l : sorted cmp l -> all_differ cmp l -> strictly_sorted cmp l.
Proof.
  intros S. induction S as [|x l S IH F]; intros D; constructor.
  - apply IH. apply D.
  - destruct D as [D _]. rewrite Forall_forall in *. intros y I. specialize (F y I). specialize (D y I). destruct (cmp x y); congruence.
Qed.
