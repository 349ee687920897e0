(** Proofs about single aggregators. *)
From Coq Require Import String List NArith ZArith Bool Arith Lia SpecFloat.
Open Scope list_scope.
Import ListNotations.
From Verif Require Import Base TextSpec TextModel StrModel FloatModel FloatInt CompModel CompSpec OrdProofs SortModel MatchModel RegModel NumText AggModel AggSpec.

(** Prefixes. *)
Lemma trunc_begins_l : forall v d, begins (truncate_diff v d) v.
Proof.
  induction v as [|x v IH]; intros d; [exists []; reflexivity|]. destruct d as [|y d]; [exists (x :: v); reflexivity|]. cbn.
  destruct (x =? y)%N; [|exists (x :: v); reflexivity]. destruct (IH d) as [r Hr]. exists r. cbn. rewrite <- Hr. auto.
Qed.
Lemma trunc_begins_r : forall v d, begins (truncate_diff v d) d.
Proof.
  induction v as [|x v IH]; intros d; [exists d; reflexivity|]. destruct d as [|y d]; [exists []; reflexivity|]. cbn.
  destruct (x =? y)%N eqn:E; [|exists (y :: d); reflexivity]. apply N.eqb_eq in E. subst.
  destruct (IH d) as [r Hr]. exists r. cbn. rewrite <- Hr. auto.
Qed.
Lemma trunc_longest : forall q v d, begins q v -> begins q d -> begins q (truncate_diff v d).
Proof.
  induction q as [|c q IH]; intros v d [r1 H1] [r2 H2]; [exists (truncate_diff v d); reflexivity|].
  cbn in H1, H2. subst. cbn. rewrite N.eqb_refl. destruct (IH (q ++ r1) (q ++ r2)) as [r Hr]; [eexists; eauto|eexists; eauto|].
  exists r. cbn. rewrite Hr. auto.
Qed.
Lemma trunc_firstn : forall v d, truncate_diff (firstn (List.length d) v) d = truncate_diff v d.
Proof.
  induction v as [|x v IH]; intros d; [rewrite firstn_nil; auto|]. destruct d as [|y d]; auto. cbn. rewrite IH. auto.
Qed.
Lemma begins_trans : forall a b c, begins a b -> begins b c -> begins a c.
Proof. intros a b c [r1 ->] [r2 ->]. exists (r1 ++ r2). rewrite app_assoc. auto. Qed.
Lemma begins_length : forall a b, begins a b -> List.length a <= List.length b.
Proof. intros a b [r ->]. rewrite app_length. lia. Qed.
Lemma begins_rev : forall a b, begins (rev a) (rev b) <-> ends a b.
Proof.
  intros a b. split; intros [r H].
  - exists (rev r). apply (f_equal (@rev N)) in H. rewrite rev_app_distr, !rev_involutive in H. auto.
  - exists (rev r). rewrite H, rev_app_distr. auto.
Qed.
Lemma ok_bytes_trunc : forall v d, firstn (ok_bytes v d) v = truncate_diff v d.
Proof. induction v as [|x v IH]; intros [|y d]; auto. cbn. destruct (x =? y)%N; cbn; auto. rewrite IH. auto. Qed.
Lemma ok_bytes_len : forall v d, ok_bytes v d <= List.length v.
Proof. induction v as [|x v IH]; intros [|y d]; cbn; try lia. destruct (x =? y)%N; try lia. specialize (IH d). lia. Qed.
Lemma common_suffix_rev : forall v d, rev (common_suffix v d) = truncate_diff (rev v) (rev d).
Proof.
  intros v d. rewrite <- ok_bytes_trunc. unfold common_suffix.
  pose proof (ok_bytes_len (rev v) (rev d)) as L. rewrite rev_length in L. destruct (_ <? _) eqn:E.
  - rewrite firstn_rev. auto.
  - apply Nat.ltb_ge in E. rewrite firstn_all2; auto. rewrite rev_length. auto.
Qed.

Lemma in_Forall_mid : forall (P : bytes -> Prop) pre r post, Forall P (pre ++ r :: post) -> P r.
Proof. intros P pre r post H. rewrite Forall_forall in H. apply H. rewrite in_app_iff. cbn. auto. Qed.

Lemma put_in : forall {B} k (v : B) l x, In x (put k v l) -> x = (k, v) \/ In x l.
Proof.
  induction l as [|y l IH]; cbn; intros x H; [destruct H as [<-|[]]; auto|].
  destruct (beq (fst y) k); destruct H as [<-|H]; auto. apply IH in H as [H|H]; auto.
Qed.
Lemma history_items : forall {A} st (ops : list (op A)) r t m, In (t, m) (items (history st ops r)) ->
  In (t, m) (items r) \/ In (Push t m) ops.
Proof.
  intros A st. induction ops as [|o ops IH]; intros r t m H; auto. cbn [history fold_left] in H. apply IH in H as [H|H]; [|cbn; auto].
  destruct o as [t' m'|old new]; cbn [step] in H.
  - destruct (reserved st t'); auto. cbn [items] in H. apply put_in in H as [H|H]; auto. injection H as -> ->. cbn. auto.
  - destruct (reserved st new); auto.
Qed.

Section Fold.
Variable exp10 : Z -> f64.
Variable decode : bytes -> list N.
Variable is_space is_alnum : N -> bool.
Notation add := (agg_add exp10 decode is_space is_alnum).
Notation adds := (agg_adds exp10 decode is_space is_alnum).
Notation result := (agg_result exp10).
Notation value := (agg_value exp10).
Notation things := (count_things decode is_space is_alnum).

Lemma prefix_run : forall vs p, exists r, adds (GPrefix p false) vs = GPrefix r false /\ begins r p /\
  (forall v, In v vs -> begins r v) /\ forall q, begins q p -> (forall v, In v vs -> begins q v) -> begins q r.
Proof.
  induction vs as [|v vs IH]; intros p.
  - exists p. repeat split; auto; [exists []; rewrite app_nil_r; auto|intros v []].
  - cbn [adds agg_adds fold_left]. cbn [agg_add]. unfold common_prefix. rewrite trunc_firstn.
    destruct (IH (truncate_diff p v)) as (r & E & H1 & H2 & H3). exists r. repeat split; auto.
    + eapply begins_trans; eauto. apply trunc_begins_l.
    + intros w [<-|Hw]; auto. eapply begins_trans; eauto. apply trunc_begins_r.
    + intros q Hq Hv. apply H3; [|intros; apply Hv; cbn; auto]. apply trunc_longest; auto. apply Hv. cbn. auto.
Qed.
Lemma prefix_ok : forall vs, vs <> [] -> exists p, result (adds (GPrefix [] true) vs) = OText p /\ longest_common begins p vs.
Proof.
  intros [|v vs] H; [congruence|]. cbn [adds agg_adds fold_left agg_add app].
  destruct (prefix_run vs v) as (r & E & H1 & H2 & H3). exists r. unfold agg_adds in E. rewrite E. split; auto. split.
  - intros w [<-|Hw]; auto.
  - intros q Hq. assert (B : begins q r) by (apply H3; [|intros]; apply Hq; cbn; auto). split; auto. apply begins_length. auto.
Qed.

Lemma suffix_run : forall vs p, exists r, adds (GSuffix p false) vs = GSuffix r false /\ ends r p /\
  (forall v, In v vs -> ends r v) /\ forall q, ends q p -> (forall v, In v vs -> ends q v) -> ends q r.
Proof.
  induction vs as [|v vs IH]; intros p.
  - exists p. repeat split; auto; [exists []; auto|intros v []].
  - cbn [adds agg_adds fold_left]. cbn [agg_add].
    destruct (IH (common_suffix p v)) as (r & E & H1 & H2 & H3). exists r. apply begins_rev in H1. rewrite common_suffix_rev in H1.
    repeat split; auto.
    + apply begins_rev. eapply begins_trans; eauto. apply trunc_begins_l.
    + intros w [<-|Hw]; auto. apply begins_rev. eapply begins_trans; eauto. apply trunc_begins_r.
    + intros q Hq Hv. apply H3; [|intros; apply Hv; cbn; auto]. apply begins_rev. rewrite common_suffix_rev.
      apply trunc_longest; apply begins_rev; auto. apply Hv. cbn. auto.
Qed.
Lemma suffix_ok : forall vs, vs <> [] -> exists p, result (adds (GSuffix [] true) vs) = OText p /\ longest_common ends p vs.
Proof.
  intros [|v vs] H; [congruence|]. cbn [adds agg_adds fold_left agg_add app].
  destruct (suffix_run vs v) as (r & E & H1 & H2 & H3). exists r. unfold agg_adds in E. rewrite E. split; auto. split.
  - intros w [<-|Hw]; auto.
  - intros q Hq. assert (B : ends q r) by (apply H3; [|intros]; apply Hq; cbn; auto). split; auto.
    apply begins_rev, begins_length in B. rewrite !rev_length in B. auto.
Qed.

(** Minimum and maximum. *)
Section Ord.
Variable P : bytes -> Prop.
Variable c : comp_t.
Notation cmp := (cp_comp exp10 c).
Hypothesis O : total_preorder_on P cmp.

Lemma po_flip : forall x y, P x -> P y -> cmp x y = Gt -> cmp y x = Lt.
Proof. intros x y Hx Hy H. destruct O as (_ & S & _). rewrite S, H; auto. Qed.
Lemma po_gt_trans : forall x y z, P x -> P y -> P z -> cmp x y <> Lt -> cmp y z = Gt -> cmp x z = Gt.
Proof.
  intros x y z Hx Hy Hz H1 H2. destruct O as (_ & S & T). destruct (cmp x z) eqn:E; auto; exfalso.
  - assert (cmp y z <> Gt); [|congruence]. apply (T y x z); auto; [|congruence]. rewrite S by auto. destruct (cmp x y); cbn; congruence.
  - assert (cmp y z <> Gt); [|congruence]. apply (T y x z); auto; [|congruence]. rewrite S by auto. destruct (cmp x y); cbn; congruence.
Qed.
Lemma po_lt_trans : forall x y z, P x -> P y -> P z -> cmp x y <> Gt -> cmp y z = Lt -> cmp x z = Lt.
Proof.
  intros x y z Hx Hy Hz H1 H2. destruct O as (_ & S & T).
  assert (H : cmp x z <> Gt) by (apply (T x y z); auto; congruence).
  destruct (cmp x z) eqn:E; auto; try congruence. exfalso.
  assert (Hz' : cmp z y <> Gt); [|rewrite S, H2 in Hz' by auto; cbn in Hz'; congruence].
  apply (T z x y); auto. rewrite S, E by auto. cbn. congruence.
Qed.

Lemma min_run : forall vs m, P m -> Forall P vs -> exists r, adds (GMin c m false) vs = GMin c r false /\ first_min cmp r (m :: vs).
Proof.
  induction vs as [|v vs IH]; intros m Hm Hf.
  - exists m. split; auto. exists [], []. split; auto. split; intros ? [].
  - inversion Hf as [|? ? Hv Hr]; subst. cbn [adds agg_adds fold_left]. cbn [agg_add]. destruct (cmp m v) eqn:E.
    1,2: destruct (IH m Hm Hr) as (r & E1 & pre & post & E2 & H1 & H2); exists r; split; auto;
      destruct pre as [|m' pre]; cbn in E2; injection E2 as -> E2.
    1,3: exists [], (v :: post); split; [subst; reflexivity|]; split; [intros ? []|];
      intros w [<-|Hw]; [destruct O as (_ & S & _); rewrite S, E by auto; cbn; congruence|auto].
    1,2: exists (m' :: v :: pre), post; split; [subst; reflexivity|]; split; [|auto];
      intros w [<-|[<-|Hw]]; [apply H1; cbn; auto| |apply H1; cbn; auto];
      apply (po_gt_trans v m' r); [auto|auto|subst; eapply in_Forall_mid; eassumption| |apply H1; cbn; auto];
      destruct O as (_ & S & _); rewrite S, E by auto; cbn; congruence.
    destruct (IH v Hv Hr) as (r & E1 & pre & post & E2 & H1 & H2). exists r. split; auto. exists (m :: pre), post. cbn. rewrite E2.
    repeat split; auto. intros w [<-|Hw]; auto. destruct pre as [|v' pre]; cbn in E2; injection E2 as -> E2; auto.
    assert (Hrr : P r) by (subst vs; eapply in_Forall_mid; eassumption).
    apply (po_gt_trans m v' r); auto; [congruence|]. apply H1; cbn; auto.
Qed.
Lemma min_ok : forall vs, Forall P vs -> vs <> [] -> exists r, result (adds (GMin c [] true) vs) = OText r /\ first_min cmp r vs.
Proof.
  intros [|v vs] Hf H; [congruence|]. inversion Hf; subst. cbn [adds agg_adds fold_left agg_add app].
  destruct (min_run vs v) as (r & E & M); auto. exists r. unfold agg_adds in E. rewrite E. auto.
Qed.

Lemma max_run : forall vs m, P m -> Forall P vs -> exists r, adds (GMax c m) vs = GMax c r /\ first_max cmp r (m :: vs).
Proof.
  induction vs as [|v vs IH]; intros m Hm Hf.
  - exists m. split; auto. exists [], []. split; auto. split; intros ? [].
  - inversion Hf as [|? ? Hv Hr]; subst. cbn [adds agg_adds fold_left]. cbn [agg_add]. destruct (cmp m v) eqn:E.
    1,3: destruct (IH m Hm Hr) as (r & E1 & pre & post & E2 & H1 & H2); exists r; split; auto;
      destruct pre as [|m' pre]; cbn in E2; injection E2 as -> E2.
    1,3: exists [], (v :: post); split; [subst; reflexivity|]; split; [intros ? []|];
      intros w [<-|Hw]; [destruct O as (_ & S & _); rewrite S, E by auto; cbn; congruence|auto].
    1,2: exists (m' :: v :: pre), post; split; [subst; reflexivity|]; split; [|auto];
      intros w [<-|[<-|Hw]]; [apply H1; cbn; auto| |apply H1; cbn; auto];
      apply (po_lt_trans v m' r); [auto|auto|subst; eapply in_Forall_mid; eassumption| |apply H1; cbn; auto];
      destruct O as (_ & S & _); rewrite S, E by auto; cbn; congruence.
    destruct (IH v Hv Hr) as (r & E1 & pre & post & E2 & H1 & H2). exists r. split; auto. exists (m :: pre), post. cbn. rewrite E2.
    repeat split; auto. intros w [<-|Hw]; auto. destruct pre as [|v' pre]; cbn in E2; injection E2 as -> E2; auto.
    assert (Hrr : P r) by (subst vs; eapply in_Forall_mid; eassumption).
    apply (po_lt_trans m v' r); auto; [congruence|]. apply H1; cbn; auto.
Qed.
Lemma max_ok : forall vs, P [] -> Forall P vs -> (exists v, In v vs /\ cmp [] v = Lt) ->
  exists r, result (adds (GMax c []) vs) = OText r /\ first_max cmp r vs.
Proof.
  intros vs Hn Hf (v & Hv & L). destruct (max_run vs [] Hn Hf) as (r & E & pre & post & E2 & H1 & H2).
  exists r. rewrite E. split; auto. destruct pre as [|m pre]; cbn in E2; injection E2 as <- E2.
  - exfalso. subst. rewrite Forall_forall in Hf. destruct O as (_ & S & _).
    apply (H2 v Hv). rewrite S, L; auto.
  - exists pre, post. repeat split; auto. intros w Hw. apply H1. cbn. auto.
Qed.
End Ord.

(** Counters. *)
Lemma words_gap : forall (p : N -> bool) gap saw ret l, (forall c, In c gap -> p c <> true) ->
  words_loop p saw ret (gap ++ l) = match gap with [] => words_loop p saw ret l | _ => words_loop p true ret l end.
Proof.
  intros p gap. induction gap as [|c gap IH]; intros saw ret l H; auto. cbn.
  destruct (p c) eqn:E; [exfalso; apply (H c); cbn; auto|]. rewrite IH by (intros; apply H; cbn; auto). destruct gap; auto.
Qed.
Lemma words_word : forall (p : N -> bool) w ret l, (forall c, In c w -> p c = true) ->
  words_loop p false ret (w ++ l) = words_loop p false ret l.
Proof. intros p w. induction w as [|c w IH]; intros ret l H; auto. cbn. rewrite H by (cbn; auto). apply IH. intros; apply H; cbn; auto. Qed.
Lemma words_ok : forall (p : N -> bool) l ws, laid_out (fun c => p c = true) l ws -> forall saw ret,
  (saw = true \/ match l with [] => True | c :: _ => p c <> true end) -> words_loop p saw ret l = (ret + N.of_nat (List.length ws))%N.
Proof.
  intros p l ws H. induction H as [gap H|gap w rest ws H Hn Hw Hr L IH]; intros saw ret S.
  - replace gap with (gap ++ []) by apply app_nil_r. rewrite words_gap by auto. destruct gap; cbn; lia.
  - rewrite words_gap by auto. destruct w as [|c w]; [congruence|].
    assert (E : words_loop p true ret ((c :: w) ++ rest) = words_loop p false (ret + 1) rest).
    { cbn. rewrite Hw by (cbn; auto). apply words_word. intros; apply Hw; cbn; auto. }
    replace (ret + N.of_nat (List.length ((c :: w) :: ws)))%N with ((ret + 1) + N.of_nat (List.length ws))%N by (cbn [List.length]; lia).
    destruct gap as [|g gap].
    + destruct S as [-> | S]; [rewrite E; apply IH; auto|]. cbn in S. exfalso. apply S. apply Hw. cbn. auto.
    + rewrite E. apply IH. auto.
Qed.
Lemma laid_out_exists : forall (p : N -> bool) l, exists ws, laid_out (fun c => p c = true) l ws.
Proof.
  intros p l.
  assert (G : exists ws, laid_out (fun c => p c = true) l ws /\
    match l with c :: _ => p c = true -> exists w ws' rest, ws = w :: ws' /\ w <> [] /\ l = w ++ rest /\ (forall c, In c w -> p c = true) /\
      (match rest with [] => True | c :: _ => ~ p c = true end) /\ laid_out (fun c => p c = true) rest ws' | [] => True end).
  { induction l as [|c l (ws & IH1 & IH2)].
    - exists []. split; auto. apply lo_end. intros ? [].
    - destruct (p c) eqn:E.
      + destruct l as [|d l].
        * exists [[c]]. split.
          -- apply (lo_word _ [] [c] [] []); try easy; [intros ? [<-|[]]; auto|]. apply lo_end. intros ? [].
          -- intros _. exists [c], [], []. repeat split; auto; try easy; [intros ? [<-|[]]; auto|]. apply lo_end. intros ? [].
        * destruct (p d) eqn:Ed.
          -- destruct (IH2 eq_refl) as (w & ws' & rest & -> & Hn & El & Hw & Hr & L). exists ((c :: w) :: ws').
             assert (Hcw : forall x, In x (c :: w) -> p x = true) by (intros x [<-|Hx]; auto).
             split; [rewrite El; apply (lo_word _ [] (c :: w) rest ws'); auto; easy|].
             intros _. exists (c :: w), ws', rest. rewrite El. repeat split; auto; easy.
          -- assert (Hcw : forall x, In x [c] -> p x = true) by (intros x [<-|[]]; auto).
             exists ([c] :: ws). split; [apply (lo_word _ [] [c] (d :: l) ws); auto; try easy; rewrite Ed; easy|].
             intros _. exists [c], ws, (d :: l). repeat split; auto; try easy. rewrite Ed. easy.
      + exists ws. split; [|discriminate]. destruct IH1 as [gap H|gap w rest ws H Hn Hw Hr L].
        * apply lo_end. intros x [<-|Hx]; auto. congruence.
        * apply (lo_word _ (c :: gap) w rest ws); auto. intros x [<-|Hx]; auto. congruence. }
  destruct G as (ws & G & _). exists ws. auto.
Qed.

Lemma asum_run : forall k vs n, (n + total (map (things k) vs) < 2 ^ 64)%N ->
  adds (GASum k n) vs = GASum k (n + total (map (things k) vs))%N.
Proof.
  intros k. induction vs as [|v vs IH]; intros n H; [cbn; rewrite N.add_0_r; auto|]. cbn [adds agg_adds fold_left]. cbn [agg_add].
  cbn [map total fold_right] in *. unfold total in *. unfold agg_adds in IH.
  assert (W : wrapU (n + things k v) = (n + things k v)%N) by (unfold wrapU; apply N.mod_small; lia).
  rewrite W, IH by lia. f_equal. lia.
Qed.
Lemma amean_run : forall k vs n m, (n + total (map (things k) vs) < 2 ^ 64)%N -> (m + N.of_nat (List.length vs) < 2 ^ 64)%N ->
  adds (GAMean k n m) vs = GAMean k (n + total (map (things k) vs))%N (m + N.of_nat (List.length vs))%N.
Proof.
  intros k. induction vs as [|v vs IH]; intros n m H H'; [cbn; rewrite !N.add_0_r; auto|]. cbn [adds agg_adds fold_left]. cbn [agg_add].
  cbn [map total fold_right List.length] in *. unfold total in *. unfold agg_adds in IH.
  assert (W : wrapU (n + things k v) = (n + things k v)%N) by (unfold wrapU; apply N.mod_small; lia).
  assert (W2 : wrapU (m + 1) = (m + 1)%N) by (unfold wrapU; apply N.mod_small; lia).
  rewrite W, W2, IH by lia. f_equal; lia.
Qed.
Lemma amin_run : forall k vs n, exists m, adds (GAMin k n) vs = GAMin k m /\ is_min m (n :: map (things k) vs).
Proof.
  intros k. induction vs as [|v vs IH]; intros n.
  - exists n. split; auto. split; [cbn; auto|]. intros m [<-|[]]. lia.
  - cbn [adds agg_adds fold_left]. cbn [agg_add]. destruct (IH (N.min n (things k v))) as (m & E & H1 & H2). exists m. split; auto.
    cbn [map]. split.
    + destruct H1 as [H1|H1]; [|cbn; auto]. destruct (N.min_dec n (things k v)) as [e|e]; rewrite e in H1; cbn; auto.
    + intros x [<-|[<-|Hx]]; [specialize (H2 (N.min n (things k v)) (or_introl eq_refl)); lia
                             |specialize (H2 (N.min n (things k v)) (or_introl eq_refl)); lia|apply H2; cbn; auto].
Qed.
Lemma amax_run : forall k vs n, exists m, adds (GAMax k n) vs = GAMax k m /\ is_max m (n :: map (things k) vs).
Proof.
  intros k. induction vs as [|v vs IH]; intros n.
  - exists n. split; auto. split; [cbn; auto|]. intros m [<-|[]]. lia.
  - cbn [adds agg_adds fold_left]. cbn [agg_add]. destruct (IH (N.max n (things k v))) as (m & E & H1 & H2). exists m. split; auto.
    cbn [map]. split.
    + destruct H1 as [H1|H1]; [|cbn; auto]. destruct (N.max_dec n (things k v)) as [e|e]; rewrite e in H1; cbn; auto.
    + intros x [<-|[<-|Hx]]; [specialize (H2 (N.max n (things k v)) (or_introl eq_refl)); lia
                             |specialize (H2 (N.max n (things k v)) (or_introl eq_refl)); lia|apply H2; cbn; auto].
Qed.
Lemma amin_ok : forall k vs, vs <> [] -> (forall v, In v vs -> (things k v < 2 ^ 64)%N) ->
  exists m, result (adds (GAMin k (2 ^ 64 - 1)) vs) = ONum (f_of_Z (Z.of_N m)) /\ is_min m (map (things k) vs).
Proof.
  intros k vs Hn Hs. destruct (amin_run k vs (2 ^ 64 - 1)) as (m & E & H1 & H2). exists m. rewrite E. split; auto.
  assert (Hm : forall x, In x (map (things k) vs) -> (m <= x)%N) by (intros; apply H2; cbn; auto).
  split; auto. destruct H1 as [H1|H1]; auto. destruct vs as [|v vs]; [congruence|]. cbn [map] in *.
  specialize (Hm (things k v) (or_introl eq_refl)). specialize (Hs v (or_introl eq_refl)). left. lia.
Qed.
Lemma amax_ok : forall k vs, vs <> [] ->
  exists m, result (adds (GAMax k 0) vs) = ONum (f_of_Z (Z.of_N m)) /\ is_max m (map (things k) vs).
Proof.
  intros k vs Hn. destruct (amax_run k vs 0) as (m & E & H1 & H2). exists m. rewrite E. split; auto.
  assert (Hm : forall x, In x (map (things k) vs) -> (x <= m)%N) by (intros; apply H2; cbn; auto).
  split; auto. destruct H1 as [H1|H1]; auto. destruct vs as [|v vs]; [congruence|]. cbn [map] in *.
  specialize (Hm (things k v) (or_introl eq_refl)). left. lia.
Qed.
Lemma count_run : forall vs n i, (- 2 ^ 63 <= n)%Z -> (n + Z.of_nat (List.length vs) < 2 ^ 63)%Z ->
  adds (GCount n i) vs = GCount (n + Z.of_nat (List.length vs)) i.
Proof.
  induction vs as [|v vs IH]; intros n i H1 H2; [cbn; rewrite Z.add_0_r; auto|]. cbn [adds agg_adds fold_left]. cbn [agg_add].
  cbn [List.length] in *. unfold agg_adds in IH.
  assert (W : wrapI (n + 1) = (n + 1)%Z) by (unfold wrapI; rewrite Z.mod_small; lia).
  rewrite W, IH by lia. f_equal. lia.
Qed.

(** Sums. *)
Lemma sum_run : forall vs ns, Forall2 (fun v n => holds_int (to_f64_lossy exp10 v) n) vs ns -> forall x a,
  holds_int x a -> (forall k, small (a + totalZ (firstn k ns))) -> exists y, adds (GSum x) vs = GSum y /\ holds_int y (a + totalZ ns).
Proof.
  intros vs ns H. induction H as [|v n vs ns Hv H IH]; intros x a Hx S.
  - exists x. split; auto. cbn. rewrite Z.add_0_r. auto.
  - cbn [adds agg_adds fold_left]. cbn [agg_add].
    assert (Ha : holds_int (fadd x (to_f64_lossy exp10 v)) (a + n)).
    { apply holds_add; auto. specialize (S 1). cbn in S. rewrite Z.add_0_r in S. destruct ns; auto. }
    destruct (IH _ _ Ha) as (y & E & Hy).
    + intros k. specialize (S (Datatypes.S k)). cbn [firstn totalZ fold_right] in S. unfold totalZ in *. rewrite <- Z.add_assoc. auto.
    + exists y. split; auto. cbn [totalZ fold_right]. unfold totalZ in *. rewrite Z.add_assoc. auto.
Qed.
Lemma f_one_holds : holds_int f_one 1.
Proof. apply holds_of_Z. unfold small. cbn. lia. Qed.
Lemma mean_run : forall vs ns, Forall2 (fun v n => holds_int (to_f64_lossy exp10 v) n) vs ns -> forall x a c m,
  holds_int x a -> (forall k, small (a + totalZ (firstn k ns))) -> holds_int c m -> (0 <= m)%Z -> small (m + Z.of_nat (List.length vs)) ->
  exists y d, adds (GMean x c) vs = GMean y d /\ holds_int y (a + totalZ ns) /\ holds_int d (m + Z.of_nat (List.length vs)).
Proof.
  intros vs ns H. induction H as [|v n vs ns Hv H IH]; intros x a c m Hx S Hc Hm Sm.
  - exists x, c. split; auto. cbn. rewrite !Z.add_0_r. auto.
  - cbn [adds agg_adds fold_left]. cbn [agg_add].
    assert (Ha : holds_int (fadd x (to_f64_lossy exp10 v)) (a + n)).
    { apply holds_add; auto. specialize (S 1). cbn in S. rewrite Z.add_0_r in S. destruct ns; auto. }
    cbn [List.length] in Sm. unfold small in Sm.
    assert (Hd : holds_int (fadd c f_one) (m + 1)) by (apply holds_add; auto using f_one_holds; unfold small; lia).
    edestruct IH as (y & d & E & Hy & Hdd); [exact Ha| |exact Hd|lia| |].
    + intros k. specialize (S (Datatypes.S k)). cbn [firstn totalZ fold_right] in S. unfold totalZ in *. rewrite <- Z.add_assoc. auto.
    + unfold small. lia.
    + exists y, d. split; auto. cbn [totalZ fold_right List.length]. unfold totalZ in *. rewrite Z.add_assoc. split; auto.
      replace (m + Z.of_nat (Datatypes.S (List.length vs)))%Z with (m + 1 + Z.of_nat (List.length vs))%Z by lia. auto.
Qed.

(** Reset. *)
Lemma reset_add : forall a v, agg_reset (add a v) = agg_reset a.
Proof.
  intros a v. destruct a; cbn [agg_add]; auto; try (destruct v; auto; fail); try (destruct empty; auto);
    try (destruct (cp_comp _ _ _ _); auto; fail).
Qed.
Lemma reset_adds : forall vs a, agg_reset (adds a vs) = agg_reset a.
Proof. induction vs as [|v vs IH]; intros a; auto. cbn [adds agg_adds fold_left]. unfold agg_adds in IH. rewrite IH. apply reset_add. Qed.

Variable comp_make : bytes -> res comp_t.
Lemma bind_fresh : forall {A} (r : res A) (f : A -> agg), (forall x, agg_reset (f x) = f x) ->
  forall a, rbind r (fun x => Ok (f x)) = Ok a -> agg_reset a = a.
Proof. intros A [x| |] f H a E; cbn [rbind] in E; [|discriminate|discriminate]. injection E as <-. apply H. Qed.
Lemma nopat_fresh : forall g, agg_reset g = g -> forall p a, no_pattern g p = Ok a -> agg_reset a = a.
Proof. intros g H [|c p] a E; [injection E as <-; auto|discriminate]. Qed.
Lemma ops_fresh : Forall (fun o => match o with Push _ m => forall p a, m p = Ok a -> agg_reset a = a | _ => True end) (agg_aliases ++ agg_ops comp_make).
Proof.
  apply Forall_app. split; [repeat constructor|]. unfold agg_ops. repeat apply Forall_cons; try apply Forall_nil.
  - intros p a. apply (bind_fresh (counter_make p) (fun k => GASum k 0)). reflexivity.
  - intros p a. apply (bind_fresh (counter_make p) (fun k => GAMin k (2 ^ 64 - 1))). reflexivity.
  - intros p a. apply (bind_fresh (counter_make p) (fun k => GAMax k 0)). reflexivity.
  - intros p a. apply (bind_fresh (counter_make p) (fun k => GAMean k 0 0)). reflexivity.
  - intros p a. apply (bind_fresh (merge_new comp_make p) (fun o => GMerge o [])). reflexivity.
  - intros p a. destruct p as [|c p]; [intros E; injection E as <-; reflexivity|].
    apply (bind_fresh (to_isize_whole (c :: p)) (fun v => GCount v v)). reflexivity.
  - apply nopat_fresh. reflexivity.
  - apply nopat_fresh. reflexivity.
  - intros p a. apply (bind_fresh (comp_make p) (fun c => GMin c [] true)). reflexivity.
  - intros p a. apply (bind_fresh (comp_make p) (fun c => GMax c [])). reflexivity.
  - apply nopat_fresh. reflexivity.
  - apply nopat_fresh. reflexivity.
Qed.
Lemma made_fresh : forall spec a, agg_make comp_make spec = Ok a -> agg_reset a = a.
Proof.
  intros spec a. unfold agg_make. destruct (match split_once 44 spec with Some ab => ab | None => (spec, []) end) as [name p].
  unfold made, lookup. set (nm := match name with [] => [] | _ => _ end). clearbody nm.
  pose proof ops_fresh as F. rewrite Forall_forall in F.
  set (ops := agg_aliases ++ agg_ops comp_make) in *. clearbody ops.
  destruct (find _ _) as [[tag mk]|] eqn:E; [|discriminate]. apply find_some in E as [E _]. cbn [snd].
  apply history_items in E as [[]|E]. apply F in E. apply E.
Qed.
End Fold.
