(** Proofs about the external sort. *)
From Coq Require Import List NArith Bool Arith Lia Sorting.Permutation Sorting.Sorted.
Import ListNotations.
From Verif Require Import Base CompSpec OrdProofs ReadModel HeadModel SortSpec SortModel SortProofs MergeProofs.

Lemma calc_spec : forall l cur ls rest, calc l cur = (ls, rest) -> ~ In NL cur ->
  rev cur ++ l = concat ls ++ rest /\ Forall whole_line ls /\ ~ In NL rest.
Proof.
  induction l as [|c r IH]; intros cur ls rest E N; cbn [calc] in E.
  - injection E as <- <-. rewrite app_nil_r. split; auto. split; [constructor|]. rewrite <- in_rev. auto.
  - destruct (N.eqb_spec c NL) as [->|C].
    + destruct (calc r []) as [ls0 rest0] eqn:E0. injection E as <- <-.
      destruct (IH _ _ _ E0) as (H1 & H2 & H3); [auto|]. cbn in H1. cbn [concat rev]. rewrite H1, <- !app_assoc. split; auto.
      split; [constructor; auto|auto]. exists (rev cur). split; auto. rewrite <- in_rev. auto.
    + destruct (IH _ _ _ E) as (H1 & H2 & H3). { intros [|]; auto. }
      cbn [rev] in H1. rewrite <- app_assoc in H1. auto.
Qed.

Lemma whole_prefix : forall l1 l2 r1 r2, whole_line l1 -> whole_line l2 -> l1 ++ r1 = l2 ++ r2 -> l1 = l2 /\ r1 = r2.
Proof.
  intros l1 l2 r1 r2 (b1 & -> & N1) (b2 & -> & N2). rewrite <- !app_assoc. cbn [app]. revert b2 N2.
  induction b1 as [|x b1 IH]; intros b2 N2 E; destruct b2 as [|y b2]; cbn in *.
  - injection E as ->. auto.
  - injection E as <- ?. exfalso. apply N2. auto.
  - injection E as -> ?. exfalso. apply N1. auto.
  - injection E as -> E. apply IH in E; [|intuition|intuition]. destruct E as [E ->]. rewrite E. auto.
Qed.
Lemma lines_prefix : forall ls1 ls z, Forall whole_line ls1 -> Forall whole_line ls -> concat ls = concat ls1 ++ z ->
  exists ls2, ls = ls1 ++ ls2 /\ concat ls2 = z.
Proof.
  induction ls1 as [|l1 ls1 IH]; intros ls z F1 F E.
  - exists ls. auto.
  - inversion F1; subst. cbn in E. rewrite <- app_assoc in E. destruct ls as [|l ls].
    + cbn in E. destruct H1 as (b & -> & _). destruct b; discriminate.
    + inversion F; subst. cbn in E. apply whole_prefix in E as [-> E]; auto.
      destruct (IH _ _ H2 H4 E) as (ls2 & -> & E2). exists ls2. auto.
Qed.
Lemma calc_concat : forall ls rest, Forall whole_line ls -> ~ In NL rest -> calc (concat ls ++ rest) [] = (ls, rest).
Proof.
  intros ls rest F N. destruct (calc (concat ls ++ rest) []) as [ls0 rest0] eqn:E.
  destruct (calc_spec _ _ _ _ E) as (H1 & H2 & H3); [auto|]. cbn in H1.
  assert (K : forall la ra lb rb, Forall whole_line la -> Forall whole_line lb -> ~ In NL ra -> ~ In NL rb ->
     concat la ++ ra = concat lb ++ rb -> la = lb /\ ra = rb).
  { induction la as [|a la IH]; intros ra lb rb Fa Fb Na Nb EE; destruct lb as [|b lb].
    - auto.
    - exfalso. cbn in EE. inversion Fb as [|? ? HW ?]. destruct HW as (z & Hz & _). apply Na. rewrite EE, Hz.
      apply in_or_app. left. apply in_or_app. left. apply in_or_app. right. left. auto.
    - exfalso. cbn in EE. inversion Fa as [|? ? HW ?]. destruct HW as (z & Hz & _). apply Nb. rewrite <- EE, Hz.
      apply in_or_app. left. apply in_or_app. left. apply in_or_app. right. left. auto.
    - inversion Fa; inversion Fb; subst. cbn in EE. rewrite <- !app_assoc in EE. apply whole_prefix in EE as [-> EE]; auto.
      apply IH in EE as [-> ->]; auto. }
  destruct (K _ _ _ _ F H2 N H3 H1) as [-> ->]. auto.
Qed.
Lemma calc_lines : forall ls, Forall whole_line ls -> calc (concat ls) [] = (ls, []).
Proof. intros ls F. rewrite <- (app_nil_r (concat ls)). apply calc_concat; auto. Qed.
Lemma file_lines_concat : forall ls, Forall whole_line ls -> file_lines (concat ls) = ls.
Proof. intros ls F. unfold file_lines. rewrite calc_lines by auto. apply app_nil_r. Qed.
Lemma whole_len : forall l, whole_line l -> 0 < length l.
Proof. intros l (b & -> & _). rewrite app_length. cbn. lia. Qed.

(** An unfinished piece is shorter than the line it belongs to. *)
Lemma rest_short : forall ls rest y cap, Forall whole_line ls -> Forall (fun l => length l < cap) ls -> 0 < cap ->
  concat ls = rest ++ y -> ~ In NL rest -> length rest < cap.
Proof.
  intros ls rest y cap F S C E N. destruct ls as [|l ls].
  - cbn in E. symmetry in E. apply app_eq_nil in E as [-> _]. cbn. auto.
  - inversion F as [|? ? (b & -> & Nb) ?]; subst. inversion S as [|? ? L ?]; subst. rewrite app_length in L. cbn in L.
    cbn in E. rewrite <- !app_assoc in E. cbn [app] in E.
    assert (K : forall b rest z, ~ In NL rest -> b ++ NL :: z = rest ++ y -> length rest <= length b).
    { clear. induction b as [|x b IH]; intros rest z N E; destruct rest as [|w rest]; cbn in *; try lia.
      - injection E as <- _. exfalso. apply N. auto.
      - injection E as -> E. apply le_n_S. eapply IH; eauto. }
    apply K in E; auto. lia.
Qed.

Section S.
Variable cmp : bytes -> bytes -> comparison.
Hypothesis Hpre : total_preorder cmp.
Variable eqv : bytes -> bytes -> bool.
Hypothesis Heqv : decides_eq cmp eqv.
Variable push : (nat -> nat -> comparison) -> nat -> list nat -> list nat.
Variable pop : (nat -> nat -> comparison) -> list nat -> option (nat * list nat).
Variable inv : (nat -> nat -> comparison) -> list nat -> Prop.
Hypothesis HQ : good_queue push pop inv.
Variable cap : nat.
Variable unique : bool.
Notation run g := (concat (do_sort cmp eqv unique g)).

(** What is still to be read, seen together with the buffer. *)
Definition pending (ls : list bytes) (have : bytes) : Prop :=
  concat ls = have \/ (concat ls = have ++ [NL] /\ exists b c, have = b ++ [c] /\ c <> NL).

Lemma add_ok : forall fuel size s r sched ls, 0 < size -> length r < fuel -> length (so_data s) < cap ->
  Forall whole_line ls -> Forall (fun l => length l < cap) ls -> pending ls (so_data s ++ r) ->
  exists groups dl, add cmp eqv cap unique fuel size s r sched = Ok (mkso (concat dl) (so_tmp s ++ map (fun g => run g) groups)) /\
    ls = concat groups ++ dl /\ (concat ls = so_data s ++ r -> length (concat dl) < cap) /\
    (length (concat ls) < cap -> groups = []).
Proof.
  induction fuel as [|f IH]; intros size s r sched ls Hs HF Hd W S P; [lia|]. cbn [add]. unfold prepare.
  set (sz := Nat.min size (cap - length (so_data s))). assert (Hsz : 0 < sz) by (unfold sz; lia).
  set (want := match sched with [] => sz | w :: _ => Nat.max 1 w end). assert (Hw : 0 < want) by (unfold want; destruct sched; lia).
  set (n := Nat.min want (Nat.min sz (length r))).
  destruct (Nat.eqb_spec n 0) as [E0|E0].
  - assert (r = []) by (destruct r; auto; unfold n in E0; cbn in E0; lia). subst r. rewrite app_nil_r in P.
    exists [], ls. cbn [map concat app]. rewrite app_nil_r. split; [|split; [auto|split; [rewrite app_nil_r; intros ->; auto|auto]]].
    destruct P as [P|[P (b & c & Eb & Nc)]].
    + destruct ls as [|l ls0] using rev_ind.
      * cbn in P. rewrite <- P. cbn [rev concat]. destruct s as [d t]. cbn in *. subst. auto.
      * clear IHls0. apply Forall_app in W as [_ W]. inversion W as [|? ? (z & -> & _) ?]; subst.
        rewrite concat_app in P. cbn [concat] in P. rewrite app_nil_r, app_assoc in P.
        rewrite <- P. rewrite rev_app_distr. cbn [rev app]. rewrite N.eqb_refl.
        destruct s as [d t]. cbn in *. rewrite concat_app. cbn [concat]. rewrite app_nil_r, app_assoc, P. auto.
    + rewrite Eb, rev_app_distr. cbn [rev app]. destruct (N.eqb_spec c NL); [congruence|].
      destruct (Nat.eqb_spec sz 0); [lia|]. rewrite <- Eb, P. auto.
  - set (s1 := mkso (so_data s ++ firstn n r) (so_tmp s)).
    assert (En : n <= length r /\ n <= cap - length (so_data s)) by (unfold n, sz; lia).
    assert (L1 : length (so_data s1) = length (so_data s) + n) by (cbn; rewrite app_length, firstn_length; lia).
    assert (Ed : so_data s1 ++ skipn n r = so_data s ++ r) by (cbn; rewrite <- app_assoc, firstn_skipn; auto).
    assert (Lr : length (skipn n r) < f) by (rewrite skipn_length; lia).
    cbv zeta. destruct (Nat.leb_spec cap (length (so_data s1))) as [C|C].
    + unfold spill. destruct (calc (so_data s1) []) as [ls1 rest] eqn:EC.
      destruct (calc_spec _ _ _ _ EC) as (K1 & K2 & K3); [auto|]. cbn [rev app] in K1.
      assert (PP : exists ls2, ls = ls1 ++ ls2 /\ pending ls2 (rest ++ skipn n r) /\
                 (concat ls = so_data s ++ r -> concat ls2 = rest ++ skipn n r)).
      { rewrite <- Ed, K1, <- app_assoc in P. destruct P as [P|[P (b & c & Eb & Nc)]].
        - destruct (lines_prefix _ _ _ K2 W P) as (ls2 & -> & E2). exists ls2. split; auto. split; auto. left. auto.
        - rewrite <- app_assoc in P. destruct (lines_prefix _ _ _ K2 W P) as (ls2 & -> & E2). exists ls2. split; auto. split.
          + right. split; auto. clear - Eb Nc K2 K3. destruct (rest ++ skipn n r) as [|y ys _] eqn:Z using rev_ind.
            * rewrite app_nil_r in Eb. destruct ls1 as [|l ls1 _] using rev_ind; [cbn in Eb; destruct b; discriminate|].
              apply Forall_app in K2 as [_ K2]. inversion K2 as [|? ? (z & -> & _) ?]; subst. rewrite concat_app in Eb. cbn in Eb.
              rewrite app_nil_r, app_assoc in Eb. apply app_inj_tail in Eb as [_ Eb]. congruence.
            * rewrite app_assoc in Eb. apply app_inj_tail in Eb as [_ ->]. eauto.
          + intros E3. exfalso. rewrite E3, <- Ed, K1, <- app_assoc in P.
            apply (f_equal (@length _)) in P. rewrite !app_length in P. cbn in P. lia. }
      destruct PP as (ls2 & -> & P2 & P3). apply Forall_app in W as [W1 W2]. apply Forall_app in S as [S1 S2].
      assert (R : length rest < cap).
      { destruct P2 as [P2|[P2 _]]; [eapply (rest_short ls2); eauto; lia|].
        rewrite <- app_assoc in P2. eapply (rest_short ls2); eauto; lia. }
      destruct (IH size (mkso rest (so_tmp s1 ++ [concat (do_sort cmp eqv unique ls1)])) (skipn n r) (tl sched) ls2) as (gs & dl & A1 & A2 & A3 & A4); auto.
      exists (ls1 :: gs), dl. split; [|split; [|split]].
      * rewrite A1. cbn [so_tmp map]. unfold s1. cbn [so_tmp]. rewrite <- app_assoc. auto.
      * cbn. rewrite A2, app_assoc. auto.
      * intros E. apply A3. cbn. apply P3. auto.
      * intros E. exfalso. rewrite concat_app, app_length in E. assert (length (so_data s1) <= length (concat ls1) + length (concat ls2)); [|lia].
        rewrite K1, app_length. destruct P2 as [P2|[P2 _]].
        -- rewrite P2, app_length. lia.
        -- apply (f_equal (@length _)) in P2. rewrite !app_length in P2.
           assert (length rest <= length (concat ls2)); [|lia]. destruct (skipn n r); cbn in P2; lia.
    + destruct (IH size s1 (skipn n r) (tl sched) ls) as (gs & dl & A1 & A2 & A3 & A4); auto.
      { rewrite Ed. auto. }
      exists gs, dl. rewrite Ed in A3. split; auto.
Qed.

Lemma not_cdx_concat : forall L, Forall whole_line L -> Forall (fun l => is_cdx l = false) L -> starts_with (concat L) CDX = false.
Proof.
  intros L W C. destruct L as [|l L]; auto. inversion W as [|? ? (b & -> & N) ?]; subst. inversion C; subst.
  cbn [concat]. unfold is_cdx in H2. revert H2. unfold CDX.
  destruct b as [|b0 [|b1 [|b2 [|b3 b]]]]; cbn; auto.
Qed.

Lemma open_run : forall L, Forall whole_line L -> Forall (fun l => is_cdx l = false) L -> open_tmp (concat L) = (None, L).
Proof. intros L W C. unfold open_tmp. rewrite file_lines_concat, not_cdx_concat; auto. Qed.

Lemma dedup_from_in : forall l p y, In y (dedup_from eqv p l) -> In y l.
Proof. apply dedup_in. Qed.
Lemma do_sort_in : forall g y, In y (do_sort cmp eqv unique g) -> In y g.
Proof.
  intros g y H. destruct (std_sort_stable cmp Hpre g) as (P & _ & _). unfold do_sort in H.
  eapply Permutation_in; [symmetry; apply P|]. destruct unique; auto. destruct (std_sort cmp g); auto.
  destruct H as [->|H]; [left; auto|right; eapply dedup_in; eauto].
Qed.
Lemma do_sort_sorted : forall g, sorted cmp (do_sort cmp eqv unique g).
Proof.
  intros g. destruct (std_sort_stable cmp Hpre g) as (P & S & _). unfold do_sort. destruct unique; auto.
  destruct (dedup_spec cmp Hpre eqv Heqv _ S) as [D _]. unfold sorted. unfold strictly_sorted in D.
  clear - D. induction D; constructor; auto. eapply Forall_impl; eauto. cbn. congruence.
Qed.
Lemma do_sort_forall : forall (P : bytes -> Prop) g, Forall P g -> Forall P (do_sort cmp eqv unique g).
Proof. intros P g H. rewrite Forall_forall in *. intros x Hx. apply H. apply do_sort_in. auto. Qed.

(** What the merge of sorted runs amounts to. *)
Lemma merged_runs : forall gs out, merged cmp (map (fun g => do_sort cmp eqv unique g) gs) out ->
  if unique then one_of_groups cmp (concat gs) (dedup eqv out) else sort_of cmp (concat gs) out.
Proof.
  intros gs out [SO _]. destruct unique eqn:U.
  - destruct (one_of_groups_dedup cmp Hpre eqv Heqv _ _ SO) as (D1 & D2 & D3). split; auto. split.
    + intros y Hy. apply D2 in Hy. apply in_concat in Hy as (l & Hl & Hy). apply in_map_iff in Hl as (g & <- & Hg).
      apply in_concat. exists g. split; auto. apply do_sort_in. rewrite U. auto.
    + intros x Hx. apply in_concat in Hx as (g & Hg & Hx).
      destruct (do_sort_unique cmp Hpre eqv Heqv g) as [_ F]. specialize (F x).
      assert (I : In x (filter (same cmp x) g)). { apply filter_In. split; auto. apply same_iff. apply c_refl. auto. }
      destruct (filter (same cmp x) g) as [|z zs]; [destruct I|]. cbn [firstn] in F.
      assert (Iz : In z (filter (same cmp x) (do_sort cmp eqv true g))) by (rewrite F; left; auto).
      apply filter_In in Iz as [Iz1 Iz2]. apply same_iff in Iz2.
      destruct (D3 z) as (y & Hy & Ey). { apply in_concat. exists (do_sort cmp eqv true g). split; auto. apply in_map_iff. eauto. }
      exists y. split; auto. eapply preorder_eq_trans; eauto.
  - destruct SO as [P S]. split; auto. etransitivity; [|apply P]. clear - Hpre.
    induction gs as [|g gs IH]; auto. cbn. apply Permutation_app; auto. apply (std_sort_stable cmp Hpre g).
Qed.

Definition sorts (ls out : list bytes) : Prop := if unique then one_of_groups cmp ls out else sort_of cmp ls out.

Lemma sorts_do_sort : forall ls, sorts ls (do_sort cmp eqv unique ls).
Proof.
  intros ls. unfold sorts. destruct (std_sort_stable cmp Hpre ls) as (P & S & _). destruct unique.
  - apply one_of_groups_dedup; auto. split; auto.
  - split; auto.
Qed.

Lemma finalize_ok : forall groups dl, Forall whole_line (concat groups ++ dl) -> Forall (fun l => is_cdx l = false) (concat groups ++ dl) ->
  exists out, finalize cmp eqv cmp eqv push pop unique (mkso (concat dl) (map (fun g => run g) groups)) = Some (concat out) /\
    sorts (concat groups ++ dl) out /\ (groups = [] -> out = do_sort cmp eqv unique dl).
Proof.
  intros groups dl W C. unfold finalize. cbn [so_tmp so_data].
  assert (Wd : Forall whole_line dl) by (apply Forall_app in W; tauto).
  rewrite calc_lines by auto. destruct groups as [|g groups].
  - cbn [map fst concat app]. exists (do_sort cmp eqv unique dl). split; auto. split; auto. apply sorts_do_sort.
  - cbn [map]. unfold spill. cbn [so_data so_tmp]. rewrite calc_lines by auto. cbn [so_tmp].
    assert (ER : (run g :: map (fun g => run g) groups) ++ [run dl] = map (fun g => run g) ((g :: groups) ++ [dl])) by (rewrite map_app; auto).
    rewrite ER. set (gs := (g :: groups) ++ [dl]).
    assert (Eg : concat (g :: groups) ++ dl = concat gs) by (unfold gs; rewrite concat_app; cbn [concat]; rewrite app_nil_r; auto).
    rewrite Eg in *.
    assert (FW : forall h, In h gs -> Forall whole_line (do_sort cmp eqv unique h) /\ Forall (fun l => is_cdx l = false) (do_sort cmp eqv unique h)).
    { intros h Hh. rewrite Forall_forall in W, C. split; apply do_sort_forall; rewrite Forall_forall; intros x Hx; [apply W|apply C]; apply in_concat; eauto. }
    assert (EM : map (fun x => snd (open_tmp x)) (map (fun g => run g) gs) = map (fun g => do_sort cmp eqv unique g) gs).
    { rewrite map_map. apply map_ext_in. intros h Hh. destruct (FW h Hh). rewrite open_run; auto. }
    destruct (merge_t2_spec cmp Hpre eqv Heqv push pop inv HQ (map (fun g => do_sort cmp eqv unique g) gs)) as (out & M1 & M2 & M3).
    { rewrite Forall_forall. intros l Hl. apply in_map_iff in Hl as (h & <- & _). apply do_sort_sorted. }
    exists (if unique then dedup eqv out else out). split; [|split; [|intros; discriminate]].
    + unfold merge_files. rewrite EM. destruct (FW g) as [W1 C1]; [left; auto|].
      unfold gs at 1. cbn [map app]. rewrite map_app. cbn [map]. rewrite (open_run _ W1 C1). cbn [fst].
      destruct (map (fun g => run g) groups ++ [run dl]) eqn:Z; [destruct (map (fun g => run g) groups); discriminate|].
      cbn [andb]. destruct unique; rewrite ?M1, ?M2; auto.
    + unfold sorts. pose proof (merged_runs gs out M3) as K. destruct unique; auto.
Qed.

Lemma first_line_spec : forall l f r, first_line l = (f, r) -> l = f ++ r /\ (whole_line f \/ (r = [] /\ ~ In NL f)).
Proof.
  induction l as [|c l IH]; intros f r E; cbn in E; [injection E as <- <-; auto|].
  destruct (N.eqb_spec c NL) as [->|N].
  - injection E as <- <-. split; auto. left. exists []. auto.
  - destruct (first_line l) as [f0 r0]. injection E as <- <-. destruct (IH _ _ eq_refl) as [-> H]. split; auto.
    destruct H as [(b & -> & Hb)|[-> H]].
    + left. exists (c :: b). split; auto. intros [|]; auto.
    + right. split; auto. intros [|]; auto.
Qed.
Lemma first_line_whole : forall h x, whole_line h -> first_line (h ++ x) = (h, x).
Proof.
  intros h x (b & -> & N). rewrite <- app_assoc. cbn [app]. induction b as [|c b IH]; [reflexivity|].
  cbn [app first_line]. destruct (N.eqb_spec c NL) as [->|]; [exfalso; apply N; left; auto|]. rewrite IH; auto. intros H. apply N. right. auto.
Qed.
Lemma starts_with_app : forall a b p, starts_with a p = true -> starts_with (a ++ b) p = true.
Proof.
  intros a b p. revert a. induction p as [|c p IH]; intros a H; destruct a as [|x a]; cbn in *; auto; [discriminate|].
  apply andb_prop in H as [H1 H2]. rewrite H1. cbn. auto.
Qed.

Variable utf8_ok : bytes -> bool.
Variable name_ok : bytes -> bool.
Variable size : nat.
Hypothesis Hsize : 0 < size.
Notation sort_files := (sort_files cmp eqv cmp eqv push pop cap unique utf8_ok name_ok size).

(** One file without a header. *)
Theorem sort_plain_file : forall ls text sched, text_of ls text -> Forall (fun l => length l < cap) ls -> Forall (fun l => is_cdx l = false) ls ->
  exists out, sort_files ck_new (mkso [] []) [(text, sched)] = Ok (concat out) /\ sorts ls out /\
    (length (concat ls) < cap -> out = do_sort cmp eqv unique ls).
Proof.
  intros ls text sched [W T] S C. cbn [SortModel.sort_files].
  destruct (first_line text) as [f r] eqn:EF. destruct (first_line_spec _ _ _ EF) as [-> HF].
  destruct (list_eq_dec N.eq_dec f []) as [->|Nf].
  - destruct HF as [(b & E & _)|[-> _]]; [destruct b; discriminate|]. cbn [app] in T.
    assert (ls = []).
    { destruct T as [T|[_ (b & c & E & _)]]; [|destruct b; discriminate]. destruct ls as [|l ls]; auto.
      inversion W; subst. apply whole_len in H1. cbn in T. apply (f_equal (@length _)) in T. rewrite app_length in T. cbn in T. lia. }
    subst ls. destruct (finalize_ok [] []) as (out & F1 & F2 & F3); auto. cbn [map concat] in F1. rewrite F1. exists out. auto.
  - assert (M : forall (A : Type) (a b : A), match f with [] => a | _ :: _ => b end = b) by (destruct f; [congruence|auto]).
    rewrite M.
    assert (K : length f < cap /\ is_cdx f = false).
    { destruct HF as [Wf|[-> Hf]].
      - assert (exists z, concat ls = concat [f] ++ z) as [z Ez].
        { cbn. rewrite app_nil_r. destruct T as [T|[T _]]; [eauto|]. rewrite T, <- app_assoc. eauto. }
        destruct (lines_prefix [f] ls z) as (ls2 & -> & _); auto. inversion S; inversion C; subst. auto.
      - rewrite app_nil_r in T. destruct T as [T|[T _]].
        + exfalso. destruct ls as [|l ls]; [cbn in T; congruence|]. inversion W as [|? ? HW ?]. destruct HW as (b & Hb & _).
          apply Hf. rewrite <- T, Hb. cbn. apply in_or_app. left. apply in_or_app. right. left. auto.
        + destruct (lines_prefix [f ++ [NL]] ls []) as (ls2 & -> & _); auto.
          { constructor; auto. exists f. auto. } { cbn. rewrite !app_nil_r. auto. }
          inversion S; inversion C; subst. rewrite app_length in H1. cbn in H1. split; [lia|].
          destruct (is_cdx f) eqn:Z; auto. unfold is_cdx in *. rewrite (starts_with_app _ [NL] _ Z) in H5. auto. }
    destruct K as [K1 K2]. unfold check, is_valid_cdx, is_cdx in *. rewrite K2. cbn [negb]. rewrite M.
    rewrite andb_false_r. cbn [ck_saw ck_new andb negb ck_head rbind]. unfold add_file. rewrite M. unfold is_cdx. rewrite K2.
    unfold add_data, prepare. cbn [so_data so_tmp length app]. rewrite Nat.sub_0_r, Nat.min_l, Nat.eqb_refl by lia. cbn [negb rbind].
    destruct (add_ok (Datatypes.S (length r)) size (mkso f []) r sched ls) as (gs & dl & A1 & A2 & A3 & A4); auto.
    cbn [so_tmp app] in A1. rewrite A1. cbn [rbind].
    rewrite A2 in W, C. destruct (finalize_ok gs dl W C) as (out & F1 & F2 & F3). rewrite F1. cbn [rbind app].
    exists out. rewrite A2. split; auto. split; auto. rewrite <- A2. intros L. rewrite A4 in * by auto. rewrite A2. cbn [concat app]. auto.
Qed.

(** Several files with the same header, every line complete. *)
Section Header.
Variable h : bytes.
Hypothesis Hw : whole_line h.
Hypothesis Hv : is_valid_cdx utf8_ok name_ok MMatch h = Ok true.

Lemma h_cdx : is_cdx h = true.
Proof. unfold is_valid_cdx in Hv. unfold is_cdx. destruct (starts_with h CDX); auto. discriminate. Qed.
Lemma h_match : forall (A : Type) (a b : A), match h with [] => a | _ :: _ => b end = b.
Proof. intros. pose proof (whole_len _ Hw). destruct h; auto. cbn in H. lia. Qed.
Lemma h_last : (last h 0 =? NL)%N = true.
Proof. destruct Hw as (b & -> & _). rewrite last_last. apply N.eqb_refl. Qed.
Lemma beq_same : forall x, beq x x = true.
Proof. induction x as [|c x IH]; auto. cbn. rewrite N.eqb_refl. auto. Qed.
Lemma check_again : check utf8_ok name_ok MMatch (mkchk h true) h = (Ok false, mkchk h true).
Proof.
  pose proof Hv as HV. pose proof h_last as HL. pose proof (whole_len _ Hw) as HN. revert HV HL HN. generalize h. intros x HV HL HN.
  unfold check. rewrite HV, HL. destruct x as [|c x]; [cbn in HN; lia|]. cbn [negb andb ck_saw ck_head]. rewrite beq_same. auto.
Qed.
Lemma check_first : check utf8_ok name_ok MMatch ck_new h = (Ok true, mkchk h true).
Proof. unfold check. rewrite Hv, h_match, h_last. auto. Qed.

Lemma sort_more : forall fs groups dl, length (concat dl) < cap ->
  let ls := concat groups ++ dl ++ concat (map fst fs) in
  Forall whole_line ls -> Forall (fun l => length l < cap) ls -> Forall (fun l => is_cdx l = false) ls ->
  exists out, sort_files (mkchk h true) (mkso (concat dl) (map (fun g => run g) groups)) (map (fun '(l, sched) => (h ++ concat l, sched)) fs) = Ok (concat out) /\
    sorts ls out /\ (groups = [] -> length (concat ls) < cap -> out = do_sort cmp eqv unique ls).
Proof.
  induction fs as [|[l sched] fs IH]; intros groups dl L ls W S C.
  - cbn [map SortModel.sort_files]. unfold ls in *. cbn [map concat] in *. rewrite app_nil_r in *.
    destruct (finalize_ok groups dl W C) as (out & F1 & F2 & F3). rewrite F1. exists out. split; auto. split; auto.
    intros -> _. cbn [concat app]. auto.
  - cbn [map SortModel.sort_files]. rewrite first_line_whole, h_match, check_again by auto. cbn [rbind]. unfold add_file. rewrite h_match. cbn [rbind].
    unfold ls in *. cbn [map fst concat] in *. clear ls.
    assert (W2 : Forall whole_line (dl ++ l)) by (rewrite !Forall_app in *; tauto).
    assert (S2 : Forall (fun l => length l < cap) (dl ++ l)) by (rewrite !Forall_app in *; tauto).
    destruct (add_ok (Datatypes.S (length (concat l))) size (mkso (concat dl) (map (fun g => run g) groups)) (concat l) sched (dl ++ l)) as (gs & dl2 & A1 & A2 & A3 & A4); auto.
    { left. apply concat_app. }
    rewrite A1. cbn [rbind so_tmp]. rewrite <- map_app.
    assert (E : concat groups ++ dl ++ l ++ concat (map fst fs) = concat (groups ++ gs) ++ dl2 ++ concat (map fst fs)).
    { rewrite (app_assoc dl), A2, concat_app, <- !app_assoc. auto. }
    rewrite E in *. destruct (IH (groups ++ gs) dl2) as (out & B1 & B2 & B3); auto.
    { apply A3. apply concat_app. }
    rewrite B1. cbn [rbind app]. exists out. split; auto. split; auto. intros -> LL. cbn [concat app] in *. apply B3; auto.
    apply A4. assert (EQ : length (concat (dl ++ l)) = length (concat (concat gs)) + length (concat dl2)) by (rewrite A2, concat_app, app_length; auto).
    rewrite !(concat_app (concat gs)), !(concat_app dl2), !app_length in LL. lia.
Qed.

Theorem sort_header_files : forall fs, fs <> [] -> 0 < cap ->
  let ls := concat (map fst fs) in
  Forall whole_line ls -> Forall (fun l => length l < cap) ls -> Forall (fun l => is_cdx l = false) ls ->
  exists out, sort_files ck_new (mkso [] []) (map (fun '(l, sched) => (h ++ concat l, sched)) fs) = Ok (h ++ concat out) /\
    sorts ls out /\ (length (concat ls) < cap -> out = do_sort cmp eqv unique ls).
Proof.
  intros [|[l sched] fs] N Hc ls W S C; [congruence|].
  cbn [map SortModel.sort_files]. rewrite first_line_whole, h_match, check_first by auto. cbn [rbind]. unfold add_file. rewrite h_match, h_cdx. cbn [rbind].
  unfold ls in *. cbn [map fst concat] in *. clear ls.
  assert (W2 : Forall whole_line l) by (rewrite !Forall_app in *; tauto).
  assert (S2 : Forall (fun l => length l < cap) l) by (rewrite !Forall_app in *; tauto).
  destruct (add_ok (Datatypes.S (length (concat l))) size (mkso [] []) (concat l) sched l) as (gs & dl2 & A1 & A2 & A3 & A4); auto.
  { left. auto. }
  rewrite A1. cbn [rbind so_tmp app]. rewrite A2 in *. rewrite <- !app_assoc in *.
  destruct (sort_more fs gs dl2) as (out & B1 & B2 & B3); auto.
  rewrite B1. cbn [rbind]. exists out. split; auto. split; auto. intros LL. apply B3; auto. apply A4.
  rewrite (concat_app (concat gs) dl2), app_length.
  rewrite (concat_app (concat gs)), (concat_app dl2), !app_length in LL. lia.
Qed.
End Header.

(** When only identical lines compare equal the result does not depend on how it was sorted. *)
Lemma sorts_unique : (forall x y, cmp x y = Eq -> x = y) -> forall ls o1 o2, sorts ls o1 -> sorts ls o2 -> o1 = o2.
Proof.
  intros AS ls o1 o2 H1 H2. unfold sorts in *. destruct unique.
  - assert (ND : forall o, one_of_groups cmp ls o -> NoDup o /\ sorted cmp o /\ forall x, In x o <-> In x ls).
    { intros o (D1 & D2 & D3). split; [|split].
      - clear - D1 Hpre. induction D1; constructor; auto. intros I. rewrite Forall_forall in H. apply H in I. rewrite (c_refl cmp Hpre) in I. discriminate.
      - clear - D1. induction D1; constructor; auto. eapply Forall_impl; eauto. cbn. congruence.
      - intros x. split; auto. intros I. apply D3 in I as (y & Hy & E). apply AS in E. subst. auto. }
    destruct (ND _ H1) as (A1 & A2 & A3). destruct (ND _ H2) as (B1 & B2 & B3).
    apply (sort_of_unique cmp Hpre AS o1); split; auto. apply NoDup_Permutation; auto. intros x. rewrite A3, B3. tauto.
  - eapply sort_of_unique; eauto.
Qed.
End S.

(** Sorting through a view of the items. *)
Lemma std_sort_map : forall {A B} (f : A -> B) (ca : A -> A -> comparison) (cb : B -> B -> comparison) l,
  (forall x y, In x l -> In y l -> ca x y = cb (f x) (f y)) -> map f (std_sort ca l) = std_sort cb (map f l).
Proof.
  intros A B f ca cb l H.
  assert (INS : forall x m, (forall y, In y m -> ca x y = cb (f x) (f y)) -> map f (std_insert ca x m) = std_insert cb (f x) (map f m)).
  { intros x m. induction m as [|y m IH]; intros K; auto. cbn. rewrite <- (K y) by (left; auto).
    destruct (is_gt (ca x y)); cbn; auto. rewrite IH; auto. intros z Hz. apply K. right. auto. }
  assert (IN : forall m y, In y (std_sort ca m) -> In y m).
  { intros m. induction m as [|x m IH]; intros y Hy; auto. cbn in Hy.
    assert (I : forall z n, In y (std_insert ca z n) -> y = z \/ In y n).
    { intros z n. induction n as [|w n IHn]; cbn; intros Q; [intuition|]. destruct (is_gt (ca z w)); cbn in Q; intuition. }
    apply I in Hy as [->|Hy]; [left; auto|right; auto]. }
  induction l as [|x l IH]; auto. change (map f (std_insert ca x (std_sort ca l)) = std_insert cb (f x) (std_sort cb (map f l))). rewrite <- IH.
  - apply INS. intros y Hy. apply H; [left; auto|right; apply IN; auto].
  - intros a b Ha Hb. apply H; right; auto.
Qed.
