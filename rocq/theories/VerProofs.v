(** Proofs for the verify tool. *)
From Coq Require Import List NArith Bool Arith Lia.
Import ListNotations.
From Verif Require Import Base TextSpec TextModel ReadSpec ReadModel ReadProofs HeadModel HdrModel ToolModel ToolOpen TurnSpec TurnProofs PasteSpec PasteProofs VerSpec.

Lemma violations_none T good ordered : forall ls, violations T good ordered ls = 0 <-> forallb good (removelast ls) = true /\ in_order T ordered ls = true.
Proof.
  induction ls as [|a ls IH]; [cbn; tauto|]. destruct ls as [|b ls]; [cbn; tauto|].
  change (violations T good ordered (a :: b :: ls)) with ((if good a && ordered a b then 0 else 1) + violations T good ordered (b :: ls)).
  change (removelast (a :: b :: ls)) with (a :: removelast (b :: ls)). cbn [forallb].
  change (in_order T ordered (a :: b :: ls)) with (ordered a b && in_order T ordered (b :: ls)).
  rewrite !andb_true_iff. destruct (good a), (ordered a b); cbn [andb]; split; try (intros; lia); intros; rewrite ?Nat.add_0_l in *; intuition (try discriminate; try lia).
Qed.

Lemma last_any {A} : forall (l : list A) a d d', last (a :: l) d = last (a :: l) d'.
Proof. induction l as [|b l IH]; intros a d d'; [reflexivity|]. change (last (b :: l) d = last (b :: l) d'). apply IH. Qed.

Section Loop.
Variable md : tmode.
Variable v : rules.

Definition good_line (cols : nat) (t : textline) : bool := (length (tl_parts t) =? cols) && vr_line v t.
Definition sorted_pair (a b : textline) : bool :=
  if vr_sort v then match vr_comp v a b with Lt => true | Eq => negb (vr_unique v) | Gt => false end else true.

Lemma pair_bad a b : vr_sort v && out_of_order v a b = negb (sorted_pair a b).
Proof. unfold sorted_pair, out_of_order. destruct (vr_sort v); [|reflexivity]. destruct (vr_comp v a b), (vr_unique v); reflexivity. Qed.

Lemma verify_loop_ok cols : forall rest fuel r l hist fails, at_line md r (proc md l :: hist) rest -> length rest < fuel -> fails < vr_max v ->
  let ts := map (proc md) (l :: rest) in
  let n := fails + violations textline (good_line cols) sorted_pair ts in
  verify_loop fuel md v cols fails r = Ok (if n <? vr_max v then n + (if passes (vr_last v) (last ts (proc md l)) then 0 else 1) else vr_max v).
Proof.
  induction rest as [|l' rest IH]; intros fuel r l hist fails HA Hf Hm; intros ts n; (destruct fuel as [|k]; [lia|]); cbn [verify_loop].
  - rewrite (ring_curr _ _ _ (proj1 HA)). cbn [rbind]. destruct (next_nil _ _ _ HA) as (r' & N1 & N2 & _ & t & N3). rewrite N1. cbn [rbind]. rewrite N2.
    rewrite (ring_prev _ _ _ _ N3). cbn [rbind]. unfold n, ts. cbn [map violations last]. rewrite Nat.add_0_r.
    destruct (Nat.ltb_spec fails (vr_max v)); [|lia]. destruct (passes (vr_last v) (proc md l)); f_equal; lia.
  - rewrite (ring_curr _ _ _ (proj1 HA)). cbn [rbind]. destruct (next_cons _ _ _ _ _ HA) as (r' & N1 & N2 & _). rewrite N1. cbn [rbind].
    assert (D : r_done r' = false) by apply N2. rewrite D. rewrite (ring_curr _ _ _ (proj1 N2)), (ring_prev _ _ _ _ (proj1 N2)). cbn [rbind].
    rewrite pair_bad. cbn [length] in Hf.
    assert (EV : violations textline (good_line cols) sorted_pair ts =
      (if good_line cols (proc md l) && sorted_pair (proc md l) (proc md l') then 0 else 1) + violations textline (good_line cols) sorted_pair (map (proc md) (l' :: rest))) by reflexivity.
    assert (EL : last ts (proc md l) = last (map (proc md) (l' :: rest)) (proc md l')).
    { unfold ts. change (map (proc md) (l :: l' :: rest)) with (proc md l :: map (proc md) (l' :: rest)). apply (last_any (map (proc md) rest)). }
    assert (EB : negb (length (tl_parts (proc md l)) =? cols) || negb (vr_line v (proc md l)) || negb (sorted_pair (proc md l) (proc md l')) =
      negb (good_line cols (proc md l) && sorted_pair (proc md l) (proc md l'))).
    { unfold good_line. rewrite !negb_andb. reflexivity. }
    rewrite EB. unfold n. rewrite EV, EL. destruct (good_line cols (proc md l) && sorted_pair (proc md l) (proc md l')); cbn [negb].
    + rewrite (IH k r' l' _ fails N2) by lia. rewrite Nat.add_0_l. reflexivity.
    + destruct (Nat.leb_spec (vr_max v) (S fails)) as [B|B].
      * destruct (Nat.ltb_spec (fails + (1 + violations textline (good_line cols) sorted_pair (map (proc md) (l' :: rest)))) (vr_max v)); [lia|]. f_equal. lia.
      * rewrite (IH k r' l' _ (S fails) N2) by lia.
        replace (fails + (1 + violations textline (good_line cols) sorted_pair (map (proc md) (l' :: rest)))) with (S fails + violations textline (good_line cols) sorted_pair (map (proc md) (l' :: rest))) by lia. reflexivity.
Qed.

(** The number of failures of a file. *)
Definition failures (f : shown) : nat :=
  match map (proc md) (sh_lines f) with
  | [] => 0
  | t :: r =>
      let n := (if passes (vr_first v) t then 0 else 1) + violations textline (good_line (length (sh_names f))) sorted_pair (t :: r) in
      if n <? vr_max v then n + (if passes (vr_last v) (last (t :: r) t) then 0 else 1) else vr_max v
  end.
Definition opened_file (t : tfile) (f : shown) : Prop := opened md t f /\ (sh_lines f <> [] -> tf_empty t = false).
Lemma open_file_shows u s f : shows u md s f -> exists t, open_file u md s = Ok t /\ opened_file t f.
Proof.
  intros (Hw & [(HL & HN)|(hd & s1 & H & E1 & E2 & E3)]).
  - destruct (open_file_lines _ _ _ _ _ Hw HL) as (t & O1 & O0 & O2 & O3 & _ & O4). exists t. split; auto. split; auto. split; [rewrite O2; destruct (sh_head f); reflexivity|].
    split; [congruence|]. destruct (sh_lines f); [apply O4|exact O4].
  - unfold open_file. rewrite H. cbn [rbind]. eexists. split; [reflexivity|]. split; [|congruence]. unfold opened. rewrite E1, E2, E3. cbn. auto.
Qed.
Lemma open_all_shows u ss fs : Forall2 (shows u md) ss fs -> exists ts, open_files u md ss = Ok ts /\ Forall2 opened_file ts fs.
Proof.
  intros H. induction H as [|s f ss fs H1 H IH]; [exists []; split; [reflexivity|constructor]|].
  destruct (open_file_shows _ _ _ H1) as (t & O1 & O2). destruct IH as (ts & I1 & I2). exists (t :: ts). cbn [open_files]. rewrite O1. cbn [rbind]. rewrite I1. cbn [rbind].
  split; [reflexivity|constructor; auto].
Qed.

Lemma verify_file_ok t f : md_ok md -> 2 <= vr_max v -> opened_file t f -> verify_file md v t = Ok (failures f).
Proof.
  intros Hm H2 ((O1 & O2 & O3) & O4). unfold verify_file, failures. destruct (sh_lines f) as [|l rest].
  - rewrite O3, orb_true_r. reflexivity.
  - assert (D : r_done (tf_rd t) = false) by apply O3. rewrite O4 by discriminate. rewrite D. cbn [orb].
    rewrite (ring_curr _ _ _ (proj1 O3)). cbn [rbind]. pose proof (at_line_turns _ _ _ _ Hm O3) as HT.
    rewrite (verify_loop_ok (length (tf_names t)) rest (turns (tf_rd t)) (tf_rd t) l [] _ O3) by (try lia; destruct (passes _ _); lia). rewrite O2. reflexivity.
Qed.

(** The verdict: the first line, the last line and all that lies before the last line are as demanded. *)
Definition accepted (f : shown) : bool :=
  let ts := map (proc md) (sh_lines f) in
  forallb (good_line (length (sh_names f))) (removelast ts) && in_order textline sorted_pair ts && ends_ok textline (passes (vr_first v)) (passes (vr_last v)) ts.
Lemma failures_none f : 2 <= vr_max v -> (failures f =? 0) = accepted f.
Proof.
  intros Hm. unfold failures, accepted. destruct (map (proc md) (sh_lines f)) as [|t r]; [reflexivity|]. unfold ends_ok.
  set (n := violations textline (good_line (length (sh_names f))) sorted_pair (t :: r)).
  pose proof (violations_none textline (good_line (length (sh_names f))) sorted_pair (t :: r)) as HV. fold n in HV. cbv zeta.
  destruct (forallb (good_line (length (sh_names f))) (removelast (t :: r))) eqn:E1, (in_order textline sorted_pair (t :: r)) eqn:E2; cbn [andb].
  - assert (N : n = 0) by (apply HV; auto). rewrite N, Nat.add_0_r. destruct (passes (vr_first v) t); cbn [andb].
    + destruct (Nat.ltb_spec 0 (vr_max v)); [|lia]. destruct (passes (vr_last v) (last (t :: r) t)); reflexivity.
    + destruct (Nat.ltb_spec 1 (vr_max v)); [|lia]. reflexivity.
  - assert (N : n <> 0) by (intros Z; apply HV in Z; destruct Z; discriminate). apply Nat.eqb_neq. destruct (_ <? _); lia.
  - assert (N : n <> 0) by (intros Z; apply HV in Z; destruct Z; discriminate). apply Nat.eqb_neq. destruct (_ <? _); lia.
  - assert (N : n <> 0) by (intros Z; apply HV in Z; destruct Z; discriminate). apply Nat.eqb_neq. destruct (_ <? _); lia.
Qed.
Lemma verify_ok ts fs : md_ok md -> 2 <= vr_max v -> Forall2 opened_file ts fs -> verify md v ts = if forallb accepted fs then Ok tt else Err.
Proof.
  intros Hm H2 H. induction H as [|t f ts fs H1 H IH]; [reflexivity|]. cbn [verify forallb]. rewrite (verify_file_ok _ _ Hm H2 H1). cbn [rbind].
  rewrite (failures_none f H2). destruct (accepted f); [exact IH|reflexivity].
Qed.
(** A valid file is accepted; what is accepted lacks at most the demands on its last line. *)
Definition valid_file (f : shown) : bool :=
  valid textline (good_line (length (sh_names f))) sorted_pair (passes (vr_first v)) (passes (vr_last v)) (map (proc md) (sh_lines f)).
Lemma accepted_valid f : valid_file f = accepted f && match rev (sh_lines f) with [] => true | l :: _ => good_line (length (sh_names f)) (proc md l) end.
Proof.
  unfold valid_file, accepted, valid. set (g := good_line (length (sh_names f))).
  assert (E : forallb g (map (proc md) (sh_lines f)) = forallb g (removelast (map (proc md) (sh_lines f))) && match rev (sh_lines f) with [] => true | l :: _ => g (proc md l) end).
  { destruct (sh_lines f) as [|x ls _] using rev_ind; [reflexivity|]. rewrite map_app, rev_app_distr. cbn [map rev app]. rewrite removelast_last, forallb_app. cbn [forallb]. rewrite andb_true_r. reflexivity. }
  rewrite E. destruct (forallb g (removelast _)), (in_order _ _ _), (ends_ok _ _ _ _), (match rev (sh_lines f) with [] => true | _ => _ end); reflexivity.
Qed.
End Loop.
