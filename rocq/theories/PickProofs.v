(** Proofs for the sample tool. *)
From Coq Require Import List NArith Bool Arith Lia.
Import ListNotations.
From Verif Require Import Base TextSpec TextModel ReadSpec ReadModel ReadProofs HeadModel HdrModel ToolModel ToolOpen TurnSpec TurnProofs PasteSpec PasteProofs PickSpec.

(** A plain reader that does not split, standing on the raw line [l]. *)
Definition at_raw (md : tmode) (r : reader) (l : bytes) (rest : list bytes) : Prop :=
  r_split r = false /\ r_done r = false /\ rest_is md (r_src r) rest /\
  exists hist t, ring 1 r (t :: hist) /\ tl_line t = l /\ Forall (fun t => tl_orig t = []) (t :: hist).

Lemma at_line_raw md r l hist rest : tm_quote md = QPlain -> at_line md r (proc md l :: hist) rest -> at_raw md (do_split r false) l rest.
Proof.
  intros Hp (H1 & H2 & H3 & H4 & H5). split; [reflexivity|]. split; [exact H4|]. split; [exact H5|].
  exists hist, (proc md l). split; [exact H1|]. split; [unfold proc; rewrite Hp; reflexivity|]. apply H2, Hp.
Qed.

Lemma raw_text md r l rest : at_raw md r l rest -> exists t, prev_line r 0 = Ok t /\ tl_text t = l.
Proof.
  intros (_ & _ & _ & hist & t & H1 & H2 & H3). exists t. split; [eapply ring_curr; eauto|]. inversion H3; subst. unfold tl_text. rewrite H4. reflexivity.
Qed.

Lemma raw_cons md r l l' rest : tm_quote md = QPlain -> at_raw md r l (l' :: rest) ->
  exists r', next_line md r = Ok r' /\ at_raw md r' l' rest /\ r_lineno r' = r_lineno r + 1.
Proof.
  intros Hp (H1 & H2 & H3 & hist & t & H4 & H5 & H6). destruct (rest_cases _ _ _ H3) as (tx & C1 & f & C2).
  destruct H3 as (Hw & _). pose proof (read_line_flat (tm_quote md) (tm_break md) (r_src r) Hw) as A. rewrite C1 in A.
  destruct A as (s' & A1 & A2 & A3). unfold next_line, getline. rewrite A1. cbv zeta.
  pose proof (ring_slot 1 r (t :: hist) H4) as RS.
  rewrite H1.
  match goal with |- exists r', Ok ?x = Ok r' /\ _ => set (r1 := x) end.
  assert (RG : ring 1 r1 (tl_set_line (nth 1 (t :: hist) tl_new) l' :: t :: hist)).
  { unfold r1. rewrite RS. eapply ring_step; eauto. }
  exists r1. split; [reflexivity|]. split; [|reflexivity]. split; [reflexivity|]. split; [exact H2|].
  split. { split; [exact A2|]. exists f. cbn [r1 r_src]. rewrite A3. exact C2. }
  exists (t :: hist), (tl_set_line (nth 1 (t :: hist) tl_new) l'). split; [exact RG|]. split; [reflexivity|]. constructor; [|exact H6].
  cbn [tl_set_line tl_orig nth]. destruct hist as [|x hist]; [reflexivity|]. inversion H6; subst. inversion H7; subst. cbn [nth]. assumption.
Qed.
Lemma raw_nil md r l : at_raw md r l [] -> exists r', next_line md r = Ok r' /\ r_done r' = true.
Proof.
  intros (H1 & H2 & H3 & hist & t & H4 & H5 & H6). pose proof (rest_cases _ _ _ H3) as C. cbn in C.
  destruct H3 as (Hw & _). pose proof (read_line_flat (tm_quote md) (tm_break md) (r_src r) Hw) as A. rewrite C in A.
  destruct A as (_ & s' & A1 & A2 & A3). unfold next_line, getline. rewrite A1. cbv zeta. eexists. split; reflexivity.
Qed.
Lemma raw_turns md r l rest : md_ok md -> at_raw md r l rest -> S (length rest) < turns r.
Proof. intros Hm (_ & _ & (_ & f & H) & _). apply flat_all_length in H; auto. unfold turns. lia. Qed.

Section Loops.
Variable md : tmode.
Hypothesis Hplain : tm_quote md = QPlain.

Lemma steps_next by_ to next n : (0 < by_)%N -> (n < next)%N -> in_steps by_ next to n = false.
Proof. intros Hb H. unfold in_steps. destruct (N.leb_spec next n); [lia|reflexivity]. Qed.
Lemma steps_shift by_ to next n : (0 < by_)%N -> (next < n)%N -> in_steps by_ next to n = in_steps by_ (next + by_) to n.
Proof.
  intros Hb H. unfold in_steps. destruct (N.leb_spec next n); [|lia]. cbn [andb].
  destruct (N.leb_spec n to); cbn [andb]; [|destruct (next + by_ <=? n)%N; reflexivity].
  destruct (N.leb_spec (next + by_) n) as [A|A]; cbn [andb].
  - replace (n - next)%N with ((n - (next + by_)) + 1 * by_)%N by lia. rewrite N.mod_add by lia. reflexivity.
  - rewrite N.mod_small by lia. apply N.eqb_neq. lia.
Qed.
Lemma picked_ext a test test' : forall ls, (forall n, (a <= n)%N -> test n = test' n) -> picked a test ls = picked a test' ls.
Proof.
  intros ls. revert a. induction ls as [|l ls IH]; intros a H; [reflexivity|]. cbn [picked]. rewrite (H a) by lia. f_equal. apply IH. intros n Hn. apply H. lia.
Qed.
Lemma picked_none a test : forall ls, (forall n, (a <= n)%N -> test n = false) -> picked a test ls = [].
Proof.
  intros ls. revert a. induction ls as [|l ls IH]; intros a H; [reflexivity|]. cbn [picked]. rewrite (H a) by lia. apply IH. intros n Hn. apply H. lia.
Qed.

Lemma for_ok by_ to : (0 < by_)%N -> forall rest fuel r l next, at_raw md r l rest -> length rest < fuel -> (line_no r <= next)%N ->
  (line_no r + N.of_nat (length rest) + by_ < 2 ^ 64)%N ->
  for_loop fuel md by_ to next r = (concat (picked (line_no r) (in_steps by_ next to) (l :: rest)), Ok tt).
Proof.
  intros Hb. induction rest as [|l' rest IH]; intros fuel r l next HA Hf Hn Hx; (destruct fuel as [|k]; [lia|]); cbn [for_loop].
  - cbn [picked]. destruct (N.leb_spec (line_no r) to) as [A|A].
    + destruct (raw_nil _ _ _ HA) as (r' & N1 & N2). rewrite N1. cbn [need]. rewrite N2.
      destruct (N.eqb_spec (line_no r) next) as [E|E].
      * destruct (raw_text _ _ _ _ HA) as (t & T1 & T2). rewrite T1. cbn [need]. rewrite T2.
        destruct (N.ltb_spec (next + by_) (2 ^ 64)) as [B|B]; [|lia]. unfold in_steps. rewrite E in *.
        destruct (N.leb_spec next next); [|lia]. destruct (N.leb_spec next to); [|lia]. rewrite N.sub_diag, N.mod_0_l by lia. reflexivity.
      * rewrite (steps_next by_ to) by lia. reflexivity.
    + unfold in_steps. destruct (N.leb_spec (line_no r) to); [lia|]. rewrite andb_false_r. reflexivity.
  - destruct (raw_cons _ _ _ _ _ Hplain HA) as (r' & N1 & N2 & N3).
    assert (EN : line_no r' = (line_no r + 1)%N) by (unfold line_no; lia).
    change (picked (line_no r) (in_steps by_ next to) (l :: l' :: rest)) with ((if in_steps by_ next to (line_no r) then [l] else []) ++ picked (line_no r + 1) (in_steps by_ next to) (l' :: rest)).
    destruct (N.leb_spec (line_no r) to) as [A|A].
    + rewrite N1. cbn [need]. assert (D : r_done r' = false) by apply N2. rewrite D. cbn [length] in *.
      destruct (N.eqb_spec (line_no r) next) as [E|E].
      * destruct (raw_text _ _ _ _ HA) as (t & T1 & T2). rewrite T1. cbn [need]. rewrite T2.
        destruct (N.ltb_spec (next + by_) (2 ^ 64)) as [B|B]; [|lia].
        assert (ES : in_steps by_ next to (line_no r) = true).
        { unfold in_steps. rewrite E in *. destruct (N.leb_spec next next); [|lia]. destruct (N.leb_spec next to); [|lia]. rewrite N.sub_diag, N.mod_0_l by lia. reflexivity. }
        rewrite ES. change ([l] ++ picked (line_no r + 1) (in_steps by_ next to) (l' :: rest)) with (l :: picked (line_no r + 1) (in_steps by_ next to) (l' :: rest)).
        rewrite (picked_ext _ (in_steps by_ next to) (in_steps by_ (next + by_) to)) by (intros n Hn'; apply steps_shift; lia).
        cbn [concat]. rewrite <- EN, (IH k r' l' (next + by_)%N N2) by lia. reflexivity.
      * rewrite (IH k r' l' next N2) by lia. rewrite EN. rewrite (steps_next by_ to) by lia. reflexivity.
    + change (([], Ok tt) = (concat (picked (line_no r) (in_steps by_ next to) (l :: l' :: rest)), Ok tt)).
      rewrite picked_none; [reflexivity|].
      intros n Hn'. unfold in_steps. destruct (N.leb_spec n to); [lia|]. rewrite andb_false_r. reflexivity.
Qed.

Lemma range_max_ge (v : list (N * N)) : forall a n, In n (a :: map snd v) -> (n <= fold_left (fun a p => N.max a (snd p)) v a)%N.
Proof.
  induction v as [|p v IH]; intros a n H; cbn [fold_left map] in *.
  - destruct H as [-> |[]]; lia.
  - destruct H as [-> |[<- |H]].
    + transitivity (N.max n (snd p)); [lia|]. apply IH. left; reflexivity.
    + transitivity (N.max a (snd p)); [lia|]. apply IH. left; reflexivity.
    + apply IH. right; exact H.
Qed.
Lemma range_in_max v n : in_ranges v n = true -> (n <= range_max v)%N.
Proof.
  intros H. unfold in_ranges in H. apply existsb_exists in H. destruct H as (p & H1 & H2). apply andb_true_iff in H2. destruct H2 as (_ & H2). apply N.leb_le in H2.
  transitivity (snd p); [exact H2|]. apply range_max_ge. right. apply in_map, H1.
Qed.
Lemma range_ok v : forall rest fuel r l, at_raw md r l rest -> length rest < fuel ->
  range_loop fuel md v r = (concat (picked (line_no r) (in_ranges v) (l :: rest)), Ok tt).
Proof.
  induction rest as [|l' rest IH]; intros fuel r l HA Hf; (destruct fuel as [|k]; [lia|]); cbn [range_loop].
  - destruct (N.leb_spec (line_no r) (range_max v)) as [A|A].
    + destruct (raw_nil _ _ _ HA) as (r' & N1 & N2). rewrite N1. cbn [need]. rewrite N2. cbn [picked].
      change (range_in v (line_no r)) with (in_ranges v (line_no r)). destruct (in_ranges v (line_no r)); [|reflexivity].
      destruct (raw_text _ _ _ _ HA) as (t & T1 & T2). rewrite T1. cbn [need]. rewrite T2. reflexivity.
    + rewrite picked_none; [reflexivity|]. intros n Hn. destruct (in_ranges v n) eqn:E; [|reflexivity]. apply range_in_max in E. lia.
  - destruct (raw_cons _ _ _ _ _ Hplain HA) as (r' & N1 & N2 & N3).
    assert (EN : line_no r' = (line_no r + 1)%N) by (unfold line_no; lia).
    destruct (N.leb_spec (line_no r) (range_max v)) as [A|A].
    + rewrite N1. cbn [need]. assert (D : r_done r' = false) by apply N2. rewrite D. cbn [length] in *. rewrite (IH k r' l' N2) by lia.
      change (picked (line_no r) (in_ranges v) (l :: l' :: rest)) with ((if in_ranges v (line_no r) then [l] else []) ++ picked (line_no r + 1) (in_ranges v) (l' :: rest)).
      change (range_in v (line_no r)) with (in_ranges v (line_no r)). rewrite EN. destruct (in_ranges v (line_no r)); [|reflexivity].
      destruct (raw_text _ _ _ _ HA) as (t & T1 & T2). rewrite T1. cbn [need]. rewrite T2. reflexivity.
    + rewrite picked_none; [reflexivity|]. intros n Hn. destruct (in_ranges v n) eqn:E; [|reflexivity]. apply range_in_max in E. lia.
Qed.

(** The test a choice stands for, and the numbers it can cope with. *)
Definition test_of (c : choice) : N -> bool :=
  match c with ByFor f => in_steps (fo_by f) (fo_from f) (fo_to f) | ByRange v => in_ranges v end.
Definition copes (c : choice) (n : nat) : Prop :=
  match c with ByFor f => (0 < fo_by f)%N /\ (N.of_nat n + fo_by f <= 2 ^ 64)%N | ByRange _ => True end.

Lemma choose_ok c r l rest : r_lineno r = 0 -> at_raw md r l rest -> copes c (S (length rest)) ->
  choose md c r = (concat (picked 0 (test_of c) (l :: rest)), Ok tt).
Proof.
  intros H0 HA HC. assert (E0 : line_no r = 0%N) by (unfold line_no; rewrite H0; reflexivity).
  assert (HT : length rest < turns r). { apply Nat.lt_trans with (S (length rest)); [lia|]. eapply raw_turns; [|exact HA]. intros E. congruence. }
  destruct c as [f|v]; cbn [choose test_of copes] in *.
  - destruct HC as (C1 & C2). rewrite (for_ok (fo_by f) (fo_to f) C1 rest (turns r) r l (fo_from f) HA HT) by lia. rewrite E0. reflexivity.
  - rewrite (range_ok v rest (turns r) r l HA HT). rewrite E0. reflexivity.
Qed.
End Loops.

Section Files.
Variables utf8_ok name_ok : bytes -> bool.
Variable md : tmode.
Hypothesis Hplain : tm_quote md = QPlain.
Variable c : choice.

(** A file with data lines, open. *)
Definition ready (t : tfile) (f : shown) : Prop :=
  tf_empty t = false /\ tf_head t = (match sh_head f with [] => None | h => Some h end) /\ r_lineno (tf_rd t) = 0 /\
  match sh_lines f with [] => False | l :: rest => at_line md (tf_rd t) [proc md l] rest end.
Definition good_file (s : src) (f : shown) : Prop :=
  wf_src s /\ file_lines utf8_ok md s (sh_head f) (sh_lines f) /\ sh_lines f <> [] /\ copes c (length (sh_lines f)).

Lemma open_ready s f : good_file s f -> exists t, open_file utf8_ok md s = Ok t /\ ready t f.
Proof.
  intros (Hw & HL & HN & _). destruct (open_file_lines _ _ _ _ _ Hw HL) as (t & O1 & O2 & O3 & O4 & O5 & O6). exists t. split; [exact O1|].
  split; [exact O2|]. split; [rewrite O3; destruct (sh_head f); reflexivity|]. split; [exact O5|]. destruct (sh_lines f); [congruence|exact O6].
Qed.

(** The header written by the checker: all files have the same header or none. *)
Definition one_head (hd : bytes) : Prop := hd = [] \/ (is_valid_cdx utf8_ok name_ok MMatch hd = Ok true /\ last hd 0%N = NL).

Lemma fake_check ck : ck_head ck = [] -> check utf8_ok name_ok MMatch ck [102; 97; 107; 101]%N = (Ok true, mkchk [] true).
Proof. intros H. destruct ck as [h s]. cbn [ck_head] in H. subst h. destruct s; reflexivity. Qed.

Lemma sample_ok hd (started : bool) ck ts fs : one_head hd -> Forall2 ready ts fs -> Forall (fun f => sh_head f = hd /\ copes c (length (sh_lines f))) fs ->
  ck = (if started then mkchk hd true else ck_new) ->
  sample utf8_ok name_ok md c ck ts = ((if started then [] else match fs with [] => [] | _ => hd end) ++ concat (map (fun f => concat (picked 0 (test_of c) (sh_lines f))) fs), Ok tt).
Proof.
  intros Ho H. revert ck started. induction H as [|t f ts fs (R1 & R2 & R3 & R4) H IH]; intros ck started HF Hck.
  - cbn. destruct started; reflexivity.
  - inversion HF as [|? ? (F1 & F2) F3]; subst. cbn [sample map concat]. rewrite R1.
    destruct (sh_lines f) as [|l rest] eqn:EL; [contradiction|].
    assert (HD : r_done (tf_rd t) = false) by apply R4.
    pose proof (choose_ok md Hplain c (do_split (tf_rd t) false) l rest R3 (at_line_raw _ _ _ _ _ Hplain R4) F2) as HC.
    unfold check_file. rewrite R2. destruct Ho as [E|(E1 & E2)].
    + rewrite E. rewrite fake_check by (destruct started; reflexivity). cbn [rbind need say]. rewrite HD, HC.
      cbn [need say]. rewrite (IH _ true F3) by (rewrite E; reflexivity). destruct started; cbn; rewrite ?app_nil_r; reflexivity.
    + destruct (sh_head f) as [|b h] eqn:EH; [discriminate E1|]. unfold check. rewrite E1, E2. cbn [N.eqb Pos.eqb NL negb andb].
      destruct started; cbn [ck_saw ck_head ck_new].
      * rewrite beq_refl. cbn [rbind need say negb]. rewrite HD, HC. cbn [need say]. rewrite (IH _ true F3) by reflexivity. cbn. reflexivity.
      * cbn [andb rbind need negb]. rewrite HD, HC. cbn [need say]. rewrite (IH _ true F3) by reflexivity. cbn. reflexivity.
Qed.

Lemma open_ready_all ss fs : Forall2 good_file ss fs -> exists ts, open_files utf8_ok md ss = Ok ts /\ Forall2 ready ts fs.
Proof.
  intros H. induction H as [|s f ss fs H1 H IH]; [exists []; split; [reflexivity|constructor]|].
  destruct (open_ready _ _ H1) as (t & O1 & O2). destruct IH as (ts & I1 & I2). exists (t :: ts). cbn [open_files]. rewrite O1. cbn [rbind]. rewrite I1. cbn [rbind].
  split; [reflexivity|constructor; auto].
Qed.
End Files.
