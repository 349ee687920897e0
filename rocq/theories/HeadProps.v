(** C07: header policies over many files. *)
From Coq Require Import String List NArith Bool Arith Lia.
Import ListNotations.
From Verif Require Import Base TextSpec ReadModel HeadModel HeadSpec.

(** A first line the checker takes at face value: not a header, or a complete well-formed one. *)
Definition regular (utf8_ok name_ok : bytes -> bool) (m : hmode) (l : bytes) : Prop :=
  l <> [] /\ is_valid_cdx utf8_ok name_ok m l = Ok (is_cdx l) /\ (is_cdx l = true -> last l 0%N = NL).

Definition to_res {A} (o : option A) : res A := match o with Some a => Ok a | None => Err end.

Section P.
Variables utf8_ok name_ok : bytes -> bool.

Lemma check_regular m c l : regular utf8_ok name_ok m l ->
  check utf8_ok name_ok m c l =
  let cdx := is_cdx l in
  if ck_saw c then
    (match m with
     | MMatch => if cdx then match ck_head c with [] => Err | h => if beq l h then Ok false else Err end
                 else match ck_head c with [] => Ok true | _ => Err end
     | MRequire => if cdx then Ok false else Err
     | MStrip => Ok (negb cdx)
     | MIgnore => Ok true
     | MNone => if cdx then Err else Ok true
     | MTrust => Ok (negb cdx)
     end, c)
  else
    let c1 := mkchk (ck_head c) true in
    if cdx && match m with MStrip => true | _ => false end then (Err, c1)
    else if negb cdx && match m with MRequire => true | _ => false end then (Err, c1)
    else (Ok true, if cdx then mkchk l true else c1).
Proof.
  intros (Hne & Hv & Hnl). unfold check. rewrite Hv. destruct l as [|x l]; [congruence|].
  destruct (is_cdx (x :: l)) eqn:E; cbv zeta.
  - rewrite Hnl by auto. rewrite N.eqb_refl. reflexivity.
  - rewrite andb_false_r. reflexivity.
Qed.

Lemma later_match_head f r c : is_cdx f = true -> c = mkchk f true -> f <> [] ->
  Forall (regular utf8_ok name_ok MMatch) r ->
  check_all utf8_ok name_ok MMatch c r =
  if forallb (fun l => beq l f) r then Ok (map (fun _ => false) r) else Err.
Proof.
  intros Hf -> Hne HF. induction r as [|l r IH]; auto. inversion HF; subst.
  cbn [check_all]. rewrite check_regular by auto. cbn [ck_saw ck_head]. cbv zeta.
  destruct (is_cdx l) eqn:El.
  - destruct f as [|y f']; [congruence|]. cbn [forallb].
    destruct (beq l (y :: f')) eqn:Eb; cbn [rbind andb map]; auto.
    rewrite IH by auto. destruct (forallb _ r); reflexivity.
  - destruct f as [|y f']; [congruence|]. cbn [forallb rbind].
    destruct (beq l (y :: f')) eqn:Eb; auto. apply beq_eq in Eb; subst. congruence.
Qed.

Lemma later_match_none r c : c = mkchk [] true -> Forall (regular utf8_ok name_ok MMatch) r ->
  check_all utf8_ok name_ok MMatch c r = if existsb is_cdx r then Err else Ok (map (fun _ => true) r).
Proof.
  intros -> HF. induction r as [|l r IH]; auto. inversion HF; subst.
  cbn [check_all existsb]. rewrite check_regular by auto. cbn [ck_saw ck_head]. cbv zeta.
  destruct (is_cdx l); cbn [rbind orb]; auto. rewrite IH by auto. destruct (existsb is_cdx r); reflexivity.
Qed.

Lemma match_all r : Forall (regular utf8_ok name_ok MMatch) r ->
  check_all utf8_ok name_ok MMatch ck_new r = to_res (spec_match is_cdx r).
Proof.
  intros HF. destruct r as [|f r]; auto. inversion HF; subst. cbn [check_all spec_match].
  rewrite check_regular by auto. cbn [ck_saw ck_head ck_new]. cbv zeta.
  rewrite !andb_false_r. destruct (is_cdx f) eqn:E; cbn [rbind].
  - rewrite (later_match_head f); auto; [|apply H1]. destruct (forallb _ r); reflexivity.
  - rewrite later_match_none by auto. destruct (existsb is_cdx r); reflexivity.
Qed.

Lemma later_pointwise m g c r : (m = MStrip \/ m = MTrust \/ m = MIgnore) ->
  g = (match m with MIgnore => fun _ => true | _ => fun l => negb (is_cdx l) end) -> ck_saw c = true ->
  Forall (regular utf8_ok name_ok m) r -> check_all utf8_ok name_ok m c r = Ok (map g r).
Proof.
  intros Hm -> Hs HF. induction r as [|l r IH]; auto. inversion HF; subst.
  cbn [check_all]. rewrite check_regular by auto. rewrite Hs.
  destruct Hm as [->|[->| ->]]; cbn [rbind]; rewrite IH by auto; reflexivity.
Qed.

Lemma trust_all r : Forall (regular utf8_ok name_ok MTrust) r ->
  check_all utf8_ok name_ok MTrust ck_new r = to_res (spec_trust is_cdx r).
Proof.
  intros HF. destruct r as [|f r]; auto. inversion HF; subst. cbn [check_all spec_trust].
  rewrite check_regular by auto. cbn [ck_saw ck_head ck_new]. cbv zeta. rewrite !andb_false_r. cbn [rbind].
  rewrite (later_pointwise MTrust (fun l => negb (is_cdx l))); auto. destruct (is_cdx f); reflexivity.
Qed.

Lemma ignore_all r : Forall (fun l => l <> []) r ->
  check_all utf8_ok name_ok MIgnore ck_new r = to_res (spec_ignore r).
Proof.
  intros HF. unfold spec_ignore; cbn [to_res]. generalize ck_new. induction r as [|l r IH]; intros c; auto. inversion HF; subst.
  cbn [check_all]. unfold check. cbn [is_valid_cdx]. destruct l; [congruence|]. rewrite andb_false_r.
  destruct (ck_saw c); cbn [rbind andb negb]; rewrite IH by auto; reflexivity.
Qed.

Lemma require_all_partial r : Forall (regular utf8_ok name_ok MRequire) r ->
  check_all utf8_ok name_ok MRequire ck_new r =
  match r with
  | [] => Ok []
  | _ => if forallb is_cdx r then Ok (true :: map (fun _ => false) (tl r)) else Err
  end.
Proof.
  intros HF. destruct r as [|f r]; auto. inversion HF; subst. cbn [check_all tl forallb].
  rewrite check_regular by auto. cbn [ck_saw ck_head ck_new]. cbv zeta. rewrite !andb_false_r, !andb_true_r.
  destruct (is_cdx f); cbn [negb rbind andb]; auto.
  assert (forall r, Forall (regular utf8_ok name_ok MRequire) r ->
    check_all utf8_ok name_ok MRequire (mkchk f true) r = if forallb is_cdx r then Ok (map (fun _ => false) r) else Err) as HL.
  { clear. induction r as [|l r IH]; intros HF; auto. inversion HF; subst. cbn [check_all forallb].
    rewrite check_regular by auto. cbn [ck_saw]. cbv zeta. destruct (is_cdx l); cbn [rbind andb]; auto.
    rewrite IH by auto. destruct (forallb is_cdx r); reflexivity. }
  rewrite HL by auto. destruct (forallb is_cdx r); reflexivity.
Qed.

Lemma strip_all_partial f r : Forall (regular utf8_ok name_ok MStrip) (f :: r) ->
  check_all utf8_ok name_ok MStrip ck_new (f :: r) =
  if is_cdx f then Err else to_res (spec_strip is_cdx (f :: r)).
Proof.
  intros HF. inversion HF; subst. cbn [check_all]. rewrite check_regular by auto. cbn [ck_saw ck_head ck_new]. cbv zeta.
  unfold spec_strip. cbn [map].
  destruct (is_cdx f); cbn [andb negb rbind]; auto. rewrite (later_pointwise MStrip (fun l => negb (is_cdx l))); auto.
Qed.

Lemma none_all_partial f r : Forall (regular utf8_ok name_ok MNone) (f :: r) ->
  check_all utf8_ok name_ok MNone ck_new (f :: r) =
  rbind (to_res (spec_none is_cdx r)) (fun v => Ok (true :: v)).
Proof.
  intros HF. inversion HF; subst. cbn [check_all]. rewrite check_regular by auto. cbn [ck_saw ck_head ck_new]. cbv zeta.
  rewrite !andb_false_r. cbn [rbind].
  assert (forall c r, ck_saw c = true -> Forall (regular utf8_ok name_ok MNone) r ->
    check_all utf8_ok name_ok MNone c r = to_res (spec_none is_cdx r)) as HL.
  { clear. intros c r Hc. unfold spec_none. induction r as [|l r IH]; intros HF; auto. inversion HF; subst. cbn [check_all existsb].
    rewrite check_regular by auto. rewrite Hc. cbv zeta. destruct (is_cdx l); cbn [rbind orb]; auto.
    rewrite IH by auto. destruct (existsb is_cdx r); reflexivity. }
  rewrite HL; auto. destruct (is_cdx f); auto.
Qed.

(** At most one header passed on, for any lines at all. *)
Lemma later_no_header m c ls out : m <> MIgnore -> ck_saw c = true ->
  check_all utf8_ok name_ok m c ls = Ok out ->
  Forall2 (fun l b => b = true -> is_cdx l = false) ls out.
Proof.
  intros Hm. revert c out. induction ls as [|l ls IH]; intros c out Hs H; cbn [check_all] in H.
  - inversion H; constructor.
  - destruct (check utf8_ok name_ok m c l) as [r c'] eqn:E.
    destruct r as [b| |]; try discriminate. cbn [rbind] in H.
    destruct (check_all utf8_ok name_ok m c' ls) as [bs| |] eqn:E2; try discriminate. inversion H; subst.
    unfold check in E.
    assert (Hv : forall v, is_valid_cdx utf8_ok name_ok m l = Ok v -> v = is_cdx l).
    { unfold is_valid_cdx, is_cdx. intros v. destruct m; try congruence; destruct (starts_with l CDX); cbn [negb]; try congruence;
      destruct (_ <? 6); try congruence; destruct (bad_delim _); try congruence; destruct (utf8_ok _); cbn [negb]; try congruence;
      destruct (forallb _ _); congruence. }
    destruct (is_valid_cdx utf8_ok name_ok m l) as [cdx| |] eqn:Ev; try (inversion E; fail).
    specialize (Hv _ eq_refl). subst cdx.
    destruct l as [|x l]; [inversion E; subst; constructor; [discriminate|eapply IH; eauto]|].
    destruct (negb _ && _); [inversion E|]. rewrite Hs in E. inversion E; subst c'.
    constructor; [|eapply IH; eauto]. intros ->. destruct (is_cdx (x :: l)); auto. exfalso.
    destruct m; cbn [negb] in *; try congruence.
    destruct (ck_head c); [congruence|]. destruct (beq _ _); congruence.
Qed.
End P.

(** C07, match mode: exactly the documented policy. *)
Theorem c07_match : forall utf8_ok name_ok ls, Forall (regular utf8_ok name_ok MMatch) ls ->
  check_all utf8_ok name_ok MMatch ck_new ls = to_res (spec_match is_cdx ls).
Proof. exact match_all. Qed.

Definition ex_h := bs " CDX" ++ [TAB; 97; NL]%N.
Definition ex_h2 := bs " CDX" ++ [TAB; 98; NL]%N.
Definition ex_d := bs "1" ++ [TAB; 50; NL]%N.

Lemma ex_regular m l : In l [ex_h; ex_h2; ex_d] -> m <> MIgnore -> regular (fun _ => true) (fun _ => true) m l.
Proof.
  intros H Hm. cbn [In] in H. destruct H as [<-|[<-|[<-|[]]]]; (split; [discriminate|]; split; [|vm_compute; intros; congruence]);
    destruct m; try reflexivity; congruence.
Qed.

Example c07_match_ex :
  Forall (regular (fun _ => true) (fun _ => true) MMatch) [ex_h; ex_h; ex_h] /\
  check_all (fun _ => true) (fun _ => true) MMatch ck_new [ex_h; ex_h; ex_h] = Ok [true; false; false] /\
  check_all (fun _ => true) (fun _ => true) MMatch ck_new [ex_h; ex_h2] = Err /\
  check_all (fun _ => true) (fun _ => true) MMatch ck_new [ex_d; ex_d] = Ok [true; true].
Proof. split; [|repeat split]. repeat constructor; try discriminate. Qed.

(** C07, trust mode. *)
Theorem c07_trust : forall utf8_ok name_ok ls, Forall (regular utf8_ok name_ok MTrust) ls ->
  check_all utf8_ok name_ok MTrust ck_new ls = to_res (spec_trust is_cdx ls).
Proof. exact trust_all. Qed.

Example c07_trust_ex :
  Forall (regular (fun _ => true) (fun _ => true) MTrust) [ex_d; ex_h2; ex_d] /\
  check_all (fun _ => true) (fun _ => true) MTrust ck_new [ex_d; ex_h2; ex_d] = Ok [true; false; true].
Proof. split; [|reflexivity]. repeat constructor; try apply ex_regular; cbn; auto; discriminate. Qed.

(** C07, ignore mode: for any non-empty first lines. *)
Theorem c07_ignore : forall utf8_ok name_ok ls, Forall (fun l => l <> []) ls ->
  check_all utf8_ok name_ok MIgnore ck_new ls = to_res (spec_ignore ls).
Proof. exact ignore_all. Qed.

Example c07_ignore_ex :
  check_all (fun _ => false) (fun _ => false) MIgnore ck_new [ex_h; ex_d; bs " CDX"] = Ok [true; true; true].
Proof. reflexivity. Qed.

(** C07, require mode: every file must have a header, only the first is passed on. Missing: that
    later headers equal the first. *)
Theorem c07_require_partial : forall utf8_ok name_ok ls, Forall (regular utf8_ok name_ok MRequire) ls ->
  check_all utf8_ok name_ok MRequire ck_new ls =
  match ls with
  | [] => Ok []
  | _ => if forallb is_cdx ls then Ok (true :: map (fun _ => false) (tl ls)) else Err
  end.
Proof. exact require_all_partial. Qed.

Example c07_require_partial_ex :
  Forall (regular (fun _ => true) (fun _ => true) MRequire) [ex_h; ex_h] /\
  check_all (fun _ => true) (fun _ => true) MRequire ck_new [ex_h; ex_h] = Ok [true; false] /\
  check_all (fun _ => true) (fun _ => true) MRequire ck_new [ex_h; ex_d] = Err.
Proof. split; [|repeat split]. repeat constructor; try apply ex_regular; cbn; auto; discriminate. Qed.

(** C07, require mode is not as documented: a different header is accepted. *)
Theorem c07_require_refuted : exists ls, Forall (regular (fun _ => true) (fun _ => true) MRequire) ls /\
  check_all (fun _ => true) (fun _ => true) MRequire ck_new ls <> to_res (spec_require is_cdx ls).
Proof. exists [ex_h; ex_h2]. split; [|vm_compute; discriminate]. repeat constructor; try apply ex_regular; cbn; auto; discriminate. Qed.

(** C07, strip mode: as documented except that a header in the first file is rejected. *)
Theorem c07_strip_partial : forall utf8_ok name_ok f r, Forall (regular utf8_ok name_ok MStrip) (f :: r) ->
  check_all utf8_ok name_ok MStrip ck_new (f :: r) =
  if is_cdx f then Err else to_res (spec_strip is_cdx (f :: r)).
Proof. exact strip_all_partial. Qed.

Example c07_strip_partial_ex :
  Forall (regular (fun _ => true) (fun _ => true) MStrip) [ex_d; ex_h; ex_d] /\
  check_all (fun _ => true) (fun _ => true) MStrip ck_new [ex_d; ex_h; ex_d] = Ok [true; false; true].
Proof. split; [|repeat split]. repeat constructor; try apply ex_regular; cbn; auto; discriminate. Qed.

(** C07, strip mode is not as documented. *)
Theorem c07_strip_refuted : exists ls, Forall (regular (fun _ => true) (fun _ => true) MStrip) ls /\
  check_all (fun _ => true) (fun _ => true) MStrip ck_new ls <> to_res (spec_strip is_cdx ls).
Proof. exists [ex_h; ex_d]. split; [|vm_compute; discriminate]. repeat constructor; try apply ex_regular; cbn; auto; discriminate. Qed.

(** C07, none mode: headers are forbidden in every file but the first. *)
Theorem c07_none_partial : forall utf8_ok name_ok f r, Forall (regular utf8_ok name_ok MNone) (f :: r) ->
  check_all utf8_ok name_ok MNone ck_new (f :: r) =
  rbind (to_res (spec_none is_cdx r)) (fun v => Ok (true :: v)).
Proof. exact none_all_partial. Qed.

Example c07_none_partial_ex :
  Forall (regular (fun _ => true) (fun _ => true) MNone) [ex_d; ex_d] /\
  check_all (fun _ => true) (fun _ => true) MNone ck_new [ex_d; ex_d] = Ok [true; true] /\
  check_all (fun _ => true) (fun _ => true) MNone ck_new [ex_d; ex_h] = Err.
Proof. split; [|repeat split]. repeat constructor; try apply ex_regular; cbn; auto; discriminate. Qed.

(** C07, none mode is not as documented: a header in the first file is accepted and passed on. *)
Theorem c07_none_refuted : exists ls, Forall (regular (fun _ => true) (fun _ => true) MNone) ls /\
  check_all (fun _ => true) (fun _ => true) MNone ck_new ls <> to_res (spec_none is_cdx ls).
Proof. exists [ex_h; ex_d]. split; [|vm_compute; discriminate]. repeat constructor; try apply ex_regular; cbn; auto; discriminate. Qed.

(** C07. In every mode but ignore, an accepted run passes on no header after the first non-empty
    file, whatever the lines: at most one header reaches the output. *)
Theorem c07_at_most_one_header : forall utf8_ok name_ok m f c' b ls out,
  m <> MIgnore -> f <> [] ->
  check utf8_ok name_ok m ck_new f = (Ok b, c') ->
  check_all utf8_ok name_ok m c' ls = Ok out ->
  Forall2 (fun l b => b = true -> is_cdx l = false) ls out.
Proof.
  intros u n m f c' b ls out Hm Hf H1 H2. apply later_no_header with (utf8_ok := u) (name_ok := n) (m := m) (c := c'); auto.
  unfold check in H1. destruct (is_valid_cdx u n m f) as [cdx| |]; try discriminate. destruct f; [congruence|].
  destruct (negb _ && cdx); [discriminate|]. cbn [ck_new ck_saw ck_head] in H1.
  destruct (cdx && _); [discriminate|]. destruct (negb cdx && _); [discriminate|]. inversion H1; subst. destruct cdx; reflexivity.
Qed.

Example c07_at_most_one_header_ex :
  exists c', check (fun _ => true) (fun _ => true) MTrust ck_new ex_h = (Ok true, c') /\
  check_all (fun _ => true) (fun _ => true) MTrust c' [ex_h2; []; ex_d] = Ok [false; false; true].
Proof. eexists; split; reflexivity. Qed.

(** C07, check_file: the header of the first file, and only it, is announced for writing, in every mode but
    those that reject. *)
Theorem c07_check_file : forall utf8_ok name_ok m hs out,
  Forall (fun h => h <> Some []) hs ->
  check_files utf8_ok name_ok m ck_new hs = Ok out ->
  match hs, out with
  | [], [] => True
  | h :: hs', b :: out' => (b = true <-> exists l, h = Some l) /\ Forall (fun b => b = false) out' /\ length out' = length hs'
  | _, _ => False
  end.
Proof.
  intros u n m hs out HF H.
  assert (Hsaw : forall c l r c', l <> [] -> check u n m c l = (r, c') -> forall b, r = Ok b -> ck_saw c' = true).
  { intros c l r c' Hl Hc b ->. unfold check in Hc. destruct (is_valid_cdx u n m l) as [cdx| |]; try discriminate.
    destruct l; [congruence|]. destruct (negb _ && cdx); [discriminate|].
    destruct (ck_saw c) eqn:Es. { inversion Hc; subst; auto. }
    destruct (cdx && _); [discriminate|]. destruct (negb cdx && _); [discriminate|]. inversion Hc; subst. destruct cdx; reflexivity. }
  assert (HL : forall hs c out, Forall (fun h => h <> Some []) hs -> ck_saw c = true -> check_files u n m c hs = Ok out ->
     Forall (fun b => b = false) out /\ length out = length hs).
  { clear HF H. induction hs0 as [|h hs0 IH]; intros c out0 HF Hs H; cbn [check_files] in H.
    - inversion H; auto.
    - inversion HF; subst. unfold check_file in H. rewrite Hs in H. cbn [negb] in H.
      destruct (check u n m c match h with Some l => l | None => [102; 97; 107; 101]%N end) as [r c'] eqn:E.
      destruct r as [b| |]; try discriminate. cbn [rbind] in H.
      destruct (check_files u n m c' hs0) as [bs| |] eqn:E2; try discriminate. inversion H; subst.
      apply IH in E2; auto; [|eapply Hsaw; eauto; destruct h; congruence]. destruct E2 as [E2 E3].
      split; [constructor; auto; destruct h; auto|cbn; auto]. }
  destruct hs as [|h hs]; cbn [check_files] in H; [inversion H; auto|]. inversion HF; subst.
  unfold check_file in H. change (negb (ck_saw ck_new)) with true in H. cbv zeta in H.
  destruct (check _ _ _ _ _) as [r c'] eqn:E.
  destruct r as [b| |]; try discriminate. cbn [rbind] in H.
  destruct (check_files u n m c' hs) as [bs| |] eqn:E2; try discriminate. inversion H; subst.
  apply HL in E2; auto; [|eapply Hsaw; eauto; destruct h; congruence]. destruct E2 as [E2 E3].
  split; auto. destruct h; split; intros Hx; eauto; try discriminate. destruct Hx; discriminate.
Qed.

Example c07_check_file_ex :
  check_files (fun _ => true) (fun _ => true) MMatch ck_new [Some ex_h; Some ex_h] = Ok [true; false] /\
  check_files (fun _ => true) (fun _ => true) MIgnore ck_new [None; Some ex_h] = Ok [false; false].
Proof. split; reflexivity. Qed.
