(** Proofs for numbering with cat. *)
From Coq Require Import List NArith ZArith Bool Arith Lia.
Import ListNotations.
From Verif Require Import Base TextSpec TextModel StrSpec StrModel ReadSpec ReadModel ReadProofs HeadModel HdrModel HdrSpec HdrProofs ColModel ToolModel ToolOpen TurnSpec PasteSpec PickProofs NumbSpec NumbModel.
Close Scope Z_scope.
Open Scope nat_scope.

Definition side_of (n : numbering) : option bool := if nm_do n then Some (nm_end n) else None.
(** The writers when [z] is the next number. *)
Definition at_number (T : Type) (n : numbering) (z : Z) : list (colfun T) := writers T n (FCount z (nm_name n)).
Definition nl_ended (l : bytes) : Prop := exists x, l = x ++ [NL].

Section Loop.
Variable T : Type.
Variable apply_trans : T -> bytes -> res bytes.
Variables removes skips : bytes -> bool.
Variable md : ToolModel.tmode.
Hypothesis Hplain : tm_quote md = QPlain.
Variable ot : ColModel.tmode.
Variable n : numbering.

Lemma empty_literal : text_write ot [] = wput [] \/ nm_do n = false \/ ColModel.tm_quote ot <> QPlain.
Proof. destruct ot as [q d b r]. destruct q; [left; reflexivity| |]; right; right; discriminate. Qed.

Lemma write_number z x : writer_write apply_trans (at_number T n z) (x ++ [NL]) [] ot =
  ((cell (side_of n) (ColModel.tm_delim ot) (print_Z z) x ++ [NL], Ok tt), at_number T n (z + 1)).
Proof.
  unfold writer_write, at_number, writers, side_of. destruct (x ++ [NL]) eqn:E; [destruct x; discriminate|]. rewrite <- E.
  assert (W : fun_write apply_trans (@FWhole T) (x ++ [NL]) [] ot = (wput x, FWhole)).
  { unfold fun_write. rewrite E. rewrite <- E, removelast_last. reflexivity. }
  destruct (nm_do n), (nm_end n); cbn [andb negb app map]; rewrite W; cbn; rewrite <- ?app_assoc; cbn; rewrite ?app_nil_r; reflexivity.
Qed.
Lemma write_literal x : ColModel.tm_quote ot = QPlain ->
  fst (writer_write apply_trans (without_number T n) (x ++ [NL]) [] ot) = (cell (side_of n) (ColModel.tm_delim ot) [] x ++ [NL], Ok tt).
Proof.
  intros Hq. unfold writer_write, without_number, writers, side_of. destruct (x ++ [NL]) eqn:E; [destruct x; discriminate|]. rewrite <- E.
  assert (W : fun_write apply_trans (@FWhole T) (x ++ [NL]) [] ot = (wput x, FWhole)).
  { unfold fun_write. rewrite E. rewrite <- E, removelast_last. reflexivity. }
  assert (L : text_write ot [] = wput []). { unfold text_write. rewrite Hq. reflexivity. }
  destruct (nm_do n), (nm_end n); cbn [andb negb app map fst]; rewrite W; cbn [fun_write]; rewrite ?L; cbn; rewrite <- ?app_assoc; cbn; rewrite ?app_nil_r; reflexivity.
Qed.

Definition next_number (z : Z) (ls : list bytes) : Z :=
  (z + Z.of_nat (length (filter (fun l => negb (removes l) && negb (skips l)) ls)))%Z.
Notation bare := (map (@removelast N)).
Notation lined := (fun ls => concat (map (fun l => l ++ [NL]) ls)).

Lemma raw_line r l rest : at_raw md r l rest -> exists t, prev_line r 0 = Ok t /\ tl_text t = l /\ tl_line t = l.
Proof.
  intros (_ & _ & _ & hist & t & H1 & H2 & H3). exists t. split; [eapply ring_curr; eauto|]. inversion H3; subst. unfold tl_text. rewrite H4. auto.
Qed.

Lemma slow_ok : ColModel.tm_quote ot = QPlain -> forall rest fuel r l z, at_raw md r l rest -> length rest < fuel -> Forall nl_ended (l :: rest) ->
  slow_loop T apply_trans removes skips fuel md ot (at_number T n z) (without_number T n) r =
  (lined (numbered (side_of n) (ColModel.tm_delim ot) removes skips z (bare (l :: rest))), Ok (at_number T n (next_number z (bare (l :: rest))))).
Proof.
  intros Hq. induction rest as [|l' rest IH]; intros fuel r l z HA Hf HF; (destruct fuel as [|k]; [cbn in Hf; lia|]); cbn [slow_loop];
    inversion HF as [|? ? (x & ->) HF']; subst; destruct (raw_line _ _ _ HA) as (t & T1 & T2 & T3); rewrite T1; cbn [need];
    unfold curr_nl; rewrite T3, T2; (destruct (x ++ [NL]) eqn:E; [destruct x; discriminate|]); rewrite <- E in *; clear E; cbn [need];
    rewrite removelast_last, write_number, (write_literal x Hq).
  - destruct (raw_nil _ _ _ HA) as (r' & N1 & N2). cbn [map]. rewrite removelast_last. cbn [numbered]. unfold next_number. cbn [filter].
    destruct (removes x); [|destruct (skips x)]; cbn [negb andb need say wput]; rewrite N1; cbn [need]; rewrite N2; unfold say; cbn; rewrite ?app_nil_r, ?Z.add_0_r; reflexivity.
  - destruct (raw_cons _ _ _ _ _ Hplain HA) as (r' & N1 & N2 & _). assert (D : r_done r' = false) by apply N2.
    cbn [length] in Hf. assert (Hk : length rest < k) by lia.
    change (bare ((x ++ [NL]) :: l' :: rest)) with (removelast (x ++ [NL]) :: bare (l' :: rest)). rewrite removelast_last.
    cbn [numbered]. unfold next_number. cbn [filter].
    destruct (removes x); [|destruct (skips x)]; cbn [negb andb need say wput]; rewrite N1; cbn [need]; rewrite D.
    + rewrite (IH k r' l' z N2 Hk HF'). reflexivity.
    + rewrite (IH k r' l' z N2 Hk HF'). reflexivity.
    + rewrite (IH k r' l' (z + 1)%Z N2 Hk HF'). unfold next_number. cbn [length map concat say fst snd]. rewrite Nat2Z.inj_succ.
      unfold say. cbn [fst snd]. f_equal. f_equal. f_equal. lia.
Qed.
End Loop.

Lemma numbered_app side dl rm sk : forall ls ms z, numbered side dl rm sk z (ls ++ ms) =
  numbered side dl rm sk z ls ++ numbered side dl rm sk (next_number rm sk z ls) ms.
Proof.
  induction ls as [|l ls IH]; intros ms z; unfold next_number; cbn [app numbered filter length].
  - rewrite Z.add_0_r. reflexivity.
  - destruct (rm l); [|destruct (sk l)]; cbn [negb andb]; rewrite IH; try reflexivity.
    unfold next_number. cbn [length app]. do 3 f_equal. lia.
Qed.
Lemma next_app rm sk z ls ms : next_number rm sk z (ls ++ ms) = next_number rm sk (next_number rm sk z ls) ms.
Proof. unfold next_number. rewrite filter_app, app_length. lia. Qed.

Section Files.
Variables utf8_ok name_ok : bytes -> bool.
Variables uni_alpha uni_alnum : N -> bool.
Variable T : Type.
Variable match_make : bytes -> res (bytes -> bool).
Variable apply_trans : T -> bytes -> res bytes.
Variables removes skips : bytes -> bool.
Variable md : ToolModel.tmode.
Hypothesis Hplain : tm_quote md = QPlain.
Variable ot : ColModel.tmode.
Hypothesis Hq : ColModel.tm_quote ot = QPlain.
Variable n : numbering.
Variable m : hmode.
Notation d := (ColModel.tm_delim ot).
Notation bare := (map (@removelast N)).
Notation lined := (fun ls => concat (map (fun l => l ++ [NL]) ls)).
Notation named := (names_with (side_of n) (nm_name n)).

Definition numb_ready (t : tfile) (f : shown) : Prop :=
  tf_empty t = false /\ tf_head t = (match sh_head f with [] => None | h => Some h end) /\ tf_names t = sh_names f /\
  match sh_lines f with [] => False | l :: rest => at_line md (tf_rd t) [proc md l] rest end.
(** Names that can stand in a header. *)
Definition proper (names : list bytes) : Prop :=
  Forall (well_named (alphabetic uni_alpha) (alphanumeric uni_alnum)) names /\ NoDup names.

Lemma names_at z names : writer_names (at_number T n z) names = Ok (named names).
Proof. unfold at_number, writers, side_of, names_with. destruct (nm_do n), (nm_end n); cbn; rewrite ?app_nil_r; reflexivity. Qed.
Lemma lookup_at z names : writer_lookup match_make (at_number T n z) names = Ok (at_number T n z).
Proof. unfold at_number, writers. destruct (nm_do n), (nm_end n); reflexivity. Qed.
Lemma push_proper names : proper names -> push_all uni_alpha uni_alnum hdr_new names = (mkhdr names DFail [] false, true).
Proof. intros (H1 & H2). rewrite push_all_fresh; auto. Qed.

(** How the checker treats the headers of the files, one after the other. *)
Definition new_head (f : shown) : bytes :=
  match sh_head f with [] => [] | _ => CDX ++ d :: join d (named (sh_names f)) ++ [NL] end.
Fixpoint written (z : Z) (bs : list bool) (fs : list shown) : bytes :=
  match bs, fs with
  | b :: bs, f :: fs => (if b then new_head f else []) ++ lined (numbered (side_of n) d removes skips z (bare (sh_lines f))) ++ written (next_number removes skips z (bare (sh_lines f))) bs fs
  | _, _ => []
  end.
Lemma new_head_get f z hd0 : sh_head f <> [] -> named (sh_names f) <> [] ->
  get_head true d (h_cols (mkhdr (named (sh_names f)) DFail hd0 z)) = Ok (new_head f).
Proof.
  intros H1 H2. unfold get_head, new_head. cbn [h_cols]. destruct (named (sh_names f)) eqn:E; [congruence|]. rewrite <- E.
  destruct (sh_head f); [congruence|]. rewrite add_head_join. rewrite <- app_assoc. reflexivity.
Qed.
Lemma slow_files : forall ts fs ck z bs, Forall2 numb_ready ts fs -> Forall (fun f => proper (named (sh_names f))) fs ->
  Forall (fun f => Forall nl_ended (sh_lines f)) fs -> Forall (fun f => named (sh_names f) <> []) fs ->
  check_all utf8_ok name_ok m ck (map new_head fs) = Ok bs ->
  cat_slow utf8_ok uni_alpha uni_alnum name_ok T match_make apply_trans removes skips md ot true m (at_number T n z) (without_number T n) ck ts =
  (written z bs fs, Ok tt).
Proof.
  intros ts fs ck z bs H. revert ck z bs. induction H as [|t f ts fs (R1 & R2 & R3 & R4) H IH]; intros ck z bs HP HL HN HC.
  - cbn in HC. inversion HC; subst. reflexivity.
  - cbn [map check_all] in HC. inversion HP as [|? ? P1 P2]; subst. inversion HL as [|? ? L1 L2]; subst. inversion HN as [|? ? N1 N2]; subst.
    cbn [cat_slow]. rewrite R1, R3, lookup_at. cbn [need]. rewrite names_at. cbn [need]. rewrite (push_proper _ P1). cbn [negb].
    assert (EH : match tf_head t with Some _ => get_head true d (h_cols (mkhdr (named (sh_names f)) DFail [] false)) | None => Ok [] end = Ok (new_head f)).
    { rewrite R2. destruct (sh_head f) eqn:E; [unfold new_head; rewrite E; reflexivity|]. apply new_head_get; [rewrite E; discriminate|exact N1]. }
    rewrite EH. cbn [need]. destruct (check utf8_ok name_ok m ck (new_head f)) as [v ck'] eqn:EC. destruct v as [b| |]; cbn [rbind] in HC; try discriminate.
    destruct (check_all utf8_ok name_ok m ck' (map new_head fs)) as [bs'| |] eqn:EA; cbn [rbind] in HC; try discriminate. inversion HC; subst bs. cbn [need].
    destruct (sh_lines f) as [|l rest] eqn:EL; [contradiction|]. assert (D : r_done (tf_rd t) = false) by apply R4. rewrite D.
    rewrite (slow_ok T apply_trans removes skips md Hplain ot n Hq rest _ _ l z (at_line_raw _ _ _ _ _ Hplain R4)).
    + cbn [written]. rewrite EL. unfold say. cbn [fst snd need]. rewrite (IH ck' _ bs' P2 L2 N2 EA). reflexivity.
    + assert (S (length rest) < turns (tf_rd t)); [|lia]. eapply at_line_turns; [|exact R4]. intros E. congruence.
    + exact L1.
Qed.

(** All files alike: the header once, and the lines of all files numbered through. *)
Lemma written_none z bs fs : length bs = length fs -> (forall f, In f fs -> new_head f = []) ->
  written z bs fs = lined (numbered (side_of n) d removes skips z (bare (concat (map sh_lines fs)))).
Proof.
  revert z bs. induction fs as [|f fs IH]; intros z bs HL HN; destruct bs as [|b bs]; try discriminate; [reflexivity|].
  cbn [written map concat]. rewrite map_app, numbered_app, map_app, concat_app. rewrite IH; [|cbn in HL; lia|intros; apply HN; right; auto].
  rewrite (HN f) by (left; auto). destruct b; reflexivity.
Qed.
Lemma written_later z fs : written z (map (fun _ => false) fs) fs = lined (numbered (side_of n) d removes skips z (bare (concat (map sh_lines fs)))).
Proof.
  revert z. induction fs as [|f fs IH]; intros z; [reflexivity|]. cbn [written map concat]. rewrite map_app, numbered_app, map_app, concat_app. rewrite IH. reflexivity.
Qed.
Lemma check_none : forall fs ck, (forall f, In f fs -> new_head f = []) -> check_all utf8_ok name_ok m ck (map new_head fs) = Ok (map (fun _ => false) fs).
Proof.
  induction fs as [|f fs IH]; intros ck H; [reflexivity|]. cbn [map check_all]. rewrite (H f) by (left; auto). unfold check.
  replace (is_valid_cdx utf8_ok name_ok m []) with (@Ok bool false) by (destruct m; reflexivity).
  rewrite IH by (intros; apply H; right; auto). reflexivity.
Qed.
End Files.

Lemma head_valid u no d names : names <> [] -> bad_delim d = false -> Forall (fun x => ~ In d x /\ no x = true /\ x <> []) names -> u (join d names) = true ->
  is_valid_cdx u no MMatch (CDX ++ d :: join d names ++ [NL]) = Ok true.
Proof.
  intros HN HB HF HU. unfold is_valid_cdx.
  replace (starts_with (CDX ++ d :: join d names ++ [NL]) CDX) with true by (unfold starts_with; reflexivity). cbn [negb].
  replace (CDX ++ d :: join d names ++ [NL]) with ((CDX ++ d :: join d names) ++ [NL]) by (rewrite <- app_assoc; reflexivity).
  rewrite last_last, N.eqb_refl, removelast_last. 
  assert (HJ : join d names <> []).
  { inversion HF as [|x r (F1 & F2 & F3) F4]; subst; [congruence|]. destruct r; cbn; [exact F3|]. destruct x; [congruence|discriminate]. }
  destruct (Nat.ltb_spec (length (CDX ++ d :: join d names)) 6) as [A|A].
  { cbn in A. destruct (join d names); [congruence|cbn in A; lia]. }
  change (nth 4 (CDX ++ d :: join d names) 0%N) with d. rewrite HB. change (skipn 5 (CDX ++ d :: join d names)) with (join d names). rewrite HU. cbn [negb].
  rewrite split_on_join; [|exact HN|eapply Forall_impl; [|exact HF]; cbv beta; tauto].
  replace (forallb no names) with true; [reflexivity|]. symmetry. apply forallb_forall. rewrite Forall_forall in HF. intros x Hx. apply HF, Hx.
Qed.
Lemma check_same u no h k : is_valid_cdx u no MMatch h = Ok true -> last h 0%N = NL ->
  check_all u no MMatch ck_new (repeat h (S k)) = Ok (true :: repeat false k).
Proof.
  intros H1 H2. assert (HN : h <> []) by (intros ->; discriminate).
  assert (G : forall k, check_all u no MMatch (mkchk h true) (repeat h k) = Ok (repeat false k)).
  { clear k. induction k as [|k IH]; [reflexivity|]. cbn [repeat check_all]. unfold check. rewrite H1. destruct h as [|c h]; [congruence|]. rewrite H2.
    cbn [N.eqb NL Pos.eqb negb andb ck_saw ck_head]. rewrite beq_refl. cbn [rbind]. rewrite IH. reflexivity. }
  cbn [repeat check_all]. unfold check at 1. rewrite H1. destruct h as [|c h]; [congruence|]. rewrite H2. cbn [N.eqb NL Pos.eqb negb andb ck_saw ck_new]. rewrite G. reflexivity.
Qed.
