(** C83: lines numbered with cat, and the numbers taken away again with cut. *)
From Coq Require Import String List NArith ZArith Bool Arith Lia SpecFloat.
Open Scope list_scope.
Import ListNotations.
From Verif Require Import Base TextSpec TextModel TextProofs StrSpec StrModel StrProofs FloatModel ReadSpec ReadModel ReadProofs HeadModel HdrModel HdrSpec HdrProofs TurnSpec PasteSpec
  ColSpec ColModel ColWriteProofs ToolModel ToolOpen PasteProofs SortSpec OrderSpec UniqMainSpec CutMain NumbSpec NumbModel NumbProofs CutPasteProps.
From Verif Require AggMerge NumbProps OrderProps JoinMain JoinMainProps CutMainProps JoinProps ColProps CompProps ExprProps.
Close Scope Z_scope. Open Scope nat_scope.

Notation kept removes := (filter (fun l => negb (removes (removelast l)))).

Lemma numbered_cells e rm sk : forall ls z, exists xs, numbered (Some e) TAB rm sk z ls = map (fun p => cell (Some e) TAB (fst p) (snd p)) xs /\
  map snd xs = filter (fun l => negb (rm l)) ls /\ Forall (fun p => ~ In TAB (fst p) /\ ~ In NL (fst p)) xs.
Proof.
  induction ls as [|l ls IH]; intros z; [exists []; repeat split; constructor|]. cbn [numbered filter]. destruct (rm l); cbn [negb]; [apply IH|]. destruct (sk l).
  - destruct (IH z) as (xs & E1 & E2 & E3). exists (([], l) :: xs). cbn [map fst snd]. rewrite E1, E2. repeat split. constructor; [cbn; tauto|exact E3].
  - destruct (IH (z + 1)%Z) as (xs & E1 & E2 & E3). exists ((print_Z z, l) :: xs). cbn [map fst snd]. rewrite E1, E2. repeat split. constructor; [|exact E3].
    cbn [fst]. split; apply print_Z_no; try discriminate; intros [H1 H2]; unfold TAB, NL in *; lia.
Qed.
Lemma filter_bare rm ls : filter (fun l => negb (rm l)) (map (@removelast N) ls) = map (@removelast N) (kept rm ls).
Proof. induction ls as [|l ls IH]; [reflexivity|]. cbn [map filter]. destruct (rm (removelast l)); cbn [negb map]; rewrite IH; reflexivity. Qed.

(** The range of columns that leaves the number out. *)
Definition without_range (last_column : bool) (width : nat) : bytes := if last_column then bs "1-" ++ print_N (N.of_nat width) else bs "2-".
Theorem c83_number : forall utf8_ok name_ok uni_alpha uni_alnum T (trans_make : bytes -> res T) trans_run match_make frem fpow libm exp10 print_num V mm tr removes skips ot names n ss lss,
  let all := names_with (side_of n) (nm_name n) names in
  names_fit utf8_ok name_ok names -> utf8_ok (OrderSpec.headline names) = true -> names_fit utf8_ok name_ok all -> utf8_ok (OrderSpec.headline all) = true ->
  Forall (well_named (alphabetic uni_alpha) (alphanumeric uni_alnum)) all -> NoDup all -> (N.of_nat (List.length all) < 2 ^ 64)%N ->
  Forall2 (fun s ls => wf_src s /\ content s = OrderSpec.headline names ++ concat ls /\ 4 <= List.length (fst (fill_buf s)) /\ ls <> [] /\
    Forall whole_line ls /\ Forall (fun l => List.length (parted TAB l) = List.length names) ls) ss lss -> ss <> [] ->
  nm_do n = true -> ColModel.tm_quote ot = QPlain -> ColModel.tm_delim ot = TAB -> ColModel.tm_break ot = NL ->
  exists out, NumbProps.number_of utf8_ok name_ok uni_alpha uni_alnum V mm tr removes skips JoinMain.join_mode ot MMatch n ss = (out, Ok tt) /\
    forall s, wf_src s -> content s = out -> 4 <= List.length (fst (fill_buf s)) ->
      cut_main utf8_ok name_ok uni_alpha uni_alnum T trans_make trans_run match_make frem fpow libm exp10 print_num JoinMain.join_mode true ot MMatch
        [(bs "fields", without_range (nm_end n) (List.length names))] [s] = (OrderSpec.headline names ++ concat (kept removes (concat lss)), Ok tt).
Proof.
  intros u no ua un T tm tr mm fr fp lm e10 pn V vm vr rm sk ot names n ss lss all NF HU NA HA WA ND BN HS NE DO Q D B.
  set (fs := map (fun ls => mkshown (OrderSpec.headline names) names ls) lss).
  assert (SH : Forall2 (NumbProps.shows_data u JoinMain.join_mode) ss fs).
  { unfold fs. clear - HS NF HU. induction HS as [|s ls ss lss (W & C & F & N & L & _) HS IH]; [constructor|]. cbn [map]. constructor; [|exact IH].
    pose proof (JoinMainProps.c76_headed u no names s ls NF HU W C L F) as (S1 & S2). destruct S2 as [(S2 & S3)|(hd & s1 & _ & S2 & _)].
    - split; [exact W|]. split; [exact S2|]. split; [exact S3|exact N].
    - discriminate S2. }
  destruct (numbered_cells (nm_end n) rm sk (map (@removelast N) (concat lss)) (nm_start n)) as (xs & X1 & X2 & X3). rewrite filter_bare in X2.
  set (rows := map (fun p => cell (Some (nm_end n)) TAB (fst p) (snd p) ++ [NL]) xs).
  assert (WL : Forall whole_line (concat lss) /\ Forall (fun l => List.length (parted TAB l) = List.length names) (concat lss)).
  { clear - HS. induction HS as [|s ls ss lss (_ & _ & _ & _ & L & M) HS (IH1 & IH2)]; [split; constructor|]. cbn [concat]. split; apply Forall_app; auto. }
  assert (XK : Forall2 (fun p l => whole_line l /\ snd p = removelast l /\ List.length (parted TAB l) = List.length names) xs (kept rm (concat lss))).
  { assert (K : Forall (fun l => whole_line l /\ List.length (parted TAB l) = List.length names) (kept rm (concat lss))).
    { destruct WL as [W1 W2]. rewrite Forall_forall in *. intros l I. apply filter_In in I as [I _]. auto. }
    clear - X2 K. revert X2 K. generalize (kept rm (concat lss)). induction xs as [|p xs IH]; intros [|l ls] E K; try discriminate; [constructor|]. cbn [map] in E. injection E as E1 E2.
    apply Forall_cons_iff in K as [[K1 K2] K3]. constructor; auto. }
  assert (SA : side_of n = Some (nm_end n)) by (unfold side_of; rewrite DO; reflexivity).
  assert (LA : List.length all = S (List.length names)) by (unfold all; rewrite SA; destruct (nm_end n); cbn [names_with]; [rewrite app_length; cbn; lia|reflexivity]).
  assert (PF : forall p l, whole_line l -> snd p = removelast l -> ~ In TAB (fst p) ->
    parted TAB (cell (Some (nm_end n)) TAB (fst p) (snd p) ++ [NL]) = if nm_end n then parted TAB l ++ [fst p] else fst p :: parted TAB l).
  { intros p l (b & -> & _) E F. unfold parted. rewrite !removelast_last in *. rewrite E. destruct (nm_end n); cbn [cell].
    - rewrite AggMerge.split_on_app_d, (JoinProps.split_on_one _ _ F). reflexivity.
    - apply JoinProps.split_on_sep. exact F. }
  assert (WR : Forall whole_line rows /\ Forall (fun l => List.length (parted TAB l) = List.length all) rows).
  { unfold rows. clear - XK X3 PF LA. induction XK as [|p l xs ls (K1 & K2 & K3) XK IH]; [split; constructor|]. apply Forall_cons_iff in X3 as [[F1 F2] X3]. destruct (IH X3) as [I1 I2]. cbn [map]. split; constructor; auto.
    - eexists. split; [reflexivity|]. destruct K1 as (b & -> & K1). rewrite removelast_last in K2. rewrite K2. destruct (nm_end n); cbn [cell]; intros I; apply in_app_or in I as [I|[I|I]]; auto; discriminate.
    - rewrite (PF p l K1 K2 F1), LA. destruct (nm_end n); [rewrite app_length; cbn; lia|cbn; lia]. }
  destruct WR as [WR1 WR2].
  exists (OrderSpec.headline all ++ concat rows). split.
  - rewrite (NumbProps.c67_headed_partial u no ua un V vm vr rm sk JoinMain.join_mode ot n ss fs names); auto.
    + rewrite D. unfold NumbProps.all_numbered. rewrite SA. unfold fs. rewrite map_map. cbn [sh_lines]. rewrite map_id, X1. rewrite map_map. replace (names_with (Some (nm_end n)) (nm_name n) names) with all by (unfold all; rewrite SA; reflexivity). unfold OrderSpec.headline, rows.
      rewrite <- !app_assoc. cbn [app]. rewrite <- !app_assoc. reflexivity.
    + rewrite D. reflexivity.
    + unfold fs. apply Forall_forall. intros f I. apply in_map_iff in I as (l & <- & _). split; [discriminate|reflexivity].
    + unfold fs. inversion HS; subst; [congruence|discriminate].
    + destruct NF as (X & _). exact X.
    + split; assumption.
    + rewrite D. destruct NA as (_ & _ & NA). eapply Forall_impl; [|exact NA]. cbn. tauto.
    + rewrite D. destruct NA as (_ & X & _). exact X.
  - intros s W C F. destruct NF as (NN & NU & NF). assert (L0 : 0 < List.length names) by (destruct names; [congruence|cbn; lia]).
    assert (CU : forall i, i = (if nm_end n then 0 else 1) -> cut_list i (List.length names) all = names).
    { intros i ->. unfold all, cut_list. rewrite SA. destruct (nm_end n); cbn [names_with skipn]; [rewrite firstn_app, Nat.sub_diag, firstn_all; apply app_nil_r|apply firstn_all]. }
    assert (CR : forall i, i = (if nm_end n then 0 else 1) -> map (fun l => join TAB (cut_list i (List.length names) (parted TAB l)) ++ [NL]) rows = kept rm (concat lss)).
    { intros i ->. unfold rows. rewrite map_map. clear - XK X3 PF. induction XK as [|p l xs ls (K1 & K2 & K3) XK IH]; [reflexivity|]. apply Forall_cons_iff in X3 as [[F1 F2] X3]. cbn [map]. rewrite IH by assumption. f_equal.
      rewrite (PF p l K1 K2 F1). unfold cut_list. rewrite <- K3.
      replace (firstn (List.length (parted TAB l)) (skipn (if nm_end n then 0 else 1) (if nm_end n then parted TAB l ++ [fst p] else fst p :: parted TAB l))) with (parted TAB l).
      - unfold parted. rewrite join_split. destruct K1 as (b & -> & _). rewrite removelast_last. reflexivity.
      - destruct (nm_end n); cbn [skipn]; [rewrite firstn_app, Nat.sub_diag, firstn_all; symmetry; apply app_nil_r|symmetry; apply firstn_all]. }
    unfold without_range. destruct (nm_end n) eqn:EN.
    + pose proof (c78_range u no ua un T tm tr mm fr fp lm e10 pn ot all rows s (Some (PNum 1)) (Some (PNum (N.of_nat (List.length names)))) 0 (List.length names - 1)) as R.
      replace (List.length names - 1 - 0 + 1) with (List.length names) in R by lia. rewrite CU, CR in R by reflexivity. apply R; auto; try lia.
      * cbn. lia.
      * cbn [end_ok place_ok]. change (2 ^ 64)%N with 18446744073709551616%N in *. lia.
      * cbn [first_at place_at]. split; [lia|f_equal; lia].
      * cbn [last_at place_at]. split; [lia|f_equal; lia].
    + pose proof (c78_range u no ua un T tm tr mm fr fp lm e10 pn ot all rows s (Some (PNum 2)) None 1 (List.length names)) as R.
      replace (List.length names - 1 + 1) with (List.length names) in R by lia. rewrite CU, CR in R by reflexivity. apply R; auto; try lia.
      * cbn. lia.
      * exact I.
      * cbn [first_at place_at]. split; [lia|f_equal; lia].
      * cbn [last_at]. lia.
Qed.

(** * Example: two files, numbered from 7 on in a last column, one line removed and one not numbered. *)
Definition nc_num : numbering := mknum true 7 (bs "nr") true.
Definition nc_names : list bytes := [bs "id"; bs "qty"].
Definition nc_line (a b : string) : bytes := bs a ++ TAB :: bs b ++ [NL].
Definition nc_lines : list (list bytes) := [[nc_line "a" "1"; nc_line "#b" "2"; nc_line "c" ""]; [nc_line "-" "4"; nc_line "e" "5"]].
Definition nc_srcs : list src := [mksrc [] [OrderSpec.headline nc_names ++ concat (nth 0 nc_lines [])]; mksrc [] [OrderSpec.headline nc_names; concat (nth 1 nc_lines [])]].
Definition starts_by (c : N) (l : bytes) : bool := match l with x :: _ => (x =? c)%N | [] => false end.
Definition nc_out := NumbProps.number_of OrderProps.yes OrderProps.yes ColProps.no_uni ColProps.no_uni nat ColProps.ex_match (fun _ x => Ok x) (starts_by 35) (starts_by 45) JoinMain.join_mode out_tab MMatch nc_num nc_srcs.
Example c83_number_ex :
  nc_out = (OrderSpec.headline [bs "id"; bs "qty"; bs "nr"] ++ bs "a" ++ [TAB] ++ bs "1" ++ [TAB] ++ bs "7" ++ [NL] ++ bs "c" ++ [TAB; TAB] ++ bs "8" ++ [NL] ++
    bs "-" ++ [TAB] ++ bs "4" ++ [TAB; NL] ++ bs "e" ++ [TAB] ++ bs "5" ++ [TAB] ++ bs "9" ++ [NL], Ok tt) /\
  without_range true (List.length nc_names) = bs "1-2" /\
  cut_main OrderProps.yes OrderProps.yes ColProps.no_uni ColProps.no_uni bytes ColProps.ex_trans (fun _ x => Ok x) ColProps.ex_match ExprProps.ex_rem fmul ExprProps.ex_libm CompProps.ex10 CutMainProps.whole_num JoinMain.join_mode true
    out_tab MMatch [(bs "fields", bs "1-2")] [mksrc [] [fst nc_out]] = (OrderSpec.headline nc_names ++ concat [nc_line "a" "1"; nc_line "c" ""; nc_line "-" "4"; nc_line "e" "5"], Ok tt).
Proof. split; [|split]; vm_compute; reflexivity. Qed.
(** The hypotheses hold of these files. *)
Example c83_number_met : names_fit OrderProps.yes OrderProps.yes nc_names /\ names_fit OrderProps.yes OrderProps.yes (nc_names ++ [bs "nr"]) /\
  Forall (well_named (alphabetic ColProps.no_uni) (alphanumeric ColProps.no_uni)) (nc_names ++ [bs "nr"]) /\ NoDup (nc_names ++ [bs "nr"]) /\
  Forall2 (fun s ls => wf_src s /\ content s = OrderSpec.headline nc_names ++ concat ls /\ 4 <= List.length (fst (fill_buf s)) /\ ls <> [] /\
    Forall whole_line ls /\ Forall (fun l => List.length (parted TAB l) = List.length nc_names) ls) nc_srcs nc_lines.
Proof.
  assert (W : forall cap ls, forallb _ ls = true -> Forall whole_line ls) by (intros cap ls H; pose proof (OrderProps.fit_dec cap ls H) as F; eapply Forall_impl; [|exact F]; cbn; tauto).
  split; [repeat split; try discriminate; repeat constructor; try discriminate; vm_compute; intuition discriminate|].
  split; [repeat split; try discriminate; repeat constructor; try discriminate; vm_compute; intuition discriminate|].
  split; [repeat constructor; cbn; try lia; try discriminate|]. split; [repeat constructor; vm_compute; intuition discriminate|].
  constructor; [|constructor; [|constructor]]; (split; [unfold wf_src; cbn; repeat constructor; discriminate|]; split; [reflexivity|]; split; [cbn; lia|]; split; [discriminate|]; split; [apply (W 50); reflexivity|repeat constructor]).
Qed.
