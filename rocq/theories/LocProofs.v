(** Proofs for cgrep with places. *)
From Coq Require Import List NArith ZArith Bool Arith Lia.
Import ListNotations.
From Verif Require Import Base TextSpec TextModel StrSpec StrModel StrProofs ReadSpec ReadModel ReadProofs HeadModel HdrModel HdrSpec HdrProofs ColModel ToolModel ToolOpen TurnSpec PasteSpec PasteProofs PickProofs NumbProofs LocSpec LocModel.
Close Scope Z_scope.
Open Scope nat_scope.

Definition place_of (x : floc) : place := match lo_item x with LBytes => Offset | LLine => Number | LName n => File n end.

Lemma tail_path_file name n : last name 0%N <> 47%N -> tail_path_u8 name n 47 = join 47 (lastn n (split_on 47 name)).
Proof.
  intros H. unfold tail_path_u8. destruct name as [|c name]; [destruct n; reflexivity|].
  destruct (N.eqb_spec (last (c :: name) 0%N) 47); [contradiction|]. apply tail_u8_spec.
Qed.
Lemma locs_told name before r v : last name 0%N <> 47%N -> r_bytes r = length before ->
  locs_write TAB name r v = concat (map (fun p => told name before (r_lineno r) p ++ [TAB]) (map place_of v)).
Proof.
  intros Hn Hb. unfold locs_write. rewrite flat_map_concat_map, map_map. f_equal. apply map_ext. intros [c i]. unfold place_of. cbn [lo_item].
  f_equal. destruct i as [| |n]; cbn [item_write told]; [rewrite Hb; reflexivity|reflexivity|].
  destruct (N.eqb_spec n 0); [reflexivity|]. apply tail_path_file, Hn.
Qed.
Lemma next_bytes md r l hist l' rest : at_line md r (l :: hist) (l' :: rest) ->
  exists r', next_line md r = Ok r' /\ at_line md r' (proc md l' :: l :: hist) rest /\ r_lineno r' = S (r_lineno r) /\ r_bytes r' = r_bytes r + length (tl_line l).
Proof.
  intros (Hr & Hp & Hs & Hd & HR). pose proof (rest_cases _ _ _ HR) as (t & Ht & f & Hf).
  pose proof (getline_ring 1 (tm_quote md) (tm_delim md) (tm_break md) r (l :: hist) (proj1 HR) Hr Hp Hs) as G. rewrite Ht in G.
  destruct G as (r' & G1 & G2 & G3 & G4 & G5 & G6 & G7 & G8). exists r'. unfold next_line. rewrite G1. split; auto. split; [|split; [lia|exact G7]].
  unfold at_line. rewrite G5. repeat split; auto; try apply G2. apply plain_hist_cons; auto. exists f. rewrite G4. exact Hf.
Qed.

Section Grep.
Variables utf8_ok name_ok : bytes -> bool.
Variables uni_alpha uni_alnum : N -> bool.
Variable resolve : list bytes -> res (textline -> res bool).
Variable md : ToolModel.tmode.
Hypothesis Hplain : ToolModel.tm_quote md = QPlain.
Variable locs : list floc.
Variable rv : bool.
Notation ps := (map place_of locs).

Lemma proc_line l : tl_line (proc md l) = l.
Proof. unfold proc. rewrite Hplain. reflexivity. Qed.

Lemma find_ok name ok test : last name 0%N <> 47%N -> forall rest fuel r l hist before, at_line md r (proc md l :: hist) rest -> length rest < fuel ->
  r_bytes r = length before -> (forall x, In x (l :: rest) -> ok (proc md x) = Ok (test x)) ->
  find_loop fuel md locs rv name ok r = (found ps name (fun x => xorb (test x) rv) before (r_lineno r) (l :: rest), Ok tt).
Proof.
  intros Hn. induction rest as [|l' rest IH]; intros fuel r l hist before HA Hf HB HT; (destruct fuel as [|k]; [cbn in Hf; lia|]); cbn [find_loop].
  - rewrite (ring_curr _ _ _ (proj1 HA)). cbn [need]. rewrite HT by (left; auto). cbn [need]. destruct (next_nil _ _ _ HA) as (r' & N1 & N2 & _). rewrite N1. cbn [need]. rewrite N2.
    rewrite proc_line, (locs_told name before r locs Hn HB). unfold say. cbn [fst snd found]. reflexivity.
  - rewrite (ring_curr _ _ _ (proj1 HA)). cbn [need]. rewrite HT by (left; auto). cbn [need]. destruct (next_bytes _ _ _ _ _ _ HA) as (r' & N1 & N2 & N3 & N4). rewrite N1. cbn [need].
    assert (D : r_done r' = false) by apply N2. rewrite D. rewrite proc_line in *. rewrite (locs_told name before r locs Hn HB).
    rewrite (IH k r' l' (proc md l :: hist) (before ++ l) N2); [|cbn in Hf; lia|rewrite N4, HB, app_length; reflexivity|intros x Hx; apply HT; right; exact Hx].
    rewrite N3. reflexivity.
Qed.

(** A source and what it shows; [None] for an empty one. *)
Definition file_shows (s : src) (o : option shown) : Prop :=
  wf_src s /\ match o with
              | None => content s = []
              | Some f => file_lines utf8_ok md s (sh_head f) (sh_lines f) /\ sh_names f = shown_names md (sh_head f) (sh_lines f)
              end.
Definition same_file (a : bytes * src) (b : bytes * option shown) : Prop := fst a = fst b /\ last (fst a) 0%N <> 47%N /\ file_shows (snd a) (snd b).

Lemma open_nothing s : wf_src s -> content s = [] -> exists f, open_file utf8_ok md s = Ok f /\ tf_empty f = true.
Proof.
  intros Hw Hc. unfold open_file, read_header. destruct (fill_buf s) as [b s1] eqn:E. rewrite (proj2 (fill_buf_empty _ _ _ Hw E) Hc).
  cbn [rbind]. eexists. split; reflexivity.
Qed.

Notation d := (ToolModel.tm_delim).
Variable od : N.
Variable m : hmode.
Definition head_of (f : shown) : bytes := match sh_head f with [] => [] | _ => CDX ++ od :: join od (map lo_name locs ++ sh_names f) ++ [NL] end.
Fixpoint with_heads (test : list bytes -> bytes -> bool) (bs : list bool) (fs : list (bytes * option shown)) : bytes :=
  match fs with
  | [] => []
  | (_, None) :: r => with_heads test bs r
  | (name, Some f) :: r => (if hd false bs then head_of f else []) ++ found ps name (test (sh_names f)) (sh_head f) 1 (sh_lines f) ++ with_heads test (tl bs) r
  end.
Variable test : list bytes -> bytes -> bool.
Definition judged (f : shown) : Prop := exists ok, resolve (sh_names f) = Ok ok /\ forall x, In x (sh_lines f) -> ok (proc md x) = Ok (test (sh_names f) x).

Lemma find_files_ok : forall ss fs, Forall2 same_file ss fs -> forall ck bs, Forall judged (full fs) ->
  Forall (fun f => proper uni_alpha uni_alnum (map lo_name locs ++ sh_names f)) (full fs) ->
  Forall (fun f => sh_head f <> [] -> map lo_name locs ++ sh_names f <> []) (full fs) ->
  check_all utf8_ok name_ok m ck (map head_of (full fs)) = Ok bs ->
  find_files utf8_ok uni_alpha uni_alnum name_ok resolve md true od m locs rv ck ss = (with_heads (fun n x => xorb (test n x) rv) bs fs, Ok tt).
Proof.
  intros ss fs H. induction H as [|[name s] [name' o] ss fs (E & Hn & Hw & Ho) H IH]; intros ck bs HJ HP HN HC; [reflexivity|].
  cbn [fst snd] in *. subst name'. cbn [find_files]. destruct o as [f|].
  - destruct Ho as (H1 & H2). cbn [full] in *. inversion HJ as [|? ? J1 J2]; subst. inversion HP as [|? ? P1 P2]; subst. inversion HN as [|? ? N1 N2]; subst.
    destruct (open_file_lines _ _ _ _ _ Hw H1) as (t & O1 & O2 & O3 & O4 & _ & O6). rewrite O1. cbn [need]. rewrite O2, O4, <- H2.
    destruct J1 as (ok & R1 & R2). rewrite R1. cbn [need]. rewrite (push_proper _ _ _ P1). cbn [negb h_cols].
    assert (EH : match tf_head t with Some _ => get_head true od (map lo_name locs ++ sh_names f) | None => Ok [] end = Ok (head_of f)).
    { rewrite O3. unfold head_of. destruct (sh_head f) eqn:EH; [reflexivity|]. unfold get_head. specialize (N1 ltac:(discriminate)).
      destruct (map lo_name locs ++ sh_names f) eqn:EN; [congruence|]. rewrite <- EN, add_head_join. rewrite <- app_assoc. reflexivity. }
    rewrite EH. cbn [need]. cbn [map check_all] in HC. destruct (check utf8_ok name_ok m ck (head_of f)) as [v ck'] eqn:EC.
    destruct v as [b| |]; cbn [rbind] in HC; try discriminate.
    destruct (check_all utf8_ok name_ok m ck' (map head_of (full fs))) as [bs'| |] eqn:EA; cbn [rbind] in HC; try discriminate. inversion HC; subst bs. cbn [need with_heads hd tl].
    destruct (sh_lines f) as [|l rest] eqn:EL.
    + destruct O6 as (D & _). rewrite D. rewrite (IH ck' bs' J2 P2 N2 EA). reflexivity.
    + assert (D : r_done (tf_rd t) = false) by apply O6. rewrite D.
      assert (A : at_line md (set_loc t) (proc md l :: []) rest). { exact O6. }
      rewrite (find_ok name ok (test (sh_names f)) Hn rest _ (set_loc t) l [] (sh_head f) A).
      * cbn [need]. rewrite (IH ck' bs' J2 P2 N2 EA). reflexivity.
      * assert (S (length rest) < turns (tf_rd t)); [|lia]. eapply at_line_turns; [|exact O6]. intros X. congruence.
      * cbn [set_loc r_bytes]. rewrite O3. destruct (sh_head f); reflexivity.
      * exact R2.
  - destruct (open_nothing s Hw Ho) as (t & O1 & O2). rewrite O1. cbn [need]. rewrite O2. cbn [with_heads full] in *. apply IH; auto.
Qed.

Lemma with_heads_none t0 fs : (forall f, In f (full fs) -> head_of f = []) -> forall bs, with_heads t0 bs fs = found_all ps t0 fs.
Proof.
  induction fs as [|[name [f|]] fs IH]; intros H bs; [reflexivity| |]; cbn [with_heads found_all full] in *.
  - rewrite (H f) by (left; auto). rewrite (IH (fun g Hg => H g (or_intror Hg)) (tl bs)). destruct (hd false bs); reflexivity.
  - apply IH, H.
Qed.
Lemma with_heads_later t0 fs : forall k, with_heads t0 (repeat false k) fs = found_all ps t0 fs.
Proof.
  induction fs as [|[name [f|]] fs IH]; intros k; [reflexivity| |]; cbn [with_heads found_all].
  - destruct k as [|k]; cbn [repeat hd tl]; [rewrite (IH 0 : with_heads t0 [] fs = _)|rewrite IH]; reflexivity.
  - apply IH.
Qed.
Lemma check_no_heads : forall l ck, (forall f, In f l -> head_of f = []) -> exists bs, check_all utf8_ok name_ok m ck (map head_of l) = Ok bs.
Proof.
  induction l as [|f l IH]; intros ck H; [eexists; reflexivity|]. cbn [map check_all]. rewrite (H f) by (left; auto). unfold check.
  replace (is_valid_cdx utf8_ok name_ok m []) with (@Ok bool false) by (destruct m; reflexivity). cbn [rbind].
  destruct (IH ck (fun g Hg => H g (or_intror Hg))) as (bs & ->). eexists. reflexivity.
Qed.
End Grep.

(** The header and the lines of a plain file are its bytes, but for a missing line break at the end. *)
Lemma terminated_before lb a t u : is_line lb a -> terminated lb t u -> terminated lb (a ++ t) (a ++ u).
Proof.
  intros (b & -> & Hb) [(-> & ->)|[(c & -> & ->)|(H1 & H2 & ->)]].
  - right. left. exists b. rewrite app_nil_r. auto.
  - right. left. exists ((b ++ [lb]) ++ c). rewrite app_assoc. auto.
  - right. right. split; [destruct b; discriminate|]. split; [|rewrite app_assoc; reflexivity]. intros (c & E). apply H2.
    destruct (exists_last H1) as (t' & x & ->). rewrite app_assoc in E. apply app_inj_tail in E. destruct E as (_ & ->). eauto.
Qed.
Lemma header_text u md s e hd s1 : ToolModel.tm_quote md = QPlain -> tm_head md <> HSkip -> wf_src s ->
  read_header u (tm_head md) (ToolModel.tm_quote md) (tm_break md) s = Ok (e, hd, s1) ->
  (hd = [] /\ content s1 = content s) \/ flat_line QPlain (tm_break md) (content s) = Some (hd, content s1).
Proof.
  intros Hp Hs Hw. unfold read_header. rewrite Hp. destruct (fill_buf s) as [b s2] eqn:E. destruct (fill_buf_content _ _ _ E) as (C1 & _ & W). specialize (W Hw).
  assert (RS : forall e hd s', read_string u QPlain (tm_break md) s2 = Ok (e, hd, s') ->
     (hd = [] /\ content s' = content s) \/ flat_line QPlain (tm_break md) (content s) = Some (hd, content s')).
  { intros e0 h0 s0 H. unfold read_string in H. pose proof (read_line_flat QPlain (tm_break md) s2 W) as A. rewrite C1 in A.
    destruct (flat_line QPlain (tm_break md) (content s)) as [[l r]|].
    - destruct A as (s' & A1 & A2 & A3). rewrite A1 in H. destruct (u l); [|discriminate]. inversion H; subst. right. reflexivity.
    - destruct A as (A0 & s' & A1 & A2 & A3). rewrite A1 in H. inversion H; subst. left. split; [reflexivity|congruence]. }
  destruct b as [|x b]; [intros H; inversion H; subst; left; auto|].
  destruct (tm_head md); try congruence; try apply RS.
  - intros H; inversion H; subst; left; auto.
  - destruct (starts_with (x :: b) CDX); [apply RS|intros H; inversion H; subst; left; auto].
Qed.
Lemma whole_file u md s hd ls : ToolModel.tm_quote md = QPlain -> tm_head md <> HSkip -> wf_src s -> file_lines u md s hd ls ->
  terminated (tm_break md) (content s) (hd ++ concat ls).
Proof.
  intros Hp Hs Hw (s1 & H1 & H2). pose proof (read_header_wf _ _ _ _ _ _ _ _ Hw H1) as Hw1. rewrite read_all_flat in H2 by auto. rewrite Hp in H2.
  assert (T : terminated (tm_break md) (content s1) (concat ls)). { apply (flat_all_spec QPlain _ _ ltac:(discriminate) _ _ H2). }
  destruct (header_text u md s false hd s1 Hp Hs Hw H1) as [(-> & E)|E].
  - rewrite <- E. exact T.
  - apply flat_line_spec in E as (E1 & [E2|(E2 & E3 & E4)] & E5); [| |discriminate].
    + rewrite <- E2. apply terminated_before; auto.
    + rewrite E2 in T. destruct T as [(_ & T)|[(b & T & _)|(T & _)]]; [|destruct b; discriminate|congruence]. rewrite T, app_nil_r, E3. right. right.
      split; [|split; auto]. intros Z. rewrite Z in E5. cbn in E5. lia.
Qed.
Lemma offset_text u md s hd ls pre l post : ToolModel.tm_quote md = QPlain -> tm_head md <> HSkip -> wf_src s -> file_lines u md s hd ls ->
  ls = pre ++ l :: post -> firstn (length (hd ++ concat pre)) (content s) = hd ++ concat pre /\
  exists t, skipn (length (hd ++ concat pre)) (content s) = removelast l ++ t.
Proof.
  intros Hp Hs Hw HL ->. pose proof (whole_file _ _ _ _ _ Hp Hs Hw HL) as T. pose proof (file_lines_plain _ _ _ _ _ Hp Hw HL) as F.
  rewrite concat_app in T. cbn [concat] in T. rewrite app_assoc in T. set (a := hd ++ concat pre) in *.
  apply Forall_elt in F. destruct F as (b & -> & Hb). rewrite removelast_last.
  assert (G : exists z, content s = a ++ b ++ z).
  { destruct T as [(_ & T)|[(c & T1 & T2)|(_ & _ & T)]].
    - destruct a; [|discriminate]. destruct b; discriminate.
    - rewrite <- T2. rewrite <- app_assoc. eauto.
    - destruct (concat post) as [|x r] eqn:EC using rev_ind.
      + rewrite app_nil_r, !app_assoc in T. apply app_inj_tail in T. destruct T as (T & _). exists []. rewrite app_nil_r. auto.
      + clear IHr. rewrite !app_assoc in T. apply app_inj_tail in T. destruct T as (T & _). exists ([tm_break md] ++ r). rewrite <- T, <- !app_assoc. reflexivity. }
  destruct G as (z & ->). rewrite firstn_app, Nat.sub_diag, firstn_all, firstn_O, app_nil_r. split; [reflexivity|].
  rewrite skipn_app, skipn_all, Nat.sub_diag. exists z. reflexivity.
Qed.
