(** C71: cgrep over files, with the places of the lines. *)
From Coq Require Import String List NArith ZArith Bool Arith Lia.
Open Scope list_scope.
Import ListNotations.
From Verif Require Import Base TextSpec TextModel ReadSpec ReadModel ReadProofs HeadModel HeadProps HdrModel HdrSpec HdrProofs StrSpec StrModel StrProofs ColModel MatchText TextProofs ToolModel ToolOpen TurnSpec TurnProofs TurnProps PasteSpec PasteProofs PasteProps PickProofs NumbProofs NumbProps FmtProps LocSpec LocModel LocProofs.
Close Scope Z_scope.
Open Scope nat_scope.

(** Full claim: cgrep writes, file after file, exactly the lines its conditions accept (reversed: the others), each behind the columns asked
    for: the offset of the line in its file, its number among the data lines from one, the name of the file or its last parts; the header
    once, with the names of these columns in front. Proved in plain quoting mode for every list of files, empty ones included, that are all
    without header or all with the same names. Missing, and refuted below: quoted files, skipped headers, other delimiters than the tab; also
    files of which only some have a header. *)
Theorem c71_headerless_partial : forall u name_ok ua un resolve md cdx d m opts locs rv test ss fs,
  ToolModel.tm_quote md = QPlain -> all_locs [] opts = Ok locs -> Forall2 (same_file u md) ss fs ->
  Forall (fun f => sh_head f = [] /\ proper ua un (map lo_name locs ++ sh_names f) /\ judged resolve md test f) (full fs) ->
  cgrep u ua un name_ok resolve md cdx d m opts rv ss = (found_all (map place_of locs) (fun names l => xorb (test names l) rv) fs, Ok tt).
Proof.
  intros u no ua un rs md cdx d m opts locs rv test ss fs Hp HO HS HF. unfold cgrep. rewrite HO. cbn [need].
  assert (H0 : forall f, In f (full fs) -> head_of locs d f = []). { intros f Hf. rewrite Forall_forall in HF. unfold head_of. rewrite (proj1 (HF f Hf)). reflexivity. }
  assert (EC : find_files u ua un no rs md cdx d m locs rv ck_new ss = find_files u ua un no rs md true d m locs rv ck_new ss).
  { assert (HF' : Forall (fun f => sh_head f = []) (full fs)) by (eapply Forall_impl; [|exact HF]; cbv beta; tauto). clear HF H0. generalize ck_new.
    induction HS as [|[n s] [n' o] ss fs (E & Hn & Hw & Ho) H IH]; intros ck; [reflexivity|]. cbn [find_files]. cbn [fst snd] in *. destruct o as [f|].
    - destruct Ho as (H1 & H2). cbn [full] in HF'. inversion HF' as [|? ? F1 F2]; subst. destruct (open_file_lines _ _ _ _ _ Hw H1) as (t & O1 & O2 & O3 & _). rewrite O1. cbn [need]. rewrite O2.
      rewrite F1 in O3. rewrite O3. destruct (rs (tf_names t)); cbn [need]; auto. destruct (push_all ua un hdr_new (map lo_name locs ++ tf_names t)) as [h g]. destruct g; cbn [negb]; auto.
      cbn [need]. destruct (check u no m ck []) as [b ck']. destruct b; cbn [need]; auto. rewrite (IH F2 ck'). reflexivity.
    - destruct (open_nothing u md s Hw Ho) as (t & O1 & O2). rewrite O1. cbn [need]. rewrite O2. apply IH. exact HF'. }
  rewrite EC. destruct (check_no_heads u no locs d m (full fs) ck_new H0) as (bs & HB).
  rewrite (find_files_ok u no ua un rs md Hp locs rv d m test ss fs HS ck_new bs); auto.
  - rewrite with_heads_none; auto.
  - eapply Forall_impl; [|exact HF]. cbv beta. tauto.
  - eapply Forall_impl; [|exact HF]. cbv beta. tauto.
  - eapply Forall_impl; [|exact HF]. cbv beta. intros f (F & _). congruence.
Qed.
Theorem c71_headed_partial : forall u name_ok ua un resolve md d opts locs rv test ss fs names,
  ToolModel.tm_quote md = QPlain -> all_locs [] opts = Ok locs -> Forall2 (same_file u md) ss fs -> full fs <> [] -> names <> [] ->
  Forall (fun f => sh_head f <> [] /\ sh_names f = names /\ judged resolve md test f) (full fs) ->
  let cols := map lo_name locs ++ names in
  bad_delim d = false -> proper ua un cols -> Forall (fun x => ~ In d x /\ name_ok x = true /\ x <> []) cols -> u (join d cols) = true ->
  cgrep u ua un name_ok resolve md true d MMatch opts rv ss =
  (CDX ++ d :: join d cols ++ [NL] ++ found_all (map place_of locs) (fun names l => xorb (test names l) rv) fs, Ok tt).
Proof.
  intros u no ua un rs md d opts locs rv test ss fs names Hp HO HS HE HN HF cols Hd HP HV HU. unfold cgrep. rewrite HO. cbn [need].
  assert (HH : forall f, In f (full fs) -> head_of locs d f = CDX ++ d :: join d cols ++ [NL]).
  { intros f Hf. rewrite Forall_forall in HF. destruct (HF f Hf) as (A & B & _). unfold head_of. rewrite B. destruct (sh_head f); [congruence|reflexivity]. }
  assert (CN : cols <> []). { unfold cols. destruct (map lo_name locs); [exact HN|discriminate]. }
  rewrite (find_files_ok u no ua un rs md Hp locs rv d MMatch test ss fs HS ck_new (true :: repeat false (List.length (tl (full fs))))).
  - clear -HH HE. revert HE HH. induction fs as [|[n [f|]] fs IH]; intros HE HH; [contradiction| |].
    + cbn [with_heads found_all full hd tl]. rewrite (HH f) by (left; auto). rewrite with_heads_later. rewrite <- !app_assoc. cbn [app]. rewrite <- !app_assoc. reflexivity.
    + cbn [with_heads found_all full] in *. apply IH; auto.
  - eapply Forall_impl; [|exact HF]. cbv beta. tauto.
  - eapply Forall_impl; [|exact HF]. cbv beta. intros f (_ & -> & _). exact HP.
  - eapply Forall_impl; [|exact HF]. cbv beta. intros f (_ & -> & _) _. exact CN.
  - replace (map (head_of locs d) (full fs)) with (repeat (CDX ++ d :: join d cols ++ [NL]) (S (List.length (tl (full fs))))).
    + apply check_same; [apply head_valid; auto|]. replace (CDX ++ d :: join d cols ++ [NL]) with ((CDX ++ d :: join d cols) ++ [NL]) by (rewrite <- app_assoc; reflexivity). apply last_last.
    + clear -HH HE. destruct (full fs) as [|f l]; [congruence|]. cbn [tl repeat map]. rewrite (HH f) by (left; auto). f_equal.
      assert (G : forall g, In g l -> head_of locs d g = CDX ++ d :: join d cols ++ [NL]) by (intros; apply HH; right; auto). clear -G.
      induction l as [|g l IH]; [reflexivity|]. cbn [List.length repeat map]. rewrite (G g) by (left; auto). f_equal. apply IH. intros; apply G; right; auto.
Qed.

(** A condition on the first field. *)
Definition starts_a (names : list bytes) : res (textline -> res bool) := Ok (fun t => Ok (match tl_get t 0 with 97%N :: _ => true | _ => false end)).
Definition starts_a_line (names : list bytes) (l : bytes) : bool := match l with 97%N :: _ => true | _ => false end.
Definition ex_one := text (tsv [["ant"; "1"]; ["bee"; "2"]; ["ape"; "3"]]%string).
Definition ex_two := mksrc [] [bs "a"; skipn 1 (tsv [["axe"; "4"]]%string)].
Definition ex_files := [(bs "x/y/one", ex_one); (bs "none", mksrc [] []); (bs "two", ex_two)].
Definition ex_show1 := mkshown [] [bs "c1"; bs "c2"] (map (fun l => tsv [l]) [["ant"; "1"]; ["bee"; "2"]; ["ape"; "3"]]%string).
Definition ex_show2 := mkshown [] [bs "c1"; bs "c2"] [tsv [["axe"; "4"]]%string].
Definition ex_shown := [(bs "x/y/one", Some ex_show1); (bs "none", None); (bs "two", Some ex_show2)].
Definition ex_opts := [bs "line,at:bytes"; bs "NAME.2"].
Definition ex_locs := [mkloc (bs "line") LLine; mkloc (bs "at") LBytes; mkloc (bs "filename") (LName 2)].
Lemma ex_lines_judged f : (forall x, In x (sh_lines f) -> match tl_get (proc ex_mm x) 0 with 97%N :: _ => true | _ => false end = starts_a_line [] x) ->
  judged starts_a ex_mm starts_a_line f.
Proof. intros H. eexists. split; [reflexivity|]. intros x Hx. cbv beta. rewrite (H x Hx). reflexivity. Qed.
Lemma proper_five a b c e g : NoDup [a; b; c; e; g] -> Forall (well_named (alphabetic no_char) (alphanumeric no_char)) [a; b; c; e; g] -> proper no_char no_char [a; b; c; e; g].
Proof. intros. split; auto. Qed.
Example c71_headerless_partial_ex : all_locs [] ex_opts = Ok ex_locs /\ Forall2 (same_file any_text ex_mm) ex_files ex_shown /\
  Forall (fun f => sh_head f = [] /\ proper no_char no_char (map lo_name ex_locs ++ sh_names f) /\ judged starts_a ex_mm starts_a_line f) (full ex_shown) /\
  cgrep any_text no_char no_char any_text starts_a ex_mm true TAB MMatch ex_opts false ex_files =
    (tsv [["1"; "0"; "y/one"; "ant"; "1"]; ["3"; "12"; "y/one"; "ape"; "3"]; ["1"; "0"; "two"; "axe"; "4"]]%string, Ok tt).
Proof.
  split; [reflexivity|]. split; [|split; [|vm_compute; reflexivity]].
  - assert (G : forall n s o, file_shows any_text ex_mm s o -> last n 0%N <> 47%N -> same_file any_text ex_mm (n, s) (n, o)) by (intros; split; auto).
    constructor; [apply G; [|discriminate]|constructor; [apply G; [|discriminate]|constructor; [apply G; [|discriminate]|constructor]]].
    + split; [repeat constructor; discriminate|]. split; [|reflexivity]. eexists. split; vm_compute; reflexivity.
    + split; [constructor|reflexivity].
    + split; [repeat constructor; discriminate|]. split; [|reflexivity]. eexists. split; vm_compute; reflexivity.
  - repeat (constructor; [split; [reflexivity|]; split|]); try constructor.
    + cbn. repeat constructor; discriminate || (unfold well_named; cbn; intuition).
    + cbn. repeat constructor; cbn; intuition discriminate.
    + apply ex_lines_judged. intros x Hx. cbn [ex_show1 sh_lines map] in Hx. repeat destruct Hx as [<- |Hx]; [vm_compute; reflexivity..|contradiction].
    + cbn. repeat constructor; discriminate || (unfold well_named; cbn; intuition).
    + cbn. repeat constructor; cbn; intuition discriminate.
    + apply ex_lines_judged. intros x Hx. cbn [ex_show2 sh_lines map] in Hx. repeat destruct Hx as [<- |Hx]; [vm_compute; reflexivity..|contradiction].
Qed.
Definition ex_hfiles := [(bs "p1", ex_h1); (bs "none", mksrc [] []); (bs "p2", ex_h2)].
Definition ex_hshown := [(bs "p1", Some ex_fh1); (bs "none", None); (bs "p2", Some ex_fh2)].
Definition ex_hlocs := [mkloc (bs "bytes") LBytes].
Example c71_headed_partial_ex : all_locs [] [bs "bytes"] = Ok ex_hlocs /\ Forall2 (same_file any_text ex_mm) ex_hfiles ex_hshown /\
  Forall (fun f => sh_head f <> [] /\ sh_names f = [bs "p"; bs "q"] /\ judged starts_a ex_mm starts_a_line f) (full ex_hshown) /\
  proper no_char no_char (map lo_name ex_hlocs ++ [bs "p"; bs "q"]) /\
  cgrep any_text no_char no_char any_text starts_a ex_mm true TAB MMatch [bs "bytes"] true ex_hfiles =
    (tsv [[" CDX"; "bytes"; "p"; "q"]; ["13"; "b"; "y"]; ["9"; "c"; "z"]]%string, Ok tt).
Proof.
  split; [reflexivity|]. split; [|split; [|split; [|vm_compute; reflexivity]]].
  - assert (G : forall n s o, file_shows any_text ex_mm s o -> last n 0%N <> 47%N -> same_file any_text ex_mm (n, s) (n, o)) by (intros; split; auto).
    constructor; [apply G; [|discriminate]|constructor; [apply G; [|discriminate]|constructor; [apply G; [|discriminate]|constructor]]].
    + split; [repeat constructor; discriminate|]. split; [|reflexivity]. eexists. split; vm_compute; reflexivity.
    + split; [constructor|reflexivity].
    + split; [repeat constructor; discriminate|]. split; [|reflexivity]. eexists. split; vm_compute; reflexivity.
  - constructor; [|constructor; [|constructor]]; (split; [discriminate|]; split; [reflexivity|]; apply ex_lines_judged; intros x Hx).
    + cbn [ex_fh1 sh_lines map] in Hx. repeat destruct Hx as [<- |Hx]; [vm_compute; reflexivity..|contradiction].
    + cbn [ex_fh2 sh_lines map] in Hx. repeat destruct Hx as [<- |Hx]; [vm_compute; reflexivity..|contradiction].
  - apply proper_three; try (vm_compute; discriminate). repeat constructor; vm_compute; auto; try discriminate.
Qed.

(** The offset is where the line stands in the file, header included: the bytes before it are those counted, and the text of the line follows. *)
Theorem c71_offset : forall u md s hd ls pre l post, ToolModel.tm_quote md = QPlain -> tm_head md <> HSkip -> wf_src s -> file_lines u md s hd ls ->
  ls = pre ++ l :: post ->
  firstn (List.length (hd ++ concat pre)) (content s) = hd ++ concat pre /\ exists t, skipn (List.length (hd ++ concat pre)) (content s) = removelast l ++ t.
Proof. exact offset_text. Qed.
Example c71_offset_ex : file_lines any_text ex_mm ex_h1 (sh_head ex_fh1) (sh_lines ex_fh1) /\ List.length (sh_head ex_fh1 ++ concat [tsv [["a"; "x"]]%string]) = 13 /\
  skipn 13 (content ex_h1) = tsv [["b"; "y"]]%string.
Proof. split; [eexists; split; vm_compute; reflexivity|]. split; reflexivity. Qed.

(** What may be asked, in any case of letters: bytes, line, name, or name with a number of parts. *)
Definition asks (w : bytes) (p : place) : Prop :=
  match p with
  | Offset => map lower w = bs "bytes"
  | Number => map lower w = bs "line"
  | File n => (n = 0%N /\ map lower w = bs "name") \/ ((n < 2 ^ 64)%N /\ exists a, w = a ++ 46%N :: print_N n /\ map lower a = bs "name")
  end.
Definition usual (p : place) : bytes := match p with Offset => bs "bytes" | Number => bs "line" | File _ => bs "filename" end.
Definition item_of (p : place) : locitem := match p with Offset => LBytes | Number => LLine | File n => LName n end.

Lemma no_byte c w v : (c < 65)%N -> map lower w = v -> ~ In c v -> ~ In c w.
Proof.
  intros Hc <- H I. apply H. apply in_map_iff. exists c. split; auto. unfold lower. replace (65 <=? c)%N with false; [reflexivity|]. symmetry. apply N.leb_gt. exact Hc.
Qed.
Lemma item_asks w p : asks w p -> item_new w = Ok (item_of p) /\ ~ In 58%N w /\ ~ In 44%N w.
Proof.
  intros H. unfold item_new. destruct p as [| |n]; cbn [asks item_of] in *.
  - rewrite H. cbn -[bs]. split; [reflexivity|]. split; (eapply no_byte; [|exact H|]; [reflexivity|cbv; intuition discriminate]).
  - rewrite H. split; [reflexivity|]. split; (eapply no_byte; [|exact H|]; [reflexivity|cbv; intuition discriminate]).
  - destruct H as [(-> & H)|(Hn & a & -> & H)].
    + rewrite H. split; [reflexivity|]. split; (eapply no_byte; [|exact H|]; [reflexivity|cbv; intuition discriminate]).
    + assert (NE : forall v, ~ In 46%N v -> beq (map lower (a ++ 46%N :: print_N n)) v = false).
      { intros v Hv. apply not_true_is_false. rewrite beq_eq. intros E. apply Hv. rewrite <- E, map_app. apply in_or_app. right. left. reflexivity. }
      rewrite !NE by (cbv; intuition discriminate). assert (A46 : ~ In 46%N a) by (eapply no_byte; [|exact H|]; [reflexivity|cbv; intuition discriminate]).
      rewrite split_once_app by exact A46. rewrite H. replace (beq (bs "name") (bs "name")) with true by reflexivity. rewrite to_usize_whole_print by exact Hn. cbn [rbind].
      split; [reflexivity|].
      assert (P : forall c, (c < 65)%N -> c <> 46%N -> ~ In c (bs "name") -> ~ In c (print_N n) -> ~ In c (a ++ 46%N :: print_N n)).
      { intros c C1 C2 C3 C4 I. apply in_app_or in I. destruct I as [I|[I|I]]; [|congruence|contradiction]. eapply no_byte; eauto. }
      split; apply P; try reflexivity; try discriminate; try (cbv; intuition discriminate); apply print_no; cbv; intuition discriminate.
Qed.
(** Locations are asked for by these texts, with a name for the column before a colon or the usual name; several of them between commas. *)
Theorem c71_options : forall l, Forall (fun '(t, x) => exists w p, asks w p /\ lo_item x = item_of p /\
     ((t = w /\ lo_name x = usual p) \/ (t = lo_name x ++ 58%N :: w /\ ~ In 58%N (lo_name x) /\ ~ In 44%N (lo_name x)))) l -> l <> [] ->
  all_locs [] [join 44 (map fst l)] = Ok (map snd l).
Proof.
  intros l H HN. cbn [all_locs]. unfold loc_push.
  assert (G : Forall (fun '(t, x) => loc_new t = Ok x /\ ~ In 44%N t) l).
  { eapply Forall_impl; [|exact H]. intros [t [nm it]] (w & p & A & E & D). cbn [lo_item lo_name] in *. destruct (item_asks w p A) as (I1 & I2 & I3). unfold loc_new. destruct D as [(-> & ->)|(-> & D1 & D2)].
    - rewrite split_once_none by exact I2. rewrite I1. cbn [rbind]. split; [|exact I3]. subst it. destruct p; reflexivity.
    - rewrite split_once_app by exact D1. rewrite I1. cbn [rbind]. split; [subst it; reflexivity|]. intros I. apply in_app_or in I. destruct I as [I|[I|I]]; [contradiction|discriminate|contradiction]. }
  rewrite split_on_join; [|destruct l; [congruence|discriminate]|apply Forall_map; eapply Forall_impl; [|exact G]; intros [t x] (_ & Q); exact Q].
  assert (E : locs_new (map fst l) = Ok (map snd l)).
  { clear H HN. induction G as [|[t x] l (G1 & _) G IH]; [reflexivity|]. cbn [map locs_new fst snd]. rewrite G1. cbn [rbind]. rewrite IH. reflexivity. }
  rewrite E. reflexivity.
Qed.
Example c71_options_ex : asks (bs "LINE") Number /\ asks (bs "Name.2") (File 2) /\
  all_locs [] [join 44 [bs "LINE"; bs "from:Name.2"]] = Ok [mkloc (bs "line") LLine; mkloc (bs "from") (LName 2)].
Proof. split; [reflexivity|]. split; [right; split; [reflexivity|]; exists (bs "Name"); split; reflexivity|reflexivity]. Qed.
(** And by nothing else. *)
Theorem c71_only : forall t x, loc_new t = Ok x -> exists w,
  ((t = w /\ lo_name x = match lo_item x with LBytes => bs "bytes" | LLine => bs "line" | LName _ => bs "filename" end) \/ t = lo_name x ++ 58%N :: w) /\
  match lo_item x with
  | LBytes => map lower w = bs "bytes"
  | LLine => map lower w = bs "line"
  | LName n => (map lower w = bs "name" /\ n = 0%N) \/ exists a b, w = a ++ 46%N :: b /\ map lower a = bs "name" /\ to_usize_whole b = Ok n
  end.
Proof.
  assert (I : forall w i, item_new w = Ok i -> match i with
    | LBytes => map lower w = bs "bytes"
    | LLine => map lower w = bs "line"
    | LName n => (map lower w = bs "name" /\ n = 0%N) \/ exists a b, w = a ++ 46%N :: b /\ map lower a = bs "name" /\ to_usize_whole b = Ok n
    end).
  { intros w i H. unfold item_new in H. destruct (beq (map lower w) (bs "bytes")) eqn:E1; [apply beq_eq in E1; inversion H; subst; auto|]. destruct (beq (map lower w) (bs "line")) eqn:E2; [apply beq_eq in E2; inversion H; subst; auto|].
    destruct (beq (map lower w) (bs "name")) eqn:E3; [apply beq_eq in E3; inversion H; subst; auto|]. destruct (split_once 46 w) as [[a b]|] eqn:ES; [|discriminate].
    destruct (beq (map lower a) (bs "name")) eqn:E4; [|discriminate]. apply beq_eq in E4. destruct (to_usize_whole b) eqn:EU; cbn [rbind] in H; try discriminate.
    inversion H; subst. right. apply split_once_some in ES. exists a, b. auto. }
  intros t x H. unfold loc_new in H. destruct (split_once 58 t) as [[a b]|] eqn:ES.
  - destruct (item_new b) eqn:EI; cbn [rbind] in H; try discriminate. inversion H; subst. cbn [lo_name lo_item]. apply split_once_some in ES. exists b. split; [right; apply ES|]. exact (I b _ EI).
  - destruct (item_new t) eqn:EI; cbn [rbind] in H; try discriminate. inversion H; subst. cbn [lo_name lo_item]. exists t. split; [left; split; [reflexivity|destruct a; reflexivity]|]. exact (I t _ EI).
Qed.
Example c71_only_ex : loc_new (bs "x:line") = Ok (mkloc (bs "x") LLine) /\ loc_new (bs "lines") = Err /\ loc_new (bs "name.x") = Err /\ loc_new (bs "line.2") = Err.
Proof. repeat split; reflexivity. Qed.

Definition all_ok (names : list bytes) : res (textline -> res bool) := Ok (fun _ => Ok true).

(** Several location options add up, in order; the run goes on only when all of them can be read. *)
Theorem c71_all_options : forall opts locs, all_locs [] opts = Ok locs <->
  exists parts, Forall2 (fun o part => Forall2 (fun t x => loc_new t = Ok x) (split_on 44 o) part) opts parts /\ locs = concat parts.
Proof.
  assert (L : forall l v, locs_new l = Ok v <-> Forall2 (fun t x => loc_new t = Ok x) l v).
  { induction l as [|t l IH]; intros v; cbn [locs_new]; [split; [intros E; injection E as <-; constructor|intros H; inversion H; reflexivity]|]. split.
    - destruct (loc_new t) as [x| |] eqn:E1; try discriminate. destruct (locs_new l) as [w| |]; try discriminate. cbn [rbind]. intros E. injection E as <-. constructor; auto. apply IH. reflexivity.
    - intros H. inversion H as [|? x ? w H1 H2]; subst. rewrite H1. cbn [rbind]. apply IH in H2. rewrite H2. reflexivity. }
  assert (G : forall opts v locs, all_locs v opts = Ok locs <-> exists parts, Forall2 (fun o part => Forall2 (fun t x => loc_new t = Ok x) (split_on 44 o) part) opts parts /\ locs = v ++ concat parts).
  { induction opts as [|o opts IH]; intros v locs; cbn [all_locs].
    - split; [intros E; injection E as <-; exists []; split; [constructor|rewrite app_nil_r; reflexivity]|]. intros (p & H & ->). inversion H. rewrite app_nil_r. reflexivity.
    - unfold loc_push. split.
      + destruct (locs_new (split_on 44 o)) as [w| |] eqn:E; try discriminate. cbn [rbind]. intros H. apply IH in H. destruct H as (p & H1 & ->). exists (w :: p).
        split; [constructor; [apply L, E|exact H1]|]. cbn [concat]. rewrite app_assoc. reflexivity.
      + intros (p & H & ->). inversion H as [|? w ? q H1 H2]; subst. apply L in H1. rewrite H1. cbn [rbind]. apply IH. exists q. split; auto. cbn [concat]. rewrite app_assoc. reflexivity. }
  intros opts locs. rewrite (G opts [] locs). reflexivity.
Qed.
Example c71_all_options_ex : all_locs [] ex_opts = Ok ex_locs /\ map (split_on 44) ex_opts = [[bs "line"; bs "at:bytes"]; [bs "NAME.2"]] /\ all_locs [] [bs "line"; bs "nothing"] = Err.
Proof. repeat split; reflexivity. Qed.

(** Nothing is passed over in silence: a run that ends well has read all options, judged every line of every file, found the names of its
    columns to be proper and all different, and, when headers must match, found the same names under every header. *)
Lemma push_one ua un h n h' : h_dups h = DFail -> h_rename h = [] -> HdrModel.push ua un h n = (h', true) ->
  well_named (alphabetic ua) (alphanumeric un) n /\ ~ In n (h_cols h) /\ h' = mkhdr (h_cols h ++ [n]) DFail [] (h_sloppy h).
Proof.
  intros D R. unfold HdrModel.push. destruct (is_valid ua un n) eqn:V; cbn [negb]; [|discriminate]. apply is_valid_iff in V.
  destruct (contains (h_cols h) n) eqn:C; rewrite D, R; cbn [take_rename]; [discriminate|]. apply contains_out in C. intros E. injection E as <-. auto.
Qed.
Lemma push_all_proper ua un names : forall h h', h_dups h = DFail -> h_rename h = [] -> push_all ua un h names = (h', true) ->
  Forall (well_named (alphabetic ua) (alphanumeric un)) names /\ (NoDup (h_cols h) -> NoDup (h_cols h ++ names)) /\ h_cols h' = h_cols h ++ names.
Proof.
  induction names as [|n names IH]; intros h h' D R H; cbn [push_all] in H.
  - injection H as <-. rewrite app_nil_r. auto.
  - destruct (HdrModel.push ua un h n) as [h1 b] eqn:E. destruct b; [|discriminate]. destruct (push_one _ _ _ _ _ D R E) as (W & NI & ->).
    destruct (IH (mkhdr (h_cols h ++ [n]) DFail [] (h_sloppy h)) _ eq_refl eq_refl H) as (I1 & I2 & I3). cbn [h_cols] in I2, I3. split; [constructor; auto|]. rewrite <- app_assoc in I2, I3. split; auto.
    intros ND. apply I2. apply nodup_snoc; auto.
Qed.
Lemma find_judged md locs rv name ok : forall rest fuel r l hist out, at_line md r (proc md l :: hist) rest ->
  find_loop fuel md locs rv name ok r = (out, Ok tt) -> forall x, In x (l :: rest) -> exists b, ok (proc md x) = Ok b.
Proof.
  induction rest as [|l' rest IH]; intros fuel r l hist out HA HF x Hx; (destruct fuel as [|k]; [discriminate|]); cbn [find_loop] in HF;
    rewrite (ring_curr _ _ _ (proj1 HA)) in HF; cbn [need] in HF; destruct (ok (proc md l)) as [b| |] eqn:E; try discriminate; cbn [need] in HF.
  - destruct Hx as [<- |[]]. eauto.
  - destruct Hx as [<- |Hx]; [eauto|]. destruct (next_cons _ _ _ _ _ HA) as (r' & N1 & N2 & _). rewrite N1 in HF. cbn [need] in HF.
    assert (D : r_done r' = false) by apply N2. rewrite D in HF. apply (f_equal snd) in HF. unfold say in HF. cbn [fst snd] in HF.
    destruct (find_loop k md locs rv name ok r') as [t e] eqn:EF. cbn [snd] in HF. subst e. eapply IH; eauto.
Qed.
Lemma match_same u no : forall hs ck bs, check_all u no MMatch ck hs = Ok bs -> Forall (fun h => h = [] \/ starts_with h CDX = true) hs ->
  (ck_saw ck = true -> Forall (fun h => h = [] \/ h = ck_head ck) hs) /\ exists h0, Forall (fun h => h = [] \/ h = h0) hs.
Proof.
  induction hs as [|h hs IH]; intros ck bs HC HF; [split; [constructor|exists []; constructor]|]. cbn [check_all] in HC. inversion HF as [|? ? F1 F2]; subst.
  destruct (check u no MMatch ck h) as [v ck'] eqn:EC. destruct v as [b| |]; try discriminate. cbn [rbind] in HC.
  destruct (check_all u no MMatch ck' hs) as [bs'| |] eqn:EA; try discriminate. clear HC. destruct (IH _ _ EA F2) as (I1 & h0 & I2). unfold check in EC.
  destruct h as [|c h]; [|].
  - replace (is_valid_cdx u no MMatch []) with (@Ok bool false) in EC by reflexivity. injection EC as <- <-. split; [intros S; constructor; auto|exists h0; constructor; auto].
  - destruct F1 as [F1|F1]; [discriminate|]. destruct (is_valid_cdx u no MMatch (c :: h)) as [cdx| |] eqn:EV; try discriminate.
    assert (cdx = true). { unfold is_valid_cdx in EV. rewrite F1 in EV. cbn [negb] in EV. repeat match type of EV with (if ?x then _ else _) = _ => destruct x; try discriminate end. congruence. } subst cdx.
    destruct (negb (last (c :: h) 0%N =? NL)%N && true); [discriminate|]. destruct (ck_saw ck) eqn:SW.
    + destruct (ck_head ck) as [|c' h'] eqn:EH; [discriminate|]. destruct (beq (c :: h) (c' :: h')) eqn:EB; [|discriminate]. injection EC as <- <-. apply beq_eq in EB.
      specialize (I1 SW). rewrite EH in I1. split; [intros _; constructor; auto|exists (c' :: h'); constructor; auto].
    + cbn [andb negb] in EC. injection EC as <- <-. specialize (I1 eq_refl). cbn [ck_head] in I1. split; [discriminate|]. exists (c :: h). constructor; auto.
Qed.
Theorem c71_success : forall u name_ok ua un resolve md cdx d m opts rv ss fs out, Forall2 (same_file u md) ss fs ->
  cgrep u ua un name_ok resolve md cdx d m opts rv ss = (out, Ok tt) ->
  exists locs, all_locs [] opts = Ok locs /\
  Forall (fun f => proper ua un (map lo_name locs ++ sh_names f) /\
                   exists ok, resolve (sh_names f) = Ok ok /\ forall x, In x (sh_lines f) -> exists b, ok (proc md x) = Ok b) (full fs) /\
  (m = MMatch -> cdx = true -> forall f g, In f (full fs) -> In g (full fs) -> sh_head f <> [] -> sh_head g <> [] ->
   join d (map lo_name locs ++ sh_names f) = join d (map lo_name locs ++ sh_names g)).
Proof.
  intros u no ua un rs md cdx d m opts rv ss fs out HS H. unfold cgrep in H. destruct (all_locs [] opts) as [locs| |]; try discriminate. cbn [need] in H. exists locs. split; [reflexivity|].
  assert (G : forall ck out, find_files u ua un no rs md cdx d m locs rv ck ss = (out, Ok tt) ->
    Forall (fun f => proper ua un (map lo_name locs ++ sh_names f) /\ exists ok, rs (sh_names f) = Ok ok /\ forall x, In x (sh_lines f) -> exists b, ok (proc md x) = Ok b) (full fs) /\
    (cdx = true -> exists bs, check_all u no m ck (map (head_of locs d) (full fs)) = Ok bs)).
  { clear H out. induction HS as [|[name s] [name' o] ss fs (E & Hn & Hw & Ho) H IH]; intros ck out HF; [split; [constructor|intros _; exists []; reflexivity]|].
    cbn [fst snd] in *. subst name'. cbn [find_files] in HF. destruct o as [f|].
    - destruct Ho as (H1 & H2). destruct (open_file_lines _ _ _ _ _ Hw H1) as (t & O1 & O2 & O3 & O4 & _ & O6). rewrite O1 in HF. cbn [need] in HF. rewrite O2, O4, <- H2 in HF.
      destruct (rs (sh_names f)) as [ok| |] eqn:ER; try discriminate. cbn [need] in HF.
      destruct (push_all ua un hdr_new (map lo_name locs ++ sh_names f)) as [h good] eqn:EP. destruct good; cbn [negb] in HF; [|discriminate].
      destruct (push_all_proper ua un _ hdr_new h eq_refl eq_refl EP) as (P1 & P2 & P3). cbn [hdr_new h_cols app] in P2, P3. specialize (P2 (NoDup_nil _)). rewrite P3 in HF.
      match type of HF with context [match tf_head t with Some _ => ?a | None => ?b end] => destruct (match tf_head t with Some _ => a | None => b end) as [hd| |] eqn:EHD end; try discriminate. cbn [need] in HF.
      destruct (check u no m ck hd) as [v ck'] eqn:EC. destruct v as [b| |]; try discriminate. cbn [need] in HF.
      assert (HH : cdx = true -> hd = head_of locs d f).
      { intros ->. rewrite O3 in EHD. unfold head_of. destruct (sh_head f) as [|c0 h0]; [injection EHD as <-; reflexivity|]. unfold get_head in EHD.
        destruct (map lo_name locs ++ sh_names f) as [|n ns] eqn:EN; [discriminate|]. rewrite <- EN in *. rewrite add_head_join in EHD. injection EHD as <-. cbn. reflexivity. }
      assert (T : exists out', find_files u ua un no rs md cdx d m locs rv ck' ss = (out', Ok tt) /\ forall x, In x (sh_lines f) -> exists b, ok (proc md x) = Ok b).
      { apply (f_equal snd) in HF. unfold say in HF. cbn [fst snd] in HF. destruct (sh_lines f) as [|l rest].
        - destruct O6 as (D & _). rewrite D in HF. exists (fst (find_files u ua un no rs md cdx d m locs rv ck' ss)). split; [rewrite <- HF; apply surjective_pairing|intros x []].
        - assert (D : r_done (tf_rd t) = false) by apply O6. rewrite D in HF. destruct (find_loop (turns (tf_rd t)) md locs rv name ok (set_loc t)) as [tx e] eqn:EF.
          cbn [fst snd] in HF. destruct e as [[]| |]; try discriminate. cbn [need] in HF.
          exists (fst (find_files u ua un no rs md cdx d m locs rv ck' ss)). split; [rewrite <- HF; apply surjective_pairing|].
          eapply (find_judged md locs rv name ok rest _ (set_loc t) l []); [exact O6|exact EF]. }
      destruct T as (out' & T1 & T2). destruct (IH _ _ T1) as (I1 & I2). cbn [full]. split.
      + constructor; [|exact I1]. split; [split; auto|]. exists ok. auto.
      + intros C. destruct (I2 C) as (bs & B). cbn [map check_all]. rewrite <- (HH C), EC. cbn [rbind]. rewrite B. cbn [rbind]. eauto.
    - destruct (open_nothing u md s Hw Ho) as (t & O1 & O2). rewrite O1 in HF. cbn [need] in HF. rewrite O2 in HF. cbn [full]. eapply IH. exact HF. }
  destruct (G _ _ H) as (G1 & G2). split; [exact G1|]. intros -> C f g Hf Hg Nf Ng. destruct (G2 C) as (bs & B).
  assert (Q : Forall (fun h => h = [] \/ starts_with h CDX = true) (map (head_of locs d) (full fs))).
  { apply Forall_map, Forall_forall. intros x _. unfold head_of. destruct (sh_head x); [left; reflexivity|right; reflexivity]. }
  destruct (match_same u no _ _ _ B Q) as (_ & h0 & A). rewrite Forall_forall in A.
  assert (Z : forall x, In x (full fs) -> sh_head x <> [] -> CDX ++ d :: join d (map lo_name locs ++ sh_names x) ++ [NL] = h0).
  { intros x Hx Nx. destruct (A _ (in_map (head_of locs d) _ _ Hx)) as [Y|Y]; unfold head_of in Y; (destruct (sh_head x); [congruence|]); [discriminate|exact Y]. }
  pose proof (Z f Hf Nf) as Z1. rewrite <- (Z g Hg Ng) in Z1. apply app_inv_head in Z1. injection Z1 as Z1. apply app_inj_tail in Z1. apply Z1.
Qed.
(** Where a different header, a name that is taken already, or a condition that fails on a line comes up, the run does not end well. *)
Definition shaky (names : list bytes) : res (textline -> res bool) := Ok (fun t => match tl_get t 0 with 98%N :: _ => Err | _ => Ok true end).
Example c71_success_ex :
  cgrep any_text no_char no_char any_text all_ok ex_mm true TAB MMatch [bs "line"] false [(bs "a", ex_h1); (bs "b", text (tsv [[" CDX"; "p"; "r"]; ["c"; "z"]]%string))] =
    (tsv [[" CDX"; "line"; "p"; "q"]; ["1"; "a"; "x"]; ["2"; "b"; "y"]]%string, Err) /\
  cgrep any_text no_char no_char any_text all_ok ex_mm true TAB MMatch [bs "q:line"] false [(bs "a", ex_h1)] = ([], Err) /\
  cgrep any_text no_char no_char any_text shaky ex_mm true TAB MMatch [] false [(bs "a", ex_h1); (bs "b", ex_h2)] = (tsv [[" CDX"; "p"; "q"]; ["a"; "x"]]%string, Err) /\
  snd (cgrep any_text no_char no_char any_text all_ok ex_mm true TAB MMatch [bs "line"] false [(bs "a", ex_h1); (bs "b", ex_h2)]) = Ok tt.
Proof. repeat split; vm_compute; reflexivity. Qed.
(** With headers skipped the offset is counted from the end of the header. *)
Theorem c71_skip_refuted : exists s out, cgrep any_text no_char no_char any_text all_ok (mkmode HSkip QPlain TAB NL) true TAB MMatch [bs "bytes"] false [(bs "f", s)] = (out, Ok tt) /\
  content s = tsv [[" CDX"; "p"]; ["b"]]%string /\ out = tsv [["0"; "b"]]%string.
Proof. exists (text (tsv [[" CDX"; "p"]; ["b"]]%string)). eexists. split; [vm_compute; reflexivity|]. split; reflexivity. Qed.
(** In quoted files the line is written without its quotes and its line end, and the offset of the next one is that much too small. *)
Definition quoted_line : bytes := bs """a,b""" ++ [TAB] ++ bs "c".
Theorem c71_quote_refuted : exists s out, cgrep any_text no_char no_char any_text all_ok (mkmode HNo QQuote TAB NL) true TAB MMatch [bs "bytes"] false [(bs "f", s)] = (out, Ok tt) /\
  content s = quoted_line ++ [NL] ++ bs "d" ++ [NL] /\ ~ (exists x y, out = x ++ quoted_line ++ y) /\ ~ (exists x y, out = x ++ bs "8" ++ y).
Proof.
  exists (text (quoted_line ++ [NL] ++ bs "d" ++ [NL])). eexists. split; [vm_compute; reflexivity|]. split; [reflexivity|].
  split; intros (x & y & E).
  - assert (I : In 34%N (x ++ quoted_line ++ y)) by (apply in_or_app; right; left; reflexivity). rewrite <- E in I. cbv in I. intuition discriminate.
  - assert (I : In 56%N (x ++ bs "8" ++ y)) by (apply in_or_app; right; left; reflexivity). rewrite <- E in I. cbv in I. intuition discriminate.
Qed.
(** The places are always followed by a tab: in files with another delimiter they run into the first column, while the header has them apart. *)
Theorem c71_delimiter_refuted : exists s out, cgrep any_text no_char no_char any_text all_ok (mkmode HMaybe QPlain 44 NL) true 44 MMatch [bs "line"] false [(bs "f", s)] = (out, Ok tt) /\
  content s = bs " CDX,p,q" ++ [NL] ++ bs "a,b" ++ [NL] /\ out = bs " CDX,line,p,q" ++ [NL] ++ bs "1" ++ [TAB] ++ bs "a,b" ++ [NL].
Proof. exists (text (bs " CDX,p,q" ++ [NL] ++ bs "a,b" ++ [NL])). eexists. split; [vm_compute; reflexivity|]. split; reflexivity. Qed.
