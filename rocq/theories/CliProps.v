(** C72: the command line; C73: text formats. *)
From Coq Require Import String List NArith ZArith Bool Arith Lia Sorting.Permutation Sorting.Sorted.
Open Scope list_scope.
Import ListNotations.
From Verif Require Import Base TextModel TextSpec TextProofs ReadModel ReadProofs HdrModel ToolModel PasteProps FormModel CompSpec SortModel SortSpec SortProofs CliModel CliProofs NumbProps TurnProps HeadModel LocModel.
Close Scope Z_scope.
Open Scope nat_scope.

(** The options reach a tool in the order of the command line, each as often as it was given and with its own value, whatever the order of
    its table; the formats are the last ones given; the files are those given, or the standard input. *)
Theorem c72_parse : forall c sp m s, NoDup (map o_name sp) -> clap_like sp m -> clap_like global_args m ->
  (forall o, In o m -> ~ In (oc_name o) (bs "std-help" :: shows)) -> fine m (bs "text-in") -> fine m (bs "text-out") ->
  exists s', parse c sp m s = Good (s', filter (own sp) m,
      match c, named (bs "input_files") m with FZero, _ => [] | _, [] => [bs "-"] | _, l => map oc_value l end) /\
    match last_of (bs "text-in") m with None => se_in s' = se_in s | Some v => form_new v = Ok (se_in s') end /\
    match last_of (bs "text-out") m with None => se_out s' = se_out s | Some v => exists f, se_out s' = Some f /\ form_new v = Ok f end.
Proof. exact parse_ok. Qed.
Definition ex_line : list occ :=
  [mkocc (bs "expr") (bs "x:1") 1; mkocc (bs "text-in") (bs "n,") 3; mkocc (bs "fields") (bs "2") 5; mkocc (bs "input_files") (bs "f1") 6;
   mkocc (bs "expr") (bs "y:2") 8; mkocc (bs "text-in") (bs "y") 10; mkocc (bs "input_files") (bs "f2") 11].
Lemma ex_line_sorted : StronglySorted (fun a b => (oc_index a < oc_index b)%N) ex_line.
Proof. unfold ex_line. repeat constructor. Qed.
Lemma ex_line_like sp : forallb (fun o => forallb (fun x => negb (beq (oc_name o) (o_name x)) || negb (beq (o_value x) []) || beq (oc_value o) []) sp) ex_line = true -> clap_like sp ex_line.
Proof.
  intros H. split; [exact ex_line_sorted|]. intros o x Ho Hx E V. rewrite forallb_forall in H. specialize (H o Ho). rewrite forallb_forall in H. specialize (H x Hx).
  rewrite E, V, beq_refl in H. cbn in H. apply beq_eq. exact H.
Qed.
Example c72_parse_ex : NoDup (map o_name (t_opts cut_tool)) /\ clap_like (t_opts cut_tool) ex_line /\ clap_like global_args ex_line /\
  (forall o, In o ex_line -> ~ In (oc_name o) (bs "std-help" :: shows)) /\ fine ex_line (bs "text-in") /\
  parse FMany (t_opts cut_tool) ex_line set_new = Good (mkset (mkform HYes QPlain TAB NL SPC) None,
    [mkocc (bs "expr") (bs "x:1") 1; mkocc (bs "fields") (bs "2") 5; mkocc (bs "expr") (bs "y:2") 8], [bs "f1"; bs "f2"]).
Proof.
  split; [repeat constructor; cbv; intuition discriminate|]. split; [apply ex_line_like; reflexivity|]. split; [apply ex_line_like; reflexivity|].
  split; [intros o Ho; repeat destruct Ho as [<-|Ho]; try contradiction; cbv; intuition discriminate|].
  split; [|reflexivity]. intros o Ho E. repeat destruct Ho as [<-|Ho]; try contradiction; try (cbv in E; discriminate); eexists; reflexivity.
Qed.
(** The tables: no tool has two options of the same name or letter, nor one of a name that is taken for all tools. *)
Definition taken : list bytes := map bs ["std-help"; "input_files"; "help"; "version"]%string ++ map o_name global_args.
Fixpoint distinct (l : list bytes) : bool := match l with [] => true | x :: r => negb (existsb (beq x) r) && distinct r end.
Lemma distinct_ok l : distinct l = true -> NoDup l.
Proof.
  induction l as [|x l IH]; intros H; [constructor|]. cbn [distinct] in H. apply andb_true_iff in H. destruct H as (H1 & H2). constructor; [|auto].
  intros I. apply negb_true_iff in H1. apply not_true_iff_false in H1. apply H1. apply existsb_exists. exists x. split; [exact I|apply beq_refl].
Qed.
Theorem c72_tables : forall t, In t main_list -> NoDup (map o_name (t_opts t) ++ taken) /\ NoDup (filter (fun x => negb (beq x [])) (map o_short (t_opts t))).
Proof.
  intros t H. assert (A : forallb (fun t => distinct (map o_name (t_opts t) ++ taken) && distinct (filter (fun x => negb (beq x [])) (map o_short (t_opts t)))) main_list = true) by (vm_compute; reflexivity).
  rewrite forallb_forall in A. specialize (A t H). apply andb_true_iff in A. destruct A as (A1 & A2). split; apply distinct_ok; assumption.
Qed.
Example c72_tables_ex : In sort_tool main_list /\ map o_short (t_opts sort_tool) = map bs ["k"; "u"; "m"; "c"; "C"; "a"; "A"]%string.
Proof. split; [cbv; tauto|reflexivity]. Qed.
(** So for every tool the options come in the order of the command line. *)
Theorem c72_tools : forall t m s s' args files, In t main_list -> clap_like (t_opts t) m -> parse (t_files t) (t_opts t) m s = Good (s', args, files) ->
  args = filter (own (t_opts t)) m /\ files = match t_files t, named (bs "input_files") m with FZero, _ => [] | _, [] => [bs "-"] | _, l => map oc_value l end.
Proof.
  intros t m s s' args files H. apply parse_order. destruct (c72_tables t H) as (N & _). clear H. induction (map o_name (t_opts t)) as [|x l IH]; [constructor|].
  cbn [app] in N. inversion N; subst. constructor; auto. intros I. apply H1. apply in_or_app. auto.
Qed.
Example c72_tools_ex : In cut_tool main_list /\ exists s' args files, parse (t_files cut_tool) (t_opts cut_tool) ex_line set_new = Good (s', args, files) /\ List.length args = 3.
Proof. split; [cbv; tauto|]. do 3 eexists. split; reflexivity. Qed.

(** Help options end the run with success, a format that is not one with failure. *)
Theorem c72_help : forall c sp m s, (exists o, In o m /\ oc_name o = bs "std-help") -> parse c sp m s = Stop NoError.
Proof. exact parse_help. Qed.
Theorem c72_show : forall c sp m s, clap_like global_args m -> (forall o, In o m -> oc_name o <> bs "std-help") -> fine m (bs "text-in") -> fine m (bs "text-out") ->
  (exists o, In o m /\ In (oc_name o) shows) -> parse c sp m s = Stop NoError.
Proof. exact parse_shows. Qed.
Theorem c72_bad_format : forall c sp m s o, clap_like global_args m -> (forall o, In o m -> oc_name o <> bs "std-help") ->
  In o m -> oc_name o = bs "text-in" \/ oc_name o = bs "text-out" -> form_new (oc_value o) = Err -> parse c sp m s = Stop Other.
Proof. exact parse_bad. Qed.
Example c72_help_ex : parse FMany [] [mkocc (bs "text-in") (bs "q") 2; mkocc (bs "std-help") [] 3] set_new = Stop NoError /\
  parse FMany [] [mkocc (bs "std-agg") [] 1; mkocc (bs "text-out") (bs "n") 3] set_new = Stop NoError /\
  parse FMany [] [mkocc (bs "std-agg") [] 1; mkocc (bs "text-out") (bs "q") 3] set_new = Stop Other.
Proof. repeat split; reflexivity. Qed.

(** Four options that are in the tables but not known to the loops behind them. *)
Definition forgotten : list (bytes * bytes) :=
  map (fun '(a, b) => (bs a, bs b)) [("binsearch", "sub-delim"); ("uniq", "agg-help"); ("verify", "report"); ("verify", "show-matchers")]%string.
(** All others are handled: whatever the arms do, the loop over the options ends in a panic only if an arm does. *)
Theorem c72_handled : forall t m s s' args files, In t main_list -> clap_like (t_opts t) m ->
  (forall o, In o m -> ~ In (t_name t, oc_name o) forgotten) -> parse (t_files t) (t_opts t) m s = Good (s', args, files) ->
  forall St (arm : bytes -> bytes -> St -> out St) st, (forall n v s, In n (map o_name (t_opts t)) -> arm n v s <> Crash) -> handle (t_known t) arm st args <> Crash.
Proof.
  intros t m s s' args files H C F P St arm st A. destruct (c72_tools t m s s' args files H C P) as (-> & _).
  assert (K : forallb (fun t => forallb (fun x => existsb (fun '(a, b) => beq a (t_name t) && beq b (o_name x)) forgotten || existsb (beq (o_name x)) (t_known t)) (t_opts t)) main_list = true) by (vm_compute; reflexivity).
  rewrite forallb_forall in K. specialize (K t H). rewrite forallb_forall in K.
  assert (G : Forall (fun o => In (oc_name o) (t_known t) /\ In (oc_name o) (map o_name (t_opts t))) (filter (own (t_opts t)) m)).
  { apply Forall_forall. intros o Ho. apply filter_In in Ho. destruct Ho as (Ho & E). unfold own in E. apply existsb_exists in E. destruct E as (x & Hx & E). apply beq_eq in E.
    specialize (K x Hx). apply orb_true_iff in K. rewrite E. split; [|apply in_map; exact Hx]. destruct K as [K|K].
    - exfalso. apply existsb_exists in K. destruct K as ((a & b) & Hab & K). apply andb_true_iff in K. destruct K as (K1 & K2). apply beq_eq in K1, K2. apply (F o Ho). rewrite E. congruence.
    - apply existsb_exists in K. destruct K as (n & Hn & K). apply beq_eq in K. congruence. }
  clear -A G. revert st. induction G as [|o l (G1 & G2) G IH]; intros st; [discriminate|]. cbn [handle].
  destruct (existsb (beq (oc_name o)) (t_known t)) eqn:X; [|apply not_true_iff_false in X; exfalso; apply X; apply existsb_exists; exists (oc_name o); split; [exact G1|apply beq_refl]].
  specialize (A (oc_name o) (oc_value o) st G2). destruct (arm (oc_name o) (oc_value o) st); cbn [obind]; auto; discriminate.
Qed.
Example c72_handled_ex : In cut_tool main_list /\ (forall o, In o ex_line -> ~ In (t_name cut_tool, oc_name o) forgotten) /\
  handle (t_known cut_tool) (fun n v s => Good (s ++ [(n, v)])) [] (filter (own (t_opts cut_tool)) ex_line) = Good [(bs "expr", bs "x:1"); (bs "fields", bs "2"); (bs "expr", bs "y:2")].
Proof. split; [cbv; tauto|]. split; [|reflexivity]. intros o Ho. repeat destruct Ho as [<-|Ho]; try contradiction; cbv; intuition discriminate. Qed.
(** The four make the tool panic, whatever its arms do. *)
Theorem c72_handled_refuted : exists t n m, In t main_list /\ In n (map o_name (t_opts t)) /\ clap_like (t_opts t) m /\ m = [mkocc n (bs ";") 2] /\
  exists s' args files, parse (t_files t) (t_opts t) m set_new = Good (s', args, files) /\
    forall St (arm : bytes -> bytes -> St -> out St) st, handle (t_known t) arm st args = Crash.
Proof.
  exists binsearch_tool, (bs "sub-delim"), [mkocc (bs "sub-delim") (bs ";") 2]. split; [cbv; tauto|]. split; [cbv; tauto|]. split; [|split; [reflexivity|]].
  - split; [repeat constructor|]. intros o x [<-|[]] Hx E V. exfalso. cbn in Hx. repeat destruct Hx as [<-|Hx]; try contradiction; cbv in E, V; discriminate.
  - do 3 eexists. split; [vm_compute; reflexivity|]. intros. reflexivity.
Qed.
Theorem c72_forgotten : forall tn on, In (tn, on) forgotten -> exists t, In t main_list /\ t_name t = tn /\ In on (map o_name (t_opts t)) /\
  forall St (arm : bytes -> bytes -> St -> out St) st v i r, handle (t_known t) arm st (mkocc on v i :: r) = Crash.
Proof.
  intros tn on H. cbn in H. destruct H as [H|[H|[H|[H|[]]]]]; injection H as <- <-; [exists binsearch_tool|exists uniq_tool|exists verify_tool|exists verify_tool];
    (split; [cbv; tauto|]; split; [reflexivity|]; split; [cbv; tauto|]; intros; reflexivity).
Qed.
Example c72_forgotten_ex : In (bs "verify", bs "report") forgotten.
Proof. cbv. tauto. Qed.
(** Two names the loop of verify knows cannot be given. *)
Theorem c72_known_refuted : exists t n, In t main_list /\ In n (t_known t) /\ ~ In n (map o_name (t_opts t)) /\ ~ In n taken.
Proof. exists verify_tool, (bs "fail"). split; [cbv; tauto|]. split; [cbv; tauto|]. split; cbv; intuition discriminate. Qed.

(** Options with a list of values: what clap lets through, in any case of letters, is understood. *)
Definition pad_new (v : bytes) : res pad_mode := (* /repo/src/bin/cdx/cat_main.rs:98-107 *)
  if beq (map lower v) (bs "yes") then Ok PadAll else if beq (map lower v) (bs "no") then Ok PadNone else if beq (map lower v) (bs "end") then Ok PadEnd else Panic.
Theorem c72_values : forall t x v w, In t main_list -> In x (t_opts t) -> In w (o_values x) -> map lower v = map lower w ->
  (t = cat_tool /\ o_name x = bs "pad" /\ exists a, pad_new v = Ok a) \/ (t = paste_tool /\ o_name x = bs "end" /\ exists a, end_new v = Ok a) \/
  (o_name x = bs "dups" /\ exists a, dup_new v = Ok a).
Proof.
  intros t x v w Ht Hx Hw E. unfold pad_new, end_new, dup_new. rewrite E. clear v E. cbn in Ht.
  repeat destruct Ht as [<-|Ht]; try contradiction; cbn [t_opts binsearch_tool calc_tool cat_tool cgrep_tool cut_tool filegen_tool join_tool paste_tool sample_tool sort_tool tabs_tool tooltest_tool transpose_tool uniq_tool verify_tool wc_tool] in Hx; repeat destruct Hx as [<-|Hx]; try contradiction; cbn in Hw; repeat destruct Hw as [<-|Hw]; try contradiction;
    first [left; split; [reflexivity|]; split; [reflexivity|]; eexists; vm_compute; reflexivity
          |right; left; split; [reflexivity|]; split; [reflexivity|]; eexists; vm_compute; reflexivity
          |right; right; split; [reflexivity|]; eexists; vm_compute; reflexivity].
Qed.
Example c72_values_ex : In (bs "Numeric") (o_values (opt "dups" "D" "Mode" ["Fail"; "Allow"; "Numeric"]%string false)) /\ dup_new (bs "NUMERIC") = Ok DNumeric.
Proof. split; [cbv; tauto|reflexivity]. Qed.

(** A tool is called by its name with the remaining arguments; anything else runs no tool, and succeeds only for help and version. *)
Theorem c72_dispatch : forall procs p t rest, In t main_list -> inner_main procs (p :: t_name t :: rest) = procs (t_name t) ((p ++ bs " " ++ t_name t) :: rest).
Proof. intros procs p t rest H. cbn in H. repeat destruct H as [<-|H]; try contradiction; reflexivity. Qed.
Theorem c72_no_tool : forall procs procs' argv, (forall p n rest t, argv = p :: n :: rest -> In t main_list -> n <> t_name t) ->
  inner_main procs argv = inner_main procs' argv /\
  (inner_main procs argv = Good tt <-> exists p n rest, argv = p :: n :: rest /\ In n (map bs ["help"; "--help"; "version"; "--version"]%string)) /\
  (inner_main procs argv <> Good tt -> inner_main procs argv = Stop Silent).
Proof.
  intros procs procs' argv H. unfold inner_main, inner_act. destruct argv as [|p [|n rest]].
  - split; [reflexivity|]. split; [split; [discriminate|intros (p & n & r & E & _); discriminate]|auto].
  - split; [reflexivity|]. split; [split; [discriminate|intros (q & n & r & E & _); discriminate]|auto].
  - assert (F : find (fun t => beq n (t_name t)) main_list = None).
    { destruct (find (fun t => beq n (t_name t)) main_list) eqn:E; [|reflexivity]. apply find_some in E. destruct E as (I & E). apply beq_eq in E. exfalso. apply (H p n rest t eq_refl I E). }
    assert (Q : inner_act (p :: n :: rest) = if beq n (bs "help") || beq n (bs "--help") then AHelp else if beq n (bs "version") || beq n (bs "--version") then AVersion else AUnknown).
    { unfold inner_act. rewrite F. reflexivity. }
    unfold inner_act in Q. rewrite Q.
    destruct (beq n (bs "help")) eqn:E1; [apply beq_eq in E1|]; [cbn [orb]; split; [reflexivity|]; split; [split; [intros _; exists p, n, rest; split; auto; cbn [map]; left; congruence|auto]|congruence]|].
    destruct (beq n (bs "--help")) eqn:E2; [apply beq_eq in E2|]; [cbn [orb]; split; [reflexivity|]; split; [split; [intros _; exists p, n, rest; split; auto; cbn [map]; right; left; congruence|auto]|congruence]|].
    destruct (beq n (bs "version")) eqn:E3; [apply beq_eq in E3|]; [cbn [orb]; split; [reflexivity|]; split; [split; [intros _; exists p, n, rest; split; auto; cbn [map]; right; right; left; congruence|auto]|congruence]|].
    destruct (beq n (bs "--version")) eqn:E4; [apply beq_eq in E4|]; [cbn [orb]; split; [reflexivity|]; split; [split; [intros _; exists p, n, rest; split; auto; cbn [map]; right; right; right; left; congruence|auto]|congruence]|].
    cbn [orb]. split; [reflexivity|]. split; [|auto]. split; [discriminate|]. intros (p' & n' & r' & E & I). exfalso. injection E as _ <- _.
    cbn [map] in I. repeat destruct I as [<-|I]; try contradiction; rewrite beq_refl in *; discriminate.
Qed.
Example c72_dispatch_ex : In cut_tool main_list /\ inner_main (fun _ _ => Stop Other) [bs "cdx"; bs "cut"; bs "-f"; bs "1"] = Stop Other /\
  inner_main (fun _ _ => Stop Other) [bs "cdx"; bs "--version"; bs "cut"] = Good tt /\ inner_main (fun _ _ => Good tt) [bs "cdx"; bs "Cut"] = Stop Silent.
Proof. split; [cbv; tauto|]. repeat split; reflexivity. Qed.
(** The exit code is zero exactly for a run that succeeded, only showed help, or whose reader went away; an error is reported unless it has been. *)
Theorem c72_exit : forall r, (fst (exit_code r) = 0%N <-> r = Good tt \/ r = Stop NoError \/ r = Stop BrokenPipe) /\ (snd (exit_code r) = true <-> r = Stop Other \/ r = Crash).
Proof. intros [[]|[]|]; cbn; split; split; intros H; auto; try discriminate; intuition discriminate. Qed.
Example c72_exit_ex : exit_code (inner_main (fun _ _ => Good tt) [bs "cdx"]) = (1%N, false).
Proof. reflexivity. Qed.

(** ** C73: the formats of texts *)
(** The letters of the help text. *)
Definition head_letter (c : N) (h : head_mode) : Prop := (c, h) = (109%N, HMaybe) \/ (c, h) = (121%N, HYes) \/ (c, h) = (110%N, HNo) \/ (c, h) = (115%N, HSkip) \/ (c, h) = (120%N, HCdx).
Definition quote_letter (c : N) (q : quote_mode) : Prop := (c, q) = (112%N, QPlain) \/ (c, q) = (113%N, QQuote) \/ (c, q) = (98%N, QBackslash).
(** Auto escaping: t, s, r and n are tab, space, return and newline, any other character is itself. *)
Definition escaped (c b : N) : Prop := (c, b) = (116%N, 9%N) \/ (c, b) = (115%N, 32%N) \/ (c, b) = (114%N, 13%N) \/ (c, b) = (110%N, 10%N) \/ (~ In c [116; 115; 114; 110]%N /\ b = c).
Lemma escape_ok c b : (c < 256)%N -> escaped c b -> auto_escape c = b.
Proof.
  intros L [E|[E|[E|[E|(N & E)]]]]; try (injection E as -> ->; reflexivity). subst b. unfold auto_escape.
  destruct (N.eqb_spec c 116); [exfalso; apply N; subst; cbn; tauto|]. destruct (N.eqb_spec c 115); [exfalso; apply N; subst; cbn; tauto|].
  destruct (N.eqb_spec c 114); [exfalso; apply N; subst; cbn; tauto|]. destruct (N.eqb_spec c 110); [exfalso; apply N; subst; cbn; tauto|]. apply N.mod_small. exact L.
Qed.
(** A format of n letters sets the first n of header mode, delimiter, quoting, replacement and line end; the others keep their defaults. *)
Theorem c73_format : forall n h d q r b hm qm db rb bb dflt, head_letter h hm -> quote_letter q qm -> (d < 256)%N -> (r < 256)%N -> (b < 256)%N -> escaped d db -> escaped r rb -> escaped b bb ->
  form_new_with (firstn n [h; d; q; r; b]) dflt = Ok (mkform (if 0 <? n then hm else fo_head dflt) (if 2 <? n then qm else fo_quote dflt)
    (if 1 <? n then db else fo_delim dflt) (if 4 <? n then bb else fo_break dflt) (if 3 <? n then rb else fo_repl dflt)).
Proof.
  intros n h d q r b hm qm db rb bb dflt H Q Ld Lr Lb D R B. apply escape_ok in D, R, B; auto.
  assert (H1 : head_char h = Ok hm) by (destruct H as [H|[H|[H|[H|H]]]]; injection H as -> ->; reflexivity).
  assert (Q1 : quote_char q = Ok qm) by (destruct Q as [Q|[Q|Q]]; injection Q as -> ->; reflexivity).
  unfold form_new_with. destruct n as [|[|[|[|[|n]]]]]; cbn [firstn take rbind]; rewrite ?H1; cbn [rbind take]; rewrite ?Q1; cbn [rbind take]; rewrite ?D, ?R, ?B; reflexivity.
Qed.
Example c73_format_ex : head_letter 121 HYes /\ quote_letter 113 QQuote /\ escaped 44 44 /\ escaped 115 32 /\ escaped 110 10 /\
  form_new (bs "y,q") = Ok (mkform HYes QQuote 44 NL SPC) /\ form_new (bs "y") = form_new (bs "ytpsn").
Proof. split; [cbv; tauto|]. split; [cbv; tauto|]. split; [right; right; right; right; split; [cbv; intuition discriminate|reflexivity]|]. split; [cbv; tauto|]. split; [cbv; tauto|]. split; reflexivity. Qed.
(** Omitted letters stand for the defaults, so one may leave out the end. *)
Theorem c73_omitted : forall c h, head_letter c h -> form_new [c] = form_new (c :: bs "tpsn") /\ form_new [c] = Ok (mkform h QPlain TAB NL SPC).
Proof. intros c h [H|[H|[H|[H|H]]]]; injection H as -> ->; split; reflexivity. Qed.
Example c73_omitted_ex : head_letter 110 HNo.
Proof. cbv. tauto. Qed.
(** No other letters. *)
Theorem c73_only : forall s dflt f, form_new_with s dflt = Ok f -> (s = [] \/ exists h r, s = h :: r /\ head_letter h (fo_head f)) /\
  (List.length s <= 2 \/ exists h d q r, s = h :: d :: q :: r /\ quote_letter q (fo_quote f)).
Proof.
  intros s dflt f H. unfold form_new_with in H. destruct s as [|h s]; [split; left; cbn; auto; lia|].
  cbn [take] in H. destruct (head_char h) eqn:E; cbn [rbind] in H; try discriminate.
  assert (HL : head_letter h a).
  { unfold head_char in E. destruct (N.eqb_spec h 121); [injection E as <-; subst; cbv; tauto|]. destruct (N.eqb_spec h 110); [injection E as <-; subst; cbv; tauto|]. destruct (N.eqb_spec h 115); [injection E as <-; subst; cbv; tauto|].
    destruct (N.eqb_spec h 109); [injection E as <-; subst; cbv; tauto|]. destruct (N.eqb_spec h 120); [injection E as <-; subst; cbv; tauto|discriminate]. }
  destruct s as [|d s]; cbn [take rbind] in H; [injection H as <-; split; [right; exists h, []; auto|left; cbn; lia]|].
  destruct s as [|q s]; cbn [take rbind] in H; [injection H as <-; split; [right; exists h, [d]; auto|left; cbn; lia]|].
  destruct (quote_char q) eqn:EQ; cbn [rbind] in H; try discriminate.
  assert (QL : quote_letter q a0).
  { unfold quote_char in EQ. destruct (N.eqb_spec q 112); [injection EQ as <-; subst; cbv; tauto|]. destruct (N.eqb_spec q 113); [injection EQ as <-; subst; cbv; tauto|]. destruct (N.eqb_spec q 98); [injection EQ as <-; subst; cbv; tauto|discriminate]. }
  assert (X : fo_head f = a /\ fo_quote f = a0) by (destruct s as [|r s]; cbn [take rbind] in H; [injection H as <-; auto|destruct s; cbn [take rbind] in H; injection H as <-; auto]).
  destruct X as (-> & ->). split; right; [exists h, (d :: q :: s)|exists h, d, q, s]; auto.
Qed.
Example c73_only_ex : form_new (bs "q") = Err /\ form_new (bs "ytx") = Err /\ form_new (bs "M") = Err.
Proof. repeat split. Qed.
(** Without an output format the output is written as the input is read. *)
Theorem c73_out : forall f d, text_out (mkset f None) = f /\ text_out2 (mkset f None) d = mkform (fo_head f) (fo_quote f) d (fo_break f) (fo_repl f) /\
  forall g, text_out (mkset f (Some g)) = g /\ text_out2 (mkset f (Some g)) d = g.
Proof. intros. repeat split. Qed.
Example c73_out_ex : exists f, form_new (bs "n,q") = Ok f /\ text_out (mkset f None) = mkform HNo QQuote 44 NL SPC.
Proof. eexists. split; reflexivity. Qed.
(** What an output format leaves out is not taken from the input format. *)
Theorem c73_out_defaults_refuted : exists m s f, m = [mkocc (bs "text-in") (bs "n,") 2; mkocc (bs "text-out") (bs "n") 4] /\
  parse FMany [] m set_new = Good (s, [], [bs "-"]) /\ form_new_with (bs "n") (se_in s) = Ok f /\ fo_delim f = 44%N /\ fo_delim (text_out s) = TAB.
Proof. do 3 eexists. split; [reflexivity|]. split; [reflexivity|]. split; [reflexivity|]. split; reflexivity. Qed.
(** More than five letters are accepted, the rest without effect. *)
Theorem c73_longer_refuted : exists s, List.length s = 9 /\ form_new s = Ok form_default.
Proof. exists (bs "mtpsnjunk"). split; reflexivity. Qed.
(** A character beyond 255 is cut down to a byte: this one is a tab. *)
Theorem c73_char_refuted : exists c, escaped c c /\ auto_escape c = TAB.
Proof. exists 265%N. split; [right; right; right; right; split; [cbv; intuition discriminate|reflexivity]|reflexivity]. Qed.
(** A header is said to be required with y and forbidden with n: a file without one is accepted, its first line taken for the names; a header
    is accepted, taken for a line of data. *)
Theorem c73_required_refuted : exists s f, content s = tsv [["a"; "b"]; ["c"; "d"]]%string /\ open_file any_text (mkmode HYes QPlain TAB NL) s = Ok f /\ tf_names f = [bs "a"; bs "b"].
Proof. exists (text (tsv [["a"; "b"]; ["c"; "d"]]%string)). eexists. split; [reflexivity|]. split; [vm_compute; reflexivity|reflexivity]. Qed.
Theorem c73_forbidden_refuted : exists s f, content s = tsv [[" CDX"; "b"]; ["c"; "d"]]%string /\ open_file any_text (mkmode HNo QPlain TAB NL) s = Ok f /\ tf_head f = None /\
  tl_line (nth 0 (r_lines (tf_rd f)) tl_new) = tsv [[" CDX"; "b"]]%string.
Proof. exists (text (tsv [[" CDX"; "b"]; ["c"; "d"]]%string)). eexists. split; [reflexivity|]. split; [vm_compute; reflexivity|split; reflexivity]. Qed.
(** The output of cgrep (/repo/src/bin/cdx/cgrep_main.rs:18-75) without conditions for a file with header, in an output format of one letter. *)
Definition shown_as (f : bytes) (s : src) : option tool :=
  match form_new f with
  | Ok o => Some (cgrep any_text no_char no_char any_text (fun _ => Ok (fun _ => Ok true)) ex_mm (has_cdx (fo_head o)) (fo_delim o) HeadModel.MMatch [] false [(bs "f", s)])
  | _ => None
  end.
(** Written with y the header is not a CDX header, and with n it is still written, a line of names before the data. *)
Theorem c73_out_yes_refuted : exists s, content s = tsv [[" CDX"; "p"]; ["b"]]%string /\ shown_as (bs "y") s = Some (tsv [["p"]; ["b"]]%string, Ok tt) /\ shown_as (bs "m") s = Some (content s, Ok tt).
Proof. exists (text (tsv [[" CDX"; "p"]; ["b"]]%string)). split; [reflexivity|]. split; vm_compute; reflexivity. Qed.
Theorem c73_out_no_refuted : exists s, content s = tsv [[" CDX"; "p"]; ["b"]]%string /\ shown_as (bs "n") s = Some (tsv [["p"]; ["b"]]%string, Ok tt).
Proof. exists (text (tsv [[" CDX"; "p"]; ["b"]]%string)). split; [reflexivity|]. vm_compute; reflexivity. Qed.
