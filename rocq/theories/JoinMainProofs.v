(** Proofs about the join tool. *)
From Coq Require Import String List NArith ZArith Bool Arith Lia Sorting.Sorted.
Open Scope list_scope.
Import ListNotations.
From Verif Require Import Base TextSpec TextModel TextProofs StrSpec StrModel StrProofs FloatModel ReadSpec ReadModel ReadProofs HdrModel HdrProofs CompModel CompSpec OrdProofs LineSpec LineProofs
  ColModel ColSpec ColProofs ColProps MatchModel SortSpec KeySpec KeyModel KeyProofs ToolModel ToolOpen TurnSpec TurnProofs PasteSpec PasteProofs OrderSpec OrderProofs OrderTool
  JoinSpec JoinProofs JoinMain JoinMainSpec.
From Verif Require JoinModel JoinProps MatchText TransProofs.
Close Scope Z_scope. Open Scope nat_scope.

Lemma join_joins : forall d ls, Forall (fun l => l <> []) ls -> join d (map (join d) ls) = join d (concat ls).
Proof.
  induction ls as [|l ls IH]; intros F; [reflexivity|]. inversion F as [|? ? H F2]; subst. destruct ls as [|m ls]; [cbn [map concat join]; rewrite app_nil_r; reflexivity|].
  rewrite (map_cons (join d) l (m :: ls)), join_cons by discriminate. rewrite IH by auto. cbn [concat]. inversion F2; subst. symmetry. apply join_app; auto.
  destruct m; [congruence|discriminate].
Qed.

Lemma last_cons : forall {A} (l : list A) v d, last (v :: l) d = last l v.
Proof. induction l as [|x l IH]; intros v d; [reflexivity|]. change (last (v :: x :: l) d) with (last (x :: l) d). rewrite !IH. reflexivity. Qed.

(** * The text of --output *)
Definition ask_parts (a : ask) : list bytes :=
  match snd a with [] => [print_N (fst a) ++ [46%N]] | s :: r => (print_N (fst a) ++ 46%N :: spec_text s) :: map spec_text r end.
Lemma ask_parts_text : forall a, ask_text a = join 44 (ask_parts a).
Proof.
  intros [n [|s [|s2 r]]]; unfold ask_text, ask_parts; cbn [fst snd map]; auto.
  cbn [join]. destruct r; cbn [map join]; rewrite <- app_assoc; reflexivity.
Qed.
Section Output.
Variable uni_alpha uni_alnum : N -> bool.
Variable T : Type.
Variable trans_make : bytes -> res T.
Notation letter := (alphabetic uni_alpha).
Notation alnum := (alphanumeric uni_alnum).
Notation ask_ok := (ask_ok letter alnum).
Notation parts_done := (output_parts uni_alpha T trans_make).

Lemma asks_split : forall asks, asks <> [] -> Forall ask_ok asks -> split_str 44 (output_text asks) = flat_map ask_parts asks.
Proof.
  intros asks NE F. unfold output_text. rewrite (map_ext _ _ ask_parts_text). rewrite <- (map_map ask_parts (join 44)). rewrite join_joins, flat_map_concat_map.
  - apply TransProofs.split_str_join.
    + destruct asks as [|a asks]; [congruence|]. cbn [map concat]. unfold ask_parts. destruct (snd a); discriminate.
    + apply Forall_concat. rewrite Forall_map. eapply Forall_impl; [|exact F]. intros [n l] (_ & NL_ & S). cbn [fst snd] in *. unfold ask_parts. cbn [fst snd].
      destruct l as [|s r]; [congruence|]. inversion S as [|? ? S1 S2]; subst. constructor.
      * intros I. apply in_app_or in I as [I|[I|I]]; [|discriminate|destruct S1 as (_ & _ & Q & _); auto]. apply print_no in I; [auto|lia].
      * rewrite Forall_map. eapply Forall_impl; [|exact S2]. intros x X. apply X.
  - rewrite Forall_map. apply Forall_forall. intros a _. unfold ask_parts. destruct (snd a); discriminate.
Qed.

Definition set_of (c : colset T) (specs : list cspec) : colset T := fold_left (fun c s => put_parts T c (parts_of false s) None) specs c.
Lemma add_simple : forall c s, simple letter alnum s -> add uni_alpha trans_make c (spec_text s) false = Ok (put_parts T c (parts_of false s) None).
Proof. intros c s (S & N & _). rewrite (add_spec uni_alpha uni_alnum T trans_make (fun _ _ => Err) (fun _ => Err)) by auto. rewrite N. reflexivity. Qed.
Lemma put_some : forall c s, spec_ok letter alnum s -> no_parts T (put_parts T c (parts_of false s) None) = false.
Proof.
  intros c s (_ & NE & _). unfold no_parts, put_parts. cbn [cs_pos cs_neg]. destruct (parts_of false s) as [|q qs] eqn:E.
  { unfold parts_of in E. apply app_eq_nil in E as [E1 E2]. apply map_eq_nil in E1. destruct (s_group s); [discriminate|]. destruct NE; congruence. }
  cbn [filter]. destruct (q_not q); cbn [negb map].
  - destruct (cs_pos c ++ _); auto. destruct (cs_neg c); reflexivity.
  - destruct (cs_pos c); reflexivity.
Qed.
Lemma set_some : forall specs c, Forall (simple letter alnum) specs -> specs <> [] -> no_parts T (set_of c specs) = false.
Proof.
  induction specs as [|s r IH]; intros c F NE; [congruence|]. inversion F as [|? ? S F2]; subst. cbn [set_of fold_left]. destruct r as [|s2 r].
  - apply put_some. apply S.
  - apply IH; auto. discriminate.
Qed.
Lemma more_parts : forall r c f acc more, Forall (simple letter alnum) r ->
  parts_done (map spec_text r ++ more) (Some f) c acc = parts_done more (Some f) (set_of c r) acc.
Proof.
  induction r as [|s r IH]; intros c f acc more F; [reflexivity|]. inversion F as [|? ? S F2]; subst. cbn [map app output_parts].
  rewrite MatchText.split_once_none by apply S. rewrite add_simple by auto. cbn [rbind]. rewrite IH by auto. reflexivity.
Qed.
Definition parsed (a : ask) : N * colset T := ((fst a - 1)%N, set_of set_new (snd a)).
Lemma one_ask : forall a file set acc more, ask_ok a ->
  parts_done (ask_parts a ++ more) file set acc =
  rbind (flush T file set acc) (fun acc => parts_done more (Some (fst a - 1)%N) (set_of (if no_parts T set then set else set_new) (snd a)) acc).
Proof.
  intros [n [|s r]] file set acc more (B & NE & F); cbn [fst snd] in *; [congruence|]. inversion F as [|? ? S F2]; subst. unfold ask_parts. cbn [fst snd app output_parts].
  rewrite MatchText.split_once_app by (apply print_no; lia). destruct (flush T file set acc); cbn [rbind]; auto.
  rewrite to_usize_whole_print by lia. cbn [rbind]. destruct (N.eqb_spec n 0); [lia|]. rewrite add_simple by auto. cbn [rbind]. rewrite more_parts by auto. reflexivity.
Qed.
Lemma next_asks : forall asks f set acc, Forall ask_ok asks -> no_parts T set = false ->
  parts_done (flat_map ask_parts asks) (Some f) set acc = Ok (acc ++ (f, set) :: map parsed asks).
Proof.
  induction asks as [|a asks IH]; intros f set acc F N; cbn [flat_map].
  - cbn [output_parts]. unfold flush. rewrite N. reflexivity.
  - inversion F as [|? ? A F2]; subst. rewrite one_ask by auto. unfold flush. rewrite N. cbn [rbind]. rewrite IH; auto.
    + rewrite <- app_assoc. reflexivity.
    + destruct A as (_ & NE & S). apply set_some; auto.
Qed.
Lemma output_ok : forall asks acc, asks <> [] -> Forall ask_ok asks -> parts_done (split_str 44 (output_text asks)) None set_new acc = Ok (acc ++ map parsed asks).
Proof.
  intros asks acc NE F. rewrite asks_split by auto. destruct asks as [|a asks]; [congruence|]. inversion F as [|? ? A F2]; subst. cbn [flat_map]. rewrite one_ask by auto.
  cbn [flush no_parts set_new cs_pos cs_neg rbind]. change (mkset [] [] [] false []) with (@set_new T). rewrite next_asks; auto. destruct A as (_ & NE2 & S). apply set_some; auto.
Qed.

(** All the options. *)
Lemma options_read : forall args ks outs, join_known args -> values (bs "key") args ks ->
  forall askss alsos c, values (bs "output") args (map output_text askss) -> Forall (fun a => a <> [] /\ Forall ask_ok a) askss ->
  values (bs "file") args outs -> values (bs "also") args (map also_text alsos) -> Forall (fun a => (fst a < 2 ^ 64)%N) alsos ->
  join_args uni_alpha T trans_make c args =
  Ok (mkjc (jc_keys c ++ ks) (jc_cols c ++ map parsed (concat askss)) (last outs (jc_out c)) (jc_also c ++ alsos)).
Proof.
  assert (NX : forall n args l, values n args l -> forall m v args', args = (m, v) :: args' -> (m = n -> exists l', l = v :: l' /\ values n args' l') /\ (m <> n -> values n args' l)).
  { intros n args l V m v args' E. destruct V; [discriminate| |]; injection E as -> -> ->; (split; [intros; try congruence|intros; try congruence]); eauto. }
  induction args as [|[m v] args IH]; intros ks outs K VK askss alsos c VO AO VF VA AB.
  - inversion VK; subst. inversion VO as [E1 E2| |]; subst. inversion VF; subst. inversion VA as [E3 E4| |]; subst. symmetry in E2, E4. apply map_eq_nil in E2, E4. subst.
    cbn [join_args concat map last]. rewrite !app_nil_r. destruct c. reflexivity.
  - inversion K as [|? ? K1 K2]; subst. cbn [fst] in K1. destruct (NX _ _ _ VK _ _ _ eq_refl) as [VK1 VK2]. destruct (NX _ _ _ VO _ _ _ eq_refl) as [VO1 VO2].
    destruct (NX _ _ _ VF _ _ _ eq_refl) as [VF1 VF2]. destruct (NX _ _ _ VA _ _ _ eq_refl) as [VA1 VA2]. cbn [join_args]. unfold join_arg at 1.
    unfold join_options in K1. cbn [In] in K1. destruct K1 as [<-|[<-|[<-|[<-|[]]]]];
      repeat match goal with |- context [beq ?a ?b] => let x := eval vm_compute in (beq a b) in change (beq a b) with x end; cbv iota.
    + destruct (VK1 eq_refl) as (l' & -> & V). cbn [rbind]. rewrite (IH _ outs K2 V askss alsos); auto; try (apply VO2 || apply VF2 || apply VA2; discriminate).
      cbn [jc_keys jc_cols jc_out jc_also]. rewrite <- app_assoc. reflexivity.
    + destruct (VO1 eq_refl) as (l' & E & V). destruct askss as [|a askss]; [discriminate|]. injection E as <- <-. inversion AO as [|? ? [A1 A2] A3]; subst.
      rewrite output_ok by auto. cbn [rbind]. rewrite (IH _ outs K2 (VK2 ltac:(discriminate)) askss alsos); auto; try (apply VF2 || apply VA2; discriminate).
      cbn [jc_keys jc_cols jc_out jc_also concat]. rewrite map_app, <- app_assoc. reflexivity.
    + destruct (VF1 eq_refl) as (l' & -> & V). cbn [rbind]. rewrite (IH _ l' K2 (VK2 ltac:(discriminate)) askss alsos); auto; try (apply VO2 || apply VA2; discriminate).
      cbn [jc_keys jc_cols jc_out jc_also]. rewrite last_cons. reflexivity.
    + destruct (VA1 eq_refl) as (l' & E & V). destruct alsos as [|[n nm] alsos]; [discriminate|]. injection E as <- <-. inversion AB as [|? ? A1 A2]; subst. cbn [fst] in A1.
      unfold also_text. cbn [fst snd]. rewrite MatchText.split_once_app by (apply print_no; lia). rewrite to_usize_whole_print by auto. cbn [rbind].
      rewrite (IH _ outs K2 (VK2 ltac:(discriminate)) askss alsos); auto; try (apply VF2 || apply VO2; discriminate).
      cbn [jc_keys jc_cols jc_out jc_also]. rewrite <- app_assoc. reflexivity.
Qed.

(** * The columns *)
Variable match_make : bytes -> res (bytes -> bool).
Lemma asked_ok : forall asks names each, Forall ask_ok asks -> Forall (fun l => (N.of_nat (List.length l) < 2 ^ 64)%N) names ->
  Forall2 (asked (maker match_make) names) asks each ->
  asked_cols T match_make (map parsed asks) names = Ok (map (fun p => JoinModel.mkoc (fst p) (snd p)) (concat each)).
Proof.
  intros asks names each F B A. induction A as [|[n specs] cols asks each (ns & kss & E & P & ->) A IH]; [reflexivity|]. inversion F as [|? ? (R & NE & S) F2]; subst. cbn [fst snd] in *.
  cbn [map asked_cols parsed fst snd]. assert (L : N.to_nat n - 1 < List.length names) by (apply nth_error_Some; congruence).
  destruct (N.leb_spec (N.of_nat (List.length names)) (n - 1)); [lia|]. replace (N.to_nat (n - 1)) with (N.to_nat n - 1) by lia. rewrite (nth_error_nth _ _ [] E).
  assert (BN : (N.of_nat (List.length ns) < 2 ^ 64)%N). { rewrite Forall_forall in B. apply B. eapply nth_error_In; eauto. }
  assert (PA : parts_all (map (pair false) specs) = asked_parts (n, specs)). { unfold parts_all, asked_parts. cbn [snd]. rewrite !flat_map_concat_map, map_map. reflexivity. }
  rewrite <- PA in P |- *.
  destruct (c27_selected uni_alpha uni_alnum T trans_make match_make ns (map (pair false) specs) kss BN) as (c & c' & X1 & X2 & _ & X3); auto.
  { rewrite Forall_map. eapply Forall_impl; [|exact S]. intros s (S1 & S2 & _). cbn [snd]. split; auto. intros t Ht. congruence. }
  assert (XS : adds uni_alpha trans_make set_new (texts (map (pair false) specs)) = Ok (set_of set_new specs)).
  { clear - S. generalize (@set_new T) as c. induction S as [|s specs H S IH]; intros c; [reflexivity|]. cbn [map texts adds]. rewrite add_simple by auto. cbn [rbind]. apply IH. }
  rewrite XS in X1. injection X1 as <-. rewrite X2. cbn [rbind]. rewrite IH by auto. cbn [rbind concat]. f_equal. rewrite map_app, map_map. f_equal.
  clear - X3. induction X3 as [|o w l l' H X IH]; [reflexivity|]. cbn [map fst snd]. rewrite IH. destruct H as (-> & _). rewrite Nat2N.id. reflexivity.
Qed.
End Output.
