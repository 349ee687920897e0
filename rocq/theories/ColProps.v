(** Theorems on column sets, column writers, scoped values and composite columns (C27, C28, C49, C52, C64). *)
From Coq Require Import String List NArith ZArith Bool Arith Lia.
Open Scope list_scope.
Import ListNotations.
From Verif Require Import Base TextSpec TextModel StrSpec StrModel StrProofs MatchModel ReadModel HdrModel HdrSpec HdrProofs ColModel ColSpec ColProofs ColWriteProofs ColCompProofs UniqProofs.
Close Scope Z_scope.
Local Notation tr0 := (fun _ _ => Err).

(** * C27 *)
(** How the chosen column [o] has to look: its number, its new name, and the transform it goes through. *)
Definition column_for {T} (trans_make : bytes -> res T) (trs : list T) (o : outcol) (w : nat * (bytes * option bytes)) : Prop :=
  oc_num o = N.of_nat (fst w) /\ oc_name o = fst (snd w) /\
  match snd (snd w) with
  | None => oc_trans o = None
  | Some t => exists i x, oc_trans o = Some i /\ nth_error trs i = Some x /\ trans_make t = Ok x
  end.
Definition maker (match_make : bytes -> res (bytes -> bool)) (g : bytes) : option (bytes -> bool) :=
  match match_make g with Ok f => Some f | _ => None end.
Definition texts (calls : list (bool * cspec)) : list (bool * bytes) := map (fun '(f, s) => (f, spec_text s)) calls.
Definition parts_all (calls : list (bool * cspec)) : list part_ := flat_map (fun '(f, s) => parts_of f s) calls.

Theorem c27_selected : forall uni_alpha uni_alnum T (trans_make : bytes -> res T) match_make names calls kss,
  (N.of_nat (List.length names) < 2 ^ 64)%N ->
  Forall (fun fs => spec_ok (alphabetic uni_alpha) (alphanumeric uni_alnum) (snd fs) /\
                    forall t, s_trans (snd fs) = Some t -> exists x, trans_make t = Ok x) calls ->
  Forall2 (part_cols (maker match_make) names) (parts_all calls) kss ->
  exists c c', adds uni_alpha trans_make set_new (texts calls) = Ok c /\ lookup match_make c names = Ok c' /\ cs_done c' = true /\
    Forall2 (column_for trans_make (cs_trans c')) (cs_cols c') (wanted (List.length names) (parts_all calls) kss).
Proof.
  intros ua un T tm mm names calls kss B F C. destruct (adds_spec ua un T tm tr0 mm calls set_new []) as (c & E & R & _); auto.
  { split; constructor. }
  destruct (lookup_spec ua un T tm tr0 mm names B c (parts_all calls) kss R) as (c' & E' & D & Tr & G); auto.
  - unfold parts_all. apply Forall_flat_map. eapply Forall_impl; [|exact F]. intros [f s] [H _]. apply parts_ok; auto.
  - exists c, c'. rewrite Tr. repeat split; auto.
Qed.
Lemma balanced_none : forall g, ~ In 40%N g -> ~ In 41%N g -> balanced 40 41 g.
Proof.
  assert (X : forall g, ~ In 40%N g -> ~ In 41%N g -> balance 40 41 g = 0%Z).
  { induction g as [|c g IH]; intros A B; auto. cbn [balance]. replace (c =? 40)%N with false by (symmetry; apply N.eqb_neq; intros ->; apply A; left; auto).
    replace (c =? 41)%N with false by (symmetry; apply N.eqb_neq; intros ->; apply B; left; auto). rewrite IH; auto; intros I; [apply A|apply B]; right; auto. }
  intros g A B. split; auto. intros p q ->. rewrite X; [lia| |]; intros I; [apply A|apply B]; apply in_or_app; auto.
Qed.
Definition no_uni : N -> bool := fun _ => false.
Definition ex_trans (t : bytes) : res bytes := if beq t (bs "lower") then Ok t else Err.
Definition ex_match (g : bytes) : res (bytes -> bool) := Ok (fun n => existsb (beq n) (split_str 44 g)).
Example c27_selected_ex :
  let calls := [(false, mkspec [mkterm false [] (IRange (Some (PNum 2)) None); mkterm true [] (IOne (PName (bs "key"))); mkterm false (bs "first") (IOne (PEnd 4))] None (Some (bs "lower")));
                (false, mkspec [] (Some (bs "id,val")) None); (true, mkspec [mkterm false [] (IOne (PEnd 1))] None None)] in
  let names := map bs ["id"; "key"; "val"; "note"]%string in
  map snd (texts calls) = map bs ["2-,~key,first:+4+lower"; "(id,val)"; "+1"]%string /\
  Forall (fun fs => spec_ok (alphabetic no_uni) (alphanumeric no_uni) (snd fs) /\ forall t, s_trans (snd fs) = Some t -> exists x, ex_trans t = Ok x) calls /\
  Forall2 (part_cols (maker ex_match) names) (parts_all calls) [[1; 2; 3]; [1]; [0]; [0; 2]; [3]] /\
  wanted 4 (parts_all calls) [[1; 2; 3]; [1]; [0]; [0; 2]; [3]] =
    [(2, ([], Some (bs "lower"))); (0, (bs "first", Some (bs "lower"))); (0, ([], None)); (2, ([], None))].
Proof.
  cbv zeta. split; [reflexivity|]. split.
  - constructor; [|constructor; [|constructor; [|constructor]]]; cbn [snd]; split; try (cbn; intros; discriminate).
    + split; [|split; [left; discriminate|split; [cbn; intros; discriminate|]]].
      * repeat constructor; cbn; try lia; discriminate.
      * intros t [= <-]. exists 108%N, (bs "ower"). split; reflexivity.
    + intros t [= <-]. exists (bs "lower"). reflexivity.
    + split; [constructor|split; [right; discriminate|split; [|cbn; intros; discriminate]]].
      intros g [= <-]. split; [apply balanced_none|split]; vm_compute; intuition discriminate.
    + split; [|split; [left; discriminate|split; cbn; intros; discriminate]]. repeat constructor; cbn; lia.
  - split; [|reflexivity]. unfold parts_all, parts_of. cbn [flat_map map app s_terms s_group s_trans t_not t_label t_item xorb].
    repeat (apply Forall2_cons); [| | | | |apply Forall2_nil]; cbn.
    + exists 1, 3. cbn. repeat split; try (cbn; lia).
    + exists 1. cbn. repeat split; try (cbn; lia); auto. intros [|j] J; [discriminate|lia].
    + exists 0. cbn. repeat split; try (cbn; lia); auto.
    + exists (fun n => existsb (beq n) (split_str 44 (bs "id,val"))). split; reflexivity.
    + exists 3. cbn. repeat split; try (cbn; lia); auto.
Qed.

(** Every chosen column is a column of the file and is not excluded. *)
Theorem c27_in_file : forall m names qs kss, Forall2 (part_cols m names) qs kss ->
  forall k l, In (k, l) (wanted (List.length names) qs kss) -> k < List.length names /\ ~ In k (drops qs kss).
Proof.
  intros m names qs kss C k l I.
  assert (X : forall q ks, In (q, ks) (combine qs kss) -> Forall (fun k => k < List.length names) ks).
  { clear I. induction C as [|q ks qs kss P C IH]; cbn; [tauto|]. intros q' ks' [[= <- <-]|J]; [|eauto].
    assert (PL : forall p k, place_at names p k -> k < List.length names) by (intros p k0 [H _]; exact H).
    unfold part_cols in P. destruct (q_what q) as [i|g]; [destruct i as [p|a b]; cbn in P|].
    - destruct P as (k0 & A & ->). constructor; eauto.
    - destruct P as (i & j & A & B & L & ->). apply Forall_forall. intros x J. apply in_seq in J. assert (j < List.length names); [|lia].
      destruct b as [p|]; cbn in B; [eauto|lia].
    - destruct P as (f & _ & ->). apply Forall_forall. intros x J. apply filter_In in J as [J _]. apply in_seq in J. lia. }
  unfold wanted in I. destruct (forallb q_not qs).
  - apply in_map_iff in I as (k' & [= <- <-] & J). apply filter_In in J as [J N]. apply in_seq in J. split; [lia|].
    apply negb_true_iff in N. intros D. rewrite <- not_true_iff_false in N. apply N. apply existsb_in. exact D.
  - apply filter_In in I as [J N]. cbn [fst] in N. split.
    + unfold picks in J. apply in_flat_map in J as ([q ks] & Q & J). destruct (q_not q); [destruct J|]. apply in_map_iff in J as (k' & [= <- _] & J).
      specialize (X q ks Q). rewrite Forall_forall in X. auto.
    + apply negb_true_iff in N. intros D. rewrite <- not_true_iff_false in N. apply N. apply existsb_in. exact D.
Qed.
Example c27_in_file_ex : wanted 3 [mkp true [] (WItem (IOne (PNum 2))) None] [[1]] = [(0, ([], None)); (2, ([], None))].
Proof. reflexivity. Qed.

(** A name the file does not have, a place before the first column, a range that runs backwards: an error. *)
Theorem c27_rejected : forall uni_alpha uni_alnum T (trans_make : bytes -> res T) match_make names calls q,
  (N.of_nat (List.length names) < 2 ^ 64)%N -> (forall g, match_make g <> Panic) ->
  Forall (fun fs => spec_ok (alphabetic uni_alpha) (alphanumeric uni_alnum) (snd fs) /\
                    forall t, s_trans (snd fs) = Some t -> exists x, trans_make t = Ok x) calls ->
  Forall (part_within (List.length names)) (parts_all calls) ->
  In q (parts_all calls) -> (forall ks, ~ part_cols (maker match_make) names q ks) ->
  exists c, adds uni_alpha trans_make set_new (texts calls) = Ok c /\ lookup match_make c names = Err.
Proof.
  intros ua un T tm mm names calls q B NP F W I C. destruct (adds_spec ua un T tm tr0 mm calls set_new []) as (c & E & R & _); auto.
  { split; constructor. }
  exists c. split; auto. eapply (lookup_err ua un T tm tr0 mm names B c (parts_all calls)); eauto.
  unfold parts_all. apply Forall_flat_map. eapply Forall_impl; [|exact F]. intros [f s] [H _]. apply parts_ok; auto.
Qed.
Example c27_rejected_ex :
  let names := map bs ["id"; "key"]%string in
  (forall ks, ~ part_cols (maker ex_match) names (mkp false [] (WItem (IOne (PName (bs "nokey")))) None) ks) /\
  (forall ks, ~ part_cols (maker ex_match) names (mkp true [] (WItem (IOne (PEnd 3))) None) ks) /\
  (forall ks, ~ part_cols (maker ex_match) names (mkp false [] (WItem (IRange (Some (PName (bs "key"))) (Some (PNum 1)))) None) ks) /\
  lookup_cols no_uni ex_trans ex_match (bs "key-1") names = Err.
Proof.
  cbv zeta. repeat split.
  - intros ks (k & [L [N _]] & _). destruct k as [|[|k]]; cbn in *; try discriminate; try lia.
  - intros ks (k & [L N] & _). cbn [map List.length q_what] in L, N. lia.
  - intros ks (i & j & [L [N _]] & [L' N'] & H & _). destruct i as [|[|i]]; [discriminate| |cbn in L; lia]. cbn [map List.length] in L', N'. lia.
Qed.

(** A column number beyond the last column is accepted. *)
Theorem c27_number_refuted : forall uni_alpha T (trans_make : bytes -> res T) match_make names n,
  (N.of_nat (List.length names) < n < 2 ^ 64)%N ->
  lookup_cols uni_alpha trans_make match_make (print_N n) names = Ok [n - 1]%N.
Proof.
  intros ua T tm mm names n H. assert (K : spec_ok (alphabetic ua) (alphanumeric no_uni) (mkspec [mkterm false [] (IOne (PNum n))] None None)).
  { split; [repeat constructor; cbn; lia|]. split; [left; discriminate|]. split; cbn; intros; discriminate. }
  unfold lookup_cols. change (print_N n) with (term_text (mkterm false [] (IOne (PNum n)))). 
  replace (term_text (mkterm false [] (IOne (PNum n)))) with (spec_text (mkspec [mkterm false [] (IOne (PNum n))] None None)) by (unfold spec_text; rewrite app_nil_r; reflexivity).
  rewrite (add_spec ua no_uni T tm tr0 mm _ _ _ K). cbn [s_trans rbind]. unfold put_parts, parts_of, lookup. cbn. unfold part_val. cbn [q_what q_label label_text item_text place_text app].
  destruct (print_N_nonzero n) as (c & r & E & D & Z & P); [lia|]. 
  assert (R : range mm names (print_N n) = Ok [mkoc (n - 1) [] None]).
  { change (print_N n) with (label_text [] ++ print_N n). rewrite E at 1. rewrite (range_body ua no_uni mm names); cbn [well_named]; auto.
    - rewrite <- E. rewrite TransProofs.split_str_none by (apply plain_not_in; [reflexivity|apply (print_plain ua no_uni)]). unfold dashes. rewrite E.
      unfold single. apply N.eqb_neq in Z, P. rewrite P, D, Z. cbn [andb negb]. rewrite <- E, to_usize_whole_print by lia. cbn [rbind].
      replace (n <? 1)%N with false by (symmetry; apply N.ltb_ge; lia). reflexivity.
    - rewrite <- E. apply plain_not_in; [reflexivity|apply (print_plain ua no_uni)].
    - intros ->. discriminate. }
  rewrite R. reflexivity.
Qed.
Example c27_number_refuted_ex : lookup_cols no_uni ex_trans ex_match (bs "7") (map bs ["a"; "b"; "c"]%string) = Ok [6%N].
Proof. reflexivity. Qed.

(** Counting from the end starts one place after the last column. *)
Theorem c27_end_zero_refuted : forall uni_alpha T (trans_make : bytes -> res T) match_make names,
  lookup_cols uni_alpha trans_make match_make (bs "+0") names = Ok [N.of_nat (List.length names)].
Proof.
  intros. unfold lookup_cols, lookup. cbn. replace (N.of_nat (List.length names) <? 0)%N with false by (symmetry; apply N.ltb_ge; lia). cbn. rewrite N.sub_0_r. reflexivity.
Qed.
Example c27_end_zero_refuted_ex : lookup_cols no_uni ex_trans ex_match (bs "+0") (map bs ["a"; "b"]%string) = Ok [2%N].
Proof. reflexivity. Qed.

(** An empty specification, or one that ends in a comma, panics. *)
Theorem c27_empty_refuted : forall uni_alpha uni_alnum T (trans_make : bytes -> res T) (c : colset T) negate,
  add uni_alpha trans_make c [] negate = Panic /\
  forall t, term_ok (alphabetic uni_alpha) (alphanumeric uni_alnum) t -> add uni_alpha trans_make c (term_text t ++ [44%N]) negate = Panic.
Proof.
  intros ua un T tm c negate. split; [reflexivity|]. intros t H. unfold add, find_trans.
  rewrite (find_trans_calm ua) by (apply (calm_term ua un T tm (fun _ => Err)); auto). cbn [find_trans_loop N.eqb Pos.eqb]. rewrite app_length. cbn [List.length]. rewrite Nat.add_1_r.
  destruct (term_head ua un T tm (fun _ => Err) t H) as (x & b & E & N & P). apply N.eqb_neq in P. cbn [add_loop]. rewrite E. cbn [app]. rewrite P.
  change (x :: b ++ [44%N]) with ((x :: b) ++ 44%N :: []). rewrite split_once_app by auto. reflexivity.
Qed.
Example c27_empty_refuted_ex : lookup_cols no_uni ex_trans ex_match (bs "1,2,") (map bs ["a"; "b"; "c"]%string) = Panic.
Proof. reflexivity. Qed.

(** A group followed by anything is never looked up: the comma leaves an empty part behind. *)
Theorem c27_group_list_refuted : forall uni_alpha uni_alnum T (trans_make : bytes -> res T) match_make names g t,
  balanced 40 41 g -> ~ In 43%N g -> term_ok (alphabetic uni_alpha) (alphanumeric uni_alnum) t ->
  forall cols, lookup_cols uni_alpha trans_make match_make (40%N :: g ++ 41%N :: 44%N :: term_text t) names <> Ok cols.
Proof.
  intros ua un T tm mm names g t B N H cols. unfold lookup_cols, add.
  assert (C : calm ua (40%N :: g ++ 41%N :: 44%N :: term_text t)).
  { constructor; [discriminate|]. apply calm_app; [apply calm_no; auto|]. constructor; [discriminate|]. constructor; [discriminate|]. apply (calm_term ua un T tm (fun _ => Err)); auto. }
  unfold find_trans. rewrite <- (app_nil_r (40%N :: _)). rewrite (find_trans_calm ua) by auto. cbn [find_trans_loop]. rewrite app_nil_r.
  cbn [List.length]. rewrite app_length. cbn [List.length]. rewrite Nat.add_succ_r.
  cbn [add_loop N.eqb Pos.eqb]. rewrite find_close_hit by (auto; left; reflexivity). cbn [rbind].
  assert (E1 : firstn (List.length g + 2) (40%N :: g ++ 41%N :: 44%N :: term_text t) = 40%N :: g ++ [41%N]).
  { replace (40%N :: g ++ 41%N :: 44%N :: term_text t) with ((40%N :: g ++ [41%N]) ++ 44%N :: term_text t) by (cbn; rewrite <- app_assoc; reflexivity).
    rewrite firstn_app. replace (List.length g + 2) with (List.length (40%N :: g ++ [41%N])) by (cbn; rewrite app_length; cbn; lia). rewrite firstn_all, Nat.sub_diag. apply app_nil_r. }
  assert (E2 : skipn (List.length g + 2) (40%N :: g ++ 41%N :: 44%N :: term_text t) = 44%N :: term_text t).
  { replace (40%N :: g ++ 41%N :: 44%N :: term_text t) with ((40%N :: g ++ [41%N]) ++ 44%N :: term_text t) by (cbn; rewrite <- app_assoc; reflexivity).
    rewrite skipn_app. replace (List.length g + 2) with (List.length (40%N :: g ++ [41%N])) by (cbn; rewrite app_length; cbn; lia). rewrite skipn_all, Nat.sub_diag. reflexivity. }
  rewrite E1, E2. cbn [N.eqb Pos.eqb split_once]. destruct (term_head ua un T tm (fun _ => Err) t H) as (x & b & E & Nx & P). rewrite E. cbn [List.length].
  rewrite !Nat.add_succ_r. cbn [add_loop]. apply N.eqb_neq in P. rewrite P, split_once_none by auto. rewrite <- E, (add_one_term ua un T tm (fun _ => Err)) by auto. cbn [rbind].
  unfold lookup, put_parts. cbn [cs_pos cs_neg cs_trans cs_cols cs_done]. 
  match goal with |- context [ranges mm names ?l] => destruct (ranges mm names l) as [no| |]; [|discriminate|discriminate] end. cbn [rbind].
  cbn [add_one app set_new cs_pos N.eqb Pos.eqb]. cbn [app ranges p_val p_trans].
  destruct (range mm names (40%N :: g ++ [41%N])); discriminate.
Qed.
Example c27_group_list_refuted_ex : lookup_cols no_uni ex_trans ex_match (bs "(a,b),c") (map bs ["a"; "b"; "c"]%string) = Err.
Proof. reflexivity. Qed.

(** An excluded group is cut at its first comma. *)
Theorem c27_group_excluded_refuted : forall uni_alpha T (trans_make : bytes -> res T) p q, ~ In 44%N p -> ~ In 43%N p -> ~ In 44%N q -> ~ In 43%N q ->
  (forall r, q <> 40%N :: r) -> (forall r, q <> 126%N :: r) ->
  add uni_alpha trans_make set_new (bs "~(" ++ p ++ 44%N :: q ++ bs ")") false =
  Ok (mkset [mkpart (q ++ bs ")") None] [mkpart (40%N :: p) None] [] false []).
Proof.
  intros ua T tm p q Np Pp Nq Pq Q1 Q2. unfold add, find_trans.
  assert (C : calm ua (bs "~(" ++ p ++ 44%N :: q ++ bs ")")).
  { apply calm_no. intros I. repeat (apply in_app_or in I; destruct I as [I|I]); auto; [vm_compute in I; intuition discriminate|]. destruct I as [I|I]; [discriminate|].
    apply in_app_or in I as [I|I]; auto. vm_compute in I. intuition discriminate. }
  rewrite <- (app_nil_r (bs "~(" ++ _)). rewrite (find_trans_calm ua) by auto. cbn [find_trans_loop]. rewrite app_nil_r.
  change (bs "~(" ++ p ++ 44%N :: q ++ bs ")") with (126%N :: 40%N :: p ++ 44%N :: q ++ bs ")"). cbn [List.length add_loop N.eqb Pos.eqb].
  assert (S1 : split_once 44 (126%N :: 40%N :: p ++ 44%N :: q ++ bs ")") = Some (126%N :: 40%N :: p, q ++ bs ")")).
  { change (126%N :: 40%N :: p ++ 44%N :: q ++ bs ")") with ((126%N :: 40%N :: p) ++ 44%N :: q ++ bs ")"). apply split_once_app. intros [I|[I|I]]; try discriminate; auto. }
  change (bs ")") with [41%N] in *.
  rewrite S1. destruct (q ++ [41%N]) as [|c r] eqn:E; [destruct q; discriminate|].
  assert (c =? 40 = false)%N as ->. { apply N.eqb_neq. intros ->. destruct q as [|c' q]; [discriminate|]. injection E as ->. eapply Q1; eauto. }
  rewrite split_once_none.
  2:{ rewrite <- E. intros I. apply in_app_or in I as [I|[I|[]]]; [auto|discriminate]. }
  cbn [add_one N.eqb Pos.eqb set_new cs_pos cs_neg cs_cols cs_done cs_trans app].
  assert (c =? 126 = false)%N as ->; [|reflexivity]. apply N.eqb_neq. intros ->. destruct q as [|c' q]; [discriminate|]. injection E as ->. eapply Q2; eauto.
Qed.
Example c27_group_excluded_refuted_ex : lookup_cols no_uni ex_trans ex_match (bs "~(a,b)") (map bs ["a"; "b"; "c"]%string) = Err.
Proof. reflexivity. Qed.

(** A new name with nothing after it panics. *)
Theorem c27_label_refuted : forall uni_alpha uni_alnum T (trans_make : bytes -> res T) match_make names l, l <> [] ->
  well_named (alphabetic uni_alpha) (alphanumeric uni_alnum) l -> lookup_cols uni_alpha trans_make match_make (l ++ bs ":") names = Panic.
Proof.
  intros ua un T tm mm names l NE W. pose proof (named_plain ua un l W) as F. unfold lookup_cols, add, find_trans.
  change (bs ":") with [58%N]. assert (C : calm ua (l ++ [58%N])) by (apply calm_app; [apply calm_plain; auto|constructor; [discriminate|constructor]]).
  rewrite <- (app_nil_r (l ++ [58%N])) at 1. rewrite (find_trans_calm ua) by auto. cbn [find_trans_loop].
  destruct l as [|c l]; [congruence|]. inversion F as [|? ? Sc Fl]; subst. cbn [add_loop app List.length].
  assert (c =? 40 = false)%N as -> by (apply N.eqb_neq; intros ->; discriminate).
  change (c :: l ++ [58%N]) with ((c :: l) ++ [58%N]). rewrite split_once_none.
  2:{ intros I. apply in_app_or in I as [I|[I|[]]]; [|discriminate]. revert I. apply plain_not_in; auto. }
  cbn [app rbind add_one]. assert (c =? 126 = false)%N as -> by (apply N.eqb_neq; intros ->; discriminate).
  unfold lookup. cbn [cs_neg cs_pos set_new ranges rbind app p_val range]. change (c :: l ++ [58%N]) with ((c :: l) ++ 58%N :: []).
  rewrite split_once_app by (apply plain_not_in; auto). reflexivity.
Qed.
Example c27_label_refuted_ex : lookup_cols no_uni ex_trans ex_match (bs "key:") (map bs ["key"]%string) = Panic.
Proof. reflexivity. Qed.

(** A group whose pattern holds a colon is taken for a column with a new name. *)
Theorem c27_group_colon_refuted : forall match_make names p q c, ~ In 58%N p -> ~ In 45%N q -> is_digit c = false -> c <> 43%N -> c <> 40%N -> c <> 45%N ->
  ~ In (c :: q ++ bs ")") names -> range match_make names (40%N :: p ++ 58%N :: c :: q ++ bs ")") = Err.
Proof.
  intros mm names p q c Np Nq D P Q M I. unfold range. change (40%N :: p ++ 58%N :: c :: q ++ bs ")") with ((40%N :: p) ++ 58%N :: c :: q ++ bs ")").
  rewrite split_once_app by (intros [J|J]; [discriminate|auto]). cbn [app]. apply N.eqb_neq in Q. rewrite Q.
  rewrite TransProofs.split_str_none. 2:{ intros [J|J]; [congruence|]. apply in_app_or in J as [J|J]; [auto|vm_compute in J; intuition discriminate]. }
  unfold single. apply N.eqb_neq in P. rewrite P, D. cbn [andb]. rewrite lookup_col_none by auto. reflexivity.
Qed.
Example c27_group_colon_refuted_ex : lookup_cols no_uni ex_trans ex_match (bs "(a:b)") (map bs ["a"; "b"; "c"]%string) = Err.
Proof. reflexivity. Qed.

(** When only exclusions are given, a transform has no effect. *)
Theorem c27_exclusion_trans_refuted : exists spec names c c', add no_uni ex_trans set_new spec false = Ok c /\ lookup ex_match c names = Ok c' /\
  cs_trans c' <> [] /\ cs_cols c' <> [] /\ Forall (fun o => oc_trans o = None) (cs_cols c').
Proof.
  exists (bs "~2+lower"), (map bs ["a"; "b"; "c"]%string). eexists _, _. split; [reflexivity|]. split; [reflexivity|]. cbn. repeat split; try discriminate. repeat constructor.
Qed.

(** * C28 *)
(** The field a chosen column stands for, if the line has it. *)
Definition field_of (fields : list bytes) (o : outcol) : option bytes := nth_error fields (N.to_nat (oc_num o)).
Definition field_or_empty (fields : list bytes) (o : outcol) : bytes := match field_of fields o with Some f => f | None => [] end.

Theorem c28_select : forall T (c : colset T) fields, cs_done c = true ->
  (forall vals, Forall2 (fun o f => field_of fields o = Some f) (cs_cols c) vals -> select c fields = Ok vals) /\
  ((exists o, In o (cs_cols c) /\ field_of fields o = None) -> select c fields = Err).
Proof.
  intros T c fields D. unfold select. rewrite D. cbn [negb]. split; [apply select_ok|apply select_err].
Qed.
Definition ex_set : colset bytes := mkset [] [] [mkoc 2 [] None; mkoc 0 (bs "id") (Some 0)] true [bs "lower"].
Example c28_select_ex : select ex_set (map bs ["a"; "b"; "c"]%string) = Ok (map bs ["c"; "a"]%string) /\ select ex_set (map bs ["a"; "b"]%string) = Err.
Proof. split; reflexivity. Qed.

Theorem c28_write : forall T (c : colset T) fields delim, cs_done c = true ->
  (forall vals, Forall2 (fun o f => field_of fields o = Some f) (cs_cols c) vals -> write c fields delim = (sep_by delim vals ++ [NL], Ok tt)) /\
  ((exists o r, cs_cols c = o :: r /\ field_of fields o <> None) -> (exists o, In o (cs_cols c) /\ field_of fields o = None) ->
   snd (write c fields delim) = Err).
Proof. intros T c fields delim D. split; [intros; apply write_ok; auto|apply write_later_short; auto]. Qed.
Example c28_write_ex : write ex_set (map bs ["a"; "b"; "c"]%string) (bs "; ") = (bs "c; a" ++ [NL], Ok tt) /\
  write ex_set (map bs ["a"]%string) (bs "; ") = ([], Panic).
Proof. split; reflexivity. Qed.

(** A line without the first chosen column stops the program instead of giving an error. *)
Theorem c28_short_refuted : forall T (c : colset T) fields o r, cs_done c = true -> cs_cols c = o :: r -> field_of fields o = None ->
  (forall delim, write c fields delim = ([], Panic)) /\ forall delim, write2 c fields delim = ([], Panic).
Proof.
  intros T c fields o r D E N. split; [eapply write_short; eauto|]. intros delim. unfold write2, at_or_panic. rewrite D, E. cbn [negb]. unfold field_of in N. rewrite N. reflexivity.
Qed.
Example c28_short_refuted_ex : field_of (map bs ["a"; "b"]%string) (mkoc 2 [] None) = None /\ write2 ex_set (map bs ["a"; "b"]%string) 9%N = ([], Panic).
Proof. split; reflexivity. Qed.

Theorem c28_write2 : forall T (c : colset T) fields delim, cs_done c = true -> (forall o r, cs_cols c = o :: r -> field_of fields o <> None) ->
  write2 c fields delim = (join delim (map (field_or_empty fields) (cs_cols c)) ++ [NL], Ok tt).
Proof.
  intros T c fields delim D F. rewrite write2_ok by auto. do 3 f_equal. apply map_ext. intros o. unfold field_or_empty, field_of.
  destruct (nth_error fields (N.to_nat (oc_num o))) eqn:E; [erewrite nth_error_nth; eauto|]. apply nth_error_None in E. apply nth_overflow; auto.
Qed.
Example c28_write2_ex : write2 (mkset [] [] [mkoc 0 [] None; mkoc 7 [] None; mkoc 1 [] None] true ([] : list nat)) (map bs ["a"; "b"]%string) 9%N = (bs "a" ++ [9%N; 9%N] ++ bs "b" ++ [NL], Ok tt).
Proof. reflexivity. Qed.

(** The row holds the chosen columns and nothing else: reading it back gives them in order. *)
Theorem c28_fields : forall T (c : colset T) fields delim, cs_done c = true -> cs_cols c <> [] -> Forall (fun f => ~ In delim f) fields ->
  exists row, write3s c fields delim = (row, Ok tt) /\ split_on delim row = map (field_or_empty fields) (cs_cols c).
Proof.
  intros T c fields delim D NE F. eexists. split; [apply write3s_ok; auto|].
  assert (X : forall o, nth (N.to_nat (oc_num o)) fields [] = field_or_empty fields o).
  { intros o. unfold field_or_empty, field_of. destruct (nth_error fields (N.to_nat (oc_num o))) eqn:E; [erewrite nth_error_nth; eauto|]. apply nth_error_None in E. apply nth_overflow; auto. }
  rewrite (map_ext _ _ X). apply split_on_join; [destruct (cs_cols c); [congruence|discriminate]|].
  rewrite Forall_forall in F. apply Forall_forall. intros f I. apply in_map_iff in I as (o & <- & _). unfold field_or_empty, field_of.
  destruct (nth_error fields (N.to_nat (oc_num o))) eqn:E; [|intros []]. apply F. eapply nth_error_In; eauto.
Qed.
Example c28_fields_ex : write3s ex_set (map bs ["a"; "b"; "c"]%string) 44%N = (bs "c,a", Ok tt).
Proof. reflexivity. Qed.

(** Each column goes through its own transform, then through the quoting of the mode. *)
Theorem c28_write3 : forall T (trans_run : T -> bytes -> res bytes) (c : colset T) fields vals t, cs_done c = true ->
  Forall2 (fun o v => match oc_trans o with
                      | None => v = field_or_empty fields o
                      | Some i => exists tr, nth_error (cs_trans c) i = Some tr /\ trans_run tr (field_or_empty fields o) = Ok v
                      end) (cs_cols c) vals ->
  write3 trans_run c fields t = (join (tm_delim t) (map (fun v => mode_write (tm_quote t) v (tm_delim t) (tm_break t) (tm_repl t)) vals), Ok tt).
Proof.
  intros T tr c fields vals t D F. apply write3_ok; auto. eapply UniqProofs.forall2_impl; [|exact F]. intros o v H.
  assert (X : nth (N.to_nat (oc_num o)) fields [] = field_or_empty fields o).
  { unfold field_or_empty, field_of. destruct (nth_error fields (N.to_nat (oc_num o))) eqn:E; [erewrite nth_error_nth; eauto|]. apply nth_error_None in E. apply nth_overflow; auto. }
  unfold out_value. rewrite X. exact H.
Qed.
Definition ex_run (t b : bytes) : res bytes := if beq b (bs "!") then Err else Ok (map (fun c => if (64 <? c)%N && (c <? 91)%N then c + 32 else c)%N b).
Definition ex_mode : tmode := mktm QPlain 9 10 32.
Example c28_write3_ex : write3 ex_run ex_set (map bs ["AB"; "b"; "C"]%string) ex_mode = (bs "C" ++ 9%N :: bs "ab", Ok tt).
Proof. reflexivity. Qed.

(** A transform that fails stops the program. *)
Theorem c28_trans_refuted : forall T (trans_run : T -> bytes -> res bytes) (c : colset T) fields o r i tr t, cs_done c = true -> cs_cols c = o :: r ->
  oc_trans o = Some i -> nth_error (cs_trans c) i = Some tr -> trans_run tr (field_or_empty fields o) = Err ->
  write3 trans_run c fields t = ([], Panic).
Proof.
  intros T trun c fields o r i tr t D E O N R. unfold write3. rewrite D, E. cbn [negb].
  assert (X : get_or_empty fields (oc_num o) = field_or_empty fields o).
  { unfold get_or_empty, field_or_empty, field_of. destruct (nth_error fields (N.to_nat (oc_num o))) eqn:F; [erewrite nth_error_nth; eauto|]. apply nth_error_None in F. apply nth_overflow; auto. }
  unfold fetch_write, fetch. rewrite O, N, X, R. reflexivity.
Qed.
Example c28_trans_refuted_ex : ex_run (bs "lower") (bs "!") = Err /\ write3 ex_run ex_set (map bs ["!"; "b"; "C"]%string) ex_mode = (bs "C" ++ [9%N], Panic).
Proof. split; reflexivity. Qed.

Theorem c28_select_sloppy : forall T (c : colset T) fields rest, cs_done c = true ->
  select_sloppy c fields rest = Ok (map (fun o => match field_of fields o with Some f => f | None => rest end) (cs_cols c)).
Proof. intros T c fields rest D. unfold select_sloppy. rewrite D. reflexivity. Qed.
Example c28_select_sloppy_ex : select_sloppy ex_set (map bs ["a"; "b"]%string) (bs "none") = Ok (map bs ["none"; "a"]%string).
Proof. reflexivity. Qed.
(** write_sloppy puts nothing between the columns. *)
Theorem c28_sloppy_refuted : forall T (c : colset T) fields rest, cs_done c = true ->
  write_sloppy c fields rest = (concat (map (fun o => match field_of fields o with Some f => f | None => rest end) (cs_cols c)), Ok tt).
Proof.
  intros T c fields rest D. rewrite write_sloppy_ok by auto. do 2 f_equal. apply map_ext. intros o. unfold field_of.
  destruct (nth_error fields (N.to_nat (oc_num o))) eqn:E; [erewrite nth_error_nth; eauto|]. apply nth_error_None in E. apply nth_overflow; auto.
Qed.
Example c28_sloppy_refuted_ex : write_sloppy ex_set (map bs ["a"; "b"; "c"]%string) (bs "none") = (bs "ca", Ok tt).
Proof. reflexivity. Qed.

(** * C49 *)
(** What a composite column gives for a line: its pieces one after the other. *)
Theorem c49_expand : forall uni_alpha uni_alnum name l (caret : bool) names fields vs,
  let tail := if caret then [94%N] else [] in
  ~ In 58%N name -> pieces_ok (alphabetic uni_alpha) (alphanumeric uni_alnum) l tail ->
  Forall2 (piece_value utf8 names fields) l vs ->
  exists c c', comp_set uni_alpha uni_alnum (name ++ 58%N :: pieces_text l ++ tail) = Ok c /\ comp_lookup c names = Ok c' /\
    cc_name c' = name /\ comp_get c' fields = Ok (concat vs ++ tail).
Proof.
  intros ua un name l caret names fields vs tail N K F. eexists. 
  destruct (run_value ua un names fields l vs tail K F [] [] [] []) as (ps & b & E & G & H); auto.
  exists (mkcomp ps (snd (run l [] []) ++ tail) name). split; [apply comp_set_ok; auto|]. unfold comp_lookup. cbn [cc_parts cc_suffix cc_name]. fold tail. rewrite E. cbn [rbind].
  split; auto. split; auto. unfold comp_get. cbn [cc_parts cc_suffix]. rewrite G. cbn [rbind]. rewrite utf8_app, app_assoc, H. cbn [app utf8 flat_map]. f_equal. f_equal.
  unfold tail. destruct caret; reflexivity.
Qed.
Example c49_expand_ex :
  let l := [CLit (bs "v="); CName false (bs "val"); CLit (bs " "); CCaret; CNum true 1; CLit (bs "0")] in
  let names := map bs ["id"; "val"]%string in let fields := map bs ["7"; "x"]%string in
  bs "new" ++ 58%N :: pieces_text l ++ [94%N] = bs "new:v=^val ^^^{1}0^" /\
  pieces_ok (alphabetic no_uni) (alphanumeric no_uni) l [94%N] /\
  Forall2 (piece_value utf8 names fields) l (map bs ["v="; "x"; " "; "^"; "7"; "0"]%string) /\
  exists c, comp_set no_uni no_uni (bs "new:v=^val ^^^{1}0^") = Ok c /\ rbind (comp_lookup c names) (fun c => comp_get c fields) = Ok (bs "v=x ^70^").
Proof.
  cbv zeta. split; [reflexivity|]. split.
  - cbn. repeat split; auto; try (vm_compute; intuition discriminate); try discriminate; try lia.
  - split; [|eexists; split; reflexivity]. repeat (apply Forall2_cons); [| | | | | |apply Forall2_nil]; cbn; auto.
    + exists 1. repeat split; cbn; auto. intros [|j] J; [discriminate|lia].
    + exists 0. split; reflexivity.
Qed.
Lemma write_plain_app : forall a b d e r, write_plain (a ++ b) d e r = write_plain a d e r ++ write_plain b d e r.
Proof. induction a as [|c a IH]; intros b d e r; cbn [app write_plain]; auto. rewrite IH. reflexivity. Qed.
Lemma write_backslash_app : forall a b d e, write_backslash (a ++ b) d e = write_backslash a d e ++ write_backslash b d e.
Proof. induction a as [|c a IH]; intros b d e; cbn [app write_backslash]; auto. rewrite IH. destruct ((c =? d)%N || (c =? e)%N || (c =? BSL)%N); reflexivity. Qed.

(** Written to a file that does not use quotes, a composite column is its value, protected as any other value. *)
Theorem c49_write : forall c fields t v, tm_quote t <> QQuote -> comp_get c fields = Ok v ->
  comp_write c fields t = (mode_write (tm_quote t) v (tm_delim t) (tm_break t) (tm_repl t), Ok tt).
Proof.
  intros c fields t v Q G. set (w := fun b => mode_write (tm_quote t) b (tm_delim t) (tm_break t) (tm_repl t)).
  assert (A : forall a b, w (a ++ b) = w a ++ w b).
  { intros a b. unfold w. destruct (tm_quote t); cbn [mode_write]; [apply write_plain_app|congruence|apply write_backslash_app]. }
  unfold comp_get in G. destruct (comp_get_parts (cc_parts c) fields) as [b| |] eqn:E; [|discriminate|discriminate]. injection G as <-. unfold comp_write.
  assert (P : wall (map (fun pc => wseq (text_write t (utf8 (fst pc))) (text_write t (get_or_empty fields (nc_num (snd pc))))) (cc_parts c)) = (w b, Ok tt)).
  { revert b E. induction (cc_parts c) as [|[p nc] ps IH]; intros b E; cbn [comp_get_parts] in E.
    - injection E as <-. unfold w. destruct (tm_quote t); reflexivity.
    - destruct (nth_error fields (N.to_nat (nc_num nc))) as [f|] eqn:F; [|discriminate]. destruct (comp_get_parts ps fields) as [b'| |]; [|discriminate|discriminate].
      injection E as <-. cbn [map wall fold_right]. fold (wall (map (fun pc => wseq (text_write t (utf8 (fst pc))) (text_write t (get_or_empty fields (nc_num (snd pc))))) ps)).
      rewrite (IH b') by reflexivity. rewrite !A. unfold text_write, get_or_empty. cbn [fst snd]. rewrite (nth_error_nth fields _ [] F), !wseq_put. unfold wput. cbn [fst snd]. unfold wseq. cbn [fst snd]. rewrite <- app_assoc. reflexivity. }
  rewrite P. unfold wseq, text_write, wput. cbn [fst snd]. fold (w (utf8 (cc_suffix c))). rewrite <- A. reflexivity.
Qed.
Example c49_write_ex : let c := mkcomp [(bs "v=", mknc [] 1 0)] (bs "!") (bs "new") in let fields := [bs "7"; 120 :: 9 :: 121 :: nil]%N in
  comp_get c fields = Ok (bs "v=x" ++ 9%N :: bs "y!") /\ comp_write c fields ex_mode = (bs "v=x y!", Ok tt) /\
  comp_write c fields (mktm QBackslash 9 10 32) = (bs "v=x\ty!", Ok tt).
Proof. repeat split. Qed.
(** With quotes each piece is protected by itself, which is not how the value is protected. *)
Theorem c49_quotes_refuted : exists c fields t v, comp_get c fields = Ok v /\ snd (comp_write c fields t) = Ok tt /\
  fst (comp_write c fields t) <> mode_write (tm_quote t) v (tm_delim t) (tm_break t) (tm_repl t).
Proof.
  exists (mkcomp [([], mknc [] 0 0); ([], mknc [] 1 0)] [] (bs "new")), [[97; 9; 98]; [9; 99]]%N, (mktm QQuote 9 10 32). eexists.
  split; [reflexivity|]. split; [reflexivity|]. vm_compute. discriminate.
Qed.
(** A number beyond the fields: get panics where write leaves it out. *)
Theorem c49_missing_refuted : forall uni_alpha uni_alnum name n names fields t, ~ In 58%N name -> (N.of_nat (List.length fields) < n < 2 ^ 64)%N ->
  exists c, rbind (comp_set uni_alpha uni_alnum (name ++ 58%N :: 94%N :: print_N n)) (fun c => comp_lookup c names) = Ok c /\
    comp_get c fields = Panic /\ snd (comp_write c fields t) = Ok tt.
Proof.
  intros ua un name n names fields t N B. pose proof (comp_set_ok ua un name [CNum false n] false N) as E.
  cbn [pieces_text map concat piece_text ref_text run fst snd app] in E. rewrite !app_nil_r in E. rewrite E.
  2:{ split; [split; [lia|right; exact I]|exact I]. }
  cbn. eexists. split; [reflexivity|]. split; [|destruct t as [[] ? ? ?]; reflexivity]. unfold comp_get. cbn [cc_parts comp_get_parts nc_num].
  replace (nth_error fields (N.to_nat (n - 1))) with (@None bytes); [reflexivity|]. symmetry. apply nth_error_None. lia.
Qed.
Example c49_missing_refuted_ex : rbind (comp_set no_uni no_uni (bs "new:^9")) (fun c => rbind (comp_lookup c (map bs ["a"; "b"]%string)) (fun c => comp_get c (map bs ["1"; "2"]%string))) = Panic.
Proof. reflexivity. Qed.
(** A letter after a field number may be taken for a magnitude; counting from the end is documented but always rejected. *)
Theorem c49_magnitude_refuted : exists c, comp_set no_uni no_uni (bs "new:^1k") = Ok c /\ forall fields, List.length fields < 100 -> comp_get c fields = Panic.
Proof.
  eexists. split; [vm_compute; reflexivity|]. intros fields L. unfold comp_get. cbn [cc_parts comp_get_parts nc_num].
  match goal with |- context [nth_error fields ?k] => replace (nth_error fields k) with (@None bytes); [reflexivity|] end. symmetry. apply nth_error_None. lia.
Qed.
Theorem c49_end_refuted : forall uni_alpha uni_alnum name rest, ~ In 58%N name ->
  comp_set uni_alpha uni_alnum (name ++ 58%N :: 94%N :: 43%N :: rest) = Err.
Proof. intros ua un name rest N. unfold comp_set. rewrite split_once_app by auto. reflexivity. Qed.
Example c49_end_refuted_ex : comp_set no_uni no_uni (bs "new:^+1") = Err.
Proof. reflexivity. Qed.

(** * C52 *)
(** After lookup, each column of the file has the last value given for it, or the default. *)
Theorem c52_last : forall T match_make (v : values T) names sets,
  Forall2 (fun d kv => exists c, lookup match_make (sv_cols d) names = Ok c /\ map (fun o => N.to_nat (oc_num o)) (cs_cols c) = fst kv /\
                                 sv_value d = snd kv /\ Forall (fun k => k < List.length names) (fst kv)) (vs_data v) sets ->
  exists v', values_lookup match_make v names = Ok v' /\
    forall k, k < List.length names -> values_get v' k = Ok (last_value sets (vs_default v) k) /\ (values_has v' k = true <-> any_value sets k).
Proof.
  intros T mm v names sets F.
  destruct (values_loop_ok T mm (vs_data v) names sets (repeat (vs_default v) (List.length names)) (repeat false (List.length names))) as (d & s & h & E & Ls & Lh & S & H).
  { apply repeat_length. } { rewrite !repeat_length. auto. } { exact F. }
  unfold values_lookup. rewrite E. cbn [rbind]. eexists. split; [reflexivity|]. intros k L. rewrite repeat_length in *. split.
  - unfold values_get. cbn [vs_strings]. destruct (nth_error s k) as [x|] eqn:X.
    + rewrite <- (nth_error_nth s k [] X). rewrite S by auto. do 2 f_equal. clear -L. revert k L. induction (List.length names) as [|n IH]; intros [|k] L; cbn; try lia; auto. apply IH. lia.
    + apply nth_error_None in X. lia.
  - unfold values_has. cbn [vs_has]. rewrite H. assert (nth k (repeat false (List.length names)) false = false) as -> by (clear; revert k; induction (List.length names); intros [|k]; cbn; auto).
    intuition discriminate.
Qed.
Example c52_last_ex :
  let v := mkvals (bs "-") [mksv (mkset [mkpart (bs "1-3") None] [] [] false ([] : list nat)) (bs "x"); mksv (mkset [mkpart (bs "b") None] [] [] false []) (bs "y")] [] [] in
  let names := map bs ["a"; "b"; "c"; "d"]%string in
  Forall2 (fun d kv => exists c, lookup ex_match (sv_cols d) names = Ok c /\ map (fun o => N.to_nat (oc_num o)) (cs_cols c) = fst kv /\
                                 sv_value d = snd kv /\ Forall (fun k => k < List.length names) (fst kv)) (vs_data v) [([0; 1; 2], bs "x"); ([1], bs "y")] /\
  map (last_value [([0; 1; 2], bs "x"); ([1], bs "y")] (bs "-")) [0; 1; 2; 3] = map bs ["x"; "y"; "x"; "-"]%string.
Proof.
  cbv zeta. split; [|reflexivity]. apply Forall2_cons; [|apply Forall2_cons; [|apply Forall2_nil]].
  - eexists. split; [reflexivity|]. repeat split; cbn; repeat constructor.
  - eexists. split; [reflexivity|]. repeat split; cbn; repeat constructor.
Qed.
(** A value, the delimiter and the columns: the value up to the first delimiter, for those columns. *)
Theorem c52_spec : forall uni_alpha T (trans_make : bytes -> res T) value del cols, value <> [] -> ~ In del value ->
  (sv_new uni_alpha trans_make (value ++ del :: cols) del = rbind (add uni_alpha trans_make set_new cols false) (fun c => Ok (mksv c value))) /\
  sv_new uni_alpha trans_make value del = Ok (mksv set_new value).
Proof.
  intros ua T tm value del cols NE N.
  assert (X : forall v pre rest, ~ In del v -> sv_loop ua tm (v ++ rest) del pre = sv_loop ua tm rest del (pre ++ v)).
  { induction v as [|c v IH]; intros pre rest H; [rewrite app_nil_r; auto|]. cbn [app sv_loop].
    replace (c =? del)%N with false by (symmetry; apply N.eqb_neq; intros ->; apply H; left; auto). rewrite IH by (intros I; apply H; right; auto). rewrite <- app_assoc. reflexivity. }
  destruct value as [|c v]; [congruence|]. assert (E : (c =? del)%N = false) by (apply N.eqb_neq; intros ->; apply N; left; auto). split.
  - unfold sv_new. cbn [app]. rewrite E. change (c :: v ++ del :: cols) with ((c :: v) ++ del :: cols). rewrite X by auto. cbn [sv_loop app]. rewrite N.eqb_refl. reflexivity.
  - unfold sv_new. rewrite E. rewrite <- (app_nil_r (c :: v)) at 1. rewrite X by auto. reflexivity.
Qed.
Example c52_spec_ex : rbind (sv_new no_uni ex_trans (bs "none;2-3,id") 59) (fun s => Ok (sv_value s, map p_val (cs_pos (sv_cols s)))) = Ok (bs "none", map bs ["2-3"; "id"]%string).
Proof. reflexivity. Qed.
(** The code provides for a value that is the delimiter itself, written alone or doubled, but neither form works: alone it panics, and
    doubled it leaves an empty column name, which is never found. *)
Theorem c52_delimiter_refuted : forall uni_alpha T (trans_make : bytes -> res T) del,
  sv_new uni_alpha trans_make [del] del = Panic /\
  forall uni_alnum t, term_ok (alphabetic uni_alpha) (alphanumeric uni_alnum) t -> exists s, sv_new uni_alpha trans_make (44%N :: 44%N :: term_text t) 44 = Ok s /\
    forall match_make names c, lookup match_make (sv_cols s) names <> Ok c.
Proof.
  intros ua T tm del. split; [unfold sv_new, sv_loop; rewrite N.eqb_refl; reflexivity|]. intros un t H.
  assert (A : add ua tm set_new (44%N :: term_text t) false = Ok (put_parts T (add_one set_new [] false None) [mkp (t_not t) (t_label t) (WItem (t_item t)) None] None)).
  { unfold add, find_trans. assert (C : calm ua (44%N :: term_text t)) by (constructor; [discriminate|apply (calm_term ua un T tm (fun _ => Err)); auto]).
    rewrite <- (app_nil_r (44%N :: term_text t)) at 1. rewrite (find_trans_calm ua) by auto. cbn [find_trans_loop List.length add_loop N.eqb Pos.eqb split_once].
    destruct (term_head ua un T tm (fun _ => Err) t H) as (x & b & E & N & P). apply N.eqb_neq in P. pose proof (add_one_term ua un T tm (fun _ => Err) (add_one set_new [] false None) t false None H) as O.
    rewrite E in O |- *. cbn [List.length add_loop]. rewrite P, split_once_none by auto. rewrite O, xorb_false_l. reflexivity. }
  eexists. split; [unfold sv_new, sv_loop; rewrite N.eqb_refl, A; reflexivity|]. intros mm names c. cbn [sv_cols]. unfold lookup, put_parts, add_one, set_new. cbn [cs_neg cs_pos app].
  match goal with |- context [ranges mm names ?l] => destruct (ranges mm names l) end; discriminate.
Qed.
Example c52_delimiter_refuted_ex : rbind (sv_new no_uni ex_trans (bs ",,1") 44) (fun s => lookup ex_match (sv_cols s) (map bs ["a"; "b"]%string)) = Err.
Proof. reflexivity. Qed.
(** A column number beyond the header panics, and so does asking for a value when there are no columns; a column beyond the header gets
    the value of the last one. *)
Theorem c52_beyond_refuted : forall T match_make (v : values T) names n s, (N.of_nat (List.length names) < n < 2 ^ 64)%N ->
  vs_data v = [mksv (mkset [mkpart (print_N n) None] [] [] false []) s] -> values_lookup match_make v names = Panic.
Proof.
  intros T mm v names n s B E. pose proof (c27_number_refuted no_uni T (fun _ => Err) mm names n B) as R.
  unfold values_lookup. rewrite E. cbn [values_loop sv_cols sv_value]. unfold lookup_cols in R.
  destruct (add no_uni (fun _ => Err) set_new (print_N n) false) as [c| |] eqn:A; [|discriminate|discriminate].
  assert (c = mkset [mkpart (print_N n) None] [] [] false []) as ->.
  { pose proof (add_spec no_uni no_uni T (fun _ => Err) tr0 mm set_new (mkspec [mkterm false [] (IOne (PNum n))] None None) false) as X.
    assert (Y : spec_text (mkspec [mkterm false [] (IOne (PNum n))] None None) = print_N n) by (unfold spec_text; rewrite app_nil_r; reflexivity).
    rewrite Y, A in X. assert (Z : Ok c = Ok (mkset (T := T) [mkpart (print_N n) None] [] [] false [])); [|congruence]. rewrite X; [reflexivity|].
    split; [repeat constructor; cbn; lia|]. split; [left; discriminate|]. split; cbn; intros; discriminate. }
  cbn [rbind] in R. destruct (lookup mm _ names) as [c'| |]; [|discriminate|discriminate]. cbn [rbind] in R |- *. destruct (cs_cols c') as [|o [|o' r]]; try discriminate. injection R as R.
  cbn [assign]. rewrite R. assert (S : forall A (l : list A) k x, List.length l <= k -> set_at l k x = Panic).
  { induction l as [|y l IH]; intros k x L; auto. destruct k as [|k]; cbn in L; [lia|]. cbn [set_at]. rewrite IH by lia. reflexivity. }
  rewrite S; [reflexivity|]. rewrite repeat_length. lia.
Qed.
Example c52_beyond_refuted_ex : values_lookup ex_match (mkvals (bs "-") [mksv (mkset [mkpart (bs "3") None] [] [] false ([] : list nat)) (bs "x")] [] []) (map bs ["a"; "b"]%string) = Panic.
Proof. reflexivity. Qed.
Theorem c52_default_refuted : forall T match_make (v : values T), vs_data v = [] ->
  (forall k, rbind (values_lookup match_make v []) (fun v => values_get v k) = Panic) /\
  forall c, exists names k, List.length names <= k /\
    rbind (values_lookup match_make (mkvals (bs "-") [mksv (mkset [mkpart (bs "+1") None] [] [] false ([] : list T)) c] [] []) names) (fun v => values_get v k) = Ok c.
Proof.
  intros T mm v E. split; [intros k; unfold values_lookup; rewrite E; destruct k; reflexivity|]. intros c. exists (map bs ["a"; "b"]%string), 2. split; [cbn; lia|reflexivity].
Qed.
(** Asking for the values as numbers always panics. *)
Theorem c52_numbers_refuted : forall T (v : values T), vs_strings v <> [] -> make_ints v = Panic.
Proof. intros T v N. unfold make_ints. destruct (vs_strings v); [congruence|reflexivity]. Qed.
Example c52_numbers_refuted_ex : rbind (values_lookup ex_match (mkvals (bs "1") ([] : list (scoped nat)) [] []) (map bs ["a"]%string)) make_ints = Panic.
Proof. reflexivity. Qed.

(** * C64 *)
(** What each kind of writer needs for its share of the row to have as many fields as it has names. *)
Definition fits {T} (trans_run : T -> bytes -> res bytes) (whole : bytes) (fields : list bytes) (t : tmode) (head : list bytes) (x : colfun T) : Prop :=
  let d := tm_delim t in
  let value c o v := match oc_trans o with
                     | None => v = nth (N.to_nat (oc_num o)) fields []
                     | Some i => exists tr, nth_error (cs_trans c) i = Some tr /\ trans_run tr (nth (N.to_nat (oc_num o)) fields []) = Ok v
                     end in
  match x with
  | FExpr _ v => ~ In d (v fields)
  | FSingle c _ => N.to_nat (nc_num c) < List.length fields
  | FWhole => whole <> [] /\ List.length (split_on d (removelast whole)) = List.length head
  | FCount _ _ => d <> 45%N /\ ~ (48 <= d <= 57)%N
  | FLiteral _ _ => True
  | FSet c => cs_done c = true /\ cs_cols c <> [] /\ exists vals, Forall2 (value c) (cs_cols c) vals
  | FClump _ e c => cs_done c = true /\ e <> d /\ d <> 32%N /\ exists vals, Forall2 (value c) (cs_cols c) vals /\ Forall (fun v => ~ In d v) vals
  | FComp _ => True
  end.
Theorem c64_fields : forall T (trans_run : T -> bytes -> res bytes) v whole fields t head ns, v <> [] -> tm_quote t = QPlain -> tm_repl t <> tm_delim t ->
  Forall (fits trans_run whole fields t head) v -> writer_names v head = Ok ns ->
  exists row, fst (writer_write trans_run v whole fields t) = (row ++ [NL], Ok tt) /\ List.length (split_on (tm_delim t) row) = List.length ns.
Proof. intros. apply row_count with (head := head); auto. Qed.
Example c64_fields_ex :
  let v := [FSet ex_set; FLiteral (bs "x" ++ 9%N :: bs "y") (bs "lit"); FCount 41 (bs "n"); FClump (bs "all") 44 (mkset [] [] [mkoc 0 [] None; mkoc 1 [] None] true []); FWhole] in
  let head := map bs ["a"; "b"; "c"]%string in let fields := map bs ["AB"; "b"; "C"]%string in let whole := join 9 fields ++ [NL] in
  Forall (fits ex_run whole fields ex_mode head) v /\ writer_names v head = Ok (map bs ["c"; "id"; "lit"; "n"; "all"; "a"; "b"; "c"]%string) /\
  fst (writer_write ex_run v whole fields ex_mode) = (join 9 (map bs ["C"; "ab"; "x y"; "41"; "AB,b"; "AB"; "b"; "C"]%string) ++ [NL], Ok tt).
Proof.
  cbv zeta. split; [|split; reflexivity]. repeat (apply Forall_cons); [| | | | |apply Forall_nil]; cbn.
  - split; auto. split; [discriminate|]. exists (map bs ["C"; "ab"]%string). apply Forall2_cons; [reflexivity|]. apply Forall2_cons; [|apply Forall2_nil].
    exists (bs "lower"). split; reflexivity.
  - exact I.
  - split; [discriminate|lia].
  - split; auto. split; [discriminate|]. split; [discriminate|]. exists (map bs ["AB"; "b"]%string). split.
    + apply Forall2_cons; [reflexivity|]. apply Forall2_cons; [reflexivity|apply Forall2_nil].
    + repeat constructor; vm_compute; intuition discriminate.
  - split; [discriminate|reflexivity].
Qed.

(** A selection that is empty still gets its delimiter: one field more than names. *)
Theorem c64_empty_refuted : exists v names head, rbind (writer_lookup ex_match v head) (fun v => writer_names v head) = Ok names /\
  forall x, exists v', writer_lookup ex_match v head = Ok v' /\
    exists row, fst (writer_write ex_run v' (x ++ [NL]) [x] ex_mode) = (row ++ [NL], Ok tt) /\ List.length (split_on 9 row) <> List.length names.
Proof.
  exists [FSet (mkset [] [mkpart (bs "1") None] [] false []); FLiteral (bs "v") (bs "lit")], [bs "lit"], [bs "a"]. split; [reflexivity|].
  intros x. eexists. split; [reflexivity|]. exists [9; 118]%N. split; [reflexivity|]. vm_compute. discriminate.
Qed.
(** A clump is not protected against the delimiter of the file: a field that holds it, as the decoding modes give, splits the row. *)
Theorem c64_clump_refuted : exists v head names fields row, rbind (writer_lookup ex_match v head) (fun v => writer_names v head) = Ok names /\
  rbind (writer_lookup ex_match v head) (fun v => match writer_write ex_run v [] fields (mktm QBackslash 9 10 32) with ((r, Ok _), _) => Ok r | _ => Err end) = Ok (row ++ [NL]) /\
  List.length (split_on 9 row) <> List.length names.
Proof.
  exists [FClump (bs "all") 44 (mkset [] [] [] false [])], (map bs ["a"; "b"]%string), [bs "all"], [[120; 9; 121]; [122]]%N, [120; 9; 121; 44; 122]%N.
  split; [reflexivity|]. split; [reflexivity|]. vm_compute. discriminate.
Qed.
(** A short line: a single column panics, where a column set writes an empty field. *)
Theorem c64_single_refuted : forall T (trans_run : T -> bytes -> res bytes) n name whole fields t, (List.length fields <= N.to_nat n) ->
  snd (fst (writer_write trans_run [FSingle (mknc [] n 0) name] whole fields t)) = Panic /\
  snd (fst (writer_write trans_run [FSet (mkset [] [] [mkoc n name None] true [])] whole fields t)) = Ok tt.
Proof.
  intros T tr n name whole fields t L. assert (E : nth_error fields (N.to_nat n) = None) by (apply nth_error_None; auto). split.
  - unfold writer_write. cbn [map fun_write nc_num fst snd wall fold_right]. rewrite E. reflexivity.
  - reflexivity.
Qed.
Example c64_single_refuted_ex : snd (fst (writer_write ex_run [FSingle (mknc [] 2 0) (bs "c")] (bs "a" ++ [NL]) [bs "a"] ex_mode)) = Panic.
Proof. reflexivity. Qed.
