(** Lemmas on column writers, scoped values and composite columns. *)
From Coq Require Import String List NArith ZArith Bool Arith Lia.
Open Scope list_scope.
Import ListNotations.
From Verif Require Import Base TextSpec TextModel StrSpec StrModel StrProofs MatchModel MatchProofs ReadModel HdrModel HdrSpec HdrProofs IpProofs TransProofs ColModel ColSpec ColProofs.
Close Scope Z_scope.

Lemma wseq_put : forall b o, wseq (wput b) o = (b ++ fst o, snd o).
Proof. reflexivity. Qed.
Lemma wall_ok : forall (l : list wout), Forall (fun o => snd o = Ok tt) l -> wall l = (concat (map fst l), Ok tt).
Proof. induction 1 as [|[b r] l E F IH]; auto. unfold wall in *. cbn [fold_right]. rewrite IH. cbn in E. subst. reflexivity. Qed.
Lemma wall_puts : forall A (f : A -> bytes) l, wall (map (fun x => wput (f x)) l) = (flat_map f l, Ok tt).
Proof. intros. rewrite wall_ok; [|rewrite Forall_map; apply Forall_forall; auto]. rewrite map_map. cbn. rewrite flat_map_concat_map. reflexivity. Qed.
Lemma join_flat : forall d x l, join d (x :: l) = x ++ flat_map (fun y => d :: y) l.
Proof. intros d x l. revert x. induction l as [|y l IH]; intros x; [cbn; rewrite app_nil_r; auto|]. rewrite join_cons by discriminate. rewrite IH. reflexivity. Qed.
Lemma sep_flat : forall d x l, sep_by d (x :: l) = x ++ flat_map (fun y => d ++ y) l.
Proof.
  intros d x l. revert x. induction l as [|y l IH]; intros x; [cbn; rewrite app_nil_r; auto|]. cbn [flat_map]. rewrite <- app_assoc, <- (IH y). reflexivity.
Qed.
Lemma flat_map_map : forall A B C (f : B -> list C) (g : A -> B) l, flat_map f (map g l) = flat_map (fun x => f (g x)) l.
Proof. induction l; cbn; congruence. Qed.

(** * Writing *)
Section Write.
Variable T : Type.
Variable trans_run : T -> bytes -> res bytes.
Notation field fields o := (nth_error fields (N.to_nat (oc_num o))).
Lemma select_ok : forall fields cols vals, Forall2 (fun o f => field fields o = Some f) cols vals -> select_loop cols fields = Ok vals.
Proof. induction 1 as [|o f cols vals E F IH]; auto. cbn [select_loop]. rewrite E, IH. reflexivity. Qed.
Lemma select_err : forall fields cols, (exists o, In o cols /\ field fields o = None) -> select_loop cols fields = Err.
Proof.
  induction cols as [|x cols IH]; intros (o & I & E); [destruct I|]. cbn [select_loop]. destruct I as [->|I]; [rewrite E; auto|].
  destruct (field fields x); auto. rewrite IH by eauto. reflexivity.
Qed.
Lemma write_ok : forall (c : colset T) fields vals delim, cs_done c = true -> Forall2 (fun o f => field fields o = Some f) (cs_cols c) vals ->
  write c fields delim = (sep_by delim vals ++ [NL], Ok tt).
Proof.
  intros c fields vals delim D F. unfold write. rewrite D. cbn [negb]. destruct F as [|o f cols vals E F]; [reflexivity|].
  unfold at_or_panic. rewrite E. rewrite sep_flat.
  assert (X : wall (map (fun x => wseq (wput delim) (at_or_err fields (oc_num x))) cols) = (flat_map (fun y => delim ++ y) vals, Ok tt)).
  { induction F as [|o' f' cols vals E' F IH]; auto. cbn [map]. unfold wall in *. cbn [fold_right]. rewrite IH. unfold at_or_err. rewrite E'. reflexivity. }
  rewrite X. cbn. reflexivity.
Qed.
Lemma write_short : forall (c : colset T) fields o r, cs_done c = true -> cs_cols c = o :: r -> field fields o = None ->
  forall delim, write c fields delim = ([], Panic).
Proof. intros c fields o r D E N delim. unfold write. rewrite D, E. unfold at_or_panic. rewrite N. reflexivity. Qed.
Lemma write_later_short : forall (c : colset T) fields delim, cs_done c = true ->
  (exists o r, cs_cols c = o :: r /\ field fields o <> None) -> (exists o, In o (cs_cols c) /\ field fields o = None) ->
  snd (write c fields delim) = Err.
Proof.
  intros c fields delim D (o & r & E & S) (o' & I & N). unfold write. rewrite D, E. rewrite E in I. unfold at_or_panic.
  destruct (field fields o) as [f|] eqn:F; [|congruence]. destruct I as [->|I]; [congruence|]. cbn [negb].
  assert (X : snd (wall (map (fun x => wseq (wput delim) (at_or_err fields (oc_num x))) r)) = Err).
  { clear E. induction r as [|x r IH]; [destruct I|]. unfold wall in *. cbn [map fold_right]. unfold at_or_err. destruct (field fields x) as [g|] eqn:G.
    - destruct I as [->|I]; [congruence|]. specialize (IH I). unfold wseq, wput in *. cbn [fst snd] in *. auto.
    - reflexivity. }
  unfold wseq at 1 2. cbn [fst snd wput]. destruct (wall _) as [b e]. cbn [snd] in X. subst. reflexivity.
Qed.
Lemma write2_ok : forall (c : colset T) fields delim, cs_done c = true -> (forall o r, cs_cols c = o :: r -> field fields o <> None) ->
  write2 c fields delim = (join delim (map (fun o => nth (N.to_nat (oc_num o)) fields []) (cs_cols c)) ++ [NL], Ok tt).
Proof.
  intros c fields delim D F. unfold write2. rewrite D. cbn [negb]. destruct (cs_cols c) as [|o cols]; [reflexivity|]. specialize (F _ _ eq_refl).
  unfold at_or_panic. destruct (field fields o) as [f|] eqn:E; [|congruence]. cbn [map].
  rewrite join_flat, flat_map_map, wall_puts. rewrite (nth_error_nth fields (N.to_nat (oc_num o)) [] E). reflexivity.
Qed.
Lemma write3s_ok : forall (c : colset T) fields delim, cs_done c = true ->
  write3s c fields delim = (join delim (map (fun o => nth (N.to_nat (oc_num o)) fields []) (cs_cols c)), Ok tt).
Proof.
  intros c fields delim D. unfold write3s. rewrite D. cbn [negb]. destruct (cs_cols c) as [|o cols]; [reflexivity|]. cbn [map].
  rewrite join_flat, flat_map_map, wall_puts. reflexivity.
Qed.
Lemma write_sloppy_ok : forall (c : colset T) fields rest, cs_done c = true ->
  write_sloppy c fields rest = (concat (map (fun o => nth (N.to_nat (oc_num o)) fields rest) (cs_cols c)), Ok tt).
Proof.
  intros c fields rest D. unfold write_sloppy. rewrite D. cbn [negb]. rewrite wall_puts, flat_map_concat_map. do 2 f_equal.
  apply map_ext. intros o. destruct (field fields o) eqn:E; [erewrite nth_error_nth; eauto|]. apply nth_error_None in E. symmetry. apply nth_overflow; auto.
Qed.
Lemma select_sloppy_ok : forall (c : colset T) fields rest, cs_done c = true ->
  select_sloppy c fields rest = Ok (map (fun o => nth (N.to_nat (oc_num o)) fields rest) (cs_cols c)).
Proof.
  intros c fields rest D. unfold select_sloppy. rewrite D. cbn [negb]. f_equal.
  apply map_ext. intros o. destruct (field fields o) eqn:E; [erewrite nth_error_nth; eauto|]. apply nth_error_None in E. symmetry. apply nth_overflow; auto.
Qed.
(** The value of an output column: the field, or nothing, possibly transformed. *)
Definition out_value (c : colset T) (fields : list bytes) (o : outcol) (v : bytes) : Prop :=
  match oc_trans o with
  | None => v = nth (N.to_nat (oc_num o)) fields []
  | Some i => exists t, nth_error (cs_trans c) i = Some t /\ trans_run t (nth (N.to_nat (oc_num o)) fields []) = Ok v
  end.
Lemma fetch_ok : forall c fields o v, out_value c fields o v -> fetch trans_run c fields o = Ok v.
Proof. intros c fields o v. unfold out_value, fetch, get_or_empty. destruct (oc_trans o); [|congruence]. intros (t & -> & ->). reflexivity. Qed.
Lemma write3_ok : forall (c : colset T) fields vals t, cs_done c = true -> Forall2 (out_value c fields) (cs_cols c) vals ->
  write3 trans_run c fields t = (join (tm_delim t) (map (fun v => mode_write (tm_quote t) v (tm_delim t) (tm_break t) (tm_repl t)) vals), Ok tt).
Proof.
  intros c fields vals t D F. unfold write3. rewrite D. cbn [negb]. destruct F as [|o v cols vals E F]; [reflexivity|].
  cbn [map]. rewrite join_flat. unfold fetch_write at 1. rewrite (fetch_ok _ _ _ _ E).
  assert (X : wall (map (fun x => wseq (wput [tm_delim t]) (fetch_write trans_run c fields t x)) cols) =
    (flat_map (fun y => tm_delim t :: y) (map (fun v => mode_write (tm_quote t) v (tm_delim t) (tm_break t) (tm_repl t)) vals), Ok tt)).
  { induction F as [|o' f' cols vals E' F IH]; auto. cbn [map]. unfold wall in *. cbn [fold_right]. rewrite IH. unfold fetch_write. rewrite (fetch_ok _ _ _ _ E'). reflexivity. }
  rewrite X. reflexivity.
Qed.
End Write.

(** * Counting fields *)
Notation cnt d l := (count_occ N.eq_dec l d).
Lemma split_count : forall d l, List.length (split_on d l) = S (cnt d l).
Proof.
  induction l as [|c l IH]; auto. cbn [split_on count_occ]. destruct (N.eq_dec c d) as [->|N].
  - rewrite N.eqb_refl. cbn [List.length]. rewrite IH. reflexivity.
  - apply N.eqb_neq in N. rewrite N. destruct (split_on d l); cbn in *; congruence.
Qed.
Lemma cnt_none : forall d l, ~ In d l -> cnt d l = 0.
Proof. intros. apply count_occ_not_In; auto. Qed.
Lemma cnt_join : forall d x l, Forall (fun y => ~ In d y) (x :: l) -> cnt d (join d (x :: l)) = List.length l.
Proof.
  intros d x l F. rewrite join_flat. inversion F as [|? ? H G]; subst. rewrite count_occ_app, (cnt_none d x) by auto. cbn [Nat.add]. clear F H.
  induction G as [|y l N G IH]; auto. cbn [flat_map app count_occ]. destruct (N.eq_dec d d); [|congruence]. rewrite count_occ_app, cnt_none, IH by auto. reflexivity.
Qed.
Lemma write_plain_in : forall b d e r c, In c (mode_write QPlain b d e r) -> c = r \/ In c b /\ c <> d.
Proof.
  cbn [mode_write]. induction b as [|x b IH]; intros d e r c I; [destruct I|]. cbn [write_plain] in I. destruct I as [I|I].
  - destruct (x =? d)%N eqn:A; [left; auto|]. destruct (x =? e)%N; [left; auto|]. cbn in I. subst. apply N.eqb_neq in A. right. split; auto. left; auto.
  - destruct (IH _ _ _ _ I) as [|[J N]]; auto. right. split; auto. right; auto.
Qed.
Lemma write_plain_clean : forall b d e r, r <> d -> ~ In d (mode_write QPlain b d e r).
Proof. intros b d e r N I. apply write_plain_in in I as [I|[_ I]]; congruence. Qed.
Lemma write_plain_id : forall b d e r, ~ In d b -> ~ In e b -> mode_write QPlain b d e r = b.
Proof.
  cbn [mode_write]. induction b as [|x b IH]; intros d e r D E; auto. cbn [write_plain]. rewrite IH by (intros I; (apply D; right; exact I) || (apply E; right; exact I)).
  replace (x =? d)%N with false by (symmetry; apply N.eqb_neq; intros ->; apply D; left; auto).
  replace (x =? e)%N with false by (symmetry; apply N.eqb_neq; intros ->; apply E; left; auto). reflexivity.
Qed.

Section Rows.
Variable T : Type.
Variable trans_run : T -> bytes -> res bytes.
(** Writers whose output fits the line: what each kind needs. *)
Definition fits_row (whole : bytes) (fields : list bytes) (t : tmode) (head : list bytes) (x : colfun T) : Prop :=
  let d := tm_delim t in
  match x with
  | FExpr _ v => ~ In d (v fields)
  | FSingle c _ => N.to_nat (nc_num c) < List.length fields
  | FWhole => whole <> [] /\ List.length (split_on d (removelast whole)) = List.length head
  | FCount _ _ => d <> 45%N /\ ~ (48 <= d <= 57)%N
  | FLiteral _ _ => True
  | FSet c => cs_done c = true /\ cs_cols c <> [] /\ exists vals, Forall2 (out_value T trans_run c fields) (cs_cols c) vals
  | FClump _ e c => cs_done c = true /\ e <> d /\ d <> 32%N /\ exists vals, Forall2 (out_value T trans_run c fields) (cs_cols c) vals /\ Forall (fun v => ~ In d v) vals
  | FComp _ => True
  end.
Lemma print_Z_no : forall d z, d <> 45%N -> ~ (48 <= d <= 57)%N -> ~ In d (print_Z z).
Proof. intros d z M D. unfold print_Z. destruct (z <? 0)%Z; [intros [I|I]; [congruence|]; revert I|]; apply print_no; auto. Qed.
Lemma fun_count : forall x whole fields t head ns, tm_quote t = QPlain -> tm_repl t <> tm_delim t ->
  fits_row whole fields t head x -> fun_names x head = Ok ns ->
  exists out, fst (fun_write trans_run x whole fields t) = (out, Ok tt) /\ S (cnt (tm_delim t) out) = List.length ns.
Proof.
  intros x whole fields t head ns Q R F N.
  assert (one : forall out, ~ In (tm_delim t) out -> List.length ns = 1 ->
     exists o, (out, Ok tt) = (o, Ok tt) /\ S (cnt (tm_delim t) o) = List.length ns).
  { intros out I L. exists out. split; auto. rewrite cnt_none, L by auto. reflexivity. }
  assert (clean : forall b, ~ In (tm_delim t) (mode_write (tm_quote t) b (tm_delim t) (tm_break t) (tm_repl t))).
  { intros b. rewrite Q. apply write_plain_clean; auto. }
  destruct x as [n v|c n| |z n|v n|c|n e c|c]; cbn [fits_row fun_names fun_write fst] in *.
  - injection N as <-. apply one; auto.
  - destruct (nth_error fields (N.to_nat (nc_num c))) as [f|] eqn:E; [|apply nth_error_None in E; lia]. unfold text_write. apply one; auto.
    destruct n; [destruct (nth_error head _)|]; try discriminate; injection N as <-; auto.
  - injection N as <-. destruct F as [NE L]. destruct whole as [|w whole]; [congruence|]. eexists. split; [reflexivity|]. rewrite <- L, split_count. reflexivity.
  - injection N as <-. apply one; auto. apply print_Z_no; tauto.
  - injection N as <-. unfold text_write. apply one; auto.
  - destruct F as (D & NE & vals & V). injection N as <-. rewrite (write3_ok T trans_run c fields vals t D V). eexists. split; [reflexivity|].
    rewrite map_length. pose proof (forall2_len _ _ _ _ _ V) as L. destruct (cs_cols c) as [|o cols]; [congruence|]. destruct vals as [|v vals]; [discriminate|].
    cbn [map]. rewrite cnt_join; [rewrite map_length; cbn in *; lia|]. constructor; auto. rewrite Forall_map. apply Forall_forall. auto.
  - destruct F as (D & NE & NS & vals & V & NI). injection N as <-. rewrite (write3_ok T trans_run c fields vals _ D V). cbn [tm_delim tm_quote tm_break tm_repl]. apply one; auto.
    intros I. apply in_join in I as [I|(f & J & I)]; [congruence|]. apply in_map_iff in J as (v & <- & J). apply write_plain_in in I as [I|[I _]]; [congruence|].
    rewrite Forall_forall in NI. apply (NI v J I).
  - injection N as <-. unfold comp_write.
    assert (X : exists o, wall (map (fun pc => wseq (text_write t (utf8 (fst pc))) (text_write t (get_or_empty fields (nc_num (snd pc))))) (cc_parts c)) = (o, Ok tt) /\ ~ In (tm_delim t) o).
    { induction (cc_parts c) as [|pc l IH]; [exists []; auto|]. destruct IH as (o & E & I). unfold wall in *. cbn [map fold_right]. rewrite E.
      eexists. split; [reflexivity|]. cbn [fst]. intros J. apply in_app_or in J as [J|J]; [|auto]. apply in_app_or in J as [J|J]; exact (clean _ J). }
    destruct X as (o & E & I). rewrite E. unfold wseq, text_write, wput. cbn [fst snd]. apply one; auto. intros J. apply in_app_or in J as [J|J]; [auto|exact (clean _ J)].
Qed.
Lemma row_count : forall v whole fields t head ns, v <> [] -> tm_quote t = QPlain -> tm_repl t <> tm_delim t ->
  Forall (fits_row whole fields t head) v -> writer_names v head = Ok ns ->
  exists row, fst (writer_write trans_run v whole fields t) = (row ++ [NL], Ok tt) /\ List.length (split_on (tm_delim t) row) = List.length ns.
Proof.
  intros v whole fields t head ns NE Q R F N.
  assert (X : exists outs, map (fun x => fst (fun_write trans_run x whole fields t)) v = map (fun o => (o, Ok tt)) outs /\
     List.length ns = list_sum (map (fun o => S (cnt (tm_delim t) o)) outs)).
  { clear NE. revert ns N. induction F as [|x v Fx F IH]; intros ns N; cbn [writer_names] in N.
    - injection N as <-. exists []. auto.
    - destruct (fun_names x head) as [l| |] eqn:E; try discriminate. cbn [rbind] in N.
      destruct (writer_names v head) as [l'| |]; try discriminate. injection N as <-. destruct (IH l' eq_refl) as (outs & M & L).
      destruct (fun_count x whole fields t head l Q R Fx E) as (o & W & C). exists (o :: outs). cbn [map]. rewrite W, M. split; auto.
      rewrite app_length, L, <- C. reflexivity. }
  destruct X as (outs & M & L). unfold writer_write. cbn [fst]. rewrite M. destruct outs as [|o outs]; [destruct v; [congruence|discriminate]|].
  cbn [map]. assert (Y : wall (map (fun o => wseq (wput [tm_delim t]) o) (map (fun o => (o, Ok tt)) outs)) = (flat_map (fun o => tm_delim t :: o) outs, Ok tt)).
  { rewrite map_map. rewrite <- wall_puts. reflexivity. }
  rewrite Y. exists (join (tm_delim t) (o :: outs)). rewrite join_flat. split; [reflexivity|]. rewrite split_count, L, count_occ_app. cbn [map list_sum fold_right].
  clear. induction outs as [|x outs IH]; [cbn; lia|]. cbn [flat_map app count_occ map list_sum fold_right]. destruct (N.eq_dec (tm_delim t) (tm_delim t)); [|congruence].
  rewrite count_occ_app. unfold list_sum in *. cbn [fold_right] in *. lia.
Qed.
End Rows.

(** * Scoped values *)
Section Scoped.
Variable T : Type.
Variable match_make : bytes -> res (bytes -> bool).
Lemma set_at_ok : forall A (l : list A) n x, n < List.length l -> exists l', set_at l n x = Ok l' /\ List.length l' = List.length l /\
  forall k d, nth k l' d = if k =? n then x else nth k l d.
Proof.
  induction l as [|y l IH]; intros n x L; [cbn in L; lia|]. destruct n as [|n]; cbn [set_at].
  - eexists. split; [reflexivity|]. split; auto. intros [|k] d; auto.
  - cbn in L. destruct (IH n x) as (l' & E & L' & N); [lia|]. rewrite E. cbn [rbind]. eexists. split; [reflexivity|]. split; [cbn; auto|].
    intros [|k] d; auto. cbn. apply N.
Qed.
Definition nums (c : colset T) : list nat := map (fun o => N.to_nat (oc_num o)) (cs_cols c).
Lemma assign_ok : forall cols v s h, Forall (fun o => N.to_nat (oc_num o) < List.length s) cols -> List.length h = List.length s ->
  exists s' h', assign cols v s h = Ok (s', h') /\ List.length s' = List.length s /\ List.length h' = List.length s /\
  (forall k, k < List.length s -> nth k s' [] = (if existsb (Nat.eqb k) (map (fun o => N.to_nat (oc_num o)) cols) then v else nth k s [])) /\
  (forall k, nth k h' false = nth k h false || existsb (Nat.eqb k) (map (fun o => N.to_nat (oc_num o)) cols)).
Proof.
  induction cols as [|o cols IH]; intros v s h F L.
  - exists s, h. cbn. repeat split; auto. intros. rewrite orb_false_r. reflexivity.
  - inversion F as [|? ? Ho Fo]; subst. cbn [assign]. destruct (set_at_ok _ s (N.to_nat (oc_num o)) v Ho) as (s1 & E1 & L1 & N1).
    destruct (set_at_ok _ h (N.to_nat (oc_num o)) true) as (h1 & E2 & L2 & N2); [lia|]. rewrite E1. cbn [rbind]. rewrite E2. cbn [rbind].
    destruct (IH v s1 h1) as (s' & h' & E & Ls & Lh & Ns & Nh); [rewrite L1; auto|lia|]. exists s', h'. rewrite L1 in *. repeat split; auto.
    + intros k K. rewrite Ns by auto. cbn [map existsb]. rewrite N1. destruct (existsb _ _); [rewrite orb_true_r; auto|]. rewrite orb_false_r. reflexivity.
    + intros k. rewrite Nh, N2. cbn [map existsb]. destruct (k =? N.to_nat (oc_num o)); cbn [orb]; rewrite ?orb_true_r; auto.
Qed.
Lemma any_value_cons : forall ks v sets k, any_value ((ks, v) :: sets) k <-> In k ks \/ any_value sets k.
Proof.
  intros. unfold any_value. split.
  - intros (ks' & v' & [E|I] & J); [injection E as -> ->; auto|right; eauto].
  - intros [J|(ks' & v' & I & J)]; [exists ks, v; split; auto; left; auto|exists ks', v'; split; auto; right; auto].
Qed.
Lemma existsb_in : forall k l, existsb (Nat.eqb k) l = true <-> In k l.
Proof. intros. rewrite existsb_exists. split; [intros (x & I & E); apply Nat.eqb_eq in E; subst; auto|]. intros I. exists k. rewrite Nat.eqb_refl. auto. Qed.
Lemma values_loop_ok : forall (data : list (scoped T)) names sets s h, List.length s = List.length names -> List.length h = List.length s ->
  Forall2 (fun d ks => exists c, lookup match_make (sv_cols d) names = Ok c /\ nums c = fst ks /\ sv_value d = snd ks /\ Forall (fun k => k < List.length names) (fst ks)) data sets ->
  exists d' s' h', values_loop match_make data names s h = Ok (d', s', h') /\ List.length s' = List.length s /\ List.length h' = List.length s /\
  (forall k, k < List.length s -> nth k s' [] = last_value sets (nth k s []) k) /\
  (forall k, nth k h' false = true <-> nth k h false = true \/ any_value sets k).
Proof.
  intros data names sets s h L Lh F. revert s h L Lh. induction F as [|d [ks v] data sets (c & E & N & V & B) F IH]; intros s h L Lh.
  - exists [], s, h. cbn. repeat split; auto. intros [|(ks & v & [] & _)]; auto.
  - cbn [fst snd] in *. cbn [values_loop]. rewrite E. cbn [rbind]. destruct (assign_ok (cs_cols c) (sv_value d) s h) as (s1 & h1 & E1 & L1 & L2 & N1 & N2); auto.
    { rewrite L. rewrite <- N in B. unfold nums in B. rewrite Forall_map in B. exact B. }
    rewrite E1. cbn [rbind]. destruct (IH s1 h1) as (d' & s' & h' & E' & Ls & Lh' & Ns & Nh); try lia. rewrite E'. cbn [rbind].
    eexists _, s', h'. split; [reflexivity|]. split; [lia|]. split; [lia|]. split.
    + intros k K. rewrite Ns by lia. cbn [last_value]. rewrite N1 by auto. fold (nums c). rewrite N, V. reflexivity.
    + intros k. rewrite Nh, N2, orb_true_iff, any_value_cons. fold (nums c). rewrite N, existsb_in. tauto.
Qed.
End Scoped.
