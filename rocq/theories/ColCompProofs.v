(** Lemmas on composite columns. *)
From Coq Require Import String List NArith ZArith Bool Arith Lia.
Open Scope list_scope.
Import ListNotations.
From Verif Require Import Base TextSpec TextModel StrSpec StrModel StrProofs MatchModel MatchProofs ReadModel HdrModel HdrSpec HdrProofs IpProofs ColModel ColSpec ColProofs ColWriteProofs.
Close Scope Z_scope.

Section Comp.
Variable uni_alpha uni_alnum : N -> bool.
Notation letter := (alphabetic uni_alpha).
Notation alnum := (alphanumeric uni_alnum).
Notation parse := (nc_parse uni_alpha uni_alnum).
Notation loop := (comp_loop uni_alpha uni_alnum).

Lemma parse_num : forall n rest, (1 <= n < 2 ^ 64)%N -> not_numeric rest -> parse nc_new (print_N n ++ rest) = Ok (mknc [] (n - 1) 0, rest).
Proof.
  intros n rest B N. destruct (print_N_nonzero n) as (c & r & E & D & Z & _); [lia|]. unfold nc_parse. rewrite E. cbn [app]. apply N.eqb_neq in Z. rewrite D, Z. cbn [andb negb].
  change (c :: r ++ rest) with ((c :: r) ++ rest). rewrite <- E, to_usize_print, wrapU_small by (auto; lia).
  replace (n =? 0)%N with false by (symmetry; apply N.eqb_neq; lia). reflexivity.
Qed.
Lemma name_rest_app : forall s rest, Forall (fun c => alnum c = true \/ c = 95%N) s -> not_name alnum rest -> name_rest uni_alnum (s ++ rest) = List.length s.
Proof.
  induction 1 as [|c s H F IH]; intros N; cbn [app name_rest List.length].
  - destruct rest as [|c r]; auto. cbn in N |- *. destruct N as [A B]. apply N.eqb_neq in B. rewrite A, B. reflexivity.
  - rewrite IH by auto. destruct H as [-> | ->]; [reflexivity|]. rewrite N.eqb_refl, orb_true_r. reflexivity.
Qed.
Lemma parse_name : forall s rest, s <> [] -> well_named letter alnum s -> not_name alnum rest -> parse nc_new (s ++ rest) = Ok (mknc s 0 0, rest).
Proof.
  intros [|c s] rest NE W N; [congruence|]. destruct W as [L F]. unfold nc_parse. cbn [app]. destruct (letter_plain uni_alpha uni_alnum c L) as [_ D].
  rewrite D, L. cbn [andb]. unfold get_col_name. rewrite L, name_rest_app by auto. cbn [firstn skipn]. rewrite firstn_app, Nat.sub_diag, firstn_all.
  rewrite skipn_app, Nat.sub_diag, skipn_all. cbn [firstn skipn]. rewrite app_nil_r. reflexivity.
Qed.
Lemma not_numeric_close : forall r, not_numeric (125%N :: r).
Proof. intros r. cbn. split; [lia|]. intuition discriminate. Qed.
Lemma not_name_close : forall r, not_name alnum (125%N :: r).
Proof. intros r. cbn. split; [reflexivity|discriminate]. Qed.

Fixpoint run (l : list piece) (parts : list (bytes * named_col)) (suffix : bytes) : list (bytes * named_col) * bytes :=
  match l with
  | [] => (parts, suffix)
  | CLit s :: r => run r parts (suffix ++ s)
  | CCaret :: r => run r parts (suffix ++ [94%N])
  | CNum _ n :: r => run r (parts ++ [(suffix, mknc [] (n - 1) 0)]) []
  | CName _ s :: r => run r (parts ++ [(suffix, mknc s 0 0)]) []
  end.
Lemma loop_lit : forall s fuel rest parts suffix, ~ In 94%N s -> loop (List.length s + fuel) (s ++ rest) parts suffix = loop fuel rest parts (suffix ++ s).
Proof.
  induction s as [|c s IH]; intros fuel rest parts suffix N; [cbn; rewrite app_nil_r; auto|]. cbn [List.length Nat.add comp_loop app].
  replace (c =? 94)%N with false by (symmetry; apply N.eqb_neq; intros ->; apply N; left; auto). cbn [negb].
  rewrite IH by (intros I; apply N; right; auto). rewrite <- app_assoc. reflexivity.
Qed.
Lemma loop_ref : forall b s col rest fuel parts suffix, (exists c r, s = c :: r /\ c <> 94%N /\ c <> 123%N) ->
  (forall rest', (b = true /\ exists r, rest' = 125%N :: r) \/ (b = false /\ rest' = rest) -> parse nc_new (s ++ rest') = Ok (col, rest')) ->
  loop (S fuel) (ref_text b s ++ rest) parts suffix = loop fuel rest (parts ++ [(suffix, col)]) [].
Proof.
  intros b s col rest fuel parts suffix (c & r & -> & A & B) P. destruct b; cbn [ref_text].
  - cbn [app]. rewrite <- app_assoc. cbn [app comp_loop N.eqb Pos.eqb negb].
    change (c :: r ++ 125%N :: rest) with ((c :: r) ++ 125%N :: rest). rewrite P by (left; eauto). cbn [rbind]. cbn [N.eqb Pos.eqb]. reflexivity.
  - cbn [app comp_loop N.eqb Pos.eqb negb]. apply N.eqb_neq in A, B. rewrite A, B. change (c :: r ++ rest) with ((c :: r) ++ rest). rewrite P by (right; auto). reflexivity.
Qed.
Lemma loop_pieces : forall l tail fuel parts suffix, pieces_ok letter alnum l tail -> List.length (pieces_text l) <= fuel ->
  exists f, f + List.length (pieces_text l) >= fuel /\ loop fuel (pieces_text l ++ tail) parts suffix = loop f tail (fst (run l parts suffix)) (snd (run l parts suffix)).
Proof.
  induction l as [|p l IH]; intros tail fuel parts suffix K L.
  - exists fuel. split; [lia|reflexivity].
  - change (pieces_text (p :: l)) with (piece_text p ++ pieces_text l) in *. rewrite app_length in *. rewrite <- app_assoc. destruct K as [H K]. destruct p as [s| |b n|b s]; cbn [piece_text run] in *.
    + destruct (IH tail (fuel - List.length s) parts (suffix ++ s) K) as (f & Lf & E); [lia|]. exists f. split; [lia|].
      replace fuel with (List.length s + (fuel - List.length s)) at 1 by lia. rewrite loop_lit by auto. exact E.
    + destruct fuel as [|fuel]; [cbn in L; lia|]. cbn [List.length] in *. destruct (IH tail fuel parts (suffix ++ [94%N]) K) as (f & Lf & E); [lia|]. exists f. split; [lia|]. exact E.
    + destruct H as [B N]. destruct fuel as [|fuel]; [destruct b; cbn in L; lia|]. destruct (IH tail fuel (parts ++ [(suffix, mknc [] (n - 1) 0)]) [] K) as (f & Lf & E).
      { destruct b; cbn in L; lia. } exists f. split; [destruct b; cbn in *; lia|]. rewrite <- E. apply loop_ref.
      * destruct (print_N_nonzero n) as (c & r & -> & D & _); [lia|]. exists c, r. split; auto. split; intros ->; discriminate.
      * intros rest' [[-> (r & ->)] | [-> ->]]; apply parse_num; auto using not_numeric_close. destruct N; [discriminate|auto].
    + destruct H as (NE & W & N). destruct fuel as [|fuel]; [destruct b; cbn in L; lia|]. destruct (IH tail fuel (parts ++ [(suffix, mknc s 0 0)]) [] K) as (f & Lf & E).
      { destruct b; cbn in L; lia. } exists f. split; [destruct b; cbn in *; lia|]. rewrite <- E. apply loop_ref.
      * pose proof (named_plain uni_alpha uni_alnum s W) as F. destruct s as [|c r]; [congruence|]. inversion F; subst. exists c, r. split; auto. split; intros ->; discriminate.
      * intros rest' [[-> (r & ->)] | [-> ->]]; apply parse_name; auto using not_name_close. destruct N; [discriminate|auto].
Qed.
Lemma comp_set_ok : forall name l caret, ~ In 58%N name -> pieces_ok letter alnum l (if caret : bool then [94%N] else []) ->
  comp_set uni_alpha uni_alnum (name ++ 58%N :: pieces_text l ++ (if caret then [94%N] else [])) =
  Ok (mkcomp (fst (run l [] [])) (snd (run l [] []) ++ if caret then [94%N] else []) name).
Proof.
  intros name l caret N K. unfold comp_set. rewrite split_once_app by auto. set (tail := if caret then [94%N] else []) in *.
  destruct (loop_pieces l tail (S (List.length (pieces_text l ++ tail))) [] [] K) as (f & L & E); [rewrite app_length; lia|]. rewrite E. destruct (run l [] []) as [ps su]. cbn [fst snd] in *.
  rewrite app_length in L. destruct caret; subst tail; cbn [List.length] in L.
  - destruct f as [|[|f]]; [lia|lia|]. reflexivity.
  - destruct f; [lia|]. cbn [comp_loop rbind]. rewrite app_nil_r. reflexivity.
Qed.

Section Value.
Variable names : list bytes.
Lemma lookup_parts_app : forall a b, comp_lookup_parts (a ++ b) names =
  rbind (comp_lookup_parts a names) (fun x => rbind (comp_lookup_parts b names) (fun y => Ok (x ++ y))).
Proof.
  induction a as [|[p c] a IH]; intros b; cbn [app comp_lookup_parts rbind].
  - destruct (comp_lookup_parts b names); reflexivity.
  - destruct (nc_lookup c names); auto. cbn [rbind]. rewrite IH. destruct (comp_lookup_parts a names); auto. cbn [rbind]. destruct (comp_lookup_parts b names); reflexivity.
Qed.
Lemma run_value : forall fields l vs tail, pieces_ok letter alnum l tail -> Forall2 (piece_value utf8 names fields) l vs -> forall parts suffix ps b,
  comp_lookup_parts parts names = Ok ps -> comp_get_parts ps fields = Ok b ->
  exists ps' b', comp_lookup_parts (fst (run l parts suffix)) names = Ok ps' /\ comp_get_parts ps' fields = Ok b' /\
    b' ++ utf8 (snd (run l parts suffix)) = b ++ utf8 suffix ++ concat vs.
Proof.
  intros fields l vs tail K F. induction F as [|p v l vs P F IH]; intros parts suffix ps b E G.
  - exists ps, b. cbn. rewrite app_nil_r. auto.
  - destruct K as [Kp K]. specialize (IH K). assert (step : forall c k, nc_lookup c names = Ok (mknc (nc_name c) (N.of_nat k) (nc_end c)) -> nth_error fields k = Some v ->
      exists ps' b', comp_lookup_parts (fst (run l (parts ++ [(suffix, c)]) [])) names = Ok ps' /\ comp_get_parts ps' fields = Ok b' /\
      b' ++ utf8 (snd (run l (parts ++ [(suffix, c)]) [])) = b ++ utf8 suffix ++ concat (v :: vs)).
    { intros c k Lc Nk. destruct (IH (parts ++ [(suffix, c)]) [] (ps ++ [(suffix, mknc (nc_name c) (N.of_nat k) (nc_end c))]) (b ++ utf8 suffix ++ v)) as (ps' & b' & A & B & C).
      - rewrite lookup_parts_app, E. cbn [rbind comp_lookup_parts]. rewrite Lc. reflexivity.
      - clear - G Nk. revert b G. induction ps as [|[q c'] ps IH]; intros b G; cbn [app comp_get_parts] in *.
        + injection G as <-. cbn [nc_num]. rewrite Nnat.Nat2N.id, Nk. cbn. rewrite app_nil_r. reflexivity.
        + destruct (nth_error fields (N.to_nat (nc_num c'))); [|discriminate]. destruct (comp_get_parts ps fields) as [x| |]; try discriminate. cbn [rbind] in *. injection G as <-.
          rewrite (IH x eq_refl). cbn [rbind]. rewrite !app_assoc. reflexivity.
      - exists ps', b'. repeat split; auto. rewrite C. cbn. rewrite <- !app_assoc. reflexivity. }
    destruct p as [s| |br n|br s]; cbn [piece_value run] in *.
    + subst. destruct (IH parts (suffix ++ s) ps b E G) as (ps' & b' & A & B & C). exists ps', b'. repeat split; auto. rewrite C, utf8_app. cbn [concat]. rewrite <- !app_assoc. reflexivity.
    + subst. destruct (IH parts (suffix ++ [94%N]) ps b E G) as (ps' & b' & A & B & C). exists ps', b'. repeat split; auto. rewrite C, utf8_app. cbn [concat]. rewrite <- !app_assoc. reflexivity.
    + destruct P as (k & En & Nk). apply (step (mknc [] (n - 1) 0) k); auto. cbn [nc_lookup nc_name nc_end]. cbn. do 2 f_equal. lia.
    + destruct P as (k & [L [A U]] & Nk). apply (step (mknc s 0 0) k); auto. unfold nc_lookup. cbn [nc_name nc_end]. destruct s as [|c s].
      * destruct Kp as [NE _]. congruence.
      * rewrite (lookup_col_at names (c :: s) k) by auto. reflexivity.
Qed.
End Value.
End Comp.
