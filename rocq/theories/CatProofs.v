(** Proofs for the cat tool. *)
From Coq Require Import List NArith Bool Arith Lia.
Import ListNotations.
From Verif Require Import Base TextSpec TextModel ReadSpec ReadModel ReadProofs HeadModel HeadProps ToolModel CatSpec.

Lemma cut_first d : forall t a b, cut_after d t = Some (a, b) -> d = NL -> a = first_line t /\ b = skipn (length (first_line t)) t /\ no_newline t = false /\ last a 0%N = NL /\ a <> [].
Proof.
  intros t a b H ->. revert a b H. induction t as [|c t IH]; intros a b H; [discriminate|]. cbn [cut_after] in H. cbn [first_line]. unfold no_newline. cbn [existsb].
  destruct (c =? NL)%N eqn:E.
  - inversion H; subst. apply N.eqb_eq in E. repeat split; auto. discriminate.
  - destruct (cut_after NL t) as [[a' b']|]; [|discriminate]. inversion H; subst. destruct (IH a' b eq_refl) as (I1 & I2 & I3 & I4 & I5). subst.
    split; [reflexivity|]. split; [reflexivity|]. split; [exact I3|]. split; [|discriminate]. destruct (first_line t); [congruence|exact I4].
Qed.
Lemma cut_first_none : forall t, cut_after NL t = None -> first_line t = t /\ no_newline t = true /\ (t <> [] -> (last t 0 =? NL)%N = false).
Proof.
  induction t as [|c t IH]; intros H; [repeat split; congruence|]. cbn [cut_after] in H. cbn [first_line]. unfold no_newline. cbn [existsb].
  destruct (c =? NL)%N eqn:E; [discriminate|]. destruct (cut_after NL t) as [[a b]|]; [discriminate|]. destruct (IH eq_refl) as (I1 & I2 & I3).
  split; [congruence|]. split; [exact I2|]. intros _. destruct t as [|x t]; [exact E|]. apply I3. discriminate.
Qed.

Lemma until_first s : wf_src s -> exists s1, read_until NL s = (first_line (content s), s1) /\ wf_src s1 /\
  content s1 = skipn (length (first_line (content s))) (content s) /\
  (content s <> [] -> first_line (content s) <> [] /\ ends_nl (first_line (content s)) = negb (no_newline (content s))) /\ (no_newline (content s) = true -> content s1 = []).
Proof.
  intros Hw. destruct (read_until_flat NL s Hw) as (a & s1 & H1 & H2 & H3). unfold flat_until in H3.
  destruct (cut_after NL (content s)) as [[a0 b0]|] eqn:E.
  - inversion H3; subst. destruct (cut_first _ _ _ _ E eq_refl) as (C1 & C2 & C3 & C4 & C5). exists s1. rewrite <- C1. split; [exact H1|]. split; [exact H2|].
    split; [congruence|]. split; [|congruence]. intros _. split; [exact C5|]. unfold ends_nl. rewrite C4, C3. reflexivity.
  - inversion H3; subst. destruct (cut_first_none _ E) as (C1 & C2 & C3). exists s1. rewrite C1. split; [exact H1|]. split; [exact H2|].
    split; [rewrite skipn_all; congruence|]. split; [|congruence]. intros Hn. split; [exact Hn|]. unfold ends_nl. rewrite C2, C3 by auto. reflexivity.
Qed.

Lemma copy_rest_all cs : Forall (fun c => c <> []) cs -> copy_rest cs = (concat cs, not_empty (concat cs)).
Proof.
  intros H. induction H as [|c cs Hc H IH]; [reflexivity|]. cbn [copy_rest concat]. rewrite IH. destruct c; [congruence|]. reflexivity.
Qed.
Lemma copy_all s : wf_src s -> copy_src s = (content s, not_empty (content s)).
Proof.
  intros H. unfold wf_src in H. unfold copy_src, content. destruct (s_buf s) as [|b bs] eqn:E; cbn [app].
  - apply copy_rest_all. exact H.
  - rewrite copy_rest_all by exact H. reflexivity.
Qed.

Section Cat.
Variables utf8_ok name_ok : bytes -> bool.
Variable m : hmode.

(** The newline added after a file in each mode, and at the end: [b] tells whether the first line is written. *)
Definition padding (pad : pad_mode) (b : bool) (t : bytes) : bytes := match pad with PadAll => if b && no_newline t then [NL] else [] | _ => [] end.
Fixpoint last_open (acc : bool) (fs : list (bool * bytes)) : bool :=
  match fs with
  | [] => acc
  | (b, t) :: r => last_open (if no_newline t then if b then true else acc else match kept false t with [] => if b then false else acc | _ => false end) r
  end.

Lemma cat_ok pad : forall ss (last_cr : bool) ck flags, Forall wf_src ss -> (pad = PadAll -> last_cr = true) ->
  check_all utf8_ok name_ok m ck (map first_line (filter not_empty (map content ss))) = Ok flags ->
  let fs := combine flags (filter not_empty (map content ss)) in
  cat utf8_ok name_ok m pad last_cr ck ss =
    (concat (map (fun f => kept (fst f) (snd f) ++ padding pad (fst f) (snd f)) fs) ++ (match pad with PadEnd => if last_open (negb last_cr) fs then [NL] else [] | _ => [] end), Ok tt).
Proof.
  induction ss as [|s ss IH]; intros last_cr ck flags HW Hp HC; cbv zeta.
  - cbn in HC. inversion HC; subst. cbn. destruct pad; try reflexivity. destruct last_cr; reflexivity.
  - inversion HW as [|? ? W1 W2]; subst. destruct (until_first s W1) as (s1 & U1 & U2 & U3 & U4 & U5). cbn [cat]. rewrite U1. cbn [map filter] in *.
    destruct (content s) as [|c t] eqn:EC.
    + cbn [first_line not_empty] in *. apply IH; auto.
    + cbn [not_empty] in *. destruct (U4 ltac:(discriminate)) as (U6 & U7). cbn [map check_all] in HC.
      set (l := first_line (c :: t)) in *. destruct l as [|x l'] eqn:EL; [congruence|]. rewrite <- EL in *.
      destruct (check utf8_ok name_ok m ck l) as [v ck'] eqn:EV. destruct v as [b| |]; cbn [rbind need] in *; try discriminate.
      destruct (check_all utf8_ok name_ok m ck' (map first_line (filter not_empty (map content ss)))) as [fl| |] eqn:EF; cbn [rbind] in HC; try discriminate.
      inversion HC; subst flags. cbn [combine map concat fst snd last_open]. rewrite (copy_all s1 U2).
      assert (EK : (if b then l else []) ++ content s1 = kept b (c :: t)).
      { unfold kept. fold l. rewrite U3. destruct b; [|reflexivity]. rewrite <- (firstn_skipn (length l) (c :: t)) at 2. f_equal.
        unfold l. clear. generalize (c :: t). induction l as [|x l IH]; [reflexivity|]. cbn [first_line]. destruct (x =? NL)%N; [reflexivity|]. cbn [length firstn]. f_equal. exact IH. }
      rewrite EK, U7. rewrite U3. change (skipn (length l) (c :: t)) with (kept false (c :: t)).
      set (cr2 := if not_empty (kept false (c :: t)) then negb (no_newline (c :: t)) else if b then negb (no_newline (c :: t)) else last_cr).
      assert (EO : negb cr2 = (if no_newline (c :: t) then if b then true else negb last_cr else match kept false (c :: t) with [] => if b then false else negb last_cr | _ => false end)).
      { unfold cr2. destruct (no_newline (c :: t)) eqn:EN.
        - assert (Z : kept false (c :: t) = []) by (unfold kept; fold l; rewrite <- U3; auto). rewrite Z. cbn [not_empty]. destruct b; reflexivity.
        - destruct (kept false (c :: t)); [destruct b; reflexivity|reflexivity]. }
      assert (EP : pad = PadAll -> negb cr2 = b && no_newline (c :: t)).
      { intros E. rewrite EO, (Hp E). destruct (no_newline (c :: t)), b, (kept false (c :: t)); reflexivity. }
      unfold say. destruct pad; cbn [fst snd padding].
      * rewrite (IH cr2 ck' fl W2) by (auto; discriminate). cbn [fst snd]. rewrite !app_nil_r. reflexivity.
      * rewrite <- EP by reflexivity. destruct cr2; cbn [negb fst snd].
        -- rewrite (IH true ck' fl W2) by auto. cbn [fst snd]. rewrite !app_nil_r. reflexivity.
        -- rewrite (IH true ck' fl W2) by auto. cbn [fst snd]. rewrite !app_nil_r, <- !app_assoc. reflexivity.
      * rewrite (IH cr2 ck' fl W2) by (auto; discriminate). cbn [fst snd]. rewrite app_nil_r, <- !app_assoc, EO. reflexivity.
Qed.
End Cat.
