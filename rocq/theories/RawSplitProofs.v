(** Columns taken from a raw line are the columns of the split line. *)
From Coq Require Import List NArith ZArith Bool Arith Lia.
Import ListNotations.
From Verif Require Import Base TextSpec TextModel TextProofs ReadModel StrModel FloatModel CompModel CompSpec LineSpec.

Lemma bsplit_loop_splita : forall d l cur, bsplit_loop d l cur = splita (rev cur) d l.
Proof.
  induction l as [|c l IH]; intros cur; cbn [bsplit_loop].
  - rewrite splita_nil. reflexivity.
  - destruct (N.eqb_spec c d) as [->|H].
    + rewrite splita_delim, IH. reflexivity.
    + rewrite splita_other, IH by auto. reflexivity.
Qed.

Lemma bsplit_split_on : forall d l, bsplit d l = split_on d l.
Proof. intros. unfold bsplit. rewrite bsplit_loop_splita. apply splita_start. Qed.

Definition cut_nl (s : bytes) : bytes :=
  match rev s with c :: r => if (c =? NL)%N then rev r else s | [] => s end.

Lemma cut_nl_none : forall s, ~ In NL s -> cut_nl s = s.
Proof.
  intros s H. unfold cut_nl. destruct (rev s) as [|c r] eqn:E; auto.
  destruct (N.eqb_spec c NL) as [->|]; auto. exfalso. apply H. apply in_rev. rewrite E. left. auto.
Qed.

Lemma cut_nl_nl : forall s, cut_nl (s ++ [NL]) = s.
Proof. intros. unfold cut_nl. rewrite rev_app_distr. cbn [rev app]. rewrite N.eqb_refl, rev_involutive. auto. Qed.

Lemma splita_cut : forall d l cur, d <> NL -> ~ In NL l -> ~ In NL cur ->
  map cut_nl (splita cur d (l ++ [NL])) = splita cur d l.
Proof.
  induction l as [|c l IH]; intros cur Hd Hl Hc.
  - cbn [app]. rewrite splita_other, !splita_nil by congruence. cbn [map]. rewrite cut_nl_nl. auto.
  - cbn [app]. assert (~ In NL l /\ c <> NL) as [Hl' Hc'] by (cbn in Hl; intuition congruence).
    destruct (N.eq_dec c d) as [->|Hx].
    + rewrite !splita_delim. cbn [map]. rewrite cut_nl_none, IH; auto.
    + rewrite !splita_other by auto. apply IH; auto. rewrite in_app_iff. cbn. intuition congruence.
Qed.

Lemma nth_map_error : forall A (f : A -> bytes) l i,
  match nth_error l i with None => [] | Some x => f x end = nth i (map f l) [].
Proof. induction l as [|a l IH]; destruct i; cbn [nth_error map nth]; auto. Qed.

Theorem get_col_is : forall l i d, d <> NL -> ~ In NL l -> get_col (l ++ [NL]) i d = nth i (split_on d l) [].
Proof.
  intros l i d Hd Hl. unfold get_col. rewrite bsplit_split_on.
  rewrite (nth_map_error _ cut_nl). rewrite <- splita_start, splita_cut, splita_start; auto.
Qed.

Theorem tl_get_is : forall l i d o, d <> NL ->
  tl_get (tl_split QPlain d (mktl (l ++ [NL]) [] o)) i = nth i (split_on d l) [].
Proof.
  intros l i d o Hd. unfold tl_get, tl_split. cbn [tl_line tl_parts]. rewrite nth_map_error, split_plain_nl; auto.
Qed.

Definition by_column (d : byte) (k : linecomp) : Prop :=
  lc_delim k = d /\ match lc_cmp k with LExpr _ _ => False | _ => True end.

Section Agree.
Variable exp10 : Z -> f64.
Let sp d l := tl_split QPlain d (mktl (l ++ [NL]) [] []).

Lemma key_agree : forall d k a b lf rf, d <> NL -> ~ In NL a -> ~ In NL b -> by_column d k ->
  lc_comp_lines_n exp10 k (a ++ [NL]) (b ++ [NL]) lf rf = lc_comp_cols_n exp10 k (sp d a) (sp d b) lf rf /\
  lc_equal_lines_n exp10 k (a ++ [NL]) (b ++ [NL]) lf rf = lc_equal_cols_n exp10 k (sp d a) (sp d b) lf rf.
Proof.
  intros d k a b lf rf Hd Ha Hb (Hk & Hm). unfold lc_comp_lines_n, lc_comp_cols_n, lc_equal_lines_n, lc_equal_cols_n.
  rewrite Hk. destruct (lc_cmp k) as [c|cols c|]; [| |contradiction]; cbn [l_comp_lines l_comp_cols l_equal_lines l_equal_cols].
  - auto.
  - unfold sp. rewrite !get_col_is, !tl_get_is; auto.
Qed.

Theorem lines_cols_agree : forall d cs a b lf rf, d <> NL -> ~ In NL a -> ~ In NL b -> Forall (by_column d) cs ->
  ll_comp_lines_n exp10 cs (a ++ [NL]) (b ++ [NL]) lf rf = ll_comp_cols_n exp10 cs (sp d a) (sp d b) lf rf /\
  ll_equal_lines_n exp10 cs (a ++ [NL]) (b ++ [NL]) lf rf = ll_equal_cols_n exp10 cs (sp d a) (sp d b) lf rf.
Proof.
  intros d cs a b lf rf Hd Ha Hb H. unfold ll_comp_lines_n, ll_comp_cols_n, ll_equal_lines_n, ll_equal_cols_n.
  induction H as [|k cs Hk _ [IH1 IH2]]; [auto|]. cbn [first_diff all_equal].
  destruct (key_agree d k a b lf rf Hd Ha Hb Hk) as [E1 E2]. rewrite E1, E2.
  split; [destruct (lc_comp_cols_n _ _ _ _ _ _); auto|destruct (lc_equal_cols_n _ _ _ _ _ _); auto].
Qed.
End Agree.
