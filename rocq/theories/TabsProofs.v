(** The widths chosen for a table, and its lines. *)
From Coq Require Import List Bool Arith NArith Lia.
Import ListNotations.
From Verif Require Import Base TabsModel TabsSpec.
Open Scope nat_scope.

Lemma max_pos_is : forall l i mp mx,
  (max_pos l i mp mx = mp /\ Forall (fun x => x <= mx) l) \/
  (exists j, max_pos l i mp mx = i + j /\ j < length l /\ mx < nth j l 0 /\ Forall (fun x => x <= nth j l 0) l).
Proof.
  induction l as [|x l IH]; intros i mp mx; cbn [max_pos]; [left; auto|].
  destruct (Nat.ltb_spec mx x) as [L|L].
  - right. destruct (IH (S i) i x) as [(E & F)|(j & E & J & G & F)].
    + exists 0. cbn [nth length]. rewrite E. split; [lia|]. split; [lia|]. auto.
    + exists (S j). cbn [nth length]. rewrite E. split; [lia|]. split; [lia|]. split; [lia|]. constructor; [lia|auto].
  - destruct (IH (S i) mp mx) as [(E & F)|(j & E & J & G & F)].
    + left. split; auto.
    + right. exists (S j). cbn [nth length]. rewrite E. split; [lia|]. split; [lia|]. split; [lia|]. constructor; [lia|auto].
Qed.

Lemma dec_at_ok : forall l i, i < length l -> 0 < nth i l 0 -> exists l', dec_at l i = Ok l' /\ length l' = length l /\ S (total l') = total l /\
  forall j, nth j l' 0 = if j =? i then nth i l 0 - 1 else nth j l 0.
Proof.
  induction l as [|x l IH]; intros i H P; cbn [length] in H; [lia|]. destruct i as [|i]; cbn [nth] in P.
  - destruct x as [|x]; [lia|]. cbn [dec_at]. eexists. split; [reflexivity|]. split; auto. split; [reflexivity|]. intros [|j]; cbn [nth Nat.eqb]; lia.
  - destruct (IH i) as (l' & E & L & T & N); try lia.
    exists (x :: l'). split; [destruct x; cbn [dec_at]; rewrite E; reflexivity|]. split; [cbn [length]; lia|]. split; [unfold total in *; cbn [fold_right]; lia|].
    intros [|j]; [reflexivity|]. cbn [nth Nat.eqb]. apply N.
Qed.

Lemma total_zero : forall l, Forall (fun x => x <= 0) l -> total l = 0.
Proof. unfold total. induction 1; cbn [fold_right]; lia. Qed.

Lemma nth_all : forall (P : nat -> Prop) l, P 0 -> Forall P l -> forall j, P (nth j l 0).
Proof. intros P l P0 F. induction F; intros [|j]; cbn [nth]; auto. Qed.

Lemma dec_max_ok : forall l, 0 < total l -> exists i l', dec_max l = Ok l' /\ length l' = length l /\ S (total l') = total l /\
  0 < nth i l 0 /\ (forall j, nth j l 0 <= nth i l 0) /\ forall j, nth j l' 0 = if j =? i then nth i l 0 - 1 else nth j l 0.
Proof.
  intros l H. unfold dec_max. destruct (max_pos_is l 0 0 0) as [(E & F)|(j & E & J & G & F)].
  - apply total_zero in F. lia.
  - cbn [Nat.add] in E. rewrite E. destruct (dec_at_ok l j J G) as (l' & E' & L & T & N). exists j, l'. repeat split; auto.
    apply (nth_all (fun x => x <= nth j l 0)); [lia|auto].
Qed.

Lemma shrink_ok : forall fuel wide cur room, total cur <= fuel + room ->
  length cur = length wide -> (forall c, nth c cur 0 <= nth c wide 0) ->
  (forall c d, nth c cur 0 < nth c wide 0 -> nth d cur 0 <= S (nth c cur 0)) ->
  exists final, shrink fuel cur room = Ok final /\ length final = length wide /\ (forall c, nth c final 0 <= nth c wide 0) /\
    total final = Nat.min (total cur) room /\ (forall c d, nth c final 0 < nth c wide 0 -> nth d final 0 <= S (nth c final 0)).
Proof.
  induction fuel as [|fuel IH]; intros wide cur room T L Le Fair; cbn [shrink]; destruct (Nat.leb_spec (total cur) room) as [H|H]; try lia.
  - exists cur. repeat split; auto. lia.
  - exists cur. repeat split; auto. lia.
  - destruct (dec_max_ok cur) as (i & l' & E & L' & T' & P & M & N); [lia|]. rewrite E. cbn [rbind].
    destruct (IH wide l' room) as (final & E2 & L2 & Le2 & T2 & F2); try lia.
    + intros c. rewrite N. specialize (Le c). destruct (Nat.eqb_spec c i) as [->|]; lia.
    + intros c d. rewrite !N. pose proof (M d). pose proof (M c). specialize (Fair c d).
      destruct (Nat.eqb_spec c i) as [->|]; destruct (Nat.eqb_spec d i) as [->|]; lia.
    + exists final. repeat split; auto. lia.
Qed.

(** The widths of the shrinking loop, whatever the columns and the room. *)
Lemma shrink_widths : forall wide room, exists final, shrink (total wide) wide room = Ok final /\ chosen_widths wide final room.
Proof.
  intros wide room. destruct (shrink_ok (total wide) wide wide room) as (final & E & L & Le & T & F); auto; try lia.
  exists final. split; auto. split; auto.
Qed.

Section Tabs.
Variable width : bytes -> nat.
Variable trunc : bytes -> nat -> bytes * nat.
Hypothesis Cut : cuts width trunc.

Lemma widen_ok : forall fields sizes, length fields <= length sizes -> exists s, widen width sizes fields = Ok s /\ length s = length sizes /\
  forall c, nth c s 0 = Nat.max (nth c sizes 0) (match nth_error fields c with Some t => width t | None => 0 end).
Proof.
  induction fields as [|t fields IH]; intros sizes H.
  - exists sizes. destruct sizes; (split; [reflexivity|]; split; auto; intros [|c]; cbn; lia).
  - destruct sizes as [|s sizes]; cbn [length] in H; [lia|]. cbn [widen]. destruct (IH sizes) as (r & E & L & N); [lia|]. rewrite E. cbn [rbind].
    eexists. split; [reflexivity|]. split; [cbn [length]; lia|]. intros [|c]; cbn [nth nth_error]; [destruct (Nat.ltb_spec s (width t)); lia|apply N].
Qed.
Lemma widen_all_ok : forall rows sizes, Forall (fun r => length r <= length sizes) rows -> exists s, widen_all width sizes rows = Ok s /\ length s = length sizes /\
  (forall c, nth c sizes 0 <= nth c s 0) /\ (forall c r t, In r rows -> nth_error r c = Some t -> width t <= nth c s 0) /\
  (forall c, nth c s 0 = nth c sizes 0 \/ exists r t, In r rows /\ nth_error r c = Some t /\ width t = nth c s 0).
Proof.
  induction rows as [|x rows IH]; intros sizes F; cbn [widen_all].
  - exists sizes. split; auto. split; auto. split; auto. split; [intros c r t []|]. auto.
  - inversion F as [|? ? F1 F2]; subst. destruct (widen_ok x sizes F1) as (s1 & E1 & L1 & N1). rewrite E1. cbn [rbind].
    destruct (IH s1) as (s & E & L & G & B & A); [rewrite L1; auto|]. exists s. split; auto. split; [lia|]. split; [|split].
    + intros c. specialize (G c). rewrite N1 in G. lia.
    + intros c r t [<-|I] H; [|eapply B; eauto]. specialize (G c). rewrite N1, H in G. lia.
    + intros c. destruct (A c) as [Eq|(r & t & I & H & W)].
      * rewrite N1 in Eq. destruct (nth_error x c) as [t|] eqn:X; [|left; lia].
        destruct (Nat.le_gt_cases (width t) (nth c sizes 0)); [left; lia|]. right. exists x, t. split; [left; auto|]. split; auto. lia.
      * right. exists r, t. split; [right; auto|]. auto.
Qed.
Lemma widen_short : forall fields sizes, length sizes < length fields -> widen width sizes fields = Panic.
Proof.
  induction fields as [|t fields IH]; intros sizes H; cbn [length] in H; [lia|]. destruct sizes as [|s sizes]; [reflexivity|]. cbn [widen length] in *.
  rewrite IH by lia. reflexivity.
Qed.
Lemma widen_all_short : forall rows sizes, Exists (fun r => length sizes < length r) rows -> widen_all width sizes rows = Panic.
Proof.
  intros rows. induction rows as [|x rows IH]; intros sizes H; inversion H; subst; cbn [widen_all].
  - rewrite widen_short by auto. reflexivity.
  - destruct (Nat.le_gt_cases (length x) (length sizes)) as [L|L]; [|rewrite widen_short by auto; reflexivity].
    destruct (widen_ok x sizes L) as (s & E & Ls & _). rewrite E. cbn [rbind]. apply IH. rewrite Ls. auto.
Qed.

Lemma cell_ok : forall center t n, exists c, cell trunc center t n = Ok c /\ in_cell width center (fst (trunc t n)) n c.
Proof.
  intros center t n. unfold cell. pose proof (Cut t n) as C. destruct (trunc t n) as [s w]. destruct C as (-> & W & _ & _). cbn [fst].
  destruct (Nat.ltb_spec n (width s)); [lia|]. eexists. split; [reflexivity|]. cbv zeta.
  pose proof (Nat.div_mod (n - width s) 2 ltac:(lia)) as D. pose proof (Nat.mod_upper_bound (n - width s) 2 ltac:(lia)) as U.
  destruct center.
  - exists ((n - width s) / 2), (n - width s - (n - width s) / 2). split; [reflexivity|]. split; lia.
  - exists 0, (n - width s). split; [reflexivity|]. split; lia.
Qed.

Lemma row_ok : forall fields sizes center need, length fields <= length sizes -> exists cells, cells_of width trunc center sizes fields cells /\
  row trunc center need sizes fields = Ok (match fields with [] => [] | _ => (if need then [32%N] else []) ++ with_blanks cells end).
Proof.
  induction fields as [|t fields IH]; intros sizes center need H.
  - exists []. split; [constructor|]. destruct sizes; reflexivity.
  - destruct sizes as [|n sizes]; cbn [length] in H; [lia|]. cbn [row]. destruct (cell_ok center t n) as (c & E & I). rewrite E. cbn [rbind].
    destruct (IH sizes center true) as (cells & Cs & E2); [lia|]. rewrite E2. cbn [rbind]. exists (c :: cells). split; [constructor; auto|].
    f_equal. f_equal. destruct fields as [|t2 fields].
    + inversion Cs; subst. cbn [with_blanks]. apply app_nil_r.
    + destruct sizes as [|n2 sizes]; [cbn [length] in H; lia|]. inversion Cs; subst. reflexivity.
Qed.

Lemma rows_ok : forall rows sizes center, Forall (fun r => length r <= length sizes) rows -> exists out, rows_out trunc center sizes rows = Ok out /\
  match rows, out with
  | [], [] => True
  | r :: rs, t :: ts => line_of width trunc sizes center r t /\ Forall2 (line_of width trunc sizes false) rs ts
  | _, _ => False
  end.
Proof.
  induction rows as [|x rows IH]; intros sizes center F; cbn [rows_out].
  - exists []. auto.
  - inversion F as [|? ? F1 F2]; subst. destruct (row_ok x sizes center false F1) as (cells & C & E). rewrite E. cbn [rbind].
    destruct (IH sizes false F2) as (out & E2 & M). rewrite E2. cbn [rbind]. eexists. split; [reflexivity|]. split.
    + exists cells. split; auto. destruct x; [inversion C; subst; reflexivity|reflexivity].
    + destruct rows as [|r rs], out as [|t ts]; try contradiction; [constructor|]. destruct M. constructor; auto.
Qed.

Lemma show_ok : forall ncols header data W height,
  let lines := shown header data height in
  Forall (fun r => length r <= ncols) lines -> ncols <= W ->
  exists wide sizes out, show2 width trunc ncols header data W height = Ok (out, sum sizes + ncols) /\
    length wide = ncols /\ (forall c, widest width lines c (nth c wide 0)) /\ chosen_widths wide sizes (W - ncols) /\
    match lines, out with
    | [], [] => True
    | r :: rs, t :: ts => line_of width trunc sizes (match header with Some _ => true | None => false end) r t /\ Forall2 (line_of width trunc sizes false) rs ts
    | _, _ => False
    end.
Proof.
  intros ncols header data W height lines F H. unfold show2. fold lines.
  destruct (widen_all_ok lines (repeat 0 ncols)) as (wide & E & L & _ & B & A); [rewrite repeat_length; auto|]. rewrite repeat_length in L.
  rewrite E. cbn [rbind]. rewrite L. destruct (Nat.ltb_spec W ncols); [lia|].
  destruct (shrink_widths wide (W - ncols)) as (sizes & E2 & C). rewrite E2. cbn [rbind].
  assert (LS : length sizes = ncols) by (destruct C; lia).
  destruct (rows_ok lines sizes (match header with Some _ => true | None => false end)) as (out & E3 & M); [rewrite LS; auto|]. rewrite E3. cbn [rbind].
  exists wide, sizes, out. split; [rewrite LS; reflexivity|]. split; auto. split; auto.
  intros c. split; [intros r t I N; eapply B; eauto|]. destruct (A c) as [Z|Z]; auto. left. rewrite Z.
  clear. revert c. induction ncols; intros [|c]; cbn; auto.
Qed.

(** Every line fits the screen, if widths add up. *)
Hypothesis Add : forall a b, width (a ++ b) = width a + width b.
Hypothesis Blank : width [32%N] = 1.

Lemma width_blanks : forall n, width (repeat 32%N n) = n.
Proof.
  assert (Z : width [] = 0) by (pose proof (Add [] []); cbn [app] in *; lia).
  induction n as [|n IH]; cbn [repeat]; auto. change (32%N :: repeat 32%N n) with ([32%N] ++ repeat 32%N n). rewrite Add, Blank, IH. reflexivity.
Qed.
Lemma line_width : forall sizes center fields text, length fields <= length sizes -> line_of width trunc sizes center fields text ->
  width text = sum (firstn (length fields) sizes) + (length fields - 1).
Proof.
  intros sizes center fields text H (cells & C & ->). revert sizes H cells C.
  assert (Z : width [] = 0) by (pose proof (Add [] []); cbn [app] in *; lia).
  induction fields as [|t fields IH]; intros sizes H cells C.
  - inversion C; subst. cbn. auto.
  - destruct sizes as [|n sizes]; cbn [length] in H; [lia|]. cbn [combine] in C. inversion C as [|? c ? cs I C2]; subst. cbn [fst snd] in I.
    assert (Wc : width c = n).
    { destruct I as (l & r & -> & E & _). rewrite !Add, !width_blanks. lia. }
    specialize (IH sizes ltac:(lia) cs C2). cbn [length firstn sum fold_right].
    destruct fields as [|t2 fields].
    + inversion C2; subst. cbn [with_blanks length firstn sum fold_right]. unfold sum. lia.
    + destruct sizes as [|n2 sizes]; [cbn [length] in H; lia|]. inversion C2; subst. cbn [with_blanks].
      match goal with |- width (?c ++ 32%N :: ?r) = _ => change (c ++ 32%N :: r) with (c ++ [32%N] ++ r) end.
      rewrite !Add, Blank. cbn [with_blanks] in IH. rewrite IH. cbn [length] in *. unfold sum in *. lia.
Qed.
End Tabs.
