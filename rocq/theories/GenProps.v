(** C50: generated files. *)
From Coq Require Import String List NArith ZArith Bool Arith Lia.
Open Scope list_scope.
Import ListNotations.
From Verif Require Import Base TextSpec TextModel StrSpec StrModel StrProofs HdrProofs MatchText ExprCols ColWriteProofs ToolModel TurnSpec GenSpec GenModel GenProofs.
Close Scope Z_scope.
Open Scope nat_scope.

(** For every choice of generators, also registered ones, that write a cell without tab or newline at every place: the options fix a number of
    lines n and of columns k, at least one, and the output is, after the header if asked for, n lines of k fields. *)
Theorem c50_shape : forall me mn extra aliases dc os p cell,
  plan_of me mn extra aliases os = Ok p ->
  let n := N.to_nat (pl_lines p) in let k := List.length (pl_gens p) in
  (forall i j g, 1 <= i <= n -> nth_error (pl_gens p) j = Some g -> gen_write dc g i (S j) = Ok (cell i (S j))) ->
  plain_fields (grid_rows n k cell) ->
  0 < k /\
  filegen me mn extra aliases dc os =
    (table ((if pl_header p then [bs " CDX" :: map (fun i => bs "c" ++ print_N (N.of_nat i)) (seq 1 k)] else []) ++ grid_rows n k cell), Ok tt) /\
  read_back (table (grid_rows n k cell)) = grid_rows n k cell.
Proof.
  intros me mn extra aliases dc os p cell HP n k HC HF.
  assert (HK : 0 < k).
  { unfold k. unfold plan_of in HP. destruct (opt_steps me mn extra aliases (mkplan 10 [] false) os) as [q| |]; cbn [rbind] in HP; try discriminate.
    destruct (pl_gens q) as [|g gs] eqn:E.
    - destruct (gen_make me mn extra aliases (bs "grid")) as [g| |]; cbn [rbind] in HP; try discriminate. inversion HP; subst. cbn. lia.
    - inversion HP; subst. rewrite E. cbn. lia. }
  split; [exact HK|]. split.
  - unfold filegen. rewrite HP. cbn [need]. fold n. rewrite (lines_ok dc cell (pl_gens p) n 0).
    + unfold say. cbn [fst snd]. f_equal. fold k. unfold table, grid_rows. rewrite map_app, concat_app. f_equal. destruct (pl_header p); [|reflexivity].
      unfold gen_header. cbn [map concat]. rewrite app_nil_r. destruct k as [|k']; [lia|]. clear. cbn [seq flat_map map join].
      change (bs " CDX" ++ TAB :: join TAB ((bs "c" ++ print_N (N.of_nat 1)) :: map (fun i => bs "c" ++ print_N (N.of_nat i)) (seq 2 k'))) with
        (bs " CDX" ++ TAB :: join TAB (map (fun i => bs "c" ++ print_N (N.of_nat i)) (seq 1 (S k')))).
      change ((TAB :: 99%N :: print_N (N.of_nat 1)) ++ flat_map (fun i => TAB :: 99%N :: print_N (N.of_nat i)) (seq 2 k')) with (flat_map (fun i => TAB :: 99%N :: print_N (N.of_nat i)) (seq 1 (S k'))).
      rewrite <- app_assoc. f_equal. cbn [app].
      assert (G : forall m a, flat_map (fun i => TAB :: 99%N :: print_N (N.of_nat i)) (seq a (S m)) = TAB :: join TAB (map (fun i => bs "c" ++ print_N (N.of_nat i)) (seq a (S m)))).
      { induction m as [|m IH]; intros a; [cbn [seq flat_map map join]; rewrite app_nil_r; reflexivity|].
        change (seq a (S (S m))) with (a :: seq (S a) (S m)). cbn [flat_map map]. rewrite IH. cbn [join]. 
        destruct (seq (S a) (S m)) eqn:E; [discriminate|]. cbn [map]. reflexivity. }
      rewrite G. reflexivity.
    + intros i j g Hi Hg. apply HC; [lia|exact Hg].
  - apply read_back_table; [exact HF|]. unfold grid_rows. apply Forall_forall. intros r Hr. apply in_map_iff in Hr. destruct Hr as (i & <- & _).
    destruct k; [lia|discriminate].
Qed.

(** The built-in generators whose output is fixed, as the user writes them. *)
Inductive column := CNull | CGrid | CCount (start : Z).
Definition column_text (c : column) : bytes :=
  match c with CNull => bs "null" | CGrid => bs "grid" | CCount s => bs "count," ++ print_Z s end.
Definition column_cell (c : column) (line col : nat) : bytes :=
  match c with CNull => [] | CGrid => print_N (N.of_nat line) ++ bs "_" ++ print_N (N.of_nat col) | CCount s => print_Z (s + Z.of_nat line - 1) end.
Definition column_fits (lines : nat) (c : column) : Prop := match c with CCount s => (- 2 ^ 63 <= s)%Z /\ (s + Z.of_nat lines < 2 ^ 63)%Z | _ => True end.
Definition column_gen (c : column) : gen := match c with CNull => TNull | CGrid => TGrid | CCount s => TCount s end.

Section Columns.
Variables me mn : bytes -> res (nat -> nat -> res bytes).
Variable dc : dice.

Lemma column_make lines c : column_fits lines c -> gen_make me mn [] [] (column_text c) = Ok (column_gen c).
Proof.
  destruct c as [| |s]; intros H; [reflexivity|reflexivity|]. cbn [column_text column_gen]. unfold gen_make.
  change (bs "count," ++ print_Z s) with (bs "count" ++ 44%N :: print_Z s). rewrite split_once_app by (cbn; intuition discriminate).
  change (count_new (print_Z s) = Ok (TCount s)). unfold count_new. destruct H as (H1 & H2).
  assert (E : to_isize_whole (print_Z s) = Ok s).
  { unfold to_isize_whole. pose proof (to_isize_print s [] ltac:(lia) I) as R. rewrite app_nil_r in R. rewrite R. reflexivity. }
  rewrite E. destruct (print_Z s) eqn:P; [|reflexivity]. exfalso. unfold print_Z in P. destruct (s <? 0)%Z; [discriminate|].
  destruct (print_N_head (Z.to_N s)) as (c & r & H & _). congruence.
Qed.
Lemma column_write lines c i j : column_fits lines c -> 1 <= i <= lines -> gen_write dc (column_gen c) i j = Ok (column_cell c i j).
Proof.
  destruct c as [| |s]; intros H Hi; [reflexivity|reflexivity|]. cbn [column_gen column_cell]. cbn in H. rewrite count_write by lia. reflexivity.
Qed.
Lemma cell_plain c i j : ~ In TAB (column_cell c i j) /\ ~ In NL (column_cell c i j).
Proof.
  destruct c as [| |s]; cbn [column_cell]; [split; intros []| |].
  - split; rewrite !in_app_iff; intros [H|[[H|[]]|H]]; try discriminate; revert H; apply print_no; cbv; intuition discriminate.
  - split; apply print_Z_no; try discriminate; cbv; intuition discriminate.
Qed.
Lemma columns_steps lines : forall cols p, Forall (column_fits lines) cols ->
  opt_steps me mn [] [] p (map (fun c => OColumn (column_text c)) cols) = Ok (mkplan (pl_lines p) (pl_gens p ++ map column_gen cols) (pl_header p)).
Proof.
  induction cols as [|c cols IH]; intros p H; [cbn; rewrite app_nil_r; destruct p; reflexivity|]. inversion H; subst. cbn [map opt_steps opt_step].
  rewrite (column_make lines) by assumption. cbn [rbind]. rewrite IH by assumption. cbn [pl_lines pl_gens pl_header]. rewrite <- app_assoc. reflexivity.
Qed.
End Columns.

(** Given n lines and a list of such columns: n lines, line i holding the cell of each column; counting columns go up by one from their start.
    Without columns the single column grid is used. Missing, and refuted below: a counting column that reaches 2^63 - 1, where the sum
    before the subtraction overflows, which panics in builds with overflow checks. *)
Theorem c50_columns_partial : forall me mn dc n cols, (n < 2 ^ 64)%N -> Forall (column_fits (N.to_nat n)) cols ->
  let used := match cols with [] => [CGrid] | _ => cols end in
  filegen me mn [] [] dc (OLines (print_N n) :: map (fun c => OColumn (column_text c)) cols) =
    (table (grid_rows (N.to_nat n) (List.length used) (fun i j => column_cell (nth (j - 1) used CNull) i j)), Ok tt) /\
  read_back (table (grid_rows (N.to_nat n) (List.length used) (fun i j => column_cell (nth (j - 1) used CNull) i j))) =
    grid_rows (N.to_nat n) (List.length used) (fun i j => column_cell (nth (j - 1) used CNull) i j).
Proof.
  intros me mn dc n cols Hn HF used.
  assert (HU : Forall (column_fits (N.to_nat n)) used) by (unfold used; destruct cols; [repeat constructor|exact HF]).
  assert (HP : plan_of me mn [] [] (OLines (print_N n) :: map (fun c => OColumn (column_text c)) cols) = Ok (mkplan n (map column_gen used) false)).
  { unfold plan_of. cbn [opt_steps opt_step]. rewrite to_usize_whole_print by exact Hn. cbn [rbind pl_gens pl_header].
    rewrite (columns_steps me mn (N.to_nat n)) by exact HF. cbn [rbind pl_gens pl_lines pl_header app]. unfold used. destruct cols; reflexivity. }
  pose proof (c50_shape me mn [] [] dc _ _ (fun i j => column_cell (nth (j - 1) used CNull) i j) HP) as H. cbn [pl_lines pl_gens pl_header] in H. rewrite map_length in H.
  destruct H as (_ & H1 & H2).
  - intros i j g Hi Hg. rewrite nth_error_map in Hg. destruct (nth_error used j) as [c|] eqn:E; [|discriminate]. cbn in Hg. inversion Hg; subst.
    replace (S j - 1) with j by lia. rewrite (nth_error_nth used j CNull E). apply (column_write dc (N.to_nat n)); [|exact Hi].
    rewrite Forall_forall in HU. apply HU. eapply nth_error_In; eauto.
  - unfold plain_fields, grid_rows. apply Forall_forall. intros r Hr. apply in_map_iff in Hr. destruct Hr as (i & <- & _). apply Forall_forall. intros f Hf.
    apply in_map_iff in Hf. destruct Hf as (j & <- & _). apply cell_plain.
  - split; [exact H1|exact H2].
Qed.

Definition no_fun : bytes -> res (nat -> nat -> res bytes) := fun _ => Err.
Definition ex_dice := mkdice (fun l _ => Nat.even l) (fun l c w n => (N.of_nat (100 * l + c) mod n)%N).
Definition ex_gen (os : list gopt) := filegen no_fun no_fun [] [] ex_dice os.
Definition cells (l : list (list string)) : bytes := table (map (map bs) l).
Example c50_columns_partial_ex :
  Forall (column_fits 3) [CCount (-1); CNull; CGrid] /\
  ex_gen [OLines (bs "3"); OColumn (bs "count,-1"); OColumn (bs "null"); OColumn (bs "grid")] =
    (cells [["-1"; ""; "1_3"]; ["0"; ""; "2_3"]; ["1"; ""; "3_3"]]%string, Ok tt).
Proof. split; [repeat constructor; cbn; lia|vm_compute; reflexivity]. Qed.
Example c50_shape_ex :
  ex_gen [OLines (bs "2"); OMulti (bs "2,count"); OHeader; OColumn (bs "decimal,-12.345")] =
    (cells [[" CDX"; "c1"; "c2"; "c3"]; ["0"; "0"; "3.103"]; ["1"; "1"; "-3.203"]]%string, Ok tt) /\
  ex_gen [OLines (bs "2")] = (cells [["1_1"]; ["2_1"]]%string, Ok tt).
Proof. vm_compute. auto. Qed.

(** Several columns of one kind: N times the same generator. *)
Theorem c50_multi : forall me mn extra aliases p n spec g, (n < 2 ^ 64)%N -> gen_make me mn extra aliases spec = Ok g ->
  opt_step me mn extra aliases p (OMulti (print_N n ++ 44%N :: spec)) = Ok (mkplan (pl_lines p) (pl_gens p ++ repeat g (N.to_nat n)) (pl_header p)).
Proof.
  intros me mn extra aliases p n spec g Hn HG. cbn [opt_step]. rewrite split_once_app by (apply print_no; cbv; intuition discriminate).
  rewrite to_usize_whole_print by exact Hn. cbn [rbind].
  assert (E : forall k v, push_n me mn extra aliases k spec v = Ok (v ++ repeat g k)).
  { induction k as [|k IH]; intros v; cbn [push_n repeat]; [rewrite app_nil_r; reflexivity|]. rewrite HG. cbn [rbind]. rewrite IH, <- app_assoc. reflexivity. }
  rewrite E. reflexivity.
Qed.

(** Decimal numbers: a pattern with a places before and b places after the point gives a number with at most a digits (at least one) before
    and exactly b after it, and a sign only if the pattern has one. *)
Theorem c50_decimal : forall me mn dc (sign : bool) A B line col, dice_ok dc -> 1 <= List.length A <= 19 -> List.length B <= 19 ->
  ~ In 46%N A -> (forall r, A <> 45%N :: r) ->
  exists g t, gen_make me mn [] [] (bs "decimal," ++ (if sign then [45%N] else []) ++ A ++ match B with [] => [] | _ => 46%N :: B end) = Ok g /\
    gen_write dc g line col = Ok t /\ decimal_shape sign (List.length A) (List.length B) t.
Proof.
  assert (PW : forall k, k <= 19 -> pow10 k = Ok (10 ^ N.of_nat k)%N).
  { intros k Hk. unfold pow10. replace (10 ^ N.of_nat k <? 2 ^ 64)%N with true; [reflexivity|]. symmetry. apply N.ltb_lt.
    apply N.le_lt_trans with (10 ^ 19)%N; [apply N.pow_le_mono_r; [discriminate|lia]|reflexivity]. }
  intros me mn dc sign A B line col Hd HA HB HN HM. destruct (decimal_ok dc sign (List.length A) (List.length B) line col Hd) as (t & T1 & T2).
  exists (TDecimal sign (10 ^ N.of_nat (List.length A)) (List.length B)), t. split; [|auto].
  set (pat := A ++ match B with [] => [] | _ => 46%N :: B end).
  unfold gen_make. change (bs "decimal," ++ (if sign then [45%N] else []) ++ pat) with (bs "decimal" ++ 44%N :: ((if sign then [45%N] else []) ++ pat)).
  rewrite split_once_app by (cbn; intuition discriminate). change (decimal_new ((if sign then [45%N] else []) ++ pat) = Ok (TDecimal sign (10 ^ N.of_nat (List.length A)) (List.length B))).
  assert (HP : exists c r, pat = c :: r /\ c <> 45%N). { unfold pat. destruct A as [|c A']; [cbn in HA; lia|]. exists c. eexists. split; [reflexivity|]. intros ->. apply (HM A'). reflexivity. }
  assert (E : decimal_new ((if sign then [45%N] else []) ++ pat) = match split_once 46 pat with
         | Some (a, b) => rbind (pow10 (List.length a)) (fun pre => rbind (pow10 (List.length b)) (fun _ => Ok (TDecimal sign pre (List.length b))))
         | None => rbind (pow10 (List.length pat)) (fun pre => Ok (TDecimal sign pre 0))
         end).
  { destruct HP as (c & r & HP & Hc). unfold decimal_new. destruct sign; cbn [app]; rewrite HP; [reflexivity|].
    destruct c as [|q]; [reflexivity|]. do 6 (destruct q as [q|q|]; try reflexivity). congruence. }
  rewrite E. unfold pat. destruct B as [|x B'].
  - rewrite app_nil_r, split_once_none by exact HN. rewrite PW by lia. reflexivity.
  - rewrite split_once_app by exact HN. rewrite !PW by lia. reflexivity.
Qed.
Example c50_decimal_ex : dice_ok ex_dice /\ gen_make no_fun no_fun [] [] (bs "decimal,-000.00") = Ok (TDecimal true 1000 2) /\
  gen_write ex_dice (TDecimal true 1000 2) 2 7 = Ok (bs "-207.07").
Proof. split; [intros l c w n H; cbn; apply N.mod_lt; lia|]. vm_compute. auto. Qed.

(** Names: the last part of a dotted name counts; minimum, an alias of a name that is not registered, is unknown like any other name. *)
Theorem c50_unknown : forall me mn p, gen_make me mn [] [] (bs "minimum," ++ p) = Err /\ gen_make me mn [] [] (bs "min," ++ p) = Err /\
  gen_make me mn [] [] (bs "x.grid," ++ p) = Ok TGrid.
Proof. intros. repeat split. Qed.

(** A start close to the largest number: the first value can be held, but writing it panics. *)
Theorem c50_refuted : exists start, (start <= 2 ^ 63 - 1)%Z /\ gen_make no_fun no_fun [] [] (bs "count," ++ print_Z start) = Ok (TCount start) /\
  ex_gen [OLines (bs "1"); OColumn (bs "count," ++ print_Z start)] = ([], Panic).
Proof. exists (2 ^ 63 - 1)%Z. split; [lia|]. split; vm_compute; reflexivity. Qed.
