(** C38: tables on the screen. *)
From Coq Require Import String List NArith ZArith Bool Arith Lia.
Open Scope list_scope.
Import ListNotations.
From Verif Require Import Base TabsModel TabsSpec TabsProofs.
Close Scope Z_scope.

(** One character per byte, as for plain letters; for the examples. *)
Definition ex_cut (t : bytes) (n : nat) : bytes * nat := (firstn n t, Nat.min n (List.length t)).  (* stands for unicode_truncate, /repo/src/tabs.rs:177 *)
Lemma ex_cuts : cuts (@List.length N) ex_cut.
Proof.
  intros t n. unfold ex_cut. rewrite firstn_length. split; auto. split; [lia|]. split; [exists (skipn n t); symmetry; apply firstn_skipn|].
  intros H. apply firstn_all2. auto.
Qed.

(** C38. The shrinking loop ends, for all widths and every room, with widths as they should be. *)
Theorem c38_widths : forall wide room, exists final, shrink (total wide) wide room = Ok final /\ chosen_widths wide final room.
Proof. exact shrink_widths. Qed.
Example c38_widths_ex : shrink 25 [3; 12; 10] 15 = Ok [3; 6; 6] /\ shrink 25 [3; 12; 10] 16 = Ok [3; 6; 7].
Proof. split; reflexivity. Qed.

Lemma on_screen_shown header data height rows : on_screen header data height rows -> shown header data height = rows.
Proof.
  intros ((rest & E) & L). unfold shown. destruct header as [h|].
  - destruct rows as [|r rows]; [cbn [List.length] in L; lia|]. cbn [app] in E. injection E as -> ->. f_equal. cbn [List.length] in L. rewrite app_length in L.
    rewrite firstn_app. destruct rest as [|x rest].
    + rewrite firstn_nil, app_nil_r. cbn [List.length] in L. apply firstn_all2. lia.
    + cbn [List.length] in L. replace (height - 1 - List.length rows) with 0 by lia. rewrite firstn_O, app_nil_r. apply firstn_all2. lia.
  - rewrite E in L |- *. rewrite app_length in L. rewrite firstn_app. destruct rest as [|x rest].
    + rewrite firstn_nil, app_nil_r. cbn [List.length] in L. apply firstn_all2. lia.
    + cbn [List.length] in L. replace (height - List.length rows) with 0 by lia. rewrite firstn_O, app_nil_r. apply firstn_all2. lia.
Qed.
(** C38, for files none of whose lines has more fields than the header: the table has the columns' widths chosen as above and fits the screen.
    Missing: lines with more fields than the header, where it panics. *)
Theorem c38_table_partial : forall width cut, cuts width cut -> forall ncols header data W height lines,
  on_screen header data height lines -> Forall (fun r => List.length r <= ncols) lines -> ncols <= W ->
  exists wide sizes out, show2 width cut ncols header data W height = Ok (out, sum sizes + ncols) /\
    List.length wide = ncols /\ (forall c, widest width lines c (nth c wide 0)) /\ chosen_widths wide sizes (W - ncols) /\ sum sizes + ncols <= W /\
    table_of width cut sizes (match header with Some _ => true | None => false end) lines out.
Proof.
  intros width cut C ncols header data W height lines O F H. apply on_screen_shown in O. subst lines.
  destruct (show_ok width cut C ncols header data W height F H) as (wide & sizes & out & E & L & A & B & T).
  exists wide, sizes, out. repeat split; auto; try apply A; try apply B. destruct B as [_ _ S _]. lia.
Qed.
Example c38_table_partial_ex : on_screen (Some [bs "k"; bs "name"]) [[bs "17"; bs "alexander"]; [bs "4"]; [bs "5"; bs "x"]] 3 [[bs "k"; bs "name"]; [bs "17"; bs "alexander"]; [bs "4"]] /\
  Forall (fun r => List.length r <= 2) [[bs "k"; bs "name"]; [bs "17"; bs "alexander"]; [bs "4"]] /\
  show2 (@List.length N) ex_cut 2 (Some [bs "k"; bs "name"]) [[bs "17"; bs "alexander"]; [bs "4"]; [bs "5"; bs "x"]] 9 3 =
    Ok ([bs "k  name "; bs "17 alexa"; bs "4 "], 9).
Proof. split; [split; [exists [[bs "5"; bs "x"]]|]; reflexivity|]. split; [repeat constructor|vm_compute; reflexivity]. Qed.

(** C38. On the screen: every line is narrower than the screen, where widths add up and a blank is one character wide. *)
Theorem c38_lines : forall width cut, cuts width cut -> (forall a b, width (a ++ b) = width a + width b) -> width [32%N] = 1 ->
  forall ncols header data W height lines, on_screen header data height lines -> 1 <= ncols <= W -> Forall (fun r => List.length r <= ncols) lines ->
  exists out used, show2 width cut ncols header data W height = Ok (out, used) /\ Forall (fun t => width t < W) out.
Proof.
  intros width cut C Add Blank ncols header data W height lines O N F. apply on_screen_shown in O. subst lines.
  destruct (show_ok width cut C ncols header data W height F ltac:(lia)) as (wide & sizes & out & E & L & _ & B & T).
  exists out, (sum sizes + ncols). split; auto. destruct B as [B1 _ B3 _].
  assert (Sum : forall k l, sum (firstn k l) <= sum l).
  { induction k as [|k IH]; intros [|x l]; cbn [firstn sum fold_right]; auto; try lia. specialize (IH l). unfold sum in *. lia. }
  assert (One : forall c r t, List.length r <= ncols -> line_of width cut sizes c r t -> width t < W).
  { intros c r t Hr Ht. rewrite (line_width width cut Add Blank sizes c r t) by (auto; lia). specialize (Sum (List.length r) sizes). lia. }
  destruct (shown header data height) as [|r rs], out as [|t ts]; try contradiction; [constructor|].
  destruct T as [T1 T2]. inversion F as [|? ? F1 F2]; subst. constructor; [eapply One; eauto|].
  clear - One F2 T2. induction T2; [constructor|]. inversion F2; subst. constructor; eauto.
Qed.
Example c38_lines_ex : cuts (@List.length N) ex_cut /\ (forall a b : bytes, List.length (a ++ b) = List.length a + List.length b) /\
  show2 (@List.length N) ex_cut 1 None [[bs "a long line"]; [bs "b"]] 6 24 = Ok ([bs "a lon"; bs "b    "], 6).
Proof. split; [exact ex_cuts|]. split; [apply app_length|vm_compute; reflexivity]. Qed.

(** C38 is false of files with a line of more fields than the header: a panic, whatever the screen. *)
Theorem c38_wide : forall width cut ncols header data W height lines, on_screen header data height lines ->
  Exists (fun r => ncols < List.length r) lines -> show2 width cut ncols header data W height = Panic.
Proof.
  intros width cut ncols header data W height lines O H. apply on_screen_shown in O. subst lines. unfold show2. rewrite widen_all_short; [reflexivity|]. rewrite repeat_length. auto.
Qed.
Example c38_wide_ex : on_screen (Some [bs "k"]) [[bs "1"; bs "2"]] 24 [[bs "k"]; [bs "1"; bs "2"]] /\ Exists (fun r => 1 < List.length r) [[bs "k"]; [bs "1"; bs "2"]].
Proof. split; [split; [exists []|]; reflexivity|]. right. left. repeat constructor. Qed.
(** C38 is false: a screen with room for the separators, and no table. *)
Theorem c38_refuted : exists ncols header data W, ncols <= W /\ show2 (@List.length N) ex_cut ncols header data W 24 = Panic.
Proof. exists 1, (Some [bs "k"]), [[bs "1"; bs "2"]], 80. split; [lia|reflexivity]. Qed.

(** C38. A screen narrower than the number of columns: a panic. *)
Theorem c38_narrow : forall width cut ncols header data W height, W < ncols -> show2 width cut ncols header data W height = Panic.
Proof.
  intros width cut ncols header data W height H. unfold show2.
  destruct (Forall_Exists_dec (fun r => List.length r <= ncols) (fun r => le_dec (List.length r) ncols) (shown header data height)) as [F|F].
  - destruct (widen_all_ok width (shown header data height) (repeat 0 ncols)) as (wide & E & L & _); [rewrite repeat_length; auto|].
    rewrite repeat_length in L. rewrite E. cbn [rbind]. rewrite L. destruct (Nat.ltb_spec W ncols); [reflexivity|lia].
  - rewrite widen_all_short; [reflexivity|]. rewrite repeat_length. eapply Exists_impl; [|exact F]. cbv beta. intros; lia.
Qed.
Example c38_narrow_ex : show2 (@List.length N) ex_cut 3 None [[bs "1"; bs "2"; bs "3"]] 2 24 = Panic.
Proof. reflexivity. Qed.
