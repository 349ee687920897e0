(** C22: the quick join. *)
From Coq Require Import String List NArith ZArith Bool Arith Lia Sorting.Sorted.
Open Scope list_scope.
Import ListNotations.
From Verif Require Import Base TextSpec TextModel FloatModel ReadModel CompModel CompSpec OrdProofs LineSpec LineProofs JoinModel JoinSpec JoinProofs CompProps.
Close Scope Z_scope.

(** The join of two files on the given keys, and the order it relies on. *)
Definition joined_on (exp10 : Z -> f64) (keys : list linecomp) : list textline -> list textline -> joined textline textline :=
  join_quick (fun a b => ll_comp_cols_n exp10 keys a b 0 1).
Definition key_of (f : nat) (t : textline) : nat * textline := (f, t).
Definition sorted_file (exp10 : Z -> f64) (keys : list linecomp) (f : nat) : list textline -> Prop :=
  ordered_by (in_file exp10 keys) (key_of f).
Definition unique_file (exp10 : Z -> f64) (keys : list linecomp) (f : nat) : list textline -> Prop :=
  strictly_by (in_file exp10 keys) (key_of f).

(** The order hypotheses can be decided. *)
Fixpoint all_later {T} (R : T -> T -> bool) (l : list T) : bool :=
  match l with [] => true | x :: r => forallb (R x) r && all_later R r end.
Lemma all_later_ok : forall T (R : T -> T -> bool) (Q : T -> T -> Prop), (forall x y, R x y = true -> Q x y) ->
  forall l, all_later R l = true -> StronglySorted Q l.
Proof.
  intros T R Q H. induction l as [|x l IH]; intros E; [constructor|]. cbn in E. apply andb_prop in E as [E1 E2].
  constructor; [auto|]. rewrite forallb_forall in E1. apply Forall_forall. auto.
Qed.
Definition ltb_of {T} (c : T -> T -> comparison) x y := match c x y with Lt => true | _ => false end.
Definition leb_of {T} (c : T -> T -> comparison) x y := match c x y with Gt => false | _ => true end.

(** The key is the second column of the first file and the first column of the second file. *)
Definition ex_keys : list linecomp := [mklc false TAB (LCol (fun f => if f =? 0 then 1 else 0) (mkcomp false CPlain))].
Definition ex_left : list textline :=
  [ex_line (bs "1") (bs "ant"); ex_line (bs "2") (bs "bee"); ex_line (bs "3") (bs "bee"); ex_line (bs "4") (bs "cat"); ex_line (bs "5") (bs "dog")].
Definition ex_right : list textline :=
  [ex_line (bs "aaa") (bs "x"); ex_line (bs "bee") (bs "six"); ex_line (bs "dog") (bs "four"); ex_line (bs "eel") (bs "none")].
Lemma ex_left_sorted : sorted_file ex10 ex_keys 0 ex_left.
Proof. apply (all_later_ok _ (fun x y => leb_of (in_file ex10 ex_keys) (key_of 0 x) (key_of 0 y))); [|vm_compute; reflexivity].
  intros x y. unfold leb_of. destruct (in_file _ _ _ _); congruence. Qed.
Lemma ex_right_unique : unique_file ex10 ex_keys 1 ex_right.
Proof. apply (all_later_ok _ (fun x y => ltb_of (in_file ex10 ex_keys) (key_of 1 x) (key_of 1 y))); [|vm_compute; reflexivity].
  intros x y. unfold ltb_of. destruct (in_file _ _ _ _); congruence. Qed.
Lemma ex_keys_orderly : Forall orderly_key ex_keys.
Proof. constructor; [left; reflexivity|constructor]. Qed.

(** C22. On two files in key order, the second with no key twice: one row for each line of the first file that has a
    partner, together with that partner and in order; the unmatched outputs get exactly the lines of either file
    with no partner, in order. *)
Theorem c22_quick_partial : forall exp10 keys l r, Forall orderly_key keys ->
  sorted_file exp10 keys 0 l -> unique_file exp10 keys 1 r ->
  j_rows (joined_on exp10 keys l r) = rows_spec (in_file exp10 keys) (key_of 0) (key_of 1) l r /\
  j_left (joined_on exp10 keys l r) = lone_left (in_file exp10 keys) (key_of 0) (key_of 1) l r /\
  j_right (joined_on exp10 keys l r) = lone_right (in_file exp10 keys) (key_of 0) (key_of 1) l r.
Proof.
  intros e keys l r O SL UR. pose proof (in_file_preorder e keys O) as P.
  destruct (join_left_ok _ _ _ _ (key_of 0) (key_of 1) P l r SL (strict_ordered _ _ _ _ _ UR)) as [H1 H2].
  split; [exact H1|]. split; [exact H2|]. apply (join_right_ok _ _ _ _ (key_of 0) (key_of 1) P l r SL UR).
Qed.

Example c22_quick_partial_ex : Forall orderly_key ex_keys /\ sorted_file ex10 ex_keys 0 ex_left /\ unique_file ex10 ex_keys 1 ex_right /\
  joined_on ex10 ex_keys ex_left ex_right =
    mkj [(ex_line (bs "2") (bs "bee"), ex_line (bs "bee") (bs "six")); (ex_line (bs "3") (bs "bee"), ex_line (bs "bee") (bs "six"));
         (ex_line (bs "5") (bs "dog"), ex_line (bs "dog") (bs "four"))]
        [ex_line (bs "1") (bs "ant"); ex_line (bs "4") (bs "cat")]
        [ex_line (bs "aaa") (bs "x"); ex_line (bs "eel") (bs "none")].
Proof.
  split; [apply ex_keys_orderly|]. split; [apply ex_left_sorted|]. split; [apply ex_right_unique|vm_compute; reflexivity].
Qed.

(** C22. The rows and the unmatched lines of the first file are right even when keys repeat in both files: the row
    shows the first partner. *)
Theorem c22_rows_partial : forall exp10 keys l r, Forall orderly_key keys ->
  sorted_file exp10 keys 0 l -> sorted_file exp10 keys 1 r ->
  j_rows (joined_on exp10 keys l r) = rows_spec (in_file exp10 keys) (key_of 0) (key_of 1) l r /\
  j_left (joined_on exp10 keys l r) = lone_left (in_file exp10 keys) (key_of 0) (key_of 1) l r.
Proof. intros e keys l r O SL SR. apply (join_left_ok _ _ _ _ (key_of 0) (key_of 1) (in_file_preorder e keys O) l r SL SR). Qed.

Definition ex_right2 : list textline := [ex_line (bs "bee") (bs "six"); ex_line (bs "bee") (bs "wings"); ex_line (bs "dog") (bs "four")].
Lemma ex_right2_sorted : sorted_file ex10 ex_keys 1 ex_right2.
Proof. apply (all_later_ok _ (fun x y => leb_of (in_file ex10 ex_keys) (key_of 1 x) (key_of 1 y))); [|vm_compute; reflexivity].
  intros x y. unfold leb_of. destruct (in_file _ _ _ _); congruence. Qed.
Example c22_rows_partial_ex : Forall orderly_key ex_keys /\ sorted_file ex10 ex_keys 0 ex_left /\ sorted_file ex10 ex_keys 1 ex_right2 /\
  map (fun p => (tl_get (fst p) 0, tl_get (snd p) 1)) (j_rows (joined_on ex10 ex_keys ex_left ex_right2)) =
  [(bs "2", bs "six"); (bs "3", bs "six"); (bs "5", bs "four")].
Proof.
  split; [apply ex_keys_orderly|]. split; [apply ex_left_sorted|]. split; [apply ex_right2_sorted|vm_compute; reflexivity].
Qed.

(** C22. The same for any way of comparing the current lines that comes from an ordering of keys. *)
Theorem c22_any_order_partial : forall (A B K : Type) (ord : K -> K -> comparison) (ka : A -> K) (kb : B -> K), total_preorder ord ->
  forall l r, ordered_by ord ka l -> strictly_by ord kb r ->
  join_quick (fun a b => ord (ka a) (kb b)) l r =
  mkj (rows_spec ord ka kb l r) (lone_left ord ka kb l r) (lone_right ord ka kb l r).
Proof.
  intros A B K ord ka kb P l r OL OR.
  destruct (join_left_ok _ _ _ ord ka kb P l r OL (strict_ordered _ _ _ _ _ OR)) as [H1 H2].
  pose proof (join_right_ok _ _ _ ord ka kb P l r OL OR) as H3. cbv zeta in *.
  destruct (join_quick _ l r) as [x y z]. cbn [j_rows j_left j_right] in *. congruence.
Qed.

Example c22_any_order_partial_ex : total_preorder Nat.compare /\
  ordered_by Nat.compare (fun x : nat => x) [1; 2; 2; 5] /\ strictly_by Nat.compare (fun x => 2 * x) [0; 1; 3] /\
  join_quick (fun a b => Nat.compare a (2 * b)) [1; 2; 2; 5] [0; 1; 3] = mkj [(2, 1); (2, 1)] [1; 5] [0; 3].
Proof.
  split; [apply nat_preorder|]. split; [|split; [|reflexivity]].
  - apply (all_later_ok _ (leb_of Nat.compare)); [|reflexivity]. intros x y. unfold leb_of. destruct (x ?= y); congruence.
  - apply (all_later_ok _ (fun x y => ltb_of Nat.compare (2 * x) (2 * y))); [|reflexivity]. intros x y. unfold ltb_of. destruct (2 * x ?= 2 * y); congruence.
Qed.

(** C22. Whatever the order of the files: each line of the first file is written exactly once, in a row or as an
    unmatched line; and a row only ever pairs two input lines with equal keys. *)
Theorem c22_conserve : forall exp10 keys l r (f : textline -> bool),
  List.length (filter f (map fst (j_rows (joined_on exp10 keys l r)))) + List.length (filter f (j_left (joined_on exp10 keys l r))) =
  List.length (filter f l).
Proof. intros e keys l r f. apply (join_left_partition _ _ _ (in_file e keys) (key_of 0) (key_of 1) l r f). Qed.

Example c22_conserve_ex : let j := joined_on ex10 ex_keys (rev ex_left) ex_right in
  List.length (j_rows j) + List.length (j_left j) = 5 /\ List.length (j_rows j) = 1.
Proof. vm_compute. auto. Qed.

Theorem c22_sound : forall exp10 keys l r a b, In (a, b) (j_rows (joined_on exp10 keys l r)) ->
  In a l /\ In b r /\ ll_comp_cols_n exp10 keys a b 0 1 = Eq.
Proof. intros e keys l r a b H. apply (join_rows_sound _ _ _ (in_file e keys) (key_of 0) (key_of 1) l r a b H). Qed.

Example c22_sound_ex : In (ex_line (bs "5") (bs "dog"), ex_line (bs "dog") (bs "four")) (j_rows (joined_on ex10 ex_keys (rev ex_left) ex_right)).
Proof. vm_compute. auto. Qed.

(** C22. With no output columns asked for, a row is the columns of the line of the first file followed by the columns
    of its partner which are not keys. *)
Lemma filter_true : forall T (l : list T), filter (fun _ => true) l = l.
Proof. induction l; cbn; congruence. Qed.
Lemma map_nth_all : forall T U (g : T -> U) (d : U) l,
  map (fun i => match nth_error l i with None => d | Some p => g p end) (seq 0 (List.length l)) = map g l.
Proof.
  intros T U g d. induction l as [|x l IH]; [reflexivity|].
  cbn [List.length seq map nth_error]. f_equal. rewrite <- seq_shift, map_map. exact IH.
Qed.
Lemma cols_all : forall t, map (tl_get t) (seq 0 (List.length (tl_parts t))) = tl_cols t.
Proof. intros t. apply (map_nth_all _ _ (get_part (tl_line t)) []). Qed.

Theorem c22_columns : forall (used : nat -> list nat) (a b : textline) n, n = List.length (tl_parts a) -> forall m,
  map (oc_value [a; b]) (default_cols used [n; m]) =
  tl_cols a ++ map (tl_get b) (filter (fun c => negb (existsb (Nat.eqb c) (used 1))) (seq 0 m)).
Proof.
  intros used a b n -> m. unfold default_cols. cbn [List.length seq map concat nth Nat.eqb orb].
  rewrite filter_true, app_nil_r, map_app, !map_map. rewrite <- cols_all. reflexivity.
Qed.
Example c22_columns_ex : map (oc_value [ex_line (bs "2") (bs "bee"); ex_line (bs "bee") (bs "six")])
    (default_cols (fun f => if f =? 0 then [1] else [0]) [2; 2]) = [bs "2"; bs "bee"; bs "six"].
Proof. vm_compute. reflexivity. Qed.

(** C22. A written row is one line, and splitting that line at the delimiter gives the values back, provided no value
    contains the delimiter. *)
Lemma split_on_one : forall d v, ~ In d v -> split_on d v = [v].
Proof.
  intros d. induction v as [|x v IH]; intros N; [reflexivity|]. cbn [split_on].
  destruct (x =? d)%N eqn:E; [apply N.eqb_eq in E; subst; destruct N; left; auto|].
  rewrite IH; [reflexivity|]. intros I. apply N. right. auto.
Qed.
Lemma split_on_sep : forall d v w, ~ In d v -> split_on d (v ++ d :: w) = v :: split_on d w.
Proof.
  intros d v w. induction v as [|x v IH]; intros N.
  - cbn [app split_on]. rewrite N.eqb_refl. reflexivity.
  - cbn [app split_on]. destruct (x =? d)%N eqn:E; [apply N.eqb_eq in E; subst; destruct N; left; auto|].
    rewrite IH; [reflexivity|]. intros I. apply N. right. auto.
Qed.
Theorem c22_row_columns : forall delim vs, vs <> [] -> Forall (fun v => ~ In delim v) vs ->
  exists body, write_row delim vs = body ++ [NL] /\ split_on delim body = vs.
Proof.
  intros d [|v vs] NE F; [congruence|]. clear NE. cbn [write_row]. exists (v ++ concat (map (fun x => d :: x) vs)).
  split; [rewrite app_assoc; reflexivity|]. revert v F. induction vs as [|w vs IH]; intros v F; inversion F; subst.
  - cbn [map concat]. rewrite app_nil_r. apply split_on_one; auto.
  - cbn [map concat app]. rewrite split_on_sep by auto. rewrite IH; auto.
Qed.
Example c22_row_columns_ex : write_row TAB [bs "2"; bs "bee"; []; bs "six"] = bs "2" ++ [TAB] ++ bs "bee" ++ [TAB; TAB] ++ bs "six" ++ [NL] /\
  Forall (fun v => ~ In TAB v) [bs "2"; bs "bee"; []; bs "six"].
Proof. split; [reflexivity|]. repeat constructor; intros I; vm_compute in I; intuition discriminate. Qed.

(** C22. The three outputs together, for two files. *)
Theorem c22_output_partial : forall exp10 keys delim cols l r, Forall orderly_key keys ->
  sorted_file exp10 keys 0 l -> unique_file exp10 keys 1 r ->
  join_files exp10 keys delim cols l r [] =
  (map (fun p => write_row delim (map (oc_value [fst p; snd p]) cols)) (rows_spec (in_file exp10 keys) (key_of 0) (key_of 1) l r),
   map tl_line (lone_left (in_file exp10 keys) (key_of 0) (key_of 1) l r),
   map tl_line (lone_right (in_file exp10 keys) (key_of 0) (key_of 1) l r)).
Proof.
  intros e keys delim cols l r O SL UR. destruct (c22_quick_partial e keys l r O SL UR) as (H1 & H2 & H3).
  unfold join_files. fold (joined_on e keys l r). rewrite H1, H2, H3. reflexivity.
Qed.
Example c22_output_partial_ex : Forall orderly_key ex_keys /\ sorted_file ex10 ex_keys 0 ex_left /\ unique_file ex10 ex_keys 1 ex_right /\
  fst (fst (join_files ex10 ex_keys TAB (default_cols (fun f => if f =? 0 then [1] else [0]) [2; 2]) ex_left ex_right [])) =
  [bs "2" ++ [TAB] ++ bs "bee" ++ [TAB] ++ bs "six" ++ [NL]; bs "3" ++ [TAB] ++ bs "bee" ++ [TAB] ++ bs "six" ++ [NL];
   bs "5" ++ [TAB] ++ bs "dog" ++ [TAB] ++ bs "four" ++ [NL]].
Proof.
  split; [apply ex_keys_orderly|]. split; [apply ex_left_sorted|]. split; [apply ex_right_unique|vm_compute; reflexivity].
Qed.

(** C22. When a key repeats in the second file, its second line is called unmatched although it has a partner. *)
Theorem c22_repeated_refuted : exists keys l r, Forall orderly_key keys /\ sorted_file ex10 keys 0 l /\ sorted_file ex10 keys 1 r /\
  exists b, In b (j_right (joined_on ex10 keys l r)) /\ existsb (fun a => partners (in_file ex10 keys) (key_of 0) (key_of 1) a b) l = true.
Proof.
  exists ex_keys, ex_left, ex_right2. split; [apply ex_keys_orderly|]. split; [apply ex_left_sorted|]. split; [apply ex_right2_sorted|].
  exists (ex_line (bs "bee") (bs "wings")). vm_compute. auto.
Qed.

(** C22. Inputs out of order are not reported: lines with partners are written as unmatched. *)
Theorem c22_unsorted_refuted : exists keys l r, Forall orderly_key keys /\ unique_file ex10 keys 1 r /\
  exists a, In a (j_left (joined_on ex10 keys l r)) /\ existsb (partners (in_file ex10 keys) (key_of 0) (key_of 1) a) r = true.
Proof.
  exists ex_keys, (rev ex_left), ex_right. split; [apply ex_keys_orderly|]. split; [apply ex_right_unique|].
  exists (ex_line (bs "2") (bs "bee")). vm_compute. auto.
Qed.

(** C22. A third file is accepted, but its columns come from its first line whatever the key. *)
Theorem c22_third_file_refuted : exists cols third row,
  In row (fst (fst (join_files ex10 ex_keys TAB cols ex_left ex_right (firstn 1 third)))) /\
  sorted_file ex10 ex_keys 2 third /\
  row = bs "5" ++ [TAB] ++ bs "dog" ++ [TAB] ++ bs "ANT" ++ [NL] /\
  tl_get (nth 0 third tl_new) 0 = bs "ant" /\ tl_get (nth 1 third tl_new) 0 = bs "dog" /\ tl_get (nth 1 third tl_new) 1 = bs "DOG".
Proof.
  exists [mkoc 0 0; mkoc 0 1; mkoc 2 1], [ex_line (bs "ant") (bs "ANT"); ex_line (bs "dog") (bs "DOG")],
    (bs "5" ++ [TAB] ++ bs "dog" ++ [TAB] ++ bs "ANT" ++ [NL]).
  split; [vm_compute; auto|]. split; [|vm_compute; auto].
  apply (all_later_ok _ (fun x y => leb_of (in_file ex10 ex_keys) (key_of 2 x) (key_of 2 y))); [|vm_compute; reflexivity].
  intros x y. unfold leb_of. destruct (in_file _ _ _ _); congruence.
Qed.

(** C22. The default output columns can repeat a column name, which the file header rules forbid. *)
Theorem c22_header_refuted : exists names used, NoDup (nth 0 names []) /\ NoDup (nth 1 names []) /\
  write_head TAB names (default_cols used (map (@List.length bytes) names)) =
  bs " CDX" ++ [TAB] ++ bs "key" ++ [TAB] ++ bs "size" ++ [TAB] ++ bs "size" ++ [NL].
Proof.
  exists [[bs "key"; bs "size"]; [bs "key"; bs "size"]], (fun _ => [0]).
  split; [|split; [|vm_compute; reflexivity]]; repeat constructor; cbn; intuition discriminate.
Qed.
