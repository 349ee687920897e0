(** Specifications for column sets, column writers, scoped values and composite columns. *)
From Coq Require Import String List NArith ZArith Bool Arith.
Open Scope list_scope.
Import ListNotations.
From Verif Require Import Base TextSpec StrSpec HdrSpec.

(** * Column sets *)
(** A column by number, by number from the end, or by name. *)
Inductive place := PNum (n : N) | PEnd (n : N) | PName (s : bytes).
(** One column, or a range whose ends may be left out. *)
Inductive item := IOne (p : place) | IRange (a b : option place).
(** A term of a list: possibly excluded, possibly with a new name. *)
Record term := mkterm { t_not : bool; t_label : bytes; t_item : item }.
(** A whole specification: terms, a group of names matching a pattern, and a transform. *)
Record cspec := mkspec { s_terms : list term; s_group : option bytes; s_trans : option bytes }.

Definition place_text (p : place) : bytes :=
  match p with PNum n => print_N n | PEnd n => 43%N :: print_N n | PName s => s end.
Definition end_text (o : option place) : bytes := match o with None => [] | Some p => place_text p end.
Definition item_text (i : item) : bytes :=
  match i with IOne p => place_text p | IRange a b => end_text a ++ 45%N :: end_text b end.
Definition label_text (l : bytes) : bytes := match l with [] => [] | _ => l ++ [58%N] end.
Definition term_text (t : term) : bytes := (if t_not t then [126%N] else []) ++ label_text (t_label t) ++ item_text (t_item t).
Definition spec_text (s : cspec) : bytes :=
  join 44 (map term_text (s_terms s) ++ match s_group s with None => [] | Some g => [40%N :: g ++ [41%N]] end) ++
  match s_trans s with None => [] | Some t => 43%N :: t end.

(** [place_at names p k]: [p] is the column at position [k]. *)
Definition place_at (names : list bytes) (p : place) (k : nat) : Prop :=
  k < List.length names /\
  match p with
  | PNum n => n = N.of_nat (k + 1)
  | PEnd n => n = N.of_nat (List.length names - k)
  | PName s => nth_error names k = Some s /\ forall j, j < k -> nth_error names j <> Some s
  end.
Definition first_at (names : list bytes) (o : option place) (k : nat) : Prop :=
  match o with None => k = 0 | Some p => place_at names p k end.
Definition last_at (names : list bytes) (o : option place) (k : nat) : Prop :=
  match o with None => k + 1 = List.length names | Some p => place_at names p k end.
(** The columns of an item, in file order. *)
Definition item_cols (names : list bytes) (i : item) (ks : list nat) : Prop :=
  match i with
  | IOne p => exists k, place_at names p k /\ ks = [k]
  | IRange a b => exists i j, first_at names a i /\ last_at names b j /\ i <= j /\ ks = seq i (j - i + 1)
  end.

(** What one part of one specification asks for. *)
Inductive what := WItem (i : item) | WGroup (pattern : bytes).
Record part_ := mkp { q_not : bool; q_label : bytes; q_what : what; q_trans : option bytes }.
(** The parts of a specification, [flip] when it was given as an exclusion. *)
Definition parts_of (flip : bool) (s : cspec) : list part_ :=
  map (fun t => mkp (xorb flip (t_not t)) (t_label t) (WItem (t_item t)) (s_trans s)) (s_terms s) ++
  match s_group s with None => [] | Some g => [mkp flip [] (WGroup g) (s_trans s)] end.
(** The columns of a part; [m] says which names a pattern matches. *)
Definition part_cols (m : bytes -> option (bytes -> bool)) (names : list bytes) (q : part_) (ks : list nat) : Prop :=
  match q_what q with
  | WItem i => item_cols names i ks
  | WGroup g => exists f, m g = Some f /\ ks = filter (fun k => f (nth k names [])) (seq 0 (List.length names))
  end.
(** Which columns are wanted, in order, under which new name and through which transform; and which are not. *)
Definition picks (qs : list part_) (kss : list (list nat)) : list (nat * (bytes * option bytes)) :=
  flat_map (fun '(q, ks) => if q_not q then [] else map (fun k => (k, (q_label q, q_trans q))) ks) (combine qs kss).
Definition drops (qs : list part_) (kss : list (list nat)) : list nat :=
  flat_map (fun '(q, ks) => if q_not q then ks else []) (combine qs kss).
Definition wanted (len : nat) (qs : list part_) (kss : list (list nat)) : list (nat * (bytes * option bytes)) :=
  let keep k := negb (existsb (Nat.eqb k) (drops qs kss)) in
  if forallb q_not qs then map (fun k => (k, ([], None))) (filter keep (seq 0 len))
  else filter (fun x => keep (fst x)) (picks qs kss).

(** Specifications that are written as intended. *)
Definition place_ok (letter alnum : N -> bool) (p : place) : Prop :=
  match p with
  | PNum n => (1 <= n < 2 ^ 64)%N
  | PEnd n => (1 <= n < 2 ^ 64)%N
  | PName s => s <> [] /\ well_named letter alnum s
  end.
Definition end_ok (letter alnum : N -> bool) (o : option place) : Prop := match o with None => True | Some p => place_ok letter alnum p end.
Definition item_ok (letter alnum : N -> bool) (i : item) : Prop :=
  match i with IOne p => place_ok letter alnum p | IRange a b => end_ok letter alnum a /\ end_ok letter alnum b end.
Definition term_ok (letter alnum : N -> bool) (t : term) : Prop := well_named letter alnum (t_label t) /\ item_ok letter alnum (t_item t).
Definition spec_ok (letter alnum : N -> bool) (s : cspec) : Prop :=
  Forall (term_ok letter alnum) (s_terms s) /\ (s_terms s <> [] \/ s_group s <> None) /\
  (forall g, s_group s = Some g -> balanced 40 41 g /\ ~ In 43%N g /\ ~ In 58%N g) /\
  (forall t, s_trans s = Some t -> exists c r, t = c :: r /\ letter c = true).
(** Column numbers that the file has. *)
Definition place_within (len : nat) (p : place) : Prop := match p with PNum n => (n <= N.of_nat len)%N | _ => True end.
Definition end_within (len : nat) (o : option place) : Prop := match o with None => True | Some p => place_within len p end.
Definition item_within (len : nat) (i : item) : Prop :=
  match i with IOne p => place_within len p | IRange a b => end_within len a /\ end_within len b end.
Definition part_within (len : nat) (q : part_) : Prop := match q_what q with WItem i => item_within len i | WGroup _ => True end.

(** * Writing *)
(** Texts with a separator between any two of them. *)
Fixpoint sep_by (d : bytes) (l : list bytes) : bytes :=
  match l with [] => [] | x :: [] => x | x :: r => x ++ d ++ sep_by d r end.

(** * Scoped values *)
(** The value for column [k]: the last value given for it, or else the default. *)
Fixpoint last_value (sets : list (list nat * bytes)) (d : bytes) (k : nat) : bytes :=
  match sets with
  | [] => d
  | (ks, v) :: r => last_value r (if existsb (Nat.eqb k) ks then v else d) k
  end.
Definition any_value (sets : list (list nat * bytes)) (k : nat) : Prop := exists ks v, In (ks, v) sets /\ In k ks.

(** * Composite columns *)
(** Literal text, a caret, or a field by number or name, with or without braces. *)
Inductive piece := CLit (s : bytes) | CCaret | CNum (braces : bool) (n : N) | CName (braces : bool) (s : bytes).
Definition ref_text (braces : bool) (s : bytes) : bytes := if braces then 94%N :: 123%N :: s ++ [125%N] else 94%N :: s.
Definition piece_text (p : piece) : bytes :=
  match p with
  | CLit s => s
  | CCaret => [94; 94]%N
  | CNum b n => ref_text b (print_N n)
  | CName b s => ref_text b s
  end.
Definition pieces_text (l : list piece) : bytes := concat (map piece_text l).
(** What a piece stands for on a line with the given fields. *)
Definition piece_value (enc : bytes -> bytes) (names fields : list bytes) (p : piece) (v : bytes) : Prop :=
  match p with
  | CLit s => v = enc s
  | CCaret => v = [94%N]
  | CNum _ n => exists k, n = N.of_nat (k + 1) /\ nth_error fields k = Some v
  | CName _ s => exists k, place_at names (PName s) k /\ nth_error fields k = Some v
  end.
(** Text that cannot belong to a name. *)
Definition not_name (alnum : N -> bool) (rest : bytes) : Prop :=
  match rest with [] => True | c :: _ => alnum c = false /\ c <> 95%N end.
(** Pieces that are written as intended, followed by [rest]. *)
Fixpoint pieces_ok (letter alnum : N -> bool) (l : list piece) (rest : bytes) : Prop :=
  match l with
  | [] => True
  | p :: r =>
      match p with
      | CLit s => ~ In 94%N s
      | CCaret => True
      | CNum b n => (1 <= n < 2 ^ 64)%N /\ (b = true \/ not_numeric (pieces_text r ++ rest))
      | CName b s => s <> [] /\ well_named letter alnum s /\ (b = true \/ not_name alnum (pieces_text r ++ rest))
      end /\ pieces_ok letter alnum r rest
  end.
