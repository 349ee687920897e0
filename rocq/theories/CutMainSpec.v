(** What the cut tool should do, independent of how it does it. *)
From Coq Require Import String List NArith ZArith Bool Arith.
Open Scope list_scope.
Import ListNotations.
From Verif Require Import Base TextSpec StrSpec MatchSpec FloatModel HdrSpec TurnSpec PasteSpec UniqMainSpec ColSpec ExprModel ExprSpec.
Close Scope Z_scope. Open Scope nat_scope.

(** What can be asked for: columns, columns bunched with a character between them, a text made of pieces, and the value of an expression. *)
Inductive citem :=
| CFields (s : cspec)
| CGroup (d : N) (name : bytes) (s : cspec)
| CComposite (name : bytes) (ps : list piece) (caret : bool)
| CExpr (name : bytes) (bits : list bit).
Definition caret_text (caret : bool) : bytes := if caret then [94%N] else [].
Definition item_option (it : citem) : bytes * bytes :=
  match it with
  | CFields s => (bs "fields", spec_text s)
  | CGroup d name s => (bs "group", d :: name ++ 58%N :: spec_text s)
  | CComposite name ps caret => (bs "composite", name ++ 58%N :: pieces_text ps ++ caret_text caret)
  | CExpr name bits => (bs "expr", name ++ 58%N :: concat (map bit_text bits))
  end.
(** The options ask for these items, in this order; --dups may be anywhere, with these values. *)
Inductive cut_says : list (bytes * bytes) -> list citem -> list bytes -> Prop :=
| cs_nil : cut_says [] [] []
| cs_item it args its ws : cut_says args its ws -> cut_says (item_option it :: args) (it :: its) ws
| cs_dups v args its ws : cut_says args its ws -> cut_says ((bs "dups", v) :: args) its (v :: ws).
Definition dup_words : list bytes := [bs "fail"; bs "allow"; bs "numeric"].
(** The last --dups decides. *)
Definition allows (words : list bytes) : Prop := same_but_case (last words []) (bs "allow").

(** What an item comes down to in a file with the given names: the columns wanted, each with a new name and a transform, or the tree of the
    expression. *)
Inductive plan := PCols (ws : list (nat * (bytes * option bytes))) | PText | PTree (t : tree).

Section Oracles.
(** Names and letters, patterns of names, transforms, the encoding of characters, arithmetic, and how numbers are printed. *)
Variables letter alnum : N -> bool.
Variable pattern : bytes -> option (bytes -> bool).
Variable trans_known : bytes -> Prop.
Variable trans_gives : bytes -> bytes -> bytes -> Prop.
Variable enc : bytes -> bytes.
Variable frem fpow : f64 -> f64 -> f64.
Variable libm : fop -> list f64 -> f64.
Variable exp10 : Z -> f64.
Variable print_num : f64 -> bytes.
(** Where the plain names in expressions are: in the same place in every file. *)
Variable pos : bytes -> N.

Definition citem_ok (it : citem) : Prop :=
  match it with
  | CFields s => spec_ok letter alnum s /\ forall t, s_trans s = Some t -> trans_known t
  | CGroup d name s => (d < 128)%N /\ ~ In 58%N name /\ spec_ok letter alnum s /\ forall t, s_trans s = Some t -> trans_known t
  | CComposite name ps caret => ~ In 58%N name /\ pieces_ok letter alnum ps (caret_text caret)
  | CExpr name bits => ~ In 58%N name
  end.
Definition cols_wanted (names : list bytes) (s : cspec) (ws : list (nat * (bytes * option bytes))) : Prop :=
  exists kss, Forall2 (part_cols pattern names) (parts_of false s) kss /\ ws = wanted (List.length names) (parts_of false s) kss.
Definition tree_value (env : bytes -> f64) (t : tree) : option f64 := value frem fpow factorial (builtin fpow libm) env t.
Definition planned (names : list bytes) (ip : citem * plan) : Prop :=
  match ip with
  | (CFields s, PCols ws) => cols_wanted names s ws /\ ws <> []
  | (CGroup _ _ s, PCols ws) => cols_wanted names s ws
  | (CComposite _ ps _, PText) => forall b s, In (CName b s) ps -> exists k, place_at names (PName s) k
  | (CExpr _ bits, PTree t) =>
      exists outs, Forall2 (bit_means letter alnum pattern trans_known names) bits outs /\ written exp10 letter alnum (concat outs) t /\
        (forall s, In s (refs t) -> find_const s <> None \/ column_of names s (pos s)) /\ tree_value env0 t <> None
  | _ => False
  end.
(** The names of the new columns. *)
Definition labels (names : list bytes) (ip : citem * plan) : list bytes :=
  match ip with
  | (CFields _, PCols ws) => map (fun w => match fst (snd w) with [] => nth (fst w) names [] | l => l end) ws
  | (CGroup _ name _, _) | (CComposite name _ _, _) | (CExpr name _, _) => [name]
  | _ => []
  end.
(** The value of a wanted column; a line may have too few columns. *)
Definition column_value (fields : list bytes) (w : nat * (bytes * option bytes)) (v : bytes) : Prop :=
  match snd (snd w) with None => v = nth (fst w) fields [] | Some t => trans_gives t (nth (fst w) fields []) v end.
Definition piece_is (names fields : list bytes) (p : piece) (v : bytes) : Prop :=
  match p with
  | CLit s => v = enc s
  | CCaret => v = [94%N]
  | CNum _ n => v = nth (N.to_nat (n - 1)) fields []
  | CName _ s => exists k, place_at names (PName s) k /\ v = nth k fields []
  end.
Definition line_env (fields : list bytes) (s : bytes) : f64 :=
  match find_const s with Some c => c | None => to_f64_lossy exp10 (nth (N.to_nat (pos s)) fields []) end.
(** The cells an item gives for a line, [clean] keeping delimiters out of them. *)
Definition cells (clean : bytes -> bytes) (names fields : list bytes) (ip : citem * plan) (cs : list bytes) : Prop :=
  match ip with
  | (CFields _, PCols ws) => exists vs, Forall2 (column_value fields) ws vs /\ cs = map clean vs
  | (CGroup d _ _, PCols ws) => exists vs, Forall2 (column_value fields) ws vs /\ cs = [join d (map (replace2 d NL 32) vs)]
  | (CComposite _ ps caret, PText) => exists vs, Forall2 (piece_is names fields) ps vs /\ cs = [clean (concat vs ++ caret_text caret)]
  | (CExpr _ _, PTree t) => exists v, tree_value (line_env fields) t = Some v /\ cs = [print_num v]
  | _ => False
  end.
(** [cut_of items clean d od f heads rows]: in the file [f] with delimiter [d] the items have the names [heads], and the lines become [rows]. *)
Definition cut_of (items : list citem) (clean : bytes -> bytes) (d od : N) (f : shown) (heads rows : list bytes) : Prop :=
  exists ips, map fst ips = items /\ Forall (planned (sh_names f)) ips /\ heads = flat_map (labels (sh_names f)) ips /\
    Forall2 (fun l row => exists css, Forall2 (cells clean (sh_names f) (parted d l)) ips css /\ row = join od (concat css) ++ [NL]) (sh_lines f) rows.
End Oracles.

(** Sources one after the other: those without any content do not count. *)
Inductive files_show {S F} (empty : S -> Prop) (show : S -> F -> Prop) : list S -> list F -> Prop :=
| fs_nil : files_show empty show [] []
| fs_skip s ss fs : empty s -> files_show empty show ss fs -> files_show empty show (s :: ss) fs
| fs_file s f ss fs : show s f -> files_show empty show ss fs -> files_show empty show (s :: ss) (f :: fs).
