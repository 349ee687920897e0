(** C42: verifying files. *)
From Coq Require Import String List NArith ZArith Bool Arith Lia.
Open Scope list_scope.
Import ListNotations.
From Verif Require Import Base TextSpec TextModel ReadSpec ReadModel ReadProofs HeadModel HdrModel ToolModel ToolOpen TurnSpec TurnProofs TurnProps PasteSpec PasteProofs PasteProps VerSpec VerProofs.
Close Scope Z_scope.
Open Scope nat_scope.

(** Opening the sources and verifying them. *)
Definition verify_of (u : bytes -> bool) (md : tmode) (v : rules) (ss : list src) : res unit := rbind (open_files u md ss) (verify md v).

(** Full claim: the tool succeeds exactly when every line of every file is as demanded. Proved for every list of files, chunking, delimiter
    and quoting mode: a list of valid files is always accepted, and of an accepted one all demands hold, on the first and the last line,
    the order and the number of columns and the patterns, the last two for all lines but the last of each file.
    Missing, and refuted below: columns and patterns of the last line. *)
Theorem c42_verdict_partial : forall u md v ss fs, md_ok md -> 2 <= vr_max v -> Forall2 (shows u md) ss fs ->
  verify_of u md v ss = (if forallb (accepted md v) fs then Ok tt else Err) /\
  (forall f, valid_file md v f =
     accepted md v f && match rev (sh_lines f) with [] => true | l :: _ => good_line v (List.length (sh_names f)) (proc md l) end).
Proof.
  intros u md v ss fs Hm H2 HS. split; [|intros f; apply accepted_valid]. destruct (open_all_shows md u ss fs HS) as (ts & O1 & O2). unfold verify_of. rewrite O1. cbn [rbind].
  apply verify_ok; auto.
Qed.
(** So valid files are never refused. *)
Theorem c42_valid_accepted : forall u md v ss fs, md_ok md -> 2 <= vr_max v -> Forall2 (shows u md) ss fs ->
  forallb (valid_file md v) fs = true -> verify_of u md v ss = Ok tt.
Proof.
  intros u md v ss fs Hm H2 HS HV. destruct (c42_verdict_partial u md v ss fs Hm H2 HS) as (E & A). rewrite E.
  assert (G : forallb (accepted md v) fs = true); [|rewrite G; reflexivity].
  rewrite forallb_forall in *. intros f Hf. specialize (HV f Hf). rewrite A in HV. apply andb_true_iff in HV. apply HV.
Qed.

Definition first_byte (t : textline) : N := match tl_text t with c :: _ => c | [] => 0%N end.
Definition ex_rules (u : bool) := mkrules (fun t => negb (first_byte t =? 120)%N) true u (fun a b => (first_byte a ?= first_byte b)%N)
  (Some (fun t => (97 <=? first_byte t)%N)) (Some (fun t => (first_byte t <=? 122)%N)) 5.
Definition ex_v (ls : list (list string)) := mkshown (tsv [[" CDX"; "k"; "n"]]%string) [bs "k"; bs "n"] (map (fun x => tsv [x]) ls).
Definition ex_vsrc (ls : list (list string)) := text (tsv ([" CDX"; "k"; "n"]%string :: ls)).
Example c42_verdict_partial_ex :
  shows any_text ex_md (ex_vsrc [["a"; "1"]; ["b"; "2"]; ["b"; "3"]]%string) (ex_v [["a"; "1"]; ["b"; "2"]; ["b"; "3"]]%string) /\
  verify_of any_text ex_md (ex_rules false) [ex_vsrc [["a"; "1"]; ["b"; "2"]; ["b"; "3"]]%string] = Ok tt /\
  verify_of any_text ex_md (ex_rules true) [ex_vsrc [["a"; "1"]; ["b"; "2"]; ["b"; "3"]]%string] = Err /\
  verify_of any_text ex_md (ex_rules false) [ex_vsrc [["a"; "1"]; ["b"]; ["c"; "3"]]%string] = Err /\
  verify_of any_text ex_md (ex_rules false) [ex_vsrc [["c"; "1"]; ["b"; "2"]]%string] = Err /\
  forallb (valid_file ex_md (ex_rules false)) [ex_v [["a"; "1"]; ["b"; "2"]; ["b"; "3"]]%string] = true.
Proof.
  split; [|vm_compute; auto 10]. split; [repeat constructor; discriminate|]. left. split; [eexists; split; vm_compute; reflexivity|vm_compute; reflexivity].
Qed.

(** Counting: below the limit the failures of a file are the lines before the last that are bad or out of order with the next line, each
    once, and one each for the first and the last line if they fail the check made for them alone; at the limit counting stops. *)
Theorem c42_count_partial : forall u md v s f t r, md_ok md -> 2 <= vr_max v -> shows u md s f -> map (proc md) (sh_lines f) = t :: r ->
  let inner := (if passes (vr_first v) t then 0 else 1) + violations textline (good_line v (List.length (sh_names f))) (sorted_pair v) (t :: r) in
  rbind (open_file u md s) (verify_file md v) =
    Ok (if inner <? vr_max v then inner + (if passes (vr_last v) (last (t :: r) t) then 0 else 1) else vr_max v).
Proof.
  intros u md v s f t r Hm H2 HS E inner. destruct (open_file_shows md u s f HS) as (x & O1 & O2). rewrite O1. cbn [rbind].
  rewrite (verify_file_ok md v x f Hm H2 O2). unfold failures. rewrite E. reflexivity.
Qed.
Example c42_count_partial_ex :
  rbind (open_file any_text ex_md (ex_vsrc [["c"; "1"]; ["b"; "2"]; ["x"; "3"]; ["y"]; ["z"; "1"]]%string)) (verify_file ex_md (ex_rules false)) = Ok 3 /\
  rbind (open_file any_text ex_md (ex_vsrc [["h"]; ["g"]; ["f"]; ["e"]; ["d"]; ["c"]; ["b"]]%string)) (verify_file ex_md (ex_rules false)) = Ok 5.
Proof. vm_compute. auto. Qed.

(** The last line is not held to the number of columns nor to the patterns: no file of one data line fails on either. *)
Theorem c42_refuted : exists s, content s = tsv [[" CDX"; "k"; "n"]; ["x"]]%string /\
  verify_of any_text ex_md (ex_rules true) [s] = Ok tt /\ valid_file ex_md (ex_rules true) (ex_v [["x"]]%string) = false.
Proof. exists (ex_vsrc [["x"]]%string). vm_compute. auto. Qed.
Theorem c42_one_line : forall u md v s f l, md_ok md -> 2 <= vr_max v -> shows u md s f -> sh_lines f = [l] ->
  passes (vr_first v) (proc md l) = true -> passes (vr_last v) (proc md l) = true -> verify_of u md v [s] = Ok tt.
Proof.
  intros u md v s f l Hm H2 HS E H1 H3. destruct (c42_verdict_partial u md v [s] [f] Hm H2 (Forall2_cons _ _ HS (Forall2_nil _))) as (EV & _). rewrite EV.
  cbn [forallb]. unfold accepted. rewrite E. cbn. rewrite H1, H3. reflexivity.
Qed.
Example c42_one_line_ex : verify_of any_text ex_md (ex_rules true) [ex_vsrc [["x"; "1"; "2"]]%string] = Ok tt.
Proof. vm_compute. reflexivity. Qed.
(** A first line that fails both the check made for it and a pattern is counted twice. *)
Theorem c42_twice_refuted : exists s v, content s = tsv [[" CDX"; "k"; "n"]; ["a"; "1"]; ["b"; "2"]]%string /\
  forallb (fun t => match vr_first v with Some f => negb (f t) | None => false end) (map (proc ex_md) (sh_lines (ex_v [["a"; "1"]]%string))) = true /\
  vr_line v (proc ex_md (tsv [["b"; "2"]]%string)) = true /\
  rbind (open_file any_text ex_md s) (verify_file ex_md v) = Ok 2.
Proof.
  exists (ex_vsrc [["a"; "1"]; ["b"; "2"]]%string), (mkrules (fun t => negb (first_byte t =? 97)%N) false false (fun _ _ => Eq) (Some (fun t => (98 <=? first_byte t)%N)) None 5).
  vm_compute. auto.
Qed.
