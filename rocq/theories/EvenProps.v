(** C70: the lines of a sample are spread over the stream. *)
From Coq Require Import String List NArith ZArith Bool Arith Lia FinFun.
Open Scope list_scope.
Import ListNotations.
From Verif Require Import Base SampModel SampSpec SampEven.
Close Scope Z_scope.
Open Scope nat_scope.

(** Full claim: the lines are evenly distributed, all distances between neighbours about the average. Proved for samples of 3 to 2^24 lines
    and every stream: no distance reaches twice the average (unless the neighbours are adjacent), so no part of the stream goes unsampled.
    Missing, and refuted below: a lower bound on the distances. *)
Theorem c70_even_partial : forall n ls, 3 <= n -> (N.of_nat n < 2 ^ 24)%N ->
  exists out, sampled n ls = Ok out /\ List.length out = Nat.min n (List.length ls) /\ evenly n ls out.
Proof. intros n ls H1 H2. exact (sampled_even n H1 H2 ls). Qed.
(** Numbered lines, for the examples. *)
Definition numbered (n : nat) : list bytes := map (fun k => [N.of_nat k]) (seq 0 n). (* stands for the lines of a file, /repo/src/bin/cdx/sample_main.rs:149-154 *)
Example c70_even_partial_ex : sampled 5 (numbered 33) = Ok (map (fun k => [N.of_nat k]) [0; 7; 15; 31; 32]) /\ sampled 4 (numbered 3) = Ok (numbered 3) /\
  evenly 5 (numbered 33) (map (fun k => [N.of_nat k]) [0; 7; 15; 31; 32]).
Proof.
  split; [vm_compute; reflexivity|]. split; [vm_compute; reflexivity|]. exists (fun k => nth k [0; 7; 15; 31; 32] 0). split; [|split].
  - intros k K. do 5 (destruct k as [|k]; [split; [reflexivity|cbn; lia]|]). cbn in K. lia.
  - intros _. split; reflexivity.
  - intros k K. do 4 (destruct k as [|k]; [split; [cbn; lia|right; cbn; lia]|]). cbn in K. lia.
Qed.
(** Not even at all: of 129 lines the first, the last but one and the last are the sample of three. *)
Theorem c70_refuted : exists ls a b c, List.length ls = 129 /\ NoDup ls /\ sampled 3 ls = Ok [a; b; c] /\
  nth_error ls 0 = Some a /\ nth_error ls 127 = Some b /\ nth_error ls 128 = Some c.
Proof.
  exists (numbered 129), [0%N], [127%N], [128%N]. split; [reflexivity|]. split; [|repeat split; vm_compute; reflexivity].
  unfold numbered. apply FinFun.Injective_map_NoDup; [|apply seq_NoDup]. intros x y E. injection E as E. apply Nat2N.inj. exact E.
Qed.
