(** C37: samples of a stream. *)
From Coq Require Import String List NArith ZArith Bool Arith Lia.
Open Scope list_scope.
Import ListNotations.
From Verif Require Import Base SampModel SampSpec SampProofs.
Close Scope Z_scope.

(** C37, for samples of at least three lines (and fewer than 2^48): whatever the stream, the sampler does not panic and writes a sample
    of that many lines. Missing from the full statement: samples of one or two lines, where it is false. *)
Theorem c37_sample_partial : forall n ls, 3 <= n -> (N.of_nat n < 2 ^ 48)%N -> exists out, sampled n ls = Ok out /\ sample_of n ls out.
Proof. intros n ls H S. exact (sampled_ok n H S ls). Qed.
Example c37_sample_partial_ex : sampled 3 (map bs ["a"; "b"; "c"; "d"; "e"; "f"; "g"]%string) = Ok (map bs ["a"; "d"; "g"]%string) /\
  sampled 4 (map bs ["a"; "b"; "c"; "d"; "e"; "f"; "g"; "h"; "i"; "j"; "k"]%string) = Ok (map bs ["a"; "e"; "h"; "k"]%string) /\
  sampled 5 (map bs ["a"; "b"; "c"]%string) = Ok (map bs ["a"; "b"; "c"]%string).
Proof. repeat split; vm_compute; reflexivity. Qed.

(** C37. Samples of two lines or fewer: the lines themselves if there are at most two, else a panic. *)
Theorem c37_two : forall n ls, n <= 2 -> sampled n ls = if List.length ls <=? 2 then Ok ls else Panic.
Proof. exact sampled_two. Qed.
Example c37_two_ex : sampled 2 (map bs ["a"; "b"]%string) = Ok (map bs ["a"; "b"]%string) /\ sampled 2 (map bs ["a"; "b"; "c"]%string) = Panic.
Proof. split; reflexivity. Qed.

(** C37 is false of samples of two lines: the third line panics. *)
Theorem c37_refuted : exists ls, sampled 2 ls = Panic /\ ~ exists out, sampled 2 ls = Ok out.
Proof. exists (map bs ["a"; "b"; "c"]%string). split; [reflexivity|]. intros (out & E). vm_compute in E. discriminate. Qed.
(** C37 is false of samples of one line: two are written. *)
Theorem c37_one_refuted : exists ls, forall out, sampled 1 ls = Ok out -> ~ sample_of 1 ls out.
Proof. exists (map bs ["a"; "b"]%string). intros out E (L & _). vm_compute in E. injection E as <-. discriminate. Qed.
Example c37_one_refuted_ex : sampled 1 (map bs ["a"; "b"]%string) = Ok (map bs ["a"; "b"]%string).
Proof. reflexivity. Qed.
