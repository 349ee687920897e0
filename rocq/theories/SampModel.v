(** The smooth sampler, /repo/src/sampler.rs. *)
From Coq Require Import List NArith ZArith Bool SpecFloat.
Import ListNotations.
From Verif Require Import Base FloatModel.
Open Scope nat_scope.

(** struct Smooth, /repo/src/sampler.rs:11-18. The counters jump and pos are unbounded here, usize in the source. *)
Record smooth := mksm { sm_small : nat; sm_large : nat; sm_data : list bytes; sm_jump : N; sm_pos : N; sm_size : nat }.

(** Smooth::new, /repo/src/sampler.rs:23-38. *)
Definition smooth_new (sz : nat) : smooth :=
  let small := Nat.max sz 2 in
  let large := small * 2 - 2 in
  mksm small large (repeat [] large) 1 0 0.

(** data[i].clear(); data[i].extend(x), /repo/src/sampler.rs:54-55 and 61-62: an index beyond the vector panics. *)
Fixpoint put (l : list bytes) (i : nat) (x : bytes) : res (list bytes) :=
  match l, i with
  | [], _ => Panic
  | _ :: r, O => Ok (x :: r)
  | y :: r, S j => rbind (put r j x) (fun r' => Ok (y :: r'))
  end.
(** Vec::swap as called in /repo/src/sampler.rs:88, 97 and 99. *)
Definition swap (l : list bytes) (i j : nat) : res (list bytes) :=
  match nth_error l i, nth_error l j with
  | Some x, Some y => rbind (put l i y) (fun l' => put l' j x)
  | _, _ => Panic
  end.
(** [as usize] of a double, /repo/src/sampler.rs:96: fractions are cut off, negative and not-a-number give 0, infinity the largest usize
    (values from 2^64 on are not met here and are not capped). *)
Definition as_usize (x : f64) : N :=
  match x with
  | S754_finite false m e => Z.to_N (match e with Z0 => Zpos m | Zpos q => Zpos m * 2 ^ Zpos q | Zneg q => Zpos m / 2 ^ Zpos q end)%Z
  | S754_infinity false => (2 ^ 64 - 1)%N
  | _ => 0%N
  end.
(** pos in the loop of collapse, /repo/src/sampler.rs:94 and 96. *)
Definition spread (old new i : nat) : nat :=
  N.to_nat (as_usize (fmul (f_of_Z (Z.of_nat i)) (fdiv (f_of_Z (Z.of_nat (old - 2))) (f_of_Z (Z.of_nat (new - 2)))))).
(** The loop of collapse, /repo/src/sampler.rs:95-98: the next [n] values of i, from [i] on. *)
Fixpoint swaps (old new : nat) (l : list bytes) (i n : nat) : res (list bytes) :=
  match n with
  | O => Ok l
  | S m => rbind (swap l i (spread old new i)) (fun l' => swaps old new l' (S i) m)
  end.
(** Smooth::collapse, /repo/src/sampler.rs:79-101. *)
Definition collapse (s : smooth) : res smooth :=
  let old := sm_size s in
  let new := sm_small s in
  if old <=? new then Ok s
  else if new =? 2 then
    rbind (swap (sm_data s) 1 (old - 1)) (fun d => Ok (mksm new (sm_large s) d (sm_jump s) (sm_pos s) 2))
  else
    let new_end := new - 1 in
    rbind (swaps old new (sm_data s) 1 (new_end - 1)) (fun d =>
    rbind (swap d new_end (old - 1)) (fun d' =>
    Ok (mksm new (sm_large s) d' (sm_jump s) (sm_pos s) new))).
(** Smooth::add, /repo/src/sampler.rs:47-75. *)
Definition smooth_add (s : smooth) (x : bytes) : res smooth :=
  if (sm_pos s =? 0)%N then
    rbind (if sm_large s <=? sm_size s
           then collapse (mksm (sm_small s) (sm_large s) (sm_data s) (sm_jump s * 2) (sm_pos s) (sm_size s))
           else Ok s) (fun s =>
    rbind (put (sm_data s) (sm_size s) x) (fun d =>
    Ok (mksm (sm_small s) (sm_large s) d (sm_jump s) (if (1 <? sm_jump s)%N then sm_pos s + 1 else sm_pos s)%N (S (sm_size s)))))
  else
    rbind (put (sm_data s) (sm_size s - 1) x) (fun d =>
    let pos := (sm_pos s + 1)%N in
    let limit := if sm_size s =? sm_large s then (2 * sm_jump s)%N else sm_jump s in
    Ok (mksm (sm_small s) (sm_large s) d (sm_jump s) (if (limit <=? pos)%N then 0%N else pos) (sm_size s))).
(** The loop of sample, /repo/src/bin/cdx/sample_main.rs:149-154: every line is added. *)
Fixpoint smooth_adds (s : smooth) (ls : list bytes) : res smooth :=
  match ls with
  | [] => Ok s
  | x :: r => rbind (smooth_add s x) (fun s => smooth_adds s r)
  end.
(** Smooth::finalize and write, /repo/src/sampler.rs:104-115: the lines written, one entry for each write. *)
Definition smooth_final (s : smooth) : res (list bytes) :=
  rbind (collapse s) (fun s => if sm_size s <=? length (sm_data s) then Ok (firstn (sm_size s) (sm_data s)) else Panic).
(** A new sampler, all the lines, and the end, /repo/src/bin/cdx/sample_main.rs:148-155. *)
Definition sampled (sz : nat) (ls : list bytes) : res (list bytes) :=
  rbind (smooth_adds (smooth_new sz) ls) smooth_final.
