(** What the ladder theorems assume of the math library, and how a history of calls is run. *)
From Coq Require Import ZArith Reals List.
From Flocq Require Import Core BinarySingleNaN.
From Verif Require Import Flt FltFacts Libm.
Import ListNotations.
Local Open Scope R_scope.

(** [std::tanh] maps every number (infinities included) into [-1,1]. *)
Definition dtanh_unit (L : libm) : Prop := forall x : f64, is_nan x = false -> fin (d_tanh L x) /\ -1 <= B2R (d_tanh L x) <= 1.
(** ... and is exactly 1 (-1) from 20 on (up to -20), where 1 - tanh is below 2^-56. *)
Definition dtanh_sat (L : libm) : Prop := forall x : f64, fin x -> (20 <= B2R x -> B2R (d_tanh L x) = 1) /\ (B2R x <= -20 -> B2R (d_tanh L x) = -1).
(** [std::tanh] of a NaN is a NaN. *)
Definition dtanh_nan (L : libm) : Prop := forall x : f64, is_nan x = true -> is_nan (d_tanh L x) = true.
(** [std::pow] with exponents 2, 3 and 4 has a relative error of at most 2^-52 on (0, 4]. *)
Definition dpow_acc (L : libm) : Prop := forall (w : f64) (n : nat), fin w -> bpow radix2 (-100) <= B2R w <= 4 -> In n [2; 3; 4]%nat ->
  fin (d_pow L w (fofZ (Z.of_nat n))) /\ Rabs (B2R (d_pow L w (fofZ (Z.of_nat n))) - B2R w ^ n) <= bpow radix2 (-52) * B2R w ^ n.
(** [std::tan] has a relative error of at most 2^-51 on [2^-100, 3/2]. *)
Definition dtan_acc (L : libm) : Prop := forall w : f64, fin w -> bpow radix2 (-100) <= B2R w <= 3 / 2 ->
  fin (d_tan L w) /\ Rabs (B2R (d_tan L w) - tan (B2R w)) <= bpow radix2 (-51) * tan (B2R w).

(** The state after a list of calls, and the outputs of its ticks in order. *)
Fixpoint mg_run {S O : Type} (call : S -> O -> S * option f32) (s : S) (os : list O) : S * list f32 :=
  match os with
  | [] => (s, [])
  | o :: r => let (s', y) := call s o in let (t, ys) := mg_run call s' r in (t, match y with Some v => v :: ys | None => ys end)
  end.
(** A sample rate a ladder is used with: 4000 Hz to 2^18 Hz. *)
Definition mg_rate (sr : f32) : Prop := fin sr /\ 4000 <= B2R sr <= 262144.
(** A cutoff from 1 Hz to the share [q] of the sample rate. *)
Definition mg_cut (q : R) (sr c : f32) : Prop := fin c /\ 1 <= B2R c <= q * B2R sr.
