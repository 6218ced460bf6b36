(** What the RLPF theorems assume of [std::sin] and [std::cos], and the setting they hold in. *)
From Coq Require Import ZArith Reals List.
From Flocq Require Import Core BinarySingleNaN.
From Verif Require Import Flt FltFacts Libm LpModel.
Import ListNotations.
Local Open Scope R_scope.

(** On [0, 8] the double sine and cosine are within 2^-53 of the real ones: one unit in the last place of results in [1/2, 1). *)
Definition sincos_acc (L : libm) : Prop := forall w : f64, fin w -> 0 <= B2R w <= 8 ->
  (fin (d_sin L w) /\ Rabs (B2R (d_sin L w) - sin (B2R w)) <= bpow radix2 (-53)) /\
  (fin (d_cos L w) /\ Rabs (B2R (d_cos L w) - cos (B2R w)) <= bpow radix2 (-53)).
(** Sample rates between 4 Hz and 2^18 Hz. *)
Definition lp_rate (sr : f32) : Prop := fin sr /\ 4 <= B2R sr <= 262144.
(** The parameters a filter runs with: the cutoff between 1 Hz and just below the Nyquist frequency, Q between 0.1 and 30. *)
Definition lp_params (s : rlpf) : Prop :=
  lp_rate (lp_sr s) /\ fin (lp_freq s) /\ 1 <= B2R (lp_freq s) <= 4951 / 10000 * B2R (lp_sr s) /\ fin (lp_res s) /\ / 10 <= B2R (lp_res s) <= 30.
(** The coefficients are those [updateCoefficients] computes from the current parameters. *)
Definition lp_current (L : libm) (s : rlpf) : Prop := lp_c s = lp_coeffs L (lp_sr s) (lp_freq s) (lp_res s).
(** The filter memory is empty. *)
Definition lp_clear (s : rlpf) : Prop := lp_z1 s = fzero /\ lp_z2 s = fzero.
(** Outputs of consecutive ticks, and the filter afterwards. *)
Fixpoint lp_ticks (s : rlpf) (xs : list f32) : list f32 := match xs with [] => [] | x :: r => let (s', y) := lp_tick s x in y :: lp_ticks s' r end.
(** The filter after [n] ticks with the same input. *)
Fixpoint lp_hold (s : rlpf) (v : f32) (n : nat) : rlpf := match n with 0%nat => s | S m => fst (lp_tick (lp_hold s v m) v) end.
(** The filter after a list of calls. *)
Definition lp_run (L : libm) (s : rlpf) (os : list lp_op) : rlpf := fold_left (fun s o => fst (lp_call L s o)) os s.
Definition lp_outputs (L : libm) (s : rlpf) (os : list lp_op) : list f32 :=
  snd (fold_left (fun '(s, out) o => let (s', y) := lp_call L s o in (s', match y with Some v => out ++ [v] | None => out end)) os (s, [])).
