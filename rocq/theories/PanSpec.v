(** What the panning theorems assume of [std::sin], [std::cos], [std::atan], [std::pow]. *)
From Coq Require Import ZArith Reals.
From Flocq Require Import Core BinarySingleNaN.
From Verif Require Import Flt FltFacts Libm UtilModel PanModel.
Local Open Scope R_scope.

(** [r] approximates the real [x] to two units in the last place (plus one
    subnormal step). *)
Definition approx (r : f32) (x : R) : Prop :=
  fin r /\ Rabs (B2R r - x) <= bpow radix2 (-23) * Rabs x + bpow radix2 (-149).

Definition trig_acc (L : libm) : Prop :=
  forall a, fin a -> Rabs (B2R a) <= 2 -> approx (m_sin L a) (sin (B2R a)) /\ approx (m_cos L a) (cos (B2R a)).
Definition atan_acc (L : libm) : Prop := forall x, fin x -> approx (m_atan L x) (atan (B2R x)).
(** sin(±0) = ±0, cos(±0) = 1, atan(±0) = ±0 (C Annex F). *)
Definition trig_zero (L : libm) : Prop :=
  forall s, m_sin L (B754_zero s) = B754_zero s /\ m_cos L (B754_zero s) = one /\ m_atan L (B754_zero s) = B754_zero s.
(** pow(10, .) is monotone and pow(10, 0) = 1 (C Annex F for the latter). *)
Definition pow10_ok (L : libm) : Prop :=
  (forall x y, fle x y = true -> fle (m_pow L (fofZ 10) x) (m_pow L (fofZ 10) y) = true) /\
  (forall s, m_pow L (fofZ 10) (B754_zero s) = one).
(** Magnitudes that neither overflow nor underflow when multiplied by a gain. *)
Definition moderate (r : R) : Prop := bpow radix2 (-100) <= Rabs r <= bpow radix2 60.
(** [y] is a finite float within [e * |r|] of the real [q * r]. *)
Definition within (e : R) (y : f32) (q r : R) : Prop := fin y /\ Rabs (B2R y - q * r) <= e * Rabs r.
(** Total power of a stereo pair equals the power of a signal of value [r], to one part in 2^20. *)
Definition same_power (y z : f32) (r : R) : Prop :=
  fin y /\ fin z /\ Rabs (B2R y * B2R y + B2R z * B2R z - r * r) <= bpow radix2 (-20) * (r * r).
(** Levels for which [setLevel] is shown to keep the position. *)
Definition xf_level_ok (l : f32) : Prop := fin l /\ bpow radix2 (-15) <= B2R l <= bpow radix2 60.
Definition bal_level_ok (l : f32) : Prop := fin l /\ bpow radix2 (-4) <= B2R l <= bpow radix2 60.
(** Two stereo pairs agree to [e] times [r]. *)
Definition pair_close (e r : R) (p q : f32 * f32) : Prop :=
  fin (fst p) /\ fin (snd p) /\ fin (fst q) /\ fin (snd q) /\
  Rabs (B2R (fst p) - B2R (fst q)) <= e * Rabs r /\ Rabs (B2R (snd p) - B2R (snd q)) <= e * Rabs r.
(** The gains as heard: response to unit input. *)
Definition bal_response (b : bal2) : f32 * f32 := bal2_tick b one one.
Definition xf_response (x : xfade) : f32 * f32 := (xf_tick x one fzero, xf_tick x fzero one).
(** pow(10, .) to two units in the last place on [-11,11]. *)
Definition pow10_acc (L : libm) : Prop := forall y, fin y -> Rabs (B2R y) <= 11 ->
  fin (m_pow L (fofZ 10) y) /\ Rabs (B2R (m_pow L (fofZ 10) y) - Rpower 10 (B2R y)) <= bpow radix2 (-23) * Rpower 10 (B2R y).
(** A computable library for the examples: sin and cos as at the centre position. *)
Definition toy_trig : libm := {|
  m_exp := fun x => x; m_sin := fun _ => SQ2; m_cos := fun _ => SQ2; m_tan := fun x => x; m_tanh := fun x => x;
  m_log := fun x => x; m_atan := fun x => x; m_pow := fun x _ => x;
  d_exp := fun x => x; d_sin := fun x => x; d_cos := fun x => x; d_tan := fun x => x; d_tanh := fun x => x; d_pow := fun x _ => x |}.
