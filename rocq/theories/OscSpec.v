(** Call histories of the oscillators and what counts as a sane setting. *)
From Coq Require Import ZArith Reals Bool List.
From Flocq Require Import Core BinarySingleNaN.
From Verif Require Import Flt FltFacts Libm UtilModel OscModel.
Import ListNotations.
Local Open Scope R_scope.

(** Sample rates from 1 Hz up; frequencies from 0 to the Nyquist frequency. *)
Definition rate_ok (sr : f32) : Prop := fin sr /\ 1 <= B2R sr <= bpow radix2 100.
Definition freq_ok (sr f : f32) : Prop := fin f /\ 0 <= B2R f <= B2R sr / 2.

(** Samples produced by [n] successive ticks. *)
Section Ticks.
  Context {S : Type} (tick : S -> S * f32).
  Fixpoint ticks (n : nat) (s : S) : S * list f32 :=
    match n with
    | O => (s, [])
    | Datatypes.S n => let (s', x) := tick s in let (s'', l) := ticks n s' in (s'', x :: l)
    end.
  (** State after [n] ticks and the sample tick number [n] produces. *)
  Fixpoint after (n : nat) (s : S) : S := match n with O => s | Datatypes.S n => after n (fst (tick s)) end.
  Definition nth_sample (n : nat) (s : S) : f32 := snd (tick (after n s)).
End Ticks.

Inductive osc_op := OTick | OFreq (f : f32) | OReset (p : f32).
Definition so_op (L : libm) (s : sinosc) (o : osc_op) : sinosc * option f32 :=
  match o with
  | OTick => let (s', x) := so_tick L s in (s', Some x)
  | OFreq f => (so_setFrequency s f, None)
  | OReset p => (so_reset s p, None)
  end.
Definition lt_op (s : lftri) (o : osc_op) : lftri * option f32 :=
  match o with
  | OTick => let (s', x) := lt_tick s in (s', Some x)
  | OFreq f => (lt_setFrequency s f, None)
  | OReset p => (lt_reset s p, None)
  end.
Definition sw_op (s : saw) (o : osc_op) : saw * option f32 :=
  match o with
  | OTick => let (s', x) := sw_tick s in (s', Some x)
  | OFreq f => (sw_setFrequency s f, None)
  | OReset _ => (sw_reset s, None)
  end.
Inductive ln_call := NTick | NFreq (f : f32) | NSeed (s : Z) | NReset (s : Z).
Definition ln_op (s : lfn) (o : ln_call) : lfn * option f32 :=
  match o with
  | NTick => let (s', x) := ln_tick s in (s', Some x)
  | NFreq f => (ln_setFrequency s f, None)
  | NSeed k => (ln_setSeed s k, None)
  | NReset k => (ln_reset s k, None)
  end.
Section Run.
  Context {S O : Type} (step : S -> O -> S * option f32).
  Fixpoint run (s : S) (l : list O) : S * list (option f32) :=
    match l with [] => (s, []) | o :: l => let (s', x) := step s o in let (s'', xs) := run s' l in (s'', x :: xs) end.
End Run.

(** Calls within the documented ranges: frequencies up to Nyquist and reset phases inside [0,top]. *)
Definition osc_ok (sr : f32) (top : R) (o : osc_op) : Prop :=
  match o with OTick => True | OFreq f => freq_ok sr f | OReset p => fin p /\ 0 <= B2R p <= top end.
(** LFNoise2: any frequency that is not above the sample rate (NaN and negative ones are replaced); uint32_t seeds. *)
Definition ln_ok (sr : f32) (o : ln_call) : Prop :=
  match o with NTick => True | NFreq f => flt sr f = false | NSeed k | NReset k => (0 <= k < 2 ^ 32)%Z end.

Definition sin_unit (L : libm) : Prop := forall x, fin x -> fin (m_sin L x) /\ -1 <= B2R (m_sin L x) <= 1.
(** A sample that is a number in [-1,1]. *)
Definition audio (x : f32) : Prop := fin x /\ -1 <= B2R x <= 1.
(** Seed after [n] draws. *)
Definition draws (n : nat) (seed : Z) : Z := Nat.iter n lcg seed.

(** SawDPW frequencies: from sampleRate/2^14 to Nyquist. *)
Definition saw_freq_ok (sr f : f32) : Prop := fin f /\ B2R sr <= bpow radix2 14 * B2R f /\ B2R f <= B2R sr / 2.
(** States of a SawDPW: [init] followed by any calls within range. *)
Definition saw_op_ok (sr : f32) (o : osc_op) : Prop := match o with OFreq f => freq_ok sr f | _ => True end.
Definition saw_reach (sr : f32) (s : saw) : Prop :=
  exists ip ops, is_nan ip = false /\ Forall (saw_op_ok sr) ops /\ s = fst (run sw_op (sw_init sr ip) ops).

(** The cubic Catmull-Rom segment between [p1] (t = 0) and [p2] (t = 1), over the reals. *)
Definition spline (t p0 p1 p2 p3 : R) : R :=
  p1 + t * ((p2 - p0) / 2 + t * (p0 - 5 / 2 * p1 + 2 * p2 - p3 / 2 + t * (3 / 2 * (p1 - p2) + (p3 - p0) / 2))).
Definition clampR (x : R) : R := Rmax (-1) (Rmin x 1).
(** Sample number [j] (from 1) of the random sequence started by [seed], as a real in [-1,1). *)
Definition noise_pt (seed : Z) (j : nat) : R := IZR (draws j seed) / bpow radix2 31 - 1.

(** std::sin within 1 ulp-ish of the true sine over one cycle. *)
Definition sin_acc (L : libm) : Prop := forall x, fin x -> 0 <= B2R x <= B2R TWO_PI ->
  fin (m_sin L x) /\ Rabs (B2R (m_sin L x) - sin (B2R x)) <= bpow radix2 (-22).
