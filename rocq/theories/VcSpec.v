(** What the voice theorems assume of the caller and of the math library, and how they read off a history of calls. *)
From Coq Require Import ZArith Reals Bool List.
From Flocq Require Import Core BinarySingleNaN.
From Verif Require Import Flt FltFacts Libm UtilModel OscModel OscSpec EnvModel EnvSpec PanModel VcModel.
Import ListNotations.
Local Open Scope R_scope.

Definition cos_unit (L : libm) : Prop := forall x, fin x -> fin (m_cos L x) /\ -1 <= B2R (m_cos L x) <= 1.

(** Sample rates of a voice: the built-in 5 Hz vibrato may not exceed it. *)
Definition voice_rate (sr : f32) : Prop := fin sr /\ 5 <= B2R sr <= bpow radix2 100.
(** Sane calls: finite frequencies up to 2^40 Hz in either direction, vibrato depths that are not above 2^40 semitones,
    vibrato rates that are not above the sample rate, amplitudes and pan depths that are not NaN; all times, NaN included. *)
Definition ev_ok (sr : f32) (o : ev_op) : Prop :=
  match o with
  | EvInit r => r = sr
  | EvFreq f => fin f /\ Rabs (B2R f) <= bpow radix2 40
  | EvDepth d => flt (flit 1 40) d = false
  | EvRate r => flt sr r = false
  | EvAmp a | EvPan a => is_nan a = false
  | _ => True
  end.
(** The amplitude in force: 1/2 after [init], then the last [setAmplitude], limited to [0,1]. *)
Definition amp_set (a : R) (o : ev_op) : R :=
  match o with
  | EvInit _ => 1 / 2
  | EvAmp x => if flt x zero then 0 else if flt one x then 1 else B2R x
  | _ => a
  end.
Definition amp_of (ops : list ev_op) : R := fold_left amp_set ops (1 / 2).
(** A state some history of sane calls after [init] leads to, and the two samples its next tick gives. *)
Definition ev_after (L : libm) (sr : f32) (ops : list ev_op) : voice := fst (ev_run L (ev_init L sr) ops).
Definition ev_next (L : libm) (v : voice) : f32 * f32 := snd (ev_tick L v).

(** Calls that do not start a note. *)
Definition ev_quiet (o : ev_op) : Prop := match o with EvTrigger | EvGate true => False | _ => True end.
(** The samples of a run. *)
Definition ev_samples (L : libm) (v : voice) (ops : list ev_op) : list (f32 * f32) :=
  flat_map (fun x => match x with Some y => [y] | None => [] end) (snd (ev_run L v ops)).
Definition silent (y : f32 * f32) : Prop := (fin (fst y) /\ B2R (fst y) = 0) /\ (fin (snd y) /\ B2R (snd y) = 0).

(** The frequency the oscillator of a voice runs at (public members [oscillator.frequency]). *)
Definition pitch (v : voice) : f32 := so_freq (ev_osc v).
(** Calls that leave the vibrato depth and the note alone. *)
Definition keeps_pitch (o : ev_op) : Prop := match o with EvInit _ | EvFreq _ | EvDepth _ => False | _ => True end.
(** Calls that leave the vibrato rate alone and never switch the vibrato off. *)
Definition keeps_vibrato (o : ev_op) : Prop := match o with EvInit _ | EvRate _ => False | EvDepth d => flt zero d = true | _ => True end.
(** The calls that make settings, and the calls that play. *)
Definition setting (o : ev_op) : Prop :=
  match o with EvFreq _ | EvAttack _ | EvRelTime _ | EvDepth _ | EvRate _ | EvAmp _ | EvPan _ => True | _ => False end.
Definition playing (o : ev_op) : Prop :=
  match o with EvTrigger | EvRelease | EvGate _ | EvTick | EvReset => True | _ => False end.
(** The modulator interpolates between points [n+1] to [n+4] of the random sequence of seed [k]. *)
Definition at_points (k : Z) (n : nat) (s : lfn) : Prop :=
  [ln_p0 s; ln_p1 s; ln_p2 s; ln_p3 s] = map (fun j => lcg_out (draws (j + n) k)) [1; 2; 3; 4]%nat /\ ln_seed s = draws (4 + n) k.
(** [std::sin] of an infinity or NaN is NaN. *)
Definition sin_bad (L : libm) : Prop := forall x, is_finite x = false -> is_nan (m_sin L x) = true.
Definition both_nan (y : f32 * f32) : Prop := is_nan (fst y) = true /\ is_nan (snd y) = true.
Definition no_restart (o : ev_op) : Prop := match o with EvInit _ | EvReset => False | _ => True end.
(** Calls that do not switch the vibrato off. *)
Definition no_depth_off (o : ev_op) : Prop := match o with EvDepth d => flt zero d = true | _ => True end.
