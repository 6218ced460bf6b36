(** What the SuperSaw theorems assume of the caller and of the math library. *)
From Coq Require Import ZArith Reals Bool List.
From Flocq Require Import Core BinarySingleNaN.
From Verif Require Import Flt FltFacts Libm UtilModel OscModel OscSpec EnvModel EnvSpec PanModel VcModel.
Import ListNotations.
Local Open Scope R_scope.

(** pow(2, .) between -1 and 1 is accurate to a relative 2^-22. *)
Definition pow2_acc (L : libm) : Prop := forall y, fin y -> Rabs (B2R y) <= 1 ->
  fin (m_pow L two y) /\ Rabs (B2R (m_pow L two y) - Rpower 2 (B2R y)) <= bpow radix2 (-22) * Rpower 2 (B2R y).

Definition saw_rate (sr : f32) : Prop := fin sr /\ 2000 <= B2R sr <= 1600000.
(** Sane calls: frequencies from sampleRate/4096 to sampleRate/5, vibrato up to 6 semitones, detune up to 12 semitones,
    vibrato rate up to half the sample rate; spread and sustain level not NaN; all times and gate values. *)
Definition ss_ok (sr : f32) (o : ss_op) : Prop :=
  match o with
  | SsInit r rnd => r = sr /\ forall k, unit_sample (rnd k)
  | SsFreq f => fin f /\ B2R sr / 4096 <= B2R f <= B2R sr / 5
  | SsRate r => fin r /\ 0 <= B2R r <= B2R sr / 2
  | SsDepth d => fin d /\ Rabs (B2R d) <= 6
  | SsDetune d => fin d /\ Rabs (B2R d) <= 12
  | SsSpread x | SsSustain x => is_nan x = false
  | _ => True
  end.
Definition ss_after (L : libm) (sr : f32) (rnd : Z -> f32) (ops : list ss_op) : ssaw := fst (ss_run L (ss_init L sr rnd) ops).
Definition ss_next (L : libm) (s : ssaw) : f32 * f32 := snd (ss_tick L s).
Definition ss_samples (L : libm) (s : ssaw) (ops : list ss_op) : list (f32 * f32) :=
  flat_map (fun x => match x with Some y => [y] | None => [] end) (snd (ss_run L s ops)).
(** Calls that do not start a note. *)
Definition ss_quiet (o : ss_op) : Prop := match o with SsGate g => flt zero g = false | _ => True end.
(** Calls that leave the pitch settings and the oscillators alone. *)
Definition ss_steady (o : ss_op) : Prop :=
  match o with SsInit _ _ | SsFreq _ | SsDepth _ | SsDetune _ | SsReset => False | _ => True end.
(** The settings in force: the last value given since [init], or the default. *)
Definition freq_set (x : f32) (o : ss_op) : f32 := match o with SsInit _ _ => fofZ 400 | SsFreq f => f | _ => x end.
Definition freq_of (ops : list ss_op) : f32 := fold_left freq_set ops (fofZ 400).
Definition depth_set (x : f32) (o : ss_op) : f32 := match o with SsInit _ _ => fdec 3 10 | SsDepth d => d | _ => x end.
Definition depth_of (ops : list ss_op) : f32 := fold_left depth_set ops (fdec 3 10).
Definition detune_set (x : f32) (o : ss_op) : f32 := match o with SsInit _ _ => fdec 2 10 | SsDetune d => d | _ => x end.
Definition detune_of (ops : list ss_op) : f32 := fold_left detune_set ops (fdec 2 10).
(** The frequency voice number [i] runs at. *)
Definition voice_freq (s : ssaw) (i : nat) : f32 := sw_freq (sv_saw (nth i (ss_voices s) (SVoice (sw_init one zero) (lt_init one zero) zero))).
(** Calls that keep a frequency setting in force. *)
Definition ss_holds (o : ss_op) : Prop := match o with SsInit _ _ | SsFreq _ | SsReset => False | _ => True end.
