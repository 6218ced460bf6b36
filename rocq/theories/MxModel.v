(** Model of examples/moog_example.cpp.
    JACK and X11 are outside.  The process callback reads the two control values anew for every sample, so a pointer
    poll may fall between any two samples of a block: the model runs sample by sample.  Printing and shutting down are left out. *)
From Coq Require Import ZArith Bool List.
From Flocq Require Import BinarySingleNaN.
From Verif Require Import Flt Libm UtilModel MgModel OscModel SmoothModel ObModel.
Import ListNotations.
Local Open Scope flt_scope.

(** moog_example.cpp:30-41 the globals: three saws, the filter, two smoothers, two control values. *)
Record moog := Moog { mx_c : saw; mx_e : saw; mx_g : saw; mx_f : ob; mx_cl : lag; mx_rl : lag; mx_cut : f32; mx_res : f32 }.
(** moog_example.cpp:98-111 [jackSampleRateCallback]; the phase argument of [SawDPW::init] is its default 0. *)
Definition mx_saw (sr f : f32) : saw := sw_setFrequency (sw_init sr zero) f.
Definition mx_rate (L : libm) (s : moog) (sr : f32) : moog :=
  Moog (mx_saw sr (fdec 26163 100)) (mx_saw sr (fdec 32963 100)) (mx_saw sr (fofZ 392)) (ob_init L sr)
    (lg_init L sr (fdec 2 10)) (lg_init L sr (fdec 2 10)) (mx_cut s) (mx_res s).
(** moog_example.cpp:39-40, 168-190: start of the program. *)
Definition mx_start (L : libm) (sr : Z) : moog :=
  let sr := fofZ sr in
  let f := ob_setResonance (ob_setCutoff L (ob_init L sr) (fofZ 1000)) (fdec 3 10) in
  Moog (mx_saw sr (fdec 26163 100)) (mx_saw sr (fdec 32963 100)) (mx_saw sr (fofZ 392)) f
    (lg_setValue (lg_init L sr (fdec 2 10)) (fofZ 1000)) (lg_setValue (lg_init L sr (fdec 2 10)) (fdec 3 10)) (fofZ 1000) (fdec 3 10).
(** moog_example.cpp:69-90: one sample of [jackProcessCallback], the same for both channels. *)
Definition mx_tick (L : libm) (s : moog) : moog * f32 :=
  let (cl, c) := lg_tick (mx_cl s) (mx_cut s) in
  let (rl, r) := lg_tick (mx_rl s) (mx_res s) in
  let f := ob_setResonance (ob_setCutoff L (mx_f s) c) r in
  let (sc, xc) := sw_tick (mx_c s) in
  let (se, xe) := sw_tick (mx_e s) in
  let (sg, xg) := sw_tick (mx_g s) in
  let mixed := (xc + xe + xg) / fofZ 3 in
  let (f, y) := ob_tick L f mixed in
  (Moog sc se sg f cl rl (mx_cut s) (mx_res s), y * fdec 3 10).
(** [std::max(0.0f, std::min(1.0f, n))]. *)
Definition mx_norm (n : f32) : f32 := let n := if n <? one then n else one in if zero <? n then n else zero.
(** moog_example.cpp:235-242: pointer column to cutoff. *)
Definition mx_cutoff (L : libm) (x w : Z) : f32 :=
  let n := mx_norm (fofZ x / fofZ w) in
  let lo := m_log L (fofZ 100) in
  let hi := m_log L (fofZ 8000) in
  m_exp L (lo + n * (hi - lo)).
(** moog_example.cpp:245-248: pointer row to resonance. *)
Definition mx_resonance (y h : Z) : f32 :=
  let n := mx_norm (one - fofZ y / fofZ h) in
  zero + n * (fdec 99 100 - zero).
(** What happens to a running program: sample-rate callback, the two stores of a pointer poll, one sample of the process callback. *)
Inductive mx_call := XRate (sr : Z) | XCol (x w : Z) | XRow (y h : Z) | XTick.
Definition mx_op (L : libm) (s : moog) (o : mx_call) : moog * option f32 :=
  match o with
  | XRate sr => (mx_rate L s (fofZ sr), None)
  | XCol x w => (Moog (mx_c s) (mx_e s) (mx_g s) (mx_f s) (mx_cl s) (mx_rl s) (mx_cutoff L x w) (mx_res s), None)
  | XRow y h => (Moog (mx_c s) (mx_e s) (mx_g s) (mx_f s) (mx_cl s) (mx_rl s) (mx_cut s) (mx_resonance y h), None)
  | XTick => let (s', y) := mx_tick L s in (s', Some y)
  end.
