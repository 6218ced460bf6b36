(** Model of ugens/SinOsc.h, ugens/LFTri.h, ugens/SawDPW.h and ugens/LFNoise2.h.
    Members are uninitialised before [init]; the model starts with [init]. *)
From Coq Require Import ZArith Bool List.
From Verif Require Import Flt Libm UtilModel.
Import ListNotations.
Local Open Scope flt_scope.

(** ** SinOsc.h *)
(** SinOsc.h:40-49 data members. *)
Record sinosc := SinOsc { so_phase : f32; so_inc : f32; so_freq : f32; so_sr : f32 }.
(** SinOsc.h:78-80 [updatePhaseIncrement]. *)
Definition so_step (freq sr : f32) : f32 := (TWO_PI * freq) / sr.
(** SinOsc.h:55-60 [init]. *)
Definition so_init (sr : f32) : sinosc := SinOsc zero (so_step (fofZ 440) sr) (fofZ 440) sr.
(** SinOsc.h:66-69 [setFrequency]. *)
Definition so_setFrequency (s : sinosc) (f : f32) : sinosc := SinOsc (so_phase s) (so_step f (so_sr s)) f (so_sr s).
(** SinOsc.h:86-96 [tick]. *)
Definition so_tick (L : libm) (s : sinosc) : sinosc * f32 :=
  let out := m_sin L (so_phase s) in
  let p := so_phase s + so_inc s in
  let p := if p >=? TWO_PI then p - TWO_PI else p in
  (SinOsc p (so_inc s) (so_freq s) (so_sr s), out).
(** SinOsc.h:124-126 [reset]. *)
Definition so_reset (s : sinosc) (p : f32) : sinosc := SinOsc p (so_inc s) (so_freq s) (so_sr s).

(** ** LFTri.h *)
(** LFTri.h:44-54 data members. *)
Record lftri := LFTri { lt_phase : f32; lt_inc : f32; lt_freq : f32; lt_sr : f32 }.
(** LFTri.h:66-81 [init]. *)
Definition lt_init (sr iphase : f32) : lftri :=
  let p := iphase * flit 1 (-2) in
  LFTri (p - ffloor p) (fofZ 440 / sr) (fofZ 440) sr.
(** LFTri.h:87-90 [setFrequency], 97-99 [updatePhaseIncrement]. *)
Definition lt_setFrequency (s : lftri) (f : f32) : lftri := LFTri (lt_phase s) (f / lt_sr s) f (lt_sr s).
(** LFTri.h:105-125 [tick]. *)
Definition lt_tick (s : lftri) : lftri * f32 :=
  let out := if lt_phase s <? half then fofZ 4 * lt_phase s - one else fofZ 3 - fofZ 4 * lt_phase s in
  let p := lt_phase s + lt_inc s in
  let p := if p >=? one then p - one else p in
  (LFTri p (lt_inc s) (lt_freq s) (lt_sr s), out).
(** LFTri.h:152-154 [reset]. *)
Definition lt_reset (s : lftri) (p : f32) : lftri := LFTri p (lt_inc s) (lt_freq s) (lt_sr s).

(** ** SawDPW.h *)
(** SawDPW.h:47-64 data members. *)
Record saw := Saw { sw_phase : f32; sw_inc : f32; sw_prev : f32; sw_freq : f32; sw_sr : f32; sw_scale : f32 }.
(** SawDPW.h:71-85 [init]. *)
Definition sw_init (sr iphase : f32) : saw :=
  let p := (iphase + one) * half in
  let p := if p <? zero then zero else p in
  let p := if p >? one then one else p in
  Saw p (fofZ 440 / sr) zero (fofZ 440) sr (sr * half).
(** SawDPW.h:91-94 [setFrequency]. *)
Definition sw_setFrequency (s : saw) (f : f32) : saw :=
  Saw (sw_phase s) (f / sw_sr s) (sw_prev s) f (sw_sr s) (sw_scale s).
(** SawDPW.h:100-121 [tick]. *)
Definition sw_tick (s : saw) : saw * f32 :=
  let w := sw_phase s * two - one in
  let parabolic := w * w in
  let diff := parabolic - sw_prev s in
  let p := sw_phase s + sw_inc s in
  let p := if p >=? one then p - one else p in
  let scale := sw_scale s / sw_freq s in
  (Saw p (sw_inc s) parabolic (sw_freq s) (sw_sr s) (sw_scale s), diff * scale).
(** SawDPW.h:137-140 [reset]. *)
Definition sw_reset (s : saw) : saw := Saw zero (sw_inc s) zero (sw_freq s) (sw_sr s) (sw_scale s).

(** ** LFNoise2.h *)
(** types.h:33 [LCG_NORM]. *)
Definition LCG_NORM : f32 := fofZ 2147483648.
(** LFNoise2.h:101-103: [uint32_t] arithmetic. *)
Definition lcg (seed : Z) : Z := (seed * 1664525 + 1013904223) mod 2 ^ 32.
(** LFNoise2.h:105: [static_cast<Sample>(seed) / LCG_NORM - 1.0f]. *)
Definition lcg_out (seed : Z) : f32 := fofZ seed / LCG_NORM - one.
(** LFNoise2.h:42-59 data members. *)
Record lfn := LFN { ln_p0 : f32; ln_p1 : f32; ln_p2 : f32; ln_p3 : f32;
                    ln_phase : f32; ln_inc : f32; ln_freq : f32; ln_sr : f32; ln_seed : Z }.
(** LFNoise2.h:65-76 [init] and 169-176 [reset]: the four control points are
    successive outputs of the generator. *)
Definition ln_fill (phase inc freq sr : f32) (seed : Z) : lfn :=
  let s1 := lcg seed in let s2 := lcg s1 in let s3 := lcg s2 in let s4 := lcg s3 in
  LFN (lcg_out s1) (lcg_out s2) (lcg_out s3) (lcg_out s4) phase inc freq sr s4.
Definition ln_init (sr : f32) (seed : Z) : lfn := ln_fill zero (one / sr) one sr seed.
Definition ln_reset (s : lfn) (seed : Z) : lfn := ln_fill zero (ln_inc s) (ln_freq s) (ln_sr s) seed.
(** LFNoise2.h:82-85 [setFrequency], 90-92 [updatePhaseIncrement]. *)
Definition ln_setFrequency (s : lfn) (f : f32) : lfn :=
  let f := if f >? zero then f else fdec 1 1000 in
  LFN (ln_p0 s) (ln_p1 s) (ln_p2 s) (ln_p3 s) (ln_phase s) (f / ln_sr s) f (ln_sr s) (ln_seed s).
(** LFNoise2.h:112-114 [setSeed]. *)
Definition ln_setSeed (s : lfn) (seed : Z) : lfn :=
  LFN (ln_p0 s) (ln_p1 s) (ln_p2 s) (ln_p3 s) (ln_phase s) (ln_inc s) (ln_freq s) (ln_sr s) seed.
(** LFNoise2.h:101-106 [nextRandom] (a public member). *)
Definition ln_nextRandom (s : lfn) : lfn * f32 :=
  let seed := lcg (ln_seed s) in (ln_setSeed s seed, lcg_out seed).
(** LFNoise2.h:124-136: Catmull-Rom interpolation. *)
Definition catmull (t p0 p1 p2 p3 : f32) : f32 :=
  let t2 := t * t in
  let t3 := t2 * t in
  let c0 := fneg half * t3 + t2 - half * t in
  let c1 := fdec 3 2 * t3 - fdec 5 2 * t2 + one in
  let c2 := fneg (fdec 3 2) * t3 + two * t2 + half * t in
  let c3 := half * t3 - half * t2 in
  c0 * p0 + c1 * p1 + c2 * p2 + c3 * p3.
(** LFNoise2.h:123-152 [tick]. *)
Definition ln_tick (s : lfn) : lfn * f32 :=
  let out := catmull (ln_phase s) (ln_p0 s) (ln_p1 s) (ln_p2 s) (ln_p3 s) in
  let p := ln_phase s + ln_inc s in
  let s' := if p >=? one
    then let seed := lcg (ln_seed s) in
         LFN (ln_p1 s) (ln_p2 s) (ln_p3 s) (lcg_out seed) (p - one) (ln_inc s) (ln_freq s) (ln_sr s) seed
    else LFN (ln_p0 s) (ln_p1 s) (ln_p2 s) (ln_p3 s) p (ln_inc s) (ln_freq s) (ln_sr s) (ln_seed s) in
  (s', clamp out (fneg one) one).
