(** Model of ugens/MicrotrackerMoogLadder.h. *)
From Coq Require Import ZArith Bool List.
From Flocq Require Import BinarySingleNaN.
From Verif Require Import Flt Libm UtilModel MgModel.
Import ListNotations.
Local Open Scope flt_scope.

(** MicrotrackerMoogLadder.h:39-46, 122-129 data members. *)
Record mt := Mt { mt_sr : f32; mt_cut : f32; mt_res : f32; mt_p0 : f64; mt_p1 : f64; mt_p2 : f64; mt_p3 : f64; mt_p32 : f64; mt_p33 : f64; mt_p34 : f64; mt_c : f64 }.
(** MicrotrackerMoogLadder.h:66-67. *)
Definition mt_coeff (sr cut : f32) : f64 := let c := f2d cut * dz 2 * dPI / f2d sr in if c >? dz 1 then dz 1 else c.
(** MicrotrackerMoogLadder.h:64-68 [setCutoff]. *)
Definition mt_setCutoff (s : mt) (c : f32) : mt :=
  Mt (mt_sr s) c (mt_res s) (mt_p0 s) (mt_p1 s) (mt_p2 s) (mt_p3 s) (mt_p32 s) (mt_p33 s) (mt_p34 s) (mt_coeff (mt_sr s) c).
(** MicrotrackerMoogLadder.h:74-76 [setResonance]. *)
Definition mt_setResonance (s : mt) (r : f32) : mt :=
  Mt (mt_sr s) (mt_cut s) (unit_clamp r) (mt_p0 s) (mt_p1 s) (mt_p2 s) (mt_p3 s) (mt_p32 s) (mt_p33 s) (mt_p34 s) (mt_c s).
(** MicrotrackerMoogLadder.h:52-58 [init]. *)
Definition mt_init (sr : f32) : mt :=
  mt_setResonance (mt_setCutoff (Mt sr fzero fzero fzero fzero fzero fzero fzero fzero fzero fzero) (fofZ 1000)) (fdec 1 10).
(** MicrotrackerMoogLadder.h:131-134 [fastTanh]. *)
Definition mt_tanh (x : f64) : f64 := let x2 := x * x in x * (dz 27 + x2) / (dz 27 + dz 9 * x2).
(** MicrotrackerMoogLadder.h:95-98 one pole. *)
Definition mt_stage (c x p : f64) : f64 := p + (mt_tanh x - mt_tanh p) * c.
(** MicrotrackerMoogLadder.h:89. *)
Definition mt_mix (s : mt) : f64 :=
  mt_p3 s * ddec 360891 1000000 + mt_p32 s * ddec 417290 1000000 + mt_p33 s * ddec 177896 1000000 + mt_p34 s * ddec 439725 10000000.
(** MicrotrackerMoogLadder.h:83-101 [tick]; [resonance * 4] is a float product. *)
Definition mt_tick (s : mt) (input : f32) : mt * f32 :=
  let k := f2d (mt_res s * fofZ 4) in
  let out := mt_mix s in
  let p0 := mt_stage (mt_c s) (f2d input - k * out) (mt_p0 s) in
  let p1 := mt_stage (mt_c s) p0 (mt_p1 s) in
  let p2 := mt_stage (mt_c s) p1 (mt_p2 s) in
  let p3 := mt_stage (mt_c s) p2 (mt_p3 s) in
  (Mt (mt_sr s) (mt_cut s) (mt_res s) p0 p1 p2 p3 (mt_p3 s) (mt_p32 s) (mt_p33 s) (mt_c s), d2f out).
(** MicrotrackerMoogLadder.h:117-119 [reset]. *)
Definition mt_reset (s : mt) : mt := Mt (mt_sr s) (mt_cut s) (mt_res s) fzero fzero fzero fzero fzero fzero fzero (mt_c s).

(** Calls after [init]; a tick yields its output. *)
Inductive mt_op := MtCut (c : f32) | MtRes (r : f32) | MtTick (x : f32) | MtReset.
Definition mt_call (s : mt) (o : mt_op) : mt * option f32 :=
  match o with
  | MtCut c => (mt_setCutoff s c, None)
  | MtRes r => (mt_setResonance s r, None)
  | MtTick x => let (s', y) := mt_tick s x in (s', Some y)
  | MtReset => (mt_reset s, None)
  end.
