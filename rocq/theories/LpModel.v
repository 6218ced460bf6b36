(** Model of ugens/RLPF.h.  State and coefficients are [double]; members are uninitialised before [init], the model starts with [init]. *)
From Coq Require Import ZArith Bool List.
From Flocq Require Import BinarySingleNaN.
From Verif Require Import Flt Libm UtilModel.
Import ListNotations.
Local Open Scope flt_scope.

(** RLPF.h:42-49, 124-130 data members. *)
Record lpc := Lpc { lp_b0 : f64; lp_b1 : f64; lp_b2 : f64; lp_a1 : f64; lp_a2 : f64 }.
Record rlpf := Rlpf { lp_sr : f32; lp_freq : f32; lp_res : f32; lp_z1 : f64; lp_z2 : f64; lp_c : lpc }.
(** [double] literals 1.0 and 2.0. *)
Definition d1 : f64 := fofZ 1.
Definition d2 : f64 := fofZ 2.
(** RLPF.h:139 angular frequency. *)
Definition lp_omega (sr freq : f32) : f64 := d2 * f2d PIf * f2d freq / f2d sr.
(** RLPF.h:137-162 [updateCoefficients]. *)
Definition lp_coeffs (L : libm) (sr freq res : f32) : lpc :=
  let omega := lp_omega sr freq in
  let sinOmega := d_sin L omega in
  let cosOmega := d_cos L omega in
  let alpha := sinOmega / (d2 * f2d res) in
  let b0 := (d1 - cosOmega) / d2 in
  let b1 := d1 - cosOmega in
  let b2 := (d1 - cosOmega) / d2 in
  let a0 := d1 + alpha in
  let a1 := - d2 * cosOmega in
  let a2 := d1 - alpha in
  Lpc (b0 / a0) (b1 / a0) (b2 / a0) (a1 / a0) (a2 / a0).
(** RLPF.h:55-62 [init]. *)
Definition lp_init (L : libm) (sr : f32) : rlpf :=
  let f := fofZ 440 in let r := fdec 707 1000 in Rlpf sr f r fzero fzero (lp_coeffs L sr f r).
(** RLPF.h:68-73 [setFreq]. *)
Definition lp_setFreq (L : libm) (s : rlpf) (f : f32) : rlpf :=
  let top := lp_sr s * half * fdec 99 100 in
  let f := if f <? one then one else if f >? top then top else f in
  Rlpf (lp_sr s) f (lp_res s) (lp_z1 s) (lp_z2 s) (lp_coeffs L (lp_sr s) f (lp_res s)).
(** RLPF.h:79-83 [setResonance]. *)
Definition lp_setResonance (L : libm) (s : rlpf) (r : f32) : rlpf :=
  let r := if r <? fdec 1 10 then fdec 1 10 else if r >? fofZ 30 then fofZ 30 else r in
  Rlpf (lp_sr s) (lp_freq s) r (lp_z1 s) (lp_z2 s) (lp_coeffs L (lp_sr s) (lp_freq s) r).
(** RLPF.h:90-97 [tick]. *)
Definition lp_tick (s : rlpf) (input : f32) : rlpf * f32 :=
  let k := lp_c s in
  let x := f2d input in
  let out := lp_b0 k * x + lp_z1 s in
  let z1 := lp_b1 k * x - lp_a1 k * out + lp_z2 s in
  let z2 := lp_b2 k * x - lp_a2 k * out in
  (Rlpf (lp_sr s) (lp_freq s) (lp_res s) z1 z2 k, d2f out).
(** RLPF.h:113-116 [reset]. *)
Definition lp_reset (s : rlpf) : rlpf := Rlpf (lp_sr s) (lp_freq s) (lp_res s) fzero fzero (lp_c s).

(** Calls after [init]; a tick yields its output. *)
Inductive lp_op := LpFreq (f : f32) | LpRes (r : f32) | LpTick (x : f32) | LpReset.
Definition lp_call (L : libm) (s : rlpf) (o : lp_op) : rlpf * option f32 :=
  match o with
  | LpFreq f => (lp_setFreq L s f, None)
  | LpRes r => (lp_setResonance L s r, None)
  | LpTick x => let (s', y) := lp_tick s x in (s', Some y)
  | LpReset => (lp_reset s, None)
  end.
