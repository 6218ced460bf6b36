(** What the seven Moog ladder filters (ugens/*MoogLadder.h) share.  Their coefficients and memories are [double]. *)
From Coq Require Import ZArith Bool List.
From Flocq Require Import BinarySingleNaN.
From Verif Require Import Flt Libm UtilModel.
Import ListNotations.
Local Open Scope flt_scope.

(** The [double] literal n/d; n and d are exact, so this is the nearest double. *)
Definition ddec (n d : Z) : f64 := fdiv (fofZ n) (fofZ d).
(** [double] literals. *)
Definition dz (n : Z) : f64 := fofZ n.
(** types.h:27 [PI], a float, promoted to [double]. *)
Definition dPI : f64 := f2d PIf.
(** [r < 0.0f ? 0.0f : (r > 1.0f ? 1.0f : r)]: the first line of every ladder's [setResonance]. *)
Definition unit_clamp (r : f32) : f32 := if r <? fzero then fzero else if r >? one then one else r.
(** ImprovedMoogLadder.h:101-106 and RKSimulationMoogLadder.h:114-118: make-up gain. *)
Definition makeup (sr cut : f32) : f64 :=
  let nyquist := f2d sr * ddec 1 2 in
  let norm := if nyquist >? fzero then f2d cut / nyquist else fzero in
  let norm := if norm <? fzero then fzero else if norm >? dz 1 then dz 1 else norm in
  let m := dz 1 / (ddec 2 10 + norm) in
  if m >? dz 8 then dz 8 else m.
