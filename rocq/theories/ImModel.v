(** Model of ugens/ImprovedMoogLadder.h. *)
From Coq Require Import ZArith Bool List.
From Flocq Require Import BinarySingleNaN.
From Verif Require Import Flt Libm UtilModel MgModel.
Import ListNotations.
Local Open Scope flt_scope.

(** ImprovedMoogLadder.h:56-66, 181-187 data members, one [im_cell] for the elements of [V], [dV] and [tV] at an index. *)
Record im_cell := ImCell { im_V : f64; im_dV : f64; im_tV : f64 }.
Record im := Im { im_sr : f32; im_cut : f32; im_res : f32; im_makeup : f64; im_x : f64; im_g : f64; im_drive : f64; im_0 : im_cell; im_1 : im_cell; im_2 : im_cell; im_3 : im_cell }.
(** ImprovedMoogLadder.h:179 [VT]. *)
Definition im_VT : f64 := ddec 312 1000.
(** ImprovedMoogLadder.h:94-95: the cutoff kept; lines 94 and 97 compute in float. *)
Definition im_limit (sr c : f32) : f32 := clamp c fzero (sr / PIf * fdec 99 100).
Definition im_warp (sr cut : f32) : f64 := f2d (PIf * cut / sr).
(** ImprovedMoogLadder.h:98. *)
Definition im_gain (sr cut : f32) : f64 := let x := im_warp sr cut in dz 4 * dPI * im_VT * f2d cut * (dz 1 - x) / (dz 1 + x).
(** ImprovedMoogLadder.h:91-107 [setCutoff]. *)
Definition im_setCutoff (s : im) (c : f32) : im :=
  let cut := im_limit (im_sr s) c in
  Im (im_sr s) cut (im_res s) (makeup (im_sr s) cut) (im_warp (im_sr s) cut) (im_gain (im_sr s) cut) (im_drive s) (im_0 s) (im_1 s) (im_2 s) (im_3 s).
(** ImprovedMoogLadder.h:113-115 [setResonance]. *)
Definition im_setResonance (s : im) (r : f32) : im := Im (im_sr s) (im_cut s) (unit_clamp r) (im_makeup s) (im_x s) (im_g s) (im_drive s) (im_0 s) (im_1 s) (im_2 s) (im_3 s).
(** ImprovedMoogLadder.h:121-123 [setDrive]. *)
Definition im_setDrive (s : im) (d : f32) : im :=
  Im (im_sr s) (im_cut s) (im_res s) (im_makeup s) (im_x s) (im_g s) (if f2d d <? fzero then fzero else f2d d) (im_0 s) (im_1 s) (im_2 s) (im_3 s).
Definition im_zero : im_cell := ImCell fzero fzero fzero.
(** ImprovedMoogLadder.h:72-85 [init]. *)
Definition im_init (sr : f32) : im :=
  im_setResonance (im_setCutoff (Im sr fzero fzero (dz 1) fzero fzero (dz 1) im_zero im_zero im_zero im_zero) (fofZ 1000)) (fdec 1 10).
(** ImprovedMoogLadder.h:135-137 (140-142, 145-147, 150-152): one cell moves by the slope [d]. *)
Definition im_move (L : libm) (sr : f32) (c : im_cell) (d : f64) : im_cell :=
  let v := im_V c + (d + im_dV c) / (dz 2 * f2d sr) in ImCell v d (d_tanh L (v / (dz 2 * im_VT))).
(** ImprovedMoogLadder.h:130-155 [tick]. *)
Definition im_tick (L : libm) (s : im) (input : f32) : im * f32 :=
  let res := f2d (im_res s) * dz 4 in
  let g := im_g s in
  let c0 := im_move L (im_sr s) (im_0 s) (- g * (d_tanh L ((im_drive s * f2d input + res * im_V (im_3 s)) / (dz 2 * im_VT)) + im_tV (im_0 s))) in
  let c1 := im_move L (im_sr s) (im_1 s) (g * (im_tV c0 - im_tV (im_1 s))) in
  let c2 := im_move L (im_sr s) (im_2 s) (g * (im_tV c1 - im_tV (im_2 s))) in
  let c3 := im_move L (im_sr s) (im_3 s) (g * (im_tV c2 - im_tV (im_3 s))) in
  (Im (im_sr s) (im_cut s) (im_res s) (im_makeup s) (im_x s) g (im_drive s) c0 c1 c2 c3, d2f (im_V c3 * im_makeup s)).
(** ImprovedMoogLadder.h:171-175 [reset]. *)
Definition im_reset (s : im) : im := Im (im_sr s) (im_cut s) (im_res s) (im_makeup s) (im_x s) (im_g s) (im_drive s) im_zero im_zero im_zero im_zero.

(** Calls after [init]; a tick yields its output. *)
Inductive im_op := ImCut (c : f32) | ImRes (r : f32) | ImDrive (d : f32) | ImTick (x : f32) | ImReset.
Definition im_call (L : libm) (s : im) (o : im_op) : im * option f32 :=
  match o with
  | ImCut c => (im_setCutoff s c, None)
  | ImRes r => (im_setResonance s r, None)
  | ImDrive d => (im_setDrive s d, None)
  | ImTick x => let (s', y) := im_tick L s x in (s', Some y)
  | ImReset => (im_reset s, None)
  end.
