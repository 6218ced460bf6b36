(** Model of ugens/OberheimMoogLadder.h. *)
From Coq Require Import ZArith Bool List.
From Flocq Require Import BinarySingleNaN.
From Verif Require Import Flt Libm UtilModel MgModel.
Import ListNotations.
Local Open Scope flt_scope.

(** OberheimMoogLadder.h:41-47, 186-203 data members.  The four poles always share [alpha]; [gamma], [delta], [epsilon], [a0], [feedback] of a pole,
    [saturation] and [oberheimCoefs] hold the values of [init] (1, 0, 0, 1, 0; 1; 0, 0, 0, 0, 1) whatever is called. *)
Record ob_pole := ObPole { ob_beta : f64; ob_z : f64 }.
Record ob := Ob { ob_sr : f32; ob_cut : f32; ob_res : f32; ob_alpha : f64; ob_0 : ob_pole; ob_1 : ob_pole; ob_2 : ob_pole; ob_3 : ob_pole; ob_K : f64; ob_gamma : f64; ob_alpha0 : f64 }.
(** OberheimMoogLadder.h:90-93: the prewarped frequency. *)
Definition ob_g (L : libm) (sr cut : f32) : f64 :=
  let wd := dz 2 * dPI * f2d cut in
  let T := dz 1 / f2d sr in
  let wa := dz 2 / T * d_tan L (wd * T / dz 2) in
  wa * T / dz 2.
(** OberheimMoogLadder.h:86-116 [setCutoff]. *)
Definition ob_setCutoff (L : libm) (s : ob) (c : f32) : ob :=
  let g := ob_g L (ob_sr s) c in
  let G := g / (dz 1 + g) in
  let gamma := G * G * G * G in
  Ob (ob_sr s) c (ob_res s) G
    (ObPole (G * G * G / (dz 1 + g)) (ob_z (ob_0 s))) (ObPole (G * G / (dz 1 + g)) (ob_z (ob_1 s)))
    (ObPole (G / (dz 1 + g)) (ob_z (ob_2 s))) (ObPole (dz 1 / (dz 1 + g)) (ob_z (ob_3 s)))
    (ob_K s) gamma (dz 1 / (dz 1 + ob_K s * gamma)).
(** OberheimMoogLadder.h:122-127 [setResonance]. *)
Definition ob_setResonance (s : ob) (r : f32) : ob :=
  let res := unit_clamp r in
  let K := dz 4 * f2d res in
  Ob (ob_sr s) (ob_cut s) res (ob_alpha s) (ob_0 s) (ob_1 s) (ob_2 s) (ob_3 s) K (ob_gamma s) (dz 1 / (dz 1 + K * ob_gamma s)).
(** OberheimMoogLadder.h:53-80 [init]. *)
Definition ob_init (L : libm) (sr : f32) : ob :=
  let o := ObPole fzero fzero in ob_setResonance (ob_setCutoff L (Ob sr fzero fzero (dz 1) o o o o fzero fzero (dz 1)) (fofZ 1000)) (fdec 1 10).
(** OberheimMoogLadder.h:205-207 [getFeedbackOutput]. *)
Definition ob_feedback (q : ob_pole) : f64 := ob_beta q * (ob_z q + fzero * fzero).
(** OberheimMoogLadder.h:209-215 [tickOnePole]. *)
Definition ob_stage (alpha : f64) (q : ob_pole) (s : f64) : ob_pole * f64 :=
  let s := s * dz 1 + fzero + fzero * ob_feedback q in
  let vn := (dz 1 * s - ob_z q) * alpha in
  let out := vn + ob_z q in
  (ObPole (ob_beta q) (vn + out), out).
(** OberheimMoogLadder.h:134-162 [tick]. *)
Definition ob_tick (L : libm) (s : ob) (input : f32) : ob * f32 :=
  let sigma := ob_feedback (ob_0 s) + ob_feedback (ob_1 s) + ob_feedback (ob_2 s) + ob_feedback (ob_3 s) in
  let x := f2d input * (dz 1 + ob_K s) in
  let u := (x - ob_K s * sigma) * ob_alpha0 s in
  let u := d_tanh L (dz 1 * u) in
  let (q0, o0) := ob_stage (ob_alpha s) (ob_0 s) u in
  let (q1, o1) := ob_stage (ob_alpha s) (ob_1 s) o0 in
  let (q2, o2) := ob_stage (ob_alpha s) (ob_2 s) o1 in
  let (q3, o3) := ob_stage (ob_alpha s) (ob_3 s) o2 in
  let out := fzero * u + fzero * o0 + fzero * o1 + fzero * o2 + dz 1 * o3 in
  (Ob (ob_sr s) (ob_cut s) (ob_res s) (ob_alpha s) q0 q1 q2 q3 (ob_K s) (ob_gamma s) (ob_alpha0 s), d2f out).
(** OberheimMoogLadder.h:178-183 [reset]. *)
Definition ob_wipe (q : ob_pole) : ob_pole := ObPole (ob_beta q) fzero.
Definition ob_reset (s : ob) : ob :=
  Ob (ob_sr s) (ob_cut s) (ob_res s) (ob_alpha s) (ob_wipe (ob_0 s)) (ob_wipe (ob_1 s)) (ob_wipe (ob_2 s)) (ob_wipe (ob_3 s)) (ob_K s) (ob_gamma s) (ob_alpha0 s).

(** Calls after [init]; a tick yields its output. *)
Inductive ob_op := ObCut (c : f32) | ObRes (r : f32) | ObTick (x : f32) | ObReset.
Definition ob_call (L : libm) (s : ob) (o : ob_op) : ob * option f32 :=
  match o with
  | ObCut c => (ob_setCutoff L s c, None)
  | ObRes r => (ob_setResonance s r, None)
  | ObTick x => let (s', y) := ob_tick L s x in (s', Some y)
  | ObReset => (ob_reset s, None)
  end.
