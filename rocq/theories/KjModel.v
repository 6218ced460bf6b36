(** Model of ugens/KrajeskiMoogLadder.h. *)
From Coq Require Import ZArith Bool List.
From Flocq Require Import BinarySingleNaN.
From Verif Require Import Flt Libm UtilModel MgModel.
Import ListNotations.
Local Open Scope flt_scope.

(** KrajeskiMoogLadder.h:44-50, 121-127 data members; [delay[4]] is never read, [gComp] and [drive] are 1.0 from [init] on. *)
Record kj := Kj { kj_sr : f32; kj_cut : f32; kj_res : f32;
  kj_s0 : f64; kj_s1 : f64; kj_s2 : f64; kj_s3 : f64; kj_s4 : f64; kj_y0 : f64; kj_y1 : f64; kj_y2 : f64; kj_y3 : f64;
  kj_wc : f64; kj_g : f64; kj_gRes : f64 }.
(** KrajeskiMoogLadder.h:77. *)
Definition kj_omega (sr cut : f32) : f64 := dz 2 * dPI * f2d cut / f2d sr.
(** KrajeskiMoogLadder.h:78; [std::pow] with an [int] exponent converts it to [double]. *)
Definition kj_gain (L : libm) (wc : f64) : f64 :=
  ddec 9892 10000 * wc - ddec 4342 10000 * d_pow L wc (dz 2) + ddec 1381 10000 * d_pow L wc (dz 3) - ddec 202 10000 * d_pow L wc (dz 4).
(** KrajeskiMoogLadder.h:87. *)
Definition kj_fb (L : libm) (res : f32) (wc : f64) : f64 :=
  f2d res * (ddec 10029 10000 + ddec 526 10000 * wc - ddec 926 1000 * d_pow L wc (dz 2) + ddec 218 10000 * d_pow L wc (dz 3)).
(** KrajeskiMoogLadder.h:75-79 [setCutoff]; [gRes] is not recomputed. *)
Definition kj_setCutoff (L : libm) (s : kj) (c : f32) : kj :=
  let wc := kj_omega (kj_sr s) c in
  Kj (kj_sr s) c (kj_res s) (kj_s0 s) (kj_s1 s) (kj_s2 s) (kj_s3 s) (kj_s4 s) (kj_y0 s) (kj_y1 s) (kj_y2 s) (kj_y3 s) wc (kj_gain L wc) (kj_gRes s).
(** KrajeskiMoogLadder.h:85-88 [setResonance]. *)
Definition kj_setResonance (L : libm) (s : kj) (r : f32) : kj :=
  let res := unit_clamp r in
  Kj (kj_sr s) (kj_cut s) res (kj_s0 s) (kj_s1 s) (kj_s2 s) (kj_s3 s) (kj_s4 s) (kj_y0 s) (kj_y1 s) (kj_y2 s) (kj_y3 s) (kj_wc s) (kj_g s) (kj_fb L res (kj_wc s)).
(** KrajeskiMoogLadder.h:56-69 [init]. *)
Definition kj_init (L : libm) (sr : f32) : kj :=
  kj_setResonance L (kj_setCutoff L (Kj sr fzero fzero fzero fzero fzero fzero fzero fzero fzero fzero fzero fzero fzero fzero) (fofZ 1000)) (fdec 1 10).
(** KrajeskiMoogLadder.h:129-131 [fclamp] with the bounds of line 99. *)
Definition kj_big : f64 := dz (10 ^ 30).
Definition kj_clamp (x : f64) : f64 := ffmin (ffmax x (fneg kj_big)) kj_big.
(** KrajeskiMoogLadder.h:99 one stage: [x] this stage's input, [xd] the previous one, [y] its memory. *)
Definition kj_stage (g x xd y : f64) : f64 := kj_clamp (g * (ddec 3 10 / ddec 13 10 * x + dz 1 / ddec 13 10 * xd - y) + y).
(** KrajeskiMoogLadder.h:95-105 [tick]. *)
Definition kj_tick (L : libm) (s : kj) (input : f32) : kj * f32 :=
  let x := f2d input in
  let s0 := d_tanh L (dz 1 * (x - dz 4 * kj_gRes s * (kj_s4 s - dz 1 * x))) in
  let s1 := kj_stage (kj_g s) s0 (kj_y0 s) (kj_s1 s) in
  let s2 := kj_stage (kj_g s) s1 (kj_y1 s) (kj_s2 s) in
  let s3 := kj_stage (kj_g s) s2 (kj_y2 s) (kj_s3 s) in
  let s4 := kj_stage (kj_g s) s3 (kj_y3 s) (kj_s4 s) in
  (Kj (kj_sr s) (kj_cut s) (kj_res s) s0 s1 s2 s3 s4 s0 s1 s2 s3 (kj_wc s) (kj_g s) (kj_gRes s), d2f s4).
(** KrajeskiMoogLadder.h:115-118 [reset]. *)
Definition kj_reset (s : kj) : kj :=
  Kj (kj_sr s) (kj_cut s) (kj_res s) fzero fzero fzero fzero fzero fzero fzero fzero fzero (kj_wc s) (kj_g s) (kj_gRes s).

(** Calls after [init]; a tick yields its output. *)
Inductive kj_op := KjCut (c : f32) | KjRes (r : f32) | KjTick (x : f32) | KjReset.
Definition kj_call (L : libm) (s : kj) (o : kj_op) : kj * option f32 :=
  match o with
  | KjCut c => (kj_setCutoff L s c, None)
  | KjRes r => (kj_setResonance L s r, None)
  | KjTick x => let (s', y) := kj_tick L s x in (s', Some y)
  | KjReset => (kj_reset s, None)
  end.
