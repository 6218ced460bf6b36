(** Model of ugens/MusicDSPMoogLadder.h. *)
From Coq Require Import ZArith Bool List.
From Flocq Require Import BinarySingleNaN.
From Verif Require Import Flt Libm UtilModel MgModel.
Import ListNotations.
Local Open Scope flt_scope.

(** MusicDSPMoogLadder.h:42-49, 138-144 data members. *)
Record md := Md { md_sr : f32; md_cut : f32; md_res : f32; md_p : f64; md_k : f64; md_t1 : f64; md_t2 : f64; md_rc : f64;
  md_s0 : f64; md_s1 : f64; md_s2 : f64; md_s3 : f64; md_y0 : f64; md_y1 : f64; md_y2 : f64; md_y3 : f64 }.
(** MusicDSPMoogLadder.h:74. *)
Definition md_fc (sr cut : f32) : f64 := dz 2 * f2d cut / f2d sr.
(** MusicDSPMoogLadder.h:88-91 [setResonance]. *)
Definition md_setResonance (s : md) (r : f32) : md :=
  let res := unit_clamp r in
  Md (md_sr s) (md_cut s) res (md_p s) (md_k s) (md_t1 s) (md_t2 s) (f2d res * (md_t2 s + dz 6 * md_t1 s) / (md_t2 s - dz 6 * md_t1 s))
     (md_s0 s) (md_s1 s) (md_s2 s) (md_s3 s) (md_y0 s) (md_y1 s) (md_y2 s) (md_y3 s).
(** MusicDSPMoogLadder.h:72-82 [setCutoff]. *)
Definition md_setCutoff (L : libm) (s : md) (c : f32) : md :=
  let fc := md_fc (md_sr s) c in
  let p := fc * (ddec 18 10 - ddec 8 10 * fc) in
  let k := dz 2 * d_sin L (fc * dPI * ddec 1 2) - dz 1 in
  let t1 := (dz 1 - p) * ddec 1386249 1000000 in
  let t2 := dz 12 + t1 * t1 in
  md_setResonance (Md (md_sr s) c (md_res s) p k t1 t2 (md_rc s) (md_s0 s) (md_s1 s) (md_s2 s) (md_s3 s) (md_y0 s) (md_y1 s) (md_y2 s) (md_y3 s)) (md_res s).
(** MusicDSPMoogLadder.h:55-66 [init]; line 64 reads the member [resonance] before anything is stored in it, [r0] is the value it happens to hold. *)
Definition md_init (L : libm) (r0 sr : f32) : md :=
  md_setResonance (md_setCutoff L (Md sr fzero r0 fzero fzero fzero fzero fzero fzero fzero fzero fzero fzero fzero fzero fzero) (fofZ 1000)) (fdec 1 10).
(** MusicDSPMoogLadder.h:98-116 [tick]. *)
Definition md_tick (s : md) (input : f32) : md * f32 :=
  let p := md_p s in
  let k := md_k s in
  let x := f2d input - md_rc s * md_s3 s in
  let s0 := x * p + md_y0 s * p - k * md_s0 s in
  let s1 := s0 * p + md_y1 s * p - k * md_s1 s in
  let s2 := s1 * p + md_y2 s * p - k * md_s2 s in
  let s3 := s2 * p + md_y3 s * p - k * md_s3 s in
  let s3 := s3 - s3 * s3 * s3 / dz 6 in
  (Md (md_sr s) (md_cut s) (md_res s) p k (md_t1 s) (md_t2 s) (md_rc s) s0 s1 s2 s3 x s0 s1 s2, d2f s3).
(** MusicDSPMoogLadder.h:132-135 [reset]. *)
Definition md_reset (s : md) : md :=
  Md (md_sr s) (md_cut s) (md_res s) (md_p s) (md_k s) (md_t1 s) (md_t2 s) (md_rc s) fzero fzero fzero fzero fzero fzero fzero fzero.

(** Calls after [init]; a tick yields its output. *)
Inductive md_op := MdCut (c : f32) | MdRes (r : f32) | MdTick (x : f32) | MdReset.
Definition md_call (L : libm) (s : md) (o : md_op) : md * option f32 :=
  match o with
  | MdCut c => (md_setCutoff L s c, None)
  | MdRes r => (md_setResonance s r, None)
  | MdTick x => let (s', y) := md_tick s x in (s', Some y)
  | MdReset => (md_reset s, None)
  end.
