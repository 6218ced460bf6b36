(** Model of ugens/RKSimulationMoogLadder.h. *)
From Coq Require Import ZArith Bool List.
From Flocq Require Import BinarySingleNaN.
From Verif Require Import Flt Libm UtilModel MgModel.
Import ListNotations.
Local Open Scope flt_scope.

(** Four doubles: [state], [deriv1] ... [deriv4], [tempState]. *)
Record quad := Quad { q_0 : f64; q_1 : f64; q_2 : f64; q_3 : f64 }.
Definition q_map2 (f : f64 -> f64 -> f64) (a b : quad) : quad := Quad (f (q_0 a) (q_0 b)) (f (q_1 a) (q_1 b)) (f (q_2 a) (q_2 b)) (f (q_3 a) (q_3 b)).
(** RKSimulationMoogLadder.h:69-82, 178-183 data members; [saturation] is 3.0 and [saturationInv] 1.0/3.0 from [init] on. *)
Record rk := Rk { rk_sr : f32; rk_cut : f32; rk_res : f32; rk_drive : f64; rk_makeup : f64; rk_state : quad; rk_coeff : f64; rk_over : Z; rk_step : f64 }.
(** RKSimulationMoogLadder.h:99, 143: [int * float] is computed in float. *)
Definition rk_stepsize (sr : f32) (n : Z) : f64 := dz 1 / f2d (fofZ n * sr).
(** RKSimulationMoogLadder.h:109-119 [setCutoff]. *)
Definition rk_setCutoff (s : rk) (c : f32) : rk :=
  Rk (rk_sr s) c (rk_res s) (rk_drive s) (makeup (rk_sr s) c) (rk_state s) (dz 2 * dPI * f2d c) (rk_over s) (rk_step s).
(** RKSimulationMoogLadder.h:125-127 [setResonance]. *)
Definition rk_setResonance (s : rk) (r : f32) : rk :=
  Rk (rk_sr s) (rk_cut s) (unit_clamp r) (rk_drive s) (rk_makeup s) (rk_state s) (rk_coeff s) (rk_over s) (rk_step s).
(** RKSimulationMoogLadder.h:133-135 [setDrive]. *)
Definition rk_setDrive (s : rk) (d : f32) : rk :=
  Rk (rk_sr s) (rk_cut s) (rk_res s) (if d <? fzero then fzero else f2d d) (rk_makeup s) (rk_state s) (rk_coeff s) (rk_over s) (rk_step s).
(** RKSimulationMoogLadder.h:141-144 [setOversampleFactor]; [n] is an [int]. *)
Definition rk_setOversample (s : rk) (n : Z) : rk :=
  let n := if (n <? 1)%Z then 1%Z else n in
  Rk (rk_sr s) (rk_cut s) (rk_res s) (rk_drive s) (rk_makeup s) (rk_state s) (rk_coeff s) n (rk_stepsize (rk_sr s) n).
Definition rk_zero : quad := Quad fzero fzero fzero fzero.
(** RKSimulationMoogLadder.h:88-103 [init]. *)
Definition rk_init (sr : f32) : rk :=
  rk_setResonance (rk_setCutoff (Rk sr fzero fzero (dz 1) (dz 1) rk_zero fzero 1 (rk_stepsize sr 1)) (fofZ 1000)) (fdec 1 10).
(** RKSimulationMoogLadder.h:185-190 [clip]. *)
Definition rk_third : f64 := dz 1 / dz 3.
Definition rk_clip (x : f64) : f64 :=
  let v := x * rk_third in
  let v2 := if v >? dz 1 then dz 1 else if v <? - dz 1 then - dz 1 else v in
  dz 3 * (v2 - rk_third * v2 * v2 * v2).
(** RKSimulationMoogLadder.h:192-203 [calculateDerivatives]. *)
Definition rk_deriv (s : rk) (input : f64) (q : quad) : quad :=
  let r := f2d (rk_res s) * dz 10 in
  let c := rk_coeff s in
  let t0 := rk_clip (q_0 q) in
  let t1 := rk_clip (q_1 q) in
  let t2 := rk_clip (q_2 q) in
  Quad (c * (rk_clip (input * rk_drive s - r * q_3 q) - t0)) (c * (t0 - t1)) (c * (t1 - t2)) (c * (t2 - rk_clip (q_3 q))).
(** RKSimulationMoogLadder.h:205-227 [rungekutteSolver]. *)
Definition rk_solve (s : rk) (input : f64) (q : quad) : quad :=
  let h := rk_step s in
  let k1 := rk_deriv s input q in
  let k2 := rk_deriv s input (q_map2 (fun x d => x + ddec 1 2 * h * d) q k1) in
  let k3 := rk_deriv s input (q_map2 (fun x d => x + ddec 1 2 * h * d) q k2) in
  let k4 := rk_deriv s input (q_map2 (fun x d => x + h * d) q k3) in
  let sum := q_map2 fadd (q_map2 fadd (q_map2 fadd k1 (q_map2 (fun _ d => dz 2 * d) k2 k2)) (q_map2 (fun _ d => dz 2 * d) k3 k3)) k4 in
  q_map2 (fun x d => x + dz 1 / dz 6 * h * d) q sum.
(** RKSimulationMoogLadder.h:151-157 [tick]. *)
Definition rk_tick (s : rk) (input : f32) : rk * f32 :=
  let q := Nat.iter (Z.to_nat (rk_over s)) (rk_solve s (f2d input)) (rk_state s) in
  (Rk (rk_sr s) (rk_cut s) (rk_res s) (rk_drive s) (rk_makeup s) q (rk_coeff s) (rk_over s) (rk_step s), d2f (q_3 q * rk_makeup s)).
(** RKSimulationMoogLadder.h:173-175 [reset]. *)
Definition rk_reset (s : rk) : rk := Rk (rk_sr s) (rk_cut s) (rk_res s) (rk_drive s) (rk_makeup s) rk_zero (rk_coeff s) (rk_over s) (rk_step s).

(** Calls after [init]; a tick yields its output. *)
Inductive rk_op := RkCut (c : f32) | RkRes (r : f32) | RkDrive (d : f32) | RkOver (n : Z) | RkTick (x : f32) | RkReset.
Definition rk_call (s : rk) (o : rk_op) : rk * option f32 :=
  match o with
  | RkCut c => (rk_setCutoff s c, None)
  | RkRes r => (rk_setResonance s r, None)
  | RkDrive d => (rk_setDrive s d, None)
  | RkOver n => (rk_setOversample s n, None)
  | RkTick x => let (s', y) := rk_tick s x in (s', Some y)
  | RkReset => (rk_reset s, None)
  end.
