(** What CombC is specified against. *)
From Coq Require Import ZArith Reals Bool List.
From Flocq Require Import Core BinarySingleNaN.
From Verif Require Import Flt FltFacts Libm Res UtilModel OscSpec CombModel.
Import ListNotations.
Local Open Scope R_scope.

(** Sample rates up to 2^20 and lines up to 2^24 samples. *)
Definition cb_cfg (sr mx : f32) : Prop :=
  fin sr /\ 1 <= B2R sr <= bpow radix2 20 /\ fin mx /\ 0 <= B2R mx /\ fin (fmul mx sr) /\ B2R (fmul mx sr) <= IZR (2 ^ 24 - 4).
(** No NaN delay times. *)
Definition cb_op_ok (o : cb_op) : Prop := match o with CbDelay d => is_nan d = false | _ => True end.
(** The signal in the comb, newest first: what a listener computes from inputs, outputs and the feedback coefficient.
    A tick with input [x] and output [y] appends [x + fb*y]; [reset] clears it. *)
Definition heard (fb : f32) (o : cb_op) (out : option f32) (hs : list f32) : list f32 :=
  match o, out with
  | CbTick x, Some y => fadd x (fmul fb y) :: hs
  | CbReset, _ => []
  | _, _ => hs
  end.
(** Running calls while listening. *)
Fixpoint listen (L : libm) (fuel : nat) (c : comb) (hs : list f32) (ops : list cb_op) : res (comb * list f32) :=
  match ops with
  | [] => Val (c, hs)
  | o :: ops => p <~ cb_call L fuel c o ;; listen L fuel (fst p) (heard (cb_fb c) o (snd p) hs) ops
  end.
(** The signal [a] samples ago (1 is the newest), silence before the start. *)
Definition ago (hs : list f32) (a : Z) : R := B2R (nth (Z.to_nat (a - 1)) hs zero).
(** The signal [d] samples ago for a real [d], by Catmull-Rom interpolation. *)
Definition ago_at (hs : list f32) (d : R) : R :=
  let a := Zceil d in spline (IZR a - d) (ago hs (a + 1)) (ago hs a) (ago hs (a - 1)) (ago hs (a - 2)).
(** Delay in samples. *)
Definition cb_delay (c : comb) : f32 := fmul (cb_dt c) (cb_sr c).
Definition quiet (j : Z) (hs : list f32) : Prop := Forall (fun h => fin h /\ Rabs (B2R h) <= bpow radix2 j) hs.
(** A whole session: [init], then calls. *)
Definition comb_run (L : libm) (fuel : nat) (sr mx : f32) (ops : list cb_op) : res (comb * list f32) :=
  c <~ cb_init L sr mx ;; listen L fuel c [] ops.
(** Delay and decay time after some calls: the last ones set, delay clamped to [0, mx]; 0.2 s and 1 s at first. *)
Definition cur_dt (mx : f32) (ops : list cb_op) : f32 :=
  fold_left (fun d o => match o with CbDelay d' => clamp d' zero mx | _ => d end) ops (fdec 2 10).
Definition cur_dc (ops : list cb_op) : f32 := fold_left (fun d o => match o with CbDecay d' => d' | _ => d end) ops one.
(** Delay in samples as the code computes it. *)
Definition cur_delay (sr mx : f32) (ops : list cb_op) : f32 := fmul (cur_dt mx ops) sr.
(** Length of the line in samples. *)
Definition line_len (sr mx : f32) : Z := (Zceil (B2R (fmul mx sr)) + 4)%Z.
