(** Words for the statements about the supersaw example. *)
From Coq Require Import ZArith Reals Bool List.
From Flocq Require Import Core BinarySingleNaN.
From Verif Require Import Flt FltFacts Libm UtilModel OscSpec EnvSpec FvModel FvSpec SxModel.
Import ListNotations.

(** Events whose rates are 45 Hz .. 2^24 Hz and whose blocks have 1 .. 8192 frames. *)
Definition sx_plain (o : sx_call) : Prop :=
  match o with SxRate sr => (45 <= sr <= 2 ^ 24)%Z | SxBlock fs => (1 <= Z.of_nat (length fs) <= 8192)%Z | SxStore _ => True end.
(** Fewer than 2^31 frames from one change of rate to the next, [n] of them already played. *)
Fixpoint sx_lasts (n : Z) (os : list sx_call) : Prop :=
  match os with
  | [] => True
  | SxRate _ :: t => sx_lasts 0 t
  | SxStore _ :: t => sx_lasts n t
  | SxBlock fs :: t => (n + Z.of_nat (length fs) < 2 ^ 31)%Z /\ sx_lasts (n + Z.of_nat (length fs)) t
  end.
(** Frames of each block. *)
Fixpoint sx_sizes (os : list sx_call) : list nat :=
  match os with [] => [] | SxBlock fs :: t => length fs :: sx_sizes t | _ :: t => sx_sizes t end.
(** The settings the program makes on the reverb after each [init]. *)
Definition room_set : list fvop :=
  [FvSet PREDELAY (fofZ 150); FvSet DECAY (fofZ 82); FvSet TAIL_DENSITY (fofZ 80); FvSet INPUT_DIFFUSION_1 (fofZ 70); FvSet INPUT_DIFFUSION_2 (fofZ 75); FvSet DAMPING (fofZ 5500)].
(** The calls the reverb gets when the blocks carry the dry frames [dry]. *)
Fixpoint room_calls (os : list sx_call) (dry : list (list (f32 * f32))) : list fvop :=
  match os, dry with
  | SxRate sr :: t, _ => FvInit (fofZ sr) :: room_set ++ room_calls t dry
  | SxStore _ :: t, _ => room_calls t dry
  | SxBlock _ :: t, d :: r => FvProc d :: room_calls t r
  | _, _ => []
  end.
(** 90 % dry and 10 % wet in [float] arithmetic: [dry * (1.0f - 0.1f) + wet * 0.1f]. *)
Definition ninety_ten (d w : f32) : f32 := fadd (fmul d (fsub one (fdec 1 10))) (fmul w (fdec 1 10)).
(** [ys] is the blend of [dry] and [wet], frame by frame and side by side. *)
Definition blended (dry wet ys : list (f32 * f32)) : Prop :=
  length ys = length dry /\ length wet = length dry /\
  forall i d w y, nth_error dry i = Some d -> nth_error wet i = Some w -> nth_error ys i = Some y -> y = (ninety_ten (fst d) (fst w), ninety_ten (snd d) (snd w)).

(** Sample rates at which the three notes and the highest cutoff are in range of their components. *)
Definition sx_hz (sr : Z) : Prop := (44100 <= sr <= 225280)%Z.
Definition sx_ok (o : sx_call) : Prop := match o with SxRate sr => sx_hz sr | _ => True end.
(** [std::pow(10000.0f, n)] for 0 <= n <= 1 to a relative 2^-22. *)
Definition pow1e4_acc (L : libm) : Prop := forall n, fin n -> (0 <= B2R n <= 1)%R ->
  fin (m_pow L (fofZ 10000) n) /\ (Rabs (B2R (m_pow L (fofZ 10000) n) - Rpower 10000 (B2R n)) <= bpow radix2 (-22) * Rpower 10000 (B2R n))%R.
(** What [std::uniform_real_distribution] hands out: numbers of [0,1]. *)
Definition draws (gen : Z -> Z -> f32) : Prop := forall k i, unit_sample (gen k i).
