(** Words for statements about histories of calls of FVerb. *)
From Coq Require Import ZArith Bool List Reals.
From Flocq Require Import BinarySingleNaN.
From Verif Require Import Flt FltFacts Libm UtilModel FvModel FvSpec.
Import ListNotations.

(** A zero of either sign. *)
Definition is_zero (x : f32) : Prop := exists s, x = B754_zero s.

(** Calls with arguments in the range of use: a rate of 45 Hz up to what fits an [int], settings that are numbers or infinities. *)
Definition op_good (o : fvop) : Prop :=
  match o with FvInit sr => fin sr /\ (45 <= B2R sr < 2147483648)%R | FvSet _ x => is_nan x = false | _ => True end.
(** Calls that only set parameters to numbers and process frames of the kind [X]. *)
Definition plays (X : f32 * f32 -> Prop) (o : fvop) : Prop :=
  match o with FvSet _ x => is_nan x = false | FvProc xs => Forall X xs | _ => False end.
(** [init] or [reset]. *)
Definition restarts (o : fvop) : Prop := match o with FvInit _ | FvReset => True | _ => False end.

(** The rate in force after a history, starting from [r]; [None]: not initialised. *)
Fixpoint rate_in_force (r : option f32) (h : list fvop) : option f32 :=
  match h with
  | [] => r
  | FvInit sr :: t => rate_in_force (match to_int sr with Some n => Some (rate n) | None => None end) t
  | _ :: t => rate_in_force r t
  end.
(** The last [init] of a history and the settings made since. *)
Fixpoint tuning (acc : list fvop) (h : list fvop) : list fvop :=
  match h with
  | [] => acc
  | FvInit sr :: t => tuning [FvInit sr] t
  | FvSet p x :: t => tuning (match acc with [] => [] | _ => acc ++ [FvSet p x] end) t
  | _ :: t => tuning acc t
  end.

(** What a history gives out; [None]: undefined behaviour on the way. *)
Definition outs (L : libm) (h : list fvop) (f : fverb) : option (list (f32 * f32)) :=
  match fv_run L h f with Some (_, ys) => Some ys | None => None end.
(** Frames a list of calls processes. *)
Definition frames_of (h : list fvop) : Z :=
  fold_right (fun o n => match o with FvProc xs => (Z.of_nat (length xs) + n)%Z | _ => n end) 0%Z h.

(** The settings. *)
Definition slider (p : fvparam) (s : fvsl) : f32 :=
  match p with
  | PREDELAY => s_pre s | INPUT_AMOUNT => s_amt s | INPUT_LOW_PASS_CUTOFF => s_lp s | INPUT_HIGH_PASS_CUTOFF => s_hp s
  | INPUT_DIFFUSION_1 => s_dif1 s | INPUT_DIFFUSION_2 => s_dif2 s | TAIL_DENSITY => s_dens s | DECAY => s_dec s
  | DAMPING => s_damp s | MODULATOR_FREQUENCY => s_mf s | MODULATOR_DEPTH => s_md s
  end.
(** The ranges documented at FVerb.h:62-128 (milliseconds, percent, Hz); 10737418/2^30 is the [float] 0.01f. *)
Definition range_lo (p : fvparam) : R :=
  match p with INPUT_LOW_PASS_CUTOFF | INPUT_HIGH_PASS_CUTOFF => 1 | DAMPING => 10 | MODULATOR_FREQUENCY => 10737418 / 1073741824 | _ => 0 end.
Definition range_hi (p : fvparam) : R :=
  match p with
  | PREDELAY => 300 | INPUT_LOW_PASS_CUTOFF | DAMPING => 20000 | INPUT_HIGH_PASS_CUTOFF => 1000 | MODULATOR_FREQUENCY => 4 | MODULATOR_DEPTH => 10
  | _ => 100
  end.
(** The value in the range nearest to [x]. *)
Definition held (p : fvparam) (x : f32) : R :=
  match x with
  | B754_infinity false => range_hi p
  | B754_infinity true => range_lo p
  | _ => Rmax (range_lo p) (Rmin (range_hi p) (B2R x))
  end.
(** What [init] leaves (FVerb.cpp:27-31 over the generated defaults). *)
Definition default (p : fvparam) : R :=
  match p with
  | PREDELAY => 150 | INPUT_AMOUNT => 100 | INPUT_LOW_PASS_CUTOFF => 10000 | INPUT_HIGH_PASS_CUTOFF => 100
  | INPUT_DIFFUSION_1 => 70 | INPUT_DIFFUSION_2 => 75 | TAIL_DENSITY => 80 | DECAY => 82 | DAMPING => 5500
  | MODULATOR_FREQUENCY => 1 | MODULATOR_DEPTH => 0.5
  end.
Definition fvparam_eq_dec (p q : fvparam) : {p = q} + {p <> q}.
Proof. decide equality. Defined.
(** The last setting of [p] in a list of calls. *)
Fixpoint last_set (p : fvparam) (r : option f32) (h : list fvop) : option f32 :=
  match h with
  | [] => r
  | FvSet q x :: t => last_set p (if fvparam_eq_dec q p then Some x else r) t
  | _ :: t => last_set p r t
  end.

(** Where the input first comes out: the tap (in seconds) of each output in the line of the opposite input, and in that of its own. *)
Definition sL1 : f32 := flit 9596967 (-30). (* 0.008937872: left output, right input *)
Definition sR1 : f32 := flit 795989 (-26). (* 0.01186116: right output, left input *)
Definition sL2 : f32 := flit 8974607 (-27). (* 0.06686603: left output, left input *)
Definition sR2 : f32 := flit 9520299 (-27). (* 0.070931755: right output, right input *)

(** All frames handed to [process]. *)
Definition ins (t : list fvop) : list (f32 * f32) := flat_map (fun o => match o with FvProc xs => xs | _ => [] end) t.
(** Calls other than [init] and [reset]; the same without setPredelay. *)
Definition going (o : fvop) : Prop := match o with FvSet _ _ | FvProc _ => True | _ => False end.
Definition no_predelay (o : fvop) : Prop := match o with FvSet PREDELAY _ => False | FvSet _ _ | FvProc _ => True | _ => False end.
Definition nan32 : f32 := B754_nan.
(** [exp] of a NaN is a NaN. *)
Definition exp_nan (L : libm) : Prop := forall x, is_nan x = true -> is_nan (m_exp L x) = true.
(** Parameters that multiply the signal inside the network. *)
Definition audible (p : fvparam) : Prop := match p with PREDELAY | INPUT_AMOUNT | MODULATOR_FREQUENCY | MODULATOR_DEPTH => False | _ => True end.
(** The value in force after a history: that of the last setting since the last [init], brought into the documented range, or the default. *)
Definition in_force (p : fvparam) (h : list fvop) : R :=
  match last_set p None (tuning [] h) with Some x => held p x | None => default p end.
(** A number of size at most [B]. *)
Definition level (B : R) (x : f32) : Prop := fin x /\ (Rabs (B2R x) <= B)%R.
Definition levels (B : R) (x : f32 * f32) : Prop := level B (fst x) /\ level B (snd x).
(** Calls that only set parameters; calls that only process, with input up to [B]. *)
Definition tunes (o : fvop) : Prop := match o with FvSet _ _ => True | _ => False end.
Definition feeds (B : R) (o : fvop) : Prop := match o with FvProc xs => Forall (levels B) xs | _ => False end.
(** Settings under which C111 bounds the level of the reverb. *)
Definition moderate (h : list fvop) : Prop :=
  (in_force DECAY h <= 40 /\ in_force TAIL_DENSITY h <= 90 /\ in_force INPUT_DIFFUSION_1 h <= 90 /\ in_force INPUT_DIFFUSION_2 h <= 90 /\
   100 <= in_force DAMPING h /\ 100 <= in_force INPUT_LOW_PASS_CUTOFF h /\ 100 <= in_force INPUT_HIGH_PASS_CUTOFF h)%R.
