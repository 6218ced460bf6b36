(** What the line generators are specified against. *)
From Coq Require Import ZArith Reals Bool List.
From Flocq Require Import Core BinarySingleNaN.
From Verif Require Import Flt FltFacts Libm UtilModel PanSpec LineModel.
Import ListNotations.
Local Open Scope R_scope.

(** ** XLine *)
(** Endpoints the documentation asks for: non-zero, same sign. *)
Definition same_sign (s e : f32) : Prop :=
  (flt zero s = true /\ flt zero e = true) \/ (flt s zero = true /\ flt e zero = true).
(** Number of ticks until the line is done. *)
Definition line_len (d sr : f32) : Z := Z.max 1 (Zceil (B2R (fmul d sr))).
(** Math library accuracy: relative error 2^-23 for exp on [-80,80] and for log. *)
Definition exp_rel (L : libm) : Prop :=
  forall x, fin x -> Rabs (B2R x) <= 80 -> fin (m_exp L x) /\ Rabs (B2R (m_exp L x) - exp (B2R x)) <= bpow radix2 (-23) * exp (B2R x).
Definition log_rel (L : libm) : Prop := forall x, fin x -> 0 < B2R x -> approx (m_log L x) (ln (B2R x)).
(** Endpoints of moderate size. *)
Definition moderate_end (x : f32) : Prop := fin x /\ bpow radix2 (-48) <= Rabs (B2R x) <= bpow radix2 48.

(** ** Phasor *)
Inductive ph_call := HTick | HTrig (t : f32) | HSet (r s e p : f32) | HRate (r : f32) | HStart (x : f32) | HEnd (x : f32) | HPos (x : f32)
                   | HReset | HResetTo (x : f32).
Definition ph_op (p : phasor) (o : ph_call) : phasor * option f32 :=
  match o with
  | HTick => let (p', x) := ph_tick p in (p', Some x)
  | HTrig t => let (p', x) := ph_tickTrig p t in (p', Some x)
  | HSet r s e q => (ph_set p r s e q, None)
  | HRate r => (ph_setRate p r, None)
  | HStart x => (ph_setStart p x, None)
  | HEnd x => (ph_setEnd p x, None)
  | HPos x => (ph_setResetPos p x, None)
  | HReset => (ph_reset p, None)
  | HResetTo x => (ph_resetTo p x, None)
  end.
(** Parameters of magnitude at most 2^100. *)
Definition ph_par (x : f32) : Prop := fin x /\ Rabs (B2R x) <= bpow radix2 100.
Definition ph_ok (o : ph_call) : Prop :=
  match o with
  | HTick | HReset | HTrig _ => True
  | HSet r s e q => ph_par r /\ ph_par s /\ ph_par e /\ ph_par q
  | HRate x | HStart x | HEnd x | HPos x | HResetTo x => ph_par x
  end.
(** Calls that keep the range and a non-negative rate. *)
Definition up_ok (o : ph_call) : Prop :=
  match o with HTick | HTrig _ | HReset => True | HRate x | HPos x | HResetTo x => ph_par x /\ 0 <= B2R x | _ => False end.
(** Reduction of an integer into [a,b) for a < b, or into (b,a] for b < a. *)
Definition zwrap (a b v : Z) : Z :=
  if (a <? b)%Z then (a + (v - a) mod (b - a))%Z else if (b <? a)%Z then (a - (a - v) mod (a - b))%Z else v.
(** The floats of the form n * 2^e. *)
Definition isq (e : Z) (x : f32) (n : Z) : Prop := fin x /\ B2R x = IZR n * bpow radix2 e.
(** Outputs for a sequence of trigger values. *)
Fixpoint trig_run (p : phasor) (ts : list f32) : list f32 :=
  match ts with [] => [] | t :: ts => let (p', x) := ph_tickTrig p t in x :: trig_run p' ts end.
(** Rising edges: this value is positive and the one before is zero or negative. *)
Definition rising (prev t : f32) : bool := fle prev zero && flt zero t.
(** [Some k]: the last rising edge up to sample [i] was [k] samples ago. *)
Fixpoint since_edge (prev : f32) (ts : list f32) (i : nat) : option nat :=
  match ts with
  | [] => None
  | t :: ts => match i with
               | O => if rising prev t then Some O else None
               | S i => match since_edge t ts i with Some k => Some k | None => if rising prev t then Some (S i) else None end
               end
  end.
