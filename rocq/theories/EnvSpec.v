(** What the envelope theorems assume of [std::exp] and of the caller. *)
From Coq Require Import ZArith Reals List.
From Flocq Require Import Core BinarySingleNaN.
From Verif Require Import Flt FltFacts Libm UtilModel EnvModel.
Import ListNotations.
Local Open Scope bool_scope.
Local Open Scope R_scope.

(** [std::exp] maps every non-positive number (and -inf) into [0,1]. *)
Definition exp_unit (L : libm) : Prop :=
  forall x, fle x fzero = true -> fin (m_exp L x) /\ 0 <= B2R (m_exp L x) <= 1.

(** [std::exp] is accurate to 2^-23 (one unit in the last place of 1) on non-positive numbers. *)
Definition exp_acc (L : libm) : Prop :=
  forall x, fin x -> B2R x <= 0 -> fin (m_exp L x) /\ Rabs (B2R (m_exp L x) - exp (B2R x)) <= bpow radix2 (-23).

(** A positive sample rate. *)
Definition sr_ok (sr : f32) : Prop := flt fzero sr = true.

Definition ar_op_ok (o : ar_op) : Prop := match o with ArOInit sr => sr_ok sr | _ => True end.
Definition ad_op_ok (o : ad_op) : Prop :=
  match o with AdInit sr => sr_ok sr | AdSustain l => is_nan l = false | _ => True end.
(** Histories without a NaN gate value. *)
Definition ad_gate_ok (o : ad_op) : Prop := match o with AdGate g => is_nan g = false | _ => True end.

(** A sample in [0,1]. *)
Definition unit_sample (x : f32) : Prop := fin x /\ 0 <= B2R x <= 1.

(** [n] consecutive ticks. *)
Fixpoint ar_ticks (n : nat) (e : ar) : ar * list f32 :=
  match n with O => (e, []) | S n' => let (e1, x) := ar_tick e in let (e2, xs) := ar_ticks n' e1 in (e2, x :: xs) end.
Fixpoint ad_ticks (n : nat) (e : adsr) : adsr * list f32 :=
  match n with O => (e, []) | S n' => let (e1, x) := ad_tick e in let (e2, xs) := ad_ticks n' e1 in (e2, x :: xs) end.

(** A state some history of calls after an init leads to. *)
Definition ar_reach (L : libm) (e : ar) : Prop :=
  exists sr ops, sr_ok sr /\ Forall ar_op_ok ops /\ e = fst (ar_run L (ar_init L sr) ops).
Definition ad_reach (L : libm) (e : adsr) : Prop :=
  exists sr ops, sr_ok sr /\ Forall ad_op_ok ops /\ e = fst (ad_run L (ad_init L sr) ops).

(** The last gate value of a history (0 after init and reset), and whether a
    positive gate was given since the last init or reset. *)
Definition last_gate (ops : list ad_op) : f32 :=
  fold_left (fun g o => match o with AdInit _ | AdReset => fzero | AdGate h => h | _ => g end) ops fzero.
Definition sounded (ops : list ad_op) : bool :=
  fold_left (fun s o => match o with AdInit _ | AdReset => false | AdGate h => s || flt fzero h | _ => s end) ops false.
Definition sounding_phase (p : ad_phase) : bool :=
  match p with Attack | Decay | Sustain => true | Release | Idle => false end.

(** Calls that do not start a note. *)
Definition ar_quiet (o : ar_op) : Prop :=
  match o with ArOTrigger | ArOGate true => False | _ => True end.

(** init, setAttack(t), trigger. *)
Definition ar_start (L : libm) (sr t : f32) : ar := ar_trigger (ar_setAttack L (ar_init L sr) t).

(** Toy math libraries for examples: [std::exp] constantly 1/2, and 0.9 below -2^-20 and 1 above. *)
Definition libm_of_exp (f : f32 -> f32) : libm :=
  {| m_exp := f; m_sin := fun x => x; m_cos := fun x => x; m_tan := fun x => x; m_tanh := fun x => x;
     m_log := fun x => x; m_atan := fun x => x; m_pow := fun x _ => x;
     d_exp := fun x => x; d_sin := fun x => x; d_cos := fun x => x; d_tan := fun x => x; d_tanh := fun x => x; d_pow := fun x _ => x |}.
Definition half_exp : libm := libm_of_exp (fun _ => half).
Definition two_exp : libm := libm_of_exp (fun x => if flt x (fneg (flit 1 (-20))) then fdec 9 10 else one).
