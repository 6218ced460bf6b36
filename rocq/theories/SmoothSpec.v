(** Call histories of the smoothing filters and what counts as a sane call. *)
From Coq Require Import ZArith Reals Bool List.
From Flocq Require Import Core BinarySingleNaN.
From Verif Require Import Flt FltFacts Libm UtilModel EnvSpec OscSpec SmoothModel.
Import ListNotations.
Local Open Scope R_scope.

(** A finite sample of magnitude at most [m]. *)
Definition within (m : R) (x : f32) : Prop := fin x /\ Rabs (B2R x) <= m.

(** ** Lag *)
Inductive lag_op := GTick (x : f32) | GTime (t : f32) | GSet (v : f32) | GReset.
Definition lg_op (L : libm) (s : lag) (o : lag_op) : lag * option f32 :=
  match o with
  | GTick x => let (s', y) := lg_tick s x in (s', Some y)
  | GTime t => (lg_setLagTime L s t, None)
  | GSet v => (lg_setValue s v, None)
  | GReset => (lg_reset s, None)
  end.
Definition lg_ok (m : R) (o : lag_op) : Prop :=
  match o with GTick x | GSet x => within m x | GTime t => is_nan t = false | GReset => True end.

(** ** OnePoleLPF *)
Inductive opl_op := PTick (x : f32) | PTickMod (x c : f32) | PCutoff (c : f32) | PReset.
Definition op_op (L : libm) (s : opl) (o : opl_op) : opl * option f32 :=
  match o with
  | PTick x => let (s', y) := op_tick s x in (s', Some y)
  | PTickMod x c => let (s', y) := op_tickmod L s x c in (s', Some y)
  | PCutoff c => (op_setCutoff L s c, None)
  | PReset => (op_reset s, None)
  end.
Definition op_ok (m : R) (o : opl_op) : Prop :=
  match o with
  | PTick x => within m x
  | PTickMod x c => within m x /\ is_nan c = false
  | PCutoff c => is_nan c = false
  | PReset => True
  end.

(** ** TapeFollower *)
Inductive fo_call := FTick (x : f32) | FReset.
Definition fo_op (s : follower) (o : fo_call) : follower * option f32 :=
  match o with FTick x => let (s', y) := fo_tick s x in (s', Some y) | FReset => (fo_reset s, None) end.
Definition fo_ok (m : R) (o : fo_call) : Prop := match o with FTick x => within m x | FReset => True end.

(** ** DCBlock: a stereo pair of samples or one (left) sample, a new cutoff, reset. *)
Inductive dcb_op := BTick (x : f32) | BTick2 (l r : f32) | BCutoff (c : f32) | BReset.
Definition dc_op (L : libm) (s : dcb) (o : dcb_op) : dcb * list f32 :=
  match o with
  | BTick x => let (s', y) := dc_tick s x in (s', [y])
  | BTick2 l r => let (s', y) := dc_tickStereo s (l, r) in (s', [fst y; snd y])
  | BCutoff c => (dc_setCutoff L s c, [])
  | BReset => (dc_reset s, [])
  end.
(** ** Tape *)
Inductive tape_op := TTick (x : f32) | TTick2 (l r : f32) | TBias (b : f32) | TGain (g : f32) | TReset.
Definition tp_op (L : libm) (s : tape) (o : tape_op) : tape * list f32 :=
  match o with
  | TTick x => let (s', y) := tp_tick L s x in (s', [y])
  | TTick2 l r => let (s', y) := tp_tickStereo L s (l, r) in (s', [fst y; snd y])
  | TBias b => (tp_setBias s b, [])
  | TGain g => (tp_setPregain s g, [])
  | TReset => (tp_reset s, [])
  end.
(** Runs of calls that return a list of samples. *)
Section Runs.
  Context {S O : Type} (step : S -> O -> S * list f32).
  Fixpoint runs (s : S) (l : list O) : S * list f32 :=
    match l with [] => (s, []) | o :: l => let (s', x) := step s o in let (s'', xs) := runs s' l in (s'', x ++ xs) end.
End Runs.

(** Cutoffs of at least a 2^18th of the sample rate (0.18 Hz at 48 kHz), or none. *)
Definition dc_cut_ok (sr c : f32) : Prop := fin c /\ (B2R c <= 0 \/ B2R sr * bpow radix2 (-18) <= B2R c).
Definition dc_ok (m : R) (sr : f32) (o : dcb_op) : Prop :=
  match o with
  | BTick x => within m x
  | BTick2 l r => within m l /\ within m r
  | BCutoff c => dc_cut_ok sr c
  | BReset => True
  end.
(** Finite settings; products of sample and pregain stay below 2^126. *)
Definition tp_ok (a : Z) (o : tape_op) : Prop :=
  match o with
  | TTick x => within (bpow radix2 a) x
  | TTick2 l r => within (bpow radix2 a) l /\ within (bpow radix2 a) r
  | TBias b => fin b
  | TGain g => within (bpow radix2 (126 - a)) g
  | TReset => True
  end.
(** [std::tanh] maps every number (also the infinities) into [-1,1]. *)
Definition tanh_unit (L : libm) : Prop := forall x, is_nan x = false -> within 1 (m_tanh L x).

(** [n] ticks with the input held. *)
Definition lg_hold (x : f32) (s : lag) := lg_tick s x.
Definition op_hold (x : f32) (s : opl) := op_tick s x.
Definition dc_hold (x : f32) (s : dcb) := dc_tick s x.
(** LagLinear ticks may be undefined. *)
Fixpoint ll_ticks (s : lagl) (l : list f32) : option (lagl * list f32) :=
  match l with
  | [] => Some (s, [])
  | x :: l => match ll_tick s x with
              | None => None
              | Some (s', y) => match ll_ticks s' l with None => None | Some (s'', ys) => Some (s'', y :: ys) end
              end
  end.
(** Ramp length in samples: round(time * sampleRate), at least one. *)
Definition ramp_len (time sr : f32) : Z := Z.max 1 (ZnearestA (B2R (fmul time sr))).
(** A positive time and a sample rate whose product fits an int. *)
Definition ramp_ok (time sr : f32) : Prop :=
  fin time /\ 0 < B2R time /\ fin sr /\ 0 <= B2R sr /\ B2R time * B2R sr <= IZR (2 ^ 30).

(** Example library: exp = 1/2, tanh a clamp to [-1,1]. *)
Definition toy_tape : libm :=
  {| m_exp := fun _ => half; m_sin := fun x => x; m_cos := fun x => x; m_tan := fun x => x;
     m_tanh := fun x => clamp x (fneg one) one;
     m_log := fun x => x; m_atan := fun x => x; m_pow := fun x _ => x;
     d_exp := fun x => x; d_sin := fun x => x; d_cos := fun x => x; d_tan := fun x => x; d_tanh := fun x => x; d_pow := fun x _ => x |}.
