(** Model of ugens/Lag.h, ugens/OnePoleLPF.h, ugens/DCBlock.h, ugens/LagLinear.h and ugens/Tape.h.
    Members are uninitialised before [init]; the model starts with [init]. *)
From Coq Require Import ZArith Bool List.
From Verif Require Import Flt Libm UtilModel.
Import ListNotations.
Local Open Scope flt_scope.

(** ** Lag.h *)
(** Lag.h:51-60 data members. *)
Record lag := Lag { lg_sr : f32; lg_time : f32; lg_coeff : f32; lg_prev : f32 }.
(** Lag.h:80-97 [setLagTime]: the coefficient. -6.907755f is the correctly rounded literal. *)
Definition lag_coeff (L : libm) (lt sr : f32) : f32 :=
  if lt <=? zero then zero else m_exp L (fneg (fdec 6907755 1000000) / (lt * sr)).
Definition lg_setLagTime (L : libm) (s : lag) (lt : f32) : lag := Lag (lg_sr s) lt (lag_coeff L lt (lg_sr s)) (lg_prev s).
(** Lag.h:67-71 [init]. *)
Definition lg_init (L : libm) (sr lt : f32) : lag := lg_setLagTime L (Lag sr zero zero zero) lt.
(** Lag.h:103-107 [tick]. *)
Definition lg_tick (s : lag) (x : f32) : lag * f32 :=
  let y := lg_coeff s * lg_prev s + (one - lg_coeff s) * x in
  (Lag (lg_sr s) (lg_time s) (lg_coeff s) y, y).
(** Lag.h:135-137 [reset], 146-148 [setValue]. *)
Definition lg_setValue (s : lag) (v : f32) : lag := Lag (lg_sr s) (lg_time s) (lg_coeff s) v.
Definition lg_reset (s : lag) : lag := lg_setValue s zero.

(** ** OnePoleLPF.h *)
(** OnePoleLPF.h:25-37 data members. *)
Record opl := Opl { op_sr : f32; op_cutoff : f32; op_pole : f32; op_gain : f32; op_z : f32 }.
(** OnePoleLPF.h:54-59, 77-84: clamped cutoff and pole. *)
Definition op_clamp (sr c : f32) : f32 := clamp c one (sr * half).
Definition op_poleof (L : libm) (sr c : f32) : f32 := m_exp L (fneg TWO_PI * op_clamp sr c / sr).
(** OnePoleLPF.h:54-59 [setCutoff]. *)
Definition op_setCutoff (L : libm) (s : opl) (c : f32) : opl :=
  let p := op_poleof L (op_sr s) c in Opl (op_sr s) (op_clamp (op_sr s) c) p (one - p) (op_z s).
(** OnePoleLPF.h:44-48 [init]. *)
Definition op_init (L : libm) (sr c : f32) : opl := op_setCutoff L (Opl sr zero zero zero zero) c.
(** OnePoleLPF.h:66-69 [tick(input)]. *)
Definition op_tick (s : opl) (x : f32) : opl * f32 :=
  let z := op_gain s * x + op_pole s * op_z s in
  (Opl (op_sr s) (op_cutoff s) (op_pole s) (op_gain s) z, z).
(** OnePoleLPF.h:77-84 [tick(input, cutoffHz)]. *)
Definition op_tickmod (L : libm) (s : opl) (x c : f32) : opl * f32 :=
  let p := op_poleof L (op_sr s) c in
  let g := one - p in
  let z := g * x + p * op_z s in
  (Opl (op_sr s) (op_cutoff s) (op_pole s) (op_gain s) z, z).
(** OnePoleLPF.h:113-115 [reset]. *)
Definition op_reset (s : opl) : opl := Opl (op_sr s) (op_cutoff s) (op_pole s) (op_gain s) zero.

(** ** DCBlock.h *)
(** DCBlock.h:21-27 data members. *)
Record dcb := Dcb { dc_sr : f32; dc_cutoff : f32; dc_coeff : f32; dc_xl : f32; dc_yl : f32; dc_xr : f32; dc_yr : f32 }.
(** DCBlock.h:38-50 [setCutoff]: the coefficient; [-2.0f * PI * normalized]. *)
Definition dc_coeffof (L : libm) (sr c : f32) : f32 :=
  if c <=? zero then zero
  else let n := c / sr in
       let n := if n >? flit 1 (-2) then flit 1 (-2) else n in
       m_exp L (fneg two * PIf * n).
Definition dc_setCutoff (L : libm) (s : dcb) (c : f32) : dcb :=
  Dcb (dc_sr s) c (dc_coeffof L (dc_sr s) c) (dc_xl s) (dc_yl s) (dc_xr s) (dc_yr s).
(** DCBlock.h:29-36 [init]. *)
Definition dc_init (L : libm) (sr c : f32) : dcb := dc_setCutoff L (Dcb sr zero zero zero zero zero zero) c.
(** DCBlock.h:53, 61, 62: [input - prevInput + coeff * prevOutput]. *)
Definition dc_out (c px py x : f32) : f32 := x - px + c * py.
(** DCBlock.h:52-57 [tick] (works on the left channel state). *)
Definition dc_tick (s : dcb) (x : f32) : dcb * f32 :=
  let y := dc_out (dc_coeff s) (dc_xl s) (dc_yl s) x in
  (Dcb (dc_sr s) (dc_cutoff s) (dc_coeff s) x y (dc_xr s) (dc_yr s), y).
(** DCBlock.h:59-68 [tickStereo]. *)
Definition dc_tickStereo (s : dcb) (x : f32 * f32) : dcb * (f32 * f32) :=
  let l := dc_out (dc_coeff s) (dc_xl s) (dc_yl s) (fst x) in
  let r := dc_out (dc_coeff s) (dc_xr s) (dc_yr s) (snd x) in
  (Dcb (dc_sr s) (dc_cutoff s) (dc_coeff s) (fst x) l (snd x) r, (l, r)).
(** DCBlock.h:84-89 [reset]. *)
Definition dc_reset (s : dcb) : dcb := Dcb (dc_sr s) (dc_cutoff s) (dc_coeff s) zero zero zero zero.

(** ** LagLinear.h *)
(** LagLinear.h:30-45 data members. *)
Record lagl := LagL { ll_sr : f32; ll_time : f32; ll_cur : f32; ll_target : f32; ll_inc : f32; ll_rem : Z }.
(** LagLinear.h:79, 98: [std::max(1, static_cast<int>(std::round(timeSeconds * sampleRate)))];
    [None] is the undefined conversion of a value outside [int]. *)
Definition ll_len (time sr : f32) : option Z :=
  match ftoZ (- 2 ^ 31) (2 ^ 31 - 1) (fround (time * sr)) with Some n => Some (Z.max 1 n) | None => None end.
(** LagLinear.h:163-169 [recalcIncrement] with [samplesRemaining = n]. *)
Definition ll_incof (target cur : f32) (n : Z) : f32 :=
  if (n <=? 0)%Z then zero else (target - cur) / fofZ n.
(** LagLinear.h:68-82 [setTime]. *)
Definition ll_setTime (s : lagl) (t : f32) : option lagl :=
  if t <=? zero then Some (LagL (ll_sr s) t (ll_target s) (ll_target s) zero 0)
  else if ll_target s =? ll_cur s then Some (LagL (ll_sr s) t (ll_cur s) (ll_target s) (ll_inc s) (ll_rem s))
  else match ll_len t (ll_sr s) with
       | Some n => Some (LagL (ll_sr s) t (ll_cur s) (ll_target s) (ll_incof (ll_target s) (ll_cur s) n) n)
       | None => None
       end.
(** LagLinear.h:53-60 [init]. *)
Definition ll_init (sr v t : f32) : option lagl := ll_setTime (LagL sr zero v v zero 0) t.
(** LagLinear.h:102-114: the part of [tick] after the target comparison. *)
Definition ll_advance (s : lagl) : lagl * f32 :=
  if (0 <? ll_rem s)%Z then
    let c := ll_cur s + ll_inc s in
    let n := (ll_rem s - 1)%Z in
    if (n =? 0)%Z then (LagL (ll_sr s) (ll_time s) (ll_target s) (ll_target s) zero n, ll_target s)
    else (LagL (ll_sr s) (ll_time s) c (ll_target s) (ll_inc s) n, c)
  else (LagL (ll_sr s) (ll_time s) (ll_target s) (ll_target s) (ll_inc s) (ll_rem s), ll_target s).
(** LagLinear.h:89-115 [tick]. *)
Definition ll_tick (s : lagl) (x : f32) : option (lagl * f32) :=
  if x =? ll_target s then Some (ll_advance s)
  else if ll_time s <=? zero then Some (LagL (ll_sr s) (ll_time s) x x zero 0, x)
  else match ll_len (ll_time s) (ll_sr s) with
       | Some n => Some (ll_advance (LagL (ll_sr s) (ll_time s) (ll_cur s) x (ll_incof x (ll_cur s) n) n))
       | None => None
       end.
(** LagLinear.h:155-160 [setValue], 144-149 [reset]. *)
Definition ll_setValue (s : lagl) (v : f32) : lagl := LagL (ll_sr s) (ll_time s) v v zero 0.
Definition ll_reset (s : lagl) : lagl := ll_setValue s zero.

(** ** Tape.h *)
(** Tape.h:16-19 [TapeFollower]. *)
Record follower := Follower { fo_ac : f32; fo_rc : f32; fo_state : f32 }.
(** Tape.h:21-27 [init] with attack time [at_] and release time [rt]. *)
Definition fo_init (L : libm) (sr at_ rt : f32) : follower :=
  Follower (m_exp L (fneg one / (at_ * sr))) (m_exp L (fneg one / (rt * sr))) zero.
(** Tape.h:29-37 [process]. *)
Definition fo_tick (s : follower) (x : f32) : follower * f32 :=
  let a := fabs x in
  let c := if a >? fo_state s then fo_ac s else fo_rc s in
  let y := c * fo_state s + (one - c) * a in
  (Follower (fo_ac s) (fo_rc s) y, y).
(** Tape.h:39-41 [reset]. *)
Definition fo_reset (s : follower) : follower := Follower (fo_ac s) (fo_rc s) zero.
(** Tape.h:45-66 [TapeDcBlocker]: gain, previous input and output. *)
Record tdc := Tdc { td_gain : f32; td_x : f32; td_y : f32 }.
Definition td_init (g : f32) : tdc := Tdc g zero zero.
Definition td_tick (s : tdc) (x : f32) : tdc * f32 :=
  let y := x - td_x s + td_gain s * td_y s in (Tdc (td_gain s) x y, y).
Definition td_reset (s : tdc) : tdc := Tdc (td_gain s) zero zero.
(** Tape.h:70-77 data members. *)
Record tape := Tape { tp_bias : f32; tp_gain : f32; tp_fo : follower; tp_l : tdc; tp_r : tdc; tp_fv : f32 }.
(** Tape.h:79-87 [init]; defaults 0.001f, 0.020f, 0.99f. *)
Definition tp_init (L : libm) (sr : f32) : tape :=
  Tape zero one (fo_init L sr (fdec 1 1000) (fdec 20 1000)) (td_init (fdec 99 100)) (td_init (fdec 99 100)) zero.
(** Tape.h:89-95 [setBias], [setPregain]. *)
Definition tp_setBias (s : tape) (b : f32) : tape := Tape b (tp_gain s) (tp_fo s) (tp_l s) (tp_r s) (tp_fv s).
Definition tp_setPregain (s : tape) (g : f32) : tape := Tape (tp_bias s) g (tp_fo s) (tp_l s) (tp_r s) (tp_fv s).
(** Tape.h:101-108 [tick]. *)
Definition tp_tick (L : libm) (s : tape) (x : f32) : tape * f32 :=
  let o := x * tp_gain s in
  let (f, v) := fo_tick (tp_fo s) o in
  let o := m_tanh L (o + v * tp_bias s) in
  let (d, o) := td_tick (tp_l s) o in
  (Tape (tp_bias s) (tp_gain s) f d (tp_r s) v, m_tanh L o).
(** Tape.h:110-127 [tickStereo]: the follower listens to the left channel only. *)
Definition tp_tickStereo (L : libm) (s : tape) (x : f32 * f32) : tape * (f32 * f32) :=
  let l := fst x * tp_gain s in
  let r := snd x * tp_gain s in
  let (f, v) := fo_tick (tp_fo s) l in
  let l := m_tanh L (l + v * tp_bias s) in
  let r := m_tanh L (r + v * tp_bias s) in
  let (dl, l) := td_tick (tp_l s) l in
  let (dr, r) := td_tick (tp_r s) r in
  (Tape (tp_bias s) (tp_gain s) f dl dr v, (m_tanh L l, m_tanh L r)).
(** Tape.h:143-148 [reset]. *)
Definition tp_reset (s : tape) : tape :=
  Tape (tp_bias s) (tp_gain s) (fo_reset (tp_fo s)) (td_reset (tp_l s)) (td_reset (tp_r s)) zero.
