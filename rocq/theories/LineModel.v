(** Model of ugens/XLine.h and ugens/Phasor.h.
    Members are uninitialised before [init]; the model starts with [init]. *)
From Coq Require Import ZArith Bool List.
From Verif Require Import Flt Libm UtilModel.
Import ListNotations.
Local Open Scope flt_scope.

(** ** XLine.h *)
(** XLine.h:43-75 data members. *)
Record xline := XLine { xl_value : f32; xl_start : f32; xl_end : f32; xl_dur : f32; xl_mul : f32; xl_add : f32;
                        xl_growth : f32; xl_n : f32; xl_count : f32; xl_sr : f32; xl_done : bool }.
(** XLine.h:152-162 [updateGrowthFactor]. *)
Definition xl_growthof (L : libm) (start end_ n : f32) : f32 :=
  if (n >? zero) && (start <>? zero) then m_exp L (m_log L (end_ / start) / n) else one.
(** XLine.h:81-93 [init]. *)
Definition xl_init (L : libm) (sr : f32) : xline :=
  let n := one * sr in
  XLine one one two one one zero (xl_growthof L one two n) n zero sr false.
(** XLine.h:118-119, 122-125: sanitised endpoints. *)
Definition xl_ends (s e : f32) : f32 * f32 :=
  let s := if s =? zero then fdec 1 10000 else s in
  let e := if e =? zero then fdec 1 10000 else e in
  if negb (Bool.eqb (s >? zero) (e >? zero)) then (fabs s, fabs e) else (s, e).
(** XLine.h:115-137 [set]. *)
Definition xl_set (L : libm) (x : xline) (s e d mul add : f32) : xline :=
  let (s, e) := xl_ends s e in
  let d := if d >? zero then d else fdec 1 1000 in
  let n := d * xl_sr x in
  XLine s s e d mul add (xl_growthof L s e n) n zero (xl_sr x) false.
(** XLine.h:167-182 [tick]. *)
Definition xl_tick (x : xline) : xline * f32 :=
  let out := xl_value x * xl_mul x + xl_add x in
  if xl_done x then (x, out)
  else
    let c := xl_count x + one in
    let (v, d) := if c >=? xl_n x then (xl_end x, true) else (xl_value x * xl_growth x, false) in
    (XLine v (xl_start x) (xl_end x) (xl_dur x) (xl_mul x) (xl_add x) (xl_growth x) (xl_n x) c (xl_sr x) d, out).
(** XLine.h:227-231 [reset], 238-240 [trigger]. *)
Definition xl_reset (x : xline) : xline :=
  XLine (xl_start x) (xl_start x) (xl_end x) (xl_dur x) (xl_mul x) (xl_add x) (xl_growth x) (xl_n x) zero (xl_sr x) false.

(** ** Phasor.h *)
(** Phasor.h:56-76 data members. *)
Record phasor := Phasor { ph_value : f32; ph_rate : f32; ph_start : f32; ph_end : f32; ph_pos : f32; ph_trig : f32; ph_sr : f32 }.
(** Phasor.h:82-90 [init]. *)
Definition ph_init (sr : f32) : phasor := Phasor zero one zero one zero zero sr.
(** Phasor.h:99-106 [set]. *)
Definition ph_set (p : phasor) (rate start end_ pos : f32) : phasor := Phasor start rate start end_ pos (ph_trig p) (ph_sr p).
(** Phasor.h:116-150: the setters. *)
Definition ph_setRate (p : phasor) (r : f32) : phasor := Phasor (ph_value p) r (ph_start p) (ph_end p) (ph_pos p) (ph_trig p) (ph_sr p).
Definition ph_setFrequency (p : phasor) (f : f32) : phasor := ph_setRate p ((ph_end p - ph_start p) * f / ph_sr p).
Definition ph_setStart (p : phasor) (x : f32) : phasor := Phasor (ph_value p) (ph_rate p) x (ph_end p) (ph_pos p) (ph_trig p) (ph_sr p).
Definition ph_setEnd (p : phasor) (x : f32) : phasor := Phasor (ph_value p) (ph_rate p) (ph_start p) x (ph_pos p) (ph_trig p) (ph_sr p).
Definition ph_setResetPos (p : phasor) (x : f32) : phasor := Phasor (ph_value p) (ph_rate p) (ph_start p) (ph_end p) x (ph_trig p) (ph_sr p).
(** Phasor.h:158-181: wrapping of the value before it is output. *)
Definition ph_wrap (start end_ v : f32) : f32 :=
  let range := end_ - start in
  if range >? zero then
    if (v >=? end_) || (v <? start) then
      let v := ffmod (v - start) range in
      let v := if v <? zero then v + range else v in
      v + start
    else v
  else if range <? zero then
    let abs := fneg range in
    if (v <=? end_) || (v >? start) then
      let o := ffmod (v - end_) abs in
      let o := if o <=? zero then o + abs else o in
      end_ + o
    else v
  else v.
Definition ph_at (p : phasor) (v : f32) : phasor := Phasor v (ph_rate p) (ph_start p) (ph_end p) (ph_pos p) (ph_trig p) (ph_sr p).
(** Phasor.h:156-190 [tick()]. *)
Definition ph_tick (p : phasor) : phasor * f32 :=
  let out := ph_wrap (ph_start p) (ph_end p) (ph_value p) in
  (ph_at p (out + ph_rate p), out).
(** Phasor.h:199-207 [tick(trig)]. *)
Definition ph_tickTrig (p : phasor) (t : f32) : phasor * f32 :=
  let v := if (ph_trig p <=? zero) && (t >? zero) then ph_pos p else ph_value p in
  ph_tick (Phasor v (ph_rate p) (ph_start p) (ph_end p) (ph_pos p) t (ph_sr p)).
(** Phasor.h:246-249 [reset()], 255-258 [reset(pos)]. *)
Definition ph_resetTo (p : phasor) (x : f32) : phasor := Phasor x (ph_rate p) (ph_start p) (ph_end p) (ph_pos p) zero (ph_sr p).
Definition ph_reset (p : phasor) : phasor := ph_resetTo p (ph_start p).
