(** Model of ugens/EnvelopeAR.h and ugens/EnvelopeADSR.h. *)
From Coq Require Import ZArith Bool List.
From Verif Require Import Flt Libm UtilModel.
Import ListNotations.
Local Open Scope flt_scope.

(** Shared literals: 0.0001f, 0.999f, 0.001f. *)
Definition c0001 : f32 := fdec 1 10000.
Definition c999 : f32 := fdec 999 1000.
Definition c001 : f32 := fdec 1 1000.

(** EnvelopeAR.h:95-98, 104-107 and EnvelopeADSR.h:127-130, 136-139, 153-156: [time > 0.0001f ? time : 0.0001f]. *)
Definition clamp_time (t : f32) : f32 := if t >? c0001 then t else c0001.

(** EnvelopeAR.h:115-129, EnvelopeADSR.h:169-185:
    [std::exp(-1.0f / (time * sampleRate))]. *)
Definition coeff (L : libm) (time sr : f32) : f32 := m_exp L (fneg one / (time * sr)).

(** EnvelopeAR.h:47-51 [enum State]. *)
Inductive ar_phase := ArIdle | ArAttack | ArRelease.

(** EnvelopeAR.h:53-76 data members. *)
Record ar := AR { ar_value : f32; ar_ac : f32; ar_rc : f32; ar_at : f32; ar_rt : f32; ar_sr : f32;
                  ar_state : ar_phase; ar_gate : bool }.

(** EnvelopeAR.h:81-90 [init]. *)
Definition ar_init (L : libm) (sr : f32) : ar :=
  let at_ := fdec 1 100 in let rt := fdec 1 10 in
  AR fzero (coeff L at_ sr) (coeff L rt sr) at_ rt sr ArIdle false.
(** EnvelopeAR.h:95-98 [setAttack]. *)
Definition ar_setAttack (L : libm) (e : ar) (t : f32) : ar :=
  let t' := clamp_time t in
  AR (ar_value e) (coeff L t' (ar_sr e)) (ar_rc e) t' (ar_rt e) (ar_sr e) (ar_state e) (ar_gate e).
(** EnvelopeAR.h:104-107 [setRelease]. *)
Definition ar_setRelease (L : libm) (e : ar) (t : f32) : ar :=
  let t' := clamp_time t in
  AR (ar_value e) (ar_ac e) (coeff L t' (ar_sr e)) (ar_at e) t' (ar_sr e) (ar_state e) (ar_gate e).
Definition ar_with (e : ar) (v : f32) (s : ar_phase) (g : bool) : ar :=
  AR v (ar_ac e) (ar_rc e) (ar_at e) (ar_rt e) (ar_sr e) s g.
(** EnvelopeAR.h:142-145 [trigger]. *)
Definition ar_trigger (e : ar) : ar := ar_with e (ar_value e) ArAttack true.
(** EnvelopeAR.h:150-155 [release]. *)
Definition ar_release (e : ar) : ar :=
  ar_with e (ar_value e) (match ar_state e with ArIdle => ArIdle | _ => ArRelease end) false.
(** EnvelopeAR.h:161-167 [setGate]. *)
Definition ar_setGate (e : ar) (on : bool) : ar :=
  if on && negb (ar_gate e) then ar_trigger e
  else if negb on && ar_gate e then ar_release e else e.
(** EnvelopeAR.h:173-175 [isActive]. *)
Definition ar_isActive (e : ar) : bool := match ar_state e with ArIdle => false | _ => true end.
(** EnvelopeAR.h:181-211 [tick]; the returned sample is the new [value]. *)
Definition ar_tick (e : ar) : ar * f32 :=
  let e' :=
    match ar_state e with
    | ArAttack =>
        let v := one - ar_ac e * (one - ar_value e) in
        if v >=? c999 then ar_with e one (if negb (ar_gate e) then ArRelease else ArAttack) (ar_gate e)
        else ar_with e v ArAttack (ar_gate e)
    | ArRelease =>
        let v := ar_rc e * ar_value e in
        if v <=? c0001 then ar_with e fzero ArIdle (ar_gate e)
        else ar_with e v ArRelease (ar_gate e)
    | ArIdle => ar_with e fzero ArIdle (ar_gate e)
    end in
  (e', ar_value e').
(** EnvelopeAR.h:237-241 [reset]. *)
Definition ar_reset (e : ar) : ar := ar_with e fzero ArIdle false.

(** Public calls of EnvelopeAR. *)
Inductive ar_op :=
| ArOInit (sr : f32) | ArOAttack (t : f32) | ArORelease (t : f32) | ArOTrigger | ArORel
| ArOGate (b : bool) | ArOTick | ArOReset.
Definition ar_step (L : libm) (e : ar) (o : ar_op) : ar * option f32 :=
  match o with
  | ArOInit sr => (ar_init L sr, None)
  | ArOAttack t => (ar_setAttack L e t, None)
  | ArORelease t => (ar_setRelease L e t, None)
  | ArOTrigger => (ar_trigger e, None)
  | ArORel => (ar_release e, None)
  | ArOGate b => (ar_setGate e b, None)
  | ArOTick => let (e', x) := ar_tick e in (e', Some x)
  | ArOReset => (ar_reset e, None)
  end.
Fixpoint ar_run (L : libm) (e : ar) (ops : list ar_op) : ar * list (option f32) :=
  match ops with
  | [] => (e, [])
  | o :: t => let (e1, r) := ar_step L e o in let (e2, rs) := ar_run L e1 t in (e2, r :: rs)
  end.

(** EnvelopeADSR.h:51-57 [enum State]. *)
Inductive ad_phase := Idle | Attack | Decay | Sustain | Release.

(** EnvelopeADSR.h:66-103 data members.  [doneAction] affects no observable and
    is kept as a plain number; the stored times (read back only by the
    coefficient updates of the setter that wrote them) are left out. *)
Record adsr := ADSR { ad_value : f32; ad_ac : f32; ad_dc : f32; ad_rc : f32; ad_sus : f32; ad_sr : f32;
                      ad_state : ad_phase; ad_gate : f32; ad_action : Z; ad_done : bool }.

(** EnvelopeADSR.h:109-122 [init]. *)
Definition ad_init (L : libm) (sr : f32) : adsr :=
  ADSR fzero (coeff L (fdec 1 100) sr) (coeff L (fdec 1 10) sr) (coeff L (fdec 3 10) sr) (fdec 7 10) sr
    Idle fzero 0 false.
(** EnvelopeADSR.h:127-164: setters. *)
Definition ad_setAttack (L : libm) (e : adsr) (t : f32) : adsr :=
  ADSR (ad_value e) (coeff L (clamp_time t) (ad_sr e)) (ad_dc e) (ad_rc e) (ad_sus e) (ad_sr e) (ad_state e) (ad_gate e) (ad_action e) (ad_done e).
Definition ad_setDecay (L : libm) (e : adsr) (t : f32) : adsr :=
  ADSR (ad_value e) (ad_ac e) (coeff L (clamp_time t) (ad_sr e)) (ad_rc e) (ad_sus e) (ad_sr e) (ad_state e) (ad_gate e) (ad_action e) (ad_done e).
Definition ad_setRelease (L : libm) (e : adsr) (t : f32) : adsr :=
  ADSR (ad_value e) (ad_ac e) (ad_dc e) (coeff L (clamp_time t) (ad_sr e)) (ad_sus e) (ad_sr e) (ad_state e) (ad_gate e) (ad_action e) (ad_done e).
Definition ad_setSustain (e : adsr) (l : f32) : adsr :=
  ADSR (ad_value e) (ad_ac e) (ad_dc e) (ad_rc e) (clamp l fzero one) (ad_sr e) (ad_state e) (ad_gate e) (ad_action e) (ad_done e).
Definition ad_setDoneAction (e : adsr) (a : Z) : adsr :=
  ADSR (ad_value e) (ad_ac e) (ad_dc e) (ad_rc e) (ad_sus e) (ad_sr e) (ad_state e) (ad_gate e) a (ad_done e).
Definition ad_with (e : adsr) (v : f32) (s : ad_phase) (g : f32) (d : bool) : adsr :=
  ADSR v (ad_ac e) (ad_dc e) (ad_rc e) (ad_sus e) (ad_sr e) s g (ad_action e) d.
(** EnvelopeADSR.h:203-218 [gate]. *)
Definition ad_setgate (e : adsr) (g : f32) : adsr :=
  let prev := ad_gate e in
  if (prev <=? fzero) && (g >? fzero) then ad_with e (ad_value e) Attack g false
  else if (prev >? fzero) && (g <=? fzero) then
    ad_with e (ad_value e) (match ad_state e with Idle => Idle | _ => Release end) g (ad_done e)
  else ad_with e (ad_value e) (ad_state e) g (ad_done e).
(** EnvelopeADSR.h:224-234 [isActive], [isDone]. *)
Definition ad_isActive (e : adsr) : bool := match ad_state e with Idle => false | _ => true end.
Definition ad_isDone (e : adsr) : bool := ad_done e.
(** EnvelopeADSR.h:240-301 [tick]. *)
Definition ad_tick (e : adsr) : adsr * f32 :=
  let early s := if ad_gate e <=? fzero then Release else s in
  let e' :=
    match ad_state e with
    | Attack =>
        let v := one - ad_ac e * (one - ad_value e) in
        if v >=? c999 then ad_with e one (early Decay) (ad_gate e) (ad_done e)
        else ad_with e v (early Attack) (ad_gate e) (ad_done e)
    | Decay =>
        let v := ad_sus e + ad_dc e * (ad_value e - ad_sus e) in
        if fabs (v - ad_sus e) <? c001 then ad_with e (ad_sus e) (early Sustain) (ad_gate e) (ad_done e)
        else ad_with e v (early Decay) (ad_gate e) (ad_done e)
    | Sustain => ad_with e (ad_sus e) (early Sustain) (ad_gate e) (ad_done e)
    | Release =>
        let v := ad_rc e * ad_value e in
        if v <=? c0001 then ad_with e fzero Idle (ad_gate e) true
        else ad_with e v Release (ad_gate e) (ad_done e)
    | Idle => ad_with e fzero Idle (ad_gate e) (ad_done e)
    end in
  (e', ad_value e').
(** EnvelopeADSR.h:328-333 [reset]. *)
Definition ad_reset (e : adsr) : adsr := ad_with e fzero Idle fzero false.

Inductive ad_op :=
| AdInit (sr : f32) | AdAttack (t : f32) | AdDecay (t : f32) | AdSustain (l : f32) | AdRelease (t : f32)
| AdAction (a : Z) | AdGate (g : f32) | AdTick | AdReset.
Definition ad_step (L : libm) (e : adsr) (o : ad_op) : adsr * option f32 :=
  match o with
  | AdInit sr => (ad_init L sr, None)
  | AdAttack t => (ad_setAttack L e t, None)
  | AdDecay t => (ad_setDecay L e t, None)
  | AdSustain l => (ad_setSustain e l, None)
  | AdRelease t => (ad_setRelease L e t, None)
  | AdAction a => (ad_setDoneAction e a, None)
  | AdGate g => (ad_setgate e g, None)
  | AdTick => let (e', x) := ad_tick e in (e', Some x)
  | AdReset => (ad_reset e, None)
  end.
Fixpoint ad_run (L : libm) (e : adsr) (ops : list ad_op) : adsr * list (option f32) :=
  match ops with
  | [] => (e, [])
  | o :: t => let (e1, r) := ad_step L e o in let (e2, rs) := ad_run L e1 t in (e2, r :: rs)
  end.
