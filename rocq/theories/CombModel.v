(** Model of ugens/CombC.h.
    The delay line is a function with a length ([cb_size]); an access outside it is [Undef].
    [new] is taken to succeed; re-initialisation leaks the old line and the destructor frees it, which has no effect on values. *)
From Coq Require Import ZArith Bool List.
From Flocq Require Import BinarySingleNaN.
From Verif Require Import Flt Libm Res UtilModel.
Import ListNotations.
Local Open Scope flt_scope.

(** CombC.h:44-67 data members. *)
Record comb := Comb { cb_sr : f32; cb_buf : Z -> f32; cb_max : f32; cb_dt : f32; cb_dc : f32; cb_fb : f32; cb_size : Z; cb_wp : Z }.
(** CombC.h:195-213 [updateFeedback]. *)
Definition is_inf (x : f32) : bool := match x with B754_infinity _ => true | _ => false end.
Definition cb_feedback (L : libm) (dt dc : f32) : f32 :=
  if is_inf dc then (if dc >? zero then one else - one)
  else if dc =? zero then zero
  else
    let fb := m_exp L (dt / fabs dc * - fdec 6907755 1000000) in
    if dc <? zero then - fb else fb.
Definition cb_update (L : libm) (c : comb) : comb :=
  Comb (cb_sr c) (cb_buf c) (cb_max c) (cb_dt c) (cb_dc c) (cb_feedback L (cb_dt c) (cb_dc c)) (cb_size c) (cb_wp c).
(** CombC.h:74-89 [init]. *)
Definition cb_init (L : libm) (sr maxDelay : f32) : res comb :=
  n <~ of_opt (to_size (fceil (maxDelay * sr))) ;;
  let size := wrap64 (n + 4) in
  Val (cb_update L (Comb sr (fun _ => zero) maxDelay (fdec 2 10) one zero size 0)).
(** CombC.h:104-107 [setDelayTime]. *)
Definition cb_setDelayTime (L : libm) (c : comb) (dt : f32) : comb :=
  cb_update L (Comb (cb_sr c) (cb_buf c) (cb_max c) (clamp dt zero (cb_max c)) (cb_dc c) (cb_fb c) (cb_size c) (cb_wp c)).
(** CombC.h:113-116 [setDecayTime]. *)
Definition cb_setDecayTime (L : libm) (c : comb) (dc : f32) : comb :=
  cb_update L (Comb (cb_sr c) (cb_buf c) (cb_max c) (cb_dt c) dc (cb_fb c) (cb_size c) (cb_wp c)).
(** CombC.h:131-133: [while (r < 0) r += size], at most [fuel] rounds. *)
Fixpoint cb_wrap (fuel : nat) (r size : f32) : res f32 :=
  if r <? zero then match fuel with O => Spin | S k => cb_wrap k (r + size) size end else Val r.
(** [buffer[i]]. *)
Definition cb_at (c : comb) (i : Z) : res f32 := if (0 <=? i)%Z && (i <? cb_size c)%Z then Val (cb_buf c i) else Undef.
(** CombC.h:150-155 four-point Hermite interpolation. *)
Definition cb_herm (y0 y1 y2 y3 frac : f32) : f32 :=
  let c0 := y1 in
  let c1 := half * (y2 - y0) in
  let c2 := y0 - fdec 5 2 * y1 + two * y2 - half * y3 in
  let c3 := half * (y3 - y0) + fdec 3 2 * (y1 - y2) in
  ((c3 * frac + c2) * frac + c1) * frac + c0.
(** CombC.h:123-165 [tick]. *)
Definition cb_tick (fuel : nat) (c : comb) (input : f32) : res (f32 * comb) :=
  let size := cb_size c in
  let delaySamples := cb_dt c * cb_sr c in
  r <~ cb_wrap fuel (fofZ (cb_wp c) - delaySamples) (fofZ size) ;;
  i <~ of_opt (to_size r) ;;
  let frac := r - fofZ i in
  y0 <~ cb_at c (wrap64 (wrap64 (i + size) - 1) mod size) ;;
  y1 <~ cb_at c (i mod size) ;;
  y2 <~ cb_at c (wrap64 (i + 1) mod size) ;;
  y3 <~ cb_at c (wrap64 (i + 2) mod size) ;;
  let y := cb_herm y0 y1 y2 y3 frac in
  let out := input + cb_fb c * y in
  _ <~ cb_at c (cb_wp c) ;;
  Val (y, Comb (cb_sr c) (fun k => if (k =? cb_wp c)%Z then out else cb_buf c k) (cb_max c) (cb_dt c) (cb_dc c) (cb_fb c) size (wrap64 (cb_wp c + 1) mod size)).
(** CombC.h:180-185 [reset]. *)
Definition cb_reset (c : comb) : comb := Comb (cb_sr c) (fun _ => zero) (cb_max c) (cb_dt c) (cb_dc c) (cb_fb c) (cb_size c) 0.

(** Calls after [init]. *)
Inductive cb_op := CbTick (x : f32) | CbDelay (dt : f32) | CbDecay (dc : f32) | CbReset.
(** One call; a tick yields its output. *)
Definition cb_call (L : libm) (fuel : nat) (c : comb) (o : cb_op) : res (comb * option f32) :=
  match o with
  | CbTick x => p <~ cb_tick fuel c x ;; Val (snd p, Some (fst p))
  | CbDelay d => Val (cb_setDelayTime L c d, None)
  | CbDecay d => Val (cb_setDecayTime L c d, None)
  | CbReset => Val (cb_reset c, None)
  end.
