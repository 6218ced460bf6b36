(** Model of ugens/XPlay.h, built from the models of BufRd, Wrap, XFade2, LagLinear and EnvelopeADSR.
    The buffer is a value: it is not modified or freed while XPlay points to it.  [dbAmp] is never used and left out,
    and so are the cached gains of [xfader] and the cached range of [wrapper], which no call here reads. *)
From Coq Require Import ZArith Bool List.
From Flocq Require Import BinarySingleNaN.
From Verif Require Import Flt Libm Res UtilModel PanModel SmoothModel EnvModel RdModel.
Import ListNotations.
Local Open Scope flt_scope.

(** [std::min], [std::max]: the first argument unless the comparison says otherwise. *)
Definition smin (a b : f32) : f32 := if b <? a then b else a.
Definition smax (a b : f32) : f32 := if a <? b then b else a.

(** XPlay.h:48-72 data members; [x_bounce] is [playMode == Bounce]. *)
Record xplay := XPlay { x_buf : option rbuf; x_sr : f32; x_start : f32; x_end : f32; x_rate : f32; x_fade : f32; x_gate : f32; x_bounce : bool;
  x_frames : f32; x_ls : f32; x_le : f32; x_size : f32; x_ph : f32; x_rev : bool; x_half : bool;
  x_rd : bufrd; x_lag : lagl; x_env : adsr }.
(** XPlay.h:48-64 default member initialisers; the UGens have none that matter, any content will do. *)
Definition x_new (rd : bufrd) (lag : lagl) (env : adsr) : xplay :=
  XPlay None (fofZ 48000) zero one one (fdec 5 100) one false zero zero zero zero zero false false rd lag env.

(** XPlay.h:160 the test for something to play. *)
Definition x_usable (b : option rbuf) : bool := match b with Some b => rb_valid b | None => false end.
(** XPlay.h:262-267: the two loops that bring the phasor back, at most [fuel] rounds each. *)
Fixpoint x_up (fuel : nat) (p lo w : f32) : res f32 :=
  if p <? lo then match fuel with O => Spin | S k => x_up k (p + w) lo w end else Val p.
Fixpoint x_down (fuel : nat) (p hi w : f32) : res f32 :=
  if p >=? hi then match fuel with O => Spin | S k => x_down k (p - w) hi w end else Val p.
(** XPlay.h:244-269 [updateLoopBounds]. *)
Definition x_update (fuel : nat) (x : xplay) (reset : bool) : res xplay :=
  let frames := match x_buf x with Some b => if rb_valid b then fofZ (rb_n b) else zero | None => zero end in
  let ls := smin (x_start x) (x_end x) * frames in
  let le := smax (x_start x) (x_end x) * frames in
  let size := smax zero (le - ls) in
  let rev := x_start x >? x_end x in
  let mk p h := XPlay (x_buf x) (x_sr x) (x_start x) (x_end x) (x_rate x) (x_fade x) (x_gate x) (x_bounce x) frames ls le size p rev h (x_rd x) (x_lag x) (x_env x) in
  if reset || (size <=? zero) then Val (mk ls false)
  else
    let w := size * two in
    p <~ x_up fuel (x_ph x) ls w ;;
    p <~ x_down fuel p (ls + w) w ;;
    Val (mk p (p >=? ls + size)).
(** XPlay.h:78-90 [init]. *)
Definition x_init (L : libm) (fuel : nat) (x : xplay) (sr : f32) : res xplay :=
  lag <~ of_opt (ll_init sr (- one) (x_fade x)) ;;
  let e := ad_setDoneAction (ad_setRelease L (ad_setSustain (ad_setDecay L (ad_setAttack L (ad_init L sr) (x_fade x)) zero) one) (x_fade x)) 2 in
  x_update fuel (XPlay (x_buf x) sr (x_start x) (x_end x) (x_rate x) (x_fade x) (x_gate x) (x_bounce x)
    (x_frames x) (x_ls x) (x_le x) (x_size x) (x_ph x) (x_rev x) (x_half x) (rd_init None) lag (ad_setgate e (x_gate x))) true.
(** XPlay.h:95-99 [setBuffer]. *)
Definition x_setBuffer (fuel : nat) (x : xplay) (b : option rbuf) : res xplay :=
  x_update fuel (XPlay b (x_sr x) (x_start x) (x_end x) (x_rate x) (x_fade x) (x_gate x) (x_bounce x)
    (x_frames x) (x_ls x) (x_le x) (x_size x) (x_ph x) (x_rev x) (x_half x) (rd_setBuffer (x_rd x) b) (x_lag x) (x_env x)) true.
(** 1e-9f (0x3089705F). *)
Definition e9 : f32 := flit 9007199 (-53).
(** XPlay.h:104-115 [setStartEnd]. *)
Definition x_setStartEnd (fuel : nat) (x : xplay) (s e : f32) (preserve : bool) : res xplay :=
  let cs := clamp s zero one in
  let ce := clamp e zero one in
  if (fabs (cs - x_start x) <? e9) && (fabs (ce - x_end x) <? e9) then Val x
  else x_update fuel (XPlay (x_buf x) (x_sr x) cs ce (x_rate x) (x_fade x) (x_gate x) (x_bounce x)
    (x_frames x) (x_ls x) (x_le x) (x_size x) (x_ph x) (x_rev x) (x_half x) (x_rd x) (x_lag x) (x_env x)) (negb preserve).
(** XPlay.h:120 [setRate], 125 [setPlayMode]. *)
Definition x_setRate (x : xplay) (r : f32) : xplay :=
  XPlay (x_buf x) (x_sr x) (x_start x) (x_end x) r (x_fade x) (x_gate x) (x_bounce x)
    (x_frames x) (x_ls x) (x_le x) (x_size x) (x_ph x) (x_rev x) (x_half x) (x_rd x) (x_lag x) (x_env x).
Definition x_setPlayMode (x : xplay) (bounce : bool) : xplay :=
  XPlay (x_buf x) (x_sr x) (x_start x) (x_end x) (x_rate x) (x_fade x) (x_gate x) bounce
    (x_frames x) (x_ls x) (x_le x) (x_size x) (x_ph x) (x_rev x) (x_half x) (x_rd x) (x_lag x) (x_env x).
(** XPlay.h:130-135 [setFadeTime]. *)
Definition x_setFadeTime (L : libm) (x : xplay) (t : f32) : res xplay :=
  let f := smax zero t in
  lag <~ of_opt (ll_setTime (x_lag x) f) ;;
  Val (XPlay (x_buf x) (x_sr x) (x_start x) (x_end x) (x_rate x) f (x_gate x) (x_bounce x)
    (x_frames x) (x_ls x) (x_le x) (x_size x) (x_ph x) (x_rev x) (x_half x) (x_rd x) lag (ad_setRelease L (ad_setAttack L (x_env x) f) f)).
(** XPlay.h:140-143 [setGate], 148 [isDone], 153 [resetPhasor]. *)
Definition x_setGate (x : xplay) (g : f32) : xplay :=
  XPlay (x_buf x) (x_sr x) (x_start x) (x_end x) (x_rate x) (x_fade x) g (x_bounce x)
    (x_frames x) (x_ls x) (x_le x) (x_size x) (x_ph x) (x_rev x) (x_half x) (x_rd x) (x_lag x) (ad_setgate (x_env x) g).
Definition x_isDone (x : xplay) : bool := ad_isDone (x_env x).
Definition x_resetPhasor (x : xplay) : xplay :=
  XPlay (x_buf x) (x_sr x) (x_start x) (x_end x) (x_rate x) (x_fade x) (x_gate x) (x_bounce x)
    (x_frames x) (x_ls x) (x_le x) (x_size x) (x_ls x) (x_rev x) (x_half x) (x_rd x) (x_lag x) (x_env x).

(** XPlay.h:165-167 effective rate. *)
Definition x_eff (x : xplay) : f32 :=
  let bsr := match x_buf x with Some b => rb_sr b | None => zero end in
  let scale := if bsr >? zero then bsr / x_sr x else one in
  x_rate x * scale * (if x_rev x then - one else one).
(** XPlay.h:195-197 [pingpong]. *)
Definition x_pingpong (size p : f32) : f32 := if p <=? size then p else size * two - p.
(** XPlay.h:180-205 positions of the two read heads. *)
Definition x_heads (x : xplay) : f32 * f32 :=
  let cur := x_ph x in
  if negb (x_bounce x) then (wrap_direct cur zero (x_frames x), wrap_direct (cur - x_size x) zero (x_frames x))
  else
    let twoSize := x_size x * two in
    let p := ffmod (cur - x_ls x) twoSize in
    let p := if p <? zero then p + twoSize else p in
    (x_ls x + x_pingpong (x_size x) p, x_ls x + x_pingpong (x_size x) (twoSize - p)).
(** XPlay.h:217-227 next phasor, and [inSecondHalf] given its value before. *)
Definition x_next (x : xplay) (h : bool) : f32 * bool :=
  let w := x_size x * two in
  let cur := x_ph x + x_eff x in
  if cur >=? x_ls x + w then (cur - w, false)
  else if cur <? x_ls x then let c := cur + w in (c, c >=? x_ls x + x_size x)
  else (cur, h).
(** XPlay.h:159-230 [tick]. *)
Definition x_tick (L : libm) (x : xplay) : res ((f32 * f32) * xplay) :=
  if negb (x_usable (x_buf x)) || (x_size x <=? zero) then Val ((zero, zero), x)
  else
    let h := x_ph x >=? x_ls x + x_size x in
    lf <~ of_opt (ll_tick (x_lag x) (if h then one else - one)) ;;
    let '(lag, fade) := lf in
    let '(pos1, pos2) := x_heads x in
    sig1 <~ of_opt (rd_tick2 (x_rd x) pos1) ;;
    sig2 <~ of_opt (rd_tick2 (x_rd x) pos2) ;;
    let snd_ := xf_process2 L sig1 sig2 fade one in
    let (env, v) := ad_tick (x_env x) in
    let '(p, h2) := x_next x h in
    Val ((fst snd_ * v, snd snd_ * v),
      XPlay (x_buf x) (x_sr x) (x_start x) (x_end x) (x_rate x) (x_fade x) (x_gate x) (x_bounce x)
        (x_frames x) (x_ls x) (x_le x) (x_size x) p (x_rev x) h2 (x_rd x) lag env).

(** XPlay.h:67 the public member [reader], set through BufRd.h:87-97. *)
Definition x_setReader (x : xplay) (r : bufrd) : xplay :=
  XPlay (x_buf x) (x_sr x) (x_start x) (x_end x) (x_rate x) (x_fade x) (x_gate x) (x_bounce x)
    (x_frames x) (x_ls x) (x_le x) (x_size x) (x_ph x) (x_rev x) (x_half x) r (x_lag x) (x_env x).

(** Calls on an initialised XPlay; [XInterp] and [XWrap] are [reader.setInterpolation] and [reader.setLoop]. *)
Inductive x_op := XInit (sr : f32) | XBuffer (b : option rbuf) | XStartEnd (s e : f32) (preserve : bool) | XRate (r : f32) | XMode (bounce : bool)
  | XFadeTime (t : f32) | XGate (g : f32) | XInterp (m : Z) | XWrap (l : bool) | XReset | XTick.
(** One call; a tick yields its output. *)
Definition x_call (L : libm) (fuel : nat) (x : xplay) (o : x_op) : res (xplay * option (f32 * f32)) :=
  match o with
  | XInit sr => y <~ x_init L fuel x sr ;; Val (y, None)
  | XBuffer b => y <~ x_setBuffer fuel x b ;; Val (y, None)
  | XStartEnd s e p => y <~ x_setStartEnd fuel x s e p ;; Val (y, None)
  | XRate r => Val (x_setRate x r, None)
  | XMode b => Val (x_setPlayMode x b, None)
  | XFadeTime t => y <~ x_setFadeTime L x t ;; Val (y, None)
  | XGate g => Val (x_setGate x g, None)
  | XInterp m => Val (x_setReader x (rd_setInterpolation (x_rd x) m), None)
  | XWrap l => Val (x_setReader x (rd_setLoop (x_rd x) l), None)
  | XReset => Val (x_resetPhasor x, None)
  | XTick => p <~ x_tick L x ;; Val (snd p, Some (fst p))
  end.
(** A session; the outputs of its ticks in order. *)
Fixpoint x_run (L : libm) (fuel : nat) (x : xplay) (ops : list x_op) : res (xplay * list (f32 * f32)) :=
  match ops with
  | [] => Val (x, [])
  | o :: t => p <~ x_call L fuel x o ;; q <~ x_run L fuel (fst p) t ;; Val (fst q, match snd p with Some y => y :: snd q | None => snd q end)
  end.
