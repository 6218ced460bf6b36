(** What XPlay is specified against. *)
From Coq Require Import ZArith Reals Bool List.
From Flocq Require Import Core BinarySingleNaN.
From Verif Require Import Flt FltFacts Libm Res UtilModel SmoothModel EnvModel EnvSpec RdModel RdSpec XpModel.
Import ListNotations.
Local Open Scope R_scope.

(** Sample rates of XPlay. *)
Definition xsr_ok (sr : f32) : Prop := fin sr /\ 1 <= B2R sr <= bpow radix2 18.
(** Buffers: when [isValid] holds there really are that many frames, at most 2^32 of them; the recorded sample rate is at most 2^18 Hz or not positive. *)
Definition xbuf_ok (b : option rbuf) : Prop :=
  match b with
  | None => True
  | Some b => (rb_valid b = true -> rb_ok b /\ (rb_n b <= 2 ^ 32)%Z) /\ (flt zero (rb_sr b) = true -> fin (rb_sr b) /\ B2R (rb_sr b) <= bpow radix2 18)
  end.
(** Rates up to 2^16 in magnitude. *)
Definition xrate_ok (r : f32) : Prop := fin r /\ Rabs (B2R r) <= bpow radix2 16.
(** Calls covered: no NaN start or end, fade times up to 2^f seconds (NaN allowed: it counts as 0). *)
Definition x_op_ok (f : Z) (o : x_op) : Prop :=
  match o with
  | XInit sr => xsr_ok sr
  | XBuffer b => xbuf_ok b
  | XStartEnd s e _ => is_nan s = false /\ is_nan e = false
  | XRate r => xrate_ok r
  | XFadeTime t => flt zero t = true -> fin t /\ B2R t <= bpow radix2 f
  | _ => True
  end.
(** Calls that cannot loop. *)
Definition x_op_plain (o : x_op) : Prop := match o with XStartEnd _ _ true => False | _ => True end.
(** A session: a new object, whatever its uninitialised parts hold, [init], then calls. *)
Definition x_session (L : libm) (fuel : nat) (junk : bufrd * lagl * adsr) (sr : f32) (ops : list x_op) : res (xplay * list (f32 * f32)) :=
  let '(rd, lag, env) := junk in x_run L fuel (x_new rd lag env) (XInit sr :: ops).
Definition not_undef {A} (r : res A) : Prop := match r with Undef => False | _ => True end.
Definition returns {A} (r : res A) : Prop := exists a, r = Val a.
(** What playing needs: a valid buffer that the reader has too, and a loop. *)
Definition x_plays (x : xplay) (b : rbuf) : Prop := x_buf x = Some b /\ rb_valid b = true /\ rd_buf (x_rd x) = Some b /\ fle (x_size x) zero = false.
(** A position in the window of two loop lengths, up to rounding. *)
Definition settled (y : xplay) (p : R) : Prop :=
  let w := 2 * B2R (x_size y) in
  B2R (x_ls y) - bpow radix2 (-22) * (B2R (x_ls y) + w) <= p <= (B2R (x_ls y) + w) * (1 + bpow radix2 (-22)).
(** The phasor in its window of two loop lengths; below it by rounding only. *)
Definition in_window (k : Z) (x : xplay) : Prop := B2R (x_ls x) - bpow radix2 (k - 22) <= B2R (x_ph x) <= B2R (fadd (x_ls x) (fmul (x_size x) two)).
(** Loops in the first 2^k frames, not too short, and at most one loop length per sample. *)
Definition tame (k : Z) (x : xplay) : Prop :=
  (0 <= k <= 33)%Z /\ B2R (x_ls x) + 2 * B2R (x_size x) <= bpow radix2 k /\ bpow radix2 (k - 20) <= B2R (x_size x) /\ Rabs (B2R (x_eff x)) <= B2R (x_size x).
(** Buffers whose valid frames are bounded by 2^j. *)
Definition x_op_loud (j : Z) (o : x_op) : Prop := match o with XBuffer (Some b) => rb_valid b = true -> loud j b 0 /\ loud j b 1 | _ => True end.
(** Settings of the reader. *)
Definition reader_op (o : x_op) : Prop := match o with XInterp _ | XWrap _ => True | _ => False end.
(** No cubic interpolation. *)
Definition x_op_nocubic (o : x_op) : Prop := match o with XInterp m => m <> 4%Z | _ => True end.
(** Both channels finite and at most [m]. *)
Definition within2 (m : R) (y : f32 * f32) : Prop := (fin (fst y) /\ Rabs (B2R (fst y)) <= m) /\ (fin (snd y) /\ Rabs (B2R (snd y)) <= m).
(** Gates other than NaN. *)
Definition x_op_gate (o : x_op) : Prop := match o with XGate g => is_nan g = false | _ => True end.
(** Both channels are zero. *)
Definition quiet2 (y : f32 * f32) : Prop := (fin (fst y) /\ B2R (fst y) = 0) /\ (fin (snd y) /\ B2R (snd y) = 0).
(** Calls that do not hand over a buffer. *)
Definition x_op_nobuf (o : x_op) : Prop := match o with XBuffer _ => False | _ => True end.
(** The envelope of a new XPlay: EnvelopeADSR with attack and release 0.05 s, decay 0, sustain 1, gate 1; the first [k] values. *)
Definition x_envelope (L : libm) (sr : f32) (k : nat) : list f32 :=
  snd (ad_ticks k (fst (ad_run L (ad_init L sr) [AdAttack (fdec 5 100); AdDecay zero; AdSustain one; AdRelease (fdec 5 100); AdAction 2; AdGate one]))).
