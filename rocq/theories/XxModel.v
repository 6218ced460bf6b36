(** Model of examples/jack_xplay.cpp: [loadAudioFile] is [PbModel.load], which it shares with the playback example.
    libsndfile, JACK and X11 are outside; the process callback runs to completion between two changes of the targets. *)
From Coq Require Import ZArith Bool List.
From Flocq Require Import BinarySingleNaN.
From Verif Require Import Flt Libm Res UtilModel SmoothModel RdModel EnvModel XpModel AllocModel PbModel.
Import ListNotations.
Local Open Scope flt_scope.

(** jack_xplay.cpp:133 [g_buffer.sampleRate = info.samplerate]: the loaded buffer as [XPlay] sees it. *)
Definition xx_buffer (P : Z) (st : astate) (b : buffer) (rate : Z) : rbuf :=
  let v := view P st b in RBuf (rb_data v) (rb_len v) (rb_ch v) (fofZ rate) (rb_n v).
(** jack_xplay.cpp:29-37 the global state. *)
Record looper := Looper { xx_x : xplay; xx_sl : lag; xx_el : lag; xx_s : f32; xx_e : f32 }.
(** jack_xplay.cpp:141-159 [configurePlayback]. *)
Definition xx_setup (b : rbuf) (sr : f32) : list x_op :=
  [XInit sr; XBuffer (Some b); XInterp 4; XWrap true; XFadeTime half; XGate one; XRate half; XStartEnd (fdec 25 100) (fdec 75 100) false].
Definition xx_configure (L : libm) (fuel : nat) (b : rbuf) (s : looper) (sr : f32) : res looper :=
  let sl := lg_setValue (lg_init L sr (fdec 2 10)) (xx_s s) in
  let el := lg_setValue (lg_init L sr (fdec 2 10)) (xx_e s) in
  q <~ x_run L fuel (xx_x s) (xx_setup b sr) ;; Val (Looper (fst q) sl el (xx_s s) (xx_e s)).
(** jack_xplay.cpp:29-37, 200: the globals, then the first [configurePlayback]; the targets are 0 and 1. *)
Definition xx_start (L : libm) (fuel : nat) (b : rbuf) (junk : bufrd * lagl * adsr) (sr : Z) : res looper :=
  let '(rd, lag, env) := junk in
  xx_configure L fuel b (Looper (x_new rd lag env) (Lag zero zero zero zero) (Lag zero zero zero zero) zero one) (fofZ sr).
(** jack_xplay.cpp:57-65 one frame; the smoothed points are computed and, line 60 being commented out, not used. *)
Definition xx_frame (L : libm) (s : looper) : res (looper * (f32 * f32)) :=
  let (sl, smStart) := lg_tick (xx_sl s) (xx_s s) in
  let (el, smEnd) := lg_tick (xx_el s) (xx_e s) in
  p <~ x_tick L (xx_x s) ;; Val (Looper (snd p) sl el (xx_s s) (xx_e s), fst p).
(** jack_xplay.cpp:48-68 [jackProcessCallback]. *)
Fixpoint xx_block (L : libm) (s : looper) (n : nat) : res (looper * list (f32 * f32)) :=
  match n with
  | O => Val (s, [])
  | S n => a <~ xx_frame L s ;; c <~ xx_block L (fst a) n ;; Val (fst c, snd a :: snd c)
  end.
(** What happens to the running program: sample-rate callback (73-77), pointer poll (236-246; screen of [w] x [h]), process callback. *)
Inductive xx_call := XxRate (sr : Z) | XxPoint (x y w h : Z) | XxBlock (n : nat).
Definition xx_op (L : libm) (fuel : nat) (b : rbuf) (s : looper) (o : xx_call) : res (looper * list (f32 * f32)) :=
  match o with
  | XxRate sr => t <~ xx_configure L fuel b s (fofZ sr) ;; Val (t, [])
  | XxPoint x y w h => Val (Looper (xx_x s) (xx_sl s) (xx_el s) (pl_column x w) (pl_column y h), [])
  | XxBlock n => xx_block L s n
  end.
Fixpoint xx_run (L : libm) (fuel : nat) (b : rbuf) (s : looper) (os : list xx_call) : res (looper * list (f32 * f32)) :=
  match os with
  | [] => Val (s, [])
  | o :: os => a <~ xx_op L fuel b s o ;; c <~ xx_run L fuel b (fst a) os ;; Val (fst c, snd a ++ snd c)
  end.
(** The whole program: its final state and everything it plays. *)
Definition xx_session (L : libm) (fuel : nat) (b : rbuf) (junk : bufrd * lagl * adsr) (sr : Z) (os : list xx_call) : res (looper * list (f32 * f32)) :=
  s <~ xx_start L fuel b junk sr ;; xx_run L fuel b s os.
