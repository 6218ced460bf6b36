(** Model of examples/jack_playback_example.cpp.
    libsndfile and JACK are outside: a file is its header and the stream of its samples, all of which arrive
    (a short read writes fewer samples); the process callback runs to completion between two changes of the
    control value, which it reads once.  Printing and shutting down are left out. *)
From Coq Require Import ZArith Bool List.
From Flocq Require Import BinarySingleNaN.
From Verif Require Import Flt Libm UtilModel AllocModel LineModel SmoothModel RdModel DsModel.
Import ListNotations.
Local Open Scope flt_scope.

(** [SF_INFO] with the interleaved samples of the file. *)
Record sfile := SFile { sf_frames : Z; sf_ch : Z; sf_rate : Z; sf_item : Z -> f32 }.
(** [sf_read_float], [sf_readf_float] store items [i], [i+1], ..., [todo] of them, from [&pool_[base]] on; outside the pool is undefined.
    Simplification: nothing else lies next to the pool, and items past the end of the block but inside the pool are stored. *)
Fixpoint sf_store (P : Z) (m : Z -> f32) (base : Z) (item : Z -> f32) (i : Z) (todo : nat) : option (Z -> f32) :=
  match todo with O => Some m | S t => AllocModel.bind (pset P m (base + i) (item i)) (fun m' => sf_store P m' base item (i + 1)%Z t) end.
(** jack_playback_example.cpp:85-138 and jack_xplay.cpp:95-135 [loadAudioFile] after [sf_open] succeeded; the allocator, and the buffer if [true] is returned. *)
Definition load_channels (f : sfile) : Z := if (2 <=? sf_ch f)%Z then 2 else 1.
Definition load (P : Z) (st : astate) (f : sfile) : option (astate * option buffer) :=
  AllocModel.bind (allocate P st (sf_frames f) (load_channels f)) (fun a =>
  let (st', b) := a in
  if negb (isValid b) then Some (st', None)
  else match data b with
       | PPool base =>
           let items := if (load_channels f =? 1)%Z then sf_frames f else (sf_frames f * sf_ch f)%Z in
           AllocModel.bind (sf_store P (pool st') base (sf_item f) 0 (Z.to_nat items)) (fun m =>
           Some (AState m (blocks st') (srate st') (bcount st') (inited st'), Some b))
       | _ => None
       end).
(** The buffer as [BufRd] sees it: the array from [data] on reaches to the end of the pool. *)
Definition view (P : Z) (st : astate) (b : buffer) : rbuf :=
  match data b with
  | PPool base => RBuf (Some (fun i => pool st (base + i)%Z)) (P - base) (channels b) (bufRate b) (numSamples b)
  | _ => RBuf None 0 (channels b) (bufRate b) (numSamples b)
  end.

(** jack_playback_example.cpp:40-53 the global state the callback works on. *)
Record player := Player { pl_buf : rbuf; pl_frate : f32; pl_ph : phasor; pl_lag : lag; pl_ds : ds2; pl_base : f32; pl_ctl : f32 }.
(** jack_playback_example.cpp:58-78 [configurePlayback], OVERSAMPLE_FACTOR = 2. *)
Definition pl_configure (L : libm) (s : player) (sr : f32) : player :=
  let internal := sr * two in
  let ph := ph_init internal in
  let lg := lg_init L internal (fdec 2 10) in
  let d := ds2_init L sr 2 in
  if rb_valid (pl_buf s) then
    let base := pl_frate s / internal in
    let target := base * pl_ctl s in
    Player (pl_buf s) (pl_frate s) (ph_set ph target zero (fofZ (rb_n (pl_buf s))) zero) (lg_setValue lg target) d base (pl_ctl s)
  else Player (pl_buf s) (pl_frate s) ph lg d (pl_base s) (pl_ctl s).
(** jack_playback_example.cpp:47-53, 263: start of the program after loading a file of [rate] Hz. *)
Definition pl_start (L : libm) (b : rbuf) (rate : Z) (sr : Z) : player :=
  pl_configure L (Player b (fofZ rate) (ph_init zero) (Lag zero zero zero zero) (ds2_init L zero 1) one one) (fofZ sr).
(** jack_playback_example.cpp:159-166, 266-268: one oversampled step; the reader loops and interpolates cubically. *)
Definition pl_tick (s : player) (target : f32) : option player :=
  let (lg, r) := lg_tick (pl_lag s) target in
  let (ph, phase) := ph_tick (ph_setRate (pl_ph s) r) in
  x <- rd_tick2 (BufRd (Some (pl_buf s)) true 4) phase ;;
  Some (Player (pl_buf s) (pl_frate s) ph lg (ds2_write (pl_ds s) (fst x) (snd x)) (pl_base s) (pl_ctl s)).
(** jack_playback_example.cpp:157-171: one output frame. *)
Definition pl_frame (s : player) (target : f32) : option (player * (f32 * f32)) :=
  s1 <- pl_tick s target ;; s2 <- pl_tick s1 target ;;
  let (d, y) := ds2_read (pl_ds s2) in
  Some (Player (pl_buf s2) (pl_frate s2) (pl_ph s2) (pl_lag s2) d (pl_base s2) (pl_ctl s2), y).
Fixpoint pl_frames (s : player) (target : f32) (n : nat) : option (player * list (f32 * f32)) :=
  match n with
  | O => Some (s, [])
  | S n => a <- pl_frame s target ;; let (s1, y) := a in c <- pl_frames s1 target n ;; let (s2, ys) := c in Some (s2, y :: ys)
  end.
(** jack_playback_example.cpp:146-174 [jackProcessCallback]. *)
Definition pl_block (s : player) (n : nat) : option (player * list (f32 * f32)) := pl_frames s (pl_base s * pl_ctl s) n.
(** jack_playback_example.cpp:314-331: pointer column [x] on a screen of [w] columns to playback rate. *)
Definition pl_column (x w : Z) : f32 :=
  let n := fofZ x / fofZ w in
  let n := if n <? one then n else one in
  if zero <? n then n else zero.
Definition pl_rate (L : libm) (x w : Z) : f32 :=
  let centered := (pl_column x w - half) * two in
  let mag := fabs centered in
  if mag >? fdec 2 100 then
    let scaled := (mag - fdec 2 100) / (one - fdec 2 100) in
    let scaled := if scaled <? one then scaled else one in
    let scaled := if zero <? scaled then scaled else zero in
    let lo := m_log L (fdec 25 100) in
    let hi := m_log L (fofZ 4) in
    let m := m_exp L (lo + scaled * (hi - lo)) in
    if centered >? zero then m else fneg m
  else zero.
(** What happens to a running player: sample-rate callback (179-185), pointer poll (303-333), process callback. *)
Inductive pl_call := LRate (sr : Z) | LMouse (x w : Z) | LBlock (n : nat).
Definition pl_op (L : libm) (s : player) (o : pl_call) : option (player * list (f32 * f32)) :=
  match o with
  | LRate sr => Some (pl_configure L s (fofZ sr), [])
  | LMouse x w => Some (Player (pl_buf s) (pl_frate s) (pl_ph s) (pl_lag s) (pl_ds s) (pl_base s) (pl_rate L x w), [])
  | LBlock n => pl_block s n
  end.
Fixpoint pl_run (L : libm) (s : player) (os : list pl_call) : option (player * list (f32 * f32)) :=
  match os with
  | [] => Some (s, [])
  | o :: os => a <- pl_op L s o ;; let (s1, ys) := a in c <- pl_run L s1 os ;; let (s2, zs) := c in Some (s2, ys ++ zs)
  end.
