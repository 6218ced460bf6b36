(** Model of examples/supersaw_example.cpp.
    JACK and X11 are outside.  The process callback reads the two control values anew for every sample, so the stores of a
    pointer poll may fall between any two samples of a block.  Printing and shutting down are left out; the measurement of the
    processing time (67-71, 195-214) is in CpuModel.v.  [gen k] are the numbers a generator with seed [k] draws (see [VcModel.ss_init]). *)
From Coq Require Import ZArith Bool List.
From Flocq Require Import BinarySingleNaN.
From Verif Require Import Flt Libm UtilModel SmoothModel DsModel MgModel RkModel VcModel FvModel MxModel.
Import ListNotations.
Local Open Scope flt_scope.

(** supersaw_example.cpp:47-63, 75-76 the globals; [sx_dcl], [sx_dcr]: x1 and y1 of the DC blocker of a side. *)
Record choir := Choir { sx_v : list ssaw; sx_cl : lag; sx_dl : lag; sx_ds : ds2; sx_fl : rk; sx_fr : rk; sx_rev : fverb; sx_pl : opl; sx_pr : opl;
  sx_dcl : f32 * f32; sx_dcr : f32 * f32; sx_cut : f32; sx_dr : f32 }.
(** supersaw_example.cpp:86-89 [driveFromNormalized]. *)
Definition sx_gain (L : libm) (n : f32) : f32 := fdec 1 100 * m_pow L (fofZ 100 / fdec 1 100) (mx_norm n).
(** supersaw_example.cpp:235-245 and 350-360: one SuperSaw; [rnd] are its random numbers. *)
Definition sx_voice (L : libm) (sr : f32) (rnd : Z -> f32) (f : f32) : ssaw :=
  let s := ss_setDetune (ss_setFrequency (ss_init L sr rnd) f) (fdec 2 10) in
  let s := ss_setSpread (ss_setVibratoDepth (ss_setVibratoRate s (fofZ 6)) (fdec 3 10)) (fdec 6 10) in
  ss_gate (ss_setRelease L (ss_setSustain (ss_setDecay L (ss_setAttack L s (fdec 1 100)) (fdec 1 10)) (fdec 7 10)) (fdec 3 10)) one.
(** supersaw_example.cpp:78 [VOICE_FREQUENCIES]. *)
Definition sx_voices (L : libm) (sr : f32) (r0 r1 r2 : Z -> f32) : list ssaw :=
  [sx_voice L sr r0 (fofZ 55); sx_voice L sr r1 (fdec 32963 100); sx_voice L sr r2 (fdec 52325 100)].
(** supersaw_example.cpp:247-256 and 362-371: a filter. *)
Definition sx_filter (L : libm) (sr dr : f32) : rk :=
  rk_setDrive (rk_setResonance (rk_setCutoff (rk_setOversample (rk_init sr) 2) (fofZ 5000)) (fdec 1 100)) (sx_gain L dr).
(** supersaw_example.cpp:274-280 and 392-398: the reverb, whatever it was before. *)
Definition sx_reverb (sr : f32) (f : fverb) : option fverb :=
  g <- fv_init sr f ;;
  Some (fv_set DAMPING (fofZ 5500) (fv_set INPUT_DIFFUSION_2 (fofZ 75) (fv_set INPUT_DIFFUSION_1 (fofZ 70)
    (fv_set TAIL_DENSITY (fofZ 80) (fv_set DECAY (fofZ 82) (fv_set PREDELAY (fofZ 150) g)))))).
(** supersaw_example.cpp:224-283 [jackSampleRateCallback], OVERSAMPLE_FACTOR = 1: the rate times 1; [SuperSaw::init] with its default seed 42. *)
Definition sx_rate (L : libm) (gen : Z -> Z -> f32) (s : choir) (n : Z) : option choir :=
  let sr := fofZ n in
  let ir := sr * one in
  g <- sx_reverb sr (sx_rev s) ;;
  Some (Choir (sx_voices L ir (gen 42%Z) (gen 42%Z) (gen 42%Z)) (lg_init L ir (fdec 2 10)) (lg_init L ir (fdec 2 10)) (ds2_init L sr 1)
    (sx_filter L ir (sx_dr s)) (sx_filter L ir (sx_dr s)) g (op_init L sr (sx_cut s)) (op_init L sr (sx_cut s)) (zero, zero) (zero, zero) (sx_cut s) (sx_dr s)).
(** supersaw_example.cpp:75-76, 339-398: start of the program. *)
Definition sx_start (L : libm) (gen : Z -> Z -> f32) (n : Z) : option choir :=
  let sr := fofZ n in
  let ir := sr * one in
  g <- sx_reverb sr fv_new ;;
  Some (Choir (sx_voices L ir (gen 42%Z) (gen 43%Z) (gen 44%Z)) (lg_setValue (lg_init L ir (fdec 2 10)) (fofZ 5000)) (lg_setValue (lg_init L ir (fdec 2 10)) zero)
    (ds2_init L sr 1) (sx_filter L ir zero) (sx_filter L ir zero) g (op_init L sr (fofZ 5000)) (op_init L sr (fofZ 5000)) (zero, zero) (zero, zero) (fofZ 5000) zero).
(** supersaw_example.cpp:139-144. *)
Fixpoint sx_mix (L : libm) (vs : list ssaw) (m : f32 * f32) : list ssaw * (f32 * f32) :=
  match vs with
  | [] => ([], m)
  | v :: t => let (v', y) := ss_tick L v in let (t', m') := sx_mix L t (fst m + fst y, snd m + snd y) in (v' :: t', m')
  end.
(** supersaw_example.cpp:132-137 a filter with this sample's settings. *)
Definition sx_tuned (f : rk) (c g : f32) : rk := rk_setDrive (rk_setResonance (rk_setCutoff f c) (fdec 1 100)) g.
(** supersaw_example.cpp:154-160 DC blocker. *)
Definition sx_dc (d : f32 * f32) (x : f32) : f32 * f32 := (x, dc_out (fdec 995 1000) (fst d) (snd d) x).
(** supersaw_example.cpp:122-170: one sample, up to the reverb. *)
Definition sx_tick (L : libm) (s : choir) : choir * (f32 * f32) :=
  let (cl, c) := lg_tick (sx_cl s) (sx_cut s) in
  let (dl, d) := lg_tick (sx_dl s) (sx_dr s) in
  let g := sx_gain L d in
  let (vs, m) := sx_mix L (sx_v s) (zero, zero) in
  let inv := one / fofZ 3 in
  let (fl, yl) := rk_tick (sx_tuned (sx_fl s) c g) (fst m * inv) in
  let (fr, yr) := rk_tick (sx_tuned (sx_fr s) c g) (snd m * inv) in
  let dcl := sx_dc (sx_dcl s) yl in
  let dcr := sx_dc (sx_dcr s) yr in
  let (ds, y) := ds2_read (ds2_write (sx_ds s) (snd dcl) (snd dcr)) in
  let (pl, zl) := op_tickmod L (sx_pl s) (fst y) c in
  let (pr, zr) := op_tickmod L (sx_pr s) (snd y) c in
  (Choir vs cl dl ds fl fr (sx_rev s) pl pr dcl dcr (sx_cut s) (sx_dr s), (zl, zr)).
(** supersaw_example.cpp:449-455: pointer column to cutoff. *)
Definition sx_cutoff (L : libm) (x w : Z) : f32 :=
  let n := mx_norm (fofZ x / fofZ w) in
  let lo := m_log L (fofZ 100) in
  let hi := m_log L (fofZ 12000) in
  m_exp L (lo + n * (hi - lo)).
(** supersaw_example.cpp:459-461: pointer row to drive. *)
Definition sx_drive (y h : Z) : f32 := mx_norm (one - fofZ y / fofZ h).
(** The two stores of a pointer poll (456, 462): column [x] of [w], row [y] of [h]. *)
Inductive sx_store := SCol (x w : Z) | SRow (y h : Z).
Definition sx_put (L : libm) (s : choir) (p : sx_store) : choir :=
  match p with
  | SCol x w => Choir (sx_v s) (sx_cl s) (sx_dl s) (sx_ds s) (sx_fl s) (sx_fr s) (sx_rev s) (sx_pl s) (sx_pr s) (sx_dcl s) (sx_dcr s) (sx_cutoff L x w) (sx_dr s)
  | SRow y h => Choir (sx_v s) (sx_cl s) (sx_dl s) (sx_ds s) (sx_fl s) (sx_fr s) (sx_rev s) (sx_pl s) (sx_pr s) (sx_dcl s) (sx_dcr s) (sx_cut s) (sx_drive y h)
  end.
(** supersaw_example.cpp:119-175: samples [i], [i+1], ... of a block, each preceded by the given stores; storing sample [i] in
    [g_reverbLeftBuffer], [g_reverbRightBuffer] outside their 8192 elements is undefined. *)
Fixpoint sx_ticks (L : libm) (s : choir) (i : Z) (fs : list (list sx_store)) : option (choir * list (f32 * f32)) :=
  match fs with
  | [] => Some (s, [])
  | ps :: t =>
      let (s1, y) := sx_tick L (fold_left (sx_put L) ps s) in
      if (i <? 8192)%Z then q <- sx_ticks L s1 (i + 1) t ;; let (s2, ys) := q in Some (s2, y :: ys) else None
  end.
(** supersaw_example.cpp:190-193 wet and dry together; [REVERB_WET] is 0.1f. *)
Definition sx_blend (d w : f32) : f32 := d * (one - fdec 1 10) + w * fdec 1 10.
Definition sx_blends (dry wet : list (f32 * f32)) : list (f32 * f32) :=
  map (fun p => (sx_blend (fst (fst p)) (fst (snd p)), sx_blend (snd (fst p)) (snd (snd p)))) (combine dry wet).
Definition sx_setrev (s : choir) (g : fverb) : choir :=
  Choir (sx_v s) (sx_cl s) (sx_dl s) (sx_ds s) (sx_fl s) (sx_fr s) g (sx_pl s) (sx_pr s) (sx_dcl s) (sx_dcr s) (sx_cut s) (sx_dr s).
(** supersaw_example.cpp:107-217 [jackProcessCallback]; a block of as many frames as the list has elements. *)
Definition sx_block (L : libm) (s : choir) (fs : list (list sx_store)) : option (choir * list (f32 * f32)) :=
  a <- sx_ticks L s 0 fs ;;
  let (s1, dry) := a in
  q <- fv_process L (sx_rev s1) dry ;;
  let (g, wet) := q in Some (sx_setrev s1 g, sx_blends dry wet).
(** What happens to a running program: sample-rate callback, a store of a pointer poll, process callback. *)
Inductive sx_call := SxRate (sr : Z) | SxStore (p : sx_store) | SxBlock (fs : list (list sx_store)).
Definition sx_op (L : libm) (gen : Z -> Z -> f32) (s : choir) (o : sx_call) : option (choir * list (f32 * f32)) :=
  match o with
  | SxRate sr => t <- sx_rate L gen s sr ;; Some (t, [])
  | SxStore p => Some (sx_put L s p, [])
  | SxBlock fs => sx_block L s fs
  end.
Fixpoint sx_run (L : libm) (gen : Z -> Z -> f32) (s : choir) (os : list sx_call) : option (choir * list (f32 * f32)) :=
  match os with
  | [] => Some (s, [])
  | o :: os => a <- sx_op L gen s o ;; let (s1, ys) := a in c <- sx_run L gen s1 os ;; let (s2, zs) := c in Some (s2, ys ++ zs)
  end.
Definition sx_session (L : libm) (gen : Z -> Z -> f32) (sr : Z) (os : list sx_call) : option (choir * list (f32 * f32)) :=
  s <- sx_start L gen sr ;; sx_run L gen s os.
