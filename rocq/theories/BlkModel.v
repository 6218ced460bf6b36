(** Block processing: the [process], [processAdd], [processMul] and [processStereo] loops of the unit generators. *)
From Coq Require Import ZArith List Bool.
From Verif Require Import Flt Libm Res UtilModel EnvModel LineModel OscModel SmoothModel CombModel RdModel PanModel XpModel LpModel MgModel
  KjModel StModel MtModel MdModel ImModel ObModel RkModel VcModel.
Import ListNotations.

(** The memory the buffer pointers of a call point into: one cell per [Sample], [None] outside every array. A pointer is the number of
    its first cell, so that buffers may overlap. *)
Definition mem := nat -> option f32.
Definition load (m : mem) (p : nat) : res f32 := of_opt (m p).
Definition store (m : mem) (p : nat) (v : f32) : res mem :=
  match m p with Some _ => Val (fun q => if Nat.eqb q p then Some v else m q) | None => Undef end.

(** [for (size_t i = 0; i < numSamples; ++i)], from [i] on, [n] rounds left. *)
Fixpoint blk {S} (body : nat -> S -> mem -> res (S * mem)) (n i : nat) (s : S) (m : mem) : res (S * mem) :=
  match n with O => Val (s, m) | Datatypes.S n => x <~ body i s m ;; blk body n (Datatypes.S i) (fst x) (snd x) end.

Section Loops.
Context {S : Type}.
(** [output[i] = tick()] *)
Definition loop_set (tick : S -> res (S * f32)) (output : nat) (n : nat) : S -> mem -> res (S * mem) :=
  blk (fun i s m => t <~ tick s ;; m <~ store m (output + i) (snd t) ;; Val (fst t, m)) n 0.
(** [output[i] += tick()], [output[i] *= tick()] *)
Definition loop_acc (op : f32 -> f32 -> f32) (tick : S -> res (S * f32)) (output : nat) (n : nat) : S -> mem -> res (S * mem) :=
  blk (fun i s m => t <~ tick s ;; old <~ load m (output + i) ;; m <~ store m (output + i) (op old (snd t)) ;; Val (fst t, m)) n 0.
(** [output[i] = tick(input[i])]; in place when both are [samples]. *)
Definition loop_map (tick : S -> f32 -> res (S * f32)) (input output : nat) (n : nat) : S -> mem -> res (S * mem) :=
  blk (fun i s m => x <~ load m (input + i) ;; t <~ tick s x ;; m <~ store m (output + i) (snd t) ;; Val (fst t, m)) n 0.
(** [output[i] = tick(a[i], b[i])] *)
Definition loop_map2 (tick : S -> f32 -> f32 -> res (S * f32)) (a b output : nat) (n : nat) : S -> mem -> res (S * mem) :=
  blk (fun i s m => x <~ load m (a + i) ;; y <~ load m (b + i) ;; t <~ tick s x y ;; m <~ store m (output + i) (snd t) ;; Val (fst t, m)) n 0.
(** [Stereo s = tick(); left[i] = s.left; right[i] = s.right;] *)
Definition loop_set2 (tick : S -> res (S * (f32 * f32))) (left right : nat) (n : nat) : S -> mem -> res (S * mem) :=
  blk (fun i s m => t <~ tick s ;; m <~ store m (left + i) (fst (snd t)) ;; m <~ store m (right + i) (snd (snd t)) ;; Val (fst t, m)) n 0.
(** [Stereo s = tick(input[i]); left[i] = s.left; right[i] = s.right;] *)
Definition loop_split (tick : S -> f32 -> res (S * (f32 * f32))) (input left right : nat) (n : nat) : S -> mem -> res (S * mem) :=
  blk (fun i s m => x <~ load m (input + i) ;; t <~ tick s x ;; m <~ store m (left + i) (fst (snd t)) ;; m <~ store m (right + i) (snd (snd t)) ;; Val (fst t, m)) n 0.
(** [Stereo s = tick(left[i], right[i]); left[i] = s.left; right[i] = s.right;] *)
Definition loop_stereo (tick : S -> f32 * f32 -> res (S * (f32 * f32))) (left right : nat) (n : nat) : S -> mem -> res (S * mem) :=
  blk (fun i s m => x <~ load m (left + i) ;; y <~ load m (right + i) ;; t <~ tick s (x, y) ;;
         m <~ store m (left + i) (fst (snd t)) ;; m <~ store m (right + i) (snd (snd t)) ;; Val (fst t, m)) n 0.
(** [Stereo s = tick(); left[i] += s.left; right[i] += s.right;] *)
Definition loop_acc2 (op : f32 -> f32 -> f32) (tick : S -> res (S * (f32 * f32))) (left right : nat) (n : nat) : S -> mem -> res (S * mem) :=
  blk (fun i s m => t <~ tick s ;; x <~ load m (left + i) ;; m <~ store m (left + i) (op x (fst (snd t))) ;;
         y <~ load m (right + i) ;; m <~ store m (right + i) (op y (snd (snd t))) ;; Val (fst t, m)) n 0.
End Loops.

(** Ticks of the unit generators as ticks with an outcome. *)
Definition pure0 {S Y} (f : S -> S * Y) (s : S) : res (S * Y) := Val (f s).
Definition pure1 {S X Y} (f : S -> X -> S * Y) (s : S) (x : X) : res (S * Y) := Val (f s x).
Definition pure2 {S X Y} (f : S -> X -> X -> S * Y) (s : S) (x y : X) : res (S * Y) := Val (f s x y).
(** Stateless ones. *)
Definition still {S X Y} (f : S -> X -> Y) (s : S) (x : X) : res (S * Y) := Val (s, f s x).
(** Ones with undefined behaviour. *)
Definition opt1 {S X Y} (f : S -> X -> option (S * Y)) (s : S) (x : X) : res (S * Y) := of_opt (f s x).
Definition still_opt {S X Y} (f : S -> X -> option Y) (s : S) (x : X) : res (S * Y) := y <~ of_opt (f s x) ;; Val (s, y).
Definition comb1 (fuel : nat) (c : comb) (x : f32) : res (comb * f32) := p <~ cb_tick fuel c x ;; Val (snd p, fst p).
Definition xplay0 (L : libm) (x : xplay) : res (xplay * (f32 * f32)) := p <~ x_tick L x ;; Val (snd p, fst p).

(** SinOsc.h:101-105 [process], 112-116 [processAdd]. *)
Definition so_process (L : libm) := loop_set (pure0 (so_tick L)).
Definition so_processAdd (L : libm) := loop_acc fadd (pure0 (so_tick L)).
(** LFTri.h:131-135, 142-146. *)
Definition lt_process := loop_set (pure0 lt_tick).
Definition lt_processAdd := loop_acc fadd (pure0 lt_tick).
(** SawDPW.h:128-132. *)
Definition sw_process := loop_set (pure0 sw_tick).
(** LFNoise2.h:160-164. *)
Definition ln_process := loop_set (pure0 ln_tick).
(** EnvelopeAR.h:217-221, 228-232 [processMul]. *)
Definition ar_process := loop_set (pure0 ar_tick).
Definition ar_processMul := loop_acc fmul (pure0 ar_tick).
(** EnvelopeADSR.h:308-312, 319-323. *)
Definition ad_process := loop_set (pure0 ad_tick).
Definition ad_processMul := loop_acc fmul (pure0 ad_tick).
(** XLine.h:188-192, 199-203, 210-214. *)
Definition xl_process := loop_set (pure0 xl_tick).
Definition xl_processMul := loop_acc fmul (pure0 xl_tick).
Definition xl_processAdd := loop_acc fadd (pure0 xl_tick).
(** Phasor.h:214-218, 226-230 (with a trigger buffer), 237-241. *)
Definition ph_process := loop_set (pure0 ph_tick).
Definition ph_processTrig (output trig : nat) := loop_map (pure1 ph_tickTrig) trig output.
Definition ph_processAdd := loop_acc fadd (pure0 ph_tick).
(** Lag.h:114-118 (in place), 126-130. *)
Definition lg_process (samples : nat) := loop_map (pure1 lg_tick) samples samples.
Definition lg_process2 := loop_map (pure1 lg_tick).
(** LagLinear.h:122-127, 135-139. *)
Definition ll_process (samples : nat) := loop_map (opt1 ll_tick) samples samples.
Definition ll_process2 := loop_map (opt1 ll_tick).
(** OnePoleLPF.h:91-95, 104-108. *)
Definition op_process (samples : nat) := loop_map (pure1 op_tick) samples samples.
Definition op_processMod (L : libm) := loop_map2 (pure2 (op_tickmod L)).
(** DCBlock.h:70-74, 76-82. *)
Definition dc_process (samples : nat) := loop_map (pure1 dc_tick) samples samples.
Definition dc_processStereo := loop_stereo (pure1 dc_tickStereo).
(** Tape.h:129-133, 135-141. *)
Definition tp_process (L : libm) (samples : nat) := loop_map (pure1 (tp_tick L)) samples samples.
Definition tp_processStereo (L : libm) := loop_stereo (pure1 (tp_tickStereo L)).
(** CombC.h:173-177. *)
Definition cb_process (fuel : nat) (samples : nat) := loop_map (comb1 fuel) samples samples.
(** BufRd.h:231-235, 244-251. *)
Definition rd_process (output phase : nat) := loop_map (still_opt rd_tick) phase output.
Definition rd_processStereo (left right phase : nat) := loop_split (still_opt rd_tick2) phase left right.
(** Wrap.h:57-61. *)
Definition wrap_process := loop_map (still wrap_tick).
(** DBAmp.h:45-49. *)
Definition dbamp_process (L : libm) := loop_map (still (fun _ : unit => dbamp L)).
(** XPlay.h:235-241. *)
Definition x_process (L : libm) := loop_set2 (xplay0 L).
(** RLPF.h:104-108. *)
Definition lp_process (samples : nat) := loop_map (pure1 lp_tick) samples samples.
(** KrajeskiMoogLadder.h:111-115, StilsonMoogLadder.h:142-146, MicrotrackerMoogLadder.h:108-112, MusicDSPMoogLadder.h:123-127,
    ImprovedMoogLadder.h:162-166, OberheimMoogLadder.h:169-173, RKSimulationMoogLadder.h:164-168. *)
Definition kj_process (L : libm) (samples : nat) := loop_map (pure1 (kj_tick L)) samples samples.
Definition st_process (samples : nat) := loop_map (pure1 st_tick) samples samples.
Definition mt_process (samples : nat) := loop_map (pure1 mt_tick) samples samples.
Definition md_process (samples : nat) := loop_map (pure1 md_tick) samples samples.
Definition im_process (L : libm) (samples : nat) := loop_map (pure1 (im_tick L)) samples samples.
Definition ob_process (L : libm) (samples : nat) := loop_map (pure1 (ob_tick L)) samples samples.
Definition rk_process (samples : nat) := loop_map (pure1 rk_tick) samples samples.
(** ExampleVoice.h:217-223 [process], 231-238 [processAdd]. *)
Definition ev_process (L : libm) := loop_set2 (pure0 (ev_tick L)).
Definition ev_processAdd (L : libm) := loop_acc2 fadd (pure0 (ev_tick L)).
(** SuperSaw.h:271-277. *)
Definition ss_process (L : libm) := loop_set2 (pure0 (ss_tick L)).
