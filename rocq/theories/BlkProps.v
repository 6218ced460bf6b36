(** C13: block processing is sample-by-sample processing. *)
From Coq Require Import ZArith List Bool Lia.
From Flocq Require Import BinarySingleNaN.
From Verif Require Import Flt Libm Res UtilModel EnvModel LineModel OscModel SmoothModel CombModel RdModel PanModel XpModel LpModel MgModel
  KjModel StModel MtModel MdModel ImModel ObModel RkModel VcModel BlkModel BlkSpec BlkProofs PanSpec.
Import ListNotations.

(** Sources: the samples are those of successive ticks; [processAdd] adds them, [processMul] multiplies them onto the buffer. *)
Theorem C13_SinOsc : forall L p, is_block (fun d => so_process L (p + d)) [] [p] (row_set (pure0 (so_tick L))) /\
  is_block (fun d => so_processAdd L (p + d)) [p] [p] (row_acc fadd (pure0 (so_tick L))).
Proof. exact (fun L p => conj (b_set _ p) (b_acc _ _ p)). Qed.
Print Assumptions C13_SinOsc.
Theorem C13_LFTri : forall p, is_block (fun d => lt_process (p + d)) [] [p] (row_set (pure0 lt_tick)) /\
  is_block (fun d => lt_processAdd (p + d)) [p] [p] (row_acc fadd (pure0 lt_tick)).
Proof. exact (fun p => conj (b_set _ p) (b_acc _ _ p)). Qed.
Print Assumptions C13_LFTri.
Theorem C13_SawDPW : forall p, is_block (fun d => sw_process (p + d)) [] [p] (row_set (pure0 sw_tick)).
Proof. exact (b_set _). Qed.
Print Assumptions C13_SawDPW.
Theorem C13_LFNoise2 : forall p, is_block (fun d => ln_process (p + d)) [] [p] (row_set (pure0 ln_tick)).
Proof. exact (b_set _). Qed.
Print Assumptions C13_LFNoise2.
Theorem C13_EnvelopeAR : forall p, is_block (fun d => ar_process (p + d)) [] [p] (row_set (pure0 ar_tick)) /\
  is_block (fun d => ar_processMul (p + d)) [p] [p] (row_acc fmul (pure0 ar_tick)).
Proof. exact (fun p => conj (b_set _ p) (b_acc _ _ p)). Qed.
Print Assumptions C13_EnvelopeAR.
Theorem C13_EnvelopeADSR : forall p, is_block (fun d => ad_process (p + d)) [] [p] (row_set (pure0 ad_tick)) /\
  is_block (fun d => ad_processMul (p + d)) [p] [p] (row_acc fmul (pure0 ad_tick)).
Proof. exact (fun p => conj (b_set _ p) (b_acc _ _ p)). Qed.
Print Assumptions C13_EnvelopeADSR.
Theorem C13_XLine : forall p, is_block (fun d => xl_process (p + d)) [] [p] (row_set (pure0 xl_tick)) /\
  is_block (fun d => xl_processMul (p + d)) [p] [p] (row_acc fmul (pure0 xl_tick)) /\
  is_block (fun d => xl_processAdd (p + d)) [p] [p] (row_acc fadd (pure0 xl_tick)).
Proof. exact (fun p => conj (b_set _ p) (conj (b_acc _ _ p) (b_acc _ _ p))). Qed.
Print Assumptions C13_XLine.
Theorem C13_Phasor : forall p a, is_block (fun d => ph_process (p + d)) [] [p] (row_set (pure0 ph_tick)) /\
  is_block (fun d => ph_processTrig (p + d) (a + d)) [a] [p] (row_map (pure1 ph_tickTrig)) /\
  is_block (fun d => ph_processAdd (p + d)) [p] [p] (row_acc fadd (pure0 ph_tick)).
Proof. exact (fun p a => conj (b_set _ p) (conj (b_map _ a p) (b_acc _ _ p))). Qed.
Print Assumptions C13_Phasor.
(** Filters, in place ([p]) and from an input buffer [a]. *)
Theorem C13_Lag : forall p a, is_block (fun d => lg_process (p + d)) [p] [p] (row_map (pure1 lg_tick)) /\
  is_block (fun d => lg_process2 (a + d) (p + d)) [a] [p] (row_map (pure1 lg_tick)).
Proof. exact (fun p a => conj (b_map _ p p) (b_map _ a p)). Qed.
Print Assumptions C13_Lag.
Theorem C13_LagLinear : forall p a, is_block (fun d => ll_process (p + d)) [p] [p] (row_map (opt1 ll_tick)) /\
  is_block (fun d => ll_process2 (a + d) (p + d)) [a] [p] (row_map (opt1 ll_tick)).
Proof. exact (fun p a => conj (b_map _ p p) (b_map _ a p)). Qed.
Print Assumptions C13_LagLinear.
Theorem C13_OnePoleLPF : forall L p a c, is_block (fun d => op_process (p + d)) [p] [p] (row_map (pure1 op_tick)) /\
  is_block (fun d => op_processMod L (a + d) (c + d) (p + d)) [a; c] [p] (row_map2 (pure2 (op_tickmod L))).
Proof. exact (fun L p a c => conj (b_map _ p p) (b_map2 _ a c p)). Qed.
Print Assumptions C13_OnePoleLPF.
Theorem C13_DCBlock : forall p r, is_block (fun d => dc_process (p + d)) [p] [p] (row_map (pure1 dc_tick)) /\
  is_block (fun d => dc_processStereo (p + d) (r + d)) [p; r] [p; r] (row_stereo (pure1 dc_tickStereo)).
Proof. exact (fun p r => conj (b_map _ p p) (b_stereo _ p r)). Qed.
Print Assumptions C13_DCBlock.
Theorem C13_Tape : forall L p r, is_block (fun d => tp_process L (p + d)) [p] [p] (row_map (pure1 (tp_tick L))) /\
  is_block (fun d => tp_processStereo L (p + d) (r + d)) [p; r] [p; r] (row_stereo (pure1 (tp_tickStereo L))).
Proof. exact (fun L p r => conj (b_map _ p p) (b_stereo _ p r)). Qed.
Print Assumptions C13_Tape.
Theorem C13_CombC : forall fuel p, is_block (fun d => cb_process fuel (p + d)) [p] [p] (row_map (comb1 fuel)).
Proof. exact (fun fuel p => b_map _ p p). Qed.
Print Assumptions C13_CombC.
Theorem C13_BufRd : forall p r a, is_block (fun d => rd_process (p + d) (a + d)) [a] [p] (row_map (still_opt rd_tick)) /\
  is_block (fun d => rd_processStereo (p + d) (r + d) (a + d)) [a] [p; r] (row_split (still_opt rd_tick2)).
Proof. exact (fun p r a => conj (b_map _ a p) (b_split _ a p r)). Qed.
Print Assumptions C13_BufRd.
Theorem C13_Wrap_DBAmp : forall L p a, is_block (fun d => wrap_process (a + d) (p + d)) [a] [p] (row_map (still wrap_tick)) /\
  is_block (fun d => dbamp_process L (a + d) (p + d)) [a] [p] (row_map (still (fun _ => dbamp L))).
Proof. exact (fun L p a => conj (b_map _ a p) (b_map _ a p)). Qed.
Print Assumptions C13_Wrap_DBAmp.
Theorem C13_XPlay : forall L l r, is_block (fun d => x_process L (l + d) (r + d)) [] [l; r] (row_set2 (xplay0 L)).
Proof. exact (fun L => b_set2 _). Qed.
Print Assumptions C13_XPlay.
Theorem C13_resonant_filters : forall L p,
  is_block (fun d => lp_process (p + d)) [p] [p] (row_map (pure1 lp_tick)) /\
  is_block (fun d => kj_process L (p + d)) [p] [p] (row_map (pure1 (kj_tick L))) /\
  is_block (fun d => st_process (p + d)) [p] [p] (row_map (pure1 st_tick)) /\
  is_block (fun d => mt_process (p + d)) [p] [p] (row_map (pure1 mt_tick)) /\
  is_block (fun d => md_process (p + d)) [p] [p] (row_map (pure1 md_tick)) /\
  is_block (fun d => im_process L (p + d)) [p] [p] (row_map (pure1 (im_tick L))) /\
  is_block (fun d => ob_process L (p + d)) [p] [p] (row_map (pure1 (ob_tick L))) /\
  is_block (fun d => rk_process (p + d)) [p] [p] (row_map (pure1 rk_tick)).
Proof.
  intros L p. split; [exact (b_map _ p p)|]. split; [exact (b_map _ p p)|]. split; [exact (b_map _ p p)|]. split; [exact (b_map _ p p)|].
  split; [exact (b_map _ p p)|]. split; [exact (b_map _ p p)|]. split; exact (b_map _ p p).
Qed.
Print Assumptions C13_resonant_filters.
Theorem C13_ExampleVoice : forall L l r, is_block (fun d => ev_process L (l + d) (r + d)) [] [l; r] (row_set2 (pure0 (ev_tick L))) /\
  is_block (fun d => ev_processAdd L (l + d) (r + d)) [l; r] [l; r] (row_acc2 fadd (pure0 (ev_tick L))).
Proof. exact (fun L l r => conj (b_set2 _ l r) (b_acc2 _ _ l r)). Qed.
Print Assumptions C13_ExampleVoice.
Theorem C13_SuperSaw : forall L l r, is_block (fun d => ss_process L (l + d) (r + d)) [] [l; r] (row_set2 (pure0 (ss_tick L))).
Proof. exact (fun L => b_set2 _). Qed.
Print Assumptions C13_SuperSaw.

(** The buffers of the theorems: disjoint ones, the same one, or an output before the input. *)
Theorem C13_buffers : forall a p n, p <= a \/ a + n <= p -> no_overwrite [a] [p] 0 n /\ apart [p] 0 n.
Proof.
  intros a p n H. split.
  - intros a' b j k [<-|[]] [<-|[]] _ Hjk Hk. lia.
  - intros k k' b b' j j' E E' N. exfalso. destruct k as [|k]; [|destruct k; discriminate]. destruct k' as [|k']; [contradiction|destruct k'; discriminate].
Qed.
Print Assumptions C13_buffers.
(** An output buffer that starts inside the input buffer is different: each output becomes a later input. *)
Definition ramp : mem := fun q => if (q <? 4)%nat then Some (fofZ (Z.of_nat q + 1)) else None.
Theorem C13_overlap_refuted :
  match lg_process2 0 1 3 (Lag zero zero half zero) ramp, feed (row_map (pure1 lg_tick)) (Lag zero zero half zero) (rows ramp [0] 0 3) with
  | Val (_, m'), Val (_, ys) => (m' 3, nth_error ys 2)
  | _, _ => (None, None)
  end = (Some half, Some [flit 17 (-3)]).
Proof. vm_compute. reflexivity. Qed.
Print Assumptions C13_overlap_refuted.
Definition cells (r : res (lag * mem)) : list (option f32) := match r with Val (_, m) => [m 0; m 1; m 2; m 3; m 4] | _ => [] end.
Example ex_C13 :
  cells (lg_process 1 2 (Lag zero zero half zero) ramp) = [Some (fofZ 1); Some (fofZ 1); Some (fofZ 2); Some (fofZ 4); None] /\
  lg_process 2 3 (Lag zero zero half zero) ramp = Undef /\
  match sw_process 0 2 (sw_init (fofZ 48000) zero) ramp, sw_process 0 4 (sw_init (fofZ 48000) zero) ramp with
  | Val (s, m), Val (_, m4) => match sw_process 2 2 s m with Val (_, m') => (m' 3, is_nan (cell m' 3)) = (m4 3, false) | _ => False end
  | _, _ => False
  end.
Proof. vm_compute. auto. Qed.
