(** Properties of the voices: ExampleVoice and SuperSaw. *)
From Coq Require Import ZArith Reals Bool List Lra Lia.
From Flocq Require Import Core BinarySingleNaN.
From Verif Require Import Flt FltFacts Libm LibmInst UtilModel UtilProofs OscModel OscSpec OscInst EnvModel EnvSpec EnvInst PanModel PanSpec PanInst
  VcModel VcSpec VcProofs VcProofs2 SsSpec SsProofs SsProofs2 SsProofs3 VcInst RnModel.
Import ListNotations.
Local Open Scope R_scope.

(** What the theorems assume of the math library holds of a correctly rounded one. *)
Theorem C54_libm_hypotheses : exp_unit exact_libm /\ sin_unit exact_libm /\ cos_unit exact_libm /\ trig_acc exact_libm /\ sin_bad exact_libm /\ pow2_acc exact_libm.
Proof. exact (conj exact_exp_unit (conj exact_sin_unit (conj exact_cos_unit (conj exact_trig_acc (conj exact_sin_bad exact_pow2_acc))))). Qed.
Print Assumptions C54_libm_hypotheses.

(** A library for witnesses: right at the angle pi/4 and for 2^0, one time constant only. *)
Definition mid_libm : libm := {|
  m_exp := fun _ => half; m_sin := fun _ => SQ2; m_cos := fun _ => SQ2; m_tan := fun x => x; m_tanh := fun x => x; m_log := fun x => x; m_atan := fun x => x; m_pow := fun _ _ => one;
  d_exp := fun x => x; d_sin := fun x => x; d_cos := fun x => x; d_tan := fun x => x; d_tanh := fun x => x; d_pow := fun x _ => x |}.
Definition v48 : f32 := fofZ 48000.
Lemma v48_R : fin v48 /\ B2R v48 = 48000. Proof. apply fofZ_R. lia. Qed.
Lemma v48_voice : voice_rate v48.
Proof. destruct v48_R as [F E]. split; [exact F|]. rewrite E. split; [lra|]. apply Rle_trans with (bpow radix2 16); [change (bpow radix2 16) with 65536; lra|apply bpow_le; lia]. Qed.
Lemma v48_saw : saw_rate v48.
Proof. destruct v48_R as [F E]. split; [exact F|]. rewrite E. lra. Qed.
Lemma mid_exp : exp_unit mid_libm.
Proof. intros x _. cbn [mid_libm m_exp]. split; [ffin|]. fval (half : f32). lra. Qed.
Lemma mid_sin : sin_unit mid_libm.
Proof. intros x F. cbn [mid_libm m_sin]. split; [ffin|]. fval SQ2. lra. Qed.
Lemma mid_cos : cos_unit mid_libm.
Proof. intros x F. cbn [mid_libm m_cos]. split; [ffin|]. fval SQ2. lra. Qed.

(** C54: an ExampleVoice never exceeds its amplitude, whatever sane calls were made. *)
Theorem C54_amplitude : forall L sr ops, exp_unit L -> sin_unit L -> cos_unit L -> voice_rate sr -> Forall (ev_ok sr) ops ->
  let y := ev_next L (ev_after L sr ops) in
  (fin (fst y) /\ Rabs (B2R (fst y)) <= amp_of ops) /\ (fin (snd y) /\ Rabs (B2R (snd y)) <= amp_of ops).
Proof. exact ev_bounded. Qed.
Print Assumptions C54_amplitude.
(** C54: once inactive, it outputs exact silence until the next trigger or gate. *)
Theorem C54_silent : forall L sr ops post, exp_unit L -> sin_unit L -> cos_unit L -> voice_rate sr -> Forall (ev_ok sr) (ops ++ post) ->
  ev_isActive (ev_after L sr ops) = false -> Forall ev_quiet post ->
  Forall silent (ev_samples L (ev_after L sr ops) post).
Proof. exact ev_silent. Qed.
Print Assumptions C54_silent.
(** C54: so does a SuperSaw, until the next positive gate. *)
Theorem C54_supersaw_silent : forall L sr rnd ops post, exp_unit L -> pow2_acc L -> sin_unit L -> cos_unit L -> saw_rate sr -> (forall k, unit_sample (rnd k)) ->
  Forall (ss_ok sr) (ops ++ post) -> ss_isActive (ss_after L sr rnd ops) = false -> Forall ss_quiet post ->
  Forall silent (ss_samples L (ss_after L sr rnd ops) post).
Proof. exact ss_silent. Qed.
Print Assumptions C54_supersaw_silent.
(** C54: an infinite or NaN frequency makes every later sample NaN, also those of an idle voice, until init or reset;
    later setFrequency calls do not help. *)
Theorem C54_bad_frequency_refuted : forall L sr pre f post, sin_bad L -> is_finite f = false -> Forall no_restart post ->
  Forall both_nan (ev_samples L (ev_after L sr (pre ++ [EvFreq f; EvTick])) post).
Proof. exact poison. Qed.
Print Assumptions C54_bad_frequency_refuted.
(** C54: frequency 0 makes a SuperSaw output NaN from the second sample on, idle or not. *)
Theorem C54_supersaw_zero_frequency_refuted : forall L sr rnd pre b post, exp_unit L -> pow2_acc L -> sin_unit L -> cos_unit L -> saw_rate sr -> (forall k, unit_sample (rnd k)) ->
  Forall (ss_ok sr) (pre ++ post) -> Forall ss_holds post ->
  Forall both_nan (ss_samples L (ss_after L sr rnd (pre ++ [SsFreq (B754_zero b); SsTick])) post).
Proof. exact ss_zero_freq. Qed.
Print Assumptions C54_supersaw_zero_frequency_refuted.
Example ex_C54 :
  let note := [EvAmp (fdec 8 10); EvTrigger; EvTick; EvTick] in
  Forall (ev_ok v48) note /\ amp_of note = B2R (fdec 8 10 : f32) /\
  fst (ev_next mid_libm (ev_after mid_libm v48 note)) = flit 11744051 (-25) /\
  ev_isActive (ev_after mid_libm v48 (note ++ EvRelease :: repeat EvTick 11)) = true /\
  ev_isActive (ev_after mid_libm v48 (note ++ EvRelease :: repeat EvTick 30)) = false.
Proof.
  cbv zeta. split; [|split; [|vm_compute; repeat split]].
  - repeat constructor.
  - unfold amp_of. cbn [fold_left amp_set]. now rewrite (eq_refl : flt (fdec 8 10 : f32) zero = false), (eq_refl : flt (one : f32) (fdec 8 10) = false).
Qed.
Example ex_C54_ss :
  ss_isActive (ss_after mid_libm v48 (fun _ => half) [SsGate one; SsTick; SsTick]) = true /\
  ss_isActive (ss_after mid_libm v48 (fun _ => half) (SsGate one :: SsTick :: SsGate zero :: repeat SsTick 20)) = false /\
  ss_next mid_libm (ss_after mid_libm v48 (fun _ => half) [SsFreq zero; SsTick]) = (B754_nan, B754_nan).
Proof. vm_compute. repeat split. Qed.

(** C75: the vibrato of an ExampleVoice: up to one semitone of depth the pitch is the base frequency moved by m times
    the depth, in semitones, m in [-1,1] being the modulator's value, within 0.22 % (the code replaces 2^x by 1 + x ln 2). *)
Theorem C75_pitch : forall L sr ops, exp_unit L -> sin_unit L -> cos_unit L -> voice_rate sr -> Forall (ev_ok sr) ops ->
  let v := ev_after L sr ops in
  fin (ev_depth v) -> 0 < B2R (ev_depth v) <= 1 -> bpow radix2 (-60) <= B2R (ev_base v) ->
  exists m, -1 <= m <= 1 /\
  let p := pitch (fst (ev_tick L v)) in
  let ideal := B2R (ev_base v) * Rpower 2 (m * B2R (ev_depth v) / 12) in
  fin p /\ (1 - 0.0022) * ideal <= B2R p <= (1 + 0.000001) * ideal.
Proof. exact vib_pitch. Qed.
Print Assumptions C75_pitch.
(** C75: a depth of 24 semitones makes the frequency negative. *)
Theorem C75_deep_vibrato_refuted :
  Forall (ev_ok v48) [EvRate (fofZ 9600); EvDepth (fofZ 24); EvTick] /\
  flt (pitch (ev_after mid_libm v48 [EvRate (fofZ 9600); EvDepth (fofZ 24); EvTick])) zero = true.
Proof. split; [repeat constructor|vm_compute; reflexivity]. Qed.
Print Assumptions C75_deep_vibrato_refuted.
(** C75: setVibratoDepth(0) does not bring the note back to its base frequency: the last modulated pitch stays. *)
Theorem C75_depth_off_refuted : forall L v d ops, flt zero d = false -> Forall keeps_pitch ops ->
  pitch (fst (ev_run L v (EvDepth d :: ops))) = pitch v.
Proof. exact depth_off. Qed.
Print Assumptions C75_depth_off_refuted.
(** C75: with the vibrato off, setFrequency puts the pitch right. *)
Theorem C75_frequency_without_vibrato : forall L v f ops, flt zero (ev_depth v) = false -> Forall keeps_pitch ops ->
  pitch (fst (ev_run L v (EvFreq f :: ops))) = f.
Proof. exact freq_repairs. Qed.
Print Assumptions C75_frequency_without_vibrato.
Example ex_C75 :
  let v := ev_after mid_libm v48 (EvRate (fofZ 960) :: EvTrigger :: repeat EvTick 20) in
  ev_base v = fofZ 440 /\ ev_depth v = half /\ flt (pitch v) (fofZ 440) = true /\
  pitch (fst (ev_run mid_libm v [EvDepth zero; EvTick; EvTick])) = pitch v /\
  pitch (fst (ev_run mid_libm v [EvDepth zero; EvFreq (fofZ 440); EvTick])) = fofZ 440.
Proof. vm_compute. repeat split. Qed.

(** C76: vibrato and panning are not independent: both modulators always interpolate points of one random sequence. *)
Theorem C76_same_sequence : forall L sr ops,
  (exists n, at_points seed0 n (ev_vib (ev_after L sr ops))) /\ exists n, at_points seed0 n (ev_pan (ev_after L sr ops)).
Proof. exact shared_after. Qed.
Print Assumptions C76_same_sequence.
(** C76: with the vibrato at 1 Hz, the rate of the panning, the two are equal: pitch and position move as one. *)
Theorem C76_lockstep_refuted : forall L sr ops, Forall keeps_vibrato ops ->
  let v := ev_after L sr (EvRate one :: ops) in
  exists m mono, pitch (fst (ev_tick L v)) = fmul (ev_base v) (fadd one (fmul (fmul m (ev_depth v)) LN2_12)) /\
    ev_next L v = pan2_process L mono (fmul m (ev_pdepth v)).
Proof. exact lockstep. Qed.
Print Assumptions C76_lockstep_refuted.
Example ex_C76 :
  let v := ev_after mid_libm v48 (EvRate one :: EvTrigger :: repeat EvTick 50) in
  ev_vib v = ev_pan v /\ flt zero (fabs (snd (ln_tick (ev_pan v)))) = true /\
  ln_p1 (ev_vib (ev_after mid_libm v48 [])) = ln_p1 (ev_pan (ev_after mid_libm v48 [])).
Proof. vm_compute. repeat split. Qed.

(** C77: reset makes an ExampleVoice repeat the sound it had after its settings were made. *)
Theorem C77_reset_repeats : forall L sr setup played rest, Forall setting setup -> Forall playing played -> Forall no_depth_off rest ->
  ev_samples L (ev_after L sr (setup ++ played ++ [EvReset])) rest = ev_samples L (ev_after L sr setup) rest.
Proof. exact reset_replay. Qed.
Print Assumptions C77_reset_repeats.
(** C77: but reset does not restore the base frequency: with the vibrato off from then on, the note is out of tune. *)
Theorem C77_stale_pitch_refuted :
  let a := ev_after mid_libm v48 ([] ++ [EvTrigger; EvTick] ++ [EvReset]) in let b := ev_after mid_libm v48 [] in
  pitch (fst (ev_run mid_libm a [EvDepth zero; EvTick])) <> pitch (fst (ev_run mid_libm b [EvDepth zero; EvTick])) /\
  so_phase (ev_osc (fst (ev_run mid_libm a [EvDepth zero; EvTick]))) <> so_phase (ev_osc (fst (ev_run mid_libm b [EvDepth zero; EvTick]))).
Proof.
  cbv zeta. split; intros H.
  - assert (K : feq (pitch (fst (ev_run mid_libm (ev_after mid_libm v48 ([] ++ [EvTrigger; EvTick] ++ [EvReset])) [EvDepth zero; EvTick]))) (fofZ 440) = false) by (vm_compute; reflexivity).
    rewrite H in K. vm_compute in K. discriminate K.
  - assert (K : feq (so_phase (ev_osc (fst (ev_run mid_libm (ev_after mid_libm v48 ([] ++ [EvTrigger; EvTick] ++ [EvReset])) [EvDepth zero; EvTick]))))
      (so_phase (ev_osc (fst (ev_run mid_libm (ev_after mid_libm v48 []) [EvDepth zero; EvTick])))) = false) by (vm_compute; reflexivity).
    rewrite H in K. vm_compute in K. discriminate K.
Qed.
Print Assumptions C77_stale_pitch_refuted.
(** C77: SuperSaw's reset does not restore the state after init: the voices, started at the random phases of the default
    seed 42, all start at phase 0 after it; the first sample, 14 times full scale after init, is 56 times full scale. *)
Theorem C77_supersaw_reset_refuted :
  let on := [SsDepth zero; SsDetune zero; SsSpread zero; SsGate one] in
  flt (fst (ss_next mid_libm (ss_after mid_libm v48 (rn_draw 42) on))) (fofZ 15) = true /\
  flt (fofZ 50) (fst (ss_next mid_libm (ss_after mid_libm v48 (rn_draw 42) (on ++ [SsTick; SsReset] ++ on)))) = true.
Proof. vm_compute. split; reflexivity. Qed.
Print Assumptions C77_supersaw_reset_refuted.
Example ex_C77 :
  let setup := [EvFreq (fofZ 500); EvAmp one] in
  ev_samples mid_libm (ev_after mid_libm v48 (setup ++ [EvTrigger; EvTick; EvTick; EvRelease; EvTick] ++ [EvReset])) [EvTrigger; EvTick; EvTick] =
  ev_samples mid_libm (ev_after mid_libm v48 setup) [EvTrigger; EvTick; EvTick] /\
  map (fun y => flt (fdec 24 100) (fst y)) (ev_samples mid_libm (ev_after mid_libm v48 setup) [EvTrigger; EvTick; EvTick]) = [true; true].
Proof. vm_compute. repeat split. Qed.

(** C78: with all settings in range every SuperSaw sample is finite. *)
Theorem C78_finite : forall L sr rnd ops, exp_unit L -> pow2_acc L -> sin_unit L -> cos_unit L -> saw_rate sr -> (forall k, unit_sample (rnd k)) -> Forall (ss_ok sr) ops ->
  let y := ss_next L (ss_after L sr rnd ops) in
  (fin (fst y) /\ Rabs (B2R (fst y)) <= 21675) /\ (fin (snd y) /\ Rabs (B2R (snd y)) <= 21675).
Proof. exact ss_finite. Qed.
Print Assumptions C78_finite.
(** C78: from the second sample after init, reset and changes of the pitch settings on, a sample is at most
    3.78 * 2^(|depth|/6) + 0.02. *)
Theorem C78_bounded : forall L sr rnd pre mid, exp_unit L -> pow2_acc L -> trig_acc L -> sin_unit L -> cos_unit L -> saw_rate sr -> (forall k, unit_sample (rnd k)) ->
  Forall (ss_ok sr) (pre ++ SsTick :: mid) -> Forall ss_steady mid ->
  let y := ss_next L (ss_after L sr rnd (pre ++ SsTick :: mid)) in let M := 3.78 * Rpower 2 (Rabs (B2R (depth_of pre)) / 6) + 0.02 in
  (fin (fst y) /\ Rabs (B2R (fst y)) <= M) /\ (fin (snd y) /\ Rabs (B2R (snd y)) <= M).
Proof.
  intros L sr rnd pre mid HE HP HA HT HC R U H Hm. pose proof (ss_steady_bound L sr rnd pre mid HE HP HA HT HC R U H Hm) as B.
  destruct (ss_set_after L sr rnd pre) as (_ & E & _). rewrite E in B. exact B.
Qed.
Print Assumptions C78_bounded.
(** C78: nominal full scale, 1, is exceeded by a factor of 3.7: the normalisation by 1/sqrt(7) does not limit voices in phase. *)
Theorem C78_full_scale_refuted :
  flt (fdec 37 10) (fst (ss_next mid_libm (ss_after mid_libm v48 (rn_draw 42) (SsReset :: SsDepth zero :: SsDetune zero :: SsSpread zero :: SsSustain one :: SsGate one :: repeat SsTick 120)))) = true.
Proof. vm_compute. reflexivity. Qed.
Print Assumptions C78_full_scale_refuted.
(** C78: the first sample after a frequency change can be a thousand times full scale (default seed 42). *)
Theorem C78_frequency_change_refuted :
  let ops := [SsDepth zero; SsDetune zero; SsSpread zero; SsFreq (fofZ 9600); SsReset; SsGate one; SsTick; SsTick; SsFreq (fofZ 12)] in
  flt (fst (ss_next mid_libm (ss_after mid_libm v48 (rn_draw 42) ops))) (fofZ (-1000)) = true.
Proof. vm_compute. reflexivity. Qed.
Print Assumptions C78_frequency_change_refuted.
Example ex_C78 : forall k,
  let y := ss_next exact_libm (ss_after exact_libm v48 (fun _ => half) ([SsFreq (fofZ 220); SsDepth zero; SsGate one] ++ SsTick :: repeat SsTick k)) in
  Rabs (B2R (fst y)) <= 3.8.
Proof.
  intros k y.
  assert (U : forall i : Z, unit_sample ((fun _ => half) i)) by (intros _; split; [ffin|fval (half : f32); lra]).
  assert (O : Forall (ss_ok v48) ([SsFreq (fofZ 220); SsDepth zero; SsGate one] ++ SsTick :: repeat SsTick k)).
  { destruct v48_R as [_ E]. apply Forall_app. split; [|constructor; [exact Logic.I|apply Forall_forall; intros o Ho; apply repeat_spec in Ho; now subst o]].
    destruct (fofZ_R (prec:=24) (emax:=128) 220 ltac:(lia)) as [F4 E4].
    apply Forall_cons; [|apply Forall_cons; [|apply Forall_cons; [|apply Forall_nil]]]; cbn [ss_ok].
    - split; [exact F4|]. rewrite E, E4. lra.
    - split; [reflexivity|]. change (B2R (zero : f32)) with 0. rewrite Rabs_R0. lra.
    - exact Logic.I. }
  assert (S : Forall ss_steady (repeat SsTick k)) by (apply Forall_forall; intros o Ho; apply repeat_spec in Ho; now subst o).
  pose proof (C78_bounded exact_libm v48 (fun _ => half) _ _ exact_exp_unit exact_pow2_acc exact_trig_acc exact_sin_unit exact_cos_unit v48_saw U O S) as [[_ B] _].
  fold y in B. eapply Rle_trans; [exact B|]. cbn [depth_of fold_left depth_set]. change (B2R (zero : f32)) with 0. rewrite Rabs_R0. unfold Rdiv. rewrite Rmult_0_l, Rpower_O by lra. lra.
Qed.

(** C79: voice i of a SuperSaw (i = 0..6) runs at frequency * 2^((m * depth + (i/6 - 1/2) * detune) / 12), m in [-1,1]
    being its vibrato, within a relative 1.5e-6. *)
Theorem C79_voice_frequency : forall L sr rnd ops i, exp_unit L -> pow2_acc L -> sin_unit L -> cos_unit L -> saw_rate sr -> (forall k, unit_sample (rnd k)) -> Forall (ss_ok sr) ops -> (i < 7)%nat ->
  exists m, -1 <= m <= 1 /\
    let p := voice_freq (ss_after L sr rnd (ops ++ [SsTick])) i in
    let ideal := B2R (freq_of ops) * Rpower 2 ((m * B2R (depth_of ops) + (INR i / 6 - / 2) * B2R (detune_of ops)) / 12) in
    fin p /\ Rabs (B2R p - ideal) <= 0.0000015 * ideal.
Proof. exact voice_pitch. Qed.
Print Assumptions C79_voice_frequency.
Example ex_C79 :
  (* the middle voice of a SuperSaw without vibrato is in tune *)
  forall rnd d, (forall k, unit_sample (rnd k)) -> fin d -> Rabs (B2R d) <= 12 ->
  let p := voice_freq (ss_after exact_libm v48 rnd ([SsFreq (fofZ 440); SsDepth zero; SsDetune d] ++ [SsTick])) 3 in Rabs (B2R p - 440) <= 0.001.
Proof.
  intros rnd d U Fd Bd p.
  assert (O : Forall (ss_ok v48) [SsFreq (fofZ 440); SsDepth zero; SsDetune d]).
  { destruct v48_R as [_ E]. destruct (fofZ_R (prec:=24) (emax:=128) 440 ltac:(lia)) as [F4 E4].
    apply Forall_cons; [|apply Forall_cons; [|apply Forall_cons; [|apply Forall_nil]]]; cbn [ss_ok].
    - split; [exact F4|]. rewrite E, E4. lra.
    - split; [reflexivity|]. change (B2R (zero : f32)) with 0. rewrite Rabs_R0. lra.
    - split; assumption. }
  destruct (C79_voice_frequency exact_libm v48 rnd _ 3 exact_exp_unit exact_pow2_acc exact_sin_unit exact_cos_unit v48_saw U O ltac:(lia)) as (m & _ & _ & B).
  fold p in B. cbn [freq_of depth_of detune_of fold_left freq_set depth_set detune_set] in B. change (B2R (zero : f32)) with 0 in B.
  replace ((m * 0 + (INR 3 / 6 - / 2) * B2R d) / 12) with 0 in B by (cbn; lra). rewrite Rpower_O in B by lra.
  destruct (fofZ_R (prec:=24) (emax:=128) 440 ltac:(lia)) as [_ E]. rewrite E in B. apply Rabs_le_inv in B. apply Rabs_le. lra.
Qed.
