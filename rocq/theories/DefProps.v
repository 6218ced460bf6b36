(** C120: a fresh object has the documented default settings: setting them explicitly changes nothing. *)
From Coq Require Import ZArith Reals Lra Lia Bool List.
From Flocq Require Import Core BinarySingleNaN.
From Verif Require Import Flt FltFacts FltMore FltKey Libm LibmInst Res UtilModel UtilProofs OscModel EnvModel SmoothModel LineModel PanModel RdModel VcModel LpModel CombModel XpModel.
From Verif Require Import PanSpec MgModel StModel KjModel MtModel RkModel ImModel MdModel ObModel.
Import ListNotations.
Local Open Scope flt_scope.

(** EnvelopeAR.h:84-85: 10 ms attack, 100 ms release. *)
Theorem C120_envelope_ar : forall L sr, ar_setRelease L (ar_setAttack L (ar_init L sr) (fdec 1 100)) (fdec 1 10) = ar_init L sr.
Proof. intros. unfold ar_setRelease, ar_setAttack. replace (clamp_time (fdec 1 100)) with (fdec 1 100 : f32) by (vm_compute; reflexivity). replace (clamp_time (fdec 1 10)) with (fdec 1 10 : f32) by (vm_compute; reflexivity). reflexivity. Qed.
(** EnvelopeADSR.h:112-115: 10 ms, 100 ms, 70%, 300 ms. *)
Theorem C120_envelope_adsr : forall L sr,
  ad_setRelease L (ad_setSustain (ad_setDecay L (ad_setAttack L (ad_init L sr) (fdec 1 100)) (fdec 1 10)) (fdec 7 10)) (fdec 3 10) = ad_init L sr.
Proof.
  intros. unfold ad_setRelease, ad_setSustain, ad_setDecay, ad_setAttack. replace (clamp_time (fdec 1 100)) with (fdec 1 100 : f32) by (vm_compute; reflexivity).
  replace (clamp_time (fdec 1 10)) with (fdec 1 10 : f32) by (vm_compute; reflexivity). replace (clamp_time (fdec 3 10)) with (fdec 3 10 : f32) by (vm_compute; reflexivity).
  replace (clamp (fdec 7 10) fzero one) with (fdec 7 10 : f32) by (vm_compute; reflexivity). reflexivity.
Qed.
(** SinOsc.h:58, LFTri.h:68, SawDPW.h:73: the oscillators start at 440 Hz; LFNoise2.h:68 at 1 Hz. *)
Theorem C120_oscillators : forall sr iphase seed, so_setFrequency (so_init sr) (fofZ 440) = so_init sr /\ lt_setFrequency (lt_init sr iphase) (fofZ 440) = lt_init sr iphase /\
  sw_setFrequency (sw_init sr iphase) (fofZ 440) = sw_init sr iphase /\ ln_setFrequency (ln_init sr seed) one = ln_init sr seed.
Proof. intros. repeat split. Qed.
Lemma ct100 : clamp_time (fdec 1 100) = fdec 1 100. Proof. vm_compute. reflexivity. Qed.
Lemma ct10 : clamp_time (fdec 1 10) = fdec 1 10. Proof. vm_compute. reflexivity. Qed.
Lemma ct3 : clamp_time (fdec 3 10) = fdec 3 10. Proof. vm_compute. reflexivity. Qed.
Lemma ar_attack_id L e t : clamp_time t = ar_at e -> ar_ac e = coeff L (ar_at e) (ar_sr e) -> ar_setAttack L e t = e.
Proof. intros A B. unfold ar_setAttack. rewrite A, <- B. now destruct e. Qed.
Lemma ar_release_id L e t : clamp_time t = ar_rt e -> ar_rc e = coeff L (ar_rt e) (ar_sr e) -> ar_setRelease L e t = e.
Proof. intros A B. unfold ar_setRelease. rewrite A, <- B. now destruct e. Qed.
Lemma ev_freq_id v f : so_setFrequency (ev_osc v) f = ev_osc v -> f = ev_base v -> ev_setFrequency v f = v.
Proof. intros A B. unfold ev_setFrequency. rewrite A, B. now destruct v. Qed.
Lemma ev_env_id v e : e = ev_env v -> ev_with_env v e = v.
Proof. intros ->. now destruct v. Qed.
Lemma ev_depth_id v d : d = ev_depth v -> ev_setVibratoDepth v d = v.
Proof. intros ->. now destruct v. Qed.
Lemma ev_rate_id v r : ln_setFrequency (ev_vib v) r = ev_vib v -> ev_setVibratoRate v r = v.
Proof. intros A. unfold ev_setVibratoRate. rewrite A. now destruct v. Qed.
Lemma ev_pan_id v d : clamp d zero one = ev_pdepth v -> ev_setPanDepth v d = v.
Proof. intros A. unfold ev_setPanDepth. rewrite A. now destruct v. Qed.
Lemma ev_amp_id v a : clamp a zero one = ev_amp v -> ev_setAmplitude v a = v.
Proof. intros A. unfold ev_setAmplitude. rewrite A. now destruct v. Qed.
Lemma ln_freq_twice s f : ln_setFrequency (ln_setFrequency s f) f = ln_setFrequency s f.
Proof. reflexivity. Qed.
(** ExampleVoice.h:93-106: 440 Hz, vibrato 0.5 semitones at 5 Hz, full pan modulation, amplitude 0.5, 10 ms, 300 ms. *)
Theorem C120_voice : forall L sr, let v := ev_init L sr in
  ev_setFrequency v (fofZ 440) = v /\ ev_setAttack L v (fdec 1 100) = v /\ ev_setRelease L v (fdec 3 10) = v /\ ev_setVibratoDepth v half = v /\
  ev_setVibratoRate v (fofZ 5) = v /\ ev_setPanDepth v one = v /\ ev_setAmplitude v half = v.
Proof.
  intros L sr v. split; [|split; [|split; [|split; [|split; [|split]]]]].
  - apply ev_freq_id; reflexivity.
  - apply ev_env_id, ar_attack_id; cbn [v ev_init ev_env ar_setRelease ar_setAttack ar_at ar_ac ar_sr]; rewrite ct100; reflexivity.
  - apply ev_env_id, ar_release_id; cbn [v ev_init ev_env ar_setRelease ar_setAttack ar_rt ar_rc ar_sr]; rewrite ct3; reflexivity.
  - apply ev_depth_id. reflexivity.
  - apply ev_rate_id. cbn [v ev_init ev_vib]. apply ln_freq_twice.
  - apply ev_pan_id. vm_compute. reflexivity.
  - apply ev_amp_id. vm_compute. reflexivity.
Qed.
Lemma ad_attack_id L e t : ad_ac e = coeff L (clamp_time t) (ad_sr e) -> ad_setAttack L e t = e.
Proof. intros B. unfold ad_setAttack. rewrite <- B. now destruct e. Qed.
Lemma ad_decay_id L e t : ad_dc e = coeff L (clamp_time t) (ad_sr e) -> ad_setDecay L e t = e.
Proof. intros B. unfold ad_setDecay. rewrite <- B. now destruct e. Qed.
Lemma ad_release_id L e t : ad_rc e = coeff L (clamp_time t) (ad_sr e) -> ad_setRelease L e t = e.
Proof. intros B. unfold ad_setRelease. rewrite <- B. now destruct e. Qed.
Lemma ad_sustain_id e l : ad_sus e = clamp l fzero one -> ad_setSustain e l = e.
Proof. intros B. unfold ad_setSustain. rewrite <- B. now destruct e. Qed.
Lemma ss_env_id s e : e = ss_env s -> ss_with_env s e = s.
Proof. intros ->. now destruct s. Qed.
(** SuperSaw.h:93-98: 400 Hz, vibrato 0.3 semitones at 6 Hz, detune 0.2, spread 0.6, and the envelope. *)
Theorem C120_supersaw : forall L sr rnd, let s := ss_init L sr rnd in
  ss_setFrequency s (fofZ 400) = s /\ ss_setVibratoRate s (fofZ 6) = s /\ ss_setVibratoDepth s (fdec 3 10) = s /\ ss_setDetune s (fdec 2 10) = s /\ ss_setSpread s (fdec 6 10) = s /\
  ss_setAttack L s (fdec 1 100) = s /\ ss_setDecay L s (fdec 1 10) = s /\ ss_setSustain s (fdec 7 10) = s /\ ss_setRelease L s (fdec 3 10) = s.
Proof.
  intros L sr rnd s. split; [|split; [|split; [|split; [|split; [|split; [|split; [|split]]]]]]].
  - reflexivity.
  - unfold s, ss_setVibratoRate, ss_init. cbn [ss_voices ss_env ss_freq ss_vrate ss_vdepth ss_det ss_spread ss_sr]. f_equal.
  - reflexivity.
  - unfold s, ss_setDetune, ss_init. cbn [ss_voices ss_env ss_freq ss_vrate ss_vdepth ss_det ss_spread ss_sr]. f_equal.
  - unfold ss_setSpread. assert (E : clamp (fdec 6 10) zero one = ss_spread s) by (vm_compute; reflexivity). rewrite E. reflexivity.
  - apply ss_env_id, ad_attack_id. reflexivity.
  - apply ss_env_id, ad_decay_id. reflexivity.
  - apply ss_env_id, ad_sustain_id. reflexivity.
  - apply ss_env_id, ad_release_id. reflexivity.
Qed.
(** Tape.h:79-87: no bias, gain 1; BufRd.h:69-73: looping, linear interpolation; XLine.h:81-91: from 1 to 2 in 1 s; Phasor.h:82-89: 1 per sample over [0, 1]. *)
Theorem C120_tape_bufrd_xline_phasor : forall L sr b,
  tp_setPregain (tp_setBias (tp_init L sr) zero) one = tp_init L sr /\
  rd_setInterpolation (rd_setLoop (rd_init b) true) 2 = rd_init b /\
  xl_set L (xl_init L sr) one two one one zero = xl_init L sr /\
  ph_set (ph_init sr) one zero one zero = ph_init sr.
Proof. intros. repeat split. Qed.
(** The ladders start at 1000 Hz with resonance 0.1, drive 1 and without oversampling. *)
Lemma uc : unit_clamp (fdec 1 10) = fdec 1 10. Proof. vm_compute. reflexivity. Qed.
Theorem C120_krajeski : forall L sr, kj_setCutoff L (kj_init L sr) (fofZ 1000) = kj_init L sr /\ kj_setResonance L (kj_init L sr) (fdec 1 10) = kj_init L sr.
Proof. intros. split; reflexivity. Qed.
Theorem C120_microtracker : forall sr, mt_setCutoff (mt_init sr) (fofZ 1000) = mt_init sr /\ mt_setResonance (mt_init sr) (fdec 1 10) = mt_init sr.
Proof. intros. split; reflexivity. Qed.
Theorem C120_oberheim : forall L sr, ob_setResonance (ob_init L sr) (fdec 1 10) = ob_init L sr /\ ob_setCutoff L (ob_init L sr) (fofZ 1000) = ob_init L sr.
Proof. intros. split; reflexivity. Qed.
Lemma im_drive_id s d : (if f2d d <? fzero then fzero else f2d d) = im_drive s -> im_setDrive s d = s.
Proof. intros E. destruct s as [a b c u f g h i j k l]. exact (f_equal (fun z => Im a b c u f g z i j k l) E). Qed.
Lemma rk_drive_id s d : (if d <? fzero then fzero else f2d d) = rk_drive s -> rk_setDrive s d = s.
Proof. intros E. destruct s as [a b c u f g h i j]. exact (f_equal (fun z => Rk a b c z f g h i j) E). Qed.
Theorem C120_improved : forall sr, im_setCutoff (im_init sr) (fofZ 1000) = im_init sr /\ im_setResonance (im_init sr) (fdec 1 10) = im_init sr /\ im_setDrive (im_init sr) one = im_init sr.
Proof.
  intros. split; [reflexivity|split; [reflexivity|]]. apply im_drive_id. vm_compute. reflexivity.
Qed.
Theorem C120_rksimulation : forall sr, rk_setCutoff (rk_init sr) (fofZ 1000) = rk_init sr /\ rk_setResonance (rk_init sr) (fdec 1 10) = rk_init sr /\
  rk_setDrive (rk_init sr) one = rk_init sr /\ rk_setOversample (rk_init sr) 1 = rk_init sr.
Proof.
  intros. split; [reflexivity|split; [reflexivity|split; [|reflexivity]]]. apply rk_drive_id. vm_compute. reflexivity.
Qed.
Lemma md_res_id s r : md_setResonance (md_setResonance s r) r = md_setResonance s r.
Proof. reflexivity. Qed.
Lemma md_cut_shape L : exists P K T1 T2, forall s c, md_setCutoff L s c =
  md_setResonance (Md (md_sr s) c (md_res s) (P (md_sr s) c) (K (md_sr s) c) (T1 (md_sr s) c) (T2 (md_sr s) c) (md_rc s)
     (md_s0 s) (md_s1 s) (md_s2 s) (md_s3 s) (md_y0 s) (md_y1 s) (md_y2 s) (md_y3 s)) (md_res s).
Proof.
  pose (P := fun sr c => let fc := md_fc sr c in fc * (ddec 18 10 - ddec 8 10 * fc)).
  pose (T := fun sr c => (dz 1 - P sr c) * ddec 1386249 1000000).
  exists P, (fun sr c => dz 2 * d_sin L (md_fc sr c * dPI * ddec 1 2) - dz 1), T, (fun sr c => dz 12 + T sr c * T sr c).
  intros. reflexivity.
Qed.
Lemma md_res_shape : exists R, forall s r, md_setResonance s r =
  Md (md_sr s) (md_cut s) (unit_clamp r) (md_p s) (md_k s) (md_t1 s) (md_t2 s) (R (unit_clamp r) (md_t1 s) (md_t2 s))
     (md_s0 s) (md_s1 s) (md_s2 s) (md_s3 s) (md_y0 s) (md_y1 s) (md_y2 s) (md_y3 s).
Proof. exists (fun res t1 t2 => f2d res * (t2 + dz 6 * t1) / (t2 - dz 6 * t1)). intros. reflexivity. Qed.
Lemma md_cut_id L s c r : unit_clamp r = r -> md_setCutoff L (md_setResonance (md_setCutoff L s c) r) c = md_setResonance (md_setCutoff L s c) r.
Proof.
  intros E. destruct (md_cut_shape L) as (P & K & T1 & T2 & H). destruct md_res_shape as (R & G).
  rewrite (H (md_setResonance _ _)), (H s). rewrite !G. cbn [md_sr md_cut md_res md_p md_k md_t1 md_t2 md_rc md_s0 md_s1 md_s2 md_s3 md_y0 md_y1 md_y2 md_y3].
  rewrite !E. reflexivity.
Qed.
(** MusicDSP and Stilson read their resonance in setCutoff before it is set; [r0] is the value found. *)
Theorem C120_musicdsp : forall L r0 sr, md_setCutoff L (md_init L r0 sr) (fofZ 1000) = md_init L r0 sr /\ md_setResonance (md_init L r0 sr) (fdec 1 10) = md_init L r0 sr.
Proof. intros. split; [apply md_cut_id; exact uc|apply md_res_id]. Qed.
Lemma st_keep s0 c r s : unit_clamp r = r -> (s1 <~ st_setCutoff s0 c ;; st_setResonance s1 r) = Val s ->
  st_setCutoff s c = Val s /\ st_setResonance s r = Val s.
Proof.
  intros U H. unfold st_setCutoff, st_setResonance in H. cbn [st_sr st_cut st_res st_p st_Q st_s0 st_s1 st_s2 st_s3 st_out] in H.
  destruct (st_gain (unit_clamp (st_res s0)) _) as [q| |]; cbn [rbind] in H; try discriminate H.
  cbn [st_sr st_cut st_res st_p st_Q st_s0 st_s1 st_s2 st_s3 st_out] in H.
  destruct (st_gain (unit_clamp r) _) as [q'| |] eqn:E in H; cbn [rbind] in H; try discriminate H.
  injection H as <-. unfold st_setCutoff, st_setResonance. cbn [st_sr st_cut st_res st_p st_Q st_s0 st_s1 st_s2 st_s3 st_out].
  rewrite !U in *. rewrite E. split; reflexivity.
Qed.
Theorem C120_stilson : forall r0 sr s, st_init r0 sr = Val s -> st_setCutoff s (fofZ 1000) = Val s /\ st_setResonance s (fdec 1 10) = Val s.
Proof.
  intros r0 sr s H. unfold st_init in H. revert H. generalize (St sr fzero r0 fzero fzero fzero fzero fzero fzero fzero).
  generalize uc. generalize (fofZ 1000 : f32) (fdec 1 10 : f32). intros c r U s0 H. exact (st_keep s0 c r s U H).
Qed.
(** RLPF.h:55-62: 440 Hz, resonance 0.707, at sample rates for which 440 Hz is allowed. *)
Theorem C120_rlpf : forall L sr, flt (sr * half * fdec 99 100) (fofZ 440) = false -> lp_setResonance L (lp_setFreq L (lp_init L sr) (fofZ 440)) (fdec 707 1000) = lp_init L sr.
Proof.
  intros L sr H. unfold lp_setFreq, lp_setResonance. cbn [lp_init lp_sr lp_freq lp_res lp_z1 lp_z2].
  replace (fofZ 440 <? one) with false by (vm_compute; reflexivity). rewrite H.
  replace (fdec 707 1000 <? fdec 1 10) with false by (vm_compute; reflexivity). replace (fdec 707 1000 >? fofZ 30) with false by (vm_compute; reflexivity). reflexivity.
Qed.
(** CombC.h:84-85: delay 0.2 s (if the line is that long), decay 1 s. *)
Lemma cb_delay_id L sr b m d dc size wp : clamp d zero m = d ->
  cb_setDelayTime L (cb_update L (Comb sr b m d dc zero size wp)) d = cb_update L (Comb sr b m d dc zero size wp).
Proof. intros E. unfold cb_setDelayTime, cb_update. cbn [cb_sr cb_buf cb_max cb_dt cb_dc cb_fb cb_size cb_wp]. rewrite E. reflexivity. Qed.
Lemma cb_decay_id L sr b m d dc size wp :
  cb_setDecayTime L (cb_update L (Comb sr b m d dc zero size wp)) dc = cb_update L (Comb sr b m d dc zero size wp).
Proof. reflexivity. Qed.
Theorem C120_comb : forall L sr maxDelay c, cb_init L sr maxDelay = Val c ->
  cb_setDecayTime L c one = c /\ ((fdec 2 10 >? maxDelay) = false -> cb_setDelayTime L c (fdec 2 10) = c).
Proof.
  intros L sr m c H. unfold cb_init in H. destruct (of_opt _) as [n| |]; cbn [rbind] in H; try discriminate H. injection H as <-.
  split; [apply cb_decay_id|]. intros M. apply cb_delay_id. unfold clamp.
  assert (A : (fdec 2 10 <? zero) = false) by (vm_compute; reflexivity). rewrite A. rewrite M. reflexivity.
Qed.
(** A shorter line: the delay time in force after [init] is longer than the maximum; a call that asks for it again gets less. *)
Theorem C120_comb_short_refuted : forall L, exists c, cb_init L (fofZ 48000) (fdec 1 10) = Val c /\ (cb_dt c >? cb_max c) = true /\
  cb_dt (cb_setDelayTime L c (fdec 2 10)) = cb_max c.
Proof.
  intros L. eexists. split; [unfold cb_init|split].
  - replace (to_size _) with (Some 4800)%Z by (vm_compute; reflexivity). cbn [of_opt rbind]. reflexivity.
  - vm_compute. reflexivity.
  - vm_compute. reflexivity.
Qed.
(** ExampleVoice.h:94 says "No vibrato by default", but a fresh voice leaves 440 Hz with its first sample; with depth 0 it stays there. *)
Lemma ev_tick_freq L v : so_freq (ev_osc (fst (ev_tick L v))) = so_freq (snd (ev_vibrato v)).
Proof.
  unfold ev_tick. destruct (ev_vibrato v) as [vib osc]. unfold so_tick. destruct (ar_tick (ev_env v)) as [e o]. destruct (ln_tick (ev_pan v)) as [pn q]. reflexivity.
Qed.
Theorem C120_no_vibrato_refuted : forall L, (so_freq (ev_osc (fst (ev_tick L (ev_init L (fofZ 48000))))) =? fofZ 440) = false.
Proof. intros L. rewrite ev_tick_freq. vm_compute. reflexivity. Qed.
Theorem C120_depth_zero : forall L v n, so_freq (ev_osc (Nat.iter n (fun v => fst (ev_tick L v)) (ev_setVibratoDepth v zero))) = so_freq (ev_osc v).
Proof.
  intros L v n. enough (H : forall w, w = Nat.iter n (fun v => fst (ev_tick L v)) (ev_setVibratoDepth v zero) ->
    ev_depth w = zero /\ so_freq (ev_osc w) = so_freq (ev_osc v)) by apply (H _ eq_refl).
  induction n as [|n IH]; [intros w ->; split; reflexivity|]. intros w ->. destruct (IH _ eq_refl) as [D F].
  change (Nat.iter (S n) (fun v => fst (ev_tick L v)) (ev_setVibratoDepth v zero)) with (fst (ev_tick L (Nat.iter n (fun v => fst (ev_tick L v)) (ev_setVibratoDepth v zero)))).
  revert D F. generalize (Nat.iter n (fun v => fst (ev_tick L v)) (ev_setVibratoDepth v zero)). intros w D F. split.
  - rewrite <- D. unfold ev_tick. destruct (ev_vibrato w) as [vib osc]. unfold so_tick. destruct (ar_tick (ev_env w)) as [e o]. destruct (ln_tick (ev_pan w)) as [pn q]. reflexivity.
  - rewrite ev_tick_freq. unfold ev_vibrato. rewrite D. assert (Z : (zero >? (zero : f32)) = false) by reflexivity. rewrite Z. exact F.
Qed.
(** Pan2.h:83-84, Balance2.h:106-107, XFade2.h:106-109: the mixers start in the centre, at level 1, with all gains 1/sqrt 2. *)
Theorem C120_mixers : forall g : f32, In g [p_left pan2_0; p_right pan2_0; b_left bal2_0; b_right bal2_0; x_baseA xfade_0; x_baseB xfade_0; x_gainA xfade_0; x_gainB xfade_0] ->
  fin g /\ (Rabs (B2R g - sqrt (/ 2)) <= bpow radix2 (-25))%R.
Proof.
  intros g H. assert (E : g = SQ2) by (cbn [In p_left p_right b_left b_right x_baseA x_baseB x_gainA x_gainB pan2_0 bal2_0 xfade_0] in H; intuition congruence). subst g. split; [ffin|].
  assert (Es : B2R SQ2 = (11863283 / 16777216)%R) by (fval SQ2; lra).
  assert (HS : (0.70710678 <= sqrt (/ 2) <= 0.70710679)%R).
  { split; [rewrite <- (sqrt_square 0.70710678) by lra|rewrite <- (sqrt_square 0.70710679) by lra]; apply sqrt_le_1; lra. }
  rewrite Es. bp. apply Rabs_le. lra.
Qed.
(** If the C library rounds the centre gains as the source does, centring explicitly changes nothing. *)
Theorem C120_mixers_centre : forall L p b f, m_cos L (pan_angle zero) = SQ2 -> m_sin L (pan_angle zero) = SQ2 ->
  pan2_setPan L p zero = pan2_0 /\ bal2_setPosition L b zero one = bal2_0 /\ xf_setPosition L f zero one = xfade_0 /\ xf_setLevel xfade_0 one = xfade_0.
Proof.
  intros L p b f C S. unfold pan2_setPan, bal2_setPosition, xf_setPosition, computeGains. rewrite C, S. repeat split; vm_compute; reflexivity.
Qed.
Example ex_C120_mixers : m_cos toy_trig (pan_angle zero) = SQ2 /\ m_sin toy_trig (pan_angle zero) = SQ2 /\ pan2_tick pan2_0 (fofZ 2) = (fofZ 2 * SQ2, fofZ 2 * SQ2).
Proof. repeat split; vm_compute; reflexivity. Qed.
(** Instances: the side conditions hold at 48 kHz, and other settings do make a difference. *)
Example ex_C120_rlpf : ((fofZ 440 : f32) >? (fofZ 48000 * half * fdec 99 100)) = false.
Proof. vm_compute. reflexivity. Qed.
Example ex_C120_comb : forall L, exists c, cb_init L (fofZ 48000) (fdec 2 10) = Val c /\ cb_dt (cb_setDelayTime L c (fdec 1 10)) = fdec 1 10 /\ cb_dt c = fdec 2 10.
Proof.
  intros L. eexists. split; [unfold cb_init|split].
  - replace (to_size _) with (Some 9600)%Z by (vm_compute; reflexivity). cbn [of_opt rbind]. reflexivity.
  - vm_compute. reflexivity.
  - vm_compute. reflexivity.
Qed.
Example ex_C120_stilson : exists s, st_init zero (fofZ 48000) = Val s.
Proof. eexists. vm_compute. reflexivity. Qed.
Example ex_C120_envelope : forall L sr, (ar_at (ar_setAttack L (ar_init L sr) (fdec 2 100)) =? ar_at (ar_init L sr)) = false.
Proof. intros. vm_compute. reflexivity. Qed.

Print Assumptions C120_envelope_ar.
Print Assumptions C120_envelope_adsr.
Print Assumptions C120_oscillators.
Print Assumptions C120_voice.
Print Assumptions C120_supersaw.
Print Assumptions C120_tape_bufrd_xline_phasor.
Print Assumptions C120_krajeski.
Print Assumptions C120_microtracker.
Print Assumptions C120_oberheim.
Print Assumptions C120_improved.
Print Assumptions C120_rksimulation.
Print Assumptions C120_musicdsp.
Print Assumptions C120_stilson.
Print Assumptions C120_rlpf.
Print Assumptions C120_comb.
Print Assumptions C120_comb_short_refuted.
Print Assumptions C120_no_vibrato_refuted.
Print Assumptions C120_depth_zero.
Print Assumptions C120_mixers.
Print Assumptions C120_mixers_centre.
