(** Property theorems for SinOsc, LFTri, SawDPW and LFNoise2 (C25-C28, C57). *)
From Coq Require Import ZArith Reals Bool List Lra.
From Flocq Require Import Core BinarySingleNaN.
From Verif Require Import Flt FltFacts Libm LibmInst UtilModel UtilProofs PanSpec OscModel OscSpec OscProofs OscProofs2 OscProofs3 OscProofs4 LcgProofs OscInst.
Import ListNotations.
Local Open Scope R_scope.

Definition sr48 : f32 := fofZ 48000.

(** C25: LFNoise2 output is a number in [-1,1] after any calls within range. *)
Theorem C25_bounded : forall sr seed ops, rate_ok sr -> Forall (ln_ok sr) ops ->
  forall x, In (Some x) (snd (run ln_op (ln_init sr seed) ops)) -> audio x.
Proof. intros sr seed ops R H. exact (proj2 (ln_bounded sr seed ops R H)). Qed.
Print Assumptions C25_bounded.
(** C25: reset with seed [k] restarts the very sequence of a fresh generator with seed [k], whatever happened before. *)
Theorem C25_reset_reproduces : forall sr seed k f ops rest,
  snd (run ln_op (ln_init sr seed) (ops ++ NFreq f :: NReset k :: rest)) =
  snd (run ln_op (ln_init sr seed) ops) ++ None :: snd (run ln_op (ln_init sr k) (NFreq f :: rest)).
Proof. exact ln_repro. Qed.
Print Assumptions C25_reset_reproduces.
(** C25: the output is the Catmull-Rom spline through the random points of the seed, [f] points per second. *)
Theorem C25_spline_of_seed : forall sr seed f n, rate_ok sr -> (0 <= seed < 2 ^ 32)%Z -> fin f -> 0 < B2R f <= B2R sr ->
  exists k t, 0 <= t <= 1 /\ Rabs (INR k + t - INR n * (B2R f / B2R sr)) <= INR n * bpow radix2 (-23) /\
    Rabs (B2R (nth_sample ln_tick n (ln_setFrequency (ln_init sr seed) f)) -
      clampR (spline t (noise_pt seed (k + 1)) (noise_pt seed (k + 2)) (noise_pt seed (k + 3)) (noise_pt seed (k + 4)))) <= bpow radix2 (-18).
Proof. exact ln_spec. Qed.
Print Assumptions C25_spline_of_seed.
(** C25: no clicks: consecutive samples differ by at most four phase increments (plus rounding), also across control points. *)
Theorem C25_smooth : forall sr seed ops, rate_ok sr -> Forall (ln_ok sr) ops ->
  let s := fst (run ln_op (ln_init sr seed) ops) in
  Rabs (B2R (nth_sample ln_tick 1 s) - B2R (nth_sample ln_tick 0 s)) <= 4 * B2R (ln_inc s) + bpow radix2 (-17).
Proof. intros sr seed ops R H s. exact (ln_smooth sr s (proj1 (ln_bounded sr seed ops R H))). Qed.
Print Assumptions C25_smooth.
(** C25 fails beyond the range: an infinite or huge frequency gives NaN for ever. *)
Theorem C25_huge_frequency_refuted :
  nth_sample ln_tick 2 (ln_setFrequency (ln_init sr48 12345) (B754_infinity false)) = B754_nan /\
  nth_sample ln_tick 2 (ln_setFrequency (ln_init sr48 12345) (flit 1 100)) = B754_nan.
Proof. split; vm_compute; reflexivity. Qed.
Print Assumptions C25_huge_frequency_refuted.
Example ex_C25 :
  nth_sample ln_tick 0 (ln_init sr48 12345) = lcg_out (draws 2 12345) /\
  nth_sample ln_tick 1 (ln_setFrequency (ln_init sr48 12345) sr48) = lcg_out (draws 3 12345) /\
  flt (nth_sample ln_tick 0 (ln_init sr48 12345)) zero = true /\
  is_nan (nth_sample ln_tick 50 (ln_setFrequency (ln_init sr48 7) (fofZ 5000))) = false.
Proof. vm_compute. repeat split. Qed.

(** C26: the generator behind [nextRandom] has full period from every seed. *)
Theorem C26_full_period : forall s i j, (0 <= ln_seed s < 2 ^ 32)%Z -> (i <= j)%nat ->
  (ln_seed (after ln_nextRandom i s) = ln_seed (after ln_nextRandom j s) <-> (2 ^ 32 | Z.of_nat (j - i))%Z).
Proof. intros s i j H L. rewrite !rand_seed. now apply lcg_distinct. Qed.
Print Assumptions C26_full_period.
Theorem C26_visits_every_state : forall s y, (0 <= ln_seed s < 2 ^ 32)%Z -> (0 <= y < 2 ^ 32)%Z ->
  exists n, (Z.of_nat n < 2 ^ 32)%Z /\ ln_seed (after ln_nextRandom n s) = y.
Proof. intros s y H Hy. destruct (lcg_visits (ln_seed s) y H Hy) as (n & A & B). exists n. rewrite rand_seed. auto. Qed.
Print Assumptions C26_visits_every_state.
(** C26: two generators with different seeds never meet at equal positions. *)
Theorem C26_seeds_stay_apart : forall s s' n, (0 <= ln_seed s < 2 ^ 32)%Z -> (0 <= ln_seed s' < 2 ^ 32)%Z ->
  ln_seed s <> ln_seed s' -> ln_seed (after ln_nextRandom n s) <> ln_seed (after ln_nextRandom n s').
Proof. intros s s' n H H' D E. apply D. rewrite !rand_seed in E. exact (draws_inj n _ _ H H' E). Qed.
Print Assumptions C26_seeds_stay_apart.
(** C26: the value handed out is the state scaled to [-1,1]. *)
Theorem C26_value : forall s, (0 <= ln_seed s < 2 ^ 32)%Z ->
  let r := ln_nextRandom s in audio (snd r) /\ (0 <= ln_seed (fst r) < 2 ^ 32)%Z /\
  Rabs (B2R (snd r) - (IZR (ln_seed (fst r)) / bpow radix2 31 - 1)) <= bpow radix2 (-22).
Proof. intros s H r. destruct (lcg_out_acc (lcg (ln_seed s)) (lcg_range _)) as [A B]. exact (conj A (conj (lcg_range _) B)). Qed.
Print Assumptions C26_value.
Example ex_C26 : ln_seed (after ln_nextRandom 3 (ln_setSeed (ln_init sr48 0) 12345)) = 2332836374%Z /\
  ln_seed (after ln_nextRandom 1 (ln_setSeed (ln_init sr48 0) 0)) = 1013904223%Z.
Proof. vm_compute. split; reflexivity. Qed.

(** C27: phases stay in one cycle and output in [-1,1]. *)
Theorem C27_sin_hypotheses : sin_unit exact_libm /\ sin_acc exact_libm.
Proof. exact (conj exact_sin_unit exact_sin_acc). Qed.
Print Assumptions C27_sin_hypotheses.
Theorem C27_sinosc : forall L sr ops, sin_unit L -> rate_ok sr -> freq_ok sr (fofZ 440) -> Forall (osc_ok sr (B2R TWO_PI)) ops ->
  let r := run (so_op L) (so_init sr) ops in
  (fin (so_phase (fst r)) /\ 0 <= B2R (so_phase (fst r)) <= B2R TWO_PI) /\ forall x, In (Some x) (snd r) -> audio x.
Proof. exact so_bounded. Qed.
Print Assumptions C27_sinosc.
Theorem C27_lftri : forall sr ip ops, rate_ok sr -> freq_ok sr (fofZ 440) -> fin ip -> Forall (osc_ok sr 1) ops ->
  let r := run lt_op (lt_init sr ip) ops in
  (fin (lt_phase (fst r)) /\ 0 <= B2R (lt_phase (fst r)) <= 1) /\ forall x, In (Some x) (snd r) -> audio x.
Proof. exact lt_bounded. Qed.
Print Assumptions C27_lftri.
Theorem C27_lfnoise2 : forall sr seed ops, rate_ok sr -> Forall (ln_ok sr) ops ->
  let s := fst (run ln_op (ln_init sr seed) ops) in fin (ln_phase s) /\ 0 <= B2R (ln_phase s) <= 1.
Proof. intros sr seed ops R H s. destruct (proj1 (ln_bounded sr seed ops R H)) as (_ & P & _). exact P. Qed.
Print Assumptions C27_lfnoise2.
(** C27: after a tick the phase is strictly below the end of the cycle. *)
Theorem C27_strict_after_tick : forall L sr ip opsS opsT, rate_ok sr -> freq_ok sr (fofZ 440) -> fin ip ->
  Forall (osc_ok sr (B2R TWO_PI)) opsS -> Forall (osc_ok sr 1) opsT ->
  B2R (so_phase (fst (so_tick L (fst (run (so_op L) (so_init sr) opsS))))) < B2R TWO_PI /\
  B2R (lt_phase (fst (lt_tick (fst (run lt_op (lt_init sr ip) opsT))))) < 1.
Proof.
  intros L sr ip opsS opsT R Q F HS HT. split.
  - apply (so_tick_inv L sr). destruct (run_inv (so_op L) (so_inv sr) (osc_ok sr (B2R TWO_PI)) (fun _ => True)) with (l := opsS) (s := so_init sr) as [I _]; auto.
    + intros s o Hs Hok. now apply so_op_inv.
    + now apply so_init_inv.
  - apply (lt_tick_inv sr). destruct (run_inv lt_op (lt_inv sr) (osc_ok sr 1) (fun _ => True)) with (l := opsT) (s := lt_init sr ip) as [I _]; auto.
    + intros s o Hs Hok. now apply lt_op_inv.
    + now apply lt_init_inv.
Qed.
Print Assumptions C27_strict_after_tick.
(** C27 fails outside [0, sampleRate/2]: LFTri leaves [-1,1] at a negative frequency and above the sample rate;
    SinOsc leaves its cycle. *)
Theorem C27_out_of_range_refuted :
  flt (nth_sample lt_tick 10 (lt_setFrequency (lt_init sr48 zero) (fofZ (-1000)))) (flit (-7) (-2)) = true /\
  flt (nth_sample lt_tick 10 (lt_setFrequency (lt_init sr48 zero) (fofZ 96000))) (fofZ (-30)) = true /\
  flt (so_phase (after (so_tick toy_trig) 100 (so_setFrequency (so_init sr48) (fofZ (-1000))))) (fofZ (-13)) = true.
Proof. vm_compute. repeat split. Qed.
Print Assumptions C27_out_of_range_refuted.
Example ex_C27 :
  nth_sample lt_tick 24 (lt_setFrequency (lt_init sr48 zero) (fofZ 375)) = flit (-1) (-2) /\
  nth_sample lt_tick 64 (lt_setFrequency (lt_init sr48 zero) (fofZ 375)) = one /\
  nth_sample lt_tick 128 (lt_setFrequency (lt_init sr48 zero) (fofZ 375)) = fneg one.
Proof. vm_compute. repeat split. Qed.

(** C28: from the second tick after the last call on, a SawDPW at sr/2^14 <= f <= sr/2 stays within 2 + 1/128. *)
Theorem C28_bounded : forall sr s n, rate_ok sr -> freq_ok sr (fofZ 440) -> saw_reach sr s -> saw_freq_ok sr (sw_freq s) ->
  fin (nth_sample sw_tick (S n) s) /\ Rabs (B2R (nth_sample sw_tick (S n) s)) <= 2 + bpow radix2 (-7).
Proof. intros sr s n R Q H. exact (saw_steady sr s n R (sw_reach_inv sr s R Q H)). Qed.
Print Assumptions C28_bounded.
(** C28: between wraps the output is 2 * (p + p' - 1), p and p' the previous and current phase: a saw of amplitude 2,
    not the documented 1. *)
Theorem C28_amplitude_two : forall sr s, rate_ok sr -> freq_ok sr (fofZ 440) -> saw_reach sr s -> saw_freq_ok sr (sw_freq s) ->
  B2R (sw_phase s) + B2R (sw_inc s) <= 1 - bpow radix2 (-20) ->
  let p := B2R (sw_phase s) in let p' := B2R (sw_phase (fst (sw_tick s))) in
  Rabs (p' - (p + B2R (sw_inc s))) <= bpow radix2 (-24) /\
  Rabs (B2R (nth_sample sw_tick 1 s) - 2 * (p + p' - 1)) <= bpow radix2 (-7).
Proof. intros sr s R Q H. exact (saw_shape sr s R (sw_reach_inv sr s R Q H)). Qed.
Print Assumptions C28_amplitude_two.
Theorem C28_documented_range_refuted : flt (fdec 19 10) (nth_sample sw_tick 108 (sw_init sr48 (fneg one))) = true.
Proof. vm_compute. reflexivity. Qed.
Print Assumptions C28_documented_range_refuted.
(** C28: the first sample after reset is sr / (2 f). *)
Theorem C28_reset_click : forall sr s, rate_ok sr -> freq_ok sr (fofZ 440) -> saw_reach sr s -> saw_freq_ok sr (sw_freq s) ->
  let x := nth_sample sw_tick 0 (sw_reset s) in
  fin x /\ Rabs (B2R x - B2R sr / (2 * B2R (sw_freq s))) <= bpow radix2 (-23) * (B2R sr / (2 * B2R (sw_freq s))).
Proof. intros sr s R Q H. exact (saw_click sr s R (sw_reach_inv sr s R Q H)). Qed.
Print Assumptions C28_reset_click.
(** C28: frequency 0 (of either sign) gives NaN from the second sample on. *)
Theorem C28_zero_frequency_nan : forall sr s b n, rate_ok sr -> freq_ok sr (fofZ 440) -> saw_reach sr s -> sw_freq s = B754_zero b ->
  nth_sample sw_tick (S n) s = B754_nan.
Proof. intros sr s b n R Q H. exact (saw_zero sr s b n R (sw_reach_inv sr s R Q H)). Qed.
Print Assumptions C28_zero_frequency_nan.
(** C28: the bound needs the frequency to have been in force for the previous sample. *)
Theorem C28_frequency_change_refuted :
  flt (fofZ 100) (fabs (nth_sample sw_tick 0 (sw_setFrequency (after sw_tick 3 (sw_setFrequency (sw_init sr48 zero) (fofZ 10000))) (fofZ 20)))) = true.
Proof. vm_compute. reflexivity. Qed.
Print Assumptions C28_frequency_change_refuted.
Example ex_C28 : nth_sample sw_tick 0 (sw_reset (sw_setFrequency (sw_init sr48 zero) (fofZ 375))) = fofZ 64 /\
  nth_sample sw_tick 32 (sw_reset (sw_setFrequency (sw_init sr48 zero) (fofZ 375))) = fneg (flit 65 (-6)) /\
  nth_sample sw_tick 1 (sw_setFrequency (sw_init sr48 zero) zero) = B754_nan.
Proof. vm_compute. repeat split. Qed.

(** C57: the oscillators play the requested frequency; the error grows at most linearly with time. *)
Theorem C57_sinosc_wave : forall L sr f n, sin_acc L -> rate_ok sr -> freq_ok sr (fofZ 440) -> freq_ok sr f ->
  Rabs (B2R (nth_sample (so_tick L) n (so_setFrequency (so_init sr) f)) - sin (2 * PI * (B2R f / B2R sr) * INR n)) <= (INR n + 1) * bpow radix2 (-19).
Proof. exact so_wave. Qed.
Print Assumptions C57_sinosc_wave.
Theorem C57_lftri_wave : forall sr ip f n, rate_ok sr -> freq_ok sr (fofZ 440) -> freq_ok sr f -> fin ip ->
  let s := lt_setFrequency (lt_init sr ip) f in
  exists (k : nat) t, 0 <= t <= 1 /\ Rabs (INR k + t - (B2R (lt_phase s) + INR n * (B2R f / B2R sr))) <= INR n * bpow radix2 (-23) /\
    Rabs (B2R (nth_sample lt_tick n s) - (1 - Rabs (4 * t - 2))) <= bpow radix2 (-25).
Proof. exact lt_wave. Qed.
Print Assumptions C57_lftri_wave.
Example ex_C57 : so_phase (after (so_tick toy_trig) 64 (so_setFrequency (so_init sr48) (fofZ 375))) = flit 13176787 (-22) (* TWO_PI/2 is flit 13176795 (-22) *) /\
  lt_phase (after lt_tick 64 (lt_setFrequency (lt_init sr48 (fofZ 2)) (fofZ 375))) = zero.
Proof. vm_compute. repeat split. Qed.
