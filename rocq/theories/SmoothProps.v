(** Smoothing filters: the property theorems. *)
From Coq Require Import ZArith Reals Bool List Lra Lia.
From Flocq Require Import Core BinarySingleNaN.
From Verif Require Import Flt FltFacts FltMore FltKey Libm LibmInst UtilModel UtilProofs EnvSpec EnvInst OscSpec OscProps SmoothModel SmoothSpec SmoothProofs SmoothProofs2 SmoothProofs3 SmoothProofs4 SmoothInst.
Import ListNotations.
Local Open Scope R_scope.

(** C29: from any state whatsoever, a new target is output exactly from tick number [ramp_len] on, for ever. *)
Theorem C29_on_time : forall s x n, ramp_ok (ll_time s) (ll_sr s) -> is_nan x = false -> feq x (ll_target s) = false ->
  exists s' ys, ll_ticks s (repeat x n) = Some (s', ys) /\ length ys = n /\
    forall i, (i < n)%nat -> (ramp_len (ll_time s) (ll_sr s) <= Z.of_nat i + 1)%Z -> nth_error ys i = Some x.
Proof. exact ll_on_time. Qed.
Print Assumptions C29_on_time.
(** C29: the same from a setTime in the middle of a ramp. *)
Theorem C29_retime : forall s t x n, ramp_ok t (ll_sr s) -> feq (ll_target s) (ll_cur s) = false -> is_nan x = false -> feq x (ll_target s) = true ->
  exists s0 s' ys, ll_setTime s t = Some s0 /\ ll_ticks s0 (repeat x n) = Some (s', ys) /\ length ys = n /\
    forall i, (i < n)%nat -> (ramp_len t (ll_sr s) <= Z.of_nat i + 1)%Z -> nth_error ys i = Some (ll_target s).
Proof. exact ll_retime. Qed.
Print Assumptions C29_retime.
(** C29: with a time of zero or less the output equals the input at once. *)
Theorem C29_instant : forall s t xs, fle t zero = true -> Forall (fun x => is_nan x = false) xs ->
  exists s0 s' ys, ll_setTime s t = Some s0 /\ ll_ticks s0 xs = Some (s', ys) /\ Forall2 (fun x y => feq x y = true) xs ys.
Proof. exact ll_instant. Qed.
Print Assumptions C29_instant.
(** C29: before that the output follows the straight line to within (i+4) units of 2^(k-24), 2^k bounding start and target. *)
Theorem C29_straight_line : forall k s x n, (-100 <= k <= 100)%Z -> ramp_ok (ll_time s) (ll_sr s) -> feq x (ll_target s) = false ->
  within (bpow radix2 k) (ll_cur s) -> within (bpow radix2 k) x ->
  (Z.of_nat n < ramp_len (ll_time s) (ll_sr s) <= 2 ^ 23)%Z ->
  exists s' ys, ll_ticks s (repeat x n) = Some (s', ys) /\ length ys = n /\
    forall i y, nth_error ys i = Some y -> fin y /\
      Rabs (B2R y - (B2R (ll_cur s) + INR (i + 1) * ((B2R x - B2R (ll_cur s)) / IZR (ramp_len (ll_time s) (ll_sr s))))) <= (INR (i + 1) + 4) * bpow radix2 (k - 24).
Proof. exact ll_ramp. Qed.
Print Assumptions C29_straight_line.
(** C29: a setTime in the middle of a ramp restarts it as a straight line from the current value to the target over the new time. *)
Theorem C29_retime_straight_line : forall k s t n, (-100 <= k <= 100)%Z -> ramp_ok t (ll_sr s) -> feq (ll_target s) (ll_cur s) = false ->
  within (bpow radix2 k) (ll_cur s) -> within (bpow radix2 k) (ll_target s) ->
  (Z.of_nat n < ramp_len t (ll_sr s) <= 2 ^ 23)%Z ->
  exists s0 s' ys, ll_setTime s t = Some s0 /\ ll_ticks s0 (repeat (ll_target s) n) = Some (s', ys) /\ length ys = n /\
    forall i y, nth_error ys i = Some y -> fin y /\
      Rabs (B2R y - (B2R (ll_cur s) + INR (i + 1) * ((B2R (ll_target s) - B2R (ll_cur s)) / IZR (ramp_len t (ll_sr s))))) <= (INR (i + 1) + 4) * bpow radix2 (k - 24).
Proof. exact ll_retime_ramp. Qed.
Print Assumptions C29_retime_straight_line.
(** C29: that error is real: a minute-long ramp from 1 to 1.2 at 48 kHz climbs past 1.34 before it snaps to 1.2. *)
Theorem C29_overshoot_refuted :
  ll_init (fofZ 48000) one (fofZ 60) = Some long_ramp /\
  exists s' ys, ll_ticks long_ramp (repeat (fdec 12 10) (Z.to_nat 2879999)) = Some (s', ys) /\
  exists y, nth_error ys (Z.to_nat 2879998) = Some y /\ 1.34 < B2R y.
Proof. exact (conj long_init long_overshoot). Qed.
Print Assumptions C29_overshoot_refuted.
(** C29: a ramp of 2^31 samples or more is undefined behaviour. *)
Theorem C29_too_long_refuted : forall s x, feq x (ll_target s) = false -> fin (ll_time s) -> 0 < B2R (ll_time s) -> fin (ll_sr s) ->
  IZR (2 ^ 31) <= B2R (ll_time s) * B2R (ll_sr s) -> ll_tick s x = None.
Proof. exact ll_too_long. Qed.
Print Assumptions C29_too_long_refuted.
(** A ramp of 4 samples from 0 to 8, after one of which the time is set to 8 samples. *)
Example ex_C29_retime : match ll_ticks (LagL (fofZ 32) (flit 1 (-3)) zero zero zero 0) [fofZ 8] with
  | Some (s, [y]) => y = two /\ match ll_setTime s (flit 1 (-2)) with
    | Some s0 => match ll_ticks s0 (repeat (fofZ 8) 8) with Some (_, ys) => ys = map (fun n => flit n (-2)) [11; 14; 17; 20; 23; 26; 29; 32]%Z | None => False end
    | None => False end
  | _ => False end.
Proof. vm_compute. split; reflexivity. Qed.
(** A ramp of 4 samples from 0 to 1, then half way back in 2. *)
Example ex_C29 : ramp_len (flit 1 (-3)) (fofZ 32) = 4%Z /\
  ll_init (fofZ 32) zero (flit 1 (-3)) = Some (LagL (fofZ 32) (flit 1 (-3)) zero zero zero 0) /\
  (match ll_ticks (LagL (fofZ 32) (flit 1 (-3)) zero zero zero 0) [one; one; one; one; one; half; half; half; half; half] with
   | Some (_, ys) => ys = [flit 1 (-2); half; flit 3 (-2); one; one; flit 7 (-3); flit 3 (-2); flit 5 (-3); half; half]
   | None => False end) /\
  ll_tick (LagL sr48 (fofZ 100000) zero zero zero 0) one = None.
Proof.
  split.
  - unfold ramp_len. replace (B2R (fmul (flit 1 (-3)) (fofZ 32) : f32)) with (IZR 4) by (fval (fmul (flit 1 (-3)) (fofZ 32) : f32); lra).
    rewrite (Zrnd_IZR ZnearestA 4). reflexivity.
  - vm_compute. repeat split.
Qed.

(** C30: whatever is called, samples bounded by 2^k come out bounded by 2^k. *)
Theorem C30_lag : forall L k sr t ops, exp_unit L -> sr_ok sr -> is_nan t = false -> (0 <= k <= 126)%Z -> Forall (lg_ok (bpow radix2 k)) ops ->
  forall y, In (Some y) (snd (run (lg_op L) (lg_init L sr t) ops)) -> within (bpow radix2 k) y.
Proof. exact lg_bounded. Qed.
Print Assumptions C30_lag.
Theorem C30_onepole : forall L k sr c ops, exp_unit L -> fin sr -> 0 < B2R sr -> is_nan c = false -> (0 <= k <= 126)%Z -> Forall (op_ok (bpow radix2 k)) ops ->
  forall y, In (Some y) (snd (run (op_op L) (op_init L sr c) ops)) -> within (bpow radix2 k) y.
Proof. exact op_bounded. Qed.
Print Assumptions C30_onepole.
Theorem C30_follower : forall L k sr a r ops, exp_unit L -> sr_ok sr -> flt fzero a = true -> flt fzero r = true -> (0 <= k <= 126)%Z -> Forall (fo_ok (bpow radix2 k)) ops ->
  forall y, In (Some y) (snd (run fo_op (fo_init L sr a r) ops)) -> within (bpow radix2 k) y /\ 0 <= B2R y.
Proof. exact fo_bounded. Qed.
Print Assumptions C30_follower.
(** C30: a negative attack time makes the follower grow without an input to match. *)
Theorem C30_negative_time_refuted :
  let L := libm_of_exp (fun x => if flt fzero x then two else half) in
  let f := fo_init L sr48 (fdec 1 1000) (fneg (fdec 1 1000)) in
  snd (run fo_op f [FTick one; FTick zero; FTick zero; FTick zero; FTick zero]) = [Some half; Some one; Some two; Some (fofZ 4); Some (fofZ 8)].
Proof. vm_compute. reflexivity. Qed.
Print Assumptions C30_negative_time_refuted.
Example ex_C30 :
  snd (run (lg_op half_exp) (lg_init half_exp sr48 (fdec 1 10)) [GTick one; GTick one; GTime zero; GTick half; GSet (fneg one); GTime one; GTick one]) =
    [Some half; Some (flit 3 (-2)); None; Some half; None; None; Some zero] /\
  snd (run (op_op half_exp) (op_init half_exp sr48 (fofZ 1000)) [PTick one; PTickMod (fneg one) (fofZ 20); PReset; PTick half]) =
    [Some half; Some (fneg (flit 1 (-2))); None; Some (flit 1 (-2))] /\
  snd (run fo_op (fo_init half_exp sr48 (fdec 1 1000) (fdec 20 1000)) [FTick (fneg one); FTick zero]) = [Some half; Some (flit 1 (-2))].
Proof. vm_compute. repeat split. Qed.

(** C31: with the input held the distance shrinks by the coefficient per sample, up to a floor set by rounding:
    (1-c) * |(y_n - x) - c^n (y_0 - x)| <= 5 * 2^(k-25) * (1 - c^n). *)
Theorem C31_lag : forall L k sr t v x n, exp_unit L -> sr_ok sr -> is_nan t = false -> (0 <= k <= 126)%Z -> within (bpow radix2 k) v -> within (bpow radix2 k) x ->
  let c := B2R (lag_coeff L t sr) in
  let y := B2R (lg_prev (after (lg_hold x) n (lg_setValue (lg_init L sr t) v))) in
  0 <= c <= 1 /\ (1 - c) * Rabs (y - B2R x - c ^ n * (B2R v - B2R x)) <= 5 * bpow radix2 (k - 25) * (1 - c ^ n).
Proof.
  intros L k sr t v x n HL Hs Nt K V X. pose proof (lag_coeff_unit L t sr HL Hs Nt) as U.
  assert (I : lg_inv sr (bpow radix2 k) (lg_setValue (lg_init L sr t) v)) by exact (conj eq_refl (conj U V)).
  exact (conj (proj2 U) (proj2 (proj2 (lg_converge k sr _ x n K I X)))).
Qed.
Print Assumptions C31_lag.
Theorem C31_onepole : forall L k sr c0 ops x n, exp_unit L -> fin sr -> 0 < B2R sr -> is_nan c0 = false -> (0 <= k <= 126)%Z ->
  Forall (op_ok (bpow radix2 k)) ops -> within (bpow radix2 k) x ->
  let s := fst (run (op_op L) (op_init L sr c0) ops) in
  let c := B2R (op_pole s) in let y := B2R (op_z (after (op_hold x) n s)) in
  0 <= c <= 1 /\ (1 - c) * Rabs (y - B2R x - c ^ n * (B2R (op_z s) - B2R x)) <= 5 * bpow radix2 (k - 25) * (1 - c ^ n).
Proof.
  intros L k sr c0 ops x n HL Fs Ps N0 K H X s. pose proof (op_reach_inv L k sr c0 ops HL Fs Ps N0 K H) as I. fold s in I.
  exact (conj (proj2 (proj1 (proj2 I))) (proj2 (proj2 (op_converge k sr s x n K I X)))).
Qed.
Print Assumptions C31_onepole.
(** C31: the pole is exp(-2 pi fc / sr). *)
Theorem C31_pole : forall L sr c, exp_acc L -> rate_ok sr -> fin c -> 1 <= B2R c <= B2R sr / 2 ->
  Rabs (B2R (op_poleof L sr c) - exp (- (2 * PI * (B2R c / B2R sr)))) <= bpow radix2 (-20).
Proof. exact op_pole_acc. Qed.
Print Assumptions C31_pole.
(** C31: after the lag time of N = time * sampleRate samples the distance is down to 0.1 percent (60 dB), and not earlier. *)
Theorem C31_lag_time : forall L k t sr n x v, exp_acc L -> exp_unit L -> (0 <= k <= 126)%Z -> fin t -> fin sr -> 0 < B2R t -> 0 < B2R sr ->
  32 <= B2R t * B2R sr <= 65536 -> within (bpow radix2 k) x -> within (bpow radix2 k) v ->
  let y := B2R (lg_prev (after (lg_hold x) n (lg_setValue (lg_init L sr t) v))) in
  (B2R t * B2R sr <= INR n -> Rabs (y - B2R x) <= 0.00103 * Rabs (B2R v - B2R x) + B2R t * B2R sr * bpow radix2 (k - 25)) /\
  (INR n <= B2R t * B2R sr -> 0.00097 * Rabs (B2R v - B2R x) - B2R t * B2R sr * bpow radix2 (k - 25) <= Rabs (y - B2R x)).
Proof. exact lag_time. Qed.
Print Assumptions C31_lag_time.
(** C31: so the documented 0.01 percent is not reached: a step from 0 to 1 with the default 100 ms at 48 kHz. *)
Theorem C31_documented_settling_refuted : forall L n, exp_acc L -> exp_unit L -> (n <= 4800)%nat ->
  0.0008 <= Rabs (B2R (lg_prev (after (lg_hold one) n (lg_init L sr48 (fdec 1 10)))) - 1).
Proof.
  intros L n HL HU Hn.
  assert (T : fin (fdec 1 10 : f32) /\ 0.1 <= B2R (fdec 1 10 : f32) <= 0.100001) by (split; [ffin|fval (fdec 1 10 : f32); lra]).
  assert (S : fin sr48 /\ B2R sr48 = 48000) by (split; [ffin|fval sr48; lra]).
  destruct T as [Ft Bt]. destruct S as [Fs Es].
  assert (W1 : within (bpow radix2 0) one) by (split; [ffin|rewrite one_R, Rabs_R1; apply Rle_refl]).
  assert (W0 : within (bpow radix2 0) zero) by (apply within0, bpow_ge_0).
  destruct (lag_time L 0 (fdec 1 10) sr48 n one zero HL HU) as [_ H]; auto; try lia; try (rewrite Es); try lra.
  change (lg_setValue (lg_init L sr48 (fdec 1 10)) zero) with (lg_init L sr48 (fdec 1 10)) in H.
  rewrite one_R, zero_R, Es in H. replace (0 - 1) with (- (1)) in H by ring. rewrite Rabs_Ropp, Rabs_R1 in H.
  assert (Hi : INR n <= 4800) by (replace 4800 with (INR 4800) by (rewrite INR_IZR_INZ; apply f_equal; vm_compute; reflexivity); now apply le_INR).
  eapply Rle_trans; [|apply H; lra]. change (0 - 25)%Z with (-25)%Z. bp. lra.
Qed.
Print Assumptions C31_documented_settling_refuted.
Example ex_C31 : lg_prev (after (lg_hold one) 10 (lg_init half_exp sr48 (fdec 1 10))) = flit 1023 (-10) /\
  op_z (after (op_hold (fneg one)) 3 (op_init half_exp sr48 (fofZ 100))) = fneg (flit 7 (-3)) /\ exp_unit half_exp.
Proof. split; [|split; [|exact half_exp_unit]]; vm_compute; reflexivity. Qed.

(** C32: once the input is held, every output is the previous one times the coefficient, rounded: same sign, never larger. *)
Theorem C32_never_grows : forall s x, unit_sample (dc_coeff s) -> fin x -> dc_xl s = x -> fin (dc_yl s) ->
  let y := B2R (dc_yl s) in let y' := B2R (snd (dc_tick s x)) in
  y' = rnd32 (B2R (dc_coeff s) * y) /\ Rabs y' <= Rabs y /\ 0 <= y' * y.
Proof. intros s x C Fx E Fy. pose proof (dc_held (dc_coeff s) x (dc_yl s) C Fx Fy) as (_ & H). unfold dc_tick. cbn [snd]. now rewrite E. Qed.
Print Assumptions C32_never_grows.
(** C32: it decays geometrically to (practically) zero for cutoffs from sr/2^18 up. *)
Theorem C32_decays : forall L sr c ops x n, exp_acc L -> exp_unit L -> fin sr -> 0 < B2R sr -> dc_cut_ok sr c ->
  Forall (dc_ok (bpow radix2 120) sr) ops -> within (bpow radix2 120) x ->
  let s := fst (dc_tick (fst (runs (dc_op L) (dc_init L sr c) ops)) x) in
  let a := B2R (dc_coeff s) in
  0 <= a <= 1 - bpow radix2 (-16) /\
  Rabs (B2R (dc_yl (after (dc_hold x) n s))) <= (a * (1 + bpow radix2 (-24))) ^ n * Rabs (B2R (dc_yl s)) + bpow radix2 (-133).
Proof. exact dc_decays. Qed.
Print Assumptions C32_decays.
(** C32: outputs never exceed 33/16 times the peak input. *)
Theorem C32_bounded : forall L k sr c0 ops, exp_acc L -> exp_unit L -> fin sr -> 0 < B2R sr -> dc_cut_ok sr c0 -> (-90 <= k <= 120)%Z ->
  Forall (dc_ok (bpow radix2 k) sr) ops ->
  Forall (within (33 / 16 * bpow radix2 k)) (snd (runs (dc_op L) (dc_init L sr c0) ops)).
Proof. exact dc_bounded. Qed.
Print Assumptions C32_bounded.
(** C32: stereo operation is two independent mono blockers. *)
Theorem C32_stereo : forall L xs s, 
  let swap s := Dcb (dc_sr s) (dc_cutoff s) (dc_coeff s) (dc_xr s) (dc_yr s) (dc_xl s) (dc_yl s) in
  snd (runs (dc_op L) s (map (fun p => BTick2 (fst p) (snd p)) xs)) =
  flat_map (fun p => [fst p; snd p]) (combine (snd (runs (dc_op L) s (map (fun p => BTick (fst p)) xs)))
                                              (snd (runs (dc_op L) (swap s) (map (fun p => BTick (snd p)) xs)))).
Proof. exact dc_stereo_split. Qed.
Print Assumptions C32_stereo.
(** C32: with a tiny cutoff the coefficient rounds to one and a step is passed for ever (correctly rounded exp). *)
Theorem C32_tiny_cutoff_refuted : forall n,
  B2R (snd (dc_tick (after (dc_hold one) (S n) (dc_init exact_libm sr48 (fdec 1 100000))) one)) = 1.
Proof. exact dc_tiny. Qed.
Print Assumptions C32_tiny_cutoff_refuted.
Example ex_C32 :
  snd (runs (dc_op half_exp) (dc_init half_exp sr48 (fofZ 20)) [BTick one; BTick one; BTick one; BTick2 zero one; BReset; BCutoff zero; BTick one; BTick one]) =
  [one; half; flit 1 (-2); fneg (flit 7 (-3)); one; one; zero].
Proof. vm_compute. reflexivity. Qed.

(** C53: Tape never leaves [-1,1], whatever is called, when |sample| <= 2^a and |pregain| <= 2^(126-a). *)
Theorem C53_unit_range : forall L a sr ops, exp_unit L -> tanh_unit L -> sr_ok sr -> (-149 <= a <= 126)%Z -> Forall (tp_ok a) ops ->
  Forall (within 1) (snd (runs (tp_op L) (tp_init L sr) ops)).
Proof. exact tp_bounded. Qed.
Print Assumptions C53_unit_range.
(** C53: one overflowing product poisons the follower: NaN for ever, also after the gain is back to normal. *)
Theorem C53_overflow_refuted :
  snd (runs (tp_op toy_tape) (tp_init toy_tape sr48) [TTick half; TGain (flit 1 127); TTick (fofZ 4); TGain one; TTick half; TTick zero; TTick zero]) =
  [half; B754_nan; B754_nan; B754_nan; B754_nan].
Proof. vm_compute. reflexivity. Qed.
Print Assumptions C53_overflow_refuted.
(** C53: mono processing is the left channel of stereo processing. *)
Theorem C53_mono_is_left : forall L s l r,
  snd (tp_tick L s l) = fst (snd (tp_tickStereo L s (l, r))) /\
  tp_l (fst (tp_tick L s l)) = tp_l (fst (tp_tickStereo L s (l, r))) /\
  tp_fo (fst (tp_tick L s l)) = tp_fo (fst (tp_tickStereo L s (l, r))).
Proof. exact tp_stereo_left. Qed.
Print Assumptions C53_mono_is_left.
Example ex_C53 : tanh_unit exact_libm /\ exp_unit exact_libm /\ tanh_unit toy_tape /\
  snd (runs (tp_op toy_tape) (tp_init toy_tape sr48) [TBias one; TGain two; TTick2 (flit 1 (-3)) (fneg (flit 1 (-2))); TReset; TTick (fofZ 100)]) =
  [flit 3 (-3); fneg (flit 3 (-3)); one].
Proof. split; [exact exact_tanh_unit|]. split; [exact exact_exp_unit|]. split; [exact toy_tanh_unit|]. vm_compute. reflexivity. Qed.
