(** XLine and Phasor: the property theorems. *)
From Coq Require Import ZArith Reals Bool List Lra Lia.
From Flocq Require Import Core BinarySingleNaN.
From Verif Require Import Flt FltFacts FltMore FltKey Libm LibmInst UtilModel UtilProofs OscSpec SmoothProofs3 LineModel LineSpec LineProofs LineProofs2 LineInst PhasorProofs PhasorProofs2 PhasorProofs3.
Import ListNotations.
Local Open Scope R_scope.

(** C33: isDone turns true exactly [line_len] ticks after set, and from then on the output is the end value (times mul plus add), for ever. *)
Theorem C33_on_time : forall L x s e d mul add i, same_sign s e -> flt zero d = true -> fin (fmul d (xl_sr x)) -> B2R (fmul d (xl_sr x)) <= IZR (2 ^ 24) ->
  let y := xl_set L x s e d mul add in
  xl_done (after xl_tick i y) = (line_len d (xl_sr x) <=? Z.of_nat i)%Z /\
  ((line_len d (xl_sr x) <= Z.of_nat i)%Z -> nth_sample xl_tick i y = fadd (fmul e mul) add).
Proof. exact xl_on_time. Qed.
Print Assumptions C33_on_time.
(** C33: a line of more than 2^24 samples never finishes: the float counter sticks at 2^24. *)
Theorem C33_long_line_refuted : forall L x s e d mul add i, same_sign s e -> flt zero d = true ->
  (is_nan (fmul d (xl_sr x)) = true \/ flt (fofZ 16777216) (fmul d (xl_sr x)) = true) ->
  xl_done (after xl_tick i (xl_set L x s e d mul add)) = false.
Proof. exact xl_never. Qed.
Print Assumptions C33_long_line_refuted.
(** C33: reset and trigger replay the line from its start after any number of ticks. *)
Theorem C33_replay : forall L x s e d mul add i, xl_reset (after xl_tick i (xl_set L x s e d mul add)) = xl_set L x s e d mul add.
Proof. exact xl_replay. Qed.
Print Assumptions C33_replay.
(** C33: on the way the output follows start*(end/start)^(i/N) with relative error about 2^-16 + i*2^-22. *)
Theorem C33_curve : forall L x s e d i, exp_rel L -> log_rel L -> moderate_end s -> moderate_end e -> same_sign s e -> flt zero d = true ->
  let n := fmul d (xl_sr x) in let N := B2R n in
  fin n -> 1 <= N <= bpow radix2 21 -> INR i < N ->
  exists h, Rabs h <= bpow radix2 (-16) + INR i * bpow radix2 (-22) /\
  let y := nth_sample xl_tick i (xl_set L x s e d one zero) in
  fin y /\ B2R y = B2R s * Rpower (B2R e / B2R s) (INR i / N) * exp h.
Proof. exact xl_curve. Qed.
Print Assumptions C33_curve.
(** C33: that error is real: from 1 to 1.01 in ten seconds at 48 kHz the output is 1 for all 480000 samples, then jumps. *)
Theorem C33_frozen_refuted : forall i, (Z.of_nat i < 480000)%Z ->
  nth_sample xl_tick i (xl_set exact_libm (xl_init exact_libm (fofZ 48000)) one (fdec 101 100) (fofZ 10) one zero) = one.
Proof. exact frozen_line. Qed.
Print Assumptions C33_frozen_refuted.

(** C34: set with any two numbers behaves as set with two non-zero numbers of the same sign and the requested magnitudes, zero counting as 0.0001. *)
Theorem C34_endpoints : forall s e, is_nan s = false -> is_nan e = false ->
  exists s' e', same_sign s' e' /\
    fabs s' = fabs (if feq s zero then fdec 1 10000 else s) /\ fabs e' = fabs (if feq e zero then fdec 1 10000 else e) /\
    forall L x d mul add, xl_set L x s e d mul add = xl_set L x s' e' d mul add.
Proof.
  intros s e Ns Ne. exists (fst (xl_ends s e)), (snd (xl_ends s e)). destruct (ends_ok s e Ns Ne) as (A & B & C).
  split; [exact A|]. split; [exact B|]. split; [exact C|]. intros L x d mul add. unfold xl_set. rewrite (ends_same _ _ A).
  destruct (xl_ends s e). reflexivity.
Qed.
Print Assumptions C34_endpoints.
(** C34: valid endpoints are used as given: the first sample is the start value. *)
Theorem C34_first_sample : forall L x s e d mul add, same_sign s e -> nth_sample xl_tick 0 (xl_set L x s e d mul add) = fadd (fmul s mul) add.
Proof. intros L x s e d mul add S. unfold nth_sample, after. rewrite xl_out. unfold xl_set. rewrite (ends_same s e S). reflexivity. Qed.
Print Assumptions C34_first_sample.
(** C34: a duration that is zero, negative or NaN counts as 0.001 s. *)
Theorem C34_duration : forall L x s e d mul add, flt zero d = false -> xl_set L x s e d mul add = xl_set L x s e (fdec 1 1000) mul add.
Proof. intros L x s e d mul add D. unfold xl_set. rewrite D. replace (flt zero (fdec 1 1000 : f32)) with true by (vm_compute; reflexivity). reflexivity. Qed.
Print Assumptions C34_duration.
(** C34: contrary to the documentation, zero next to a negative value is not replaced by -0.0001: both become positive. *)
Theorem C34_negative_zero_refuted : forall L x e d mul add, flt e zero = true ->
  xl_set L x zero e d mul add = xl_set L x (fdec 1 10000) (fabs e) d mul add /\ xl_set L x e zero d mul add = xl_set L x (fabs e) (fdec 1 10000) d mul add.
Proof.
  intros L x e d mul add H. assert (Ng : flt zero e = false /\ feq e zero = false /\ flt zero (fabs e) = true /\ feq (fabs e) zero = false).
  { destruct e as [b|b| |b m ex B]; try destruct b; vm_compute in H |- *; try discriminate H; auto. }
  destruct Ng as (A & B & C & D). unfold xl_set, xl_ends. replace (feq (zero : f32) zero) with true by (vm_compute; reflexivity).
  replace (feq (fdec 1 10000 : f32) zero) with false by (vm_compute; reflexivity). rewrite B, D. cbv iota. rewrite A, C.
  replace (flt zero (fdec 1 10000 : f32)) with true by (vm_compute; reflexivity). cbn [Bool.eqb negb].
  replace (fabs (fdec 1 10000 : f32)) with (fdec 1 10000 : f32) by (vm_compute; reflexivity). split; reflexivity.
Qed.
Print Assumptions C34_negative_zero_refuted.

(** C35: for every sequence of calls with parameters up to 2^100 the next output is finite and lies between start and end, up to the rounding of the range. *)
Theorem C35_range : forall sr calls, Forall ph_ok calls ->
  let p := fst (run ph_op (ph_init sr) calls) in let y := snd (ph_tick p) in
  let s := B2R (ph_start p) in let e := B2R (ph_end p) in let slack := bpow radix2 (-22) * (Rabs s + Rabs e) + bpow radix2 (-148) in
  fin y /\ (s < e -> s <= B2R y <= e + slack) /\ (e < s -> e <= B2R y <= s + slack).
Proof.
  intros sr calls H p y s e slack. destruct (ph_run_inv sr calls H) as (A & B & C & D & E). fold p in A, B, C, D, E.
  split; [exact (proj1 (wrap_big _ _ _ B C E))|]. split; intros L.
  - destruct (wrap_fwd _ _ _ B C E L) as (_ & W & _). exact W.
  - destruct (wrap_bwd _ _ _ B C E L) as (_ & W & _). exact W.
Qed.
Print Assumptions C35_range.
(** C35: range [0,end) and non-negative rates: always in [0,end), end excluded, whatever ticks, triggers, resets and rate changes follow. *)
Theorem C35_upward : forall p rate e pos calls, ph_par e -> 0 < B2R e -> ph_par rate -> 0 <= B2R rate -> ph_par pos -> 0 <= B2R pos -> Forall up_ok calls ->
  forall x, In (Some x) (snd (run ph_op (ph_set p rate zero e pos) calls)) -> fin x /\ 0 <= B2R x < B2R e.
Proof. intros p rate e pos calls A B C D E F. now apply up_run. Qed.
Print Assumptions C35_upward.
(** C35: one wrap that ends at zero: forward in [0,end], backward in (0,start]. *)
Theorem C35_zero_based : forall sr calls, Forall ph_ok calls ->
  let p := fst (run ph_op (ph_init sr) calls) in let y := snd (ph_tick p) in
  (B2R (ph_start p) = 0 -> 0 < B2R (ph_end p) -> 0 <= B2R y <= B2R (ph_end p)) /\
  (B2R (ph_end p) = 0 -> 0 < B2R (ph_start p) -> 0 < B2R y <= B2R (ph_start p)).
Proof.
  intros sr calls H p y. destruct (ph_run_inv sr calls H) as (A & B & C & D & E). fold p in A, B, C, D, E. split; intros Z L.
  - destruct (wrap_fwd _ _ _ B C E ltac:(rewrite Z; exact L)) as (_ & W & _ & W2 & _). specialize (W2 Z). rewrite Z in W. split; [apply W|exact W2].
  - destruct (wrap_bwd _ _ _ B C E ltac:(rewrite Z; exact L)) as (_ & _ & W). exact (W Z).
Qed.
Print Assumptions C35_zero_based.
(** C35: start, end and rate on a common grid 2^e, at most 2^22 steps each: the output is exact modular arithmetic for ever, forward and backward. *)
Theorem C35_exact : forall p rate start end_ pos e a b r i, (-149 <= e <= 104)%Z -> a <> b ->
  (Z.abs a <= 2 ^ 22)%Z -> (Z.abs b <= 2 ^ 22)%Z -> (Z.abs r <= 2 ^ 22)%Z -> isq e start a -> isq e end_ b -> isq e rate r ->
  isq e (nth_sample ph_tick i (ph_set p rate start end_ pos)) (zwrap a b (a + Z.of_nat i * r)).
Proof. intros. eapply grid_run; eauto. change (2 ^ 22)%Z with 4194304%Z in *. change (2 ^ 23)%Z with 8388608%Z. lia. Qed.
Print Assumptions C35_exact.
(** C35: contrary to the documentation the end value can be output: rate -2^-26 on [0,1). *)
Theorem C35_end_output_refuted : forall sr pos, nth_sample ph_tick 1 (ph_set (ph_init sr) (fneg (fdec 1 67108864)) zero one pos) = one.
Proof. intros. vm_compute. reflexivity. Qed.
Print Assumptions C35_end_output_refuted.
(** C35: nor is a phasor with end = start constant, as its comment says: it runs away. *)
Theorem C35_empty_range_refuted : forall sr pos i, (Z.of_nat i <= 2 ^ 22)%Z ->
  let y := nth_sample ph_tick i (ph_set (ph_init sr) one (fofZ 5) (fofZ 5) pos) in fin y /\ B2R y = 5 + INR i.
Proof.
  intros sr pos i Hi. assert (F5 : fin (fofZ 5 : f32)) by ffin. assert (W : forall v, ph_wrap (fofZ 5) (fofZ 5) v = v) by (intros; now apply wrap_same).
  assert (G : let q := after ph_tick i (ph_set (ph_init sr) one (fofZ 5) (fofZ 5) pos) in
    ph_start q = fofZ 5 /\ ph_end q = fofZ 5 /\ ph_rate q = one /\ isq 0 (ph_value q) (5 + Z.of_nat i)).
  { induction i as [|i IH]; cbv zeta.
    - cbn [after ph_set ph_start ph_end ph_rate ph_value]. do 3 (split; [reflexivity|]). split; [exact F5|]. fval (fofZ 5 : f32). rewrite V. change (bpow radix2 0) with 1. cbn [Z.of_nat Z.add]. lra.
    - rewrite after_S. destruct IH as (A & B & C & D); [lia|]. set (q := after ph_tick i _) in *. clearbody q. unfold ph_tick. cbn [fst]. unfold ph_at. cbn [ph_start ph_end ph_rate ph_value].
      do 3 (split; [assumption|]). rewrite A, B, C, W. replace (5 + Z.of_nat (S i))%Z with ((5 + Z.of_nat i) + 1)%Z by lia.
      apply q_add; auto; [lia| |]. + split; [reflexivity|]. rewrite one_R. cbn. lra. + change (2 ^ 24)%Z with 16777216%Z. change (2 ^ 22)%Z with 4194304%Z in Hi. lia. }
  cbv zeta in *. destruct G as (A & B & _ & [D E]). unfold nth_sample. set (q := after ph_tick i _) in *. clearbody q. unfold ph_tick. cbn [snd]. rewrite A, B, W. split; [exact D|].
  rewrite E, plus_IZR, <- INR_IZR_INZ. change (bpow radix2 0) with 1. ring.
Qed.
Print Assumptions C35_empty_range_refuted.

(** C36: for every trigger history, each sample is the one counted from the last rising edge (from <= 0 to > 0), starting at the reset position; without an edge the trigger has no effect. *)
Theorem C36_trigger : forall ts p i, (i < length ts)%nat ->
  nth i (trig_run p ts) zero = match since_edge (ph_trig p) ts i with
                               | Some k => nth_sample ph_tick k (ph_resetTo p (ph_pos p))
                               | None => nth_sample ph_tick i p
                               end.
Proof. exact trig_spec. Qed.
Print Assumptions C36_trigger.

(** C58: over [0,end) with any rate up to end, the phase after i ticks is i*rate modulo end, the rounding error growing by at most 2^-22*end per tick. *)
Theorem C58_drift : forall e rate pos p i, ph_par e -> bpow radix2 (-100) <= B2R e -> fin rate -> Rabs (B2R rate) <= B2R e ->
  exists k, Rabs (B2R (nth_sample ph_tick i (ph_set p rate zero e pos)) + IZR k * B2R e - INR i * B2R rate) <= INR (S i) * (bpow radix2 (-22) * B2R e).
Proof. exact drift. Qed.
Print Assumptions C58_drift.
(** C58: setFrequency: i ticks later the phase is i*f/sr turns, up to 2^-21 turns per tick. *)
Theorem C58_frequency : forall e rate pos p sr f i, ph_par e -> bpow radix2 (-50) <= B2R e -> rate_ok sr -> fin f -> Rabs (B2R f) <= B2R sr / 2 ->
  B2R e * (B2R sr / 2) <= bpow radix2 126 -> ph_sr p = sr ->
  exists k, Rabs (B2R (nth_sample ph_tick i (ph_setFrequency (ph_set p rate zero e pos) f)) - (INR i * (B2R f / B2R sr) - IZR k) * B2R e) <= INR (S i) * (bpow radix2 (-21) * B2R e).
Proof.
  intros e rate pos p sr f i Pe Le Hs Ff Bf Big S3.
  pose proof (freq_rate e sr f (ph_set p rate zero e pos) Pe Le Hs Ff Bf Big eq_refl eq_refl S3) as H. cbv zeta in H.
  set (r := ph_rate (ph_setFrequency (ph_set p rate zero e pos) f)) in *. destruct H as (Fr & Br & Er).
  assert (E : ph_setFrequency (ph_set p rate zero e pos) f = ph_set p r zero e pos) by reflexivity. rewrite E. clearbody r. clear E.
  destruct (drift e r pos p i Pe) as [k Hk]; auto; [eapply Rle_trans; [|exact Le]; apply bpow_le; lia|].
  exists k. revert Hk. generalize (B2R (nth_sample ph_tick i (ph_set p r zero e pos))). intros y Hk. rewrite S_INR in *. pose proof (pos_INR i) as Pi.
  change (-21)%Z with (-22 + 1)%Z. rewrite bp2. set (c := bpow radix2 (-22) * B2R e) in *.
  assert (C0 : 0 < c) by (apply Rmult_lt_0_compat; [apply bpow_gt_0|pose proof (bpow_gt_0 radix2 (-50)); lra]).
  replace (y - (INR i * (B2R f / B2R sr) - IZR k) * B2R e) with ((y + IZR k * B2R e - INR i * B2R r) + INR i * (B2R r - B2R e * B2R f / B2R sr)) by (unfold Rdiv; ring).
  eapply Rle_trans; [apply Rabs_triang|]. rewrite Rabs_mult, (Rabs_pos_eq (INR i)) by exact Pi.
  assert (INR i * Rabs (B2R r - B2R e * B2R f / B2R sr) <= INR i * c) by (apply Rmult_le_compat_l; assumption).
  replace (2 * bpow radix2 (-22) * B2R e) with (2 * c) by (unfold c; ring). lra.
Qed.
Print Assumptions C58_frequency.

(** Examples. *)
Definition sr48k : f32 := fofZ 48000.
(** One octave in a second at 48 kHz. *)
Example ex_C33 : forall i, let y := xl_set exact_libm (xl_init exact_libm sr48k) one two one one zero in
  xl_done (after xl_tick i y) = (48000 <=? Z.of_nat i)%Z /\ ((48000 <= Z.of_nat i)%Z -> nth_sample xl_tick i y = two).
Proof.
  intros i y. assert (L : line_len one (xl_sr (xl_init exact_libm sr48k)) = 48000%Z).
  { unfold line_len, xl_init. cbn [xl_sr]. assert (E : fmul one sr48k = (fofZ 48000 : f32)) by (vm_compute; reflexivity). rewrite E. fval (fofZ 48000 : f32).
    replace (B2R (fofZ 48000 : f32)) with (IZR 48000) by lra. rewrite Zceil_IZR. reflexivity. }
  pose proof (C33_on_time exact_libm (xl_init exact_libm sr48k) one two one one zero i) as H. cbv zeta in H. fold y in H. rewrite L in H.
  assert (E : fadd (fmul two one) zero = (two : f32)) by (vm_compute; reflexivity). rewrite E in H. apply H.
  - left. split; vm_compute; reflexivity.
  - vm_compute; reflexivity.
  - unfold xl_init. cbn [xl_sr]. ffin.
  - unfold xl_init. cbn [xl_sr]. assert (E2 : fmul one sr48k = (fofZ 48000 : f32)) by (vm_compute; reflexivity). rewrite E2. fval (fofZ 48000 : f32). rewrite V. change (2 ^ 24)%Z with 16777216%Z. lra.
Qed.
(** Half way up the octave the output is sqrt 2 within one per cent. *)
Example ex_C33_curve : exists h, Rabs h <= 0.01 /\
  B2R (nth_sample xl_tick (Z.to_nat 24000) (xl_set exact_libm (xl_init exact_libm sr48k) one two one one zero)) = 1 * Rpower 2 (1 / 2) * exp h.
Proof.
  assert (E : fmul one (xl_sr (xl_init exact_libm sr48k)) = (fofZ 48000 : f32)) by (unfold xl_init; cbn [xl_sr]; vm_compute; reflexivity).
  assert (V1 : B2R (fofZ 48000 : f32) = 48000) by (fval (fofZ 48000 : f32); lra).
  assert (Ei : INR (Z.to_nat 24000) = 24000) by (rewrite INR_IZR_INZ, Z2Nat.id by lia; reflexivity).
  destruct (C33_curve exact_libm (xl_init exact_libm sr48k) one two one (Z.to_nat 24000)) as (h & Bh & Fy & Ey).
  - exact exact_exp_rel. - exact exact_log_rel.
  - split; [reflexivity|]. rewrite one_R, Rabs_pos_eq by lra. bp. lra.
  - split; [reflexivity|]. rewrite two_R, Rabs_pos_eq by lra. bp. lra.
  - left; split; vm_compute; reflexivity.
  - vm_compute; reflexivity.
  - rewrite E. ffin.
  - rewrite E, V1. bp. lra.
  - rewrite E, V1, Ei. lra.
  - rewrite E, V1, Ei, one_R, two_R in *. exists h. split; [revert Bh; bp; intros Bh; lra|]. rewrite Ey. replace (2 / 1) with 2 by lra. replace (24000 / 48000) with (1 / 2) by lra. reflexivity.
Qed.
(** Six minutes at 48 kHz is already too long. *)
Example ex_C33_long : forall L i, xl_done (after xl_tick i (xl_set L (xl_init L sr48k) one two (fofZ 360) one zero)) = false.
Proof. intros L i. apply C33_long_line_refuted; [left; split; vm_compute; reflexivity|vm_compute; reflexivity|right; unfold xl_init; cbn [xl_sr]; vm_compute; reflexivity]. Qed.
(** set(3,-5) plays from 3 to 5; set(-3,-5) keeps both. *)
Example ex_C34 : xl_ends (fofZ 3) (fofZ (-5)) = (fofZ 3, fofZ 5) /\ xl_ends (fofZ (-3)) (fofZ (-5)) = (fofZ (-3), fofZ (-5)).
Proof. split; vm_compute; reflexivity. Qed.
Example ex_C35_range : forall sr, nth_sample ph_tick 12 (ph_set (ph_init sr) (fofZ 3) (fofZ 10) (fofZ 20) zero) = fofZ 16 /\
  nth_sample ph_tick 5 (ph_set (ph_init sr) (fofZ (-3)) (fofZ 20) (fofZ 10) zero) = fofZ 15.
Proof. intros. split; vm_compute; reflexivity. Qed.
Example ex_C35_exact : zwrap 10 20 (10 + 12 * 3) = 16%Z /\ zwrap 20 10 (20 + 5 * -3) = 15%Z.
Proof. split; reflexivity. Qed.
(** 440 Hz over [0,1) stays in [0,1) for a billion ticks. *)
Example ex_C35_upward : forall n x, In (Some x) (snd (run ph_op (ph_set (ph_init sr48k) (fdec 916667 100000000) zero one zero) (repeat HTick n))) -> fin x /\ 0 <= B2R x < B2R one.
Proof.
  intros n x. apply C35_upward; try (apply par_01); rewrite ?one_R, ?zero_R; try lra.
  - split; [ffin|]. fval (fdec 916667 100000000 : f32). rewrite V. rewrite Rabs_pos_eq by lra. apply Rle_trans with 1; [lra|apply (bpow_le radix2 0 100); lia].
  - fval (fdec 916667 100000000 : f32). lra.
  - apply Forall_forall. intros o Ho. apply repeat_spec in Ho. subst. exact I.
Qed.
(** A trigger held high resets once; after it has gone to zero it resets again. *)
Example ex_C36 : trig_run (ph_set (ph_init sr48k) one zero (fofZ 10) (fofZ 7)) [zero; zero; one; one; zero; one] = [zero; one; fofZ 7; fofZ 8; fofZ 9; fofZ 7].
Proof. vm_compute. reflexivity. Qed.
Example ex_C36_since : since_edge zero [zero; zero; one; one; zero; one] 4 = Some 2%nat /\ since_edge zero [zero; zero; one; one; zero; one] 1 = None.
Proof. split; vm_compute; reflexivity. Qed.
(** A 1 Hz ramp over [0,1) at 48 kHz after 12000 ticks: a quarter, within 0.01. *)
Example ex_C58 : exists k, Rabs (B2R (nth_sample ph_tick (Z.to_nat 12000) (ph_setFrequency (ph_set (ph_init sr48k) one zero one zero) one)) - (1 / 4 - IZR k)) <= 0.01.
Proof.
  assert (V1 : B2R sr48k = 48000) by (unfold sr48k; fval (fofZ 48000 : f32); lra).
  assert (Ei : INR (Z.to_nat 12000) = 12000) by (rewrite INR_IZR_INZ, Z2Nat.id by lia; reflexivity).
  destruct (C58_frequency one one zero (ph_init sr48k) sr48k one (Z.to_nat 12000)) as [k Hk]; rewrite ?V1, ?one_R in *.
  - apply par_01. - bp. lra.
  - split; [ffin|]. rewrite V1. split; [lra|]. apply Rle_trans with (bpow radix2 16); [bp; lra|apply bpow_le; lia].
  - reflexivity. - rewrite Rabs_pos_eq; lra.
  - apply Rle_trans with (bpow radix2 16); [bp; lra|apply bpow_le; lia]. - reflexivity.
  - rewrite S_INR, Ei in Hk. exists k. replace (12000 * (1 / 48000) - IZR k) with (1 / 4 - IZR k) in Hk by field. rewrite !Rmult_1_r in Hk. revert Hk. bp. intros. lra.
Qed.
