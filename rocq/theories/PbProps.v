(** The playback example and how far a Phasor gets: the property theorems C93-C97. *)
From Coq Require Import ZArith Reals Bool List Lra Lia.
From Flocq Require Import Core BinarySingleNaN.
From Verif Require Import Flt FltFacts FltMore FltRel FltArith Libm LibmInst UtilModel UtilProofs EnvSpec EnvInst OscSpec OscProofs2 SmoothModel SmoothSpec LineModel LineSpec LineInst PhasorProofs PhasorProofs2 PhasorProofs4
  AllocModel AllocSpec AllocProps RdModel RdSpec RdProps DsModel DsSpec PanSpec PbModel PbProofs PbProofs2 PbProofs3 PbProofs4 PbProofs5.
Import ListNotations.

(** ** C93: loading a file *)
(** One or two channels: never undefined; accepted exactly when there is room; a refused file changes nothing; an accepted one can be read back
    frame by frame, and no live buffer is touched. *)
Theorem C93_loads : forall P MB st L f, params_ok P MB -> reachable P MB st L -> file_ok f -> (sf_ch f <= 2)%Z ->
  exists st' r, load P st f = Some (st', r) /\
    ((exists b, r = Some b) <-> inited st = true /\ sf_frames f <> 0%Z /\ exists o, free_run P st o (sf_frames f * sf_ch f)) /\
    (r = None -> st' = st) /\
    (forall a i, In a L -> covers a i -> pool st' i = pool st i) /\
    forall b, r = Some b -> numSamples b = sf_frames f /\ channels b = sf_ch f /\
      forall i, (0 <= i < sf_frames f)%Z -> getStereoSample P (pool st') b i = Some (sf_item f (i * sf_ch f), sf_item f (i * sf_ch f + sf_ch f - 1)).
Proof. exact (fun P MB st L f H => load_fine P MB H st L f). Qed.
Print Assumptions C93_loads.
(** Three or more: the buffer is made for two channels but all of them are stored.  Past the end of the pool that is undefined; otherwise the
    samples run past the buffer, and a frame holds two consecutive samples of the stream. *)
Theorem C93_surround_refuted : forall P MB st L f, params_ok P MB -> reachable P MB st L -> file_ok f -> (3 <= sf_ch f)%Z -> inited st = true -> sf_frames f <> 0%Z ->
  (exists o, free_run P st o (sf_frames f * 2)) ->
  ((P < sf_frames f * sf_ch f)%Z -> load P st f = None) /\
  (forall st' r, load P st f = Some (st', r) -> exists base b, r = Some b /\ data b = PPool base /\ numSamples b = sf_frames f /\ channels b = 2%Z /\
     (forall i, (0 <= i < sf_frames f)%Z -> getStereoSample P (pool st') b i = Some (sf_item f (2 * i), sf_item f (2 * i + 1))) /\
     forall i, (sf_frames f * 2 <= i < sf_frames f * sf_ch f)%Z -> pool st' (base + i)%Z = sf_item f i).
Proof. exact (fun P MB st L f H => load_overflow P MB H st L f). Qed.
Print Assumptions C93_surround_refuted.
(** The allocator of AllocProps: 16 floats, one live buffer at 4..9.  A stereo file of 3 frames goes to 10..15. *)
Definition stereo3 : sfile := SFile 3 2 48000 (fun i => fofZ (100 + i)).
Example ex_C93 : file_ok stereo3 /\
  match load ex_P ex_st stereo3 with
  | Some (st, Some b) => match getStereoSample ex_P (pool st) b 2 with Some (l, r) => feq l (fofZ 104) && feq r (fofZ 105) && feq (pool st 4) (pool ex_st 4) | None => false end
  | _ => false end = true.
Proof. split; [unfold file_ok; cbn; lia|]. vm_compute. reflexivity. Qed.
(** Two frames of three channels go to 0..3 and overwrite the first two samples of the live buffer. *)
Definition surround2 : sfile := SFile 2 3 48000 (fun i => fofZ (100 + i)).
Theorem C93_overwrites_refuted : exists P MB st L f a i, params_ok P MB /\ reachable P MB st L /\ file_ok f /\ In a L /\ covers a i /\
  match load P st f with Some (st', Some _) => feq (pool st' i) (pool st i) | _ => true end = false.
Proof.
  exists ex_P, ex_MB, ex_st, ex_L, surround2, (4%Z, 6%Z), 4%Z. split; [exact ex_params|]. split; [exact ex_reachable|]. split; [unfold file_ok; cbn; lia|].
  split; [now left|]. split; [unfold covers; cbn; lia|]. vm_compute. reflexivity.
Qed.
Print Assumptions C93_overwrites_refuted.

(** ** C94: how far a Phasor gets *)
Local Open Scope R_scope.
(** Rates of at most 2^k never carry a position past 2^(k+24), whatever calls are made, if the end is beyond. *)
Theorem C94_capped_refuted : forall k e rate pos p l, (-100 <= k <= 70)%Z -> ph_par e -> bpow radix2 (k + 24) < B2R e -> fin rate -> 0 <= B2R rate <= bpow radix2 k ->
  fin pos -> 0 <= B2R pos <= bpow radix2 (k + 24) -> Forall (slow_ok k) l ->
  forall x, In (Some x) (snd (OscSpec.run ph_op (ph_set p rate zero e pos) l)) -> fin x /\ 0 <= B2R x <= bpow radix2 (k + 24).
Proof. exact cap_run. Qed.
Print Assumptions C94_capped_refuted.
(** Rate 2^k: exact counting for 2^24 ticks, then the same position for ever. *)
Theorem C94_sticks : forall k e rate pos p i, (-100 <= k <= 70)%Z -> ph_par e -> bpow radix2 (k + 24) < B2R e -> fin rate -> B2R rate = bpow radix2 k ->
  fin (nth_sample ph_tick i (ph_set p rate zero e pos)) /\ B2R (nth_sample ph_tick i (ph_set p rate zero e pos)) = IZR (Z.min (Z.of_nat i) (2 ^ 24)) * bpow radix2 k.
Proof. exact cap_count. Qed.
Print Assumptions C94_sticks.
(** The other side: with an end of at most 2^(k+24), rates of at least 2^k (and at most half the range) bring the position back round: without
    going down it can take at most 2e/2^k + 1 steps. *)
Theorem C94_comes_round : forall k (e : f32), (-100 <= k <= 70)%Z -> ph_par e -> bpow radix2 k <= B2R e / 2 -> B2R e <= bpow radix2 (k + 24) -> forall rs p,
  ph_start p = zero -> ph_end p = e -> fin (ph_value p) -> 0 <= B2R (ph_value p) < B2R e ->
  Forall (fun r => fin r /\ bpow radix2 k <= B2R r <= B2R e / 2) rs -> climbs (ph_play p rs) ->
  INR (length rs) * bpow radix2 (k - 1) <= B2R e - B2R (ph_value p) + bpow radix2 (k - 1).
Proof. exact climb_short. Qed.
Print Assumptions C94_comes_round.
(** The playback example: of a file of more than 2^23+2 frames at up to normal speed, nothing between frame 2^23+2 and the last one is ever heard. *)
Theorem C94_playback_refuted : forall L b b' fr sr os, exp_unit L -> exp_acc L -> long_file b -> rb_ok b' -> same_head (2 ^ 23 + 2) b b' -> studio sr -> (1 <= fr <= sr)%Z -> Forall (gentle L fr) os ->
  heard L b' fr sr os = heard L b fr sr os /\ heard L b fr sr os <> None.
Proof. exact never_heard. Qed.
Print Assumptions C94_playback_refuted.
(** Five minutes of silence, and the same with a tone from frame 8.5 million (2 minutes 57 seconds) to 14 million. *)
Definition minutes5 (on : bool) : rbuf := RBuf (Some (fun i => if on && (8500000 <? i)%Z && (i <? 14000000)%Z then half else zero)) 14400000 1 (fofZ 48000) 14400000.
Example ex_C94 : forall ns, let os := map LBlock ns in heard exact_libm (minutes5 true) 48000 48000 os = heard exact_libm (minutes5 false) 48000 48000 os.
Proof.
  intros ns os. apply never_heard; [exact exact_exp_unit|exact exact_exp_acc| | | | |lia|].
  - split; [|cbn [minutes5 rb_n]; lia]. eexists. split; [reflexivity|]. cbn [minutes5 rb_n rb_ch rb_len]. lia.
  - eexists. split; [reflexivity|]. cbn [minutes5 rb_n rb_ch rb_len]. lia.
  - split; [reflexivity|]. intros c i Hi. cbn [minutes5 rb_n] in Hi. unfold smp. cbn [minutes5 rb_data rb_ch andb]. change (1 =? 1)%Z with true. cbv iota.
    destruct (Z.ltb_spec 8500000 i), (Z.ltb_spec i 14000000); cbn [andb]; try reflexivity. lia.
  - unfold studio. lia.
  - unfold os. apply Forall_forall. intros o Ho. apply in_map_iff in Ho. destruct Ho as (n & <- & _). exact I.
Qed.
Example ex_C94_sticks : forall sr, B2R (nth_sample ph_tick (Z.to_nat 20000000) (ph_set (ph_init sr) half zero (fofZ 14400000) zero)) = 8388608.
Proof.
  intros sr. destruct (fofZ_R (prec:=24) (emax:=128) 14400000 ltac:(lia)) as [F E].
  assert (H : B2R (half : f32) = bpow radix2 (-1)) by (fval (half : f32); change (bpow radix2 (-1)) with (/ 2); lra).
  destruct (cap_count (-1) (fofZ 14400000) half zero (ph_init sr) (Z.to_nat 20000000)) as [_ Q]; try exact H; [lia| | |reflexivity|].
  - split; [exact F|]. rewrite E, Rabs_pos_eq by lra. apply Rle_trans with (bpow radix2 24); [change (bpow radix2 24) with 16777216; lra|apply bpow_le; lia].
  - rewrite E. change (bpow radix2 (-1 + 24)) with 8388608. lra.
  - rewrite Q, Z2Nat.id by lia. change (IZR (Z.min 20000000 (2 ^ 24))) with 16777216. change (bpow radix2 (-1)) with (/ 2). lra.
Qed.

(** ** C95: pointer to playback rate *)
(** Any column, any screen (width 0 and NaN quotient included): zero, or a speed between a quarter and four, either way. *)
Theorem C95_range : forall L x w, exp_rel L -> log_rel L -> fin (pl_rate L x w) /\ (B2R (pl_rate L x w) = 0 \/ 0.2499 <= Rabs (B2R (pl_rate L x w)) <= 4.001).
Proof. exact rate_range. Qed.
Print Assumptions C95_range.
(** On a screen: zero in the dead zone, the geometric scale with a relative error of 2^-18 outside it (up to 2^-22 around its edges). *)
Theorem C95_accurate : forall L x w, exp_rel L -> log_rel L -> screen x w ->
  (Rabs (2 * rclamp (IZR x / IZR w) - 1) <= 2 / 100 - bpow radix2 (-22) -> pl_rate L x w = zero) /\
  (2 / 100 + bpow radix2 (-22) <= Rabs (2 * rclamp (IZR x / IZR w) - 1) -> rl (bpow radix2 (-18)) (pl_rate L x w) (ideal_rate (rclamp (IZR x / IZR w)))).
Proof. exact rate_accurate. Qed.
Print Assumptions C95_accurate.
(** The scale: a quarter at the edge of the dead zone, four at the border of the screen, mirrored on the left. *)
Theorem C95_scale : ideal_rate 1 = 4 /\ ideal_rate 0 = -4 /\ (forall u, 51 / 100 < u <= 1 -> / 4 <= ideal_rate u <= 4 /\ ideal_rate (1 - u) = - ideal_rate u) /\
  (forall u v, 51 / 100 < u < v -> ideal_rate u < ideal_rate v).
Proof.
  assert (B : forall u, 51 / 100 < u -> beyond u = (2 * u - 1 - 2 / 100) / (98 / 100)) by (intros; unfold beyond; rewrite Rabs_pos_eq by lra; reflexivity).
  assert (P : forall u, 51 / 100 < u -> ideal_rate u = geo (/ 4) 4 (beyond u)).
  { intros u U. unfold ideal_rate. destruct (Rle_dec (Rabs (2 * u - 1)) (2 / 100)) as [A|A]; [rewrite Rabs_pos_eq in A by lra; lra|]. destruct (Rle_dec u (/ 2)); [lra|reflexivity]. }
  assert (N : forall u, 51 / 100 < u -> ideal_rate (1 - u) = - ideal_rate u).
  { intros u U. rewrite (P u U). unfold ideal_rate. assert (R : Rabs (2 * (1 - u) - 1) = Rabs (2 * u - 1)) by (rewrite <- Rabs_Ropp; f_equal; ring).
    assert (Q : beyond (1 - u) = beyond u) by (unfold beyond; now rewrite R). rewrite R, Q.
    destruct (Rle_dec (Rabs (2 * u - 1)) (2 / 100)) as [A|A]; [rewrite Rabs_pos_eq in A by lra; lra|]. destruct (Rle_dec (1 - u) (/ 2)); [reflexivity|lra]. }
  assert (O : ideal_rate 1 = 4). { rewrite P, B by lra. unfold geo. replace ((2 * 1 - 1 - 2 / 100) / (98 / 100)) with 1 by lra. rewrite Rmult_1_l. replace (ln (/ 4) + (ln 4 - ln (/ 4))) with (ln 4) by ring. apply exp_ln. lra. }
  split; [exact O|]. split; [replace 0 with (1 - 1) by ring; rewrite N, O by lra; lra|]. split.
  - intros u U. split; [|apply N; lra]. rewrite P by lra. apply geo_in; [lra|lra|]. rewrite B by lra. lra.
  - intros u v UV. rewrite !P, !B by lra. unfold geo. apply exp_increasing. assert (ln (/ 4) < ln 4) by (apply ln_increasing; lra).
    apply Rplus_lt_compat_l, Rmult_lt_compat_r; lra.
Qed.
Print Assumptions C95_scale.
Example ex_C95 : pl_rate exact_libm 960 1920 = zero /\ rl (bpow radix2 (-18)) (pl_rate exact_libm 0 1920) (-4) /\ rl (bpow radix2 (-18)) (pl_rate exact_libm 5000 1920) 4.
Proof.
  assert (K : 2 / 100 + bpow radix2 (-22) <= 1) by (change (bpow radix2 (-22)) with (/ 4194304); lra).
  destruct C95_scale as (E1 & E0 & _). split; [|split].
  - apply (rate_accurate exact_libm 960 1920 exact_exp_rel exact_log_rel); [unfold screen; lia|]. replace (IZR 960 / IZR 1920) with (/ 2) by lra. unfold rclamp. rewrite Rmin_right, Rmax_right by lra.
    replace (2 * / 2 - 1) with 0 by lra. rewrite Rabs_R0. change (bpow radix2 (-22)) with (/ 4194304). lra.
  - assert (C : rclamp (IZR 0 / IZR 1920) = 0) by (unfold rclamp; rewrite Rmin_right, Rmax_right by lra; lra).
    pose proof (proj2 (rate_accurate exact_libm 0 1920 exact_exp_rel exact_log_rel ltac:(unfold screen; lia))) as Q. rewrite C, E0 in Q. apply Q. rewrite Rabs_left by lra. lra.
  - assert (C : rclamp (IZR 5000 / IZR 1920) = 1) by (unfold rclamp; rewrite Rmin_left, Rmax_right by lra; lra).
    pose proof (proj2 (rate_accurate exact_libm 5000 1920 exact_exp_rel exact_log_rel ltac:(unfold screen; lia))) as Q. rewrite C, E1 in Q. apply Q. rewrite Rabs_pos_eq by lra. lra.
Qed.

(** ** C96: the playback example is safe and bounded *)
(** Load a file of one or two channels, start, then any process callbacks, pointer moves and sample-rate changes: never undefined, as many frames as
    asked for, and none louder than twice the file. *)
Theorem C96_safe_and_bounded : forall Lm P MB st L f st' b j sr os, exp_unit Lm -> exp_acc Lm -> exp_rel Lm -> log_rel Lm -> params_ok P MB -> (P < 2 ^ 62)%Z ->
  reachable P MB st L -> file_ok f -> (sf_ch f <= 2)%Z -> load P st f = Some (st', Some b) -> file_rate (sf_rate f) -> jack_rate sr ->
  (-100 <= j <= 95)%Z -> (forall i, (0 <= i < sf_frames f * sf_ch f)%Z -> fin (sf_item f i) /\ Rabs (B2R (sf_item f i)) <= bpow radix2 j) -> Forall pl_ok os ->
  exists ys, heard Lm (view P st' b) (sf_rate f) sr os = Some ys /\ length ys = asked os /\ Forall (within2 (bpow radix2 (j + 1))) ys.
Proof.
  intros Lm P MB st L f st' b j sr os U A ER LR PM PB R F C E Hf Hs J Lo H. destruct (load_view P MB PM st L f st' b R F C PB E) as (O & N & S).
  assert (LD : forall c, (0 <= c <= 1)%Z -> loud j (view P st' b) c).
  { intros c Hc i Hi. rewrite N in Hi. rewrite S by (auto; lia). apply Lo. destruct F as [F1 F2]. destruct (Z.eqb_spec (sf_ch f) 1) as [Q|Q]; [rewrite Q; lia|]. assert (sf_ch f = 2)%Z by lia. nia. }
  destruct (run_fine Lm (view P st' b) (sf_rate f) j os U A ER LR O Hf J (LD 0%Z ltac:(lia)) (LD 1%Z ltac:(lia)) H _ (start_inv Lm _ _ (j + 1) sr U O Hf Hs)) as (s & ys & E2 & Ln & _ & W).
  exists ys. unfold heard. rewrite E2. auto.
Qed.
Print Assumptions C96_safe_and_bounded.
Example ex_C96 : exists st' b, load ex_P ex_st stereo3 = Some (st', Some b) /\
  forall n, exists ys, heard exact_libm (view ex_P st' b) 48000 44100 [LBlock n; LMouse 0 1920; LBlock n; LRate 96000; LMouse 1900 1920; LBlock n] = Some ys /\ length ys = (n + (n + (n + 0)))%nat /\ Forall (within2 (bpow radix2 8)) ys.
Proof.
  destruct (load_fine ex_P ex_MB ex_params ex_st ex_L stereo3 ex_reachable ltac:(unfold file_ok; cbn; lia) ltac:(cbn; lia)) as (st' & r & E & V & _).
  assert (W : exists b, r = Some b).
  { assert (Q : match load ex_P ex_st stereo3 with Some (_, Some _) => true | _ => false end = true) by (vm_compute; reflexivity). rewrite E in Q. destruct r as [b|]; [eauto|discriminate]. }
  destruct W as [b ->]. exists st', b. split; [exact E|]. intros n.
  set (os := [LBlock n; LMouse 0 1920; LBlock n; LRate 96000; LMouse 1900 1920; LBlock n]). change (n + (n + (n + 0)))%nat with (asked os). change (bpow radix2 8) with (bpow radix2 (7 + 1)). change 48000%Z with (sf_rate stereo3).
  apply (C96_safe_and_bounded exact_libm ex_P ex_MB ex_st ex_L stereo3 st' b 7 44100 os exact_exp_unit exact_exp_acc exact_exp_rel exact_log_rel ex_params ltac:(unfold ex_P; lia) ex_reachable); auto.
  - unfold file_ok; cbn; lia.
  - cbn; lia.
  - unfold file_rate; cbn; lia.
  - unfold jack_rate; lia.
  - lia.
  - intros i Hi. cbn [stereo3 sf_frames sf_ch sf_item] in *. destruct (fofZ_R (prec:=24) (emax:=128) (100 + i) ltac:(lia)) as [F Q]. split; [exact F|]. rewrite Q, Rabs_pos_eq by (apply IZR_le; lia). apply (IZR_le _ 128). lia.
  - unfold os. repeat constructor; unfold jack_rate; lia.
Qed.

(** ** C97: what is heard at normal speed *)
(** File and JACK rate equal, pointer left alone, at most 2^23 frames: every output frame is, up to 2^-10 of the level of the file, the mean of two
    consecutive values of the four-pole lowpass of the file looped and doubled in rate by cubic interpolation; for ever, in blocks of any size. *)
Theorem C97_faithful : forall L b j sr os, exp_unit L -> exp_acc L -> rb_ok b -> (rb_n b <= 2 ^ 23)%Z -> (-100 <= j <= 95)%Z -> loud j b 0 -> loud j b 1 -> studio sr -> Forall only_blocks os ->
  exists ys, heard L b sr sr os = Some ys /\ length ys = asked os /\ (forall i, (i < asked os)%nat -> hears b j i (nth i ys (zero, zero))).
Proof.
  intros L b j sr os U A O N J L0 L1 Hs H. destruct (plays_file L b j sr os U A O N J L0 L1 Hs H) as (s & ys & E & Ln & Y). exists ys. unfold heard. rewrite E. auto.
Qed.
Print Assumptions C97_faithful.
(** The four-frame file of RdProps. *)
Example ex_C97 : forall n, exists ys, heard exact_libm ramp4 48000 48000 [LBlock n; LBlock n] = Some ys /\ forall i, (i < n + (n + 0))%nat -> hears ramp4 7 i (nth i ys (zero, zero)).
Proof.
  intros n. destruct (C97_faithful exact_libm ramp4 7 48000 [LBlock n; LBlock n] exact_exp_unit exact_exp_acc ex_C37_ok ltac:(cbn; lia) ltac:(lia) (proj1 ex_C38_loud) (proj2 ex_C38_loud) ltac:(unfold studio; lia)) as (ys & E & _ & Y).
  - repeat constructor.
  - exists ys. split; [exact E|exact Y].
Qed.
(** The doubled file: 10, 9.375, 20, 28.125, 40, ... and round again after 8. *)
Example ex_C97_doubled : doubled ramp4 0 2 = 20 /\ doubled ramp4 0 3 = 225 / 8 /\ doubled ramp4 0 11 = 225 / 8.
Proof.
  assert (V : forall z, (0 <= z <= 80)%Z -> B2R (fofZ z : f32) = IZR z) by (intros z Z; apply (fofZ_R (prec:=24) (emax:=128)); lia).
  assert (M : looped ramp4 0 0 = 10 /\ looped ramp4 0 1 = 20 /\ looped ramp4 0 2 = 40 /\ looped ramp4 0 3 = 80 /\ looped ramp4 0 4 = 10 /\ looped ramp4 0 5 = 20 /\ looped ramp4 0 6 = 40 /\ looped ramp4 0 7 = 80).
  { repeat split; [exact (V 10%Z ltac:(lia))|exact (V 20%Z ltac:(lia))|exact (V 40%Z ltac:(lia))|exact (V 80%Z ltac:(lia))|exact (V 10%Z ltac:(lia))|exact (V 20%Z ltac:(lia))|exact (V 40%Z ltac:(lia))|exact (V 80%Z ltac:(lia))]. }
  destruct M as (M0 & M1 & M2 & M3 & M4 & M5 & M6 & M7).
  assert (D : forall i k, Z.even (Z.of_nat i) = false -> (Z.of_nat i / 2)%Z = k -> doubled ramp4 0 i = 9 / 16 * (looped ramp4 0 k + looped ramp4 0 (k + 1)) - 1 / 16 * (looped ramp4 0 (k - 1) + looped ramp4 0 (k + 2))) by (intros i k E1 E2; unfold doubled; now rewrite E1, E2).
  split; [exact M1|]. split.
  - rewrite (D 3%nat 1%Z eq_refl eq_refl). change (1 + 1)%Z with 2%Z. change (1 - 1)%Z with 0%Z. change (1 + 2)%Z with 3%Z. rewrite M0, M1, M2, M3. lra.
  - rewrite (D 11%nat 5%Z eq_refl eq_refl). change (5 + 1)%Z with 6%Z. change (5 - 1)%Z with 4%Z. change (5 + 2)%Z with 7%Z. rewrite M4, M5, M6, M7. lra.
Qed.
