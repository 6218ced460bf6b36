(** The XPlay example: where its loop lies and how fast it is played. *)
From Coq Require Import ZArith Reals Bool List Lra Lia Psatz.
From Flocq Require Import Core BinarySingleNaN Mult_error.
From Verif Require Import Flt FltFacts FltMore FltKey FltRel FltArith FltClose FltScale Libm EnvModel EnvSpec Res UtilModel UtilProofs OscSpec PhasorProofs
  SmoothModel RdModel RdSpec PanModel PanSpec AllocModel PbModel XpModel XpSpec XpProofs XpProofs2 XpProofs3 XpProofs4 PanProofs OscProofs2 XxModel XxProofs.
Import ListNotations.
Local Open Scope R_scope.

(** The settings of the example, once made. *)
Definition xx_set (b : rbuf) (sr : Z) (x : xplay) : Prop :=
  x_buf x = Some b /\ x_sr x = fofZ sr /\ x_start x = fdec 25 100 /\ x_end x = fdec 75 100 /\ x_rate x = half /\ x_bounce x = false /\ x_rev x = false /\
  x_frames x = fofZ (rb_n b) /\ x_ls x = fmul (fdec 25 100) (fofZ (rb_n b)) /\ x_size x = smax zero (fsub (fmul (fdec 75 100) (fofZ (rb_n b))) (fmul (fdec 25 100) (fofZ (rb_n b)))).
(** Before: a new player or one with these settings. *)
Definition xx_before (x : xplay) : Prop := x_bounce x = false /\ ((x_start x = zero /\ x_end x = one) \/ (x_start x = fdec 25 100 /\ x_end x = fdec 75 100)).

Lemma init_frame L fuel x sr y : x_init L fuel x sr = Val y -> x_sr y = sr /\ x_start y = x_start x /\ x_end y = x_end x /\ x_bounce y = x_bounce x.
Proof. unfold x_init. destruct (of_opt (ll_init sr (fneg one) (x_fade x))) as [lg| |]; cbn [rbind]; try discriminate. unfold x_update. cbv zeta. cbn [orb]. intros H. injection H as <-. cbn. auto. Qed.
Lemma ends_half : smin (fdec 25 100 : f32) (fdec 75 100) = fdec 25 100 /\ smax (fdec 25 100 : f32) (fdec 75 100) = fdec 75 100 /\ flt (fdec 75 100 : f32) (fdec 25 100) = false.
Proof. split; [|split]; vm_compute; reflexivity. Qed.
(** What matters here of a state. *)
Definition core (x : xplay) := (x_buf x, x_sr x, x_start x, x_end x, x_bounce x, (x_rev x, x_frames x, x_ls x, x_size x, x_ph x)).
(** What [updateLoopBounds] makes of it. *)
Definition cored (b : rbuf) (sr s e : f32) (bo : bool) :=
  (Some b, sr, s, e, bo, (flt e s, fofZ (rb_n b) : f32, fmul (smin s e) (fofZ (rb_n b)), smax zero (fsub (fmul (smax s e) (fofZ (rb_n b))) (fmul (smin s e) (fofZ (rb_n b)))), fmul (smin s e) (fofZ (rb_n b)))).
Lemma update_core fuel x b y : rb_valid b = true -> x_buf x = Some b -> x_update fuel x true = Val y -> core y = cored b (x_sr x) (x_start x) (x_end x) (x_bounce x) /\ x_rate y = x_rate x.
Proof. intros V B. unfold x_update. cbv zeta. cbn [orb]. intros H. injection H as <-. unfold core, cored. cbn. rewrite B, V. auto. Qed.
Lemma buffer_core fuel x b y : rb_valid b = true -> x_setBuffer fuel x (Some b) = Val y -> core y = cored b (x_sr x) (x_start x) (x_end x) (x_bounce x).
Proof. intros V H. unfold x_setBuffer in H. apply (update_core fuel _ b y V) in H; [|reflexivity]. apply H. Qed.
Lemma fade_core L x t y : x_setFadeTime L x t = Val y -> core y = core x.
Proof. unfold x_setFadeTime. cbv zeta. destruct (of_opt (ll_setTime (x_lag x) (smax zero t))); cbn [rbind]; intros H; inversion H. reflexivity. Qed.
Lemma ends_core fuel x b sr s e bo y : rb_valid b = true -> core x = cored b sr s e bo -> (s = zero /\ e = one) \/ (s = fdec 25 100 /\ e = fdec 75 100) ->
  x_setStartEnd fuel x (fdec 25 100) (fdec 75 100) false = Val y -> core y = cored b sr (fdec 25 100) (fdec 75 100) bo /\ x_rate y = x_rate x.
Proof.
  intros V C SE H. pose proof C as C0. unfold core, cored in C. injection C as Eb Es E1 E2 Ebo _ _ _ _ _. unfold x_setStartEnd in H. cbv zeta in H.
  assert (C1 : clamp (fdec 25 100 : f32) zero one = fdec 25 100) by (vm_compute; reflexivity). assert (C2 : clamp (fdec 75 100 : f32) zero one = fdec 75 100) by (vm_compute; reflexivity). rewrite C1, C2, E1, E2 in H.
  destruct SE as [[-> ->]|[-> ->]].
  - assert (T : flt (fabs (fsub (fdec 25 100 : f32) zero)) e9 && flt (fabs (fsub (fdec 75 100 : f32) one)) e9 = false) by (vm_compute; reflexivity). rewrite T in H. cbn [negb] in H.
    apply (update_core fuel _ b y V) in H; [|exact Eb]. cbn [x_sr x_start x_end x_bounce x_rate] in H. rewrite Es, Ebo in H. exact H.
  - assert (T : flt (fabs (fsub (fdec 25 100 : f32) (fdec 25 100))) e9 && flt (fabs (fsub (fdec 75 100 : f32) (fdec 75 100))) e9 = true) by (vm_compute; reflexivity). rewrite T in H.
    injection H as <-. auto.
Qed.
Lemma setup_set L fuel b sr x y zs : rb_valid b = true -> xx_before x -> x_run L fuel x (xx_setup b (fofZ sr)) = Val (y, zs) -> xx_set b sr y /\ x_ph y = x_ls y.
Proof.
  intros V [Bo SE] H. unfold xx_setup in H. cbn [x_run x_call] in H. destruct (x_init L fuel x (fofZ sr)) as [x1| |] eqn:E1; cbn [rbind fst snd] in H; try discriminate.
  destruct (init_frame _ _ _ _ _ E1) as (A1 & A2 & A3 & A4). clear E1.
  destruct (x_setBuffer fuel x1 (Some b)) as [x2| |] eqn:E2; cbn [rbind fst snd] in H; try discriminate. apply (buffer_core _ _ _ _ V) in E2. rewrite A1, A2, A3, A4, Bo in E2.
  destruct (x_setFadeTime L (x_setReader (x_setReader x2 (rd_setInterpolation (x_rd x2) 4)) (rd_setLoop (x_rd (x_setReader x2 (rd_setInterpolation (x_rd x2) 4))) true)) half) as [x3| |] eqn:E3; cbn [rbind fst snd] in H; try discriminate.
  apply fade_core in E3. assert (E4 : core (x_setRate (x_setGate x3 one) half) = core x3) by reflexivity. rewrite E3 in E4. change (core (x_setReader _ _)) with (core x2) in E4. rewrite E2 in E4.
  set (x4 := x_setRate (x_setGate x3 one) half) in *. assert (R4 : x_rate x4 = half) by reflexivity. clearbody x4. destruct (x_setStartEnd fuel x4 (fdec 25 100) (fdec 75 100) false) as [x5| |] eqn:E5; cbn [rbind fst snd] in H; try discriminate.
  destruct (ends_core _ _ _ _ _ _ _ _ V E4 SE E5) as [E6 R6]. injection H as <- _. destruct ends_half as (M1 & M2 & M3). unfold cored in E6. rewrite M1, M2, M3 in E6. unfold core in E6. injection E6 as Q1 Q2 Q3 Q4 Q5 Q6 Q7 Q8 Q9 Q10.
  unfold xx_set. rewrite R6, R4, Q10, Q8. auto 12.
Qed.
Lemma set_before b sr x : xx_set b sr x -> xx_before x.
Proof. intros (_ & _ & A & B & _ & C & _). split; [exact C|]. right. auto. Qed.
Lemma tick_set L b sr x y x' : xx_set b sr x -> x_tick L x = Val (y, x') -> xx_set b sr x'.
Proof.
  intros S T. destruct (tick_shape _ _ _ _ T) as [(-> & _)|(_ & _ & h & lag & fd & s1 & s2 & _ & _ & _ & _ & ->)]; [exact S|]. exact S.
Qed.

(** ** In numbers *)
Lemma int_dy c n (e : Z) : (-100 <= e <= 0)%Z -> (Z.abs (c * n) < 2 ^ 24)%Z -> dy32 (IZR (c * n) * bpow radix2 e).
Proof.
  intros He H. split.
  - apply generic_format_FLT. exists (Float radix2 (c * n) e); [reflexivity|exact H|cbn [Fexp]; unfold SpecFloat.emin; lia].
  - rewrite Rabs_mult, (Rabs_pos_eq (bpow radix2 e)) by apply bpow_ge_0. apply Rle_lt_trans with (Rabs (IZR (c * n)) * 1).
    + apply Rmult_le_compat_l; [apply Rabs_pos|]. change 1 with (bpow radix2 0). apply bpow_le. lia.
    + rewrite Rmult_1_r, <- abs_IZR. apply Rlt_trans with (IZR (2 ^ 24)); [apply IZR_lt; exact H|]. change (IZR (2 ^ 24)) with (bpow radix2 24). apply bpow_lt. lia.
Qed.
Lemma quarter_dy c n : (0 <= c <= 4)%Z -> (1 <= n <= 2 ^ 22)%Z -> (c * n < 2 ^ 24)%Z -> dy32 (IZR c / 4 * IZR n).
Proof. intros Hc Hn H. replace (IZR c / 4 * IZR n) with (IZR (c * n) * bpow radix2 (-2)) by (rewrite mult_IZR; bp; lra). apply int_dy; lia. Qed.
Lemma set_loop b sr x : (1 <= rb_n b <= 2 ^ 22)%Z -> xx_set b sr x ->
  (fin (x_ls x) /\ B2R (x_ls x) = IZR (rb_n b) / 4) /\ (fin (x_size x) /\ B2R (x_size x) = IZR (rb_n b) / 2).
Proof.
  intros N (_ & _ & _ & _ & _ & _ & _ & _ & -> & ->). destruct (fofZ_R (prec:=24) (emax:=128) (rb_n b) ltac:(lia)) as [Fn En]. set (n := rb_n b) in *.
  assert (Q1 : B2R (fdec 25 100 : f32) = 1 / 4) by (fval (fdec 25 100 : f32); lra). assert (Q3 : B2R (fdec 75 100 : f32) = 3 / 4) by (fval (fdec 75 100 : f32); lra).
  assert (Nb : 1 <= IZR n) by (apply IZR_le; lia).
  destruct (fmul_exact (fdec 25 100) (fofZ n) ltac:(ffin) Fn) as [F1 E1]; [rewrite Q1, En; apply (quarter_dy 1); lia|]. rewrite Q1, En in E1.
  destruct (fmul_exact (fdec 75 100) (fofZ n) ltac:(ffin) Fn) as [F3 E3]; [rewrite Q3, En; apply (quarter_dy 3); lia|]. rewrite Q3, En in E3.
  destruct (fsub_exact _ _ F3 F1) as [F E]; [rewrite E1, E3; replace (3 / 4 * IZR n - 1 / 4 * IZR n) with (2 / 4 * IZR n) by lra; apply (quarter_dy 2); lia|]. rewrite E1, E3 in E.
  split; [split; [exact F1|lra]|]. unfold smax. assert (P : flt zero (fsub (fmul (fdec 75 100) (fofZ n)) (fmul (fdec 25 100) (fofZ n))) = true).
  { apply flt_R; [reflexivity|exact F|]. rewrite zero_R, E. lra. }
  rewrite P. split; [exact F|lra].
Qed.
Lemma mul_half_small (x : f32) : fin x -> bpow radix2 (-100) <= Rabs (B2R x) -> fin (fmul half x) /\ B2R (fmul half x) = B2R x / 2.
Proof.
  intros F B. assert (H : B2R (half : f32) = / 2) by (fval (half : f32); lra).
  destruct (fmul_exact half x ltac:(ffin) F) as [A E].
  - rewrite H, Rmult_comm. split.
    + change (/ 2) with (bpow radix2 (-1)). apply mult_bpow_exact_FLT; [apply fmt_B2R|]. assert (M : (-100 < mag radix2 (B2R x))%Z) by (apply mag_gt_bpow; exact B). unfold SpecFloat.emin. lia.
    + rewrite Rabs_mult, (Rabs_pos_eq (/ 2)) by lra. pose proof (abs_B2R_lt_emax 24 128 x). pose proof (Rabs_pos (B2R x)). unfold f32 in *. lra.
  - split; [exact A|]. rewrite E, H. lra.
Qed.
(** The speed: file frames per output frame, halved. *)
Lemma set_speed b rate sr x : card_rate rate -> card_rate sr -> rb_sr b = fofZ rate -> xx_set b sr x ->
  fin (x_eff x) /\ B2R (x_eff x) = rnd32 (IZR rate / IZR sr) / 2.
Proof.
  intros Hr Hs Rb (Eb & Es & _ & _ & Er & _ & Ev & _). unfold x_eff. rewrite Eb, Es, Er, Ev, Rb. destruct (card_sr rate Hr) as (Fr & Vr & Br). destruct (card_sr sr Hs) as (Fs & Vs & Bs).
  replace (flt zero (fofZ rate)) with true by (symmetry; apply flt_R; [reflexivity|exact Fr|rewrite zero_R, Vr; lra]).
  assert (P0 : 0 < / IZR sr) by (apply Rinv_0_lt_compat; lra). assert (P1 : IZR sr * / IZR sr = 1) by (apply Rinv_r; lra).
  assert (Lo : / 262144 <= IZR rate / IZR sr).
  { apply Rle_trans with (/ IZR sr); [apply Rinv_le; lra|]. unfold Rdiv. rewrite <- (Rmult_1_l (/ IZR sr)) at 1. apply Rmult_le_compat_r; lra. }
  assert (Hi : IZR rate / IZR sr <= 262144) by (unfold Rdiv; nra).
  assert (D1 : dy32 (bpow radix2 (-18))) by (apply bdy; lia). assert (D2 : dy32 (bpow radix2 18)) by (apply bdy; lia).
  destruct (fdiv_b (bpow radix2 (-18)) (bpow radix2 18) (fofZ rate) (fofZ sr) D1 D2 Fr Fs) as (Fq & Eq & Bq); [rewrite Vs; lra|rewrite Vr, Vs; bp; lra|]. rewrite Vr, Vs in Eq.
  destruct (mul_half_small (fdiv (fofZ rate) (fofZ sr)) Fq) as [Fm Em]; [rewrite Rabs_pos_eq by (eapply Rle_trans; [apply bpow_ge_0|apply Bq]); eapply Rle_trans; [|apply Bq]; apply bpow_le; lia|].
  rewrite fmul_one. split; [exact Fm|]. rewrite Em, Eq. reflexivity.
Qed.
Lemma speed_close r : bpow radix2 (-18) <= r -> Rabs (rnd32 r - r) <= bpow radix2 (-23) * r.
Proof.
  intros H. assert (P : 0 < r) by (eapply Rlt_le_trans; [apply bpow_gt_0|exact H]). pose proof (rrel32 r) as E. rewrite (Rabs_pos_eq r) in E by lra. eapply Rle_trans; [exact E|].
  assert (bpow radix2 (-150) <= bpow radix2 (-24) * r).
  { apply Rle_trans with (bpow radix2 (-24) * bpow radix2 (-18)); [rewrite <- bpow_plus; apply bpow_le; lia|]. apply Rmult_le_compat_l; [apply bpow_ge_0|exact H]. }
  replace (bpow radix2 (-23)) with (2 * bpow radix2 (-24)) by (bp; lra). lra.
Qed.
(** ** The window *)
Definition xx_k (n : Z) : Z := (Z.log2 n + 2)%Z.
Lemma k_bounds n : (1 <= n <= 2 ^ 22)%Z -> (2 <= xx_k n <= 24)%Z /\ bpow radix2 (xx_k n - 2) <= IZR n < bpow radix2 (xx_k n - 1).
Proof.
  intros H. destruct (Z.log2_spec n ltac:(lia)) as [A B]. assert (L : (0 <= Z.log2 n <= 22)%Z) by (split; [apply Z.log2_nonneg|change 22%Z with (Z.log2 (2 ^ 22)); apply Z.log2_le_mono; lia]).
  unfold xx_k. split; [lia|]. replace (Z.log2 n + 2 - 2)%Z with (Z.log2 n) by lia. replace (Z.log2 n + 2 - 1)%Z with (Z.succ (Z.log2 n)) by lia.
  rewrite <- !IZR_Zpower by lia. split; [apply IZR_le; exact A|apply IZR_lt; exact B].
Qed.
Lemma bpow_sub2 k : bpow radix2 (k - 2) = bpow radix2 k / 4. Proof. unfold Zminus. rewrite bpow_plus. reflexivity. Qed.
Lemma bpow_sub1 k : bpow radix2 (k - 1) = bpow radix2 k / 2. Proof. unfold Zminus. rewrite bpow_plus. reflexivity. Qed.
Lemma set_tame b rate sr x : (1 <= rb_n b <= 2 ^ 22)%Z -> card_rate rate -> card_rate sr -> rb_sr b = fofZ rate -> (rate <= rb_n b * sr)%Z -> xx_set b sr x -> tame (xx_k (rb_n b)) x.
Proof.
  intros N Hr Hs Rb Sl S. destruct (set_loop b sr x N S) as [[_ E1] [_ E2]]. destruct (set_speed b rate sr x Hr Hs Rb S) as [_ E3]. destruct (k_bounds _ N) as (K1 & K2 & K3). set (k := xx_k (rb_n b)) in *.
  rewrite bpow_sub2 in K2. rewrite bpow_sub1 in K3. assert (Nb : 1 <= IZR (rb_n b)) by (apply IZR_le; lia). pose proof (bpow_gt_0 radix2 k).
  split; [lia|]. rewrite E1, E2, E3. split; [lra|]. split.
  - unfold Zminus. rewrite bpow_plus. assert (bpow radix2 (- (20)) = / 1048576) as -> by reflexivity. lra.
  - destruct (card_sr rate Hr) as (_ & _ & Br). destruct (card_sr sr Hs) as (_ & _ & Bs).
    assert (P0 : 0 < / IZR sr) by (apply Rinv_0_lt_compat; lra). assert (P1 : IZR sr * / IZR sr = 1) by (apply Rinv_r; lra).
    assert (Q : 0 <= IZR rate / IZR sr <= IZR (rb_n b)).
    { split; [unfold Rdiv; nra|]. apply Rle_trans with (IZR (rb_n b * sr) / IZR sr); [unfold Rdiv; apply Rmult_le_compat_r; [lra|apply IZR_le; exact Sl]|]. rewrite mult_IZR. unfold Rdiv. rewrite Rmult_assoc, P1. lra. }
    destruct (fofZ_R (prec:=24) (emax:=128) (rb_n b) ltac:(lia)) as [Fn En]. assert (U : rnd32 (IZR rate / IZR sr) <= IZR (rb_n b)).
    { rewrite <- En. rewrite <- (rnd_fmt (prec:=24) (emax:=128) (B2R (fofZ (rb_n b) : f32))) by apply fmt_B2R. apply rnd_le. rewrite En. apply Q. }
    assert (W : 0 <= rnd32 (IZR rate / IZR sr)). { rewrite <- (rnd_fmt (prec:=24) (emax:=128) 0) by apply dy0. apply rnd_le. apply Q. }
    rewrite Rabs_pos_eq; lra.
Qed.
Lemma start_window b sr x : (1 <= rb_n b <= 2 ^ 22)%Z -> xx_set b sr x -> x_ph x = x_ls x -> in_window (xx_k (rb_n b)) x.
Proof.
  intros N S P. destruct (set_loop b sr x N S) as [[F1 E1] [F2 E2]]. unfold in_window. rewrite P. pose proof (bpow_gt_0 radix2 (xx_k (rb_n b) - 22)). split; [lra|].
  assert (Nb : 1 <= IZR (rb_n b) <= 4194304) by (split; apply IZR_le; lia). destruct (span_two (x_size x)) as (F3 & E3 & _); [split; [exact F2|rewrite E2; bp; lra]|].
  destruct (fadd_b (B2R (x_ls x)) (bpow radix2 33) (x_ls x) (fmul (x_size x) two)) as (_ & _ & B); auto; [apply dy_B2R|apply bdy; lia|rewrite E1, E3, E2; bp; lra|lra].
Qed.
Definition xx_state (b : rbuf) (sr : Z) (x : xplay) : Prop := x_inv 3 x /\ xx_set b sr x /\ in_window (xx_k (rb_n b)) x.
Lemma run_state L fuel b rate os : xbuf_ok (Some b) -> rb_valid b = true -> (1 <= rb_n b <= 2 ^ 22)%Z -> card_rate rate -> rb_sr b = fofZ rate -> Forall xx_ok os ->
  forall sr s t ys, card_rate sr -> (rate <= rb_n b * sr)%Z -> Forall (fun o => match o with XxRate r => (rate <= rb_n b * r)%Z | _ => True end) os ->
  xx_state b sr (xx_x s) -> xx_run L fuel b s os = Val (t, ys) -> xx_state b (xx_last sr os) (xx_x t) /\ card_rate (xx_last sr os).
Proof.
  intros Hb V N Hr Rb O. induction O as [|o os Ho O IH]; intros sr s t ys Hs Sl Sls St R; cbn [xx_run] in R; [injection R as <- _; auto|].
  destruct (xx_op L fuel b s o) as [[u zs]| |] eqn:E; cbn [rbind fst snd] in R; try discriminate.
  destruct (xx_run L fuel b u os) as [[w ws]| |] eqn:R2; cbn [rbind fst snd] in R; try discriminate. injection R as <- _. inversion Sls as [|? ? Q1 Q2]; subst.
  destruct St as (I & S & W). pose proof (op_player L fuel b s o) as P. rewrite E in P. cbn [xx_player rbind fst snd] in P. destruct o as [r|px py pw ph|n]; cbn [xx_calls xx_last] in *.
  - apply (IH r u w ws); auto. symmetry in P. destruct (setup_set L fuel b r _ _ _ V (set_before _ _ _ S) P) as [S2 Ph]. split; [|split; [exact S2|exact (start_window b r _ N S2 Ph)]].
    pose proof (run_ok 3 L fuel (xx_setup b (fofZ r)) ltac:(lia)) as K. assert (A : Forall (x_op_ok 3) (xx_setup b (fofZ r))).
    { pose proof (all_ok b [XxRate r] Hb (Forall_cons (XxRate r) Ho (Forall_nil _))) as A. apply Forall_app in A. destruct A as [_ A]. cbn [xx_flat flat_map xx_calls] in A. rewrite app_nil_r in A. exact A. }
    specialize (K _ I A). rewrite P in K. exact K.
  - apply (IH sr u w ws); auto. cbn [x_run] in P. injection P as P _. rewrite P. split; [exact I|auto].
  - apply (IH sr u w ws); auto. destruct (ticks_window 3 (xx_k (rb_n b)) L fuel n ltac:(lia) (xx_x s) I (set_tame b rate sr _ N Hr Hs Rb Sl S) W) as (x' & vs & T & I' & W' & _). rewrite T in P. injection P as P _. rewrite P. split; [exact I'|].
    split; [|exact W']. clear - S T. revert S T. generalize (xx_x s). revert x' vs. induction n as [|n IHn]; intros x' vs x S T; cbn [repeat x_run x_call] in T; [injection T as <- _; exact S|].
    destruct (x_tick L x) as [[y x1]| |] eqn:T1; cbn [rbind fst snd] in T; try discriminate. destruct (x_run L fuel x1 (repeat XTick n)) as [[x2 y2]| |] eqn:T2; cbn [rbind fst snd] in T; try discriminate.
    injection T as <- _. apply (IHn x2 y2 x1); [exact (tick_set _ _ _ _ _ _ S T1)|exact T2].
Qed.
(** ** The heads *)
Lemma wrap_low (p : f32) n : (1 <= n <= 2 ^ 22)%Z -> fin p -> 0 <= B2R p <= 3 / 4 * IZR n -> fin (wrap_direct p zero (fofZ n)) /\ B2R (wrap_direct p zero (fofZ n)) = B2R p.
Proof.
  intros Hn Fp Bp. unfold wrap_direct, wrapValue. cbv zeta. destruct (fofZ_R (prec:=24) (emax:=128) n ltac:(lia)) as [Fh Eh].
  destruct (fsub_exact (fofZ n) zero Fh eq_refl) as [Fr Er]; [rewrite zero_R, Rminus_0_r; apply dy_B2R|]. rewrite zero_R, Rminus_0_r, Eh in Er. set (range := fsub (fofZ n) zero) in *.
  assert (Hb : 1 <= IZR n <= 4194304) by (split; apply IZR_le; lia).
  replace (fle range zero) with false by (symmetry; apply fle_R_false; [exact Fr|reflexivity|rewrite Er, zero_R; lra]).
  destruct (fsub_exact p zero Fp eq_refl) as [Fd Ed]; [rewrite zero_R, Rminus_0_r; apply dy_B2R|]. rewrite zero_R, Rminus_0_r in Ed. set (d := fsub p zero) in *.
  assert (Q : 0 <= B2R p / IZR n <= 3 / 4).
  { assert (0 < / IZR n) by (apply Rinv_0_lt_compat; lra). assert (IZR n * / IZR n = 1) by (apply Rinv_r; lra). unfold Rdiv. split; [nra|]. apply Rle_trans with (3 / 4 * IZR n * / IZR n); [apply Rmult_le_compat_r; lra|]. rewrite Rmult_assoc. lra. }
  assert (D3 : dy32 (3 / 4)). { assert (E : B2R (fdec 75 100 : f32) = 3 / 4) by (fval (fdec 75 100 : f32); lra). rewrite <- E. apply dy_B2R. }
  destruct (fdiv_b 0 (3 / 4) d range dy0 D3 Fd Fr) as (Fq & Eq & Bq); [rewrite Er; lra|rewrite Ed, Er; exact Q|]. destruct (ffloor_R _ Fq) as [Ff Ef].
  assert (Z0 : Zfloor (B2R (fdiv d range)) = 0%Z) by (apply Zfloor_imp; cbn; lra). rewrite Z0 in Ef.
  destruct (fmul_exact range (ffloor (fdiv d range)) Fr Ff) as [Fm Em]; [rewrite Ef, Rmult_0_r; apply dy0|]. rewrite Ef, Rmult_0_r in Em.
  destruct (fsub_exact p (fmul range (ffloor (fdiv d range))) Fp Fm) as [F E]; [rewrite Em, Rminus_0_r; apply dy_B2R|]. rewrite Em, Rminus_0_r in E. auto.
Qed.
(** Position within a millionth of the loop of its bounds. *)
Definition in_loop (n : Z) (p : f32) : Prop := fin p /\ IZR n / 4 - IZR n * bpow radix2 (-20) <= B2R p <= 3 / 4 * IZR n.
Lemma state_heads b sr x : (1 <= rb_n b <= 3 * 2 ^ 20)%Z -> xx_state b sr x ->
  IZR (rb_n b) / 4 - IZR (rb_n b) * bpow radix2 (-20) <= B2R (x_ph x) <= 5 / 4 * IZR (rb_n b) /\
  (if fle (fadd (x_ls x) (x_size x)) (x_ph x) then in_loop (rb_n b) (snd (x_heads x)) else in_loop (rb_n b) (fst (x_heads x))).
Proof.
  intros N0 (I & S & W). assert (N : (1 <= rb_n b <= 2 ^ 22)%Z) by lia. destruct (set_loop b sr x N S) as [[F1 E1] [F2 E2]]. destruct S as (_ & _ & _ & _ & _ & Bo & _ & Efr & _). pose proof I as (_ & _ & _ & _ & _ & _ & _ & _ & _ & _ & (Fp & _)).
  assert (Nb : 1 <= IZR (rb_n b) <= 4194304) by (split; apply IZR_le; lia). destruct (k_bounds _ N) as (K1 & K2 & K3). destruct (window_end x 3 I) as (F3 & E3 & _).
  assert (W2 : IZR (rb_n b) / 4 - IZR (rb_n b) * bpow radix2 (-20) <= B2R (x_ph x) <= 5 / 4 * IZR (rb_n b)).
  { destruct W as [Wl Wh]. rewrite E1 in Wl. split.
    - assert (bpow radix2 (xx_k (rb_n b) - 22) <= IZR (rb_n b) * bpow radix2 (-20)); [|lra]. replace (xx_k (rb_n b) - 22)%Z with (xx_k (rb_n b) - 2 + -20)%Z by lia. rewrite bpow_plus. apply Rmult_le_compat_r; [apply bpow_ge_0|exact K2].
    - rewrite E3, E1, E2 in Wh. replace (IZR (rb_n b) / 4 + 2 * (IZR (rb_n b) / 2)) with (IZR (5 * rb_n b) * bpow radix2 (-2)) in Wh by (rewrite mult_IZR; bp; lra).
      rewrite rnd_fmt in Wh by (apply int_dy; lia). rewrite mult_IZR in Wh. change (bpow radix2 (-2)) with (/ 4) in Wh. lra. }
  split; [exact W2|]. destruct (fadd_exact (x_ls x) (x_size x) F1 F2) as [F4 E4]; [rewrite E1, E2; replace (IZR (rb_n b) / 4 + IZR (rb_n b) / 2) with (3 / 4 * IZR (rb_n b)) by lra; apply (quarter_dy 3); lia|]. rewrite E1, E2 in E4.
  rewrite (plain_heads x Bo), Efr. cbn [fst snd]. change (bpow radix2 (-20)) with (/ 1048576) in *. unfold in_loop. change (bpow radix2 (-20)) with (/ 1048576). destruct (fle (fadd (x_ls x) (x_size x)) (x_ph x)) eqn:H.
  - apply fle_R in H; [|exact F4|exact Fp]. rewrite E4 in H.
    destruct (fsub_b (1 / 4 * IZR (rb_n b)) (3 / 4 * IZR (rb_n b)) (x_ph x) (x_size x)) as (F5 & _ & B5); auto; [apply (quarter_dy 1); lia|apply (quarter_dy 3); lia|rewrite E2; lra|].
    destruct (wrap_low _ _ N F5) as [F6 E6]; [lra|]. rewrite E6. split; [exact F6|lra].
  - apply fle_R_false in H; [|exact F4|exact Fp]. rewrite E4 in H. destruct (wrap_low (x_ph x) _ N Fp) as [F6 E6]; [lra|]. rewrite E6. split; [exact F6|lra].
Qed.
