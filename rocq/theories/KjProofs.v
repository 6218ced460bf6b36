(** Krajeski ladder: the clamp, the unit bound, the order of the setters. *)
From Coq Require Import ZArith Reals Lra Lia Bool Psatz List.
From Flocq Require Import Core BinarySingleNaN.
From Verif Require Import Flt FltFacts FltMore FltKey FltArith Libm UtilModel UtilProofs Dbl LpModel LpSpec LpProofs MgModel MgSpec MgBase KjModel.
Import ListNotations.
Local Open Scope R_scope.

(** ** Whatever goes in, the stages are finite *)
Definition kj_lim (x : f64) : Prop := fin x /\ Rabs (B2R x) <= B2R kj_big.
Lemma big_fin : fin kj_big. Proof. ffin. Qed.
Lemma big_R : 0 < B2R kj_big <= bpow radix2 100. Proof. fval kj_big. bp. lra. Qed.
Lemma inf_lo : flt (B754_infinity true) (fneg kj_big) = true. Proof. vm_compute. reflexivity. Qed.
Lemma inf_hi : flt kj_big (B754_infinity false) = true. Proof. vm_compute. reflexivity. Qed.
Lemma clamp_lim (x : f64) : kj_lim (kj_clamp x).
Proof.
  unfold kj_clamp, ffmax, ffmin. pose proof big_fin as FB. pose proof big_R as RB. pose proof (fneg_fin _ FB) as FN. pose proof (fneg_R kj_big) as RN.
  change (is_nan (fneg kj_big)) with false. cbv iota. change (is_nan kj_big) with false.
  destruct (is_nan x) eqn:N.
  - rewrite (fin_nan _ FN). assert (flt kj_big (fneg kj_big) = false) as -> by (vm_compute; reflexivity). split; [exact FN|]. rewrite RN, Rabs_Ropp, Rabs_pos_eq; lra.
  - destruct (flt x (fneg kj_big)) eqn:A.
    + rewrite (fin_nan _ FN). assert (flt kj_big (fneg kj_big) = false) as -> by (vm_compute; reflexivity). split; [exact FN|]. rewrite RN, Rabs_Ropp, Rabs_pos_eq; lra.
    + rewrite N. destruct (flt kj_big x) eqn:B; [split; [exact FB|]; rewrite Rabs_pos_eq; lra|].
      destruct (nan_cases x N) as [F|[s ->]]; [|destruct s; [rewrite inf_lo in A; discriminate A|rewrite inf_hi in B; discriminate B]]. apply (proj1 (flt_R_false _ _ F FN)) in A. apply (proj1 (flt_R_false _ _ FB F)) in B. split; [exact F|]. apply Rabs_le. lra.
Qed.
Lemma d2f_lim (x : f64) : kj_lim x -> fin (d2f x) /\ Rabs (B2R (d2f x)) <= bpow radix2 100.
Proof.
  intros [F B]. pose proof big_R as RB. apply Rabs_le_inv in B. assert (D : dy32 (bpow radix2 100)) by (apply dy_bpow; cbn; lia).
  destruct (d2f_b (- bpow radix2 100) (bpow radix2 100) x F (dy_opp _ D) D) as (G & _ & H); [lra|]. split; [exact G|]. now apply Rabs_le.
Qed.
Lemma kj_tick_finite L s x : fin (snd (kj_tick L s x)) /\ Rabs (B2R (snd (kj_tick L s x))) <= bpow radix2 100.
Proof. apply d2f_lim. apply clamp_lim. Qed.

(** ** Gains between 0 and 1 keep everything within one *)
Definition un (x : f64) : Prop := fin x /\ Rabs (B2R x) <= 1.
Definition c_a : f64 := fdiv (ddec 3 10) (ddec 13 10).
Definition c_b : f64 := fdiv (dz 1) (ddec 13 10).
Lemma c_ab : B2R c_a + B2R c_b <= 1 + bpow radix2 (-54) /\ 0 < B2R c_a /\ 0 < B2R c_b.
Proof. fval c_a. fval c_b. bp. lra. Qed.
Lemma mul_un (c x : f64) : fin c -> 0 < B2R c -> un x -> fin (fmul c x) /\ Rabs (B2R (fmul c x)) <= B2R c.
Proof.
  intros Fc Pc [Fx Bx]. assert (T : Rabs (B2R c * B2R x) <= B2R c) by (rewrite Rabs_mult, (Rabs_pos_eq (B2R c)) by lra; rewrite <- (Rmult_1_r (B2R c)) at 2; apply Rmult_le_compat_l; lra).
  apply Rabs_le_inv in T. destruct (fmul_b (- B2R c) (B2R c) c x (dy_opp _ (dy_B2R c)) (dy_B2R c) Fc Fx T) as (F & _ & B). split; [exact F|]. now apply Rabs_le.
Qed.
Lemma mix_un (x xd : f64) : un x -> un xd -> un (fadd (fmul c_a x) (fmul c_b xd)).
Proof.
  intros Hx Hd. destruct c_ab as (S & A & B). destruct (mul_un c_a x ltac:(ffin) A Hx) as [F1 B1]. destruct (mul_un c_b xd ltac:(ffin) B Hd) as [F2 B2].
  assert (T : Rabs (B2R (fmul c_a x) + B2R (fmul c_b xd)) <= 1 + bpow radix2 (-54)) by (eapply Rle_trans; [apply Rabs_triang|]; lra).
  assert (T1 : Rabs (rnd64 (B2R (fmul c_a x) + B2R (fmul c_b xd))) <= 1).
  { apply (rnd_tie_pow_abs (prec := 53) (emax := 1024) 0); [lia|cbn; lia|]. change (bpow radix2 0) with 1. eapply Rle_trans; [exact T|]. apply Rplus_le_compat_l. apply bpow_le. lia. }
  destruct (fadd_ok _ _ F1 F2) as [G E]; [eapply Rle_lt_trans; [exact T1|]; change 1 with (bpow radix2 0); apply bpow_lt; lia|]. split; [exact G|]. rewrite E. exact T1.
Qed.
Lemma clamp_small (x : f64) : un x -> kj_clamp x = x.
Proof.
  intros [F B]. unfold kj_clamp, ffmax, ffmin. pose proof big_fin as FB. pose proof (fneg_fin _ FB) as FN. pose proof (fneg_R kj_big) as RN. assert (RB : 1 < B2R kj_big) by (fval kj_big; lra).
  change (is_nan (fneg kj_big)) with false. cbv iota. change (is_nan kj_big) with false. rewrite (fin_nan _ F). apply Rabs_le_inv in B.
  rewrite (proj2 (flt_R_false x (fneg kj_big) F FN)) by lra. rewrite (fin_nan _ F). rewrite (proj2 (flt_R_false kj_big x FB F)) by lra. reflexivity.
Qed.
Lemma stage_un (g x xd y : f64) : fin g -> 0 <= B2R g <= 1 -> un x -> un xd -> un y -> un (kj_stage g x xd y).
Proof.
  intros Fg Bg Hx Hd [Fy By]. destruct (mix_un x xd Hx Hd) as [Fm Bm]. unfold kj_stage. fold c_a c_b.
  destruct (lerp_abs (prec := 53) (emax := 1024) 0 y (fadd (fmul c_a x) (fmul c_b xd)) g eq_refl ltac:(clear; cbn; lia) eq_refl Fy Fm Fg Bg By Bm) as [F B].
  rewrite (dadd_comm y) in F, B. assert (U : un (fadd (fmul g (fsub (fadd (fmul c_a x) (fmul c_b xd)) y)) y)) by (split; assumption). rewrite (clamp_small _ U). exact U.
Qed.

Record kj_unit (s : kj) : Prop := KjUnit { ku_s1 : un (kj_s1 s); ku_s2 : un (kj_s2 s); ku_s3 : un (kj_s3 s); ku_s4 : un (kj_s4 s); ku_y0 : un (kj_y0 s); ku_y1 : un (kj_y1 s); ku_y2 : un (kj_y2 s); ku_y3 : un (kj_y3 s);
  ku_g : fin (kj_g s) /\ 0 <= B2R (kj_g s) <= 1; ku_r : fin (kj_gRes s) /\ Rabs (B2R (kj_gRes s)) <= 8 }.
Lemma arg_nan s x : fin x -> un (kj_s4 s) -> fin (kj_gRes s) -> Rabs (B2R (kj_gRes s)) <= 8 ->
  is_nan (fmul (dz 1) (fsub (f2d x) (fmul (fmul (dz 4) (kj_gRes s)) (fsub (kj_s4 s) (fmul (dz 1) (f2d x)))))) = false.
Proof.
  intros Fx [F4 B4] Fr Br. destruct (f2d_R x Fx) as [Fd Ed]. assert (Bx : Rabs (B2R (f2d x)) <= bpow radix2 128) by (rewrite Ed; left; apply B2R_lt_emax).
  assert (D : forall k, (0 <= k <= 500)%Z -> dy64 (bpow radix2 k)) by (intros; apply dy_bpow; cbn; lia).
  assert (K : forall k (v : R), (0 <= k <= 500)%Z -> Rabs v <= bpow radix2 k -> - bpow radix2 k <= v <= bpow radix2 k) by (intros k v _ H; now apply Rabs_le_inv).
  assert (W : forall k v, - bpow radix2 k <= v <= bpow radix2 k -> Rabs v <= bpow radix2 k) by (intros; now apply Rabs_le).
  assert (V1 : B2R (dz 1) = 1) by (fval (dz 1); lra). assert (V4 : B2R (dz 4) = 4) by (fval (dz 4); lra).
  destruct (fmul_b (- bpow radix2 128) (bpow radix2 128) (dz 1) (f2d x) (dy_opp _ (D 128%Z ltac:(lia))) (D 128%Z ltac:(lia)) eq_refl Fd) as (F1 & _ & B1); [rewrite V1, Rmult_1_l; now apply K|].
  destruct (fsub_b (- bpow radix2 130) (bpow radix2 130) (kj_s4 s) _ (dy_opp _ (D 130%Z ltac:(lia))) (D 130%Z ltac:(lia)) F4 F1) as (F2 & _ & B2).
  { apply K; [lia|]. unfold Rminus. eapply Rle_trans; [apply Rabs_triang|]. rewrite Rabs_Ropp. pose proof (W _ _ B1). apply Rle_trans with (1 + bpow radix2 128); [lra|]. change 1 with (bpow radix2 0). pose proof (bpow_le radix2 0 128 ltac:(lia)). replace (bpow radix2 130) with (4 * bpow radix2 128) by (change 4 with (bpow radix2 2); rewrite <- bpow_plus; reflexivity). pose proof (bpow_gt_0 radix2 128). lra. }
  destruct (fmul_b (- bpow radix2 5) (bpow radix2 5) (dz 4) (kj_gRes s) (dy_opp _ (D 5%Z ltac:(lia))) (D 5%Z ltac:(lia)) eq_refl Fr) as (F3 & _ & B3); [apply K; [lia|]; rewrite V4, Rabs_mult, (Rabs_pos_eq 4) by lra; change (bpow radix2 5) with 32; lra|].
  destruct (fmul_b (- bpow radix2 135) (bpow radix2 135) _ _ (dy_opp _ (D 135%Z ltac:(lia))) (D 135%Z ltac:(lia)) F3 F2) as (F5 & _ & B5).
  { apply K; [lia|]. rewrite Rabs_mult. change 135%Z with (5 + 130)%Z. rewrite bpow_plus. apply Rmult_le_compat; auto using Rabs_pos. }
  destruct (fsub_b (- bpow radix2 137) (bpow radix2 137) (f2d x) _ (dy_opp _ (D 137%Z ltac:(lia))) (D 137%Z ltac:(lia)) Fd F5) as (F6 & _ & B6).
  { apply K; [lia|]. unfold Rminus. eapply Rle_trans; [apply Rabs_triang|]. rewrite Rabs_Ropp. pose proof (W _ _ B5). replace (bpow radix2 137) with (4 * bpow radix2 135) by (change 4 with (bpow radix2 2); rewrite <- bpow_plus; reflexivity). pose proof (bpow_le radix2 128 135 ltac:(lia)). lra. }
  apply fin_nan. apply (fmul_b (- bpow radix2 137) (bpow radix2 137) (dz 1) _ (dy_opp _ (D 137%Z ltac:(lia))) (D 137%Z ltac:(lia)) eq_refl F6). rewrite V1, Rmult_1_l. exact B6.
Qed.
Lemma kj_tick_unit L s x : dtanh_unit L -> kj_unit s -> fin x -> kj_unit (fst (kj_tick L s x)) /\ fin (snd (kj_tick L s x)) /\ -1 <= B2R (snd (kj_tick L s x)) <= 1.
Proof.
  intros HL [H1 H2 H3 H4 D0 D1 D2 D3 [Fg Bg] [Fr Br]] Fx. unfold kj_tick. set (z := fmul (dz 1) _). assert (Nz : is_nan z = false) by (apply arg_nan; assumption). destruct (HL z Nz) as [F0 B0].
  assert (U0 : un (d_tanh L z)) by (split; [exact F0|apply Rabs_le; lra]). set (s0 := d_tanh L z) in *. clearbody s0. clear z Nz F0 B0.
  pose proof (stage_un _ s0 (kj_y0 s) (kj_s1 s) Fg Bg U0 D0 H1) as U1. set (s1 := kj_stage (kj_g s) s0 (kj_y0 s) (kj_s1 s)) in *. clearbody s1.
  pose proof (stage_un _ s1 (kj_y1 s) (kj_s2 s) Fg Bg U1 D1 H2) as U2. set (s2 := kj_stage (kj_g s) s1 (kj_y1 s) (kj_s2 s)) in *. clearbody s2.
  pose proof (stage_un _ s2 (kj_y2 s) (kj_s3 s) Fg Bg U2 D2 H3) as U3. set (s3 := kj_stage (kj_g s) s2 (kj_y2 s) (kj_s3 s)) in *. clearbody s3.
  pose proof (stage_un _ s3 (kj_y3 s) (kj_s4 s) Fg Bg U3 D3 H4) as U4. set (s4 := kj_stage (kj_g s) s3 (kj_y3 s) (kj_s4 s)) in *. clearbody s4. cbn [fst snd].
  split; [constructor; cbn [kj_s1 kj_s2 kj_s3 kj_s4 kj_y0 kj_y1 kj_y2 kj_y3 kj_g kj_gRes]; auto|]. destruct U4 as [F4 B4]. apply Rabs_le_inv in B4.
  destruct (d2f_b (-1) 1 s4 F4 dyn1 dy1 B4) as (F & _ & B). auto.
Qed.

(** ** The gains the setters compute *)
Lemma pow_ex L (w : f64) n : dpow_acc L -> fin w -> 239 / 10000000 <= B2R w <= 19 / 10 -> In n [2; 3; 4]%nat -> ex 1 (d_pow L w (fofZ (Z.of_nat n))) (B2R w ^ n).
Proof.
  intros HL F B Hn. assert (T : bpow radix2 (-100) <= / 1048576) by (change (/ 1048576) with (bpow radix2 (-20)); apply bpow_le; lia). destruct (HL w n F ltac:(lra) Hn) as [G E]. split; [lra|]. split; [exact G|].
  rewrite Rmult_1_l. eapply Rle_trans; [exact E|]. replace (bpow radix2 (-48)) with (bpow radix2 (-52) * 16) by (bp; lra). apply Rmult_le_compat_l; [apply bpow_ge_0|].
  apply Rle_trans with ((19 / 10) ^ n); [apply pow_incr; lra|]. destruct Hn as [<-|[<-|[<-|[]]]]; lra.
Qed.
Lemma gain_R L (wc : f64) : dpow_acc L -> fin wc -> 239 / 10000000 <= B2R wc <= 189 / 100 -> fin (kj_gain L wc) /\ 0 <= B2R (kj_gain L wc) <= 1.
Proof.
  intros HL F B. set (w := B2R wc) in *. pose proof (ex_self wc F) as W. fold w in W. assert (B' : 239 / 10000000 <= w <= 19 / 10) by lra.
  pose proof (pow_ex L wc 2 HL F B' ltac:(now left)) as P2. pose proof (pow_ex L wc 3 HL F B' ltac:(right; now left)) as P3. pose proof (pow_ex L wc 4 HL F B' ltac:(do 2 right; now left)) as P4. fold w in P2, P3, P4.
  change (Z.of_nat 2) with 2%Z in P2. change (Z.of_nat 3) with 3%Z in P3. change (Z.of_nat 4) with 4%Z in P4. change (fofZ 2) with (dz 2) in P2. change (fofZ 3) with (dz 3) in P3. change (fofZ 4) with (dz 4) in P4.
  assert (C1 : ex 1 (ddec 9892 10000) (9892 / 10000)) by exc (ddec 9892 10000). assert (C2 : ex 1 (ddec 4342 10000) (4342 / 10000)) by exc (ddec 4342 10000).
  assert (C3 : ex 1 (ddec 1381 10000) (1381 / 10000)) by exc (ddec 1381 10000). assert (C4 : ex 1 (ddec 202 10000) (202 / 10000)) by exc (ddec 202 10000).
  assert (W2 : 0 <= w ^ 2 <= 4). { split; [apply pow_le; lra|]. apply Rle_trans with ((19 / 10) ^ 2); [apply pow_incr; lra|lra]. }
  assert (W3 : 0 <= w ^ 3 <= 7). { split; [apply pow_le; lra|]. apply Rle_trans with ((19 / 10) ^ 3); [apply pow_incr; lra|lra]. }
  assert (W4 : 0 <= w ^ 4 <= 14). { split; [apply pow_le; lra|]. apply Rle_trans with ((19 / 10) ^ 4); [apply pow_incr; lra|lra]. }
  pose proof (ex_mul 1 0 1 2 _ _ _ _ C1 W ltac:(rewrite Rabs_pos_eq; lra) ltac:(rewrite Rabs_pos_eq; lra) ltac:(lra) ltac:(lra)) as T1.
  pose proof (ex_mul 1 1 1 4 _ _ _ _ C2 P2 ltac:(rewrite Rabs_pos_eq; lra) ltac:(rewrite Rabs_pos_eq; lra) ltac:(lra) ltac:(lra)) as T2.
  pose proof (ex_mul 1 1 1 7 _ _ _ _ C3 P3 ltac:(rewrite Rabs_pos_eq; lra) ltac:(rewrite Rabs_pos_eq; lra) ltac:(lra) ltac:(lra)) as T3.
  pose proof (ex_mul 1 1 1 14 _ _ _ _ C4 P4 ltac:(rewrite Rabs_pos_eq; lra) ltac:(rewrite Rabs_pos_eq; lra) ltac:(lra) ltac:(lra)) as T4.
  pose proof (ex_sub _ _ _ _ _ _ T1 T2 ltac:(apply Rabs_le; lra) ltac:(lra)) as S1. pose proof (ex_add _ _ _ _ _ _ S1 T3 ltac:(apply Rabs_le; lra) ltac:(lra)) as S2.
  pose proof (ex_sub _ _ _ _ _ _ S2 T4 ltac:(apply Rabs_le; lra) ltac:(lra)) as S3. fold (kj_gain L wc) in S3. split; [exact (ex_fin _ _ _ S3)|]. apply ex_R in S3. unfold eps in S3.
  assert (Lo : w / 3 <= 9892 / 10000 * w - 4342 / 10000 * w ^ 2 + 1381 / 10000 * w ^ 3 - 202 / 10000 * w ^ 4).
  { assert (Q : / 3 <= 9892 / 10000 - 4342 / 10000 * w + 1381 / 10000 * w ^ 2 - 202 / 10000 * w ^ 3) by nra.
    replace (9892 / 10000 * w - 4342 / 10000 * w ^ 2 + 1381 / 10000 * w ^ 3 - 202 / 10000 * w ^ 4) with (w * (9892 / 10000 - 4342 / 10000 * w + 1381 / 10000 * w ^ 2 - 202 / 10000 * w ^ 3)) by ring.
    apply Rmult_le_compat_l; lra. }
  assert (Hi : 9892 / 10000 * w - 4342 / 10000 * w ^ 2 + 1381 / 10000 * w ^ 3 - 202 / 10000 * w ^ 4 <= 996 / 1000).
  { set (t := 189 / 100 - w). assert (Ht : 0 <= t <= 189 / 100) by (unfold t; lra). replace w with (189 / 100 - t) by (unfold t; ring). clearbody t. clear - Ht.
    assert (0 <= t * t) by nra. assert (0 <= t * t * (189 / 100 - t)) by nra. assert (0 <= (t * t) * (t * t)) by nra. nra. }
  split; lra.
Qed.
(** The feedback gain: its sign is that of the bracket. *)
Lemma fb_R L (r : f32) (wc : f64) : dpow_acc L -> fin r -> 0 <= B2R r <= 1 -> fin wc -> 239 / 10000000 <= B2R wc <= 189 / 100 ->
  let w := B2R wc in ex 40 (kj_fb L r wc) (B2R r * (10029 / 10000 + 526 / 10000 * w - 926 / 1000 * w ^ 2 + 218 / 10000 * w ^ 3)) /\ Rabs (B2R (kj_fb L r wc)) <= 8.
Proof.
  intros HL Fr Br F B w. pose proof (ex_self wc F) as W. fold w in W, B. assert (B' : 239 / 10000000 <= w <= 19 / 10) by lra.
  pose proof (pow_ex L wc 2 HL F B' ltac:(now left)) as P2. pose proof (pow_ex L wc 3 HL F B' ltac:(right; now left)) as P3. fold w in P2, P3.
  change (Z.of_nat 2) with 2%Z in P2. change (Z.of_nat 3) with 3%Z in P3. change (fofZ 2) with (dz 2) in P2. change (fofZ 3) with (dz 3) in P3.
  destruct (f2d_R r Fr) as [Fd Ed]. pose proof (ex_self _ Fd) as R. rewrite Ed in R.
  assert (C1 : ex 1 (ddec 10029 10000) (10029 / 10000)) by exc (ddec 10029 10000). assert (C2 : ex 1 (ddec 526 10000) (526 / 10000)) by exc (ddec 526 10000).
  assert (C3 : ex 1 (ddec 926 1000) (926 / 1000)) by exc (ddec 926 1000). assert (C4 : ex 1 (ddec 218 10000) (218 / 10000)) by exc (ddec 218 10000).
  assert (W2 : 0 <= w ^ 2 <= 4). { split; [apply pow_le; lra|]. apply Rle_trans with ((19 / 10) ^ 2); [apply pow_incr; lra|lra]. }
  assert (W3 : 0 <= w ^ 3 <= 7). { split; [apply pow_le; lra|]. apply Rle_trans with ((19 / 10) ^ 3); [apply pow_incr; lra|lra]. }
  pose proof (ex_mul 1 0 1 2 _ _ _ _ C2 W ltac:(rewrite Rabs_pos_eq; lra) ltac:(rewrite Rabs_pos_eq; lra) ltac:(lra) ltac:(lra)) as T1.
  pose proof (ex_mul 1 1 1 4 _ _ _ _ C3 P2 ltac:(rewrite Rabs_pos_eq; lra) ltac:(rewrite Rabs_pos_eq; lra) ltac:(lra) ltac:(lra)) as T2.
  pose proof (ex_mul 1 1 1 7 _ _ _ _ C4 P3 ltac:(rewrite Rabs_pos_eq; lra) ltac:(rewrite Rabs_pos_eq; lra) ltac:(lra) ltac:(lra)) as T3.
  pose proof (ex_add _ _ _ _ _ _ C1 T1 ltac:(apply Rabs_le; lra) ltac:(lra)) as S1. pose proof (ex_sub _ _ _ _ _ _ S1 T2 ltac:(apply Rabs_le; lra) ltac:(lra)) as S2.
  pose proof (ex_add _ _ _ _ _ _ S2 T3 ltac:(apply Rabs_le; lra) ltac:(lra)) as S3.
  set (q := 10029 / 10000 + 526 / 10000 * w - 926 / 1000 * w ^ 2 + 218 / 10000 * w ^ 3) in *. assert (Q : -3 <= q <= 2) by (unfold q; lra).
  pose proof (ex_mul _ _ 1 4 _ _ _ _ R S3 ltac:(rewrite Rabs_pos_eq; lra) ltac:(apply Rabs_le; lra) ltac:(lra) ltac:(lra)) as S4. fold (kj_fb L r wc) in S4.
  assert (S5 : ex 40 (kj_fb L r wc) (B2R r * q)) by (apply ex_weak with (1 := S4); lra). split; [exact S5|]. apply ex_R in S5. unfold eps in S5.
  assert (-3 <= B2R r * q <= 2) by nra. apply Rabs_le. lra.
Qed.

Definition kj_op_ok (sr : f32) (o : kj_op) : Prop :=
  match o with KjCut c => mg_cut (3 / 10) sr c | KjRes r => is_nan r = false | KjTick x => fin x | KjReset => True end.
Definition kj_inv (sr : f32) (s : kj) : Prop := kj_unit s /\ kj_sr s = sr /\ fin (kj_wc s) /\ 239 / 10000000 <= B2R (kj_wc s) <= 189 / 100.
Lemma un_0 : un fzero. Proof. split; [reflexivity|]. change (B2R (fzero : f64)) with 0. rewrite Rabs_R0. lra. Qed.
Lemma wc_R sr c : mg_rate sr -> mg_cut (3 / 10) sr c -> fin (kj_omega sr c) /\ 239 / 10000000 <= B2R (kj_omega sr c) <= 189 / 100.
Proof.
  intros Hr [Fc Hc]. assert (H2 : mg_cut (/ 2) sr c) by (split; [exact Fc|]; destruct Hr as [_ Hr]; lra). destruct (omega_R sr c Hr H2) as (F & Q & B). fold (kj_omega sr c) in F, B.
  assert (Q2 : B2R c / B2R sr <= 3 / 10). { destruct Hr as [_ Hr]. apply Rmult_le_reg_r with (B2R sr); [lra|]. unfold Rdiv at 1. rewrite Rmult_assoc, Rinv_l by lra. lra. }
  split; [exact F|]. lra.
Qed.
Lemma cut_inv L sr s c : dpow_acc L -> mg_rate sr -> kj_sr s = sr -> fin (kj_gRes s) /\ Rabs (B2R (kj_gRes s)) <= 8 ->
  (un (kj_s1 s) /\ un (kj_s2 s) /\ un (kj_s3 s) /\ un (kj_s4 s)) /\ un (kj_y0 s) /\ un (kj_y1 s) /\ un (kj_y2 s) /\ un (kj_y3 s) -> mg_cut (3 / 10) sr c -> kj_inv sr (kj_setCutoff L s c).
Proof.
  intros HL Hr Es Hg ((U1 & U2 & U3 & U4) & V0 & V1 & V2 & V3) Hc. destruct (wc_R sr c Hr Hc) as [Fw Bw]. pose proof (gain_R L _ HL Fw Bw) as G. unfold kj_setCutoff. rewrite Es.
  split; [|cbn [kj_sr kj_wc]; auto]. constructor; cbn [kj_s1 kj_s2 kj_s3 kj_s4 kj_y0 kj_y1 kj_y2 kj_y3 kj_g kj_gRes]; assumption.
Qed.
Lemma res_inv L sr s r : dpow_acc L -> kj_inv sr s -> is_nan r = false -> kj_inv sr (kj_setResonance L s r).
Proof.
  intros HL ([U1 U2 U3 U4 V0 V1 V2 V3 G R] & Es & Fw & Bw) N. destruct (unit_clamp_R r N) as [Fr Br]. destruct (fb_R L _ _ HL Fr Br Fw Bw) as [X Y]. apply ex_fin in X.
  split; [|cbn [kj_setResonance kj_sr kj_wc]; auto]. constructor; cbn [kj_setResonance kj_s1 kj_s2 kj_s3 kj_s4 kj_y0 kj_y1 kj_y2 kj_y3 kj_g kj_gRes]; auto.
Qed.
Lemma init_cut sr q : mg_rate sr -> / 4 <= q -> mg_cut q sr (fofZ 1000).
Proof. intros [_ Hr] Hq. split; [reflexivity|]. fval (fofZ 1000 : f32). assert (/ 4 * 4000 <= q * B2R sr) by (apply Rmult_le_compat; lra). lra. Qed.
Lemma kj_init_inv L sr : dpow_acc L -> mg_rate sr -> kj_inv sr (kj_init L sr).
Proof.
  intros HL Hr. unfold kj_init. apply res_inv; [exact HL| |reflexivity]. apply cut_inv; [exact HL|exact Hr|reflexivity| | |apply init_cut; [exact Hr|lra]].
  - split; [reflexivity|]. change (B2R (fzero : f64)) with 0. cbn [kj_gRes]. change (B2R (fzero : f64)) with 0. rewrite Rabs_R0. lra.
  - cbn [kj_s1 kj_s2 kj_s3 kj_s4 kj_y0 kj_y1 kj_y2 kj_y3]. pose proof un_0. auto 10.
Qed.
Lemma kj_step L sr : dtanh_unit L -> dpow_acc L -> mg_rate sr -> forall s o, kj_inv sr s -> kj_op_ok sr o ->
  kj_inv sr (fst (kj_call L s o)) /\ forall y, snd (kj_call L s o) = Some y -> fin y /\ -1 <= B2R y <= 1.
Proof.
  intros HT HL Hr s o Hi Ho. destruct o as [c|r|x|]; cbn [kj_call fst snd kj_op_ok] in *.
  - split; [|discriminate]. destruct Hi as ([U1 U2 U3 U4 V0 V1 V2 V3 G R] & Es & _). apply cut_inv; auto 10.
  - split; [|discriminate]. now apply res_inv.
  - destruct Hi as (U & Es & W). destruct (kj_tick_unit L s x HT U Ho) as (A & B & C). destruct (kj_tick L s x) as [s' y] eqn:E. cbn [fst snd] in *.
    split; [|intros ? [= <-]; auto]. split; [exact A|]. assert (X : kj_sr s' = kj_sr s /\ kj_wc s' = kj_wc s) by (unfold kj_tick in E; injection E as <- _; auto). destruct X as [-> ->]. auto.
  - split; [|discriminate]. destruct Hi as ([U1 U2 U3 U4 V0 V1 V2 V3 G R] & Es & W). split; [|exact (conj Es W)]. pose proof un_0. constructor; cbn [kj_reset kj_s1 kj_s2 kj_s3 kj_s4 kj_y0 kj_y1 kj_y2 kj_y3 kj_g kj_gRes]; auto.
Qed.
Lemma kj_bounded L sr os : dtanh_unit L -> dpow_acc L -> mg_rate sr -> Forall (kj_op_ok sr) os -> Forall (fun y => fin y /\ -1 <= B2R y <= 1) (snd (mg_run (kj_call L) (kj_init L sr) os)).
Proof.
  intros HT HL Hr Ho. apply (run_inv (kj_call L) (kj_inv sr) (kj_op_ok sr) (fun y => fin y /\ -1 <= B2R y <= 1)); [exact (kj_step L sr HT HL Hr)|now apply kj_init_inv|exact Ho].
Qed.
Lemma kj_always_finite L s os : Forall (fun y => fin y /\ Rabs (B2R y) <= bpow radix2 100) (snd (mg_run (kj_call L) s os)).
Proof.
  apply (run_inv (kj_call L) (fun _ => True) (fun _ => True) (fun y => fin y /\ Rabs (B2R y) <= bpow radix2 100)); [|exact Logic.I|apply Forall_forall; auto].
  intros t o _ _. split; [exact Logic.I|]. intros y. destruct o as [c|r|x|]; try discriminate. cbn [kj_call]. pose proof (kj_tick_finite L t x) as T. destruct (kj_tick L t x) as [t' z]. intros [= <-]. exact T.
Qed.
