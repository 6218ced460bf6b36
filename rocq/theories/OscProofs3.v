(** LFNoise2: range, accuracy, smoothness, reproducibility. *)
From Coq Require Import ZArith Reals Lra Lia Bool List Psatz.
From Flocq Require Import Core BinarySingleNaN.
From Verif Require Import Flt FltFacts FltMore FltKey FltArith UtilModel UtilProofs FltClose OscModel OscSpec OscProofs LcgProofs.
Import ListNotations.
Local Open Scope R_scope.

Lemma cl_const (x : f32) (r : R) : fin x -> B2R x = r -> cl 0 x r.
Proof. intros F <-. now apply cl_self. Qed.
Lemma c15_R : B2R (fdec 3 2) = 3 / 2. Proof. fval (fdec 3 2). lra. Qed.
Lemma c25_R : B2R (fdec 5 2) = 5 / 2. Proof. fval (fdec 5 2). lra. Qed.

Ltac ab := apply Rabs_le; split; nra.
Definition u : R := bpow radix2 (-25).
Lemma bu k : (0 <= k)%Z -> bpow radix2 (k - 25) = IZR (2 ^ k) * u.
Proof. intros H. unfold u, Z.sub. rewrite bpow_plus. f_equal. change (2 ^ k)%Z with (Zpower radix2 k). now rewrite IZR_Zpower. Qed.

Lemma catmull_acc (t p0 p1 p2 p3 : f32) : fin t -> 0 <= B2R t <= 1 -> audio p0 -> audio p1 -> audio p2 -> audio p3 ->
  cl (bpow radix2 (-19)) (catmull t p0 p1 p2 p3) (spline (B2R t) (B2R p0) (B2R p1) (B2R p2) (B2R p3)).
Proof.
  intros Ft Bt [F0 B0] [F1 B1] [F2 B2] [F3 B3]. unfold catmull.
  assert (U : 0 < u <= / 33554432) by (unfold u; bp; lra).
  assert (CH : cl 0 half (/ 2)) by (apply cl_const; [ffin|apply half_R]).
  assert (CNH : cl 0 (fneg half) (- / 2)) by (apply cl_neg, CH).
  assert (C15 : cl 0 (fdec 3 2) (3 / 2)) by (apply cl_const; [ffin|apply c15_R]).
  assert (CN15 : cl 0 (fneg (fdec 3 2)) (- (3 / 2))) by (apply cl_neg, C15).
  assert (C25 : cl 0 (fdec 5 2) (5 / 2)) by (apply cl_const; [ffin|apply c25_R]).
  assert (C2 : cl 0 two 2) by (apply cl_const; [ffin|apply two_R]).
  assert (C1 : cl 0 one 1) by (apply cl_const; [ffin|apply one_R]).
  pose proof (cl_self _ Ft) as CT. set (x := B2R t) in *.
  assert (Hxx : 0 <= x * x <= 1) by nra. assert (Hxxx : 0 <= x * x * x <= 1) by nra.
  assert (Hord : x * x <= x /\ x * x * x <= x * x) by nra.
  (* powers *)
  pose proof (cl_mul 0 0 0 1 1 t t x x ltac:(lia) CT CT ltac:(ab) ltac:(ab) ltac:(bp; lra)) as T2. rewrite bu in T2 by lia.
  apply (cl_weak _ (1 * u)) in T2; [|cbn; lra].
  pose proof (cl_mul 1 (1 * u) 0 1 1 _ t (x * x) x ltac:(lia) T2 CT ltac:(ab) ltac:(ab) ltac:(bp; lra)) as T3. rewrite bu in T3 by lia.
  apply (cl_weak _ (3 * u)) in T3; [|cbn; lra].
  set (t2 := fmul t t) in *. set (t3 := fmul t2 t) in *.
  (* terms *)
  pose proof (cl_mul 0 0 (3 * u) (/ 2) 1 _ _ _ _ ltac:(lia) CNH T3 ltac:(ab) ltac:(ab) ltac:(bp; lra)) as A3. rewrite bu in A3 by lia.
  apply (cl_weak _ (5/2 * u)) in A3; [|cbn; lra].
  pose proof (cl_add 1 _ _ _ _ _ _ ltac:(lia) A3 T2) as A2. rewrite bu in A2 by lia. specialize (A2 ltac:(bp; rewrite Rabs_pos_eq by nra; nra)).
  apply (cl_weak _ (11/2 * u)) in A2; [|cbn; lra].
  pose proof (cl_mul 0 0 0 (/ 2) 1 _ _ _ _ ltac:(lia) CH CT ltac:(ab) ltac:(ab) ltac:(bp; lra)) as HT. rewrite bu in HT by lia.
  apply (cl_weak _ (1 * u)) in HT; [|cbn; lra].
  assert (K0 : Rabs (- / 2 * (x * x * x) + x * x - / 2 * x) <= / 2) by ab.
  pose proof (cl_sub 0 _ _ _ _ _ _ ltac:(lia) A2 HT) as Q0. rewrite bu in Q0 by lia. specialize (Q0 ltac:(bp; lra)).
  apply (cl_weak _ (15/2 * u)) in Q0; [|cbn; lra].
  pose proof (cl_mul 1 0 (3 * u) (3 / 2) 1 _ _ _ _ ltac:(lia) C15 T3 ltac:(ab) ltac:(ab) ltac:(bp; lra)) as B15. rewrite bu in B15 by lia.
  apply (cl_weak _ (13/2 * u)) in B15; [|cbn; lra].
  pose proof (cl_mul 2 0 (1 * u) (5 / 2) 1 _ _ _ _ ltac:(lia) C25 T2 ltac:(ab) ltac:(ab) ltac:(bp; lra)) as B25. rewrite bu in B25 by lia.
  apply (cl_weak _ (13/2 * u)) in B25; [|cbn; lra].
  assert (K1a : Rabs (3 / 2 * (x * x * x) - 5 / 2 * (x * x)) <= 1) by ab.
  pose proof (cl_sub 1 _ _ _ _ _ _ ltac:(lia) B15 B25) as Q1a. rewrite bu in Q1a by lia. specialize (Q1a ltac:(bp; lra)).
  apply (cl_weak _ (15 * u)) in Q1a; [|cbn; lra].
  assert (K1 : Rabs (3 / 2 * (x * x * x) - 5 / 2 * (x * x) + 1) <= 1) by ab.
  pose proof (cl_add 1 _ _ _ _ _ _ ltac:(lia) Q1a C1) as Q1. rewrite bu in Q1 by lia. specialize (Q1 ltac:(bp; lra)).
  apply (cl_weak _ (17 * u)) in Q1; [|cbn; lra].
  pose proof (cl_mul 1 0 (3 * u) (3 / 2) 1 _ _ _ _ ltac:(lia) CN15 T3 ltac:(ab) ltac:(ab) ltac:(bp; lra)) as D15. rewrite bu in D15 by lia.
  apply (cl_weak _ (13/2 * u)) in D15; [|cbn; lra].
  pose proof (cl_mul 2 0 (1 * u) 2 1 _ _ _ _ ltac:(lia) C2 T2 ltac:(ab) ltac:(ab) ltac:(bp; lra)) as D2. rewrite bu in D2 by lia.
  apply (cl_weak _ (6 * u)) in D2; [|cbn; lra].
  assert (K2a : Rabs (- (3 / 2) * (x * x * x) + 2 * (x * x)) <= 1) by ab.
  pose proof (cl_add 1 _ _ _ _ _ _ ltac:(lia) D15 D2) as Q2a. rewrite bu in Q2a by lia. specialize (Q2a ltac:(bp; lra)).
  apply (cl_weak _ (29/2 * u)) in Q2a; [|cbn; lra].
  assert (K2 : Rabs (- (3 / 2) * (x * x * x) + 2 * (x * x) + / 2 * x) <= 5 / 4) by ab.
  pose proof (cl_add 1 _ _ _ _ _ _ ltac:(lia) Q2a HT) as Q2. rewrite bu in Q2 by lia. specialize (Q2 ltac:(bp; lra)).
  apply (cl_weak _ (35/2 * u)) in Q2; [|cbn; lra].
  pose proof (cl_mul 0 0 (3 * u) (/ 2) 1 _ _ _ _ ltac:(lia) CH T3 ltac:(ab) ltac:(ab) ltac:(bp; lra)) as E3. rewrite bu in E3 by lia.
  apply (cl_weak _ (5/2 * u)) in E3; [|cbn; lra].
  pose proof (cl_mul 0 0 (1 * u) (/ 2) 1 _ _ _ _ ltac:(lia) CH T2 ltac:(ab) ltac:(ab) ltac:(bp; lra)) as E2. rewrite bu in E2 by lia.
  apply (cl_weak _ (3/2 * u)) in E2; [|cbn; lra].
  assert (K3 : Rabs (/ 2 * (x * x * x) - / 2 * (x * x)) <= / 2) by ab.
  pose proof (cl_sub 0 _ _ _ _ _ _ ltac:(lia) E3 E2) as Q3. rewrite bu in Q3 by lia. specialize (Q3 ltac:(bp; lra)).
  apply (cl_weak _ (5 * u)) in Q3; [|cbn; lra].
  (* weighted sum *)
  pose proof (cl_self _ F0) as P0. pose proof (cl_self _ F1) as P1. pose proof (cl_self _ F2) as P2. pose proof (cl_self _ F3) as P3.
  set (y0 := B2R p0) in *. set (y1 := B2R p1) in *. set (y2 := B2R p2) in *. set (y3 := B2R p3) in *.
  set (k0 := - / 2 * (x * x * x) + x * x - / 2 * x) in *. set (k1 := 3 / 2 * (x * x * x) - 5 / 2 * (x * x) + 1) in *.
  set (k2 := - (3 / 2) * (x * x * x) + 2 * (x * x) + / 2 * x) in *. set (k3 := / 2 * (x * x * x) - / 2 * (x * x)) in *.
  assert (Y0 : Rabs y0 <= 1) by (apply Rabs_le; lra). assert (Y1 : Rabs y1 <= 1) by (apply Rabs_le; lra).
  assert (Y2 : Rabs y2 <= 1) by (apply Rabs_le; lra). assert (Y3 : Rabs y3 <= 1) by (apply Rabs_le; lra).
  pose proof (cl_mul 0 _ 0 (/ 2) 1 _ _ _ _ ltac:(lia) Q0 P0 K0 Y0 ltac:(bp; lra)) as M0. rewrite bu in M0 by lia.
  apply (cl_weak _ (17/2 * u)) in M0; [|cbn; lra].
  pose proof (cl_mul 1 _ 0 1 1 _ _ _ _ ltac:(lia) Q1 P1 K1 Y1 ltac:(bp; lra)) as M1. rewrite bu in M1 by lia.
  apply (cl_weak _ (19 * u)) in M1; [|cbn; lra].
  pose proof (cl_mul 1 _ 0 (5 / 4) 1 _ _ _ _ ltac:(lia) Q2 P2 K2 Y2 ltac:(bp; lra)) as M2. rewrite bu in M2 by lia.
  apply (cl_weak _ (39/2 * u)) in M2; [|cbn; lra].
  pose proof (cl_mul 0 _ 0 (/ 2) 1 _ _ _ _ ltac:(lia) Q3 P3 K3 Y3 ltac:(bp; lra)) as M3. rewrite bu in M3 by lia.
  apply (cl_weak _ (6 * u)) in M3; [|cbn; lra].
  assert (W0 : Rabs (k0 * y0) <= / 2) by (rewrite Rabs_mult; pose proof (Rabs_pos k0); pose proof (Rabs_pos y0); nra).
  assert (W1 : Rabs (k1 * y1) <= 1) by (rewrite Rabs_mult; pose proof (Rabs_pos k1); pose proof (Rabs_pos y1); nra).
  assert (W2 : Rabs (k2 * y2) <= 5 / 4) by (rewrite Rabs_mult; pose proof (Rabs_pos k2); pose proof (Rabs_pos y2); nra).
  assert (W3 : Rabs (k3 * y3) <= / 2) by (rewrite Rabs_mult; pose proof (Rabs_pos k3); pose proof (Rabs_pos y3); nra).
  pose proof (Rabs_triang (k0 * y0) (k1 * y1)) as G1.
  pose proof (cl_add 1 _ _ _ _ _ _ ltac:(lia) M0 M1) as S1. rewrite bu in S1 by lia. specialize (S1 ltac:(bp; lra)).
  apply (cl_weak _ (59/2 * u)) in S1; [|cbn; lra].
  pose proof (Rabs_triang (k0 * y0 + k1 * y1) (k2 * y2)) as G2.
  pose proof (cl_add 2 _ _ _ _ _ _ ltac:(lia) S1 M2) as S2. rewrite bu in S2 by lia. specialize (S2 ltac:(bp; lra)).
  apply (cl_weak _ (53 * u)) in S2; [|cbn; lra].
  pose proof (Rabs_triang (k0 * y0 + k1 * y1 + k2 * y2) (k3 * y3)) as G3.
  pose proof (cl_add 2 _ _ _ _ _ _ ltac:(lia) S2 M3) as S3. rewrite bu in S3 by lia. specialize (S3 ltac:(bp; lra)).
  apply (cl_weak _ (64 * u)) in S3; [|cbn; lra].
  replace (bpow radix2 (-19)) with (64 * u) by (unfold u; bp; lra).
  eapply cl_eq; [exact S3|]. unfold spline, k0, k1, k2, k3. field.
Qed.

(** ** Random points *)
Lemma norm_R : B2R LCG_NORM = bpow radix2 31. Proof. fval LCG_NORM. bp. lra. Qed.
Lemma lcg_out_acc seed : (0 <= seed < 2 ^ 32)%Z -> audio (lcg_out seed) /\
  Rabs (B2R (lcg_out seed) - (IZR seed / bpow radix2 31 - 1)) <= bpow radix2 (-22).
Proof.
  intros Hs. unfold lcg_out.
  assert (HR : 0 <= IZR seed <= bpow radix2 32).
  { destruct Hs as [H1 H2]. apply IZR_le in H1. apply IZR_lt in H2. change (bpow radix2 32) with (IZR (2 ^ 32)). lra. }
  destruct (dy_rnd_bnd 0 (bpow radix2 32) (IZR seed) dy0 (proj1 (bp_dy 32 ltac:(lia))) HR) as [Bz A].
  destruct (flit_R (prec := 24) (emax := 128) seed 0) as [Fz Ez].
  { change (bpow radix2 0) with 1. rewrite Rmult_1_r. exact Bz. }
  change (bpow radix2 0) with 1 in Ez. rewrite Rmult_1_r in Ez. change (flit seed 0) with (fofZ seed : f32) in *.
  assert (Er : Rabs (B2R (fofZ seed : f32) - IZR seed) <= bpow radix2 7).
  { rewrite Ez. apply (rnd_err1 32); [lia|]. rewrite Rabs_pos_eq; lra. }
  assert (Bz' : 0 <= B2R (fofZ seed : f32) <= bpow radix2 32) by (rewrite Ez; exact A).
  assert (ED : B2R (fofZ seed : f32) / B2R LCG_NORM = B2R (fofZ seed : f32) / bpow radix2 31) by (now rewrite norm_R).
  destruct (fdiv_b 0 2 (fofZ seed) LCG_NORM dy0 (dyZ 2 ltac:(lia)) Fz ltac:(ffin)) as (Fd & Ed & Bd).
  { rewrite norm_R. bp. lra. }
  { rewrite norm_R. revert Bz'. bp. intros. lra. }
  assert (Hd : Rabs (B2R (fdiv (fofZ seed) LCG_NORM) - B2R (fofZ seed : f32) / bpow radix2 31) <= bpow radix2 (-24)).
  { rewrite Ed, ED. apply (rnd_err1 1); [lia|]. revert Bz'. bp. intros. apply Rabs_le. lra. }
  destruct (fsub_b (-1) 1 (fdiv (fofZ seed) LCG_NORM) one dyn1 dy1 Fd one_fin) as (Fs & Es & Bs); [rewrite one_R; lra|].
  split; [split; [exact Fs|exact Bs]|].
  assert (Hs' : Rabs (B2R (fsub (fdiv (fofZ seed) LCG_NORM) one) - (B2R (fdiv (fofZ seed) LCG_NORM) - 1)) <= bpow radix2 (-25)).
  { rewrite Es, one_R. apply (rnd_err1 0); [lia|]. apply Rabs_le. bp. lra. }
  revert Hs' Hd Er. bp. intros Hs' Hd Er. apply Rabs_le_inv in Hs'. apply Rabs_le_inv in Hd. apply Rabs_le_inv in Er. apply Rabs_le. lra.
Qed.

(** ** Clamping *)
Lemma clamp_unit_R (x : f32) : fin x -> fin (clamp x (fneg one) one) /\ B2R (clamp x (fneg one) one) = clampR (B2R x).
Proof.
  intros F. assert (N1 : B2R (fneg one) = -1) by (rewrite fneg_R, one_R; lra). assert (Fn : fin (fneg one)) by ffin.
  destruct (clamp_spec x (fneg one) one (fin_nan _ F) eq_refl eq_refl) as (_ & _ & M & L & H); [reflexivity|].
  unfold clampR, Rmax, Rmin. destruct (Rlt_or_le (B2R x) (-1)) as [C|C].
  - rewrite L by (apply flt_R; [exact F|exact Fn|lra]). split; [exact Fn|]. rewrite N1.
    destruct (Rle_dec (B2R x) 1); [destruct (Rle_dec (-1) (B2R x)); lra|lra].
  - destruct (Rlt_or_le 1 (B2R x)) as [D|D].
    + rewrite H by (apply flt_R; [exact one_fin|exact F|rewrite one_R; lra]). split; [exact one_fin|]. rewrite one_R.
      destruct (Rle_dec (B2R x) 1); [lra|]. destruct (Rle_dec (-1) 1); lra.
    + rewrite M; [|apply fle_R; auto; lra|apply fle_R; [exact F|exact one_fin|rewrite one_R; lra]]. split; [exact F|].
      destruct (Rle_dec (B2R x) 1); [destruct (Rle_dec (-1) (B2R x)); lra|lra].
Qed.
Lemma clampR_bnd x : -1 <= clampR x <= 1.
Proof. unfold clampR, Rmax, Rmin. destruct (Rle_dec x 1), (Rle_dec (-1) _); lra. Qed.
Lemma clampR_lip x y : Rabs (clampR x - clampR y) <= Rabs (x - y).
Proof.
  unfold clampR, Rmax, Rmin. destruct (Rle_dec x 1), (Rle_dec y 1); repeat (destruct (Rle_dec (-1) _)); unfold Rabs; repeat destruct Rcase_abs; lra.
Qed.

(** ** Invariant *)
Definition ln_inv (sr : f32) (s : lfn) : Prop :=
  (audio (ln_p0 s) /\ audio (ln_p1 s) /\ audio (ln_p2 s) /\ audio (ln_p3 s)) /\
  (fin (ln_phase s) /\ 0 <= B2R (ln_phase s) <= 1) /\ (fin (ln_inc s) /\ 0 <= B2R (ln_inc s) <= 1) /\ ln_sr s = sr.
Lemma lcg_audio seed : audio (lcg_out (lcg seed)).
Proof. apply lcg_out_acc, lcg_range. Qed.
Lemma ln_inc_b sr f : rate_ok sr -> fin f -> 0 <= B2R f <= B2R sr -> fin (fdiv f sr) /\ 0 <= B2R (fdiv f sr) <= 1.
Proof.
  intros [Fs Bs] Ff B. destruct (fdiv_b 0 1 f sr dy0 dy1 Ff Fs) as (F & _ & H); [lra| |split; assumption].
  split; [apply Rmult_le_pos; [lra|]; apply Rlt_le, Rinv_0_lt_compat; lra|].
  apply Rmult_le_reg_r with (B2R sr); [lra|]. unfold Rdiv. rewrite Rmult_assoc, Rinv_l; lra.
Qed.
Lemma ln_fill_inv sr ph inc f seed : fin ph -> 0 <= B2R ph <= 1 -> fin inc -> 0 <= B2R inc <= 1 -> ln_inv sr (ln_fill ph inc f sr seed).
Proof.
  intros. refine (conj (conj _ (conj _ (conj _ _))) (conj _ (conj _ _))); try apply lcg_audio; try reflexivity; split; assumption.
Qed.
Lemma ln_init_inv sr seed : rate_ok sr -> ln_inv sr (ln_init sr seed).
Proof.
  intros R. destruct (ln_inc_b sr one R one_fin) as [F B]; [rewrite one_R; destruct R; lra|].
  apply ln_fill_inv; auto; [reflexivity|]. cbn. lra.
Qed.
Lemma ln_tick_inv sr s : ln_inv sr s -> ln_inv sr (fst (ln_tick s)) /\ audio (snd (ln_tick s)).
Proof.
  intros ((A0 & A1 & A2 & A3) & (Fp & Bp) & (Fi & Bi) & Es).
  destruct (unit_adv _ _ Fp Bp Fi Bi) as (F & B & _).
  split.
  - unfold ln_tick. cbv zeta. unfold fst. destruct (fle one (fadd (ln_phase s) (ln_inc s)));
    (refine (conj (conj _ (conj _ (conj _ _))) (conj (conj _ _) (conj (conj _ _) _))); try assumption; apply lcg_audio).
  - unfold ln_tick, snd. destruct (catmull_acc _ _ _ _ _ Fp Bp A0 A1 A2 A3) as [Fc _].
    destruct (clamp_unit_R _ Fc) as [G E]. split; [exact G|]. rewrite E. apply clampR_bnd.
Qed.
Lemma milli_R : fin (fdec 1 1000 : f32) /\ 0 <= B2R (fdec 1 1000 : f32) <= 1.
Proof. split; [ffin|]. fval (fdec 1 1000 : f32). lra. Qed.
Lemma ln_setf_inv sr s f : rate_ok sr -> ln_inv sr s -> flt sr f = false -> ln_inv sr (ln_setFrequency s f).
Proof.
  intros R (A & P & I & Es) H.
  assert (X : fin (if flt zero f then f else fdec 1 1000) /\ 0 <= B2R (if flt zero f then f else fdec 1 1000) <= B2R sr).
  { destruct (flt zero f) eqn:C.
    - assert (N : is_nan f = false) by (destruct f; auto; discriminate C).
      assert (K : key f <= B2R sr).
      { destruct (Rle_or_lt (key f) (B2R sr)) as [|K]; [assumption|]. exfalso. assert (flt sr f = true); [|congruence].
        destruct R as [Fs _]. apply flt_true; [now apply fin_nan|exact N|]. now rewrite key_fin. }
      assert (K0 : 0 < key f). { apply flt_true in C; [exact C|reflexivity|exact N]. }
      assert (F : fin f). { apply fin_key_lt; [exact N|]. rewrite Rabs_pos_eq by lra. destruct R as [_ [_ R]]. apply Rle_lt_trans with (bpow radix2 100); [lra|apply bpow_lt; lia]. }
      rewrite key_fin in K, K0 by exact F. split; [exact F|lra].
    - destruct milli_R. destruct R. split; [assumption|lra]. }
  destruct X as [Fx Bx]. destruct (ln_inc_b sr _ R Fx Bx) as [F B].
  refine (conj A (conj P (conj _ Es))). unfold ln_setFrequency. cbv zeta. unfold ln_inc. rewrite Es. split; assumption.
Qed.
Lemma ln_op_inv sr s o : rate_ok sr -> ln_inv sr s -> ln_ok sr o -> ln_inv sr (fst (ln_op s o)).
Proof.
  intros R I O. destruct o as [|f|k|k]; unfold ln_op.
  - pose proof (ln_tick_inv sr s I) as [H _]. destruct (ln_tick s). exact H.
  - now apply ln_setf_inv.
  - exact I.
  - destruct I as (A & P & (Fi & Bi) & Es). unfold ln_reset. rewrite Es. apply ln_fill_inv; auto; [reflexivity|]. cbn. lra.
Qed.
Lemma ln_bounded sr seed ops : rate_ok sr -> Forall (ln_ok sr) ops ->
  let r := run ln_op (ln_init sr seed) ops in ln_inv sr (fst r) /\ forall x, In (Some x) (snd r) -> audio x.
Proof.
  intros R H r. apply (run_inv ln_op (ln_inv sr) (ln_ok sr) audio); auto.
  - intros s o I O. now apply ln_op_inv.
  - intros s o x I O E. destruct o as [|f|k|k]; try discriminate E. unfold ln_op in E. pose proof (ln_tick_inv sr s I) as [_ X].
    destruct (ln_tick s). injection E as <-. exact X.
  - now apply ln_init_inv.
Qed.

(** ** Accuracy *)
Lemma ln_out_acc sr s : ln_inv sr s ->
  Rabs (B2R (snd (ln_tick s)) - clampR (spline (B2R (ln_phase s)) (B2R (ln_p0 s)) (B2R (ln_p1 s)) (B2R (ln_p2 s)) (B2R (ln_p3 s)))) <= bpow radix2 (-19).
Proof.
  intros ((A0 & A1 & A2 & A3) & (Fp & Bp) & (Fi & Bi) & Es). unfold ln_tick, snd.
  destruct (catmull_acc _ _ _ _ _ Fp Bp A0 A1 A2 A3) as [Fc Ec]. destruct (clamp_unit_R _ Fc) as [G ->].
  eapply Rle_trans; [apply clampR_lip|exact Ec].
Qed.

(** ** Smoothness *)
Lemma abs_mul1 a b c : Rabs a <= c -> Rabs b <= 1 -> Rabs (a * b) <= c.
Proof. intros. rewrite Rabs_mult. pose proof (Rabs_pos a). pose proof (Rabs_pos b). nra. Qed.
Lemma spline_lip t v p0 p1 p2 p3 : 0 <= t <= 1 -> 0 <= v <= 1 -> Rabs p0 <= 1 -> Rabs p1 <= 1 -> Rabs p2 <= 1 -> Rabs p3 <= 1 ->
  Rabs (spline t p0 p1 p2 p3 - spline v p0 p1 p2 p3) <= 4 * Rabs (t - v).
Proof.
  intros Ht Hv H0 H1 H2 H3. set (s2 := t * t + t * v + v * v). set (s1 := t + v).
  assert (E : spline t p0 p1 p2 p3 - spline v p0 p1 p2 p3 =
     (t - v) * ((- / 2 * s2 + s1 - / 2) * p0 + (3 / 2 * s2 - 5 / 2 * s1) * p1 + (- (3 / 2) * s2 + 2 * s1 + / 2) * p2 + (/ 2 * s2 - / 2 * s1) * p3)).
  { unfold spline, s2, s1. field. }
  rewrite E, Rabs_mult, Rmult_comm. apply Rmult_le_compat_r; [apply Rabs_pos|].
  assert (S1 : 0 <= s1 <= 2) by (unfold s1; lra). assert (S2 : 0 <= s2 <= 3) by (unfold s2; nra).
  assert (Sa : 3 / 4 * (s1 * s1) <= s2 <= s1 * s1) by (pose proof (Rle_0_sqr (t - v)) as Z; unfold Rsqr in Z; assert (0 <= t * v) by (apply Rmult_le_pos; lra); unfold s1, s2; split; lra).
  assert (Sb : s2 <= 3 / 2 * s1) by (unfold s1, s2; nra).
  pose proof (Rle_0_sqr (s1 - 4 / 3)) as Z0. pose proof (Rle_0_sqr (s1 - 10 / 9)) as Z1.
  pose proof (Rle_0_sqr (s1 - 8 / 9)) as Z2. pose proof (Rle_0_sqr (s1 - 2 / 3)) as Z3. unfold Rsqr in *. clearbody s1 s2.
  assert (Q0 : Rabs (- / 2 * s2 + s1 - / 2) <= / 2) by (apply Rabs_le; split; lra).
  assert (Q1 : Rabs (3 / 2 * s2 - 5 / 2 * s1) <= 3 / 2) by (apply Rabs_le; split; lra).
  assert (Q2 : Rabs (- (3 / 2) * s2 + 2 * s1 + / 2) <= 3 / 2) by (apply Rabs_le; split; lra).
  assert (Q3 : Rabs (/ 2 * s2 - / 2 * s1) <= / 2) by (apply Rabs_le; split; lra).
  pose proof (abs_mul1 _ p0 _ Q0 H0) as W0. pose proof (abs_mul1 _ p1 _ Q1 H1) as W1.
  pose proof (abs_mul1 _ p2 _ Q2 H2) as W2. pose proof (abs_mul1 _ p3 _ Q3 H3) as W3.
  apply Rabs_le_inv in W0. apply Rabs_le_inv in W1. apply Rabs_le_inv in W2. apply Rabs_le_inv in W3. apply Rabs_le. lra.
Qed.
Lemma spline_1 p0 p1 p2 p3 : spline 1 p0 p1 p2 p3 = p2. Proof. unfold spline. field. Qed.
Lemma spline_0 p0 p1 p2 p3 : spline 0 p0 p1 p2 p3 = p1. Proof. unfold spline. field. Qed.
Lemma audio_abs x : audio x -> Rabs (B2R x) <= 1.
Proof. intros [_ B]. apply Rabs_le. lra. Qed.
Lemma ln_cases sr s : ln_inv sr s -> let s' := fst (ln_tick s) in
  (ln_p0 s' = ln_p1 s /\ ln_p1 s' = ln_p2 s /\ ln_p2 s' = ln_p3 s /\ Rabs (B2R (ln_phase s') - (B2R (ln_phase s) + B2R (ln_inc s) - 1)) <= bpow radix2 (-24)) \/
  (ln_p0 s' = ln_p0 s /\ ln_p1 s' = ln_p1 s /\ ln_p2 s' = ln_p2 s /\ ln_p3 s' = ln_p3 s /\ Rabs (B2R (ln_phase s') - (B2R (ln_phase s) + B2R (ln_inc s))) <= bpow radix2 (-24)).
Proof.
  intros (_ & (Fp & Bp) & (Fi & Bi) & Es) s'. destruct (unit_adv _ _ Fp Bp Fi Bi) as (_ & _ & _ & T).
  unfold s', ln_tick. cbv zeta. unfold fst. destruct (fle one (fadd (ln_phase s) (ln_inc s))); [left|right]; repeat (split; [reflexivity|]); exact T.
Qed.
Definition seg (s : lfn) : R := spline (B2R (ln_phase s)) (B2R (ln_p0 s)) (B2R (ln_p1 s)) (B2R (ln_p2 s)) (B2R (ln_p3 s)).
Lemma seg_step sr s s' : ln_inv sr s -> ln_inv sr s' ->
  (ln_p0 s' = ln_p1 s /\ ln_p1 s' = ln_p2 s /\ ln_p2 s' = ln_p3 s /\ Rabs (B2R (ln_phase s') - (B2R (ln_phase s) + B2R (ln_inc s) - 1)) <= bpow radix2 (-24)) \/
  (ln_p0 s' = ln_p0 s /\ ln_p1 s' = ln_p1 s /\ ln_p2 s' = ln_p2 s /\ ln_p3 s' = ln_p3 s /\ Rabs (B2R (ln_phase s') - (B2R (ln_phase s) + B2R (ln_inc s))) <= bpow radix2 (-24)) ->
  Rabs (seg s' - seg s) <= 4 * (B2R (ln_inc s) + bpow radix2 (-24)).
Proof.
  intros ((A0 & A1 & A2 & A3) & (Fp & Bp) & (Fi & Bi) & Es) ((A0' & A1' & A2' & A3') & (_ & Bp') & _) T.
  pose proof (bpow_gt_0 radix2 (-24)) as P24. unfold seg. destruct T as [(X0 & X1 & X2 & T)|(X0 & X1 & X2 & X3 & T)].
  - pose proof (spline_lip 1 (B2R (ln_phase s)) _ _ _ _ ltac:(lra) Bp (audio_abs _ A0) (audio_abs _ A1) (audio_abs _ A2) (audio_abs _ A3)) as L0.
    pose proof (spline_lip _ 0 _ _ _ _ Bp' ltac:(lra) (audio_abs _ A0') (audio_abs _ A1') (audio_abs _ A2') (audio_abs _ A3')) as L1.
    rewrite spline_1 in L0. rewrite spline_0 in L1.
    generalize dependent (spline (B2R (ln_phase s)) (B2R (ln_p0 s)) (B2R (ln_p1 s)) (B2R (ln_p2 s)) (B2R (ln_p3 s))). intros c0 L0.
    generalize dependent (spline (B2R (ln_phase s')) (B2R (ln_p0 s')) (B2R (ln_p1 s')) (B2R (ln_p2 s')) (B2R (ln_p3 s'))). intros c1 L1.
    rewrite X1 in L1. rewrite (Rabs_pos_eq (1 - _)) in L0 by lra. rewrite Rminus_0_r, (Rabs_pos_eq (B2R (ln_phase _))) in L1 by lra.
    replace (c1 - c0) with ((c1 - B2R (ln_p2 s)) + (B2R (ln_p2 s) - c0)) by ring. eapply Rle_trans; [apply Rabs_triang|].
    apply Rabs_le_inv in T. lra.
  - rewrite X0, X1, X2, X3.
    pose proof (spline_lip _ (B2R (ln_phase s)) _ _ _ _ Bp' Bp (audio_abs _ A0) (audio_abs _ A1) (audio_abs _ A2) (audio_abs _ A3)) as L0.
    eapply Rle_trans; [exact L0|]. apply Rmult_le_compat_l; [lra|]. apply Rabs_le. apply Rabs_le_inv in T. lra.
Qed.
Lemma smooth_aux o1 o0 c1 c0 i : Rabs (o1 - clampR c1) <= bpow radix2 (-19) -> Rabs (o0 - clampR c0) <= bpow radix2 (-19) ->
  Rabs (c1 - c0) <= 4 * (i + bpow radix2 (-24)) -> Rabs (o1 - o0) <= 4 * i + bpow radix2 (-17).
Proof.
  intros E1 E0 D. pose proof (clampR_lip c1 c0) as C.
  replace (o1 - o0) with ((o1 - clampR c1) + (clampR c1 - clampR c0) + - (o0 - clampR c0)) by ring.
  eapply Rle_trans; [apply Rabs_triang|]. rewrite Rabs_Ropp. eapply Rle_trans; [apply Rplus_le_compat_r, Rabs_triang|].
  revert D E0 E1. bp. intros. lra.
Qed.
Lemma ln_smooth sr s : ln_inv sr s ->
  Rabs (B2R (snd (ln_tick (fst (ln_tick s)))) - B2R (snd (ln_tick s))) <= 4 * B2R (ln_inc s) + bpow radix2 (-17).
Proof.
  intros I. pose proof (proj1 (ln_tick_inv sr s I)) as I'.
  exact (smooth_aux _ _ _ _ _ (ln_out_acc sr _ I') (ln_out_acc sr _ I) (seg_step sr _ _ I I' (ln_cases sr s I))).
Qed.

(** ** Which spline *)
Definition at_index (seed : Z) (k : nat) (s : lfn) : Prop :=
  ln_p0 s = lcg_out (draws (k + 1) seed) /\ ln_p1 s = lcg_out (draws (k + 2) seed) /\
  ln_p2 s = lcg_out (draws (k + 3) seed) /\ ln_p3 s = lcg_out (draws (k + 4) seed) /\ ln_seed s = draws (k + 4) seed.
Lemma draws_S n seed : lcg (draws n seed) = draws (S n) seed. Proof. reflexivity. Qed.
Lemma ln_fill_at ph inc f sr seed : at_index seed 0 (ln_fill ph inc f sr seed).
Proof. repeat split. Qed.
Lemma ln_track sr seed n : forall s k, ln_inv sr s -> at_index seed k s ->
  let s' := after ln_tick n s in
  exists k', at_index seed k' s' /\ ln_inc s' = ln_inc s /\ ln_inv sr s' /\
    Rabs (INR k' + B2R (ln_phase s') - (INR k + B2R (ln_phase s) + INR n * B2R (ln_inc s))) <= INR n * bpow radix2 (-24).
Proof.
  induction n as [|n IH]; intros s k I A.
  - exists k. refine (conj A (conj eq_refl (conj I _))). cbn [after]. change (INR 0) with 0. rewrite !Rmult_0_l, Rplus_0_r, Rminus_diag_eq, Rabs_R0 by reflexivity. lra.
  - cbn [after]. pose proof (proj1 (ln_tick_inv sr s I)) as I'.
    assert (X : exists k1, at_index seed k1 (fst (ln_tick s)) /\ ln_inc (fst (ln_tick s)) = ln_inc s /\
      Rabs (INR k1 + B2R (ln_phase (fst (ln_tick s))) - (INR k + B2R (ln_phase s) + B2R (ln_inc s))) <= bpow radix2 (-24)).
    { destruct I as (_ & (Fp & Bp) & (Fi & Bi) & Es). destruct (unit_adv _ _ Fp Bp Fi Bi) as (_ & _ & _ & T).
      destruct A as (E0 & E1 & E2 & E3 & E4). unfold ln_tick. cbv zeta. unfold fst.
      destruct (fle one (fadd (ln_phase s) (ln_inc s))).
      - exists (S k). unfold at_index, ln_p0, ln_p1, ln_p2, ln_p3, ln_phase, ln_inc, ln_seed.
        fold (ln_p0 s) (ln_p1 s) (ln_p2 s) (ln_p3 s) (ln_phase s) (ln_inc s) (ln_seed s).
        rewrite E1, E2, E3, E4, draws_S. replace (S k + 1)%nat with (k + 2)%nat by lia. replace (S k + 2)%nat with (k + 3)%nat by lia.
        replace (S k + 3)%nat with (k + 4)%nat by lia. replace (S k + 4)%nat with (S (k + 4)) by lia.
        refine (conj _ (conj eq_refl _)); [repeat split; reflexivity|]. rewrite S_INR.
        replace (INR k + 1 + B2R (fsub (fadd (ln_phase s) (ln_inc s)) one) - (INR k + B2R (ln_phase s) + B2R (ln_inc s))) with
          (B2R (fsub (fadd (ln_phase s) (ln_inc s)) one) - (B2R (ln_phase s) + B2R (ln_inc s) - 1)) by ring. exact T.
      - exists k. refine (conj _ (conj eq_refl _)); [repeat split; assumption|]. unfold ln_phase, ln_inc. fold (ln_phase s) (ln_inc s).
        replace (INR k + B2R (fadd (ln_phase s) (ln_inc s)) - (INR k + B2R (ln_phase s) + B2R (ln_inc s))) with
          (B2R (fadd (ln_phase s) (ln_inc s)) - (B2R (ln_phase s) + B2R (ln_inc s))) by ring. exact T. }
    destruct X as (k1 & A1 & Ei & D1). destruct (IH _ k1 I' A1) as (k2 & A2 & Ei2 & I2 & D2).
    exists k2. refine (conj A2 (conj (eq_trans Ei2 Ei) (conj I2 _))). rewrite Ei in D2. rewrite S_INR.
    apply Rabs_le_inv in D1. apply Rabs_le_inv in D2. apply Rabs_le. lra.
Qed.
Lemma spline_pts t p0 p1 p2 p3 q0 q1 q2 q3 e : 0 <= t <= 1 -> 0 <= e ->
  Rabs (p0 - q0) <= e -> Rabs (p1 - q1) <= e -> Rabs (p2 - q2) <= e -> Rabs (p3 - q3) <= e ->
  Rabs (spline t p0 p1 p2 p3 - spline t q0 q1 q2 q3) <= 4 * e.
Proof.
  intros Ht He H0 H1 H2 H3. assert (T2 : 0 <= t * t <= t) by nra. assert (T3 : 0 <= t * t * t <= t * t) by nra.
  assert (E : spline t p0 p1 p2 p3 - spline t q0 q1 q2 q3 = (- / 2 * (t * t * t) + t * t - / 2 * t) * (p0 - q0) + (3 / 2 * (t * t * t) - 5 / 2 * (t * t) + 1) * (p1 - q1)
    + (- (3 / 2) * (t * t * t) + 2 * (t * t) + / 2 * t) * (p2 - q2) + (/ 2 * (t * t * t) - / 2 * (t * t)) * (p3 - q3)).
  { unfold spline. field. }
  assert (M : forall a c d, Rabs a <= c -> Rabs d <= e -> Rabs (a * d) <= c * e).
  { intros a c d Ha Hd. rewrite Rabs_mult. apply Rmult_le_compat; auto using Rabs_pos. }
  pose proof (M (- / 2 * (t * t * t) + t * t - / 2 * t) (/ 2) _ ltac:(ab) H0) as W0.
  pose proof (M (3 / 2 * (t * t * t) - 5 / 2 * (t * t) + 1) 1 _ ltac:(ab) H1) as W1.
  pose proof (M (- (3 / 2) * (t * t * t) + 2 * (t * t) + / 2 * t) (5 / 4) _ ltac:(ab) H2) as W2.
  pose proof (M (/ 2 * (t * t * t) - / 2 * (t * t)) (/ 2) _ ltac:(ab) H3) as W3.
  rewrite E. apply Rabs_le_inv in W0. apply Rabs_le_inv in W1. apply Rabs_le_inv in W2. apply Rabs_le_inv in W3. apply Rabs_le. lra.
Qed.
Lemma noise_acc seed j : (0 <= seed < 2 ^ 32)%Z -> Rabs (B2R (lcg_out (draws j seed)) - noise_pt seed j) <= bpow radix2 (-22).
Proof. intros H. apply lcg_out_acc. now apply draws_range. Qed.
Lemma track_aux o c c' : Rabs (o - clampR c) <= bpow radix2 (-19) -> Rabs (c - c') <= 4 * bpow radix2 (-22) -> Rabs (o - clampR c') <= bpow radix2 (-18).
Proof.
  intros E C. pose proof (clampR_lip c c') as L.
  replace (o - clampR c') with ((o - clampR c) + (clampR c - clampR c')) by ring. eapply Rle_trans; [apply Rabs_triang|].
  revert E C. bp. intros. lra.
Qed.
Lemma ln_spec sr seed f n : rate_ok sr -> (0 <= seed < 2 ^ 32)%Z -> fin f -> 0 < B2R f <= B2R sr ->
  exists k t, 0 <= t <= 1 /\ Rabs (INR k + t - INR n * (B2R f / B2R sr)) <= INR n * bpow radix2 (-23) /\
    Rabs (B2R (nth_sample ln_tick n (ln_setFrequency (ln_init sr seed) f)) -
      clampR (spline t (noise_pt seed (k + 1)) (noise_pt seed (k + 2)) (noise_pt seed (k + 3)) (noise_pt seed (k + 4)))) <= bpow radix2 (-18).
Proof.
  intros R Hs Ff Bf. set (s := ln_setFrequency (ln_init sr seed) f).
  assert (I : ln_inv sr s).
  { apply ln_setf_inv; [exact R|now apply ln_init_inv|]. apply flt_R_false; [apply R|exact Ff|lra]. }
  assert (A : at_index seed 0 s) by (repeat split).
  destruct (ln_track sr seed n s 0%nat I A) as (k & Ak & Ei & Ik & D).
  exists k, (B2R (ln_phase (after ln_tick n s))). split; [apply Ik|]. split.
  - change (INR 0) with 0 in D. change (B2R (ln_phase s)) with 0 in D.
    assert (EI : Rabs (B2R (ln_inc s) - B2R f / B2R sr) <= bpow radix2 (-25)).
    { unfold s, ln_setFrequency. cbv zeta. unfold ln_inc. replace (flt zero f) with true by (symmetry; apply flt_R; [reflexivity|exact Ff|cbn; lra]).
      change (ln_sr (ln_init sr seed)) with sr. destruct R as [Fs Bs].
      assert (Q : 0 <= B2R f / B2R sr <= 1).
      { split; [apply Rmult_le_pos; [lra|]; apply Rlt_le, Rinv_0_lt_compat; lra|].
        apply Rmult_le_reg_r with (B2R sr); [lra|]. unfold Rdiv. rewrite Rmult_assoc, Rinv_l; lra. }
      destruct (fdiv_b 0 1 f sr dy0 dy1 Ff Fs ltac:(lra) Q) as (_ & E & _). rewrite E. apply (rnd_err1 0); [lia|]. apply Rabs_le. bp. lra. }
    pose proof (pos_INR n) as Pn. set (i := B2R (ln_inc s)) in *. set (v := B2R f / B2R sr) in *. set (x := INR n) in *.
    revert EI D. bp. intros EI D. apply Rabs_le_inv in EI. apply Rabs_le_inv in D.
    assert (x * (i - v) <= x * / 33554432) by (apply Rmult_le_compat_l; lra). assert (x * - / 33554432 <= x * (i - v)) by (apply Rmult_le_compat_l; lra).
    apply Rabs_le. lra.
  - unfold nth_sample. set (s' := after ln_tick n s) in *. pose proof (ln_out_acc sr s' Ik) as E.
    destruct Ak as (E0 & E1 & E2 & E3 & _). rewrite E0, E1, E2, E3 in E.
    eapply track_aux; [exact E|]. apply spline_pts; [apply Ik|apply bpow_ge_0| | | |]; apply noise_acc, Hs.
Qed.

(** ** Reproducibility *)
Lemma ln_sr_op s o : ln_sr (fst (ln_op s o)) = ln_sr s.
Proof.
  destruct o; unfold ln_op; try reflexivity. destruct (ln_tick s) as [s' x] eqn:E. unfold ln_tick in E. cbv zeta in E. injection E as <- _.
  unfold fst. now destruct (fle one (fadd (ln_phase s) (ln_inc s))).
Qed.
Lemma ln_sr_run l : forall s, ln_sr (fst (run ln_op s l)) = ln_sr s.
Proof.
  induction l as [|o l IH]; intros s; [reflexivity|]. cbn [run]. pose proof (ln_sr_op s o) as E. destruct (ln_op s o) as [s' x].
  specialize (IH s'). destruct (run ln_op s' l). unfold fst in *. congruence.
Qed.
Lemma run_app {S O} (step : S -> O -> S * option f32) l1 : forall l2 s,
  run step s (l1 ++ l2) = (fst (run step (fst (run step s l1)) l2), snd (run step s l1) ++ snd (run step (fst (run step s l1)) l2)).
Proof.
  induction l1 as [|o l IH]; intros l2 s; cbn [run app].
  - cbn [fst snd app]. now destruct (run step s l2).
  - destruct (step s o) as [s' x]. rewrite IH. destruct (run step s' l) as [s'' xs]. cbn [fst snd]. reflexivity.
Qed.
Lemma ln_repro sr seed k f ops rest :
  snd (run ln_op (ln_init sr seed) (ops ++ NFreq f :: NReset k :: rest)) =
  snd (run ln_op (ln_init sr seed) ops) ++ None :: snd (run ln_op (ln_init sr k) (NFreq f :: rest)).
Proof.
  rewrite run_app. unfold snd at 1. f_equal. pose proof (ln_sr_run ops (ln_init sr seed)) as E. set (s := fst (run ln_op (ln_init sr seed) ops)) in *.
  change (ln_sr (ln_init sr seed)) with sr in E. cbn [run ln_op].
  assert (X : ln_reset (ln_setFrequency s f) k = ln_setFrequency (ln_init sr k) f).
  { unfold ln_reset, ln_setFrequency, ln_init, ln_fill. cbv zeta. unfold ln_inc, ln_freq, ln_sr at 1 2 3, ln_p0, ln_p1, ln_p2, ln_p3, ln_phase, ln_seed. fold (ln_sr s). rewrite E. reflexivity. }
  rewrite X. destruct (run ln_op (ln_setFrequency (ln_init sr k) f) rest). reflexivity.
Qed.

(** ** Period of the public generator *)
Lemma rand_seed n : forall s, ln_seed (after ln_nextRandom n s) = draws n (ln_seed s).
Proof.
  induction n as [|n IH]; intros s; [reflexivity|]. cbn [after]. rewrite IH.
  change (ln_seed (fst (ln_nextRandom s))) with (lcg (ln_seed s)). clear IH. revert s. induction n as [|n IH]; intros s; [reflexivity|].
  change (lcg (draws n (lcg (ln_seed s))) = lcg (draws (S n) (ln_seed s))). f_equal. apply IH.
Qed.
