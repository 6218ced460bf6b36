From Coq Require Import ZArith Reals Lra Lia Bool List Psatz.
From Flocq Require Import Core BinarySingleNaN.
From Verif Require Import AllocModel LoopModel LoopSpec.
From Verif Require Import Flt FltFacts FltMore FltArith Libm UtilModel UtilProofs OscModel OscSpec EnvModel EnvSpec EnvProofs EnvTime2
  VcModel VcSpec VcProofs VcProofs2 BxModel BxProofs BxProofs2.
Import ListNotations.
Local Open Scope R_scope.

Lemma ex2_up L i j x y : exp_unit L -> exp_acc L -> (i < j < 8)%nat -> nth_error (bx_ex2 L) i = Some x -> nth_error (bx_ex2 L) j = Some y ->
  B2R x < B2R y.
Proof.
  intros HU HA H Ex Ey. destruct (ex2_curve L i HU HA ltac:(lia)) as (x' & Ex' & X). destruct (ex2_curve L j HU HA ltac:(lia)) as (y' & Ey' & Y).
  assert (x' = x) by congruence. assert (y' = y) by congruence. subst x' y'. clear Ex Ey Ex' Ey'.
  pose proof T_short as TS. set (T := B2R (fdec 1 100 : f32) * 48000) in *. clearbody T.
  assert (J : INR (S j) <= 8) by (replace 8 with (INR 8) by (cbn; lra); apply le_INR; lia).
  assert (D : INR (S i) + 1 <= INR (S j)) by (rewrite <- S_INR; apply le_INR; lia).
  assert (N : 0 <= INR (S i)) by apply pos_INR.
  set (a := INR (S i)) in *. set (b := INR (S j)) in *. clearbody a b.
  assert (P : exp (- (a / T)) = exp (- (b / T)) * exp ((b - a) / T)) by (rewrite <- exp_plus; f_equal; field; lra).
  assert (Q : 1 + (b - a) / T <= exp ((b - a) / T)) by apply exp_ineq1_le.
  assert (W : / 480.00001 <= (b - a) / T).
  { apply Rmult_le_reg_r with T; [lra|]. unfold Rdiv. rewrite (Rmult_assoc (b - a)), Rinv_l by lra.
    apply Rle_trans with (/ 480.00001 * 480.00001); [apply Rmult_le_compat_l; lra|lra]. }
  assert (Z : b / T <= 8 / 479.99).
  { apply Rmult_le_reg_r with T; [lra|]. unfold Rdiv. rewrite Rmult_assoc, Rinv_l by lra. lra. }
  assert (V : 1 - b / T <= exp (- (b / T))) by (pose proof (exp_ineq1_le (- (b / T))); lra).
  apply Rabs_le_inv in X, Y.
  assert (U : 0.98 * (/ 480.00001) <= exp (- (b / T)) * ((b - a) / T)) by (apply Rmult_le_compat; lra).
  assert (U2 : exp (- (b / T)) * (1 + (b - a) / T) <= exp (- (a / T))) by (rewrite P; apply Rmult_le_compat_l; [left; apply exp_pos|exact Q]).
  lra.
Qed.

Lemma ex4_peaks L : exp_unit L -> sin_unit L -> cos_unit L ->
  let m := fst (bx_ex4 L) in let ys := ev_samples L (ev_init L bx_sr) bx_calls in
  fin (fst m) /\ fin (snd m) /\ B2R (fst m) <= B2R (fdec 8 10 : f32) /\ B2R (snd m) <= B2R (fdec 8 10 : f32) /\
  Forall (fun y => Rabs (B2R (fst y)) <= B2R (fst m) /\ Rabs (B2R (snd y)) <= B2R (snd m)) ys /\
  (exists y, In y ys /\ B2R (fst m) = Rabs (B2R (fst y))) /\ (exists y, In y ys /\ B2R (snd m) = Rabs (B2R (snd y))).
Proof.
  intros HE HS HC. rewrite ex4_run. cbn [fst]. pose proof (ex4_samples L HE HS HC) as F.
  assert (NE : exists y, In y (ev_samples L (ev_init L bx_sr) bx_calls)).
  { unfold bx_calls. rewrite (ev_samples_app L bx_setup), setup_no_samples. cbn [app].
    generalize (fst (ev_run L (ev_init L bx_sr) bx_setup)). intros v. rewrite ev_samples_app.
    change (51 * 64)%nat with (S (50 * 64 + 63)). unfold ticks_of at 1. cbn [repeat]. rewrite ev_samples_cons, call_tick. cbn [snd app].
    eexists. left. reflexivity. }
  set (ys := ev_samples L (ev_init L bx_sr) bx_calls) in *. clearbody ys. cbn zeta.
  assert (A0 : 0 <= B2R (fdec 8 10 : f32)) by (fval (fdec 8 10 : f32); lra).
  destruct (scan_spec (B2R (fdec 8 10 : f32)) ys F (fzero, fzero)) as ((P1 & P2) & (P3 & P4) & _ & P5 & P6 & P7);
    [split; [reflexivity|split; [apply Rle_refl|exact A0]]|split; [reflexivity|split; [apply Rle_refl|exact A0]]|].
  cbn zeta in *. set (m := bx_scan (fzero, fzero) ys) in *. clearbody m. cbn [fst snd] in *.
  split; [exact P1|]. split; [exact P3|]. split; [apply P2|]. split; [apply P4|]. split; [exact P5|].
  destruct NE as (y0 & Y0). pose proof (proj1 (Forall_forall _ _) P5 y0 Y0) as [Q1 Q2]. split.
  - destruct P6 as [E|(y & Y & E)]; [exists y0|exists y]; (split; [assumption|]); rewrite E in *; [|now rewrite fabs_R].
    apply Rle_antisym; [apply Rabs_pos|]. first [exact Q1|exact Q2].
  - destruct P7 as [E|(y & Y & E)]; [exists y0|exists y]; (split; [assumption|]); rewrite E in *; [|now rewrite fabs_R].
    apply Rle_antisym; [apply Rabs_pos|]. first [exact Q1|exact Q2].
Qed.
Lemma ex4_active L : exp_unit L -> exp_acc L -> snd (bx_ex4 L) = true.
Proof.
  intros HU HA. rewrite ex4_run. cbn [snd]. destruct (ex4_level L HU HA) as [S _]. unfold ev_isActive, ar_isActive. now rewrite S.
Qed.

Lemma ex5_shows L l r : length (bufA l) = 64%nat -> length (bufB l) = 64%nat -> length (bufA r) = 64%nat -> length (bufB r) = 64%nat ->
  let ops := [EvFreq (fofZ 440); EvTrigger] ++ repeat EvTick (8 * 64 + (64 + 64)) in
  let ys := ev_samples L (ev_init L bx_sr) ops in
  exists l' r', bx_ex5 L l r = Some (ev_after L bx_sr ops, (l', r')) /\
    shows l' (getOutputBuffer l') (map fst (skipn (8 * 64 + 64) ys)) /\ shows r' (getOutputBuffer r') (map snd (skipn (8 * 64 + 64) ys)) /\
    shows l' (getProcessingBuffer l') (map fst (firstn 64 (skipn (8 * 64) ys))) /\ shows r' (getProcessingBuffer r') (map snd (firstn 64 (skipn (8 * 64) ys))).
Proof.
  intros A B C D. cbn zeta. unfold bx_ex5, ev_after. rewrite (ev_samples_app L [_; _]), (ev_run_app L [_; _]).
  change (ev_samples L (ev_init L bx_sr) [EvFreq (fofZ 440); EvTrigger]) with (@nil (f32 * f32)). cbn [app].
  change (fst (ev_run L (ev_init L bx_sr) [EvFreq (fofZ 440); EvTrigger])) with (ev_trigger (ev_setFrequency (ev_init L bx_sr) (fofZ 440))).
  destruct (rounds_show L 8 (ev_trigger (ev_setFrequency (ev_init L bx_sr) (fofZ 440))) _ _ (init_ok64 l A B) (init_ok64 r C D)) as (l' & r' & E & F1 & F2 & B1 & B2).
  exists l', r'. split; [exact E|]. unfold ticks_of in F1, F2, B1, B2. rewrite <- F1, <- F2, <- B1, <- B2.
  repeat split; first [apply shows_front|apply shows_back].
Qed.
