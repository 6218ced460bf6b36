(** Relative-error bookkeeping for products and quotients in binary32. *)
From Coq Require Import ZArith Reals Lra Lia Psatz.
From Flocq Require Import Core BinarySingleNaN.
From Verif Require Import Flt FltFacts FltMore FltArith UtilModel UtilProofs FltClose OscProofs2 PhasorProofs.
Local Open Scope R_scope.

(** [x] is finite and within a relative [e] of [r]. *)
Definition rl (e : R) (x : f32) (r : R) : Prop := fin x /\ Rabs (B2R x - r) <= e * Rabs r.
(** Rounding unit: a bit more than 2^-24. *)
Definition ru : R := 0.00000006.
(** Sizes for which rounding is a matter of relative error. *)
Definition mid (r : R) : Prop := bpow radix2 (-100) <= Rabs r <= bpow radix2 100.

Lemma rl_self x : fin x -> rl 0 x (B2R x).
Proof. intros F. split; [exact F|]. rewrite Rminus_diag_eq, Rabs_R0 by reflexivity. lra. Qed.
Lemma rl_weak e e' x r : rl e x r -> e <= e' -> rl e' x r.
Proof. intros [F E] L. split; [exact F|]. pose proof (Rabs_pos r). nra. Qed.
Lemma rl_eq e x r r' : rl e x r -> r = r' -> rl e x r'. Proof. intros H <-. exact H. Qed.
Lemma rl_cl e x r b : rl e x r -> 0 <= e -> Rabs r <= b -> cl (e * b) x r.
Proof. intros [F E] P B. split; [exact F|]. eapply Rle_trans; [exact E|]. now apply Rmult_le_compat_l. Qed.
Lemma rl_fac e x r : rl e x r -> exists k, B2R x = r * (1 + k) /\ Rabs k <= e \/ B2R x = r /\ r = 0 /\ k = 0.
Proof.
  intros [F E]. destruct (Req_dec r 0) as [Z|N].
  - exists 0. right. rewrite Z, Rabs_R0, Rmult_0_r in E. split; [|auto]. pose proof (Rabs_pos (B2R x - 0)). assert (A : Rabs (B2R x - 0) = 0) by lra. destruct (Req_dec (B2R x - 0) 0); [lra|]. now apply Rabs_no_R0 in A.
  - exists (B2R x / r - 1). left. split; [field; exact N|]. replace (B2R x / r - 1) with ((B2R x - r) * / r) by (field; exact N).
    rewrite Rabs_mult, Rabs_inv. apply Rmult_le_reg_r with (Rabs r); [now apply Rabs_pos_lt|]. rewrite Rmult_assoc, Rinv_l by (now apply Rabs_no_R0). lra.
Qed.
Lemma mid_rnd v : Rabs v <= bpow radix2 101 -> bpow radix2 (-101) <= Rabs v -> Rabs (rnd32 v) < bpow radix2 128 /\ Rabs (rnd32 v - v) <= ru * Rabs v.
Proof.
  intros H L. destruct (dy_rnd_bnd (prec:=24) (emax:=128) (- bpow radix2 101) (bpow radix2 101) v) as [A _]; [apply bdy; lia|apply bdy; lia|now apply Rabs_le_inv|]. split; [exact A|].
  eapply Rle_trans; [apply rrel32|]. unfold ru. assert (T : bpow radix2 (-150) = bpow radix2 (-49) * bpow radix2 (-101)) by (rewrite <- bpow_plus; reflexivity).
  rewrite T. set (b := bpow radix2 (-101)) in *. assert (0 < b) by apply bpow_gt_0. clearbody b. clear T A H.
  assert (B1 : bpow radix2 (-24) <= 0.000000059605) by (bp; lra). assert (B2 : bpow radix2 (-49) <= 0.00000000000001) by (bp; lra).
  assert (0 < bpow radix2 (-24)) by apply bpow_gt_0. assert (0 < bpow radix2 (-49)) by apply bpow_gt_0. nra.
Qed.
(** A value within [e] of [r], rounded. *)
Lemma rl_rnd e1 e r v : mid r -> Rabs (v - r) <= e1 * Rabs r -> 0 <= e1 <= / 4 -> (1 + e1) * (1 + ru) <= 1 + e ->
  Rabs (rnd32 v) < bpow radix2 128 /\ Rabs (rnd32 v - r) <= e * Rabs r.
Proof.
  intros [M1 M2] V E1 E. assert (Rv : Rabs v <= (1 + e1) * Rabs r) by (replace v with (r + (v - r)) by ring; eapply Rle_trans; [apply Rabs_triang|]; lra).
  assert (Rv2 : (1 - e1) * Rabs r <= Rabs v) by (pose proof (Rabs_triang v (r - v)) as T; replace (v + (r - v)) with r in T by ring; rewrite (Rabs_minus_sym r v) in T; lra).
  assert (P : 0 < bpow radix2 (-100)) by apply bpow_gt_0.
  destruct (mid_rnd v) as [A B].
  - change 101%Z with (100 + 1)%Z. rewrite bpow_plus. change (bpow radix2 1) with 2. nra.
  - change (-101)%Z with (-100 + -1)%Z. rewrite bpow_plus. change (bpow radix2 (-1)) with (/ 2). nra.
  - split; [exact A|]. replace (rnd32 v - r) with ((rnd32 v - v) + (v - r)) by ring. eapply Rle_trans; [apply Rabs_triang|]. unfold ru in *.
    pose proof (Rabs_pos r). apply Rle_trans with ((0.00000006 * (1 + e1) + e1) * Rabs r); nra.
Qed.
Lemma rl_mul e1 e2 e x y r1 r2 : rl e1 x r1 -> rl e2 y r2 -> 0 <= e1 <= / 16 -> 0 <= e2 <= / 16 -> mid (r1 * r2) -> (1 + e1) * (1 + e2) * (1 + ru) <= 1 + e ->
  rl e (fmul x y) (r1 * r2).
Proof.
  intros [Fx Ex] [Fy Ey] E1 E2 M E. destruct (rl_rnd (e1 + e2 + e1 * e2) e (r1 * r2) (B2R x * B2R y)) as [A B]; auto.
  - replace (B2R x * B2R y - r1 * r2) with ((B2R x - r1) * r2 + r1 * (B2R y - r2) + (B2R x - r1) * (B2R y - r2)) by ring.
    eapply Rle_trans; [apply Rabs_triang|]. eapply Rle_trans; [apply Rplus_le_compat_r, Rabs_triang|]. rewrite !Rabs_mult.
    pose proof (Rabs_pos r1). pose proof (Rabs_pos r2). pose proof (Rabs_pos (B2R x - r1)). pose proof (Rabs_pos (B2R y - r2)).
    assert (Rabs (B2R x - r1) * Rabs r2 <= e1 * Rabs r1 * Rabs r2) by (apply Rmult_le_compat_r; lra).
    assert (Rabs r1 * Rabs (B2R y - r2) <= Rabs r1 * (e2 * Rabs r2)) by (apply Rmult_le_compat_l; lra).
    assert (Rabs (B2R x - r1) * Rabs (B2R y - r2) <= (e1 * Rabs r1) * (e2 * Rabs r2)) by (apply Rmult_le_compat; lra). lra.
  - nra.
  - replace (1 + (e1 + e2 + e1 * e2)) with ((1 + e1) * (1 + e2)) by ring. exact E.
  - destruct (fmul_ok x y Fx Fy A) as [F R]. split; [exact F|]. now rewrite R.
Qed.
Lemma rl_div e1 e2 e x y r1 r2 : rl e1 x r1 -> rl e2 y r2 -> 0 <= e1 <= / 16 -> 0 <= e2 <= / 16 -> r2 <> 0 -> mid (r1 / r2) -> (1 + e1) * (1 + ru) <= (1 + e) * (1 - e2) ->
  rl e (fdiv x y) (r1 / r2).
Proof.
  intros [Fx Ex] [Fy Ey] E1 E2 N M E. pose proof (Rabs_pos_lt r2 N) as P2. pose proof (Rabs_pos r1) as P1.
  assert (Ly : (1 - e2) * Rabs r2 <= Rabs (B2R y)) by (pose proof (Rabs_triang (B2R y) (r2 - B2R y)) as T; replace (B2R y + (r2 - B2R y)) with r2 in T by ring; rewrite (Rabs_minus_sym r2) in T; lra).
  assert (Ny : B2R y <> 0) by (intros Z; rewrite Z, Rabs_R0 in Ly; nra).
  set (d := (e1 + e2) / (1 - e2)). assert (D : d * (1 - e2) = e1 + e2) by (unfold d; field; lra). assert (D0 : 0 <= d <= / 4) by (split; nra).
  destruct (rl_rnd d e (r1 / r2) (B2R x / B2R y)) as [A B]; auto.
  - replace (B2R x / B2R y - r1 / r2) with (((B2R x - r1) * r2 + r1 * (r2 - B2R y)) * / (B2R y * r2)) by (field; auto).
    rewrite Rabs_mult, Rabs_inv, Rabs_mult. unfold Rdiv. rewrite Rabs_mult, Rabs_inv.
    assert (PY : 0 < Rabs (B2R y)) by (now apply Rabs_pos_lt). apply Rmult_le_reg_r with (Rabs (B2R y) * Rabs r2); [now apply Rmult_lt_0_compat|]. rewrite Rmult_assoc, Rinv_l, Rmult_1_r by nra.
    replace (d * (Rabs r1 * / Rabs r2) * (Rabs (B2R y) * Rabs r2)) with (d * Rabs r1 * Rabs (B2R y)) by (field; lra).
    eapply Rle_trans; [apply Rabs_triang|]. rewrite !Rabs_mult, (Rabs_minus_sym r2).
    assert (Rabs (B2R x - r1) * Rabs r2 <= e1 * Rabs r1 * Rabs r2) by (apply Rmult_le_compat_r; lra).
    assert (Rabs r1 * Rabs (B2R y - r2) <= Rabs r1 * (e2 * Rabs r2)) by (apply Rmult_le_compat_l; lra).
    apply Rle_trans with ((e1 + e2) * (Rabs r1 * Rabs r2)); [lra|]. rewrite <- D.
    replace (d * (1 - e2) * (Rabs r1 * Rabs r2)) with (d * Rabs r1 * ((1 - e2) * Rabs r2)) by ring. apply Rmult_le_compat_l; [apply Rmult_le_pos; lra|exact Ly].
  - apply Rmult_le_reg_r with (1 - e2); [lra|]. replace ((1 + d) * (1 + ru) * (1 - e2)) with ((1 - e2 + d * (1 - e2)) * (1 + ru)) by ring. rewrite D. lra.
  - destruct (fdiv_ok x y Fx Fy Ny A) as [F R]. split; [exact F|]. now rewrite R.
Qed.
