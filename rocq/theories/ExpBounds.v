(** Numerical bounds on exp. *)
From Coq Require Import Reals Lra Psatz.
Local Open Scope R_scope.
Lemma sq_lo l y : 0 <= l -> l <= exp y -> l * l <= exp (2 * y).
Proof. intros. replace (2 * y) with (y + y) by ring. rewrite exp_plus. nra. Qed.
Lemma sq_hi h y : exp y <= h -> exp (2 * y) <= h * h.
Proof. intros. replace (2 * y) with (y + y) by ring. rewrite exp_plus. pose proof (exp_pos y). nra. Qed.
(** exp(-6.907755) is 0.001 to within 0.2 percent. *)
Lemma exp_lo : 0.000998 <= exp (- 6.907756).
Proof.
  assert (H0 : 0.999578384033 <= exp (- 6.907756 / 16384)) by (pose proof (exp_ineq1_le (- 6.907756 / 16384)); lra).
  assert (H1 : 0.999156945826023 <= exp (- 6.907756 / 8192)).
  { apply sq_lo in H0; [|lra]. replace (2 * (- 6.907756 / 16384)) with (- 6.907756 / 8192) in H0 by lra. lra. }
  assert (H2 : 0.998314602392386 <= exp (- 6.907756 / 4096)).
  { apply sq_lo in H1; [|lra]. replace (2 * (- 6.907756 / 8192)) with (- 6.907756 / 4096) in H1 by lra. lra. }
  assert (H3 : 0.996632045349867 <= exp (- 6.907756 / 2048)).
  { apply sq_lo in H2; [|lra]. replace (2 * (- 6.907756 / 4096)) with (- 6.907756 / 2048) in H2 by lra. lra. }
  assert (H4 : 0.993275433818259 <= exp (- 6.907756 / 1024)).
  { apply sq_lo in H3; [|lra]. replace (2 * (- 6.907756 / 2048)) with (- 6.907756 / 1024) in H3 by lra. lra. }
  assert (H5 : 0.986596087426850 <= exp (- 6.907756 / 512)).
  { apply sq_lo in H4; [|lra]. replace (2 * (- 6.907756 / 1024)) with (- 6.907756 / 512) in H4 by lra. lra. }
  assert (H6 : 0.973371839725968 <= exp (- 6.907756 / 256)).
  { apply sq_lo in H5; [|lra]. replace (2 * (- 6.907756 / 512)) with (- 6.907756 / 256) in H5 by lra. lra. }
  assert (H7 : 0.947452738371515 <= exp (- 6.907756 / 128)).
  { apply sq_lo in H6; [|lra]. replace (2 * (- 6.907756 / 256)) with (- 6.907756 / 128) in H6 by lra. lra. }
  assert (H8 : 0.897666691447682 <= exp (- 6.907756 / 64)).
  { apply sq_lo in H7; [|lra]. replace (2 * (- 6.907756 / 128)) with (- 6.907756 / 64) in H7 by lra. lra. }
  assert (H9 : 0.805805488934627 <= exp (- 6.907756 / 32)).
  { apply sq_lo in H8; [|lra]. replace (2 * (- 6.907756 / 64)) with (- 6.907756 / 32) in H8 by lra. lra. }
  assert (H10 : 0.649322485997173 <= exp (- 6.907756 / 16)).
  { apply sq_lo in H9; [|lra]. replace (2 * (- 6.907756 / 32)) with (- 6.907756 / 16) in H9 by lra. lra. }
  assert (H11 : 0.421619690821548 <= exp (- 6.907756 / 8)).
  { apply sq_lo in H10; [|lra]. replace (2 * (- 6.907756 / 16)) with (- 6.907756 / 8) in H10 by lra. lra. }
  assert (H12 : 0.177763163688457 <= exp (- 6.907756 / 4)).
  { apply sq_lo in H11; [|lra]. replace (2 * (- 6.907756 / 8)) with (- 6.907756 / 4) in H11 by lra. lra. }
  assert (H13 : 0.031599742364529 <= exp (- 6.907756 / 2)).
  { apply sq_lo in H12; [|lra]. replace (2 * (- 6.907756 / 4)) with (- 6.907756 / 2) in H12 by lra. lra. }
  assert (H14 : 0.000998543717504 <= exp (- 6.907756 / 1)).
  { apply sq_lo in H13; [|lra]. replace (2 * (- 6.907756 / 2)) with (- 6.907756 / 1) in H13 by lra. lra. }
  replace (- 6.907756) with (- 6.907756 / 1) by lra. lra.
Qed.
Lemma exp_hi : exp (- 6.907754) <= 0.001003.
Proof.
  assert (H0 : exp (- 6.907754 / 16384) <= 0.999578561841).
  { replace (- 6.907754 / 16384) with (- (6.907754 / 16384)) by lra. rewrite exp_Ropp. pose proof (exp_ineq1_le (6.907754 / 16384)).
    apply Rle_trans with (/ (1 + 6.907754 / 16384)); [apply Rinv_le_contravar; lra|]. lra. }
  assert (H1 : exp (- 6.907754 / 8192) <= 0.999157301292122).
  { apply sq_hi in H0. replace (2 * (- 6.907754 / 16384)) with (- 6.907754 / 8192) in H0 by lra. lra. }
  assert (H2 : exp (- 6.907754 / 4096) <= 0.998315312725357).
  { apply sq_hi in H1. replace (2 * (- 6.907754 / 8192)) with (- 6.907754 / 4096) in H1 by lra. lra. }
  assert (H3 : exp (- 6.907754 / 2048) <= 0.996633463621928).
  { apply sq_hi in H2. replace (2 * (- 6.907754 / 4096)) with (- 6.907754 / 2048) in H2 by lra. lra. }
  assert (H4 : exp (- 6.907754 / 1024) <= 0.993278260811041).
  { apply sq_hi in H3. replace (2 * (- 6.907754 / 2048)) with (- 6.907754 / 1024) in H3 by lra. lra. }
  assert (H5 : exp (- 6.907754 / 512) <= 0.986601703399807).
  { apply sq_hi in H4. replace (2 * (- 6.907754 / 1024)) with (- 6.907754 / 512) in H4 by lra. lra. }
  assert (H6 : exp (- 6.907754 / 256) <= 0.973382921151401).
  { apply sq_hi in H5. replace (2 * (- 6.907754 / 512)) with (- 6.907754 / 256) in H5 by lra. lra. }
  assert (H7 : exp (- 6.907754 / 128) <= 0.947474311189235).
  { apply sq_hi in H6. replace (2 * (- 6.907754 / 256)) with (- 6.907754 / 128) in H6 by lra. lra. }
  assert (H8 : exp (- 6.907754 / 64) <= 0.897707570363516).
  { apply sq_hi in H7. replace (2 * (- 6.907754 / 128)) with (- 6.907754 / 64) in H7 by lra. lra. }
  assert (H9 : exp (- 6.907754 / 32) <= 0.805878881887968).
  { apply sq_hi in H8. replace (2 * (- 6.907754 / 64)) with (- 6.907754 / 32) in H8 by lra. lra. }
  assert (H10 : exp (- 6.907754 / 16) <= 0.649440772273002).
  { apply sq_hi in H9. replace (2 * (- 6.907754 / 32)) with (- 6.907754 / 16) in H9 by lra. lra. }
  assert (H11 : exp (- 6.907754 / 8) <= 0.421773316690554).
  { apply sq_hi in H10. replace (2 * (- 6.907754 / 16)) with (- 6.907754 / 8) in H10 by lra. lra. }
  assert (H12 : exp (- 6.907754 / 4) <= 0.177892730672151).
  { apply sq_hi in H11. replace (2 * (- 6.907754 / 8)) with (- 6.907754 / 4) in H11 by lra. lra. }
  assert (H13 : exp (- 6.907754 / 2) <= 0.031645823625995).
  { apply sq_hi in H12. replace (2 * (- 6.907754 / 4)) with (- 6.907754 / 2) in H12 by lra. lra. }
  assert (H14 : exp (- 6.907754 / 1) <= 0.001001458152968).
  { apply sq_hi in H13. replace (2 * (- 6.907754 / 2)) with (- 6.907754 / 1) in H13 by lra. lra. }
  replace (- 6.907754) with (- 6.907754 / 1) by lra. lra.
Qed.

Lemma exp_sq_lower z : 0 <= z -> 1 + z + z * z / 4 <= exp z.
Proof.
  intros H. replace z with (z / 2 + z / 2) at 4 by lra. rewrite exp_plus. pose proof (exp_ineq1_le (z / 2)). nra.
Qed.
Lemma exp_neg_upper z : 0 <= z -> exp (- z) <= 1 - z + 3 / 4 * (z * z).
Proof.
  intros H. rewrite exp_Ropp. pose proof (exp_sq_lower z H) as L.
  apply Rle_trans with (/ (1 + z + z * z / 4)); [apply Rinv_le_contravar; nra|].
  apply Rmult_le_reg_r with (1 + z + z * z / 4); [nra|]. rewrite Rinv_l by nra.
  assert (0 <= z * z) by nra. assert (0 <= z * z * z) by (apply Rmult_le_pos; nra). assert (0 <= z * z * z * z) by (apply Rmult_le_pos; nra). nra.
Qed.
Lemma exp_neg_lip a b : a <= 0 -> b <= 0 -> Rabs (exp a - exp b) <= Rabs (a - b).
Proof.
  assert (G : forall a b, b <= 0 -> a <= b -> Rabs (exp a - exp b) <= Rabs (a - b)).
  { intros a0 b0 B AB. assert (E : exp a0 <= exp b0) by (destruct AB as [C| ->]; [left; now apply exp_increasing|lra]).
    assert (E1 : exp b0 <= 1) by (rewrite <- exp_0; destruct B as [C| ->]; [left; now apply exp_increasing|lra]).
    rewrite (Rabs_left1 (exp a0 - exp b0)), (Rabs_left1 (a0 - b0)) by lra.
    replace a0 with (b0 + (a0 - b0)) at 1 by ring. rewrite exp_plus. pose proof (exp_ineq1_le (a0 - b0)). pose proof (exp_pos b0). nra. }
  intros A B. destruct (Rle_lt_dec a b); [now apply G|]. rewrite Rabs_minus_sym, (Rabs_minus_sym a b). apply G; lra.
Qed.
Lemma exp_le_mono x y : x <= y -> exp x <= exp y.
Proof. intros [H|H]; [left; now apply exp_increasing|rewrite H; lra]. Qed.
