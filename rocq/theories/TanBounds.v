(** The tangent just above a right angle, near 0.6 pi. *)
From Coq Require Import Reals Lra.
From Verif Require Import RealBounds.
Local Open Scope R_scope.
Lemma tan06 x : 18849 / 10000 <= x <= 18850 / 10000 -> -309 / 100 <= tan x <= -306 / 100.
Proof.
  intros H. pose proof PI_bounds as P. set (y := x - PI / 2). assert (Hy : 314103 / 1000000 <= y <= 314204 / 1000000) by (unfold y; lra).
  assert (Es : sin x = cos y) by (unfold y; rewrite <- (cos_neg (x - PI / 2)); replace (- (x - PI / 2)) with (PI / 2 - x) by ring; symmetry; apply cos_shift).
  assert (Ec : cos x = - sin y). { unfold y. replace (sin (x - PI / 2)) with (- sin (PI / 2 - x)) by (rewrite <- sin_neg; f_equal; ring). rewrite sin_shift. ring. }
  assert (S1 : sin (314103 / 1000000) <= sin y) by (apply sin_incr_1; lra). assert (S2 : sin y <= sin (314204 / 1000000)) by (apply sin_incr_1; lra).
  assert (C1 : cos y <= cos (314103 / 1000000)) by (apply cos_decr_1; lra). assert (C2 : cos (314204 / 1000000) <= cos y) by (apply cos_decr_1; lra).
  destruct (pre_sin_bound (314103 / 1000000) 0 ltac:(lra) ltac:(lra)) as [S3 _]. destruct (pre_sin_bound (314204 / 1000000) 0 ltac:(lra) ltac:(lra)) as [_ S4].
  destruct (pre_cos_bound (314103 / 1000000) 0 ltac:(lra) ltac:(lra)) as [_ C3]. destruct (pre_cos_bound (314204 / 1000000) 0 ltac:(lra) ltac:(lra)) as [C4 _].
  unfold sin_approx, cos_approx, sin_term, cos_term in *. cbn [sum_f_R0 pow fact Nat.mul Nat.add INR] in *.
  assert (S5 : 3089 / 10000 <= sin y) by lra. assert (S6 : sin y <= 3091 / 10000) by lra. assert (C5 : 95 / 100 <= cos y) by lra. assert (C6 : cos y <= 9511 / 10000) by lra.
  unfold tan. rewrite Es, Ec. replace (cos y / - sin y) with (- (cos y / sin y)) by (field; lra).
  assert (306 / 100 <= cos y / sin y <= 309 / 100); [|lra]. split; apply Rmult_le_reg_r with (sin y); try lra; unfold Rdiv at 2; try (rewrite Rmult_assoc, Rinv_l by lra; lra). unfold Rdiv at 1. rewrite Rmult_assoc, Rinv_l by lra. lra.
Qed.
