(** Absolute error bookkeeping for binary32 expressions: [cl e x r] says the
    float [x] is finite and within [e] of the real [r]. *)
From Coq Require Import ZArith Reals Lra Lia Bool Psatz.
From Flocq Require Import Core BinarySingleNaN.
From Verif Require Import Flt FltFacts FltMore FltKey FltArith UtilModel UtilProofs.
Local Open Scope R_scope.

Definition cl (e : R) (x : f32) (r : R) : Prop := fin x /\ Rabs (B2R x - r) <= e.

Lemma rnd_err1 k x : (-125 <= k)%Z -> Rabs x <= bpow radix2 k -> Rabs (rnd32 x - x) <= bpow radix2 (k - 25).
Proof. intros K H. replace (k - 25)%Z with (k - 24 - 1)%Z by lia. apply rnd_err_le; [cbn; lia|exact H]. Qed.
Lemma dyq n k : (Z.abs n < 2 ^ 24)%Z -> (-149 <= k <= 0)%Z -> dy32 (IZR n * bpow radix2 k).
Proof.
  intros Hn Hk. change (IZR n * bpow radix2 k) with (F2R (Float radix2 n k)). split; [apply dy_F2R; [exact Hn|cbn; lia]|].
  unfold F2R. cbn [Defs.Fnum Defs.Fexp]. rewrite Rabs_mult, (Rabs_pos_eq (bpow _ _)) by apply bpow_ge_0.
  apply Rle_lt_trans with (bpow radix2 24 * 1).
  - apply Rmult_le_compat; [apply Rabs_pos|apply bpow_ge_0| |].
    + rewrite <- abs_IZR. change (bpow radix2 24) with (IZR (2 ^ 24)). apply IZR_le. lia.
    + change 1 with (bpow radix2 0). apply bpow_le. lia.
  - rewrite Rmult_1_r. apply bpow_lt. lia.
Qed.
Lemma bp_dy k : (-149 <= k < 128)%Z -> dy32 (bpow radix2 k) /\ dy32 (- bpow radix2 k).
Proof. intros H. split; [|apply dy_opp]; apply dy_bpow; cbn; lia. Qed.

Lemma cl_self x : fin x -> cl 0 x (B2R x).
Proof. intros F. split; [exact F|]. rewrite Rminus_diag_eq, Rabs_R0 by reflexivity. lra. Qed.
Lemma cl_weak e e' x r : cl e x r -> e <= e' -> cl e' x r.
Proof. intros [F E] L. split; [exact F|]. lra. Qed.
Lemma cl_eq e x r r' : cl e x r -> r = r' -> cl e x r'.
Proof. intros H <-. exact H. Qed.
Lemma cl_abs e x r : cl e x r -> Rabs (B2R x) <= Rabs r + e.
Proof. intros [_ E]. replace (B2R x) with (r + (B2R x - r)) by ring. eapply Rle_trans; [apply Rabs_triang|]. lra. Qed.
Lemma cl_neg e x r : cl e x r -> cl e (fneg x) (- r).
Proof.
  intros [F E]. split; [now apply fneg_fin|]. rewrite fneg_R. replace (- B2R x - - r) with (- (B2R x - r)) by ring. now rewrite Rabs_Ropp.
Qed.
Lemma cl_add k e1 e2 x y r1 r2 : (-125 <= k <= 100)%Z -> cl e1 x r1 -> cl e2 y r2 -> Rabs (r1 + r2) + e1 + e2 <= bpow radix2 k ->
  cl (e1 + e2 + bpow radix2 (k - 25)) (fadd x y) (r1 + r2).
Proof.
  intros K [Fx Ex] [Fy Ey] B. destruct (bp_dy k ltac:(lia)) as [D1 D2].
  assert (T : Rabs (B2R x + B2R y - (r1 + r2)) <= e1 + e2).
  { replace (B2R x + B2R y - (r1 + r2)) with ((B2R x - r1) + (B2R y - r2)) by ring. eapply Rle_trans; [apply Rabs_triang|]. lra. }
  assert (A : Rabs (B2R x + B2R y) <= bpow radix2 k).
  { replace (B2R x + B2R y) with ((r1 + r2) + (B2R x + B2R y - (r1 + r2))) by ring. eapply Rle_trans; [apply Rabs_triang|]. lra. }
  destruct (fadd_b _ _ x y D2 D1 Fx Fy (Rabs_le_inv _ _ A)) as (F & E & _). split; [exact F|]. rewrite E.
  pose proof (rnd_err1 k _ ltac:(lia) A) as R.
  replace (rnd32 (B2R x + B2R y) - (r1 + r2)) with ((rnd32 (B2R x + B2R y) - (B2R x + B2R y)) + (B2R x + B2R y - (r1 + r2))) by ring.
  eapply Rle_trans; [apply Rabs_triang|]. lra.
Qed.
Lemma cl_sub k e1 e2 x y r1 r2 : (-125 <= k <= 100)%Z -> cl e1 x r1 -> cl e2 y r2 -> Rabs (r1 - r2) + e1 + e2 <= bpow radix2 k ->
  cl (e1 + e2 + bpow radix2 (k - 25)) (fsub x y) (r1 - r2).
Proof.
  intros K [Fx Ex] [Fy Ey] B. destruct (bp_dy k ltac:(lia)) as [D1 D2].
  assert (T : Rabs (B2R x - B2R y - (r1 - r2)) <= e1 + e2).
  { replace (B2R x - B2R y - (r1 - r2)) with ((B2R x - r1) - (B2R y - r2)) by ring. eapply Rle_trans; [apply Rabs_triang|]. rewrite Rabs_Ropp. lra. }
  assert (A : Rabs (B2R x - B2R y) <= bpow radix2 k).
  { replace (B2R x - B2R y) with ((r1 - r2) + (B2R x - B2R y - (r1 - r2))) by ring. eapply Rle_trans; [apply Rabs_triang|]. lra. }
  destruct (fsub_b _ _ x y D2 D1 Fx Fy (Rabs_le_inv _ _ A)) as (F & E & _). split; [exact F|]. rewrite E.
  pose proof (rnd_err1 k _ ltac:(lia) A) as R.
  replace (rnd32 (B2R x - B2R y) - (r1 - r2)) with ((rnd32 (B2R x - B2R y) - (B2R x - B2R y)) + (B2R x - B2R y - (r1 - r2))) by ring.
  eapply Rle_trans; [apply Rabs_triang|]. lra.
Qed.
Lemma cl_mul k e1 e2 b1 b2 x y r1 r2 : (-125 <= k <= 100)%Z -> cl e1 x r1 -> cl e2 y r2 -> Rabs r1 <= b1 -> Rabs r2 <= b2 ->
  (b1 + e1) * (b2 + e2) <= bpow radix2 k -> cl (b1 * e2 + b2 * e1 + e1 * e2 + bpow radix2 (k - 25)) (fmul x y) (r1 * r2).
Proof.
  intros K Cx Cy B1 B2 B. destruct (bp_dy k ltac:(lia)) as [D1 D2].
  pose proof (cl_abs _ _ _ Cx) as Ax. pose proof (cl_abs _ _ _ Cy) as Ay. destruct Cx as [Fx Ex]. destruct Cy as [Fy Ey].
  assert (T : Rabs (B2R x * B2R y - r1 * r2) <= b1 * e2 + b2 * e1 + e1 * e2).
  { replace (B2R x * B2R y - r1 * r2) with (r1 * (B2R y - r2) + r2 * (B2R x - r1) + (B2R x - r1) * (B2R y - r2)) by ring.
    eapply Rle_trans; [apply Rabs_triang|]. eapply Rle_trans; [apply Rplus_le_compat_r, Rabs_triang|]. rewrite !Rabs_mult.
    pose proof (Rabs_pos r1). pose proof (Rabs_pos r2). pose proof (Rabs_pos (B2R x - r1)). pose proof (Rabs_pos (B2R y - r2)).
    apply Rplus_le_compat; [apply Rplus_le_compat|]; apply Rmult_le_compat; lra. }
  assert (A : Rabs (B2R x * B2R y) <= bpow radix2 k).
  { rewrite Rabs_mult. eapply Rle_trans; [|exact B]. apply Rmult_le_compat; auto using Rabs_pos; lra. }
  destruct (fmul_b _ _ x y D2 D1 Fx Fy (Rabs_le_inv _ _ A)) as (F & E & _). split; [exact F|]. rewrite E.
  pose proof (rnd_err1 k _ ltac:(lia) A) as R.
  replace (rnd32 (B2R x * B2R y) - r1 * r2) with ((rnd32 (B2R x * B2R y) - (B2R x * B2R y)) + (B2R x * B2R y - r1 * r2)) by ring.
  eapply Rle_trans; [apply Rabs_triang|]. lra.
Qed.
