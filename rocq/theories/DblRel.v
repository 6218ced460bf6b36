(** Relative error bookkeeping for positive binary64 quantities: [rp k x r] says the double [x] is finite and within k 2^-52 r of the real r > 0. *)
From Coq Require Import ZArith Reals Lra Lia Bool Psatz.
From Flocq Require Import Core BinarySingleNaN Relative.
From Verif Require Import Flt FltFacts FltMore FltArith UtilModel UtilProofs Dbl.
Local Open Scope R_scope.

Definition rv : R := / 4503599627370496.
Definition rmid (r : R) : Prop := bpow radix2 (-300) <= r <= bpow radix2 300.
Definition rp (k : R) (x : f64) (r : R) : Prop := fin x /\ rmid r /\ 0 <= k <= 1000 /\ Rabs (B2R x - r) <= k * rv * r.

Lemma rel64 x : bpow radix2 (-900) <= Rabs x -> Rabs (rnd64 x - x) <= bpow radix2 (-53) * Rabs x.
Proof.
  intros H. pose proof (relative_error_N_FLT radix2 (-1074) 53 eq_refl (fun z => negb (Z.even z)) x) as T.
  assert (E : / 2 * bpow radix2 (- (53) + 1) = bpow radix2 (-53)) by (change (- (53) + 1)%Z with (1 + -53)%Z; rewrite bpow_plus; change (bpow radix2 1) with 2; lra). rewrite E in T. apply T.
  eapply Rle_trans; [|exact H]. apply bpow_le. lia.
Qed.
Lemma rv_half : bpow radix2 (-53) = rv / 2. Proof. unfold rv. change (bpow radix2 (-53)) with (/ 9007199254740992). lra. Qed.
Lemma rv_pos : 0 < rv < / 4000000000000000. Proof. unfold rv. lra. Qed.
Lemma rmid_pos r : rmid r -> 0 < r. Proof. intros [H _]. pose proof (bpow_gt_0 radix2 (-300)). lra. Qed.
(** Rounding a value within j units of r adds half a unit, and a bit. *)
Lemma rp_rnd j k v r : rmid r -> 0 <= j -> j + 51 / 100 <= k -> k <= 1000 -> Rabs (v - r) <= j * rv * r -> - bpow radix2 1001 <= v <= bpow radix2 1001 /\ Rabs (rnd64 v - r) <= k * rv * r.
Proof.
  intros M Hj Hk Kk E. pose proof (rmid_pos r M) as P. destruct M as [M1 M2]. pose proof rv_pos as U. pose proof E as E'. apply Rabs_le_inv in E.
  assert (J : 0 <= j * rv <= / 4000000000) by nra. assert (V : r / 2 <= v <= 2 * r) by nra.
  assert (L : 2 * bpow radix2 300 <= bpow radix2 1001). { change 2 with (bpow radix2 1). rewrite <- bpow_plus. apply bpow_le. lia. }
  split; [lra|]. pose proof (rel64 v) as T. rewrite (Rabs_pos_eq v) in T by lra. assert (S : bpow radix2 (-900) <= v).
  { apply Rle_trans with (bpow radix2 (-301)); [apply bpow_le; lia|]. replace (bpow radix2 (-301)) with (bpow radix2 (-300) / 2) by (change (-300)%Z with (1 + -301)%Z; rewrite bpow_plus; change (bpow radix2 1) with 2; field). lra. }
  specialize (T S). rewrite rv_half in T. replace (rnd64 v - r) with ((rnd64 v - v) + (v - r)) by ring. eapply Rle_trans; [apply Rabs_triang|].
  assert (rv / 2 * v <= rv / 2 * r * (1 + / 1000)) by nra. assert (rv * r * (k - j - 51 / 100) >= 0) by (apply Rle_ge; apply Rmult_le_pos; [apply Rmult_le_pos; lra|lra]). assert (0 <= rv * r) by nra. nra.
Qed.
Lemma rp_self x : fin x -> rmid (B2R x) -> rp 0 x (B2R x).
Proof. intros F M. split; [exact F|]. split; [exact M|]. split; [lra|]. rewrite Rminus_diag_eq, Rabs_R0 by reflexivity. lra. Qed.
Lemma rp_weak k k' x r : rp k x r -> k <= k' <= 1000 -> rp k' x r.
Proof. intros (F & M & K & E) H. split; [exact F|]. split; [exact M|]. split; [lra|]. eapply Rle_trans; [exact E|]. apply Rmult_le_compat_r; [left; now apply rmid_pos|]. apply Rmult_le_compat_r; [pose proof rv_pos; lra|lra]. Qed.
Lemma rp_eq k x r r' : rp k x r -> r = r' -> rp k x r'. Proof. now intros H <-. Qed.
Lemma rp_fin k x r : rp k x r -> fin x. Proof. now intros [F _]. Qed.
Lemma rp_R k x r : rp k x r -> r * (1 - k * rv) <= B2R x <= r * (1 + k * rv).
Proof. intros (_ & _ & _ & E). apply Rabs_le_inv in E. lra. Qed.
Lemma rp_mul k1 k2 k x y r1 r2 : rp k1 x r1 -> rp k2 y r2 -> rmid (r1 * r2) -> k1 + k2 + 1 <= k <= 1000 -> rp k (fmul x y) (r1 * r2).
Proof.
  intros (Fx & M1 & K1 & E1) (Fy & M2 & K2 & E2) M K. pose proof (rmid_pos _ M1) as P1. pose proof (rmid_pos _ M2) as P2. pose proof rv_pos as U. destruct dy_big as [D1 D2].
  assert (T : Rabs (B2R x * B2R y - r1 * r2) <= (k1 + k2 + 4 / 10) * rv * (r1 * r2)).
  { pose proof (mul_dev _ _ _ _ _ _ r1 r2 E1 E2 ltac:(rewrite Rabs_pos_eq; lra) ltac:(rewrite Rabs_pos_eq; lra)) as T. eapply Rle_trans; [exact T|].
    assert (Q : k1 * rv * (k2 * rv) <= 4 / 10 * rv). { assert (k1 * k2 <= 1000000) by nra. assert (rv * rv <= rv * / 4000000000000000) by nra. assert (0 <= rv * rv) by nra. replace (k1 * rv * (k2 * rv)) with (k1 * k2 * (rv * rv)) by ring. nra. }
    assert (0 < r1 * r2) by nra. replace (k1 * rv * r1 * r2 + r1 * (k2 * rv * r2) + k1 * rv * r1 * (k2 * rv * r2)) with ((k1 * rv + k2 * rv + k1 * rv * (k2 * rv)) * (r1 * r2)) by ring. apply Rmult_le_compat_r; lra. }
  destruct (rp_rnd (k1 + k2 + 4 / 10) k (B2R x * B2R y) (r1 * r2) M ltac:(lra) ltac:(lra) ltac:(lra) T) as [R1 R2]. destruct (fmul_b _ _ x y D2 D1 Fx Fy R1) as (F & E & _). split; [exact F|]. split; [exact M|]. split; [lra|]. rewrite E. exact R2.
Qed.
Lemma rp_add k1 k2 k x y r1 r2 : rp k1 x r1 -> rp k2 y r2 -> rmid (r1 + r2) -> k1 + 1 <= k -> k2 + 1 <= k -> k <= 1000 -> rp k (fadd x y) (r1 + r2).
Proof.
  intros (Fx & M1 & K1 & E1) (Fy & M2 & K2 & E2) M L1 L2 K. pose proof (rmid_pos _ M1) as P1. pose proof (rmid_pos _ M2) as P2. pose proof rv_pos as U. destruct dy_big as [D1 D2].
  assert (T : Rabs (B2R x + B2R y - (r1 + r2)) <= (k - 1) * rv * (r1 + r2)).
  { replace (B2R x + B2R y - (r1 + r2)) with ((B2R x - r1) + (B2R y - r2)) by ring. eapply Rle_trans; [apply Rabs_triang|].
    assert (k1 * rv * r1 <= (k - 1) * rv * r1) by (apply Rmult_le_compat_r; [lra|apply Rmult_le_compat_r; lra]). assert (k2 * rv * r2 <= (k - 1) * rv * r2) by (apply Rmult_le_compat_r; [lra|apply Rmult_le_compat_r; lra]). lra. }
  destruct (rp_rnd (k - 1) k (B2R x + B2R y) (r1 + r2) M ltac:(lra) ltac:(lra) ltac:(lra) T) as [R1 R2]. destruct (fadd_b _ _ x y D2 D1 Fx Fy R1) as (F & E & _). split; [exact F|]. split; [exact M|]. split; [lra|]. rewrite E. exact R2.
Qed.
Lemma rp_div k1 k2 k x y r1 r2 : rp k1 x r1 -> rp k2 y r2 -> rmid (r1 / r2) -> k1 + k2 + 1 <= k <= 1000 -> rp k (fdiv x y) (r1 / r2).
Proof.
  intros (Fx & M1 & K1 & E1) (Fy & M2 & K2 & E2) M K. pose proof (rmid_pos _ M1) as P1. pose proof (rmid_pos _ M2) as P2. pose proof rv_pos as U. destruct dy_big as [D1 D2].
  assert (J : 0 <= k2 * rv <= / 1000000000) by nra. assert (Y : r2 * (1 - k2 * rv) <= B2R y) by (apply Rabs_le_inv in E2; lra). assert (Y0 : 0 < B2R y) by nra.
  assert (T : Rabs (B2R x / B2R y - r1 / r2) <= (k1 + k2 + 4 / 10) * rv * (r1 / r2)).
  { replace (B2R x / B2R y - r1 / r2) with (((B2R x - r1) * r2 - r1 * (B2R y - r2)) / (B2R y * r2)) by (field; lra).
    unfold Rdiv at 1. rewrite Rabs_mult, Rabs_inv, (Rabs_pos_eq (B2R y * r2)) by nra.
    assert (N : Rabs ((B2R x - r1) * r2 - r1 * (B2R y - r2)) <= (k1 + k2) * rv * (r1 * r2)).
    { unfold Rminus at 1. eapply Rle_trans; [apply Rabs_triang|]. rewrite Rabs_Ropp, 2!Rabs_mult, (Rabs_pos_eq r2), (Rabs_pos_eq r1) by lra.
      assert (Rabs (B2R x - r1) * r2 <= k1 * rv * r1 * r2) by (apply Rmult_le_compat_r; lra). assert (r1 * Rabs (B2R y - r2) <= r1 * (k2 * rv * r2)) by (apply Rmult_le_compat_l; lra). lra. }
    apply Rmult_le_reg_r with (B2R y * r2); [nra|]. rewrite Rmult_assoc, Rinv_l, Rmult_1_r by nra. eapply Rle_trans; [exact N|].
    replace ((k1 + k2 + 4 / 10) * rv * (r1 / r2) * (B2R y * r2)) with ((k1 + k2 + 4 / 10) * rv * (r1 * B2R y)) by (field; lra).
    assert (G : r1 * (r2 * (1 - k2 * rv)) <= r1 * B2R y) by (apply Rmult_le_compat_l; lra). apply Rle_trans with ((k1 + k2 + 4 / 10) * rv * (r1 * (r2 * (1 - k2 * rv)))); [|apply Rmult_le_compat_l; [nra|exact G]].
    assert (H : (k1 + k2) <= (k1 + k2 + 4 / 10) * (1 - k2 * rv)) by nra.
    replace ((k1 + k2 + 4 / 10) * rv * (r1 * (r2 * (1 - k2 * rv)))) with ((k1 + k2 + 4 / 10) * (1 - k2 * rv) * (rv * (r1 * r2))) by ring. replace ((k1 + k2) * rv * (r1 * r2)) with ((k1 + k2) * (rv * (r1 * r2))) by ring.
    apply Rmult_le_compat_r; [|exact H]. apply Rmult_le_pos; [lra|nra]. }
  destruct (rp_rnd (k1 + k2 + 4 / 10) k (B2R x / B2R y) (r1 / r2) M ltac:(lra) ltac:(lra) ltac:(lra) T) as [R1 R2]. destruct (fdiv_b _ _ x y D2 D1 Fx Fy ltac:(lra) R1) as (F & E & _). split; [exact F|]. split; [exact M|]. split; [lra|]. rewrite E. exact R2.
Qed.
(** Anything from 10^-30 to 10^30 is in range. *)
Lemma rmid_in r : / 1000000000000000000000000000000 <= r <= 1000000000000000000000000000000 -> rmid r.
Proof.
  intros H. split.
  - apply Rle_trans with (bpow radix2 (-100)); [apply bpow_le; lia|]. change (bpow radix2 (-100)) with (/ 1267650600228229401496703205376). lra.
  - apply Rle_trans with (bpow radix2 100); [|apply bpow_le; lia]. change (bpow radix2 100) with 1267650600228229401496703205376. lra.
Qed.
