(** Numerical bounds on PI and elementary inequalities for sin and cos. *)
From Coq Require Import Reals Lra Lia Machin.
Local Open Scope R_scope.

Lemma PI_bounds : 3.141592653 < PI < 3.141592654.
Proof.
  destruct (PI_2_3_7_ineq 5) as [L U].
  revert L U. unfold tg_alt, PI_2_3_7_tg, Ratan_seq. cbn [sum_f_R0 pow Nat.add Nat.mul INR].
  intros L U. split.
  - lra.
  - lra.
Qed.

Lemma sin_lip a b : Rabs (sin a - sin b) <= Rabs (a - b).
Proof.
  destruct (Rtotal_order a b) as [H|[->|H]].
  - destruct (MVT_cor2 sin cos a b H) as (c & E & _); [intros; apply derivable_pt_lim_sin|].
    rewrite (Rabs_minus_sym (sin a)), (Rabs_minus_sym a), E, Rabs_mult.
    pose proof (COS_bound c). assert (Rabs (cos c) <= 1) by (apply Rabs_le; lra). pose proof (Rabs_pos (b - a)). nra.
  - rewrite !Rminus_diag_eq by reflexivity. lra.
  - destruct (MVT_cor2 sin cos b a H) as (c & E & _); [intros; apply derivable_pt_lim_sin|].
    rewrite E, Rabs_mult.
    pose proof (COS_bound c). assert (Rabs (cos c) <= 1) by (apply Rabs_le; lra). pose proof (Rabs_pos (a - b)). nra.
Qed.
Lemma cos_lip a b : Rabs (cos a - cos b) <= Rabs (a - b).
Proof.
  rewrite !cos_sin. eapply Rle_trans; [apply sin_lip|]. right. f_equal. ring.
Qed.
Lemma atan_lip a b : Rabs (atan a - atan b) <= Rabs (a - b).
Proof.
  assert (X : forall a b, a < b -> Rabs (atan a - atan b) <= Rabs (a - b)).
  { clear. intros a b H.
    destruct (MVT_cor2 atan (fun x => / (1 + x ^ 2)) a b H) as (c & E & _).
    { intros c _. apply derivable_pt_lim_atan. }
    rewrite (Rabs_minus_sym (atan a)), (Rabs_minus_sym a), E, Rabs_mult.
    assert (0 < / (1 + c ^ 2) <= 1).
    { pose proof (pow2_ge_0 c). split; [apply Rinv_0_lt_compat; lra|]. rewrite <- Rinv_1. apply Rinv_le_contravar; lra. }
    rewrite (Rabs_pos_eq (/ _)) by lra. pose proof (Rabs_pos (b - a)). nra. }
  destruct (Rtotal_order a b) as [H|[->|H]]; [now apply X| |].
  - rewrite !Rminus_diag_eq by reflexivity. lra.
  - rewrite Rabs_minus_sym, (Rabs_minus_sym a). now apply X.
Qed.
Lemma cos_lower t : 1 - t * t / 2 <= cos t.
Proof.
  assert (E : cos t = 1 - 2 * sin (t / 2) * sin (t / 2)) by (rewrite <- cos_2a_sin; f_equal; field). rewrite E.
  assert (Rabs (sin (t / 2)) <= Rabs (t / 2)).
  { pose proof (sin_lip (t / 2) 0) as H. rewrite sin_0, !Rminus_0_r in H. exact H. }
  assert (sin (t / 2) * sin (t / 2) <= t / 2 * (t / 2)).
  { rewrite <- (Rabs_pos_eq (sin (t / 2) * sin (t / 2))) by nra. rewrite <- (Rabs_pos_eq (t / 2 * (t / 2))) by nra.
    rewrite !Rabs_mult. apply Rmult_le_compat; auto using Rabs_pos. }
  nra.
Qed.
Lemma sin_abs_le t : Rabs (sin t) <= Rabs t.
Proof. pose proof (sin_lip t 0) as H. rewrite sin_0, !Rminus_0_r in H. exact H. Qed.
Lemma sin_half_lower t : 0 <= t <= 1 -> t / 2 <= sin t.
Proof.
  intros H. destruct (Req_dec t 0) as [->|N]; [rewrite sin_0; lra|].
  destruct (MVT_cor2 sin cos 0 t) as (c & E & Hc); [lra|intros; apply derivable_pt_lim_sin|].
  rewrite sin_0, !Rminus_0_r in E. rewrite E. pose proof (cos_lower c). nra.
Qed.
Lemma atan_le_self y : 0 <= y -> atan y <= y.
Proof. intros H. pose proof (atan_lip y 0) as K. rewrite atan_0, !Rminus_0_r in K. rewrite (Rabs_pos_eq y) in K by exact H. pose proof (Rle_abs (atan y)). lra. Qed.
Lemma atan_big x : 0 < x -> PI / 2 - / x <= atan x < PI / 2.
Proof.
  intros H. pose proof (atan_inv x H) as E. pose proof (Rinv_0_lt_compat _ H) as P. pose proof (atan_le_self (/ x) ltac:(lra)).
  pose proof (atan_bound x). lra.
Qed.
