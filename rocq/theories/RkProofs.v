(** Runge-Kutta ladder: its clipper never exceeds two, and what that does to the states. *)
From Coq Require Import ZArith Reals Lra Lia Bool Psatz List.
From Flocq Require Import Core BinarySingleNaN.
From Verif Require Import Flt FltFacts FltMore FltKey FltArith Libm UtilModel UtilProofs Dbl LpProofs MgModel MgSpec MgBase RdProofs2 ImProofs RkModel LaSpec.
Import ListNotations.
Local Open Scope R_scope.

(** ** The clipper *)
Lemma third_R : B2R rk_third = 6004799503160661 * bpow radix2 (-54). Proof. fval rk_third. bp. lra. Qed.
Lemma half_err (r : R) : Rabs r < / 2 -> Rabs (rnd64 r - r) <= bpow radix2 (-55).
Proof.
  intros H. destruct (Req_dec r 0) as [->|N]. { rewrite (rnd_fmt (prec:=53) (emax:=1024) 0 ltac:(apply generic_format_0)), Rminus_0_r, Rabs_R0. apply bpow_ge_0. }
  assert (VE : Valid_exp (SpecFloat.fexp 53 1024)) by (apply fexp_correct; reflexivity).
  pose proof (error_le_half_ulp radix2 (SpecFloat.fexp 53 1024) (fun x => negb (Z.even x)) r) as E. unfold rnd. eapply Rle_trans; [exact E|].
  rewrite ulp_neq_0 by exact N. replace (bpow radix2 (-55)) with (/ 2 * bpow radix2 (-54)) by (bp; lra). apply Rmult_le_compat_l; [lra|]. apply bpow_le. unfold cexp.
  assert (M : (mag radix2 r <= -1)%Z) by (apply mag_le_bpow; [exact N|change (bpow radix2 (-1)) with (/ 2); exact H]). unfold SpecFloat.fexp. change (SpecFloat.emin 53 1024) with (-1074)%Z. lia.
Qed.
Definition clipW : R := 6004799503160662 * bpow radix2 (-53).
Lemma clipW_dy : dy64 clipW. Proof. unfold clipW. apply dyn; lia. Qed.
Lemma clip_mid r : Rabs r <= 2 / 3 + bpow radix2 (-53) -> Rabs (rnd64 r) <= clipW.
Proof.
  intros H. rewrite (rnd_abs (prec:=53) (emax:=1024)). set (a := Rabs r) in *. assert (A : 0 <= a) by apply Rabs_pos. clearbody a. unfold rnd.
  assert (VE : Valid_exp (SpecFloat.fexp 53 1024)) by (apply fexp_correct; reflexivity).
  apply round_N_le_midp; [exact VE|apply clipW_dy|].
  assert (P : 0 < clipW) by (unfold clipW; bp; lra). rewrite succ_eq_pos by lra.
  assert (U : ulp radix2 (SpecFloat.fexp 53 1024) clipW = bpow radix2 (-53)).
  { rewrite ulp_neq_0 by lra. f_equal. unfold cexp. assert (M : (mag radix2 clipW : Z) = 0%Z) by (apply (mag_unique_pos radix2 clipW 0); change (bpow radix2 (0 - 1)) with (/ 2); change (bpow radix2 0) with 1; unfold clipW; bp; lra). rewrite M. reflexivity. }
  rewrite U. unfold clipW. revert H. bp. lra.
Qed.
Lemma clip_two (v : f64) : fin v -> Rabs (B2R v) <= 1 ->
  fin (fmul (dz 3) (fsub v (fmul (fmul (fmul rk_third v) v) v))) /\ Rabs (B2R (fmul (dz 3) (fsub v (fmul (fmul (fmul rk_third v) v) v)))) <= 2.
Proof.
  intros Fv Bv. apply Rabs_le_inv in Bv. assert (F3 : fin rk_third) by ffin. pose proof third_R as T. pose proof (dy_B2R rk_third) as DT. set (th := rk_third) in *. clearbody th.
  set (t := B2R th) in *. assert (Bt : / 4 < t < / 2) by (rewrite T; bp; lra).
  assert (MB : forall (a : f64) , fin a -> - t <= B2R a <= t -> fin (fmul a v) /\ - t <= B2R (fmul a v) <= t /\ Rabs (B2R (fmul a v) - B2R a * B2R v) <= bpow radix2 (-55)).
  { intros a Fa Ba. assert (X : - t <= B2R a * B2R v <= t) by (split; nra). destruct (fmul_b (- t) t a v (dy_opp _ DT) DT Fa Fv X) as (F & E & B). split; [exact F|]. split; [exact B|]. rewrite E. apply half_err. apply Rabs_def1; lra. }
  destruct (MB th F3 ltac:(fold t; lra)) as (F1 & B1 & E1). set (p1 := fmul th v) in *. clearbody p1. fold t in E1. destruct (MB p1 F1 B1) as (F2 & B2 & E2). set (p2 := fmul p1 v) in *. clearbody p2.
  destruct (MB p2 F2 B2) as (F4 & B4 & E4). set (p3 := fmul p2 v) in *. clearbody p3. clear MB.
  set (x := B2R v) in *. set (e := bpow radix2 (-55)) in *. assert (Pe : 0 < e) by apply bpow_gt_0. apply Rabs_le_inv in E1, E2, E4.
  assert (E : Rabs (B2R p3 - t * x ^ 3) <= 3 * e).
  { assert (S1 : Rabs ((B2R p1 - t * x) * x * x) <= e). { rewrite !Rabs_mult. assert (Rabs (B2R p1 - t * x) <= e) by (apply Rabs_le; lra). assert (Rabs x <= 1) by (apply Rabs_le; lra). pose proof (Rabs_pos x). pose proof (Rabs_pos (B2R p1 - t * x)). assert (Rabs x * Rabs x <= 1) by nra. rewrite Rmult_assoc. assert (0 <= Rabs x * Rabs x) by nra. nra. }
    assert (S2 : Rabs ((B2R p2 - B2R p1 * x) * x) <= e). { rewrite !Rabs_mult. assert (Rabs (B2R p2 - B2R p1 * x) <= e) by (apply Rabs_le; lra). assert (Rabs x <= 1) by (apply Rabs_le; lra). pose proof (Rabs_pos x). pose proof (Rabs_pos (B2R p2 - B2R p1 * x)). nra. }
    replace (B2R p3 - t * x ^ 3) with ((B2R p3 - B2R p2 * x) + (B2R p2 - B2R p1 * x) * x + (B2R p1 - t * x) * x * x) by ring. apply Rabs_le_inv in S1, S2. apply Rabs_le. lra. }
  apply Rabs_le_inv in E.
  assert (X3 : - (2 / 3) <= x - x ^ 3 / 3 <= 2 / 3). { split; [assert (0 <= (x + 1) ^ 2 * (2 - x)) by (apply Rmult_le_pos; [apply pow2_ge_0|lra])|assert (0 <= (1 - x) ^ 2 * (2 + x)) by (apply Rmult_le_pos; [apply pow2_ge_0|lra])]; nra. }
  assert (C3 : -1 <= x ^ 3 <= 1). { assert (S : 0 <= x * x <= 1) by nra. replace (x ^ 3) with (x * (x * x)) by ring. nra. }
  assert (W : Rabs (x - B2R p3) <= 2 / 3 + bpow radix2 (-53)).
  { assert (T3 : t = / 3 - bpow radix2 (-54) / 3) by (rewrite T; bp; lra). unfold e in *. revert E. rewrite T3. bp. intros E. apply Rabs_le. lra. }
  pose proof (clip_mid _ W) as CM.
  assert (d1 : dy64 1) by dynum 1%Z 0%Z. assert (CW : clipW <= 1) by (unfold clipW; bp; lra).
  assert (d2 : dy64 2) by dynum 2%Z 0%Z. destruct (fsub_b (- 2) 2 v p3 (dy_opp _ d2) d2 Fv F4) as (F5 & E5 & _); [fold x; lra|]. fold x in E5. rewrite <- E5 in CM.
  set (w := fsub v p3) in *. clearbody w. assert (H3 : B2R (dz 3) = 3) by (fval (dz 3); lra).
  assert (X : Rabs (B2R (dz 3) * B2R w) <= bpow radix2 1 + bpow radix2 (1 - 53)). { rewrite H3, Rabs_mult, (Rabs_pos_eq 3) by lra. apply Rle_trans with (3 * clipW); [lra|]. change (bpow radix2 (1 - 53)) with (bpow radix2 (-52)). unfold clipW. bp. lra. }
  pose proof (rnd_tie_pow_abs (prec:=53) (emax:=1024) 1 _ ltac:(lia) ltac:(cbn; lia) X) as Y. change (bpow radix2 1) with 2 in Y.
  destruct (fmul_ok (dz 3) w ltac:(ffin) F5) as [F6 E6]. { eapply Rle_lt_trans; [exact Y|]. change 2 with (bpow radix2 1). apply bpow_lt. lia. } split; [exact F6|]. rewrite E6. exact Y.
Qed.
Lemma clip_R (x : f64) : fin x -> fin (rk_clip x) /\ Rabs (B2R (rk_clip x)) <= 2 /\ (49 / 16 <= B2R x -> B2R (rk_clip x) = 2) /\ (B2R x <= - (49 / 16) -> B2R (rk_clip x) = -2).
Proof.
  intros Fx. unfold rk_clip. cbv zeta. assert (F3 : fin rk_third) by ffin. pose proof third_R as T. assert (Bt : 33333333 / 100000000 < B2R rk_third < 1) by (rewrite T; bp; lra).
  assert (M : fin (fmul x rk_third) /\ (49 / 16 <= B2R x -> 1 < B2R (fmul x rk_third)) /\ (B2R x <= - (49 / 16) -> B2R (fmul x rk_third) < -1)).
  { set (th := rk_third) in *. clearbody th. pose proof (dy_B2R x) as D. pose proof (Rabs_pos (B2R x)) as P.
    assert (G : forall l h, dy64 l -> dy64 h -> l <= B2R x * B2R th <= h -> fin (fmul x th) /\ l <= B2R (fmul x th) <= h) by (intros l h Dl Dh B; destruct (fmul_b l h x th Dl Dh Fx F3 B) as (F & _ & R); auto).
    assert (d : dy64 (1025 / 1024)) by dynum 1025%Z (-10)%Z. assert (dx : dy64 (B2R x)) by apply dy_B2R. assert (d0 : dy64 0) by (apply dy_0; lia).
    split; [|split].
    - destruct (Rle_lt_dec 0 (B2R x)) as [K|K]; [apply (G 0 (B2R x)); try assumption; nra|apply (G (B2R x) 0); try assumption; nra].
    - intros K. destruct (G (1025 / 1024) (B2R x) d dx ltac:(nra)). lra.
    - intros K. destruct (G (B2R x) (- (1025 / 1024)) dx (dy_opp _ d) ltac:(nra)). lra. }
  destruct M as (Fv & Hi & Lo). set (v := fmul x rk_third) in *. clearbody v. assert (O : B2R (dz 1) = 1) by (fval (dz 1); lra). assert (FO : fin (dz 1)) by ffin. pose proof (fneg_fin _ FO) as FN. pose proof (fneg_R (dz 1)) as EN. rewrite O in EN.
  destruct (flt (dz 1) v) eqn:A.
  - set (k := fmul (dz 3) (fsub (dz 1) (fmul (fmul (fmul rk_third (dz 1)) (dz 1)) (dz 1)))). assert (Fk : fin k) by (unfold k; ffin). assert (Vk : B2R k = 2) by (unfold k; match goal with |- B2R ?c = _ => fval c end; lra).
    split; [exact Fk|]. rewrite Vk. split; [rewrite Rabs_pos_eq; lra|]. split; [reflexivity|]. intros K. exfalso. apply (proj1 (flt_R _ _ FO Fv)) in A. specialize (Lo K). lra.
  - destruct (flt v (fneg (dz 1))) eqn:B.
    + set (k := fmul (dz 3) (fsub (fneg (dz 1)) (fmul (fmul (fmul rk_third (fneg (dz 1))) (fneg (dz 1))) (fneg (dz 1))))). assert (Fk : fin k) by (unfold k; ffin). assert (Vk : B2R k = -2) by (unfold k; match goal with |- B2R ?c = _ => fval c end; lra).
      split; [exact Fk|]. rewrite Vk. split; [rewrite Rabs_left; lra|]. split; [|reflexivity]. intros K. exfalso. apply (proj1 (flt_R _ _ Fv FN)) in B. specialize (Hi K). lra.
    + apply (proj1 (flt_R_false _ _ FO Fv)) in A. apply (proj1 (flt_R_false _ _ Fv FN)) in B. destruct (clip_two v Fv ltac:(apply Rabs_le; lra)) as [F R]. split; [exact F|]. split; [exact R|].
      split; intros K; exfalso; [specialize (Hi K)|specialize (Lo K)]; lra.
Qed.
