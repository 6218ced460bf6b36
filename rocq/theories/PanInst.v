(** The hypotheses of the panning theorems hold of a correctly rounded library. *)
From Coq Require Import ZArith Reals Lra Lia Bool.
From Flocq Require Import Core BinarySingleNaN.
From Verif Require Import Flt FltFacts FltMore FltArith FltKey Libm LibmInst UtilModel UtilProofs RealBounds PanModel PanSpec PanProofs PanProofs2.
Local Open Scope R_scope.

Lemma fofR_approx r : Rabs r <= 2 -> approx (fofR r) r.
Proof.
  intros H. apply Rabs_le_inv in H.
  destruct (fofR_b (prec:=24) (emax:=128) (-2) 2 r (dyZ (-2) ltac:(lia)) (dyZ 2 ltac:(lia)) H) as (F & E & _).
  split; [exact F|]. rewrite E. eapply Rle_trans; [apply rrel|].
  apply Rplus_le_compat; [apply Rmult_le_compat_r; [apply Rabs_pos|]|]; apply bpow_le; lia.
Qed.
Lemma zero_approx s : approx (B754_zero s) 0.
Proof. split; [reflexivity|]. cbn. rewrite Rminus_0_r, Rabs_R0. pose proof tiny. lra. Qed.
Lemma odd_approx f (x : f32) : fin x -> Rabs (f (B2R x)) <= 2 -> f 0 = 0 -> approx (lift_odd f x) (f (B2R x)).
Proof.
  intros F B Z. destruct x as [s|s| |s m e H]; try discriminate F; cbn [lift_odd].
  - cbn [B2R]. rewrite Z. apply zero_approx.
  - unfold lift. cbn [is_finite]. now apply fofR_approx.
Qed.
Lemma exact_trig_acc : trig_acc exact_libm.
Proof.
  intros a F B. cbn [exact_libm m_sin m_cos]. split.
  - apply odd_approx; [exact F| |apply sin_0]. pose proof (sin1 (B2R a)). lra.
  - unfold lift. rewrite F. apply fofR_approx. pose proof (cos1 (B2R a)). lra.
Qed.
Lemma exact_atan_acc : atan_acc exact_libm.
Proof.
  intros x F. cbn [exact_libm m_atan]. replace (cr_atan x) with (lift_odd atan x) by (destruct x; try discriminate F; reflexivity).
  apply odd_approx; [exact F| |apply atan_0]. pose proof (atan_bound (B2R x)). pose proof PI_bounds. apply Rabs_le. lra.
Qed.
Lemma fofR_one : fofR (prec:=24) (emax:=128) 1 = one.
Proof.
  destruct (fofR_b (prec:=24) (emax:=128) 1 1 1 dy1 dy1 ltac:(lra)) as (F & E & B).
  assert (E1 : B2R (fofR (prec:=24) (emax:=128) 1) = 1) by lra.
  apply B2R_inj; [|reflexivity|rewrite one_R; exact E1].
  destruct (fofR 1) as [q|q| |q m e H]; try discriminate F; [cbn in E1; lra|reflexivity].
Qed.
Lemma exact_trig_zero : trig_zero exact_libm.
Proof.
  intros s. cbn [exact_libm m_sin m_cos m_atan lift_odd cr_atan]. split; [reflexivity|]. split; [|reflexivity].
  unfold lift. cbn [is_finite B2R]. rewrite cos_0. apply fofR_one.
Qed.

(** [fofR] is monotone, overflow included. *)
Lemma fofR_key r : is_nan (fofR (prec:=24) (emax:=128) r) = false /\ key (fofR (prec:=24) (emax:=128) r) = sat (emax:=128) (rnd32 r).
Proof.
  destruct (Rlt_dec (Rabs (rnd32 r)) (bpow radix2 128)) as [H|H].
  - destruct (fofR_R r H) as [F E]. split; [now apply fin_nan|]. rewrite key_fin, E by exact F. symmetry. now apply sat_in.
  - apply Rnot_lt_le in H. unfold fofR. 
    set (x := rnd32 r) in *.
    assert (Fx : generic_format radix2 (SpecFloat.fexp 24 128) x) by apply fmt_rnd.
    assert (E : F2R (Float radix2 (Ztrunc (scaled_mantissa radix2 (SpecFloat.fexp 24 128) x)) (cexp radix2 (SpecFloat.fexp 24 128) x)) = x) by (symmetry; exact Fx).
    pose proof (binary_normalize_correct 24 128 _ _ mode_NE (Ztrunc (scaled_mantissa radix2 (SpecFloat.fexp 24 128) x)) (cexp radix2 (SpecFloat.fexp 24 128) x) false) as C.
    cbn [round_mode] in C. change 2%Z with (radix_val radix2) in C. rewrite E in C.
    change (round radix2 (SpecFloat.fexp 24 128) ZnearestE x) with (rnd32 x) in C.
    assert (X : rnd32 x = x) by (apply rnd_fmt; exact Fx). rewrite X, Rlt_bool_false in C by exact H.
    rewrite overflow_SF in C. apply of_inf in C. rewrite C. split; [reflexivity|].
    pose proof (Mpos (emax:=128)) as MP.
    destruct (Rlt_bool_spec x 0) as [G|G].
    + rewrite sat_lo by (rewrite Rabs_left in H by exact G; lra). reflexivity.
    + rewrite sat_hi by (rewrite Rabs_pos_eq in H by exact G; exact H). reflexivity.
Qed.
Lemma exact_pow10 : pow10_ok exact_libm.
Proof.
  split; cbn [exact_libm m_pow].
  - intros x y H. destruct (fle_nan _ _ H) as [Nx Ny].
    assert (T : fin (fofZ 10 : f32) /\ B2R (fofZ 10 : f32) = 10) by (apply fofZ_R; lia). destruct T as [Ft Et].
    assert (V : forall z : f32, is_nan z = false -> is_nan (cr_pow (fofZ 10) z) = false /\
      ((fin z /\ key (cr_pow (fofZ 10) z) = sat (emax:=128) (rnd32 (Rpower 10 (B2R z)))) \/
       (z = B754_infinity true /\ cr_pow (fofZ 10) z = fzero) \/ (z = B754_infinity false /\ cr_pow (fofZ 10) z = B754_infinity false))).
    { intros z Nz. destruct z as [s|s| |s m e B]; try discriminate Nz; unfold cr_pow.
      - rewrite Ft, Et. destruct (fofR_key (Rpower 10 (B2R (B754_zero s : f32)))) as [A E]. split; [exact A|]. left. split; [reflexivity|exact E].
      - destruct s; (split; [reflexivity|]); right; [left|right]; split; reflexivity.
      - rewrite Ft, Et. destruct (fofR_key (Rpower 10 (B2R (B754_finite s m e B : f32)))) as [A E]. split; [exact A|]. left. split; [reflexivity|exact E]. }
    destruct (V x Nx) as [Px Cx]. destruct (V y Ny) as [Py Cy]. apply fle_true; [exact Px|exact Py|].
    assert (Pos : forall r, 0 <= sat (emax:=128) (rnd32 (Rpower 10 r))).
    { intros r. replace 0 with (sat (emax:=128) 0) by (apply sat_in; rewrite Rabs_R0; apply Mpos). apply sat_le, rnd_nonneg. left. apply exp_pos. }
    destruct Cx as [[Fx Kx]|[[-> Kx]|[-> Kx]]].
    + destruct Cy as [[Fy Ky]|[[-> Ky]|[-> Ky]]].
      * rewrite Kx, Ky. apply sat_le, rnd_le. apply fle_R in H; [|exact Fx|exact Fy].
        destruct H as [H|H]; [left; apply Rpower_lt; lra|right; rewrite H; reflexivity].
      * exfalso. destruct x as [s|s| |s m e B]; try discriminate Fx; destruct s; discriminate H.
      * rewrite Ky. apply key_bnd.
    + rewrite Kx. change (key fzero) with 0. destruct Cy as [[Fy Ky]|[[-> Ky]|[-> Ky]]]; try rewrite Ky.
      * apply Pos.
      * change (key fzero) with 0. lra.
      * pose proof (Mpos (emax:=128)). cbn [key]. lra.
    + destruct Cy as [[Fy Ky]|[[-> Ky]|[-> Ky]]]; [|discriminate H|apply Rle_refl].
      exfalso. destruct y as [s|s| |s m e B]; try discriminate Fy; destruct s; discriminate H.
  - intros s. unfold cr_pow. assert (T : fin (fofZ 10 : f32) /\ B2R (fofZ 10 : f32) = 10) by (apply fofZ_R; lia). destruct T as [Ft Et].
    rewrite Ft, Et. cbn [B2R]. rewrite Rpower_O by lra. apply fofR_one.
Qed.
Lemma exact_pow10_acc : pow10_acc exact_libm.
Proof.
  intros y F B. cbn [exact_libm m_pow].
  assert (T : fin (fofZ 10 : f32) /\ B2R (fofZ 10 : f32) = 10) by (apply fofZ_R; lia). destruct T as [Ft Et].
  assert (E : cr_pow (fofZ 10) y = fofR (Rpower 10 (B2R y))).
  { destruct y; try discriminate F; unfold cr_pow; rewrite Ft, Et; reflexivity. }
  rewrite E. apply Rabs_le_inv in B.
  assert (R : Rpower 10 (-11) <= Rpower 10 (B2R y) <= Rpower 10 11).
  { split.
    - destruct (Req_dec (-11) (B2R y)) as [<-|N]; [lra|]. left. apply Rpower_lt; lra.
    - destruct (Req_dec 11 (B2R y)) as [<-|N]; [lra|]. left. apply Rpower_lt; lra. }
  assert (H1 : Rpower 10 11 = 100000000000). { replace 11 with (INR 11) by (cbn; lra). rewrite Rpower_pow by lra. lra. }
  assert (H2 : Rpower 10 (-11) = / 100000000000). { replace (-11) with (- (11)) by lra. rewrite Rpower_Ropp, H1. reflexivity. }
  rewrite H1, H2 in R. set (r := Rpower 10 (B2R y)) in *.
  destruct (fofR_b (prec:=24) (emax:=128) 0 (bpow radix2 60) r dy0 (dyb 60 ltac:(lia))) as (Fr & Er & _); [bp; lra|].
  split; [exact Fr|]. rewrite Er. eapply Rle_trans; [apply rrel|]. rewrite (Rabs_pos_eq r) by lra. pose proof t150 as T. revert T. bp. intros T. lra.
Qed.

(** The correctly rounded cosine of the centre angle is the constant cached by default. *)
Lemma rnd_to_half (f : f32) x : fin f -> / 2 < B2R f < 1 -> Rabs (x - B2R f) < bpow radix2 (-25) -> rnd32 x = B2R f.
Proof.
  intros F B H. apply Rabs_def2 in H.
  assert (VE : Valid_exp (SpecFloat.fexp 24 128)) by (apply fexp_correct; reflexivity).
  assert (U : ulp radix2 (SpecFloat.fexp 24 128) (B2R f) = bpow radix2 (-24)).
  { rewrite ulp_neq_0 by lra. unfold cexp. rewrite (mag_unique radix2 (B2R f) 0); [reflexivity|].
    rewrite Rabs_pos_eq by lra. cbn. lra. }
  apply Rle_antisym.
  - apply round_N_le_midp; [exact VE|apply fmt_B2R|]. rewrite succ_eq_pos, U by lra.
    revert H. bp. intros. lra.
  - apply round_N_ge_midp; [exact VE|apply fmt_B2R|]. rewrite pred_eq_pos by lra. unfold pred_pos.
    rewrite (mag_unique radix2 (B2R f) 0), Req_bool_false; [rewrite U; revert H; bp; intros; lra| |].
    + cbn. lra.
    + rewrite Rabs_pos_eq by lra. cbn. lra.
Qed.
Lemma exact_centre : m_cos exact_libm (pan_angle zero) = SQ2.
Proof.
  assert (Fa : fin (pan_angle zero)) by ffin.
  assert (Ea : B2R (pan_angle zero) = 13176795 / 16777216) by (fval (pan_angle zero); lra).
  assert (Fs : fin SQ2) by ffin. assert (Es : B2R SQ2 = 11863283 / 16777216) by (fval SQ2; lra).
  cbn [exact_libm m_cos]. unfold lift. rewrite Fa, Ea.
  set (a := 13176795 / 16777216) in *. assert (Ha : a = 13176795 / 16777216) by reflexivity.
  pose proof PI_bounds as HP. set (d := a - PI / 4). assert (Hd : 0.00000002 <= d <= 0.000000023) by (unfold d; lra).
  assert (E : cos a = cos (PI / 4) * cos d - sin (PI / 4) * sin d).
  { rewrite <- cos_plus. f_equal. unfold d. ring. }
  rewrite cos_PI4, sin_PI4 in E. assert (Q : 1 / sqrt 2 = sqrt (/ 2)) by (rewrite sqrt_inv; unfold Rdiv; lra). rewrite Q in E.
  assert (HS : 0.70710678 <= sqrt (/ 2) <= 0.70710679).
  { split; [rewrite <- (sqrt_square 0.70710678) by lra|rewrite <- (sqrt_square 0.70710679) by lra]; apply sqrt_le_1; lra. }
  set (h := sqrt (/ 2)) in *.
  pose proof (cos_lower d) as C1. pose proof (COS_bound d) as C2.
  pose proof (sin_abs_le d) as S1. rewrite (Rabs_pos_eq d) in S1 by lra. apply Rabs_le_inv in S1.
  pose proof (sin_half_lower d ltac:(lra)) as S2.
  assert (C3 : 1 - 0.000000000001 <= cos d) by nra.
  assert (X : Rabs (cos a - B2R SQ2) < bpow radix2 (-25)).
  { rewrite Es. bp. apply Rabs_def1; rewrite E; nra. }
  assert (R : rnd32 (cos a) = B2R SQ2) by (apply rnd_to_half; [exact Fs|rewrite Es; lra|exact X]).
  destruct (fofR_b (prec:=24) (emax:=128) 0 1 (cos a) dy0 dy1) as (F & Er & _).
  { split; [|apply COS_bound]. rewrite E. nra. }
  apply B2R_inj; [|reflexivity|rewrite Er; exact R].
  destruct (fofR (cos a)) as [q|q| |q m e B]; try discriminate F; [|reflexivity].
  assert (Z : 0 = rnd32 (cos a)) by exact Er. rewrite <- Z, Es in R. lra.
Qed.
