(** The hypotheses on exp and log hold for a correctly rounded library; a line that does not move. *)
From Coq Require Import ZArith Reals Bool List Lra Lia Psatz.
From Flocq Require Import Core BinarySingleNaN.
From Verif Require Import Flt FltFacts FltMore FltKey FltArith Libm LibmInst UtilModel UtilProofs PanSpec PanProofs PanInst OscSpec OscProofs2 FltClose ExpBounds SmoothProofs3 LineModel LineSpec LineProofs LineProofs2.
Local Open Scope R_scope.

Lemma exp_10 : exp 10 <= bpow radix2 15.
Proof.
  assert (A : exp (/ 16) <= 16 / 15).
  { replace (/ 16) with (- - / 16) by lra. rewrite exp_Ropp. replace (16 / 15) with (/ (15 / 16)) by lra.
    apply Rinv_le_contravar; [lra|]. pose proof (exp_ineq1_le (- / 16)). lra. }
  assert (P : forall x, 0 < exp x) by apply exp_pos.
  assert (B : exp (/ 8) <= 1.13778) by (replace (/ 8) with (/ 16 + / 16) by lra; rewrite exp_plus; pose proof (P (/ 16)); nra).
  assert (C : exp (/ 4) <= 1.29455) by (replace (/ 4) with (/ 8 + / 8) by lra; rewrite exp_plus; pose proof (P (/ 8)); nra).
  assert (D : exp (/ 2) <= 1.67586) by (replace (/ 2) with (/ 4 + / 4) by lra; rewrite exp_plus; pose proof (P (/ 4)); nra).
  assert (E : exp 1 <= 2.80851) by (replace 1 with (/ 2 + / 2) by lra; rewrite exp_plus; pose proof (P (/ 2)); nra).
  assert (F : exp 2 <= 7.88774) by (replace 2 with (1 + 1) by lra; rewrite exp_plus; pose proof (P 1); nra).
  assert (G : exp 4 <= 62.2165) by (replace 4 with (2 + 2) by lra; rewrite exp_plus; pose proof (P 2); nra).
  assert (H : exp 5 <= 174.736) by (replace 5 with (4 + 1) by lra; rewrite exp_plus; pose proof (P 4); pose proof (P 1); nra).
  replace 10 with (5 + 5) by lra. rewrite exp_plus. pose proof (P 5). bp. nra.
Qed.
Lemma exp_80 x : Rabs x <= 80 -> bpow radix2 (-120) <= exp x <= bpow radix2 120.
Proof.
  intros H. apply Rabs_le_inv in H.
  assert (E : exp 80 <= bpow radix2 120).
  { replace 80 with (10 + 10 + (10 + 10) + (10 + 10 + (10 + 10))) by lra. rewrite !exp_plus.
    pose proof exp_10 as T. pose proof (exp_pos 10) as P. change 120%Z with (15 + 15 + (15 + 15) + (15 + 15 + (15 + 15)))%Z. rewrite !bpow_plus.
    repeat (apply Rmult_le_compat; [repeat apply Rmult_le_pos; lra|repeat apply Rmult_le_pos; lra| |]); exact T. }
  split.
  - apply Rle_trans with (exp (- (80))); [|apply exp_le_mono; lra]. rewrite exp_Ropp. change (-120)%Z with (- (120))%Z. rewrite bpow_opp.
    apply Rinv_le_contravar; [apply exp_pos|exact E].
  - eapply Rle_trans; [|exact E]. apply exp_le_mono. lra.
Qed.
Lemma exact_exp_rel : exp_rel exact_libm.
Proof.
  intros x F H. cbn [exact_libm m_exp]. replace (cr_exp x) with (lift exp x) by (destruct x; try discriminate F; reflexivity).
  unfold lift. rewrite F. pose proof (exp_80 _ H) as B.
  destruct (fofR_b (prec:=24) (emax:=128) (bpow radix2 (-120)) (bpow radix2 120) (exp (B2R x))) as (A & E & _); auto; try (apply dy_bpow; cbn; lia).
  split; [exact A|]. rewrite E. eapply Rle_trans; [apply rrel32|]. rewrite Rabs_pos_eq by (left; apply exp_pos).
  assert (T : bpow radix2 (-150) <= bpow radix2 (-24) * exp (B2R x)).
  { apply Rle_trans with (bpow radix2 (-24) * bpow radix2 (-120)); [rewrite <- bpow_plus; apply bpow_le; lia|]. apply Rmult_le_compat_l; [apply bpow_ge_0|apply B]. }
  revert T. generalize (bpow radix2 (-150)). bp. intros. lra.
Qed.
Lemma ln_float (x : f32) : 0 < B2R x -> Rabs (ln (B2R x)) <= 128.
Proof.
  intros P. assert (L2 : ln 2 <= 0.8).
  { pose proof (exp_sq_lower 0.4 ltac:(lra)). rewrite <- (ln_exp 0.8). apply ln_mono; [lra|]. replace 0.8 with (0.4 + 0.4) by lra. rewrite exp_plus. nra. }
  assert (G : bpow radix2 (-149) <= B2R x < bpow radix2 128).
  { split.
    - destruct (B2R_grid x) as [n E]. change (SpecFloat.emin 24 128) with (-149)%Z in E. rewrite E in P |- *.
      pose proof (bpow_gt_0 radix2 (-149)) as Q. assert (1 <= IZR n).
      { apply IZR_le. apply Z.lt_pred_le. apply lt_IZR. cbn. destruct (Rlt_dec 0 (IZR n)) as [|N]; [assumption|]. exfalso. apply Rnot_lt_le in N. nra. }
      nra.
    - eapply Rle_lt_trans; [apply Rle_abs|apply B2R_lt_emax]. }
  assert (K1 : ln (bpow radix2 128) <= 128) by (rewrite bpow_exp, ln_exp; change (IZR radix2) with 2; lra).
  assert (K2 : ln (bpow radix2 149) <= 128) by (rewrite bpow_exp, ln_exp; change (IZR radix2) with 2; lra).
  apply Rabs_le. split.
  - rewrite <- (Rinv_inv (B2R x)). rewrite ln_Rinv by now apply Rinv_0_lt_compat. apply Ropp_le_contravar. eapply Rle_trans; [|exact K2].
    apply ln_mono; [now apply Rinv_0_lt_compat|]. change 149%Z with (- -149)%Z. rewrite bpow_opp. apply Rinv_le_contravar; [apply bpow_gt_0|apply G].
  - eapply Rle_trans; [|exact K1]. apply ln_mono; [exact P|left; apply G].
Qed.
Lemma exact_log_rel : log_rel exact_libm.
Proof.
  intros x F P. cbn [exact_libm m_log]. unfold lift. rewrite F. pose proof (ln_float x P) as B.
  destruct (fofR_b (prec:=24) (emax:=128) (- (128)) 128 (ln (B2R x))) as (A & E & _).
  - apply dy_opp. apply (dyZ 128). lia.
  - apply (dyZ 128). lia.
  - now apply Rabs_le_inv.
  - split; [exact A|]. rewrite E. eapply Rle_trans; [apply rrel32|]. pose proof (Rabs_pos (ln (B2R x))).
    assert (bpow radix2 (-150) <= bpow radix2 (-149)) by (apply bpow_le; lia). revert H0. generalize (bpow radix2 (-150)) (bpow radix2 (-149)). bp. intros. lra.
Qed.

(** From 1 to 1.01 in 10 s at 48 kHz the factor rounds to one. *)
Lemma frozen_growth : xl_growthof exact_libm one (fdec 101 100) (fofZ 480000) = one.
Proof.
  unfold xl_growthof. replace (flt zero (fofZ 480000) && negb (feq one zero)) with true by (vm_compute; reflexivity).
  assert (Eq : fdiv (fdec 101 100) one = (fdec 101 100 : f32)) by (vm_compute; reflexivity). rewrite Eq.
  assert (Fq : fin (fdec 101 100 : f32)) by ffin. assert (Bq : 1 < B2R (fdec 101 100 : f32) <= 1.0101) by (fval (fdec 101 100 : f32); lra).
  cbn [exact_libm m_exp m_log]. unfold lift at 1. rewrite Fq.
  assert (BL : 0 <= ln (B2R (fdec 101 100 : f32)) <= 0.0101).
  { split; [rewrite <- ln_1; apply ln_mono; lra|]. rewrite <- (ln_exp 0.0101). apply ln_mono; [lra|]. pose proof (exp_ineq1_le 0.0101). lra. }
  destruct (fofR_b (prec:=24) (emax:=128) 0 (bpow radix2 (-6)) (ln (B2R (fdec 101 100 : f32)))) as (Fl & _ & Bl); [apply dy0|apply dy_bpow; cbn; lia|bp; lra|].
  assert (Fn : fin (fofZ 480000 : f32)) by ffin. assert (En : B2R (fofZ 480000 : f32) = 480000) by (fval (fofZ 480000 : f32); lra).
  set (l := fofR (ln (B2R (fdec 101 100 : f32)))) in *.
  clearbody l.
  destruct (fdiv_b 0 (IZR 9 * bpow radix2 (-28)) l (fofZ 480000)) as (Fx & _ & Bx); auto; [apply dy0|apply dyq; cbn; lia|lra|rewrite En; revert Bl; bp; intros; lra|].
  set (x := fdiv l (fofZ 480000)) in *. clearbody x.
  replace (cr_exp x) with (lift exp x) by (destruct x; try discriminate Fx; reflexivity). unfold lift. rewrite Fx.
  assert (Be : 1 <= exp (B2R x) <= 1 + bpow radix2 (-24)).
  { split; [pose proof (exp_ineq1_le (B2R x)); lra|].
    pose proof (exp_neg_upper (B2R x) ltac:(lra)) as U. pose proof (exp_ineq1_le (- B2R x)) as V. revert Bx V. bp. intros.
    replace (B2R x) with (- - B2R x) by ring. rewrite exp_Ropp.
    apply Rmult_le_reg_r with (exp (- B2R x)); [apply exp_pos|]. rewrite Rinv_l by (pose proof (exp_pos (- B2R x)); lra). nra. }
  destruct (fofR_b (prec:=24) (emax:=128) 1 2 (exp (B2R x))) as (Fe & Ee & Ge); [apply dy1|apply (dyZ 2); lia|revert Be; bp; lra|].
  pose proof (rnd_tie_pow (prec:=24) (emax:=128) 0 (exp (B2R x)) ltac:(lia) ltac:(cbn; lia)) as R.
  change (bpow radix2 (0 - 24)) with (bpow radix2 (-24)) in R. change (bpow radix2 0) with 1 in R. specialize (R (proj2 Be)).
  apply B2R_inj; [|vm_compute; reflexivity|].
  - destruct (fofR (exp (B2R x))) as [b|b| |b m e B]; try discriminate Fe; [cbn in Ge; lra|reflexivity].
  - rewrite one_R. rewrite Ee in *. apply Rle_antisym; [exact R|apply Ge].
Qed.
Definition frozen : xline := xl_set exact_libm (xl_init exact_libm (fofZ 48000)) one (fdec 101 100) (fofZ 10) one zero.
Lemma frozen_line i : (Z.of_nat i < 480000)%Z -> nth_sample xl_tick i frozen = one.
Proof.
  intros Hi. assert (G : forall i, (Z.of_nat i < 480000)%Z -> let y := after xl_tick i frozen in
    xl_value y = one /\ xl_done y = false /\ fin (xl_count y) /\ B2R (xl_count y) = IZR (Z.of_nat i)).
  { clear i Hi. induction i as [|i IH]; intros Hi; cbv zeta.
    - repeat split.
    - destruct IH as (V & D & F & E); [lia|]. destruct (xl_const i frozen) as (_ & _ & _ & _ & Cg & Cn & _).
      destruct (count_step _ _ F E) as [Fa Ea]; [lia|]. rewrite after_S. set (z := after xl_tick i frozen) in *. clearbody z.
      unfold xl_tick. rewrite D, V, Cg, Cn. change (xl_n frozen) with (fmul (fofZ 10) (fofZ 48000) : f32).
      assert (En : fmul (fofZ 10) (fofZ 48000) = (fofZ 480000 : f32)) by (vm_compute; reflexivity). rewrite En.
      replace (fle (fofZ 480000) (fadd (xl_count z) one)) with false.
      2:{ symmetry. apply fle_R_false; [ffin|exact Fa|]. rewrite Ea. fval (fofZ 480000 : f32). rewrite V0.
          apply Rlt_le_trans with (IZR 480000); [apply IZR_lt; lia|lra]. }
      change (xl_growth frozen) with (xl_growthof exact_libm one (fdec 101 100) (fmul (fofZ 10) (fofZ 48000))). rewrite En, frozen_growth.
      cbn [fst xl_value xl_done xl_count]. rewrite fmul_one. split; [reflexivity|]. split; [reflexivity|]. split; [exact Fa|]. rewrite Ea. f_equal. lia. }
  destruct (G i Hi) as (V & _). unfold nth_sample. rewrite xl_out, V. destruct (xl_const i frozen) as (_ & _ & Cm & Ca & _). rewrite Cm, Ca. vm_compute. reflexivity.
Qed.
