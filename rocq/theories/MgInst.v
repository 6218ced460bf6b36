(** The correctly rounded library meets the hypotheses of the ladder theorems; computable libraries for examples. *)
From Coq Require Import ZArith Reals Lra Lia Bool Psatz List.
From Flocq Require Import Core BinarySingleNaN Relative.
From Verif Require Import Flt FltFacts FltMore FltKey FltArith Libm LibmInst UtilModel UtilProofs Dbl DblRel RealBounds ExpBounds SmoothInst MgModel MgSpec MgBase.
Import ListNotations.
Local Open Scope R_scope.

Lemma dyu : dy64 (-1) /\ dy64 1. Proof. split; [change (-1) with (- bpow radix2 0); apply dy_opp|change 1 with (bpow radix2 0)]; apply dy_bpow; cbn; lia. Qed.
Lemma exact_dtanh_unit : dtanh_unit exact_libm.
Proof.
  intros x N. cbn [exact_libm d_tanh]. destruct dyu as [D1 D2]. assert (G : forall r, -1 <= r <= 1 -> fin (fofR r : f64) /\ -1 <= B2R (fofR r : f64) <= 1).
  { intros r B. destruct (fofR_b (prec:=53) (emax:=1024) (-1) 1 r D1 D2 B) as (A & _ & C). auto. }
  destruct x as [s|s| |s m e H]; try discriminate N; cbn [cr_tanh lift_odd].
  - split; [reflexivity|]. cbn. lra.
  - destruct s; apply G; lra.
  - unfold lift. cbn [is_finite]. apply G, tanh_bnd.
Qed.
Lemma rnd64_one x : 1 - bpow radix2 (-55) <= x <= 1 -> rnd64 x = 1.
Proof.
  intros B. destruct dyu as [_ D1]. destruct (dy_rnd_bnd (prec:=53) (emax:=1024) 0 1 x dy_0 D1) as [_ [_ H]]; [revert B; bp; lra|].
  destruct (Rle_lt_or_eq_dec _ _ H) as [Q|Q]; [exfalso|exact Q].
  assert (G1 : generic_format radix2 (SpecFloat.fexp 53 1024) 1) by apply D1.
  assert (G2 : generic_format radix2 (SpecFloat.fexp 53 1024) (rnd64 x)) by apply fmt_rnd.
  pose proof (pred_ge_gt radix2 (SpecFloat.fexp 53 1024) _ 1 G2 G1 Q) as P.
  change 1 with (bpow radix2 0) in P at 1. rewrite pred_bpow in P. change (SpecFloat.fexp 53 1024 0) with (-53)%Z in P. change (bpow radix2 0) with 1 in P.
  assert (O : Rabs (rnd64 x - x) <= Rabs (1 - x)) by (apply round_N_pt; [apply fexp_correct; reflexivity|exact G1]).
  rewrite (Rabs_pos_eq (1 - x)) in O by lra. apply Rabs_le_inv in O. revert P B. bp. lra.
Qed.
Lemma rnd64_opp x : rnd64 (- x) = - rnd64 x. Proof. apply round_NE_opp. Qed.
Lemma exp40 : bpow radix2 56 <= exp 40.
Proof.
  assert (H0 : (25986099 / 25000000) <= exp (40 / 1024)) by (pose proof (exp_sq_lower (40 / 1024) ltac:(lra)); lra).
  assert (H1 : (54022187 / 50000000) <= exp (40 / 512)). { apply sq_lo in H0; [|lra]. replace (2 * (40 / 1024)) with (40 / 512) in H0 by field. lra. }
  assert (H2 : (116735867 / 100000000) <= exp (40 / 256)). { apply sq_lo in H1; [|lra]. replace (2 * (40 / 512)) with (40 / 256) in H1 by field. lra. }
  assert (H3 : (68136313 / 50000000) <= exp (40 / 128)). { apply sq_lo in H2; [|lra]. replace (2 * (40 / 256)) with (40 / 128) in H2 by field. lra. }
  assert (H4 : (37140457 / 20000000) <= exp (40 / 64)). { apply sq_lo in H3; [|lra]. replace (2 * (40 / 128)) with (40 / 64) in H3 by field. lra. }
  assert (H5 : (172426693 / 50000000) <= exp (40 / 32)). { apply sq_lo in H4; [|lra]. replace (2 * (40 / 64)) with (40 / 32) in H4 by field. lra. }
  assert (H6 : (118923857 / 10000000) <= exp (40 / 16)). { apply sq_lo in H5; [|lra]. replace (2 * (40 / 32)) with (40 / 16) in H5 by field. lra. }
  assert (H7 : (141428837 / 1000000) <= exp (40 / 8)). { apply sq_lo in H6; [|lra]. replace (2 * (40 / 16)) with (40 / 8) in H6 by field. lra. }
  assert (H8 : (200021159 / 10000) <= exp (40 / 4)). { apply sq_lo in H7; [|lra]. replace (2 * (40 / 8)) with (40 / 4) in H7 by field. lra. }
  assert (H9 : 400084640 <= exp (40 / 2)). { apply sq_lo in H8; [|lra]. replace (2 * (40 / 4)) with (40 / 2) in H8 by field. lra. }
  assert (H10 : 160067719000000000 <= exp (40 / 1)). { apply sq_lo in H9; [|lra]. replace (2 * (40 / 2)) with (40 / 1) in H9 by field. lra. }
  replace (40 / 1) with 40 in H10 by field. change (bpow radix2 56) with 72057594037927936. lra.
Qed.

Lemma tanh_sat x : 20 <= x -> 1 - bpow radix2 (-55) <= tanh x <= 1.
Proof.
  intros H. split; [|apply tanh_bnd]. unfold tanh, sinh, cosh. pose proof (exp_pos x) as A. pose proof (exp_pos (- x)) as B.
  assert (E : exp x * exp (- x) = 1) by (rewrite <- exp_plus; replace (x + - x) with 0 by ring; apply exp_0).
  assert (G : bpow radix2 56 <= exp x * exp x). { rewrite <- exp_plus. eapply Rle_trans; [exact exp40|]. apply exp_le_mono. lra. }
  set (a := exp x) in *. set (b := exp (- x)) in *. clearbody a b. replace ((a - b) / 2 / ((a + b) / 2)) with ((a - b) * / (a + b)) by (field; lra).
  apply Rmult_le_reg_r with (a + b); [lra|]. rewrite Rmult_assoc, Rinv_l, Rmult_1_r by lra.
  assert (b * bpow radix2 56 <= a). { apply Rle_trans with (b * (a * a)); [apply Rmult_le_compat_l; lra|]. replace (b * (a * a)) with (a * b * a) by ring. rewrite E. lra. }
  revert H0. replace (bpow radix2 56) with (2 * bpow radix2 55) by (change (bpow radix2 56) with 72057594037927936; change (bpow radix2 55) with 36028797018963968; lra).
  intros H0. replace (bpow radix2 (-55)) with (/ bpow radix2 55) by (symmetry; apply (bpow_opp radix2 55)). assert (P : 0 < bpow radix2 55) by apply bpow_gt_0.
  apply Rmult_le_reg_r with (bpow radix2 55); [exact P|]. set (c := bpow radix2 55) in *. clearbody c. replace ((1 - / c) * (a + b) * c) with ((c - 1) * (a + b)) by (field; lra). nra.
Qed.
Lemma exact_dtanh_sat : dtanh_sat exact_libm.
Proof.
  intros x F. destruct dyu as [D1 D2]. split; intros H; cbn [exact_libm d_tanh].
  - assert (E : cr_tanh x = fofR (tanh (B2R x))). { destruct x as [s|s| |s m e He]; try discriminate F; [cbn in H; lra|reflexivity]. }
    rewrite E. destruct (fofR_b (prec:=53) (emax:=1024) (-1) 1 _ D1 D2 (tanh_bnd (B2R x))) as (_ & -> & _). apply rnd64_one, tanh_sat, H.
  - assert (E : cr_tanh x = fofR (tanh (B2R x))). { destruct x as [s|s| |s m e He]; try discriminate F; [cbn in H; lra|reflexivity]. }
    rewrite E. destruct (fofR_b (prec:=53) (emax:=1024) (-1) 1 _ D1 D2 (tanh_bnd (B2R x))) as (_ & -> & _).
    replace (tanh (B2R x)) with (- tanh (- B2R x)). 2: { unfold tanh, sinh, cosh. rewrite Ropp_involutive. pose proof (exp_pos (B2R x)). pose proof (exp_pos (- B2R x)). field. lra. }
    rewrite rnd64_opp, rnd64_one; [lra|]. apply tanh_sat. lra.
Qed.
Lemma exact_dtanh_nan : dtanh_nan exact_libm.
Proof. intros x N. destruct x; try discriminate. reflexivity. Qed.
Lemma exact_dpow : dpow_acc exact_libm.
Proof.
  intros w n F B Hn. cbn [exact_libm d_pow]. assert (P0 : 0 < bpow radix2 (-100)) by apply bpow_gt_0.
  assert (En : (0 < n <= 4)%nat) by (destruct Hn as [<-|[<-|[<-|[]]]]; lia).
  destruct (fofZ_R (prec := 53) (emax := 1024) (Z.of_nat n) ltac:(lia)) as [Fn Rn].
  assert (E : cr_pow w (fofZ (Z.of_nat n)) = fofR (B2R w ^ n)).
  { unfold cr_pow. unfold fin in F, Fn. rewrite F. destruct (fofZ (Z.of_nat n) : f64) as [s|s| |s m e He]; try discriminate Fn; rewrite Rn, <- INR_IZR_INZ, Rpower_pow by lra; reflexivity. }
  rewrite E. clear E Fn Rn.
  assert (U : bpow radix2 (-900) <= B2R w ^ n <= 256).
  { assert (L4 : bpow radix2 (-400) <= B2R w ^ n).
    { destruct Hn as [<-|[<-|[<-|[]]]].
      - apply Rle_trans with (bpow radix2 (-100) ^ 2); [|apply pow_incr; lra]. cbn [pow]. rewrite Rmult_1_r, <- bpow_plus. apply bpow_le. lia.
      - apply Rle_trans with (bpow radix2 (-100) ^ 3); [|apply pow_incr; lra]. cbn [pow]. rewrite Rmult_1_r, <- !bpow_plus. apply bpow_le. lia.
      - apply Rle_trans with (bpow radix2 (-100) ^ 4); [|apply pow_incr; lra]. cbn [pow]. rewrite Rmult_1_r, <- !bpow_plus. apply bpow_le. lia. }
    split; [eapply Rle_trans; [|exact L4]; apply bpow_le; lia|]. apply Rle_trans with (4 ^ n); [apply pow_incr; lra|]. apply Rle_trans with (4 ^ 4); [apply Rle_pow; [lra|lia]|lra]. }
  assert (D : dy64 256) by (change 256 with (bpow radix2 8); apply dy_bpow; cbn; lia). pose proof (bpow_gt_0 radix2 (-900)) as P9.
  destruct (fofR_b (prec:=53) (emax:=1024) 0 256 (B2R w ^ n) dy_0 D ltac:(lra)) as (G & -> & _). split; [exact G|].
  pose proof (rel64 (B2R w ^ n)) as T. rewrite (Rabs_pos_eq (B2R w ^ n)) in T by lra. specialize (T (proj1 U)). eapply Rle_trans; [exact T|]. apply Rmult_le_compat_r; [lra|]. apply bpow_le. lia.
Qed.
Lemma tan_range x : 0 < x <= 3 / 2 -> x <= tan x <= 32.
Proof.
  intros H. pose proof PI_bounds as P. assert (Hx : 0 < x < PI / 2) by lra. split; [pose proof (tan_gt_0 x) as G; pose proof (atan_le_self (tan x)) as A; rewrite atan_tan in A by lra; apply A; left; apply G; lra|].
  unfold tan. assert (C : cos (3 / 2) <= cos x) by (apply cos_decr_1; lra). assert (S : cos (3 / 2) = sin (PI / 2 - 3 / 2)) by (rewrite <- cos_shift; f_equal; ring).
  pose proof (sin_half_lower (PI / 2 - 3 / 2) ltac:(lra)) as L. pose proof (SIN_bound x) as [_ B].
  apply Rmult_le_reg_r with (cos x); [lra|]. unfold Rdiv. rewrite Rmult_assoc, Rinv_l by lra. lra.
Qed.
Lemma exact_dtan : dtan_acc exact_libm.
Proof.
  intros w F B. cbn [exact_libm d_tan]. assert (P0 : 0 < bpow radix2 (-100)) by apply bpow_gt_0.
  assert (E : lift_odd tan w = fofR (tan (B2R w))). { destruct w as [s|s| |s m e He]; try discriminate F; [cbn in B; lra|reflexivity]. }
  rewrite E. destruct (tan_range (B2R w) ltac:(lra)) as [T1 T2]. assert (D : dy64 32) by (change 32 with (bpow radix2 5); apply dy_bpow; cbn; lia).
  destruct (fofR_b (prec:=53) (emax:=1024) 0 32 (tan (B2R w)) dy_0 D ltac:(lra)) as (G & -> & _). split; [exact G|].
  assert (U : bpow radix2 (-900) <= tan (B2R w)) by (apply Rle_trans with (bpow radix2 (-100)); [apply bpow_le; lia|lra]).
  pose proof (rel64 (tan (B2R w))) as T. rewrite (Rabs_pos_eq (tan (B2R w))) in T by lra. specialize (T U). eapply Rle_trans; [exact T|]. apply Rmult_le_compat_r; [lra|]. apply bpow_le. lia.
Qed.

(** A library for computing examples: powers by multiplication, [tanh] as the clamp to [-1,1], [tan] and [sin] as their first terms. *)
Local Open Scope flt_scope.
Definition poly_tanh (x : f64) : f64 := if is_nan x then B754_nan else if x <? - dz 1 then - dz 1 else if x >? dz 1 then dz 1 else x.
Definition poly_libm : libm := {|
  m_exp := fun x => x; m_sin := fun x => x; m_cos := fun x => x; m_tan := fun x => x; m_tanh := fun x => x; m_log := fun x => x; m_atan := fun x => x; m_pow := fun x _ => x;
  d_exp := fun x => x; d_sin := fun x => x - x * x * x / dz 6; d_cos := fun x => x; d_tan := fun x => x + x * x * x / dz 3; d_tanh := poly_tanh;
  d_pow := fun x y => if y =? dz 2 then x * x else if y =? dz 3 then x * x * x else if y =? dz 4 then x * x * x * x else x |}.
