(** The pointer-to-rate mapping of the playback example, and the exponential mapping the examples share. *)
From Coq Require Import ZArith Reals Lra Lia Bool List.
From Flocq Require Import Core BinarySingleNaN.
From Verif Require Import Flt FltFacts FltMore FltArith FltClose FltRel Libm UtilModel UtilProofs PanSpec LineModel LineSpec ExpBounds Ln2 PbModel.
Local Open Scope R_scope.
Local Notation rnd32 := (@rnd 24 128).

(** ** Division of approximate values *)
Lemma cl_div k e1 e2 b m x y r1 r2 : (-125 <= k <= 100)%Z -> cl e1 x r1 -> cl e2 y r2 -> 0 < m -> m <= Rabs r2 - e2 -> Rabs (r1 / r2) <= b ->
  b + (e1 + b * e2) / m <= bpow radix2 k -> cl ((e1 + b * e2) / m + bpow radix2 (k - 25)) (fdiv x y) (r1 / r2).
Proof.
  intros K [Fx Ex] [Fy Ey] M Hm B T. destruct (bp_dy k ltac:(lia)) as [D1 D2].
  assert (E1 : 0 <= e1) by (eapply Rle_trans; [apply Rabs_pos|exact Ex]). assert (E2 : 0 <= e2) by (eapply Rle_trans; [apply Rabs_pos|exact Ey]).
  assert (N2 : r2 <> 0) by (intros ->; rewrite Rabs_R0 in Hm; lra).
  assert (My : m <= Rabs (B2R y)). { replace r2 with (B2R y - (B2R y - r2)) in Hm by ring. pose proof (Rabs_triang (B2R y) (- (B2R y - r2))) as H. rewrite Rabs_Ropp in H. unfold Rminus in Hm. unfold Rminus in H. unfold Rminus in Ey. lra. }
  assert (Ny : B2R y <> 0) by (intros Z; rewrite Z, Rabs_R0 in My; lra).
  assert (Q : Rabs (B2R x / B2R y - r1 / r2) <= (e1 + b * e2) / m).
  { replace (B2R x / B2R y - r1 / r2) with (((B2R x - r1) - r1 / r2 * (B2R y - r2)) / B2R y) by (field; auto).
    unfold Rdiv at 1. rewrite Rabs_mult, Rabs_inv. unfold Rdiv at 2. apply Rmult_le_compat; [apply Rabs_pos|left; apply Rinv_0_lt_compat; lra| |apply Rinv_le_contravar; lra].
    eapply Rle_trans; [apply Rabs_triang|]. rewrite Rabs_Ropp, Rabs_mult. apply Rplus_le_compat; [exact Ex|].
    apply Rmult_le_compat; auto using Rabs_pos. }
  assert (A : Rabs (B2R x / B2R y) <= bpow radix2 k).
  { replace (B2R x / B2R y) with (r1 / r2 + (B2R x / B2R y - r1 / r2)) by ring. eapply Rle_trans; [apply Rabs_triang|]. lra. }
  destruct (fdiv_b (- bpow radix2 k) (bpow radix2 k) x y D2 D1 Fx Fy Ny (Rabs_le_inv _ _ A)) as (F & R & _). split; [exact F|].
  rewrite R. replace (rnd32 (B2R x / B2R y) - r1 / r2) with ((rnd32 (B2R x / B2R y) - B2R x / B2R y) + (B2R x / B2R y - r1 / r2)) by ring.
  eapply Rle_trans; [apply Rabs_triang|]. pose proof (rnd_err1 k (B2R x / B2R y) ltac:(lia) A). lra.
Qed.

(** ** [std::max(0, std::min(1, n))] *)
Definition unit_clamp (n : f32) : f32 := let n := if flt n one then n else one in if flt zero n then n else zero.
Definition rclamp (r : R) : R := Rmax 0 (Rmin 1 r).
Lemma rclamp_in r : 0 <= rclamp r <= 1.
Proof. unfold rclamp. split; [apply Rmax_l|]. apply Rmax_lub; [lra|apply Rmin_l]. Qed.
Lemma rclamp_lip a b : Rabs (rclamp a - rclamp b) <= Rabs (a - b).
Proof. unfold rclamp, Rmax, Rmin. repeat destruct (Rle_dec _ _); unfold Rabs; repeat destruct (Rcase_abs _); lra. Qed.
Lemma one_1 : fin (one : f32) /\ B2R (one : f32) = 1. Proof. split; [reflexivity|fval (one : f32); lra]. Qed.
Lemma zero_0 : fin (zero : f32) /\ B2R (zero : f32) = 0. Proof. split; reflexivity. Qed.
Lemma uclamp_fin n : fin (unit_clamp n) /\ 0 <= B2R (unit_clamp n) <= 1.
Proof.
  destruct one_1 as [F1 R1]. destruct zero_0 as [F0 R0]. unfold unit_clamp. cbv zeta.
  destruct (flt n one) eqn:E.
  - destruct (flt zero n) eqn:E0; [|split; [exact F0|lra]].
    assert (Fn : fin n). { destruct n; try reflexivity; [destruct s; [cbv in E0; discriminate|cbv in E; discriminate]|cbv in E; discriminate]. }
    apply flt_R in E; auto. apply flt_R in E0; auto. split; [exact Fn|lra].
  - destruct (flt zero one); [split; [exact F1|lra]|split; [exact F0|lra]].
Qed.
Lemma uclamp_R n : fin n -> fin (unit_clamp n) /\ B2R (unit_clamp n) = rclamp (B2R n).
Proof.
  intros Fn. split; [apply uclamp_fin|]. destruct one_1 as [F1 R1]. destruct zero_0 as [F0 R0]. unfold unit_clamp, rclamp. cbv zeta.
  destruct (flt n one) eqn:E.
  - apply flt_R in E; auto. rewrite Rmin_right by lra. destruct (flt zero n) eqn:E0.
    + apply flt_R in E0; auto. rewrite Rmax_right; lra.
    + apply flt_R_false in E0; auto. rewrite Rmax_left; lra.
  - apply flt_R_false in E; auto. rewrite Rmin_left by lra. rewrite Rmax_right by lra.
    destruct (flt zero one) eqn:E0; [exact R1|]. apply flt_R_false in E0; auto. lra.
Qed.
Lemma cl_uclamp e x r : cl e x r -> cl e (unit_clamp x) (rclamp r).
Proof. intros [F E]. destruct (uclamp_R x F) as [F' R]. split; [exact F'|]. rewrite R. eapply Rle_trans; [apply rclamp_lip|exact E]. Qed.

(** ** A pointer coordinate as a fraction of the screen *)
Definition screen (x w : Z) : Prop := (Z.abs x <= 2 ^ 24)%Z /\ (1 <= w <= 2 ^ 24)%Z.
Lemma frac_cl x w : screen x w -> cl (bpow radix2 (-25)) (unit_clamp (fdiv (fofZ x) (fofZ w))) (rclamp (IZR x / IZR w)).
Proof.
  intros [Hx Hw]. destruct (fofZ_R (prec:=24) (emax:=128) x ltac:(lia)) as [Fx Rx]. destruct (fofZ_R (prec:=24) (emax:=128) w ltac:(lia)) as [Fw Rw].
  assert (W1 : 1 <= IZR w) by (apply IZR_le; lia).
  assert (Ax : Rabs (IZR x) <= bpow radix2 24) by (rewrite <- abs_IZR; change (bpow radix2 24) with (IZR (2 ^ 24)); apply IZR_le; lia).
  assert (A : Rabs (IZR x / IZR w) <= bpow radix2 24).
  { unfold Rdiv. rewrite Rabs_mult, Rabs_inv, (Rabs_pos_eq (IZR w)) by lra. rewrite <- (Rmult_1_r (bpow radix2 24)).
    apply Rmult_le_compat; [apply Rabs_pos|left; apply Rinv_0_lt_compat; lra|exact Ax|]. rewrite <- Rinv_1. apply Rinv_le_contravar; lra. }
  destruct (bp_dy 24 ltac:(lia)) as [D1 D2].
  destruct (fdiv_b (- bpow radix2 24) (bpow radix2 24) (fofZ x : f32) (fofZ w) D2 D1 Fx Fw) as (F & R & _); [rewrite Rw; lra|rewrite Rx, Rw; apply Rabs_le_inv; exact A|].
  rewrite Rx, Rw in R. destruct (uclamp_R _ F) as [F' R']. split; [exact F'|]. rewrite R', R.
  set (q := IZR x / IZR w) in *. destruct one_1 as [F1 R1].
  destruct (Rle_dec 1 q) as [G|G].
  { assert (1 <= rnd32 q) by (rewrite <- R1; apply rnd_ge_B2R; lra). unfold rclamp. rewrite !Rmin_left by lra.
    rewrite Rmax_right by lra. rewrite Rminus_diag_eq, Rabs_R0 by reflexivity. apply bpow_ge_0. }
  destruct (Rle_dec q 0) as [N|N].
  { assert (rnd32 q <= 0) by (apply rnd_nonpos; exact N). unfold rclamp. rewrite !Rmin_right by lra. rewrite !Rmax_left by lra.
    rewrite Rminus_diag_eq, Rabs_R0 by reflexivity. apply bpow_ge_0. }
  eapply Rle_trans; [apply rclamp_lip|]. apply (rnd_err1 0); [lia|]. change (bpow radix2 0) with 1. apply Rabs_le. lra.
Qed.

(** ** [std::exp(logMin + s * (logMax - logMin))] *)
Definition log_map (L : libm) (lo hi s : f32) : f32 := m_exp L (fadd (m_log L lo) (fmul s (fsub (m_log L hi) (m_log L lo)))).
(** The ideal map. *)
Definition geo (a b s : R) : R := exp (ln a + s * (ln b - ln a)).
Lemma geo_in a b s : 0 < a -> a <= b -> 0 <= s <= 1 -> a <= geo a b s <= b.
Proof.
  intros A AB S. assert (LL : ln a <= ln b) by (destruct AB as [T| ->]; [left; now apply ln_increasing|lra]).
  unfold geo. split.
  - rewrite <- (exp_ln a) at 1 by lra. apply exp_le_mono. nra.
  - rewrite <- (exp_ln b) at 2 by lra. apply exp_le_mono. nra.
Qed.
Lemma exp_shift x d : 0 <= d <= / 200 -> forall y, Rabs (y - x) <= d -> Rabs (exp y - exp x) <= 101 / 100 * d * exp x.
Proof.
  intros D y H. apply Rabs_le_inv in H. replace y with (x + (y - x)) by ring. rewrite exp_plus. pose proof (exp_pos x) as P.
  pose proof (exp_ineq1_le (y - x)) as L. pose proof (exp_ineq1_le (- (y - x))) as U. set (t := y - x) in *.
  assert (Ub : exp t <= 1 + 101 / 100 * d).
  { rewrite <- (Ropp_involutive t), exp_Ropp. apply Rle_trans with (/ (1 - d)); [apply Rinv_le_contravar; lra|].
    apply Rmult_le_reg_r with (1 - d); [lra|]. rewrite Rinv_l by lra. nra. }
  replace (exp x * exp t - exp x) with (exp x * (exp t - 1)) by ring. rewrite Rabs_mult, (Rabs_pos_eq (exp x)) by lra.
  rewrite (Rmult_comm _ (exp x)). apply Rmult_le_compat_l; [lra|]. apply Rabs_le. lra.
Qed.
Lemma log_map_acc L k es lo hi s sr : exp_rel L -> log_rel L -> (0 <= k <= 4)%Z -> fin lo -> fin hi -> 0 < B2R lo -> B2R lo <= B2R hi ->
  Rabs (ln (B2R lo)) <= bpow radix2 k -> Rabs (ln (B2R hi)) <= bpow radix2 k ->
  cl es s sr -> 0 <= sr <= 1 -> 0 <= B2R s <= 1 -> 0 <= es <= bpow radix2 (-20) ->
  rl (bpow radix2 (-23) + 102 / 100 * (bpow radix2 k * (7 * bpow radix2 (-23) + 21 / 10 * es))) (log_map L lo hi s) (geo (B2R lo) (B2R hi) sr).
Proof.
  intros EL LL K Flo Fhi P0 LH B1 B2 Cs Sr Ss Es.
  set (a := ln (B2R lo)) in *. set (b := ln (B2R hi)) in *.
  assert (AB : a <= b) by (unfold a, b; destruct LH as [T|T]; [left; now apply ln_increasing|rewrite T; lra]).
  set (M := bpow radix2 k) in *. assert (M1 : 1 <= M <= 16).
  { unfold M. split; [change 1 with (bpow radix2 0); apply bpow_le; lia|]. change 16 with (bpow radix2 4). apply bpow_le; lia. }
  set (u := bpow radix2 (-23)). assert (U : u = / 8388608) by reflexivity.
  assert (T149 : bpow radix2 (-149) <= u / 1000) by (apply Rle_trans with (bpow radix2 (-40)); [apply bpow_le; lia|rewrite U; cbn; lra]).
  assert (Cl : forall x, fin x -> 0 < B2R x -> Rabs (ln (B2R x)) <= M -> cl (1001 / 1000 * M * u) (m_log L x) (ln (B2R x))).
  { intros x Fx Px Bx. destruct (LL x Fx Px) as [F E]. split; [exact F|]. fold u in E. assert (u * Rabs (ln (B2R x)) <= u * M) by (apply Rmult_le_compat_l; lra). nra. }
  pose proof (Cl lo Flo P0 B1) as Clo. pose proof (Cl hi Fhi ltac:(lra) B2) as Chi. clear Cl. fold a in Clo. fold b in Chi.
  apply Rabs_le_inv in B1, B2.
  assert (K2 : bpow radix2 (k + 2) = 4 * M) by (rewrite Z.add_comm, bpow_plus; reflexivity).
  assert (K1 : bpow radix2 (k + 1) = 2 * M) by (rewrite Z.add_comm, bpow_plus; reflexivity).
  assert (E2 : bpow radix2 (k + 2 - 25) = M * u) by (replace (k + 2 - 25)%Z with (k + (-23))%Z by lia; apply bpow_plus).
  assert (E1 : bpow radix2 (k + 1 - 25) = M * u / 2) by (replace (k + 1 - 25)%Z with (k + ((-23) + (-1)))%Z by lia; rewrite !bpow_plus; fold M u; cbn [bpow radix2 radix_val Z.pow_pos Pos.iter Z.mul Pos.mul]; lra).
  set (e0 := 1001 / 1000 * M * u) in *. assert (E0 : e0 = 1001 / 1000 * (M * u)) by (unfold e0; ring). clearbody e0.
  assert (Mu : 0 < M * u <= 16 / 8388608) by (rewrite U; nra). remember (M * u) as v eqn:Hv.
  assert (Cd : cl (301 / 100 * v) (fsub (m_log L hi) (m_log L lo)) (b - a)).
  { eapply cl_weak; [eapply (cl_sub (k + 2)); [lia|exact Chi|exact Clo|]|rewrite E2; lra]. rewrite Rabs_pos_eq by lra. rewrite K2. lra. }
  assert (Es' : es <= / 1048576) by (destruct Es as [_ T]; eapply Rle_trans; [exact T|]; cbn; lra).
  assert (Cm : cl (402 / 100 * v + 201 / 100 * (M * es)) (fmul s (fsub (m_log L hi) (m_log L lo))) (sr * (b - a))).
  { eapply cl_weak; [eapply (cl_mul (k + 2) es (301 / 100 * v) 1 (2 * M)); [lia|exact Cs|exact Cd| | |]|rewrite E2].
    - rewrite Rabs_pos_eq; lra.
    - rewrite Rabs_pos_eq; lra.
    - rewrite K2. assert (es * M <= / 1048576 * M) by (apply Rmult_le_compat_r; lra). assert (es * v <= / 1048576 * v) by (apply Rmult_le_compat_r; lra). nra.
    - assert (es * v <= / 1048576 * v) by (apply Rmult_le_compat_r; lra). assert (0 <= M * es) by (apply Rmult_le_pos; lra). nra. }
  assert (Me : 0 <= M * es <= / 65536) by (split; [apply Rmult_le_pos; lra|nra]).
  assert (Ca : cl (6 * v + 201 / 100 * (M * es)) (fadd (m_log L lo) (fmul s (fsub (m_log L hi) (m_log L lo)))) (a + sr * (b - a))).
  { eapply cl_weak; [eapply (cl_add (k + 1)); [lia|exact Clo|exact Cm|]|rewrite E1; lra].
    rewrite K1. assert (a <= a + sr * (b - a) <= b) by nra. assert (Rabs (a + sr * (b - a)) <= M) by (apply Rabs_le; lra). lra. }
  set (z := fadd _ _) in *. destruct Ca as [Fz Ez].
  assert (Bz : Rabs (a + sr * (b - a)) <= M) by (apply Rabs_le; nra).
  assert (Az : Rabs (B2R z) <= 80).
  { replace (B2R z) with ((a + sr * (b - a)) + (B2R z - (a + sr * (b - a)))) by ring. eapply Rle_trans; [apply Rabs_triang|]. lra. }
  destruct (EL z Fz Az) as [Fe Ee]. unfold log_map. fold z. split; [exact Fe|]. fold u in Ee.
  unfold geo. fold a b. set (g := a + sr * (b - a)) in *.
  set (d := 6 * v + 201 / 100 * (M * es)) in *. assert (D : 0 <= d <= / 200) by (unfold d; lra).
  pose proof (exp_shift g d D (B2R z) Ez) as S. pose proof (exp_pos g) as Pg. rewrite (Rabs_pos_eq (exp g)) by lra.
  replace (B2R (m_exp L z) - exp g) with ((B2R (m_exp L z) - exp (B2R z)) + (exp (B2R z) - exp g)) by ring.
  eapply Rle_trans; [apply Rabs_triang|].
  assert (Ub : exp (B2R z) <= (1 + 101 / 100 * d) * exp g) by (apply Rabs_le_inv in S; lra).
  assert (u * exp (B2R z) <= u * ((1 + 101 / 100 * d) * exp g)) by (apply Rmult_le_compat_l; [rewrite U; lra|exact Ub]).
  apply Rle_trans with (u * ((1 + 101 / 100 * d) * exp g) + 101 / 100 * d * exp g); [lra|].
  replace (u * ((1 + 101 / 100 * d) * exp g) + 101 / 100 * d * exp g) with ((u + 101 / 100 * d * (1 + u)) * exp g) by ring.
  apply Rmult_le_compat_r; [lra|]. replace (M * (7 * u + 21 / 10 * es)) with (7 * (M * u) + 21 / 10 * (M * es)) by ring. 
  rewrite <- Hv. rewrite U in *. unfold d. lra.
Qed.

(** ** The playback rate *)
Definition dist (c : f32) : f32 := fabs (fmul (fsub c half) two).
Definition scaled (c : f32) : f32 := unit_clamp (fdiv (fsub (dist c) (fdec 2 100)) (fsub one (fdec 2 100))).
Lemma pl_rate_eq L x w : pl_rate L x w =
  (let c := unit_clamp (fdiv (fofZ x) (fofZ w)) in
   if flt (fdec 2 100) (dist c) then
     (let m := log_map L (fdec 25 100) (fofZ 4) (scaled c) in if flt zero (fmul (fsub c half) two) then m else fneg m)
   else zero).
Proof. cbv beta zeta delta [pl_rate pl_column dist scaled log_map unit_clamp]. reflexivity. Qed.
Lemma quarter_ln : ln (B2R (fdec 25 100 : f32)) = - (2 * ln 2) /\ ln (B2R (fofZ 4 : f32)) = 2 * ln 2 /\ B2R (fdec 25 100 : f32) = / 4 /\ B2R (fofZ 4 : f32) = 4.
Proof.
  assert (Q : B2R (fdec 25 100 : f32) = / 4) by (fval (fdec 25 100 : f32); lra). assert (F : B2R (fofZ 4 : f32) = 4) by (fval (fofZ 4 : f32); lra).
  rewrite Q, F. assert (L4 : ln 4 = 2 * ln 2) by (replace 4 with (2 * 2) by lra; rewrite ln_mult by lra; lra).
  rewrite ln_Rinv by lra. rewrite L4. auto.
Qed.
Lemma dist_ok c : fin c -> 0 <= B2R c <= 1 -> fin (fmul (fsub c half) two) /\ B2R (fmul (fsub c half) two) = 2 * rnd32 (B2R c - / 2) /\ -1 <= B2R (fmul (fsub c half) two) <= 1.
Proof.
  intros F B. assert (H2 : B2R (half : f32) = / 2) by (fval (half : f32); lra). assert (T2 : B2R (two : f32) = 2) by (fval (two : f32); lra).
  destruct (bp_dy (-1) ltac:(lia)) as [D1 D2]. change (bpow radix2 (-1)) with (/ 2) in *.
  destruct (fsub_b (- / 2) (/ 2) c half D2 D1 F ltac:(reflexivity)) as (Fs & Rs & Bs); [rewrite H2; lra|].
  set (y := fsub c half) in *. clearbody y.
  assert (Dy : dy32 (B2R y * B2R (two : f32))).
  { rewrite T2. split; [|rewrite Rabs_mult, (Rabs_pos_eq 2) by lra; apply Rle_lt_trans with 1; [|change 1 with (bpow radix2 0); apply bpow_lt; reflexivity]].
    - change 2 with (bpow radix2 1). apply fmt_scale; [lia].
    - assert (Rabs (B2R y) <= / 2) by (apply Rabs_le; lra). lra. }
  destruct (fmul_exact y two Fs ltac:(reflexivity) Dy) as [Fm Rm]. split; [exact Fm|]. rewrite Rm, T2, Rs, H2 in *. lra.
Qed.
Lemma dist_cl c e u : cl e c u -> 0 <= B2R c <= 1 -> 0 <= u <= 1 -> cl (2 * e + bpow radix2 (-25)) (fmul (fsub c half) two) (2 * u - 1).
Proof.
  intros [F E] B U. destruct (dist_ok c F B) as (Fm & Rm & _). split; [exact Fm|]. rewrite Rm.
  assert (H : Rabs (rnd32 (B2R c - / 2) - (B2R c - / 2)) <= bpow radix2 (-1 - 25)) by (apply rnd_err1; [lia|apply Rabs_le; change (bpow radix2 (-1)) with (/ 2); lra]).
  replace (2 * rnd32 (B2R c - / 2) - (2 * u - 1)) with (2 * (rnd32 (B2R c - / 2) - (B2R c - / 2)) + 2 * (B2R c - u)) by lra.
  eapply Rle_trans; [apply Rabs_triang|]. rewrite !Rabs_mult, !(Rabs_pos_eq 2) by lra.
  change (bpow radix2 (-25)) with (/ 33554432). change (bpow radix2 (-1 - 25)) with (/ 67108864) in H. lra.
Qed.
Lemma cl_fabs e x r : cl e x r -> cl e (fabs x) (Rabs r).
Proof. intros [F E]. split; [now apply fabs_fin|]. rewrite fabs_R. eapply Rle_trans; [apply Rabs_triang_inv2|exact E]. Qed.
(** The distance from the middle beyond the dead zone, as a fraction of what is left. *)
Definition beyond (u : R) : R := (Rabs (2 * u - 1) - 2 / 100) / (98 / 100).
Lemma scaled_cl c u : cl (bpow radix2 (-25)) c u -> 0 <= B2R c <= 1 -> 0 <= u <= 1 -> 2 / 100 - bpow radix2 (-20) <= Rabs (2 * u - 1) ->
  cl (bpow radix2 (-22)) (scaled c) (rclamp (beyond u)).
Proof.
  intros C B U Lo. apply cl_uclamp. unfold beyond.
  pose proof (cl_fabs _ _ _ (dist_cl c _ u C B U)) as Cd. fold (dist c) in Cd.
  assert (Ab : Rabs (2 * u - 1) <= 1) by (apply Rabs_le; lra). set (d := Rabs (2 * u - 1)) in *. clearbody d.
  assert (Cz : cl (/ 1000000000) (fdec 2 100 : f32) (2 / 100)) by (split; [reflexivity|fval (fdec 2 100 : f32); apply Rabs_le; lra]).
  assert (Co : cl (/ 33000000) (fsub one (fdec 2 100) : f32) (98 / 100)) by (split; [reflexivity|fval (fsub one (fdec 2 100) : f32); apply Rabs_le; lra]).
  change (bpow radix2 (-25)) with (/ 33554432) in *. change (bpow radix2 (-20)) with (/ 1048576) in *.
  assert (Cs : cl (/ 8000000) (fsub (dist c) (fdec 2 100)) (d - 2 / 100)).
  { eapply cl_weak; [eapply (cl_sub 0); [lia|exact Cd|exact Cz|]|].
    - assert (Rabs (d - 2 / 100) <= 98 / 100) by (apply Rabs_le; lra). change (bpow radix2 0) with 1. lra.
    - change (bpow radix2 (0 - 25)) with (/ 33554432). lra. }
  eapply cl_weak; [eapply (cl_div 1 _ _ 1 (979 / 1000)); [lia|exact Cs|exact Co|lra| | |]|].
  - rewrite Rabs_pos_eq by lra. lra.
  - apply Rabs_le. lra.
  - change (bpow radix2 1) with 2. lra.
  - change (bpow radix2 (1 - 25)) with (/ 16777216). change (bpow radix2 (-22)) with (/ 4194304). lra.
Qed.

(** ** Range of the rate: any screen, any pointer *)
Lemma rate_range L x w : exp_rel L -> log_rel L -> fin (pl_rate L x w) /\ (B2R (pl_rate L x w) = 0 \/ 0.2499 <= Rabs (B2R (pl_rate L x w)) <= 4.001).
Proof.
  intros EL LL. rewrite pl_rate_eq. cbv zeta. set (c := unit_clamp _). destruct (uclamp_fin (fdiv (fofZ x) (fofZ w))) as [Fc Bc]. fold c in Fc, Bc. clearbody c.
  destruct (flt (fdec 2 100) (dist c)); [|split; [reflexivity|now left]].
  destruct (uclamp_fin (fdiv (fsub (dist c) (fdec 2 100)) (fsub one (fdec 2 100)))) as [Fs Bs]. fold (scaled c) in Fs, Bs. set (s := scaled c) in *. clearbody s.
  destruct quarter_ln as (Q1 & Q2 & Q3 & Q4). pose proof ln_2 as L2.
  assert (A : rl (/ 100000) (log_map L (fdec 25 100) (fofZ 4) s) (geo (/ 4) 4 (B2R s))).
  { assert (Eg : forall t, geo (/ 4) 4 t = geo (B2R (fdec 25 100 : f32)) (B2R (fofZ 4 : f32)) t) by (intros; now rewrite Q3, Q4). rewrite Eg. eapply rl_weak; [apply (log_map_acc L 1 0); auto; try (cbn; lia)|].
    - reflexivity.
    - reflexivity.
    - lra.
    - lra.
    - rewrite Q1. change (bpow radix2 1) with 2. apply Rabs_le. lra.
    - rewrite Q2. change (bpow radix2 1) with 2. apply Rabs_le. lra.
    - apply cl_self. exact Fs.
    - pose proof (bpow_ge_0 radix2 (-20)). lra.
    - change (bpow radix2 1) with 2. change (bpow radix2 (-23)) with (/ 8388608). lra. }
  pose proof (geo_in (/ 4) 4 (B2R s) ltac:(lra) ltac:(lra) Bs) as G. set (g := geo _ _ _) in *. clearbody g. set (m := log_map _ _ _ _) in *. clearbody m.
  destruct A as [Fm E]. rewrite (Rabs_pos_eq g) in E by lra. apply Rabs_le_inv in E.
  assert (Bm : 0.2499 <= B2R m <= 4.001) by lra.
  destruct (flt zero _); [split; [exact Fm|right; rewrite Rabs_pos_eq; lra]|]. split; [now apply fneg_fin|right]. rewrite fneg_R, Rabs_Ropp, Rabs_pos_eq; lra.
Qed.
(** Right of the middle the rate is not negative, left of it not positive; in the dead zone it is zero. *)
Definition ideal_rate (u : R) : R := if Rle_dec (Rabs (2 * u - 1)) (2 / 100) then 0 else if Rle_dec u (/ 2) then - geo (/ 4) 4 (beyond u) else geo (/ 4) 4 (beyond u).
Lemma rate_accurate L x w : exp_rel L -> log_rel L -> screen x w ->
  (Rabs (2 * rclamp (IZR x / IZR w) - 1) <= 2 / 100 - bpow radix2 (-22) -> pl_rate L x w = zero) /\
  (2 / 100 + bpow radix2 (-22) <= Rabs (2 * rclamp (IZR x / IZR w) - 1) -> rl (bpow radix2 (-18)) (pl_rate L x w) (ideal_rate (rclamp (IZR x / IZR w)))).
Proof.
  intros EL LL HS. rewrite pl_rate_eq. cbv zeta. pose proof (frac_cl x w HS) as Cc. destruct (uclamp_fin (fdiv (fofZ x) (fofZ w))) as [_ Bc].
  set (c := unit_clamp _) in *. clearbody c. pose proof (rclamp_in (IZR x / IZR w)) as U. set (u := rclamp _) in *. clearbody u.
  pose proof (dist_cl c _ u Cc Bc U) as Cm. pose proof (cl_fabs _ _ _ Cm) as Cd. fold (dist c) in Cd.
  assert (Fz : fin (fdec 2 100 : f32)) by reflexivity.
  assert (Rz : Rabs (B2R (fdec 2 100 : f32) - 2 / 100) <= / 1000000000) by (fval (fdec 2 100 : f32); apply Rabs_le; lra). apply Rabs_le_inv in Rz.
  destruct Cd as [Fd Ed]. apply Rabs_le_inv in Ed. change (bpow radix2 (-25)) with (/ 33554432) in *. change (bpow radix2 (-22)) with (/ 4194304) in *.
  split; intros H.
  - replace (flt (fdec 2 100) (dist c)) with false; [reflexivity|]. symmetry. apply flt_R_false; auto. lra.
  - replace (flt (fdec 2 100) (dist c)) with true by (symmetry; apply flt_R; auto; lra).
    unfold ideal_rate. destruct (Rle_dec (Rabs (2 * u - 1)) (2 / 100)) as [N|N]; [lra|].
    pose proof (scaled_cl c u) as Cs. change (bpow radix2 (-25)) with (/ 33554432) in Cs. specialize (Cs Cc Bc U). 
    assert (Lo : 2 / 100 - bpow radix2 (-20) <= Rabs (2 * u - 1)) by (pose proof (bpow_ge_0 radix2 (-20)); lra). specialize (Cs Lo).
    assert (Ab : Rabs (2 * u - 1) <= 1) by (apply Rabs_le; lra).
    assert (By : 0 <= beyond u <= 1) by (unfold beyond; lra).
    assert (Cl : rclamp (beyond u) = beyond u) by (unfold rclamp; rewrite Rmin_right by lra; apply Rmax_right; lra). rewrite Cl in Cs.
    destruct (uclamp_fin (fdiv (fsub (dist c) (fdec 2 100)) (fsub one (fdec 2 100)))) as [Fs Bs]. fold (scaled c) in Fs, Bs. set (s := scaled c) in *. clearbody s.
    destruct quarter_ln as (Q1 & Q2 & Q3 & Q4). pose proof ln_2 as L2.
    assert (A : rl (bpow radix2 (-18)) (log_map L (fdec 25 100) (fofZ 4) s) (geo (/ 4) 4 (beyond u))).
    { assert (Eg : forall t, geo (/ 4) 4 t = geo (B2R (fdec 25 100 : f32)) (B2R (fofZ 4 : f32)) t) by (intros; now rewrite Q3, Q4). rewrite Eg. eapply rl_weak; [apply (log_map_acc L 1 (bpow radix2 (-22))); auto; try (cbn; lia)|].
      - lra.
      - lra.
      - rewrite Q1. change (bpow radix2 1) with 2. apply Rabs_le. lra.
      - rewrite Q2. change (bpow radix2 1) with 2. apply Rabs_le. lra.
      - split; [apply bpow_ge_0|apply bpow_le; lia].
      - change (bpow radix2 1) with 2. change (bpow radix2 (-23)) with (/ 8388608). change (bpow radix2 (-22)) with (/ 4194304). change (bpow radix2 (-18)) with (/ 262144). lra. }
    destruct Cm as [Fm Em]. apply Rabs_le_inv in Em. set (y := fmul _ _) in *. clearbody y. set (m := log_map _ _ _ _) in *. clearbody m.
    destruct (Rle_dec u (/ 2)) as [S|S].
    + rewrite Rabs_left1 in N, H by lra. replace (flt zero y) with false by (symmetry; apply flt_R_false; auto; change (B2R (zero : f32)) with 0; lra).
      destruct A as [Fa Ea]. split; [now apply fneg_fin|]. rewrite fneg_R. replace (- B2R m - - geo (/ 4) 4 (beyond u)) with (- (B2R m - geo (/ 4) 4 (beyond u))) by ring. now rewrite !Rabs_Ropp.
    + rewrite Rabs_pos_eq in N, H by lra. replace (flt zero y) with true by (symmetry; apply flt_R; auto; change (B2R (zero : f32)) with 0; lra). exact A.
Qed.
