(** Downsampler: filter accuracy, averages, bounds. *)
From Coq Require Import ZArith Reals Lra Lia Bool List Psatz.
From Flocq Require Import Core BinarySingleNaN.
From Verif Require Import Flt FltFacts FltMore FltArith FltClose FltRel FltScale Libm EnvSpec ExpBounds RealBounds UtilModel UtilProofs OscSpec OscProofs OscProofs2 OscProofs4 PhasorProofs SmoothSpec RdProofs RdSpec DsModel DsSpec.
Import ListNotations.
Local Open Scope R_scope.

Lemma factor_clamp f : (0 <= f)%Z -> ds_factor f = clamp16 f.
Proof. intros H. unfold ds_factor, clamp16. destruct (Z.gtb_spec f 16); [lia|]. destruct (Z.ltb_spec f 1); lia. Qed.
Lemma clamp16_b f : (1 <= clamp16 f <= 16)%Z. Proof. unfold clamp16. lia. Qed.

(** ** Coefficient *)
Lemma c45_rl : rl 0.00000006 (fdec 45 100) (9 / 20).
Proof. split; [ffin|]. fval (fdec 45 100 : f32). rewrite (Rabs_pos_eq (9 / 20)) by lra. apply Rabs_le. split; lra. Qed.
Lemma tp_rl : rl 0.00000006 TWO_PI (2 * PI).
Proof.
  split; [apply TP_fin|]. eapply Rle_trans; [apply TP_2PI|]. pose proof PI_bounds. rewrite Rabs_pos_eq by lra. bp. lra.
Qed.
Lemma midlo r : 1 <= Rabs r <= bpow radix2 100 -> mid r.
Proof. intros [A B]. split; [|exact B]. apply Rle_trans with 1; [|exact A]. change 1 with (bpow radix2 0). apply bpow_le. lia. Qed.
Lemma b9596 : bpow radix2 96 = bpow radix2 90 * 64. Proof. change 64 with (bpow radix2 6). rewrite <- bpow_plus. reflexivity. Qed.
Lemma omega_ok rate f : fin rate -> 1 <= B2R rate <= bpow radix2 90 -> (1 <= f <= 16)%Z ->
  let w := fdiv (fmul TWO_PI (fmul rate (fdec 45 100))) (fmul rate (fofZ f)) in rl 0.0000005 w (2 * PI * (9 / 20) / IZR f).
Proof.
  intros F R Hf w. unfold w. pose proof PI_bounds as PB. assert (F1 : 1 <= IZR f <= 16) by (split; apply IZR_le; lia).
  assert (B10 : 1 <= bpow radix2 90) by (change 1 with (bpow radix2 0); apply bpow_le; lia). assert (BA : bpow radix2 90 * 64 <= bpow radix2 100) by (rewrite <- b9596; apply bpow_le; lia).
  assert (MM : forall r, 0.01 <= r <= bpow radix2 90 * 64 -> mid r).
  { intros r Hr. assert (H : bpow radix2 (-100) <= 0.01) by (apply Rle_trans with (bpow radix2 (-10)); [apply bpow_le; lia|bp; lra]). unfold mid. rewrite Rabs_pos_eq by lra. lra. }
  set (M := bpow radix2 90) in *. clearbody M.
  destruct (fofZ_R (prec:=24) (emax:=128) f ltac:(lia)) as [Ff Ef].
  assert (A1 : rl 0.00000013 (fmul rate (fdec 45 100)) (B2R rate * (9 / 20))).
  { apply (rl_mul 0 0.00000006); [now apply rl_self|apply c45_rl|lra|lra| |unfold ru; lra]. apply MM. lra. }
  assert (A2 : rl 0.00000026 (fmul TWO_PI (fmul rate (fdec 45 100))) (2 * PI * (B2R rate * (9 / 20)))).
  { apply (rl_mul 0.00000006 0.00000013); [apply tp_rl|exact A1|lra|lra| |unfold ru; lra]. apply MM. nra. }
  assert (A3 : rl 0.00000007 (fmul rate (fofZ f)) (B2R rate * IZR f)).
  { apply (rl_mul 0 0); [now apply rl_self|rewrite <- Ef; now apply rl_self|lra|lra| |unfold ru; lra]. apply MM. nra. }
  apply rl_eq with (2 * PI * (B2R rate * (9 / 20)) / (B2R rate * IZR f)); [|field; lra].
  apply (rl_div 0.00000026 0.00000007); [exact A2|exact A3|lra|lra|nra| |unfold ru; lra].
  replace (2 * PI * (B2R rate * (9 / 20)) / (B2R rate * IZR f)) with (2 * PI * (9 / 20) * / IZR f) by (field; lra).
  assert (I : / 16 <= / IZR f <= 1) by (split; [apply Rinv_le_contravar; lra|rewrite <- Rinv_1; apply Rinv_le_contravar; lra]).
  apply MM. nra.
Qed.
Lemma ideal_b f : (1 <= f <= 16)%Z -> 0.15 <= ideal_c f <= 1.
Proof.
  intros Hf. assert (F1 : 1 <= IZR f <= 16) by (split; apply IZR_le; lia). pose proof PI_bounds. unfold ideal_c. set (z := 2 * PI * (9 / 20) / IZR f).
  assert (I : / 16 <= / IZR f) by (apply Rinv_le_contravar; lra).
  assert (Z : 0.1766 <= z) by (unfold z, Rdiv; nra). split; [|pose proof (exp_pos (- z)); lra].
  set (y := 0.1766) in *. apply Rle_trans with (1 - exp (- y)); [|apply Rplus_le_compat_l, Ropp_le_contravar, exp_le_mono; lra]. pose proof (exp_neg_upper y ltac:(unfold y; lra)). unfold y in *. lra.
Qed.
Lemma coeff_ok L rate f : exp_unit L -> exp_acc L -> fin rate -> 1 <= B2R rate <= bpow radix2 90 -> (1 <= f <= 16)%Z ->
  fin (ds_coeff L rate f) /\ 0 <= B2R (ds_coeff L rate f) <= 1 /\ Rabs (B2R (ds_coeff L rate f) - ideal_c f) <= 0.000002.
Proof.
  intros U A F R Hf. unfold ds_coeff. destruct (omega_ok rate f F R Hf) as [Fw Ew]. set (w := fdiv _ _) in *. unfold ideal_c. set (W := 2 * PI * (9 / 20) / IZR f) in *.
  assert (F1 : 1 <= IZR f <= 16) by (split; apply IZR_le; lia). pose proof PI_bounds as PB.
  assert (I : / 16 <= / IZR f <= 1) by (split; [apply Rinv_le_contravar; lra|rewrite <- Rinv_1; apply Rinv_le_contravar; lra]).
  assert (WB : 0.1766 <= W <= 2.828) by (unfold W, Rdiv; nra). clearbody W. rewrite (Rabs_pos_eq W) in Ew by lra. apply Rabs_le_inv in Ew.
  assert (Wp : 0 < B2R w) by lra.
  assert (FL : fle (fneg w) fzero = true) by (apply fle_R; [now apply fneg_fin|reflexivity|]; rewrite fneg_R; cbn [B2R fzero]; lra).
  destruct (U _ FL) as [Fe Be]. destruct (A (fneg w) ltac:(now apply fneg_fin)) as [_ Ee]; [rewrite fneg_R; lra|]. rewrite fneg_R in Ee. set (e := m_exp L (fneg w)) in *.
  destruct (fsub_b 0 1 one e dy0 dy1 ltac:(reflexivity) Fe) as (Fc & Ec & Bc); [rewrite one_R; lra|]. split; [exact Fc|]. split; [exact Bc|].
  pose proof (rnd_err1 0 (B2R one - B2R e) ltac:(lia)) as Er. rewrite <- Ec in Er. specialize (Er ltac:(rewrite one_R, Rabs_pos_eq by lra; change (bpow radix2 0) with 1; lra)).
  rewrite one_R in Er. apply Rabs_le_inv in Er. apply Rabs_le_inv in Ee.
  pose proof (exp_neg_lip (- B2R w) (- W) ltac:(lra) ltac:(lra)) as Lp. assert (Rabs (- B2R w - - W) <= 0.000001415) by (apply Rabs_le; split; lra).
  apply Rle_trans with (1 := Lp) in H. apply Rabs_le_inv in H. assert (bpow radix2 (-23) <= 0.00000012) by (bp; lra). assert (bpow radix2 (0 - 25) <= 0.00000003) by (change (0 - 25)%Z with (-25)%Z; bp; lra).
  apply Rabs_le. split; lra.
Qed.

(** ** The ideal filter *)
Lemma lp_bound c u M : 0 <= c <= 1 -> (forall n, Rabs (u n) <= M) -> forall n, Rabs (lp c u n) <= M.
Proof.
  intros C U. assert (M0 : 0 <= M) by (eapply Rle_trans; [apply Rabs_pos|apply (U O)]). induction n as [|n IH]; cbn [lp].
  - rewrite Rabs_mult, (Rabs_pos_eq c) by lra. specialize (U O). nra.
  - eapply Rle_trans; [apply Rabs_triang|]. rewrite !Rabs_mult, (Rabs_pos_eq c), (Rabs_pos_eq (1 - c)) by lra. specialize (U (S n)). nra.
Qed.
Lemma lp_ext c u v n : (forall k, (k <= n)%nat -> u k = v k) -> lp c u n = lp c v n.
Proof. induction n as [|n IH]; intros H; cbn [lp]; [now rewrite H by lia|]. rewrite IH, H by auto with arith. reflexivity. Qed.
Lemma lp4_ext c u v n : (forall k, (k <= n)%nat -> u k = v k) -> lp4 c u n = lp4 c v n.
Proof. intros H. unfold lp4. repeat (apply lp_ext; intros ? ?; repeat match goal with K : (?k <= ?m)%nat |- _ => idtac end). apply H. lia. Qed.
Lemma sum_ext u v a m : (forall k, (a <= k < a + m)%nat -> u k = v k) -> sum u a m = sum v a m.
Proof. induction m as [|m IH]; intros H; cbn [sum]; [reflexivity|]. rewrite IH, H by (intros; try apply H; lia). reflexivity. Qed.
(** Value a filter holds after [n] samples. *)
Definition held (u : nat -> R) (n : nat) : R := match n with O => 0 | S m => u m end.
Lemma lp_held c u n : lp c u n = (1 - c) * held (lp c u) n + c * u n.
Proof. destruct n; cbn [lp held]; ring. Qed.
(** One stage in floating point. *)
Lemma stage_ok j e (c s x : f32) C S X : (-100 <= j <= 96)%Z -> fin c -> 0 <= B2R c <= 1 -> Rabs (B2R c - C) <= 0.000002 -> 0.15 <= C <= 1 ->
  bnd j s -> bnd j x -> 0 <= e -> Rabs (B2R s - S) <= (e + bpow radix2 (-15)) * bpow radix2 j -> Rabs (B2R x - X) <= e * bpow radix2 j ->
  bnd j (fadd s (fmul c (fsub x s))) /\ Rabs (B2R (fadd s (fmul c (fsub x s))) - ((1 - C) * S + C * X)) <= (e + bpow radix2 (-15)) * bpow radix2 j.
Proof.
  intros J Fc Bc EC CB [Fs Bs] [Fx Bx] E0 ES EX. destruct (lerp_acc j s x c J (conj Fs Bs) (conj Fx Bx) Fc Bc) as [_ LA].
  destruct (lerp_bound j s x c ltac:(lia) Fs Fx Fc Bc Bs Bx) as [Fl Bl]. change (lerp s x c) with (fadd s (fmul c (fsub x s))) in *. split; [split; assumption|].
  set (y := B2R (fadd s (fmul c (fsub x s)))) in *. clearbody y. unfold linear in LA.
  replace (bpow radix2 (j - 22)) with (bpow radix2 (-22) * bpow radix2 j) in LA by (rewrite <- bpow_plus; f_equal; lia).
  assert (P : 0 < bpow radix2 j) by apply bpow_gt_0. set (M := bpow radix2 j) in *. clearbody M.
  assert (B22 : bpow radix2 (-22) <= 0.00000024) by (bp; lra). assert (B15 : 0.0000305 <= bpow radix2 (-15)) by (bp; lra). set (h := bpow radix2 (-15)) in *. set (g := bpow radix2 (-22)) in *. clearbody h g.
  assert (D1 : Rabs ((B2R c - C) * (B2R x - B2R s)) <= 0.000002 * (2 * M)).
  { rewrite Rabs_mult. apply Rmult_le_compat; [apply Rabs_pos|apply Rabs_pos|exact EC|]. eapply Rle_trans; [apply Rabs_triang|]. rewrite Rabs_Ropp. lra. }
  assert (D2 : Rabs ((1 - C) * (B2R s - S)) <= (1 - C) * ((e + h) * M)) by (rewrite Rabs_mult, (Rabs_pos_eq (1 - C)) by lra; apply Rmult_le_compat_l; lra).
  assert (D3 : Rabs (C * (B2R x - X)) <= C * (e * M)) by (rewrite Rabs_mult, (Rabs_pos_eq C) by lra; apply Rmult_le_compat_l; lra).
  apply Rabs_le_inv in D1, D2, D3, LA.
  assert (G : (1 - C) * ((e + h) * M) + C * (e * M) = (e + h) * M - C * h * M) by ring.
  assert (G2 : 0.15 * 0.0000305 * M <= C * h * M) by (apply Rmult_le_compat_r; [lra|]; apply Rmult_le_compat; lra).
  assert (G3 : g * M <= 0.00000024 * M) by (apply Rmult_le_compat_r; lra).
  apply Rabs_le. split; nra.
Qed.
