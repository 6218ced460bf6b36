(** The double arithmetic of RLPF: coefficients and one step. *)
From Coq Require Import ZArith Reals Lra Lia Bool Psatz List.
From Flocq Require Import Core BinarySingleNaN.
From Verif Require Import Flt FltFacts FltMore FltArith FltClose Libm UtilModel UtilProofs Dbl LpModel LpReal LpReal2.
Import ListNotations.
Local Open Scope R_scope.

(** What the coefficients of a filter stand for. *)
Definition coef (k : lpc) (b0 a1 a2 : R) : Prop :=
  ap (21 * du) (lp_b0 k) b0 /\ ap (40 * du) (lp_b1 k) (2 * b0) /\ ap (21 * du) (lp_b2 k) b0 /\ ap (41 * du) (lp_a1 k) a1 /\ ap (33 * du) (lp_a2 k) a2 /\
  Rabs b0 <= 1 /\ Rabs a1 <= 2 /\ Rabs a2 <= 1.
Definition kap : R := bpow radix2 (-45).
Definition tiny : R := bpow radix2 (-1000).
Lemma tiny_pos : 0 < tiny. Proof. apply bpow_gt_0. Qed.
Lemma du_num : du = 1025 / 9223372036854775808. Proof. unfold du. change (bpow radix2 (-53)) with (/ 9007199254740992). lra. Qed.
Lemma kap_num : kap = / 35184372088832. Proof. reflexivity. Qed.
Lemma abs_le_mul a b A B : Rabs a <= A -> Rabs b <= B -> Rabs (a * b) <= A * B.
Proof. intros. rewrite Rabs_mult. apply Rmult_le_compat; auto using Rabs_pos. Qed.
Lemma ap_dev e x r : ap e x r -> fin x /\ exists d, B2R x = r + d /\ Rabs d <= e.
Proof. intros [F E]. split; [exact F|]. exists (B2R x - r). split; [ring|exact E]. Qed.

Section Step.
  Variables (k : lpc) (b0 a1 a2 : R) (x z1 z2 : f64).
  Hypothesis K : coef k b0 a1 a2.
  Hypothesis Fx : fin x.
  Hypothesis F1 : fin z1.
  Hypothesis F2 : fin z2.
  Let X := Rabs (B2R x).
  Let Z1 := Rabs (B2R z1).
  Let Z2 := Rabs (B2R z2).
  Hypothesis Sz : X + Z1 + Z2 <= bpow radix2 990.
  Let out := fadd (fmul (lp_b0 k) x) z1.
  Let z1' := fadd (fsub (fmul (lp_b1 k) x) (fmul (lp_a1 k) out)) z2.
  Let z2' := fsub (fmul (lp_b2 k) x) (fmul (lp_a2 k) out).
  Lemma mid_of M : tiny <= M -> M <= 20 * (X + Z1 + Z2) + 100 * tiny -> mid64 M.
  Proof.
    intros L H. split; [exact L|]. assert (T : tiny <= bpow radix2 990) by (apply bpow_le; lia). assert (E : bpow radix2 1000 = 1024 * bpow radix2 990) by (change 1000%Z with (10 + 990)%Z; rewrite bpow_plus; reflexivity).
    rewrite E. pose proof (bpow_gt_0 radix2 990). lra.
  Qed.
  Lemma step_err : fin out /\ fin z1' /\ fin z2' /\ exists e0 e1 e2, rstep b0 a1 a2 (B2R x) e0 e1 e2 (B2R z1) (B2R z2) (B2R out) (B2R z1') (B2R z2') /\ 2 * Rabs e0 + Rabs e1 + Rabs e2 <= kap * (X + tiny + Z1 + Z2) /\ Rabs e0 <= kap * (X + tiny + Z1).
  Proof.
    destruct K as (K0 & K1 & K2 & K3 & K4 & B0 & A1 & A2). pose proof tiny_pos as T. assert (X0 : 0 <= X) by apply Rabs_pos. assert (Z10 : 0 <= Z1) by apply Rabs_pos. assert (Z20 : 0 <= Z2) by apply Rabs_pos.
    assert (B1 : Rabs (2 * b0) <= 2) by (rewrite Rabs_mult, (Rabs_pos_eq 2) by lra; lra).
    pose proof (ap_self x Fx) as Ax. pose proof (ap_self z1 F1) as Az1. pose proof (ap_self z2 F2) as Az2.
    assert (Hx : Rabs (B2R x) <= X) by apply Rle_refl.
    assert (U := du_num). pose proof kap_num as KN.
    assert (M1 : ap (21 * du * X + 1 * 0 + 21 * du * 0 + (11 / 10 * X + tiny) * du) (fmul (lp_b0 k) x) (b0 * B2R x)).
    { apply (ap_mul (21 * du) 0 1 X); try assumption; [apply mid_of; lra|rewrite U; lra]. }
    assert (A0 : Rabs (b0 * B2R x) <= X) by (pose proof (abs_le_mul b0 (B2R x) 1 X B0 Hx); lra).
    assert (M2 : ap (21 * du * X + 1 * 0 + 21 * du * 0 + (11 / 10 * X + tiny) * du + 0 + (11 / 10 * X + Z1 + 2 * tiny) * du) out (b0 * B2R x + B2R z1)).
    { unfold out. apply ap_add; [exact M1|exact Az1|apply mid_of; lra|]. pose proof (Rabs_triang (b0 * B2R x) (B2R z1)). fold Z1 in H. rewrite U. lra. }
    destruct (ap_dev _ _ _ M2) as (Fo & e0 & E0 & D0).
    assert (Ao := ap_self out Fo). set (Y := 1001 / 1000 * (X + Z1) + tiny). assert (Y0 : 0 <= Y) by (unfold Y; lra).
    assert (Hy : Rabs (B2R out) <= Y). { rewrite E0. eapply Rle_trans; [apply Rabs_triang|]. pose proof (Rabs_triang (b0 * B2R x) (B2R z1)) as H. fold Z1 in H. rewrite U in D0. unfold Y. lra. }
    assert (N1 : ap (40 * du * X + 2 * 0 + 40 * du * 0 + (21 / 10 * X + tiny) * du) (fmul (lp_b1 k) x) (2 * b0 * B2R x)).
    { apply (ap_mul (40 * du) 0 2 X); try assumption; [apply mid_of; lra|rewrite U; lra]. }
    assert (N2 : ap (41 * du * Y + 2 * 0 + 41 * du * 0 + (21 / 10 * Y + tiny) * du) (fmul (lp_a1 k) out) (a1 * B2R out)).
    { apply (ap_mul (41 * du) 0 2 Y); try assumption; [apply mid_of; unfold Y; lra|rewrite U; lra]. }
    assert (N1a : Rabs (2 * b0 * B2R x) <= 2 * X) by (apply abs_le_mul; assumption).
    assert (N2a : Rabs (a1 * B2R out) <= 2 * Y) by (apply abs_le_mul; assumption).
    pose proof (ap_sub _ _ (21 / 10 * (X + Y) + tiny) _ _ _ _ N1 N2 ltac:(apply mid_of; unfold Y; lra)) as N3.
    assert (N3a : Rabs (2 * b0 * B2R x - a1 * B2R out) <= 2 * X + 2 * Y) by (unfold Rminus; eapply Rle_trans; [apply Rabs_triang|]; rewrite Rabs_Ropp; lra).
    specialize (N3 ltac:(rewrite U; lra)).
    pose proof (ap_add _ _ (21 / 10 * (X + Y) + Z2 + tiny) _ _ _ _ N3 Az2 ltac:(apply mid_of; unfold Y; lra)) as N4.
    assert (N4a : Rabs (2 * b0 * B2R x - a1 * B2R out + B2R z2) <= 2 * X + 2 * Y + Z2) by (eapply Rle_trans; [apply Rabs_triang|]; unfold Z2; lra).
    specialize (N4 ltac:(rewrite U; lra)). fold z1' in N4.
    assert (L1 : ap (21 * du * X + 1 * 0 + 21 * du * 0 + (11 / 10 * X + tiny) * du) (fmul (lp_b2 k) x) (b0 * B2R x)).
    { apply (ap_mul (21 * du) 0 1 X); try assumption; [apply mid_of; lra|rewrite U; lra]. }
    assert (L2 : ap (33 * du * Y + 1 * 0 + 33 * du * 0 + (11 / 10 * Y + tiny) * du) (fmul (lp_a2 k) out) (a2 * B2R out)).
    { apply (ap_mul (33 * du) 0 1 Y); try assumption; [apply mid_of; unfold Y; lra|rewrite U; lra]. }
    assert (L2a : Rabs (a2 * B2R out) <= 1 * Y) by (apply abs_le_mul; assumption).
    pose proof (ap_sub _ _ (11 / 10 * (X + Y) + tiny) _ _ _ _ L1 L2 ltac:(apply mid_of; unfold Y; lra)) as L3.
    assert (L3a : Rabs (b0 * B2R x - a2 * B2R out) <= X + Y) by (unfold Rminus; eapply Rle_trans; [apply Rabs_triang|]; rewrite Rabs_Ropp; lra).
    specialize (L3 ltac:(rewrite U; lra)). fold z2' in L3.
    destruct (ap_dev _ _ _ N4) as (G1 & e1 & E1 & D1). destruct (ap_dev _ _ _ L3) as (G2 & e2 & E2 & D2).
    split; [exact Fo|]. split; [exact G1|]. split; [exact G2|]. exists e0, e1, e2. split; [unfold rstep; auto|].
    rewrite U in D0, D1, D2. rewrite KN. unfold Y in *. split; lra.
  Qed.
End Step.

(** Trigonometric facts. *)
From Verif Require Import RealBounds LpSpec.
Lemma sin_small y : 239 / 10000000 <= y <= / 100 -> 23 / 1000000 <= sin y.
Proof.
  intros H. destruct (MVT_cor2 sin cos 0 y) as (c & E & Hc); [lra|intros; apply derivable_pt_lim_sin|]. rewrite sin_0, !Rminus_0_r in E. rewrite E.
  pose proof (cos_lower c). assert (9999 / 10000 <= cos c) by nra. nra.
Qed.
Lemma sin_half y : 239 / 10000000 <= y <= PI / 2 -> 23 / 1000000 <= sin y.
Proof.
  intros H. destruct (Rle_lt_dec y (/ 100)); [apply sin_small; lra|]. destruct (Rle_lt_dec y 1); [pose proof (sin_half_lower y ltac:(lra)); lra|].
  pose proof (sin_half_lower 1 ltac:(lra)). pose proof PI_bounds. pose proof (sin_incr_1 1 y ltac:(lra) ltac:(lra) ltac:(lra) ltac:(lra) ltac:(lra)). lra.
Qed.
Lemma sin_low y : 239 / 10000000 <= y <= 3112 / 1000 -> 23 / 1000000 <= sin y.
Proof.
  intros H. pose proof PI_bounds. destruct (Rle_lt_dec y (PI / 2)); [apply sin_half; lra|]. rewrite <- sin_PI_x. apply sin_half. lra.
Qed.

Lemma two_d : ap 0 d2 2. Proof. split; [reflexivity|]. replace (B2R d2) with 2; [rewrite Rminus_diag_eq, Rabs_R0 by reflexivity; lra|]. fval d2. unfold Q2R in *. lra. Qed.
Lemma one_d : ap 0 d1 1. Proof. split; [reflexivity|]. replace (B2R d1) with 1; [rewrite Rminus_diag_eq, Rabs_R0 by reflexivity; lra|]. fval d1. lra. Qed.
(** Doubling a float is exact in double. *)
Lemma twice_d (q : f32) : fin q -> ap 0 (fmul d2 (f2d q)) (2 * B2R q).
Proof.
  intros F. destruct (f2d_R q F) as [Fd Ed]. destruct two_d as [F2 E2]. assert (V2 : B2R d2 = 2) by (fval d2; lra).
  assert (D : dy64 (B2R d2 * B2R (f2d q))).
  { rewrite V2, Ed. pose proof (fmt_B2R q) as G. apply (FLT_format_generic radix2 (-149) 24) in G. destruct G as [[m e] E Hm He]. cbn [Fnum Fexp] in *.
    rewrite E. replace (2 * F2R (Float radix2 m e)) with (F2R (Float radix2 m (e + 1))) by (unfold F2R; cbn [Fnum Fexp]; rewrite bpow_plus; change (bpow radix2 1) with 2; ring).
    split.
    - apply generic_format_FLT. exists (Float radix2 m (e + 1)); [reflexivity|cbn [Fnum]; eapply Z.lt_trans; [exact Hm|reflexivity]|cbn [Fexp]; unfold SpecFloat.emin; lia].
    - replace (F2R (Float radix2 m (e + 1))) with (2 * B2R q) by (rewrite E; unfold F2R; cbn [Fnum Fexp]; rewrite bpow_plus; change (bpow radix2 1) with 2; ring).
      rewrite Rabs_mult, (Rabs_pos_eq 2) by lra. pose proof (abs_B2R_lt_emax 24 128 q) as B. apply Rlt_le_trans with (2 * bpow radix2 128); [lra|]. change 2 with (bpow radix2 1). rewrite <- bpow_plus. apply bpow_le. lia. }
  destruct (fmul_exact d2 (f2d q) F2 Fd D) as [A B]. split; [exact A|]. rewrite B, V2, Ed, Rminus_diag_eq, Rabs_R0 by reflexivity. lra.
Qed.
Lemma PIf_R : B2R PIf = 13176795 / 4194304. Proof. fval PIf. lra. Qed.
Lemma omega_b sr f : lp_rate sr -> fin f -> 1 <= B2R f <= 4951 / 10000 * B2R sr -> fin (lp_omega sr f) /\ 239 / 10000000 <= B2R (lp_omega sr f) <= 3112 / 1000 /\ 62 / 10 * (B2R f / B2R sr) <= B2R (lp_omega sr f).
Proof.
  intros [Fs Hs] Ff Hf. pose proof (twice_d PIf eq_refl) as A1. destruct (f2d_R f Ff) as [Fd Ed]. destruct (f2d_R sr Fs) as [Sd Es].
  pose proof (ap_self _ Fd) as A2. rewrite Ed in A2. pose proof (ap_self _ Sd) as A3. rewrite Es in A3. rewrite PIf_R in A1.
  set (F := B2R f) in *. set (S := B2R sr) in *. assert (F1 : Rabs F <= 130000) by (rewrite Rabs_pos_eq; lra).
  assert (T : mid64 1000000). { split; [apply Rle_trans with (bpow radix2 0); [apply bpow_le; lia|change (bpow radix2 0) with 1; lra]|]. apply Rle_trans with (bpow radix2 20); [change (bpow radix2 20) with 1048576; lra|apply bpow_le; lia]. }
  assert (T8 : mid64 8). { split; [apply Rle_trans with (bpow radix2 0); [apply bpow_le; lia|change (bpow radix2 0) with 1; lra]|]. change 8 with (bpow radix2 3). apply bpow_le. lia. }
  assert (P7 : Rabs (2 * (13176795 / 4194304)) <= 63 / 10) by (rewrite Rabs_pos_eq; lra).
  pose proof (ap_mul 0 0 (63 / 10) 130000 1000000 _ _ _ _ A1 A2 P7 F1 T ltac:(lra)) as A4.
  assert (U := du_num). assert (Q : / 262144 <= F / S <= 4951 / 10000).
  { split; apply Rmult_le_reg_r with S; try lra; unfold Rdiv; rewrite Rmult_assoc, Rinv_l by lra; lra. }
  assert (E : 2 * (13176795 / 4194304) * F / S = 2 * (13176795 / 4194304) * (F / S)) by (unfold Rdiv; ring).
  pose proof (ap_div _ 0 4 4 8 _ _ _ _ A4 A3) as A5. fold (lp_omega sr f) in A5. rewrite E in A5.
  specialize (A5 ltac:(rewrite Rabs_pos_eq; lra) ltac:(rewrite Rabs_pos_eq; lra) ltac:(lra) T8 ltac:(rewrite U; lra)).
  destruct A5 as [Fo Eo]. split; [exact Fo|]. rewrite U in Eo. apply Rabs_le_inv in Eo. split; lra.
Qed.

(** The real coefficients of cutoff angle [w] and quality [Q]. *)
Definition al_ (w Q : R) : R := sin w / (2 * Q).
Definition b0_ (w Q : R) : R := (1 - cos w) / 2 / (1 + al_ w Q).
Definition a1_ (w Q : R) : R := - 2 * cos w / (1 + al_ w Q).
Definition a2_ (w Q : R) : R := (1 - al_ w Q) / (1 + al_ w Q).
Lemma mid_num M : 1 <= M <= 16 -> mid64 M.
Proof. intros H. split; [apply Rle_trans with (bpow radix2 0); [apply bpow_le; lia|change (bpow radix2 0) with 1; lra]|]. apply Rle_trans with (bpow radix2 4); [change (bpow radix2 4) with 16; lra|apply bpow_le; lia]. Qed.
Lemma coeffs_ok L sr f q : sincos_acc L -> lp_rate sr -> fin f -> 1 <= B2R f <= 4951 / 10000 * B2R sr -> fin q -> / 10 <= B2R q <= 30 ->
  let w := B2R (lp_omega sr f) in 23 / 1000000 <= sin w /\ coef (lp_coeffs L sr f q) (b0_ w (B2R q)) (a1_ w (B2R q)) (a2_ w (B2R q)).
Proof.
  intros HL Hr Ff Hf Fq Hq w. destruct (omega_b sr f Hr Ff Hf) as (Fo & Ho & _). fold w in Ho. pose proof (sin_low w Ho) as S0. split; [exact S0|].
  destruct (HL _ Fo ltac:(fold w; lra)) as [[F1 E1] [F2 E2]]. fold w in E1, E2. assert (U := du_num).
  assert (Hu : bpow radix2 (-53) <= du) by (rewrite U; change (bpow radix2 (-53)) with (/ 9007199254740992); lra).
  assert (AS : ap du (d_sin L (lp_omega sr f)) (sin w)) by (split; [exact F1|lra]). assert (AC : ap du (d_cos L (lp_omega sr f)) (cos w)) by (split; [exact F2|lra]).
  pose proof (twice_d q Fq) as AQ. set (Q := B2R q) in *.
  assert (CS : cos w * cos w + sin w * sin w = 1) by (pose proof (sin2_cos2 w) as H; unfold Rsqr in H; lra). assert (S1 : 0 < sin w) by lra.
  pose proof (al_pos (sin w) Q S1 Hq) as L0. pose proof (al_le (cos w) (sin w) Q CS S1 Hq) as L5. fold (al_ w Q) in L0, L5.
  pose proof (c_lt1 (cos w) (sin w) CS S1) as C1.
  pose proof (b0_le1 (cos w) (sin w) Q CS S1 Hq) as Bl. pose proof (b0_pos (cos w) (sin w) Q CS S1 Hq) as Bp. pose proof (a1_le (cos w) (sin w) Q CS S1 Hq) as A1l. pose proof (a2_lt (sin w) Q S1 Hq) as A2l.
  fold (al_ w Q) in Bl, Bp, A1l, A2l. fold (b0_ w Q) in Bl, Bp. fold (a1_ w Q) in A1l. fold (a2_ w Q) in A2l.
  set (al := al_ w Q) in *. set (c := cos w) in *. 
  assert (AL : ap (du / / 5 + 51 / 10 * du) (fdiv (d_sin L (lp_omega sr f)) (fmul d2 (f2d q))) al).
  { replace (du / / 5) with ((du + 5 * 0) / / 5) by (field). apply ap_div; [exact AS|exact AQ| | | |apply mid_num; lra|].
    - fold (al_ w Q). fold al. rewrite Rabs_pos_eq; lra.
    - rewrite Rabs_pos_eq; lra.
    - lra.
    - rewrite U. lra. }
  assert (A0 : ap (0 + (du / / 5 + 51 / 10 * du) + 61 / 10 * du) (fadd d1 (fdiv (d_sin L (lp_omega sr f)) (fmul d2 (f2d q)))) (1 + al)).
  { apply ap_add; [exact one_d|exact AL|apply mid_num; lra|]. rewrite Rabs_pos_eq by lra. rewrite U. lra. }
  assert (AM : ap (0 + (du / / 5 + 51 / 10 * du) + 41 / 10 * du) (fsub d1 (fdiv (d_sin L (lp_omega sr f)) (fmul d2 (f2d q)))) (1 - al)).
  { apply ap_sub; [exact one_d|exact AL|apply mid_num; lra|]. assert (Rabs (1 - al) <= 4) by (apply Rabs_le; lra). rewrite U. lra. }
  assert (AB1 : ap (0 + du + 21 / 10 * du) (fsub d1 (d_cos L (lp_omega sr f))) (1 - c)).
  { apply ap_sub; [exact one_d|exact AC|apply mid_num; lra|]. rewrite Rabs_pos_eq by lra. rewrite U. lra. }
  assert (AB0 : ap ((0 + du + 21 / 10 * du + 1 * 0) / 2 + 11 / 10 * du) (fdiv (fsub d1 (d_cos L (lp_omega sr f))) d2) ((1 - c) / 2)).
  { apply ap_div; [exact AB1|exact two_d| | | |apply mid_num; lra|]; try lra; try (rewrite Rabs_pos_eq; lra); try (rewrite U; lra). }
  assert (AA1 : ap (0 * 1 + 2 * du + 0 * du + 21 / 10 * du) (fmul (fneg d2) (d_cos L (lp_omega sr f))) (- 2 * c)).
  { assert (N2 : ap 0 (fneg d2) (- 2)) by (apply ap_neg; exact two_d). apply ap_mul; [exact N2|exact AC| | |apply mid_num; lra|].
    - rewrite Rabs_left; lra.
    - apply Rabs_le. lra.
    - rewrite U. lra. }
  assert (R0 : Rabs (1 + al) = 1 + al) by (apply Rabs_pos_eq; lra).
  assert (AN : forall n r e b, ap e n r -> Rabs (r / (1 + al)) <= b -> 0 <= e <= 20 * du -> b <= 2 -> ap ((e + b * (17 * du)) / (999 / 1000) + (b + 1 / 100) * du) (fdiv n (fadd d1 (fdiv (d_sin L (lp_omega sr f)) (fmul d2 (f2d q))))) (r / (1 + al)) \/ b + 1 / 100 < 1).
  { intros n r e b Hn Hb He Hb2. destruct (Rle_lt_dec 1 (b + 1 / 100)); [left|right; lra]. apply ap_div; [exact Hn| |exact Hb| |lra|apply mid_num; lra|].
    - apply ap_weak with (1 := A0). rewrite U. lra.
    - rewrite R0, U. lra.
    - rewrite U in He |- *. assert (0 <= b) by (pose proof (Rabs_pos (r / (1 + al))); lra). lra. }
  assert (V : 0 < du) by (rewrite U; lra).
  assert (E0 : (1 - c) / 2 / (1 + al) = b0_ w Q) by reflexivity. assert (E3 : (1 - c) / (1 + al) = 2 * b0_ w Q) by (unfold b0_; fold c al; field; lra).
  assert (E4 : -2 * c / (1 + al) = a1_ w Q) by reflexivity. assert (E5 : (1 - al) / (1 + al) = a2_ w Q) by reflexivity.
  assert (D : forall n r e b t, ap e n r -> Rabs (r / (1 + al)) <= b -> 0 <= e <= 20 * du -> 1 <= b <= 2 -> (e + b * (17 * du)) / (999 / 1000) + (b + 1 / 100) * du <= t -> ap t (fdiv n (fadd d1 (fdiv (d_sin L (lp_omega sr f)) (fmul d2 (f2d q))))) (r / (1 + al))).
  { intros n r e b t Hn Hb He Hb2 Ht. destruct (AN n r e b Hn Hb He ltac:(lra)) as [H|H]; [apply ap_weak with (1 := H); exact Ht|lra]. }
  assert (B0 : Rabs (b0_ w Q) <= 1) by (rewrite Rabs_pos_eq; lra). assert (B1 : Rabs (2 * b0_ w Q) <= 2) by (rewrite Rabs_pos_eq; lra). assert (B2 : Rabs (a2_ w Q) <= 1) by (apply Rabs_le; lra).
  unfold coef, lp_coeffs. cbn [lp_b0 lp_b1 lp_b2 lp_a1 lp_a2]. rewrite <- E3 in B1 |- *.
  split; [apply (D _ _ _ 1 _ AB0); [exact B0|rewrite U; lra|lra|rewrite U; lra]|].
  split; [apply (D _ _ _ 2 _ AB1); [exact B1|rewrite U; lra|lra|rewrite U; lra]|].
  split; [apply (D _ _ _ 1 _ AB0); [exact B0|rewrite U; lra|lra|rewrite U; lra]|].
  split; [apply (D _ _ _ 2 _ AA1); [exact A1l|rewrite U; lra|lra|rewrite U; lra]|].
  split; [apply (D _ _ _ 1 _ AM); [exact B2|rewrite U; lra|lra|rewrite U; lra]|].
  split; [exact B0|]. split; [exact A1l|exact B2].
Qed.

(** One tick of a filter with parameters in range. *)
Definition st (s : rlpf) : R * R := (B2R (lp_z1 s), B2R (lp_z2 s)).
Definition wof (s : rlpf) : R := B2R (lp_omega (lp_sr s) (lp_freq s)).
Definition Qof (s : rlpf) : R := B2R (lp_res s).
Definition lp_fin (s : rlpf) : Prop := fin (lp_z1 s) /\ fin (lp_z2 s).
Definition lp_out (s : rlpf) (x : f32) : f64 := fadd (fmul (lp_b0 (lp_c s)) (f2d x)) (lp_z1 s).
Lemma tick_out s x : snd (lp_tick s x) = d2f (lp_out s x). Proof. reflexivity. Qed.
Lemma tick_same s x : let t := fst (lp_tick s x) in lp_sr t = lp_sr s /\ lp_freq t = lp_freq s /\ lp_res t = lp_res s /\ lp_c t = lp_c s.
Proof. repeat split. Qed.
Section Tick.
  Variable L : libm.
  Hypothesis HL : sincos_acc L.
  Lemma tick_params s x : lp_params s -> lp_params (fst (lp_tick s x)). Proof. intros H. exact H. Qed.
  Lemma tick_current s x : lp_current L s -> lp_current L (fst (lp_tick s x)). Proof. intros H. exact H. Qed.
  Lemma tick_step s x : lp_params s -> lp_current L s -> lp_fin s -> fin x -> Rabs (B2R x) + Rabs (fst (st s)) + Rabs (snd (st s)) <= bpow radix2 990 ->
    let t := fst (lp_tick s x) in lp_fin t /\ fin (lp_out s x) /\
    exists e0 e1 e2, rstep (b0_ (wof s) (Qof s)) (a1_ (wof s) (Qof s)) (a2_ (wof s) (Qof s)) (B2R x) e0 e1 e2 (fst (st s)) (snd (st s)) (B2R (lp_out s x)) (fst (st t)) (snd (st t)) /\
      2 * Rabs e0 + Rabs e1 + Rabs e2 <= kap * (Rabs (B2R x) + tiny + Rabs (fst (st s)) + Rabs (snd (st s))) /\ Rabs e0 <= kap * (Rabs (B2R x) + tiny + Rabs (fst (st s))).
  Proof.
    intros (Hr & Ff & Hf & Fq & Hq) Hc [F1 F2] Fx Hb t. destruct (coeffs_ok L _ _ _ HL Hr Ff Hf Fq Hq) as [_ K]. unfold lp_current in Hc. rewrite <- Hc in K.
    destruct (f2d_R x Fx) as [Fd Ed]. unfold st in Hb. cbn [fst snd] in Hb. rewrite <- Ed in Hb.
    destruct (step_err _ _ _ _ _ _ _ K Fd F1 F2 Hb) as (G0 & G1 & G2 & e0 & e1 & e2 & S & E & E'). rewrite Ed in S, E, E'.
    split; [split; [exact G1|exact G2]|]. split; [exact G0|]. exists e0, e1, e2. split; [exact S|]. split; [exact E|exact E'].
  Qed.
  Lemma base s : lp_params s -> cos (wof s) * cos (wof s) + sin (wof s) * sin (wof s) = 1 /\ 23 / 1000000 <= sin (wof s) /\ / 10 <= Qof s <= 30.
  Proof.
    intros (Hr & Ff & Hf & Fq & Hq). destruct (coeffs_ok L _ _ _ HL Hr Ff Hf Fq Hq) as [S _]. split; [|split; [exact S|exact Hq]].
    pose proof (sin2_cos2 (wof s)) as H. unfold Rsqr in H. lra.
  Qed.
  Lemma kap_ok : 0 < kap <= bpow radix2 (-45). Proof. split; [apply bpow_gt_0|apply Rle_refl]. Qed.

  (** A region the state cannot leave. *)
  Lemma region s X Z0 : lp_params s -> lp_current L s -> bpow radix2 (-149) <= X <= bpow radix2 120 -> 0 <= Z0 <= bpow radix2 80 ->
    exists G : R * R -> Prop, (forall z, Rabs (fst z) <= Z0 -> Rabs (snd z) <= Z0 -> G z) /\
    (forall t x, lp_sr t = lp_sr s -> lp_freq t = lp_freq s -> lp_res t = lp_res s -> lp_c t = lp_c s -> lp_fin t -> G (st t) -> fin x -> Rabs (B2R x) <= X ->
      lp_fin (fst (lp_tick t x)) /\ G (st (fst (lp_tick t x))) /\ fin (snd (lp_tick t x)) /\ Rabs (B2R (snd (lp_tick t x))) <= (2 * Qof s + 11) * X + bpow radix2 42 * Z0) /\
    (forall z, G z -> Rabs (fst z) <= bpow radix2 200 /\ Rabs (snd z) <= bpow radix2 200).
  Proof.
    intros Hp Hc [X1 X2] [Y1 Y2]. destruct (base s Hp) as (CS & S0 & HQ). pose proof tiny_pos as T0.
    assert (X0 : 0 < X) by (pose proof (bpow_gt_0 radix2 (-149)); lra).
    assert (T1 : 1000000 * tiny <= X). { apply Rle_trans with (2 := X1). change 1000000 with (IZR 1000000). apply Rle_trans with (bpow radix2 20 * tiny); [apply Rmult_le_compat_r; [lra|change (bpow radix2 20) with 1048576; lra]|]. unfold tiny. rewrite <- bpow_plus. apply bpow_le. lia. }
    destruct (bound_all (cos (wof s)) (sin (wof s)) (Qof s) kap (X + tiny) CS S0 HQ kap_ok ltac:(lra) X Z0 ltac:(lra) Y1) as (G & G1 & G2 & G3).
    set (Zm := 16 / 15 * ((2 * Qof s + 9 / 2) * X + (X + tiny) / 48) + bpow radix2 41 * Z0) in *.
    assert (ZB : Zm <= 80 * bpow radix2 120 + bpow radix2 121).
    { unfold Zm. assert ((2 * Qof s + 9 / 2) * X <= (129 / 2) * X) by (apply Rmult_le_compat_r; lra). assert (bpow radix2 41 * Z0 <= bpow radix2 41 * bpow radix2 80) by (apply Rmult_le_compat_l; [apply bpow_ge_0|exact Y2]).
      rewrite <- bpow_plus in H0. change (41 + 80)%Z with 121%Z in H0. lra. }
    assert (B7 : 82 * bpow radix2 120 <= bpow radix2 127) by (change 127%Z with (7 + 120)%Z; rewrite bpow_plus; change (bpow radix2 7) with 128; pose proof (bpow_gt_0 radix2 120); lra).
    assert (E21 : bpow radix2 121 = 2 * bpow radix2 120) by (change 121%Z with (1 + 120)%Z; rewrite bpow_plus; reflexivity).
    assert (E20 : bpow radix2 127 = 128 * bpow radix2 120) by (change 127%Z with (7 + 120)%Z; rewrite bpow_plus; reflexivity).
    assert (B27 : Zm <= bpow radix2 127) by lra.
    assert (B90 : bpow radix2 120 + bpow radix2 127 + 2 * bpow radix2 127 <= bpow radix2 200).
    { assert (bpow radix2 120 <= bpow radix2 127) by (apply bpow_le; lia). apply Rle_trans with (bpow radix2 2 * bpow radix2 127); [change (bpow radix2 2) with 4; lra|]. rewrite <- bpow_plus. apply bpow_le. lia. }
    assert (B99 : bpow radix2 200 <= bpow radix2 990) by (apply bpow_le; lia).
    exists G. split; [exact G1|]. split.
    - intros t x Es Ef Eq Ec Ft Gt Fx Hx.
      assert (Hpt : lp_params t) by (unfold lp_params in *; rewrite Es, Ef, Eq; exact Hp). assert (Hct : lp_current L t) by (unfold lp_current in *; rewrite Es, Ef, Eq, Ec; exact Hc).
      assert (Ew : wof t = wof s) by (unfold wof; now rewrite Es, Ef). assert (EQ : Qof t = Qof s) by (unfold Qof; now rewrite Eq).
      destruct (G3 _ Gt) as [Z1 Z2].
      destruct (tick_step t x Hpt Hct Ft Fx ltac:(lra)) as (Fn & Fo & e0 & e1 & e2 & S & E & E'). rewrite Ew, EQ in S.
      split; [exact Fn|]. split.
      + apply (G2 (B2R x) (st t) _); [|exact Hx|exact Gt]. exists (B2R (lp_out t x)), e0, e1, e2. split; [exact S|]. eapply Rle_trans; [exact E|]. apply Rmult_le_compat_l; [apply Rlt_le, bpow_gt_0|]. lra.
      + rewrite tick_out. destruct S as (S & _ & _).
        assert (Bo : Rabs (B2R (lp_out t x)) <= X + Zm + kap * (X + tiny + Zm)).
        { rewrite S. pose proof (Rabs_triang (b0_ (wof s) (Qof s) * B2R x + fst (st t)) e0) as R1. pose proof (Rabs_triang (b0_ (wof s) (Qof s) * B2R x) (fst (st t))) as R2.
          assert (Rabs (b0_ (wof s) (Qof s) * B2R x) <= 1 * X). { apply abs_le_mul; [|exact Hx]. unfold b0_, al_. pose proof (b0_pos _ _ (Qof s) CS ltac:(lra) HQ). pose proof (b0_le1 _ _ (Qof s) CS ltac:(lra) HQ). rewrite Rabs_pos_eq; lra. }
          assert (Rabs e0 <= kap * (X + tiny + Zm)) by (eapply Rle_trans; [exact E'|]; apply Rmult_le_compat_l; [apply Rlt_le, bpow_gt_0|]; lra). lra. }
        assert (Bo2 : Rabs (B2R (lp_out t x)) <= (2 * Qof s + 984 / 100) * X + 16 / 15 * (bpow radix2 41 * Z0)).
        { eapply Rle_trans; [exact Bo|]. rewrite kap_num. unfold Zm in *. assert (Qof s * X <= 30 * X) by (apply Rmult_le_compat_r; lra). assert (0 <= bpow radix2 41 * Z0) by (apply Rmult_le_pos; [apply bpow_ge_0|lra]). lra. }
        assert (Bo3 : Rabs (B2R (lp_out t x)) <= bpow radix2 127) by (eapply Rle_trans; [exact Bo|]; rewrite kap_num; lra).
        apply Rabs_le_inv in Bo3.
        destruct (d2f_b (- bpow radix2 127) (bpow radix2 127) (lp_out t x) Fo) as (F & R & _); [apply dy_opp; apply dy_bpow; cbn; lia|apply dy_bpow; cbn; lia|lra|].
        split; [exact F|]. rewrite R. pose proof (@rnd_rel 24 128 _ (B2R (lp_out t x))) as RR. change (SpecFloat.emin 24 128 - 1)%Z with (-150)%Z in RR.
        assert (X5 : bpow radix2 (-150) = / 2 * bpow radix2 (-149)) by (change (-149)%Z with (1 + -150)%Z; rewrite (bpow_plus radix2 1); change (bpow radix2 1) with 2; lra).
        change (bpow radix2 (- (24))) with (/ 16777216) in RR. rewrite X5 in RR.
        assert (E42 : bpow radix2 42 = 2 * bpow radix2 41) by (change 42%Z with (1 + 41)%Z; rewrite bpow_plus; reflexivity). rewrite E42.
        set (o := B2R (lp_out t x)) in *. pose proof (Rabs_triang (@rnd 24 128 o - o) o) as R3. replace (@rnd 24 128 o - o + o) with (@rnd 24 128 o) in R3 by ring.
        assert (Qof s * X <= 30 * X) by (apply Rmult_le_compat_r; lra). assert (0 <= bpow radix2 41 * Z0) by (apply Rmult_le_pos; [apply bpow_ge_0|lra]). lra.
    - intros z Gz. destruct (G3 z Gz). pose proof (bpow_gt_0 radix2 120). lra.
  Qed.

  (** Bounded input, bounded output. *)
  Lemma ticks_bounded s X Z0 xs : lp_params s -> lp_current L s -> lp_fin s -> Rabs (fst (st s)) <= Z0 -> Rabs (snd (st s)) <= Z0 -> bpow radix2 (-149) <= X <= bpow radix2 120 -> 0 <= Z0 <= bpow radix2 80 ->
    Forall (fun x => fin x /\ Rabs (B2R x) <= X) xs -> Forall (fun y => fin y /\ Rabs (B2R y) <= (2 * Qof s + 11) * X + bpow radix2 42 * Z0) (lp_ticks s xs).
  Proof.
    intros Hp Hc Hf H1 H2 HX HZ Hxs. destruct (region s X Z0 Hp Hc HX HZ) as (G & G1 & G2 & _). pose proof (G1 _ H1 H2) as G0.
    enough (A : forall xs t, Forall (fun x => fin x /\ Rabs (B2R x) <= X) xs -> lp_sr t = lp_sr s -> lp_freq t = lp_freq s -> lp_res t = lp_res s -> lp_c t = lp_c s -> lp_fin t -> G (st t) ->
      Forall (fun y => fin y /\ Rabs (B2R y) <= (2 * Qof s + 11) * X + bpow radix2 42 * Z0) (lp_ticks t xs)) by (now apply A).
    clear xs Hxs. induction xs as [|x xs IH]; intros t Hxs E1 E2 E3 E4 Ft Gt; [constructor|].
    inversion Hxs as [|? ? [Fx Bx] Hr]; subst. destruct (G2 t x E1 E2 E3 E4 Ft Gt Fx Bx) as (A1 & A2 & A3 & A4).
    cbn [lp_ticks]. destruct (lp_tick t x) as [t' y] eqn:E. cbn [fst snd] in *. constructor; [split; assumption|].
    pose proof (tick_same t x) as (S1 & S2 & S3 & S4). rewrite E in S1, S2, S3, S4. cbn [fst] in *. apply IH; try assumption; congruence.
  Qed.

  Lemma hold_same s v n : lp_sr (lp_hold s v n) = lp_sr s /\ lp_freq (lp_hold s v n) = lp_freq s /\ lp_res (lp_hold s v n) = lp_res s /\ lp_c (lp_hold s v n) = lp_c s.
  Proof. induction n as [|n IH]; [repeat split|]. cbn [lp_hold]. destruct (tick_same (lp_hold s v n) v) as (S1 & S2 & S3 & S4). intuition congruence. Qed.

  (** A constant input comes out again. *)
  Lemma settles s v : lp_params s -> lp_current L s -> lp_fin s -> Rabs (fst (st s)) <= bpow radix2 80 -> Rabs (snd (st s)) <= bpow radix2 80 -> fin v -> Rabs (B2R v) <= bpow radix2 120 ->
    exists k, forall n, (k <= n)%nat -> fin (snd (lp_tick (lp_hold s v n) v)) /\
      Rabs (B2R (snd (lp_tick (lp_hold s v n) v)) - B2R v) <= (bpow radix2 (-23) + bpow radix2 (-33) / (sin (wof s) * sin (wof s))) * Rabs (B2R v) + bpow radix2 (-149).
  Proof.
    intros Hp Hc Hf H1 H2 Fv Hv. set (X := Rabs (B2R v) + bpow radix2 (-149)). destruct (base s Hp) as (CS & S0 & HQ). pose proof tiny_pos as T0.
    assert (Vp := Rabs_pos (B2R v)). assert (M0 := bpow_gt_0 radix2 (-149)).
    set (X' := Rmax (Rabs (B2R v)) (bpow radix2 (-149))).
    destruct (region s X' (bpow radix2 80) Hp Hc) as (G & G1 & G2 & G3).
    { unfold X'. split; [apply Rmax_r|]. apply Rmax_lub; [exact Hv|apply bpow_le; lia]. }
    { split; [apply bpow_ge_0|apply Rle_refl]. }
    assert (Inv : forall n, lp_fin (lp_hold s v n) /\ G (st (lp_hold s v n))).
    { induction n as [|n [I1 I2]]; [split; [exact Hf|now apply G1]|]. destruct (hold_same s v n) as (E1 & E2 & E3 & E4). cbn [lp_hold].
      destruct (G2 (lp_hold s v n) v E1 E2 E3 E4 I1 I2 Fv ltac:(apply Rmax_l)) as (A1 & A2 & _). split; assumption. }
    set (b0 := b0_ (wof s) (Qof s)). set (a1 := a1_ (wof s) (Qof s)). set (a2 := a2_ (wof s) (Qof s)). set (V := B2R v) in *.
    set (zs := fun n => (fst (st (lp_hold s v n)) - (1 - b0) * V, snd (st (lp_hold s v n)) - (b0 - a2) * V)).
    assert (DC : 4 * b0 = 1 + a1 + a2) by (exact (dc (cos (wof s)) (sin (wof s)) (Qof s) ltac:(lra) HQ)).
    assert (Bp : 0 < b0 <= 1) by (split; [exact (b0_pos _ _ (Qof s) CS ltac:(lra) HQ)|exact (b0_le1 _ _ (Qof s) CS ltac:(lra) HQ)]).
    assert (A2 : -1 < a2 < 1) by (exact (a2_lt (sin (wof s)) (Qof s) ltac:(lra) HQ)).
    assert (Step : forall n, fin (lp_out (lp_hold s v n) v) /\ exists e0 e1 e2, rstep b0 a1 a2 0 e0 e1 e2 (fst (zs n)) (snd (zs n)) (B2R (lp_out (lp_hold s v n) v) - V) (fst (zs (S n))) (snd (zs (S n))) /\
        2 * Rabs e0 + Rabs e1 + Rabs e2 <= kap * ((4 * Rabs V + tiny) + Rabs (fst (zs n)) + Rabs (snd (zs n))) /\ Rabs e0 <= kap * (2 * Rabs V + tiny + Rabs (fst (zs n)))).
    { intros n. destruct (Inv n) as [I1 I2]. destruct (hold_same s v n) as (E1 & E2 & E3 & E4). destruct (G3 _ I2) as [B1 B2].
      assert (Hpt : lp_params (lp_hold s v n)) by (unfold lp_params in *; rewrite E1, E2, E3; exact Hp). assert (Hct : lp_current L (lp_hold s v n)) by (unfold lp_current in *; rewrite E1, E2, E3, E4; exact Hc).
      assert (Ew : wof (lp_hold s v n) = wof s) by (unfold wof; now rewrite E1, E2). assert (EQ : Qof (lp_hold s v n) = Qof s) by (unfold Qof; now rewrite E3).
      assert (Bs : Rabs V + Rabs (fst (st (lp_hold s v n))) + Rabs (snd (st (lp_hold s v n))) <= bpow radix2 990).
      { assert (bpow radix2 120 <= bpow radix2 200) by (apply bpow_le; lia). assert (4 * bpow radix2 200 <= bpow radix2 990) by (change 4 with (bpow radix2 2); rewrite <- bpow_plus; apply bpow_le; lia). pose proof (bpow_gt_0 radix2 200). lra. }
      destruct (tick_step (lp_hold s v n) v Hpt Hct I1 Fv Bs) as (_ & Fo & e0 & e1 & e2 & S & E & E'). rewrite Ew, EQ in S. fold b0 a1 a2 in S. fold V in S, E, E'.
      split; [exact Fo|]. exists e0, e1, e2. replace V with (V + 0) in S at 1 by ring.
      split; [exact (shift b0 a1 a2 V 0 e0 e1 e2 _ _ _ _ _ DC S)|]. set (z1 := fst (st (lp_hold s v n))) in *. set (z2 := snd (st (lp_hold s v n))) in *.
      assert (Q1 : Rabs z1 <= Rabs (fst (zs n)) + Rabs V).
      { unfold zs. cbn [fst]. fold z1. replace z1 with ((z1 - (1 - b0) * V) + (1 - b0) * V) at 1 by ring. eapply Rle_trans; [apply Rabs_triang|]. apply Rplus_le_compat_l. rewrite Rabs_mult. rewrite <- (Rmult_1_l (Rabs V)) at 2. apply Rmult_le_compat_r; [exact Vp|]. apply Rabs_le. lra. }
      assert (Q2 : Rabs z2 <= Rabs (snd (zs n)) + 2 * Rabs V).
      { unfold zs. cbn [snd]. fold z2. replace z2 with ((z2 - (b0 - a2) * V) + (b0 - a2) * V) at 1 by ring. eapply Rle_trans; [apply Rabs_triang|]. apply Rplus_le_compat_l. rewrite Rabs_mult. apply Rmult_le_compat_r; [exact Vp|]. apply Rabs_le. lra. }
      split; (eapply Rle_trans; [first [exact E|exact E']|]; apply Rmult_le_compat_l; [apply Rlt_le, bpow_gt_0|]; lra). }
    destruct (settle_all (cos (wof s)) (sin (wof s)) (Qof s) kap (4 * Rabs V + tiny) CS S0 HQ kap_ok ltac:(lra) zs) as [k Hk].
    { intros n. destruct (Step n) as (_ & e0 & e1 & e2 & S & E & _). exists (B2R (lp_out (lp_hold s v n) v) - V), e0, e1, e2. split; [exact S|exact E]. }
    exists k. intros n Hn. specialize (Hk n Hn). destruct (Step n) as (Fo & e0 & e1 & e2 & (S & _ & _) & _ & E').
    destruct (Inv n) as [I1 I2]. destruct (hold_same s v n) as (E1 & E2 & E3 & E4). destruct (G2 (lp_hold s v n) v E1 E2 E3 E4 I1 I2 Fv ltac:(apply Rmax_l)) as (_ & _ & Fy & _).
    split; [exact Fy|]. rewrite tick_out in Fy |- *. set (o := lp_out (lp_hold s v n) v) in *.
    set (g := / (sin (wof s) * sin (wof s))). set (S2 := sin (wof s) * sin (wof s)) in *.
    assert (G0 : 529 / 1000000000000 <= S2 <= 1). { unfold S2. pose proof (SIN_bound (wof s)). split; nra. }
    assert (Gg : 1 <= g <= 2000000000). { unfold g. split; [rewrite <- Rinv_1; apply Rinv_le_contravar; lra|]. replace 2000000000 with (/ / 2000000000) by field. apply Rinv_le_contravar; lra. }
    assert (Hz : Rabs (fst (zs n)) <= 800 * kap * g * (4 * Rabs V + tiny)) by (eapply Rle_trans; [exact Hk|]; right; unfold g; field; lra).
    assert (D : Rabs (B2R o - V) <= 3300 * kap * g * (Rabs V + tiny)).
    { rewrite S, Rmult_0_r, Rplus_0_l. eapply Rle_trans; [apply Rabs_triang|]. set (W := Rabs V + tiny) in *. assert (W0 : 0 < W) by (unfold W; lra).
      assert (Hz2 : Rabs (fst (zs n)) <= 3200 * kap * (g * W)).
      { eapply Rle_trans; [exact Hz|]. assert (0 <= kap * g) by (apply Rmult_le_pos; [apply Rlt_le, bpow_gt_0|lra]). replace (800 * kap * g * (4 * Rabs V + tiny)) with (800 * (kap * g) * (4 * Rabs V + tiny)) by ring. replace (3200 * kap * (g * W)) with (800 * (kap * g) * (4 * W)) by ring. apply Rmult_le_compat_l; unfold W; lra. }
      assert (gW : W <= g * W) by nra. set (gw := g * W) in *. replace (3300 * kap * g * W) with (3300 * kap * gw) by (unfold gw; ring). unfold W in gW. rewrite kap_num in *. lra. }
    assert (KG : 3300 * kap * g <= bpow radix2 (-33) * g) by (apply Rmult_le_compat_r; [lra|]; rewrite kap_num; change (bpow radix2 (-33)) with (/ 8589934592); lra).
    assert (K1 : 3300 * kap * g <= / 2) by (rewrite kap_num; lra).
    assert (Tt : tiny <= / 1267650600228229401496703205376 * bpow radix2 (-149)). { change (/ 1267650600228229401496703205376) with (bpow radix2 (-100)). rewrite <- bpow_plus. apply bpow_le. lia. }
    assert (Oo : Rabs (B2R o) <= 2 * Rabs V + bpow radix2 0).
    { replace (B2R o) with (B2R o - V + V) by ring. eapply Rle_trans; [apply Rabs_triang|]. assert (3300 * kap * g * (Rabs V + tiny) <= / 2 * (Rabs V + tiny)) by (apply Rmult_le_compat_r; lra). assert (tiny <= bpow radix2 0) by (apply bpow_le; lia). lra. }
    assert (O27 : Rabs (B2R o) <= bpow radix2 127).
    { eapply Rle_trans; [exact Oo|]. assert (bpow radix2 0 <= bpow radix2 120) by (apply bpow_le; lia). change 127%Z with (7 + 120)%Z. rewrite bpow_plus. change (bpow radix2 7) with 128. lra. }
    apply Rabs_le_inv in O27.
    destruct (d2f_b (- bpow radix2 127) (bpow radix2 127) o Fo) as (_ & R & _); [apply dy_opp; apply dy_bpow; cbn; lia|apply dy_bpow; cbn; lia|lra|].
    rewrite R. pose proof (@rnd_rel 24 128 _ (B2R o)) as RR. change (SpecFloat.emin 24 128 - 1)%Z with (-150)%Z in RR.
    assert (X5 : bpow radix2 (-150) = / 2 * bpow radix2 (-149)) by (change (-149)%Z with (1 + -150)%Z; rewrite (bpow_plus radix2 1); change (bpow radix2 1) with 2; lra).
    change (bpow radix2 (- (24))) with (/ 16777216) in RR. rewrite X5 in RR.
    replace (@rnd 24 128 (B2R o) - V) with ((@rnd 24 128 (B2R o) - B2R o) + (B2R o - V)) by ring. eapply Rle_trans; [apply Rabs_triang|].
    assert (Oo2 : Rabs (B2R o) <= Rabs (B2R o - V) + Rabs V) by (replace (B2R o) with (B2R o - V + V) at 1 by ring; apply Rabs_triang).
    change (bpow radix2 (-23)) with (/ 8388608). unfold Rdiv. fold g.
    assert (KD : 16777217 / 16777216 * (3300 * kap * g * (Rabs V + tiny)) <= bpow radix2 (-33) * g * (Rabs V + tiny)).
    { rewrite kap_num. change (bpow radix2 (-33)) with (/ 8589934592). set (gw := g * (Rabs V + tiny)). replace (3300 * / 35184372088832 * g * (Rabs V + tiny)) with (3300 * / 35184372088832 * gw) by (unfold gw; ring). replace (/ 8589934592 * g * (Rabs V + tiny)) with (/ 8589934592 * gw) by (unfold gw; ring). assert (0 <= gw) by (unfold gw; apply Rmult_le_pos; lra). lra. }
    assert (KT : bpow radix2 (-33) * g * tiny <= / 4 * bpow radix2 (-149)).
    { assert (bpow radix2 (-33) * g <= / 4) by (change (bpow radix2 (-33)) with (/ 8589934592); lra). assert (0 <= bpow radix2 (-33) * g) by (change (bpow radix2 (-33)) with (/ 8589934592); lra). apply Rmult_le_compat; lra. }
    set (h := bpow radix2 (-33) * g) in *. replace (bpow radix2 (-33) * g) with h by reflexivity. lra.
  Qed.
End Tick.
