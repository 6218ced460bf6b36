(** Microtracker ladder: with little resonance its output is bounded by a multiple of its input. *)
From Coq Require Import ZArith Reals Lra Lia Bool Psatz List.
From Flocq Require Import Core BinarySingleNaN.
From Verif Require Import Flt FltFacts FltMore FltKey FltArith Libm UtilModel UtilProofs Dbl DblRel LpProofs MgModel MgSpec MgBase ImProofs MtModel LaSpec.
Import ListNotations.
Local Open Scope R_scope.

(** ** The rational tanh on the reals *)
Definition tf (x : R) : R := x * (27 + x * x) / (27 + 9 * (x * x)).
Definition tslope (a b : R) : R := / 9 + 8 / 3 * (3 - a * b) / ((3 + a * a) * (3 + b * b)).
Lemma tf_diff a b : tf b - tf a = (b - a) * tslope a b.
Proof. unfold tf, tslope. assert (0 <= a * a) by nra. assert (0 <= b * b) by nra. field. repeat split; lra. Qed.
Lemma tslope_R a b : 0 <= tslope a b <= 1.
Proof.
  unfold tslope. assert (A : 0 <= a * a) by nra. assert (B : 0 <= b * b) by nra. set (D := (3 + a * a) * (3 + b * b)). assert (P : 9 <= D) by (unfold D; nra).
  assert (E : 8 / 3 * (3 - a * b) / D * D = 8 / 3 * (3 - a * b)) by (field; lra). set (t := 8 / 3 * (3 - a * b) / D) in *. clearbody t.
  assert (X : D = 9 + 3 * (a * a) + 3 * (b * b) + (a * b) * (a * b)) by (unfold D; ring). assert (Q : 0 <= (a * b - 9) * (a * b - 9)) by apply Rle_0_sqr. assert (R : 0 <= (a - b) * (a - b)) by apply Rle_0_sqr. assert (S : 0 <= (a + b) * (a + b)) by apply Rle_0_sqr. clearbody D.
  split.
  - apply Rmult_le_reg_r with D; [lra|]. nra.
  - apply Rmult_le_reg_r with D; [lra|]. nra.
Qed.
Lemma tslope_far a b : 26 <= a -> 26 <= b -> / 10 <= tslope a b.
Proof.
  intros Ha Hb. unfold tslope. assert (AB : 676 <= a * b) by nra. set (D := (3 + a * a) * (3 + b * b)). assert (X : D = 9 + 3 * (a * a) + 3 * (b * b) + (a * b) * (a * b)) by (unfold D; ring). assert (P : 676 * (a * b) <= D) by (rewrite X; nra).
  assert (E : 8 / 3 * (3 - a * b) / D * D = 8 / 3 * (3 - a * b)) by (field; lra). set (t := 8 / 3 * (3 - a * b) / D) in *. clearbody t. clearbody D. assert (- (8 / 3 / 676) <= t); [|lra]. apply Rmult_le_reg_r with D; [lra|]. nra.
Qed.
Lemma tf_mono a b : a <= b -> tf a <= tf b.
Proof. intros H. pose proof (tf_diff a b) as D. pose proof (tslope_R a b) as S. nra. Qed.
Lemma tf_gap a b : a <= b -> tf b - tf a <= b - a.
Proof. intros H. pose proof (tf_diff a b) as D. pose proof (tslope_R a b) as S. nra. Qed.
Lemma tf_far a b : 26 <= a -> a <= b -> (b - a) / 10 <= tf b - tf a.
Proof. intros H1 H2. pose proof (tf_diff a b) as D. pose proof (tslope_far a b H1 ltac:(lra)) as S. nra. Qed.
Lemma tf_0 : tf 0 = 0. Proof. unfold tf. lra. Qed.
Lemma tf_opp x : tf (- x) = - tf x.
Proof. unfold tf. assert (0 <= x * x) by nra. field. nra. Qed.
Lemma tf_le x : 0 <= x -> 0 <= tf x <= x.
Proof. intros H. pose proof (tf_mono 0 x H) as A. pose proof (tf_gap 0 x H) as B. rewrite tf_0 in *. lra. Qed.
Lemma tf_abs x : Rabs (tf x) <= Rabs x.
Proof. destruct (Rle_lt_dec 0 x) as [H|H]; [pose proof (tf_le x H)|pose proof (tf_le (- x) ltac:(lra)) as T; rewrite tf_opp in T]; [rewrite !Rabs_pos_eq; lra|rewrite (Rabs_left1 x), (Rabs_left1 (tf x)); lra]. Qed.

(** ** ... and in binary64 *)
Lemma tanh_pos (x : f64) : fin x -> bpow radix2 (-70) <= B2R x <= bpow radix2 70 -> rp 9 (mt_tanh x) (tf (B2R x)).
Proof.
  intros F B. assert (P1 : bpow radix2 (-140) = bpow radix2 (-70) * bpow radix2 (-70)) by (rewrite <- bpow_plus; reflexivity). assert (P2 : bpow radix2 140 = bpow radix2 70 * bpow radix2 70) by (rewrite <- bpow_plus; reflexivity).
  pose proof (bpow_gt_0 radix2 (-70)) as G. pose proof (bpow_gt_0 radix2 (-140)) as G2. assert (L1 : bpow radix2 (-300) <= bpow radix2 (-140)) by (apply bpow_le; lia). assert (L2 : bpow radix2 (-300) <= bpow radix2 (-70)) by (apply bpow_le; lia). assert (L3 : bpow radix2 (-300) <= 1) by (change 1 with (bpow radix2 0); apply bpow_le; lia).
  assert (L4 : bpow radix2 (-75) = bpow radix2 (-70) / 32) by (change (-75)%Z with (-70 + -5)%Z; rewrite bpow_plus; change (bpow radix2 (-5)) with (/ 32); field). assert (L5 : bpow radix2 (-300) <= bpow radix2 (-75)) by (apply bpow_le; lia).
  assert (U1 : bpow radix2 220 = bpow radix2 70 * bpow radix2 150) by (rewrite <- bpow_plus; reflexivity). assert (U2 : bpow radix2 150 = 1024 * bpow radix2 140) by (change 1024 with (bpow radix2 10); rewrite <- bpow_plus; reflexivity). assert (U3 : bpow radix2 220 <= bpow radix2 300) by (apply bpow_le; lia). assert (U4 : 1 <= bpow radix2 70) by (change 1 with (bpow radix2 0); apply bpow_le; lia).
  assert (U5 : bpow radix2 150 <= bpow radix2 300) by (apply bpow_le; lia). assert (U6 : bpow radix2 140 <= bpow radix2 300) by (apply bpow_le; lia). assert (U7 : bpow radix2 70 <= bpow radix2 140) by (apply bpow_le; lia).
  set (X := B2R x) in *. set (lo := bpow radix2 (-70)) in *. set (hi := bpow radix2 70) in *. set (LO := bpow radix2 (-300)) in *. set (HI := bpow radix2 300) in *.
  assert (SQ : lo * lo <= X * X <= hi * hi) by (split; apply Rmult_le_compat; lra).
  assert (R0 : rp 0 x X) by (apply rp_self; [exact F|split; fold X LO HI; lra]).
  assert (R1 : rp 1 (fmul x x) (X * X)) by (apply (rp_mul 0 0); [exact R0|exact R0|split; fold LO HI; lra|lra]).
  assert (C27 : rp 0 (dz 27) 27). { replace 27 with (B2R (dz 27)) by (fval (dz 27); lra). apply rp_self; [ffin|]. split; fold LO HI; fval (dz 27); lra. }
  assert (C9 : rp 0 (dz 9) 9). { replace 9 with (B2R (dz 9)) by (fval (dz 9); lra). apply rp_self; [ffin|]. split; fold LO HI; fval (dz 9); lra. }
  assert (R2 : rp 2 (fadd (dz 27) (fmul x x)) (27 + X * X)) by (apply (rp_add 0 1); [exact C27|exact R1|split; fold LO HI; lra|lra|lra|lra]).
  assert (N : lo * 27 <= X * (27 + X * X) <= hi * (1024 * (hi * hi))). { split; apply Rmult_le_compat; try lra. }
  assert (R3 : rp 3 (fmul x (fadd (dz 27) (fmul x x))) (X * (27 + X * X))) by (apply (rp_mul 0 2); [exact R0|exact R2|split; fold LO HI; try lra; rewrite P2 in U2; rewrite U2 in U1; lra|lra]).
  assert (R4 : rp 2 (fmul (dz 9) (fmul x x)) (9 * (X * X))) by (apply (rp_mul 0 1); [exact C9|exact R1|split; fold LO HI; lra|lra]).
  assert (R5 : rp 3 (fadd (dz 27) (fmul (dz 9) (fmul x x))) (27 + 9 * (X * X))) by (apply (rp_add 0 2); [exact C27|exact R4|split; fold LO HI; lra|lra|lra|lra]).
  assert (T : X / 9 <= tf X <= X). { split; [|apply tf_le; lra]. unfold tf. apply Rmult_le_reg_r with (27 + 9 * (X * X)); [lra|]. replace (X * (27 + X * X) / (27 + 9 * (X * X)) * (27 + 9 * (X * X))) with (X * (27 + X * X)) by (field; lra). nra. }
  apply (rp_div 3 3); [exact R3|exact R5| |lra]. fold (tf X). split; fold LO HI; lra.
Qed.
Definition te (x : R) : R := bpow radix2 (-48) * (Rabs x + 1).
Lemma tanh_sign (x y : f64) : fin x -> fin y -> B2R y = - B2R x -> Rabs (B2R x) <= bpow radix2 70 -> fin (mt_tanh x) -> Rabs (B2R (mt_tanh x)) <= bpow radix2 71 -> fin (mt_tanh y) /\ B2R (mt_tanh y) = - B2R (mt_tanh x).
Proof.
  intros Fx Fy E B FT BT. unfold mt_tanh in *. cbv zeta in *.
  assert (D140 : dy64 (bpow radix2 140)) by (apply dyp; lia). assert (D0 : dy64 0) by apply dy_0. assert (P140 : bpow radix2 140 = bpow radix2 70 * bpow radix2 70) by (rewrite <- bpow_plus; reflexivity).
  assert (S : forall z : f64, fin z -> Rabs (B2R z) <= bpow radix2 70 -> fin (fmul z z) /\ B2R (fmul z z) = rnd64 (B2R z * B2R z) /\ 0 <= B2R (fmul z z) <= bpow radix2 140).
  { intros z Fz Bz. apply fmul_b; try assumption. rewrite P140. split; [nra|]. replace (B2R z * B2R z) with (Rabs (B2R z) * Rabs (B2R z)) by (rewrite <- Rabs_mult; apply Rabs_pos_eq; nra). apply Rmult_le_compat; try apply Rabs_pos; exact Bz. }
  assert (By : Rabs (B2R y) <= bpow radix2 70) by (rewrite E, Rabs_Ropp; exact B).
  destruct (S x Fx B) as (F1 & E1 & B1). destruct (S y Fy By) as (G1 & H1 & C1). assert (EQ : B2R (fmul y y) = B2R (fmul x x)) by (rewrite E1, H1, E; f_equal; ring).
  set (x2 := fmul x x) in *. set (y2 := fmul y y) in *. clearbody x2 y2.
  assert (V27 : B2R (dz 27) = 27) by (fval (dz 27); lra). assert (V9 : B2R (dz 9) = 9) by (fval (dz 9); lra).
  assert (D150 : dy64 (bpow radix2 150)) by (apply dyp; lia). assert (D27 : dy64 27) by dynum 27%Z 0%Z. assert (P150 : bpow radix2 150 = 1024 * bpow radix2 140) by (change 1024 with (bpow radix2 10); rewrite <- bpow_plus; reflexivity). assert (P1 : 1 <= bpow radix2 140) by (change 1 with (bpow radix2 0); apply bpow_le; lia).
  assert (A : forall z : f64, fin z -> 0 <= B2R z <= bpow radix2 140 -> fin (fadd (dz 27) z) /\ B2R (fadd (dz 27) z) = rnd64 (27 + B2R z) /\ 27 <= B2R (fadd (dz 27) z) <= bpow radix2 150).
  { intros z Fz Bz. rewrite <- V27 at 1. apply fadd_b; try assumption; [ffin|rewrite V27; lra]. }
  assert (M : forall z : f64, fin z -> 0 <= B2R z <= bpow radix2 140 -> fin (fadd (dz 27) (fmul (dz 9) z)) /\ B2R (fadd (dz 27) (fmul (dz 9) z)) = rnd64 (27 + rnd64 (9 * B2R z)) /\ 27 <= B2R (fadd (dz 27) (fmul (dz 9) z)) <= bpow radix2 150).
  { intros z Fz Bz. destruct (fmul_b 0 (bpow radix2 145) (dz 9) z D0 ltac:(apply dyp; lia) ltac:(ffin) Fz) as (Fm & Em & Bm). { rewrite V9. replace (bpow radix2 145) with (32 * bpow radix2 140) by (change 32 with (bpow radix2 5); rewrite <- bpow_plus; reflexivity). lra. }
    rewrite V9 in Em. rewrite <- Em, <- V27 at 1. apply fadd_b; try assumption; [ffin|]. rewrite V27. replace (bpow radix2 150) with (32 * bpow radix2 145) by (change 32 with (bpow radix2 5); rewrite <- bpow_plus; reflexivity). assert (27 <= bpow radix2 145) by (apply Rle_trans with (bpow radix2 5); [change (bpow radix2 5) with 32; lra|apply bpow_le; lia]). lra. }
  destruct (A x2 F1 B1) as (F2 & E2 & B2). destruct (A y2 G1 C1) as (G2 & H2 & C2). rewrite EQ in H2. rewrite <- E2 in H2. destruct (M x2 F1 B1) as (F3 & E3 & B3). destruct (M y2 G1 C1) as (G3 & H3 & C3). rewrite EQ in H3. rewrite <- E3 in H3. clear A M S.
  set (nx := fadd (dz 27) x2) in *. set (ny := fadd (dz 27) y2) in *. set (dx := fadd (dz 27) (fmul (dz 9) x2)) in *. set (dy' := fadd (dz 27) (fmul (dz 9) y2)) in *. clearbody nx ny dx dy'.
  assert (D220 : dy64 (bpow radix2 220)) by (apply dyp; lia). assert (P220 : bpow radix2 220 = bpow radix2 70 * bpow radix2 150) by (rewrite <- bpow_plus; reflexivity).
  assert (T : forall z w : f64, fin z -> fin w -> Rabs (B2R z) <= bpow radix2 70 -> 27 <= B2R w <= bpow radix2 150 -> fin (fmul z w) /\ B2R (fmul z w) = rnd64 (B2R z * B2R w) /\ - bpow radix2 220 <= B2R (fmul z w) <= bpow radix2 220).
  { intros z w Fz Fw Bz Bw. apply fmul_b; try assumption; [now apply dy_opp|]. apply Rabs_le_inv. rewrite P220, Rabs_mult. apply Rmult_le_compat; try apply Rabs_pos; [exact Bz|]. rewrite Rabs_pos_eq; lra. }
  destruct (T x nx Fx F2 B B2) as (F4 & E4 & B4). destruct (T y ny Fy G2 By C2) as (G4 & H4 & C4). assert (E5 : B2R (fmul y ny) = - B2R (fmul x nx)). { rewrite E4, H4, E, H2. replace (- B2R x * B2R nx) with (- (B2R x * B2R nx)) by ring. apply rnd_opp. }
  set (px := fmul x nx) in *. set (py := fmul y ny) in *. clearbody px py.
  assert (Q : forall z w : f64, fin z -> fin w -> - bpow radix2 220 <= B2R z <= bpow radix2 220 -> 27 <= B2R w <= bpow radix2 150 -> fin (fdiv z w) /\ B2R (fdiv z w) = rnd64 (B2R z / B2R w) /\ - bpow radix2 220 <= B2R (fdiv z w) <= bpow radix2 220).
  { intros z w Fz Fw Bz Bw. apply fdiv_b; try assumption; [now apply dy_opp|lra|]. assert (I : 0 < / B2R w <= 1) by (split; [apply Rinv_0_lt_compat; lra|rewrite <- Rinv_1; apply Rinv_le_contravar; lra]). unfold Rdiv. set (t := bpow radix2 220) in *. clearbody t. split; nra. }
  destruct (Q px dx F4 F3 B4 B3) as (_ & E6 & _). destruct (Q py dy' G4 G3 C4 C3) as (G6 & H6 & _). split; [exact G6|]. rewrite E6, H6, E5, H3. replace (- B2R px / B2R dx) with (- (B2R px / B2R dx)) by (unfold Rdiv; ring). apply rnd_opp.
Qed.
Lemma tanh_acc (x : f64) : fin x -> Rabs (B2R x) <= bpow radix2 70 -> fin (mt_tanh x) /\ Rabs (B2R (mt_tanh x) - tf (B2R x)) <= te (B2R x).
Proof.
  assert (POS : forall x : f64, fin x -> 0 <= B2R x <= bpow radix2 70 -> fin (mt_tanh x) /\ Rabs (B2R (mt_tanh x) - tf (B2R x)) <= te (B2R x)).
  { clear x. intros x F B. unfold te. rewrite (Rabs_pos_eq (B2R x)) by lra. destruct (Rle_lt_dec (bpow radix2 (-70)) (B2R x)) as [K|K].
    - pose proof (tanh_pos x F (conj K (proj2 B))) as R. pose proof (rp_fin _ _ _ R) as FF. destruct R as (_ & _ & _ & E). split; [exact FF|]. eapply Rle_trans; [exact E|]. pose proof (tf_le (B2R x) ltac:(lra)) as T. unfold rv. change (bpow radix2 (-48)) with (/ 281474976710656). nra.
    - unfold mt_tanh. cbv zeta. assert (D0 : dy64 0) by apply dy_0. assert (D1 : dy64 1) by dynum 1%Z 0%Z. assert (S1 : bpow radix2 (-70) <= 1) by (change 1 with (bpow radix2 0); apply bpow_le; lia).
      destruct (fmul_b 0 1 x x D0 D1 F F ltac:(nra)) as (F1 & _ & B1). set (x2 := fmul x x) in *. clearbody x2. assert (V27 : B2R (dz 27) = 27) by (fval (dz 27); lra). assert (V9 : B2R (dz 9) = 9) by (fval (dz 9); lra).
      destruct (fadd_b 0 32 (dz 27) x2 D0 ltac:(dynum 32%Z 0%Z) ltac:(ffin) F1 ltac:(lra)) as (F2 & _ & B2). destruct (fmul_b 0 16 (dz 9) x2 D0 ltac:(dynum 16%Z 0%Z) ltac:(ffin) F1 ltac:(rewrite V9; lra)) as (F3 & _ & B3).
      destruct (fadd_b 27 64 (dz 27) (fmul (dz 9) x2) ltac:(dynum 27%Z 0%Z) ltac:(dynum 64%Z 0%Z) ltac:(ffin) F3 ltac:(lra)) as (F4 & _ & B4). set (n := fadd (dz 27) x2) in *. set (d := fadd (dz 27) (fmul (dz 9) x2)) in *. clearbody n d.
      pose proof (bpow_gt_0 radix2 (-70)) as P70. assert (E65 : bpow radix2 (-65) = 32 * bpow radix2 (-70)) by (change 32 with (bpow radix2 5); rewrite <- bpow_plus; reflexivity).
      destruct (fmul_b 0 (bpow radix2 (-65)) x n D0 ltac:(apply dyp; lia) F F2) as (F5 & _ & B5). { rewrite E65. split; nra. }
      destruct (fdiv_b 0 (bpow radix2 (-65)) (fmul x n) d D0 ltac:(apply dyp; lia) F5 F4 ltac:(lra)) as (F6 & _ & B6). { assert (I : 0 < / B2R d <= 1) by (split; [apply Rinv_0_lt_compat; lra|rewrite <- Rinv_1; apply Rinv_le_contravar; lra]). unfold Rdiv. nra. }
      split; [exact F6|]. pose proof (tf_le (B2R x) ltac:(lra)) as T. apply Rabs_le. assert (bpow radix2 (-65) <= bpow radix2 (-48)) by (apply bpow_le; lia). assert (bpow radix2 (-70) <= bpow radix2 (-48)) by (apply bpow_le; lia). nra. }
  intros F B. destruct (Rle_lt_dec 0 (B2R x)) as [K|K].
  - apply POS; [exact F|]. rewrite Rabs_pos_eq in B; lra.
  - set (y := fneg x). assert (Fy : fin y) by now apply fneg_fin. assert (Ey : B2R y = - B2R x) by apply fneg_R. rewrite Rabs_left in B by exact K.
    destruct (POS y Fy ltac:(lra)) as [Ft Et].
    assert (TB : Rabs (B2R (mt_tanh y)) <= bpow radix2 71).
    { pose proof (tf_abs (B2R y)) as A. unfold te in Et. rewrite (Rabs_pos_eq (B2R y)) in Et, A by lra. replace (B2R (mt_tanh y)) with (tf (B2R y) + (B2R (mt_tanh y) - tf (B2R y))) by ring. eapply Rle_trans; [apply Rabs_triang|].
      replace (bpow radix2 71) with (2 * bpow radix2 70) by (change 2 with (bpow radix2 1); rewrite <- bpow_plus; reflexivity). assert (32 <= bpow radix2 70) by (change 32 with (bpow radix2 5); apply bpow_le; lia). assert (bpow radix2 (-48) <= / 16) by (change (/ 16) with (bpow radix2 (-4)); apply bpow_le; lia). pose proof (bpow_gt_0 radix2 (-48)). nra. }
    destruct (tanh_sign y x Fy F ltac:(lra) ltac:(rewrite Rabs_pos_eq; lra) Ft TB) as [Fx Ex]. split; [exact Fx|]. rewrite Ex. replace (B2R x) with (- B2R y) by lra. rewrite tf_opp. replace (- B2R (mt_tanh y) - - tf (B2R y)) with (- (B2R (mt_tanh y) - tf (B2R y))) by ring. rewrite Rabs_Ropp. unfold te in *. rewrite Rabs_Ropp. exact Et.
Qed.
