(** FVerb: smoothed parameters of moderate settings, and one frame of the network in the supremum norm. *)
From Coq Require Import ZArith Reals Bool List Lra Lia Psatz.
From Flocq Require Import Core BinarySingleNaN.
From Verif Require Import Flt FltFacts FltMore FltKey FltArith FltClose Libm UtilModel UtilProofs EnvSpec OscSpec FvModel FvSpec FvSpec2 FvProofs FvProofs2 FvProofs3 FvProofs4 FvProofs5 FvProofs6 FvProofs7 FvProofs8 FvBound.
Import ListNotations.
Local Open Scope R_scope.

(** ** Parameters *)
(** What the settings allow. *)
Definition mild_sl (s : fvsl) : Prop :=
  B2R (s_dec s) <= 40 /\ B2R (s_dens s) <= 90 /\ B2R (s_dif1 s) <= 90 /\ B2R (s_dif2 s) <= 90 /\
  100 <= B2R (s_damp s) /\ 100 <= B2R (s_lp s) /\ 100 <= B2R (s_hp s).
Definition mild (p : fvpar) : Prop :=
  soft 0.9968 (p8 p) /\ soft 0.9968 (p24 p) /\ soft 0.9968 (p25 p) /\ soft 0.9 (p12 p) /\ soft 0.9 (p15 p) /\ soft 0.9 (p20 p) /\
  soft 1 (p27 p) /\ soft 0.4 (p29 p).
Definition below (p q : fvpar) : Prop :=
  B2R (p8 p) <= B2R (p8 q) /\ B2R (p24 p) <= B2R (p24 q) /\ B2R (p25 p) <= B2R (p25 q) /\ B2R (p12 p) <= B2R (p12 q) /\
  B2R (p15 p) <= B2R (p15 q) /\ B2R (p20 p) <= B2R (p20 q) /\ B2R (p29 p) <= B2R (p29 q).

Lemma exp_mild L fs k (s : f32) : good_rate fs -> kgood fs k -> exp_unit L -> exp_acc L -> fin s -> 100 <= B2R s <= 20000 ->
  aim fs 0.9968 (fmul (k1 k) (m_exp L (fneg (fmul (k3 k) s)))).
Proof.
  intros G K E EA F B. destruct (kg1 _ _ K) as (F1 & B1 & B1'). destruct (kg3 _ _ K) as (F3 & B3). pose proof (kg3l _ _ K) as B3l.
  destruct (inv_rate fs G) as (I & EI).
  assert (D : dy32 65536) by (apply dyZ; lia).
  destruct (fmul_b 0 65536 (k3 k) s dy0 D F3 F ltac:(nra)) as (FM & EM & BM).
  assert (LO : 0.00327 <= B2R (fmul (k3 k) s)).
  { assert (P : 0.003272 <= B2R (k3 k) * B2R s). { apply Rle_trans with (0.00003272 * 100); [lra|]. apply Rmult_le_compat; lra. }
    destruct (rnd_up _ ltac:(apply Rle_trans with (2 := P); lra)) as (_ & U & _). rewrite <- EM in U. pose proof tiny_b. unfold u24 in U. lra. }
  set (m := fmul (k3 k) s) in *. clearbody m.
  assert (NF : fin (fneg m)) by (apply fneg_fin; exact FM).
  assert (X : fin (m_exp L (fneg m)) /\ 0 <= B2R (m_exp L (fneg m)) <= 1).
  { apply E. apply fle_R; [exact NF|reflexivity|]. rewrite fneg_R. change (B2R (fzero : f32)) with 0. lra. }
  destruct X as (FX & BX). destruct (EA (fneg m) NF ltac:(rewrite fneg_R; lra)) as [_ A]. rewrite fneg_R in A. apply Rabs_le_inv in A. change (bpow radix2 (-23)) with (/ 8388608) in A.
  assert (EX : exp (- B2R m) <= 0.99675).
  { rewrite exp_Ropp. pose proof (exp_ineq1_le (B2R m)) as Q. apply Rle_trans with (/ 1.00327); [apply Rinv_le; lra|]. lra. }
  apply (aim_mul fs _ _ 44.1001 0.9968); auto; lra.
Qed.
Lemma aims_mild L fs k s : good_rate fs -> kgood fs k -> exp_unit L -> exp_acc L -> sl_ok s -> mild_sl s ->
  let w := fv_slow L k s in
  aim fs 0.9968 (p8 w) /\ aim fs 0.9968 (p24 w) /\ aim fs 0.9968 (p25 w) /\ aim fs 0.9 (p12 w) /\ aim fs 0.9 (p15 w) /\ aim fs 0.9 (p20 w) /\ aim fs 1 (p27 w) /\ aim fs 0.4 (p29 w).
Proof.
  intros G K E EA S (M1 & M2 & M3 & M4 & M5 & M6 & M7). cbv zeta. unfold fv_slow. cbn [p8 p12 p15 p20 p24 p25 p27 p29].
  destruct (kg4 _ _ K) as (F4 & B4).
  assert (PC : forall x V, fin x -> 0 <= B2R x <= 100 * V -> / 200 <= V <= 8 -> aim fs V (fmul (k4 k) x)).
  { intros x V F B HV. apply (aim_mul fs _ _ 0.441001 (100 * V)); auto; lra. }
  assert (RG : forall p lo hi, (B2R (fv_lo p), B2R (fv_hi p)) = (lo, hi) -> 0 <= lo -> fin (slider p s) /\ 0 <= B2R (slider p s) <= hi).
  { intros p lo hi H Hl. destruct (range_R _ _ _ _ (S p) H) as (F & B). split; [exact F|lra]. }
  destruct (RG _ _ _ (lohi_R DAMPING) ltac:(lra)) as (Fa & Ba). destruct (RG _ _ _ (lohi_R TAIL_DENSITY) ltac:(lra)) as (Fb & Bb).
  destruct (RG _ _ _ (lohi_R INPUT_DIFFUSION_2) ltac:(lra)) as (Fc & Bc). destruct (RG _ _ _ (lohi_R INPUT_DIFFUSION_1) ltac:(lra)) as (Fd & Bd).
  destruct (RG _ _ _ (lohi_R INPUT_HIGH_PASS_CUTOFF) ltac:(lra)) as (Fe & Be). destruct (RG _ _ _ (lohi_R INPUT_LOW_PASS_CUTOFF) ltac:(lra)) as (Ff & Bf).
  destruct (RG _ _ _ (lohi_R INPUT_AMOUNT) ltac:(lra)) as (Fg & Bg). destruct (RG _ _ _ (lohi_R DECAY) ltac:(lra)) as (Fh & Bh). cbn [slider] in *.
  split; [apply exp_mild; auto; lra|]. split; [apply exp_mild; auto; lra|]. split; [apply exp_mild; auto; lra|].
  repeat match goal with |- _ /\ _ => split end; apply PC; auto; lra.
Qed.
Lemma smooth_mono fs k V w x y : good_rate fs -> kgood fs k -> / 200 <= V <= 8 -> aim fs V w -> soft V x -> soft V y -> B2R x <= B2R y ->
  B2R (fadd w (fmul (k2 k) x)) <= B2R (fadd w (fmul (k2 k) y)).
Proof.
  intros G K BV (Fw & Bw) (Fx & Bx) (Fy & By) XY. destruct (inv_rate fs G) as (I & EI). destruct (kg2 _ _ K) as (F2 & B2).
  assert (D16 : dy32 16) by (apply dyZ; lia). assert (D64 : dy32 64) by (apply dyZ; lia).
  assert (K1 : 0 <= B2R (k2 k) <= 1) by lra.
  assert (M : forall z : f32, 0 <= B2R z <= 1.002 * V -> 0 <= B2R (k2 k) * B2R z <= 16) by (intros z Z; split; [apply Rmult_le_pos; lra|]; apply Rle_trans with (1 * (1.002 * V)); [apply Rmult_le_compat; lra|lra]).
  destruct (fmul_b 0 16 (k2 k) x dy0 D16 F2 Fx (M x Bx)) as (F1 & E1 & B1). destruct (fmul_b 0 16 (k2 k) y dy0 D16 F2 Fy (M y By)) as (F1' & E1' & B1').
  assert (LE : B2R (fmul (k2 k) x) <= B2R (fmul (k2 k) y)) by (rewrite E1, E1'; apply rnd_le; apply Rmult_le_compat_l; lra).
  assert (W : B2R w <= 16) by (assert (44.11 * / B2R fs * V <= 44.11 * / 45 * 8) by (apply Rmult_le_compat; lra); lra).
  destruct (fadd_b 0 64 w (fmul (k2 k) x) dy0 D64 Fw F1 ltac:(lra)) as (_ & E3 & _). destruct (fadd_b 0 64 w (fmul (k2 k) y) dy0 D64 Fw F1' ltac:(lra)) as (_ & E3' & _).
  rewrite E3, E3'. apply rnd_le. lra.
Qed.
Lemma smooth_mild L fs k s p : good_rate fs -> kgood fs k -> exp_unit L -> exp_acc L -> sl_ok s -> mild_sl s -> mild p -> mild (fv_smooth k (fv_slow L k s) p).
Proof.
  intros G K E EA S M (a & b & c & d & e & f & g & h). destruct (aims_mild L fs k s G K E EA S M) as (A1 & A2 & A3 & A4 & A5 & A6 & A7 & A8).
  unfold fv_smooth, mild. cbn [p8 p12 p15 p20 p24 p25 p27 p28 p29 p36 p37].
  repeat match goal with |- soft _ _ /\ _ => split end; apply (smooth_soft fs); auto; lra.
Qed.
Lemma smooth_below L fs k s p q : good_rate fs -> kgood fs k -> exp_unit L -> exp_acc L -> sl_ok s -> mild_sl s -> mild p -> mild q -> below p q ->
  below (fv_smooth k (fv_slow L k s) p) (fv_smooth k (fv_slow L k s) q).
Proof.
  intros G K E EA S M (a & b & c & d & e & f & g & h) (a' & b' & c' & d' & e' & f' & g' & h') (x1 & x2 & x3 & x4 & x5 & x6 & x7).
  destruct (aims_mild L fs k s G K E EA S M) as (A1 & A2 & A3 & A4 & A5 & A6 & A7 & A8).
  unfold fv_smooth, below. cbn [p8 p12 p15 p20 p24 p25 p27 p28 p29 p36 p37].
  repeat match goal with |- _ /\ _ => split end.
  1-3: apply (smooth_mono fs k 0.9968); auto; lra. 1-3: apply (smooth_mono fs k 0.9); auto; lra. apply (smooth_mono fs k 0.4); auto; lra.
Qed.
Lemma mild0 : mild fv_par0.
Proof. unfold mild, fv_par0. cbn [p8 p12 p15 p20 p24 p25 p27 p28 p29 p36 p37]. repeat match goal with |- soft _ _ /\ _ => split end; apply soft0; lra. Qed.
Lemma below0 p : mild p -> below fv_par0 p.
Proof.
  intros (a & b & c & d & e & f & g & h). unfold below, fv_par0. cbn [p8 p12 p15 p20 p24 p25 p27 p28 p29 p36 p37]. rewrite !zero_R.
  destruct a as [_ a], b as [_ b], c as [_ c], d as [_ d], e as [_ e], f as [_ f], h as [_ h]. repeat match goal with |- _ /\ _ => split end; lra.
Qed.

(** ** The gain of the last allpass *)
Definition gain (p : fvpar) : f32 := fminf half (fmaxf (fdec 1 4) (fadd (p29 p) (fdec 3 20))).
Lemma gain_b p q : mild p -> mild q -> B2R (p29 p) <= B2R (p29 q) -> fin (gain p) /\ 0 <= B2R (gain p) <= 0.5 /\ B2R (gain p) <= B2R (gain q).
Proof.
  intros Mp Mq H. unfold gain.
  assert (A : forall r, mild r -> fin (fadd (p29 r) (fdec 3 20)) /\ B2R (fadd (p29 r) (fdec 3 20)) = rnd32 (B2R (p29 r) + B2R (fdec 3 20 : f32))).
  { intros r (_ & _ & _ & _ & _ & _ & _ & (F & B)). assert (F2 : fin (fdec 3 20 : f32)) by ffin. fval (fdec 3 20 : f32). destruct (fadd_b 0 1 (p29 r) (fdec 3 20) dy0 dy1 F F2 ltac:(lra)) as (X & Y & _). now split. }
  destruct (A p Mp) as [F1 E1]. destruct (A q Mq) as [F2 E2].
  assert (LE : B2R (fadd (p29 p) (fdec 3 20)) <= B2R (fadd (p29 q) (fdec 3 20))) by (rewrite E1, E2; apply rnd_le; lra).
  set (x := fadd (p29 p) (fdec 3 20)) in *. set (y := fadd (p29 q) (fdec 3 20)) in *. clearbody x y.
  assert (V1 : forall z : f32, fin z -> fin (fmaxf (fdec 1 4) z) /\ B2R (fmaxf (fdec 1 4) z) = Rmax (/ 4) (B2R z)).
  { intros z Fz. unfold fmaxf. assert (Fq : fin (fdec 1 4 : f32)) by ffin. fval (fdec 1 4 : f32). replace (4194304 / 16777216) with (/ 4) in V by lra. destruct (flt (fdec 1 4) z) eqn:C.
    - apply flt_R in C; [|exact Fq|exact Fz]. split; [exact Fz|]. rewrite Rmax_right; lra.
    - apply flt_R_false in C; [|exact Fq|exact Fz]. split; [exact Fq|]. rewrite Rmax_left; lra. }
  assert (V2 : forall z : f32, fin z -> fin (fminf half z) /\ B2R (fminf half z) = Rmin (/ 2) (B2R z)).
  { intros z Fz. unfold fminf. assert (Fq : fin (half : f32)) by ffin. assert (Hh : B2R (half : f32) = / 2) by (fval (half : f32); lra). destruct (flt z half) eqn:C.
    - apply flt_R in C; [|exact Fz|exact Fq]. split; [exact Fz|]. rewrite Rmin_right; lra.
    - apply flt_R_false in C; [|exact Fz|exact Fq]. split; [exact Fq|]. rewrite Rmin_left; lra. }
  destruct (V1 x F1) as [G1 H1]. destruct (V1 y F2) as [G2 H2]. destruct (V2 _ G1) as [K1 L1]. destruct (V2 _ G2) as [K2 L2].
  split; [exact K1|]. rewrite L1, L2, H1, H2. split.
  - split; [apply Rmin_glb; [lra|apply Rle_trans with (2 := Rmax_l _ _); lra]|]. apply Rle_trans with (1 := Rmin_l _ _). lra.
  - apply Rle_min_compat_l. apply Rle_max_compat_l. exact LE.
Qed.
