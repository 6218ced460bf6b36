From Coq Require Import ZArith Reals Lra Lia Bool List Psatz.
From Flocq Require Import Core BinarySingleNaN.
From Verif Require Import Flt FltFacts FltMore FltKey FltArith Libm UtilModel UtilProofs EnvSpec EnvProofs FltClose OscSpec OscProofs OscProofs2 SmoothModel SmoothSpec SmoothProofs SmoothProofs2.
Import ListNotations.
Local Open Scope R_scope.

(** ** A long LagLinear ramp overshoots *)
Lemma grid_ge1 (x : f32) : 1 <= B2R x -> exists m : Z, B2R x = IZR m * bpow radix2 (-23).
Proof.
  intros H. pose proof (fmt_B2R x) as G. unfold generic_format in G.
  set (e := cexp radix2 (SpecFloat.fexp 24 128) (B2R x)) in *.
  assert (He : (-23 <= e)%Z).
  { unfold e, cexp. assert (1 <= mag radix2 (B2R x))%Z.
    { apply mag_ge_bpow. change (bpow radix2 (1 - 1)) with 1. rewrite Rabs_pos_eq; lra. }
    unfold SpecFloat.fexp, SpecFloat.emin. lia. }
  clearbody e. generalize dependent (Ztrunc (scaled_mantissa radix2 (SpecFloat.fexp 24 128) (B2R x))). intros M G.
  exists (M * 2 ^ (e + 23))%Z. rewrite G. unfold F2R. cbn [Defs.Fnum Defs.Fexp].
  rewrite mult_IZR. change 2%Z with (radix_val radix2). rewrite IZR_Zpower by lia.
  rewrite Rmult_assoc, <- bpow_plus. f_equal. f_equal. lia.
Qed.
Lemma ulp_step (v q : f32) j : fin v -> fin q -> (0 <= j < 2 ^ 23 - 1)%Z -> B2R v = 1 + IZR j * bpow radix2 (-23) ->
  bpow radix2 (-24) < B2R q < 3 * bpow radix2 (-24) ->
  fin (fadd v q) /\ B2R (fadd v q) = 1 + IZR (j + 1) * bpow radix2 (-23).
Proof.
  intros Fv Fq Hj Ev Bq.
  assert (J : 0 <= IZR j <= 8388606) by (split; [apply (IZR_le 0)|apply (IZR_le j 8388606)]; lia).
  assert (E24 : bpow radix2 (-24) = bpow radix2 (-23) / 2) by (bp; lra).
  destruct (fadd_b 1 4 v q dy1 (dyZ 4 ltac:(lia)) Fv Fq) as (Fw & Ew & Bw).
  { revert Bq. rewrite Ev. bp. lra. }
  split; [exact Fw|].
  destruct (grid_ge1 (fadd v q) (proj1 Bw)) as [m Em].
  set (g := 1 + IZR (j + 1) * bpow radix2 (-23)).
  assert (Dg : generic_format radix2 (SpecFloat.fexp 24 128) g).
  { replace g with (F2R (Float radix2 (2 ^ 23 + j + 1) (-23))).
    - apply dy_F2R; [change (Z.abs (2 ^ 23 + j + 1) < 2 ^ 24)%Z; lia|cbn; lia].
    - unfold F2R, g. cbn [Defs.Fnum Defs.Fexp]. rewrite !plus_IZR. bp. change (IZR (2 ^ 23)) with 8388608. lra. }
  assert (O : Rabs (B2R (fadd v q) - (B2R v + B2R q)) <= Rabs (g - (B2R v + B2R q))).
  { rewrite Ew. apply round_N_pt; [apply fexp_correct; reflexivity|exact Dg]. }
  assert (Hg : Rabs (g - (B2R v + B2R q)) < bpow radix2 (-24)).
  { rewrite Ev. unfold g. rewrite plus_IZR. apply Rabs_def1; lra. }
  rewrite Em in *. unfold g.
  assert (D : Rabs (IZR m * bpow radix2 (-23) - g) < bpow radix2 (-23)).
  { replace (IZR m * bpow radix2 (-23) - g) with ((IZR m * bpow radix2 (-23) - (B2R v + B2R q)) - (g - (B2R v + B2R q))) by ring.
    eapply Rle_lt_trans; [apply Rabs_triang|]. rewrite Rabs_Ropp. lra. }
  assert (X : (m = 2 ^ 23 + j + 1)%Z).
  { assert (Y : Rabs (IZR (m - (2 ^ 23 + j + 1))) < 1).
    { replace (IZR (m - (2 ^ 23 + j + 1))) with ((IZR m * bpow radix2 (-23) - g) * bpow radix2 23).
      - rewrite Rabs_mult, (Rabs_pos_eq (bpow radix2 23)) by apply bpow_ge_0. revert D. bp. lra.
      - unfold g. rewrite minus_IZR, !plus_IZR. bp. change (IZR (2 ^ 23)) with 8388608. lra. }
    apply Rabs_def2 in Y. destruct Y as [Y1 Y2]. apply lt_IZR in Y1. apply (lt_IZR (-1)) in Y2. lia. }
  rewrite X, !plus_IZR. bp. change (IZR (2 ^ 23)) with 8388608. lra.
Qed.
Lemma ll_creep x : forall n s (j : Z), feq x (ll_target s) = true -> fin (ll_inc s) -> bpow radix2 (-24) < B2R (ll_inc s) < 3 * bpow radix2 (-24) ->
  (0 <= j)%Z -> (j + Z.of_nat n < 2 ^ 23)%Z -> (Z.of_nat n < ll_rem s)%Z -> fin (ll_cur s) -> B2R (ll_cur s) = 1 + IZR j * bpow radix2 (-23) ->
  exists s' ys, ll_ticks s (repeat x n) = Some (s', ys) /\ length ys = n /\
    forall i y, nth_error ys i = Some y -> B2R y = 1 + IZR (j + Z.of_nat i + 1) * bpow radix2 (-23).
Proof.
  induction n as [|n IH]; intros s j E Fi Bi Hj Hlt Hr Fc Ec.
  - exists s, []. split; [reflexivity|]. split; [reflexivity|]. intros [|i] y Hy; discriminate Hy.
  - cbn [repeat ll_ticks]. unfold ll_tick. rewrite E.
    unfold ll_advance. destruct (Z.ltb_spec 0 (ll_rem s)); [|lia]. destruct (Z.eqb_spec (ll_rem s - 1) 0); [lia|].
    destruct (ulp_step (ll_cur s) (ll_inc s) j Fc Fi ltac:(lia) Ec Bi) as [Fw Ew].
    set (w := fadd (ll_cur s) (ll_inc s)) in *.
    destruct (IH (LagL (ll_sr s) (ll_time s) w (ll_target s) (ll_inc s) (ll_rem s - 1)) (j + 1)%Z E Fi Bi) as (s' & ys & E2 & Ln & H2);
      [lia|lia|cbn [ll_rem]; lia|exact Fw|exact Ew|].
    rewrite E2. exists s', (w :: ys). split; [reflexivity|]. split; [cbn; now rewrite Ln|].
    intros [|i] y Hy; cbn [nth_error] in Hy.
    + injection Hy as <-. rewrite Ew. do 3 f_equal. lia.
    + rewrite (H2 i y Hy). do 3 f_equal. lia.
Qed.

(** ** Convergence of the one-pole recurrence *)
Lemma mix_step_acc k (c x y : f32) : (0 <= k <= 126)%Z -> unit_sample c -> within (bpow radix2 k) x -> within (bpow radix2 k) y ->
  let e := B2R c * B2R y + (1 - B2R c) * B2R x in
  Rabs (B2R (fadd (fmul c y) (fmul (fsub one c) x)) - e) <= 5 * bpow radix2 (k - 25) /\
  Rabs (B2R (fadd (fmul (fsub one c) x) (fmul c y)) - e) <= 5 * bpow radix2 (k - 25).
Proof.
  intros K [Fc Bc] [Fx Bx] [Fy By] e.
  destruct (one_minus c one Fc one_fin one_R Bc) as (Fq & Bq & Sq); [cbn; lia..|].
  destruct (fsub_b 0 1 one c dy0 dy1 one_fin Fc) as (_ & Eq & _); [rewrite one_R; lra|].
  set (q := fsub one c) in *.
  assert (X0 : Rabs (B2R q - (1 - B2R c)) <= bpow radix2 (-25)).
  { rewrite Eq, one_R. change (-25)%Z with (0 - 25)%Z. apply rnd_err1; [lia|]. change (bpow radix2 0) with 1. apply Rabs_le. lra. }
  destruct (bp_dy k ltac:(lia)) as [D1 D2].
  assert (Pk : 0 < bpow radix2 k) by apply bpow_gt_0.
  apply Rabs_le_inv in Bx. apply Rabs_le_inv in By.
  destruct (fmul_b _ _ c y D2 D1 Fc Fy ltac:(split; nra)) as (F1 & E1 & B1).
  destruct (fmul_b _ _ q x D2 D1 Fq Fx ltac:(split; nra)) as (F2 & E2 & B2).
  assert (X1 : Rabs (B2R (fmul c y) - B2R c * B2R y) <= bpow radix2 (k - 25)) by (rewrite E1; apply rnd_err1; [lia|apply Rabs_le; nra]).
  assert (X2 : Rabs (B2R (fmul q x) - B2R q * B2R x) <= bpow radix2 (k - 25)) by (rewrite E2; apply rnd_err1; [lia|apply Rabs_le; nra]).
  assert (X3 : Rabs (B2R q * B2R x - (1 - B2R c) * B2R x) <= bpow radix2 (k - 25)).
  { replace (B2R q * B2R x - (1 - B2R c) * B2R x) with ((B2R q - (1 - B2R c)) * B2R x) by ring. rewrite Rabs_mult.
    replace (k - 25)%Z with (-25 + k)%Z by lia. rewrite bpow_plus. apply Rmult_le_compat; try apply Rabs_pos; [exact X0|apply Rabs_le; lra]. }
  destruct (bp_dy (k + 1) ltac:(lia)) as [D3 D4].
  assert (Ek : bpow radix2 (k + 1) = 2 * bpow radix2 k) by (rewrite bpow_plus; change (bpow radix2 1) with 2; ring).
  assert (Eu : bpow radix2 (k - 24) = 2 * bpow radix2 (k - 25)) by (replace (k - 24)%Z with (1 + (k - 25))%Z by lia; rewrite bpow_plus; reflexivity).
  assert (R : forall a b : f32, fin a -> fin b -> - bpow radix2 k <= B2R a <= bpow radix2 k -> - bpow radix2 k <= B2R b <= bpow radix2 k ->
    Rabs (B2R (fadd a b) - (B2R a + B2R b)) <= bpow radix2 (k - 24)).
  { intros a b Fa Fb Ba Bb. destruct (fadd_b _ _ a b D4 D3 Fa Fb ltac:(lra)) as (_ & -> & _).
    replace (k - 24)%Z with (k + 1 - 25)%Z by lia. apply rnd_err1; [lia|apply Rabs_le; lra]. }
  apply Rabs_le_inv in X1. apply Rabs_le_inv in X2. apply Rabs_le_inv in X3.
  split.
  - pose proof (R _ _ F1 F2 B1 B2) as X4. apply Rabs_le_inv in X4. unfold e. apply Rabs_le. lra.
  - pose proof (R _ _ F2 F1 B2 B1) as X4. apply Rabs_le_inv in X4. unfold e. apply Rabs_le. lra.
Qed.
Lemma geo_aux (c e x y y' v : R) (n : nat) : 0 <= c <= 1 -> 0 <= e ->
  (1 - c) * Rabs (y - x - c ^ n * (v - x)) <= e * (1 - c ^ n) ->
  Rabs (y' - (c * y + (1 - c) * x)) <= e ->
  (1 - c) * Rabs (y' - x - c ^ S n * (v - x)) <= e * (1 - c ^ S n).
Proof.
  intros C E H S. cbn [pow].
  set (p := c ^ n) in *. clearbody p.
  replace (y' - x - c * p * (v - x)) with ((y' - (c * y + (1 - c) * x)) + c * (y - x - p * (v - x))) by ring.
  set (d1 := y' - (c * y + (1 - c) * x)) in *. set (d2 := y - x - p * (v - x)) in *. clearbody d1 d2.
  pose proof (Rabs_triang d1 (c * d2)) as T. rewrite Rabs_mult, (Rabs_pos_eq c) in T by lra.
  pose proof (Rabs_pos d2). nra.
Qed.
Definition geo_close (c e v x y : R) (n : nat) : Prop := (1 - c) * Rabs (y - x - c ^ n * (v - x)) <= e * (1 - c ^ n).
Lemma after_S {S} (tick : S -> S * f32) n : forall s, after tick (Datatypes.S n) s = fst (tick (after tick n s)).
Proof. induction n as [|n IH]; intros s; [reflexivity|]. cbn [after] in *. now rewrite IH. Qed.
Lemma lg_converge k sr s x n : (0 <= k <= 126)%Z -> lg_inv sr (bpow radix2 k) s -> within (bpow radix2 k) x ->
  let t := after (lg_hold x) n s in
  lg_inv sr (bpow radix2 k) t /\ lg_coeff t = lg_coeff s /\
  geo_close (B2R (lg_coeff s)) (5 * bpow radix2 (k - 25)) (B2R (lg_prev s)) (B2R x) (B2R (lg_prev t)) n.
Proof.
  intros K I X. induction n as [|n IH].
  - cbn [after]. split; [exact I|]. split; [reflexivity|]. unfold geo_close. cbn [pow].
    replace (B2R (lg_prev s) - B2R x - 1 * (B2R (lg_prev s) - B2R x)) with 0 by ring. rewrite Rabs_R0. lra.
  - cbn zeta in *. rewrite after_S. set (t := after (lg_hold x) n s) in *. destruct IH as (It & Ec & G).
    pose proof (proj1 (lg_tick_inv k sr t x K It X)) as I1. split; [exact I1|]. split; [exact Ec|].
    destruct It as (Es & C & P). destruct (mix_step_acc k (lg_coeff t) x (lg_prev t) K C X P) as [A _].
    unfold geo_close in *. rewrite Ec in *. apply geo_aux with (y := B2R (lg_prev t)); [apply C|pose proof (bpow_ge_0 radix2 (k - 25)); lra|exact G|].
    unfold lg_hold, lg_tick. cbn [fst lg_prev]. rewrite Ec. exact A.
Qed.
Lemma op_converge k sr s x n : (0 <= k <= 126)%Z -> op_inv sr (bpow radix2 k) s -> within (bpow radix2 k) x ->
  let t := after (op_hold x) n s in
  op_inv sr (bpow radix2 k) t /\ op_pole t = op_pole s /\
  geo_close (B2R (op_pole s)) (5 * bpow radix2 (k - 25)) (B2R (op_z s)) (B2R x) (B2R (op_z t)) n.
Proof.
  intros K I X. induction n as [|n IH].
  - cbn [after]. split; [exact I|]. split; [reflexivity|]. unfold geo_close. cbn [pow].
    replace (B2R (op_z s) - B2R x - 1 * (B2R (op_z s) - B2R x)) with 0 by ring. rewrite Rabs_R0. lra.
  - cbn zeta in *. rewrite after_S. set (t := after (op_hold x) n s) in *. destruct IH as (It & Ec & G).
    pose proof (proj1 (op_tick_inv k sr t x K It X)) as I1. split; [exact I1|]. split; [exact Ec|].
    destruct It as (Es & C & Gn & P). destruct (mix_step_acc k (op_pole t) x (op_z t) K C X P) as [_ A]. rewrite <- Gn in A.
    unfold geo_close in *. rewrite Ec in *. apply geo_aux with (y := B2R (op_z t)); [apply C|pose proof (bpow_ge_0 radix2 (k - 25)); lra|exact G|].
    unfold op_hold, op_tick. cbn [fst op_z]. rewrite Ec. exact A.
Qed.
Lemma op_reach_inv L k sr c0 ops : exp_unit L -> fin sr -> 0 < B2R sr -> is_nan c0 = false -> (0 <= k <= 126)%Z -> Forall (op_ok (bpow radix2 k)) ops ->
  op_inv sr (bpow radix2 k) (fst (run (op_op L) (op_init L sr c0) ops)).
Proof.
  intros HL Fs Ps N0 K H. refine (proj1 (run_inv (op_op L) (op_inv sr (bpow radix2 k)) (op_ok (bpow radix2 k)) (fun _ => True) _ _ ops _ _ H)).
  - intros s o I O. destruct o as [x|x c|c|]; unfold op_op.
    + pose proof (proj1 (op_tick_inv k sr s x K I O)) as T. destruct (op_tick s x). exact T.
    + destruct O as [X O]. pose proof (proj1 (op_tickmod_inv L k sr s x c K HL Fs Ps O I X)) as T. destruct (op_tickmod L s x c). exact T.
    + destruct I as (Es & C & G & P). refine (conj Es (conj _ (conj eq_refl P))). cbn [op_setCutoff op_pole fst]. rewrite Es. apply op_pole_unit; assumption.
    + destruct I as (Es & C & G & P). exact (conj Es (conj C (conj G (within0 _ (bpp k))))).
  - auto.
  - refine (conj eq_refl (conj _ (conj eq_refl (within0 _ (bpp k))))). apply op_pole_unit; assumption.
Qed.
