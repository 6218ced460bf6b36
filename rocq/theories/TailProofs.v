(** What becomes of a decaying output: the recurrence y := c * y in single precision. *)
From Coq Require Import ZArith Reals Lra Lia Bool List Psatz.
From Flocq Require Import Core BinarySingleNaN.
From Verif Require Import Flt FltFacts FltMore FltKey FltArith Libm UtilModel UtilProofs EnvSpec EnvProofs FltClose OscSpec OscProofs OscProofs2 ExpBounds SmoothModel SmoothSpec SmoothProofs SmoothProofs3 SmoothProofs4 SmoothInst RealBounds.
Import ListNotations.
Local Open Scope R_scope.

(** From sample [n] on the stream consists of exact zeros. *)
Definition silent_from (n : nat) (y : nat -> f32) : Prop := forall m, (n <= m)%nat -> fin (y m) /\ B2R (y m) = 0.
(** The stream never contains a zero and ends in one subnormal number repeated for ever
    (2^-126 is the smallest normal number). *)
Definition stuck (y : nat -> f32) : Prop :=
  (forall n, B2R (y n) <> 0) /\
  exists N (v : f32), fin v /\ 0 < Rabs (B2R v) < bpow radix2 (-126) /\ forall n, (N <= n)%nat -> y n = v.

Section Rec.
  Variables (c : R) (y : nat -> f32).
  Hypothesis Hc : 0 <= c <= 1.
  Hypothesis Hf : forall n, fin (y n).
  Hypothesis Hy : forall n, B2R (y (S n)) = rnd32 (c * B2R (y n)).

  Lemma rec_le n : Rabs (B2R (y (S n))) <= Rabs (B2R (y n)).
  Proof using Hc Hy.
    rewrite Hy. apply rnd_abs_le.
    - unfold Rabs. destruct (Rcase_abs _); [apply dy_opp|]; apply dy_B2R.
    - rewrite Rabs_mult, (Rabs_pos_eq c) by lra. pose proof (Rabs_pos (B2R (y n))). nra.
  Qed.
  Lemma rec_sign n : 0 <= B2R (y (S n)) * B2R (y n).
  Proof using Hc Hy.
    rewrite Hy. destruct (Rle_lt_dec 0 (B2R (y n))) as [P|P].
    - apply Rmult_le_pos; [apply rnd_nonneg; nra|exact P].
    - assert (rnd32 (c * B2R (y n)) <= 0) by (apply rnd_nonpos; nra). nra.
  Qed.
  Lemma grid_abs (v : f32) : exists m : nat, Rabs (B2R v) = INR m * bpow radix2 (-149).
  Proof.
    destruct (Rle_lt_dec 0 (B2R v)) as [P|P].
    - rewrite Rabs_pos_eq by exact P. now apply grid_nat.
    - destruct (grid_nat (fneg v)) as [m E]; [rewrite fneg_R; lra|]. exists m. rewrite fneg_R in E. rewrite Rabs_left by exact P. exact E.
  Qed.
  Lemma grid_nz (v : f32) : B2R v <> 0 -> bpow radix2 (-149) <= Rabs (B2R v).
  Proof.
    intros N. destruct (grid_abs v) as [m E]. rewrite E. destruct m as [|m].
    - exfalso. cbn [INR] in E. rewrite Rmult_0_l in E. pose proof (Rabs_pos_lt _ N). lra.
    - rewrite S_INR. pose proof (pos_INR m). pose proof (bpow_gt_0 radix2 (-149)). nra.
  Qed.
  Lemma b150 : bpow radix2 (-149) = 2 * bpow radix2 (-150).
  Proof. change (-149)%Z with (1 + -150)%Z. rewrite bpow_plus. reflexivity. Qed.

  (** A fixed point appears. *)
  Lemma rec_fix : forall m n, Rabs (B2R (y n)) = INR m * bpow radix2 (-149) -> exists N, (n <= N)%nat /\ B2R (y (S N)) = B2R (y N).
  Proof using Hc Hy.
    induction m as [m IH] using (well_founded_induction lt_wf). intros n E.
    destruct (Req_dec (B2R (y (S n))) (B2R (y n))) as [Q|Q]; [exists n; split; [lia|exact Q]|].
    destruct (grid_abs (y (S n))) as [m' E']. pose proof (rec_le n) as Le. pose proof (rec_sign n) as Sg.
    assert (Lt : Rabs (B2R (y (S n))) < Rabs (B2R (y n))).
    { destruct Le as [Lt|Eq]; [exact Lt|]. exfalso. apply Q. revert Eq Sg. unfold Rabs. destruct (Rcase_abs _), (Rcase_abs _); intros; try lra; nra. }
    rewrite E, E' in Lt. apply grid_lt in Lt. destruct (IH m' Lt (S n) E') as (N & LN & EN). exists N. split; [lia|exact EN].
  Qed.

  Lemma rec_stuck : 51 / 100 <= c <= 1 - bpow radix2 (-16) -> B2R (y 0%nat) <> 0 -> stuck y.
  Proof using Hc Hf Hy.
    intros C N0. pose proof (bpow_gt_0 radix2 (-150)) as P150.
    assert (NZ : forall n, B2R (y n) <> 0).
    { induction n as [|n IH]; [exact N0|]. intros E. rewrite Hy in E. pose proof (rrel32 (c * B2R (y n))) as R. rewrite E in R.
      rewrite Rminus_0_l, Rabs_Ropp, Rabs_mult, (Rabs_pos_eq c) in R by lra. pose proof (grid_nz _ IH) as G. rewrite b150 in G.
      set (a := Rabs (B2R (y n))) in *. clearbody a. revert R. replace (bpow radix2 (-24)) with (/ 16777216) by (bp; lra). intros R.
      assert (51 / 100 * (2 * bpow radix2 (-150)) <= c * a) by (apply Rmult_le_compat; lra). nra. }
    split; [exact NZ|].
    destruct (grid_abs (y 0%nat)) as [m0 E0]. destruct (rec_fix m0 0%nat E0) as (N & _ & EN).
    exists N, (y N). split; [apply Hf|]. split.
    - split; [apply Rabs_pos_lt, NZ|]. rewrite Hy in EN. pose proof (rrel32 (c * B2R (y N))) as R. rewrite EN in R.
      replace (B2R (y N) - c * B2R (y N)) with ((1 - c) * B2R (y N)) in R by ring. rewrite !Rabs_mult, (Rabs_pos_eq c), (Rabs_pos_eq (1 - c)) in R by lra.
      pose proof (Rabs_pos (B2R (y N))) as P. set (a := Rabs (B2R (y N))) in *. clearbody a.
      assert (E126 : bpow radix2 (-126) = 16777216 * bpow radix2 (-150)) by (change (-126)%Z with (24 + -150)%Z; rewrite bpow_plus; f_equal; bp; lra).
      rewrite E126. revert R C. replace (bpow radix2 (-24)) with (/ 16777216) by (bp; lra). replace (bpow radix2 (-16)) with (/ 65536) by (bp; lra). intros R C.
      assert (c * a <= a) by nra. assert (/ 65536 * a <= (1 - c) * a) by nra. lra.
    - assert (EB : forall k, B2R (y (N + k)%nat) = B2R (y N)).
      { induction k as [|k IH]; [now rewrite Nat.add_0_r|]. rewrite Nat.add_succ_r, Hy, IH, <- Hy. exact EN. }
      intros n Ln. specialize (EB (n - N)%nat). replace (N + (n - N))%nat with n in EB by lia.
      assert (ST : forall k, is_finite_strict (y k) = true).
      { intros k. pose proof (Hf k) as F. pose proof (NZ k) as Z. destruct (y k); cbn in *; try reflexivity; try discriminate F. now contradiction Z. }
      apply B2R_inj; [apply ST|apply ST|exact EB].
  Qed.

  Lemma rec_silent : c <= 49 / 100 -> silent_from 278 y.
  Proof using Hc Hf Hy.
    intros C.
    assert (B : forall n, (n <= 277)%nat -> Rabs (B2R (y n)) <= bpow radix2 (128 - Z.of_nat n)).
    { induction n as [|n IH]; intros L.
      - change (128 - Z.of_nat 0)%Z with 128%Z. left. apply abs_B2R_lt_emax.
      - specialize (IH ltac:(lia)). rewrite Hy. apply rnd_abs_le.
        + split; [apply generic_format_bpow; unfold FLT_exp, SpecFloat.fexp, SpecFloat.emin; lia|]. rewrite Rabs_pos_eq by apply bpow_ge_0. apply bpow_lt. lia.
        + rewrite Rabs_mult, (Rabs_pos_eq c) by lra.
          replace (bpow radix2 (128 - Z.of_nat n)) with (2 * bpow radix2 (128 - Z.of_nat (S n))) in IH
            by (replace (128 - Z.of_nat n)%Z with (1 + (128 - Z.of_nat (S n)))%Z by lia; rewrite bpow_plus; reflexivity).
          pose proof (Rabs_pos (B2R (y n))). nra. }
    assert (Z : B2R (y 278%nat) = 0).
    { specialize (B 277%nat ltac:(lia)). change (128 - Z.of_nat 277)%Z with (-149)%Z in B. pose proof (Hy 277) as E.
      destruct (Req_dec (B2R (y 278%nat)) 0) as [Q|Q]; [exact Q|]. exfalso. apply grid_nz in Q.
      pose proof (rrel32 (c * B2R (y 277%nat))) as R. rewrite <- E in R. rewrite b150 in *.
      pose proof (Rabs_triang_inv (B2R (y 278%nat)) (c * B2R (y 277%nat))) as T. rewrite (Rabs_mult c), (Rabs_pos_eq c) in * by lra.
      pose proof (Rabs_pos (B2R (y 277%nat))) as P0. pose proof (bpow_gt_0 radix2 (-150)) as P.
      set (a := Rabs (B2R (y 277%nat))) in *. clearbody a. assert (c * a <= 49 / 100 * (2 * bpow radix2 (-150))) by (apply Rmult_le_compat; lra).
      revert R. replace (bpow radix2 (-24)) with (/ 16777216) by (bp; lra). intros R. lra. }
    intros m L. split; [apply Hf|]. replace m with (278 + (m - 278))%nat by lia. generalize (m - 278)%nat. intros k.
    induction k as [|k IH]; [rewrite Nat.add_0_r; exact Z|]. rewrite Nat.add_succ_r, Hy, IH, Rmult_0_r. apply rnd_0.
  Qed.
End Rec.

(** ** The coefficients *)
Lemma exp_lo z : 0 <= z <= 1 -> (1 - z / 8) ^ 8 <= exp (- z).
Proof.
  intros Z. replace (- z) with (INR 8 * (- (z / 8))) by (cbn; field). rewrite <- pow_exp. apply pow_incr. pose proof (exp_ineq1_le (- (z / 8))). lra.
Qed.
Lemma exp_hi z : 0 <= z -> exp (- z) * (1 + z / 8) ^ 8 <= 1.
Proof.
  intros Z. assert (H : (1 + z / 8) ^ 8 <= exp z).
  { replace z with (INR 8 * (z / 8)) at 2 by (cbn; field). rewrite <- pow_exp. apply pow_incr. pose proof (exp_ineq1_le (z / 8)). lra. }
  apply Rle_trans with (exp (- z) * exp z); [apply Rmult_le_compat_l; [left; apply exp_pos|exact H]|]. rewrite <- exp_plus, Rplus_opp_l, exp_0. lra.
Qed.
Lemma exp_64 z : z <= 0.64 -> 0.513 <= exp (- z).
Proof. intros H. apply Rle_trans with (exp (- (64 / 100))); [pose proof (exp_lo (64 / 100) ltac:(lra)) as E; eapply Rle_trans; [|exact E]; cbn [pow]; lra|apply exp_le_mono; lra]. Qed.
Lemma exp_78 z : 0.78 <= z -> exp (- z) <= 0.476.
Proof. intros H. apply Rle_trans with (exp (- (78 / 100))); [apply exp_le_mono; lra|]. pose proof (exp_hi (78 / 100) ltac:(lra)) as E. pose proof (exp_pos (- (78 / 100))).
  set (u := exp (- (78 / 100))) in *. clearbody u. cbn [pow] in E. lra. Qed.

Lemma dc_coeff_lo L sr c : exp_acc L -> fin sr -> 0 < B2R sr -> fin c -> 0 < B2R c <= B2R sr / 10 -> 51 / 100 <= B2R (dc_coeffof L sr c).
Proof.
  intros HL Fs Ps Fc Bc. unfold dc_coeffof. destruct (fle c zero) eqn:E.
  { apply fle_R in E; [|exact Fc|reflexivity]. rewrite zero_R in E. lra. }
  assert (Q : fin (flit 1 (-2) : f32) /\ B2R (flit 1 (-2) : f32) = / 4) by (split; [ffin|fval (flit 1 (-2) : f32); lra]). destruct Q as [Fq Eq].
  destruct (fdiv_b 0 (IZR 103 * bpow radix2 (-10)) c sr dy0 (dyq 103 (-10) ltac:(lia) ltac:(lia)) Fc Fs ltac:(lra)) as (Fn & _ & Bn).
  { split; [apply Rmult_le_pos; [lra|left; now apply Rinv_0_lt_compat]|]. apply Rmult_le_reg_r with (B2R sr); [lra|]. unfold Rdiv. rewrite Rmult_assoc, Rinv_l by lra. bp. nra. }
  set (n := fdiv c sr) in *. clearbody n. revert Bn. bp. intros Bn. cbn zeta.
  destruct (flt (flit 1 (-2)) n) eqn:E2.
  { apply flt_R in E2; [|exact Fq|exact Fn]. rewrite Eq in E2. lra. }
  destruct mtp as [Fm Bm]. set (m := fmul (fneg two) PIf) in *. clearbody m.
  destruct (fmul_b (IZR (-655) * bpow radix2 (-10)) 0 m n (dyq (-655) (-10) ltac:(lia) ltac:(lia)) dy0 Fm Fn) as (Fw & _ & Bw).
  { bp. split; nra. }
  set (w := fmul m n) in *. clearbody w. revert Bw. bp. intros Bw. destruct (HL w Fw ltac:(lra)) as [Fe Ae].
  pose proof (exp_64 (- B2R w) ltac:(lra)) as X. rewrite Ropp_involutive in X. revert Ae. bp. intros Ae. apply Rabs_le_inv in Ae. lra.
Qed.
Lemma dc_coeff_hi L sr c : exp_acc L -> fin sr -> 0 < B2R sr -> fin c -> B2R sr / 8 <= B2R c -> B2R (dc_coeffof L sr c) <= 49 / 100.
Proof.
  intros HL Fs Ps Fc Bc. unfold dc_coeffof. destruct (fle c zero) eqn:E.
  { apply fle_R in E; [|exact Fc|reflexivity]. rewrite zero_R in E. lra. }
  assert (B18 : B2R sr * bpow radix2 (-18) <= B2R c) by (replace (bpow radix2 (-18)) with (/ 262144) by (bp; lra); lra).
  destruct (dc_n sr c Fs Ps Fc B18) as [Fn Bn]. cbn zeta in *.
  assert (B8 : / 8 <= B2R (if flt (flit 1 (-2)) (fdiv c sr) then flit 1 (-2) : f32 else fdiv c sr)).
  { destruct (flt (flit 1 (-2)) (fdiv c sr)) eqn:E2; [fval (flit 1 (-2) : f32); lra|].
    destruct (fdiv_key c sr Fc Fs) as [N K]; [lra|]. rewrite <- key_fin by exact Fn. rewrite K.
    replace (/ 8) with (bpow radix2 (-3)) by (bp; lra). rewrite <- (sat_in (emax:=128) (bpow radix2 (-3))) by (rewrite Rabs_pos_eq by apply bpow_ge_0; apply bpow_lt; lia).
      apply sat_le. rewrite <- (rnd_fmt (prec:=24) (emax:=128) (bpow radix2 (-3))) by (apply fmt_bpow; cbn; lia). apply rnd_le.
      apply Rmult_le_reg_r with (B2R sr); [lra|]. unfold Rdiv. rewrite Rmult_assoc, Rinv_l by lra. bp. lra. }
  set (n := if flt _ _ then _ else _) in *. clearbody n. destruct mtp as [Fm Bm]. set (m := fmul (fneg two) PIf) in *. clearbody m.
  replace (bpow radix2 (-18)) with (/ 262144) in Bn by (bp; lra).
  destruct (fmul_b (-2) (IZR (-800) * bpow radix2 (-10)) m n (dyZ (-2) ltac:(lia)) (dyq (-800) (-10) ltac:(lia) ltac:(lia)) Fm Fn) as (Fw & _ & Bw).
  { bp. split; nra. }
  set (w := fmul m n) in *. clearbody w. revert Bw. bp. intros Bw. destruct (HL w Fw ltac:(lra)) as [Fe Ae].
  pose proof (exp_78 (- B2R w) ltac:(lra)) as X. rewrite Ropp_involutive in X. revert Ae. bp. intros Ae. apply Rabs_le_inv in Ae. lra.
Qed.

(** ** Streams *)
Lemma dc_stream s x : unit_sample (dc_coeff s) -> fin x -> fin (snd (dc_tick s x)) ->
  let y n := snd (dc_tick (after (dc_hold x) n s) x) in
  (forall n, fin (y n)) /\ (forall n, B2R (y (S n)) = rnd32 (B2R (dc_coeff s) * B2R (y n))).
Proof.
  intros U Fx F0 y.
  assert (I : forall n, dc_coeff (after (dc_hold x) n s) = dc_coeff s /\ fin (y n)).
  { induction n as [|n [E F]]; [split; [reflexivity|exact F0]|]. unfold y. rewrite after_S.
    set (t := after (dc_hold x) n s) in *. split; [exact E|]. unfold dc_hold. cbn [dc_tick fst snd dc_coeff dc_xl dc_yl].
    assert (Ut : unit_sample (dc_coeff t)) by (rewrite E; exact U). exact (proj1 (dc_held _ x _ Ut Fx F)). }
  split; [intros n; apply I|]. intros n. destruct (I n) as [E F]. unfold y in *. rewrite after_S. set (t := after (dc_hold x) n s) in *. clearbody t.
  unfold dc_hold. cbn [dc_tick fst snd dc_coeff dc_xl dc_yl].
  assert (Ut : unit_sample (dc_coeff t)) by (rewrite E; exact U). rewrite <- E. exact (proj1 (proj2 (dc_held _ x _ Ut Fx F))).
Qed.
Lemma mulz (g : f32) : fin g -> fin (fmul g zero) /\ B2R (fmul g zero) = 0.
Proof. intros F. destruct (fmul_exact g zero F eq_refl) as [A B]; [rewrite zero_R, Rmult_0_r; apply dy0|]. rewrite B, zero_R. split; [exact A|ring]. Qed.
Lemma mul_unit (c y : f32) : unit_sample c -> fin y -> fin (fmul c y) /\ B2R (fmul c y) = rnd32 (B2R c * B2R y).
Proof.
  intros [Fc Bc] Fy.
  assert (D : dy32 (Rabs (B2R y))) by (unfold Rabs; destruct (Rcase_abs _); [apply dy_opp|]; apply dy_B2R).
  assert (M : Rabs (B2R c * B2R y) <= Rabs (B2R y)) by (rewrite Rabs_mult, (Rabs_pos_eq (B2R c)) by lra; pose proof (Rabs_pos (B2R y)); nra).
  apply Rabs_le_inv in M. destruct (fmul_b _ _ c y (dy_opp _ D) D Fc Fy M) as (Fm & Em & _). auto.
Qed.
Lemma add_z (z v : f32) : fin z -> B2R z = 0 -> fin v -> (fin (fadd z v) /\ B2R (fadd z v) = B2R v) /\ (fin (fadd v z) /\ B2R (fadd v z) = B2R v).
Proof.
  intros Fz Ez Fv. split.
  - destruct (fadd_exact z v Fz Fv) as [A B]; [rewrite Ez, Rplus_0_l; apply dy_B2R|]. rewrite B, Ez. split; [exact A|ring].
  - destruct (fadd_exact v z Fv Fz) as [A B]; [rewrite Ez, Rplus_0_r; apply dy_B2R|]. rewrite B, Ez. split; [exact A|ring].
Qed.
Lemma one_minus_fin (c : f32) : unit_sample c -> fin (fsub one c).
Proof. intros [F B]. apply (fsub_b 0 1 one c dy0 dy1); [ffin|exact F|rewrite one_R; lra]. Qed.
(** The value of each filter [n] samples after the input has become zero; number 0 is the value before. *)
Lemma lg_stream s : unit_sample (lg_coeff s) -> fin (lg_prev s) ->
  let y n := lg_prev (after (lg_hold zero) n s) in
  (forall n, fin (y n)) /\ (forall n, B2R (y (S n)) = rnd32 (B2R (lg_coeff s) * B2R (y n))).
Proof.
  intros U F0 y.
  assert (St : forall c p : f32, unit_sample c -> fin p -> let o := fadd (fmul c p) (fmul (fsub one c) zero) in fin o /\ B2R o = rnd32 (B2R c * B2R p)).
  { intros c p Uc Fp. destruct (mul_unit c p Uc Fp) as [Fm Em]. destruct (mulz _ (one_minus_fin c Uc)) as [Fz Ez].
    destruct (add_z _ _ Fz Ez Fm) as [_ [A B]]. rewrite <- Em. exact (conj A B). }
  assert (I : forall n, lg_coeff (after (lg_hold zero) n s) = lg_coeff s /\ fin (y n)).
  { induction n as [|n [E F]]; [split; [reflexivity|exact F0]|]. unfold y. rewrite after_S.
    set (t := after (lg_hold zero) n s) in *. split; [exact E|]. unfold lg_hold. cbn [lg_tick fst lg_prev]. rewrite E. exact (proj1 (St _ _ U F)). }
  split; [intros n; apply I|]. intros n. destruct (I n) as [E F]. unfold y in *. rewrite after_S. set (t := after (lg_hold zero) n s) in *. clearbody t.
  unfold lg_hold. cbn [lg_tick fst lg_prev]. rewrite E. exact (proj2 (St _ _ U F)).
Qed.
Lemma op_stream s : unit_sample (op_pole s) -> op_gain s = fsub one (op_pole s) -> fin (op_z s) ->
  let y n := op_z (after (op_hold zero) n s) in
  (forall n, fin (y n)) /\ (forall n, B2R (y (S n)) = rnd32 (B2R (op_pole s) * B2R (y n))).
Proof.
  intros U G F0 y.
  assert (St : forall c p : f32, unit_sample c -> fin p -> let o := fadd (fmul (fsub one c) zero) (fmul c p) in fin o /\ B2R o = rnd32 (B2R c * B2R p)).
  { intros c p Uc Fp. destruct (mul_unit c p Uc Fp) as [Fm Em]. destruct (mulz _ (one_minus_fin c Uc)) as [Fz Ez].
    destruct (add_z _ _ Fz Ez Fm) as [[A B] _]. rewrite <- Em. exact (conj A B). }
  assert (I : forall n, op_pole (after (op_hold zero) n s) = op_pole s /\ op_gain (after (op_hold zero) n s) = op_gain s /\ fin (y n)).
  { induction n as [|n (E & E' & F)]; [split; [reflexivity|split; [reflexivity|exact F0]]|]. unfold y. rewrite after_S.
    set (t := after (op_hold zero) n s) in *. split; [exact E|]. split; [exact E'|]. unfold op_hold. cbn [op_tick fst op_z]. rewrite E', G, E. exact (proj1 (St _ _ U F)). }
  split; [intros n; apply I|]. intros n. destruct (I n) as (E & E' & F). unfold y in *. rewrite after_S. set (t := after (op_hold zero) n s) in *. clearbody t.
  unfold op_hold. cbn [op_tick fst op_z]. rewrite E', G, E. exact (proj2 (St _ _ U F)).
Qed.

(** ** The filters, after any history *)
Lemma dc_tail L k sr c0 ops c x : exp_acc L -> exp_unit L -> fin sr -> 0 < B2R sr -> dc_cut_ok sr c0 -> (-90 <= k <= 120)%Z -> Forall (dc_ok (bpow radix2 k) sr) ops ->
  dc_cut_ok sr c -> within (bpow radix2 k) x ->
  let s := dc_setCutoff L (fst (runs (dc_op L) (dc_init L sr c0) ops)) c in
  let y n := snd (dc_tick (after (dc_hold x) n s) x) in
  (0 < B2R c <= B2R sr / 10 -> B2R (y 0%nat) <> 0 -> stuck y) /\ (B2R sr / 8 <= B2R c -> silent_from 278 y) /\ (B2R c <= 0 -> silent_from 1 y).
Proof.
  intros HL HU Fs Ps C0 K H C X s y. destruct (dc_run_inv L k sr c0 ops HL HU Fs Ps C0 K H) as [(Es & _ & (Wl & Fl & Dl) & _) _].
  assert (Ec : dc_coeff s = dc_coeffof L sr c) by (unfold s, dc_setCutoff; cbn [dc_coeff]; now rewrite Es).
  destruct (dc_coeff_b L sr c HL HU Fs Ps C) as [Fc Bc].
  assert (U : unit_sample (dc_coeff s)) by (rewrite Ec; split; [exact Fc|]; pose proof (bpow_ge_0 radix2 (-16)); lra).
  assert (F0 : fin (snd (dc_tick s x))).
  { rewrite <- Ec in Fc, Bc. unfold dc_tick. cbn [snd]. apply (dc_out_b k (dc_coeff s) (dc_xl s) (dc_yl s) x K Fc Bc Wl Fl Dl X). }
  destruct (dc_stream s x U (proj1 X) F0) as [A B]. fold y in A, B.
  pose proof (proj2 U) as U1. split; [|split].
  - intros Hc NZ. apply (rec_stuck (B2R (dc_coeff s)) y U1 A B); [|exact NZ]. rewrite Ec. split; [apply dc_coeff_lo; auto; apply C|apply Bc].
  - intros Hc. apply (rec_silent (B2R (dc_coeff s)) y U1 A B). rewrite Ec. apply dc_coeff_hi; auto; apply C.
  - intros Hc m L1. split; [apply A|]. destruct m as [|m]; [lia|]. eapply eq_trans; [exact (B m)|]. replace (B2R (dc_coeff s)) with 0; [rewrite Rmult_0_l; apply rnd_0|].
    rewrite Ec. unfold dc_coeffof. replace (fle c zero) with true; [now rewrite zero_R|]. symmetry. apply fle_R; [apply C|reflexivity|exact Hc].
Qed.
Lemma op_tail L k sr c0 ops c : exp_acc L -> exp_unit L -> rate_ok sr -> is_nan c0 = false -> (0 <= k <= 126)%Z -> Forall (op_ok (bpow radix2 k)) ops ->
  fin c -> 1 <= B2R c <= B2R sr / 2 ->
  let s := op_setCutoff L (fst (run (op_op L) (op_init L sr c0) ops)) c in
  let y n := op_z (after (op_hold zero) n s) in
  (B2R sr * bpow radix2 (-18) <= B2R c <= B2R sr / 10 -> B2R (y 0%nat) <> 0 -> stuck y) /\ (B2R sr / 8 <= B2R c -> silent_from 278 y).
Proof.
  intros HL HU Hr N0 K H Fc Bc s y. assert (Fs : fin sr) by apply Hr. assert (Ps : 0 < B2R sr) by (destruct Hr; lra).
  destruct (op_reach_inv L k sr c0 ops HU Fs Ps N0 K H) as (Es & _ & _ & Wz & _).
  assert (Ec : op_pole s = op_poleof L sr c) by (unfold s, op_setCutoff; cbn [op_pole]; now rewrite Es).
  assert (U : unit_sample (op_pole s)) by (rewrite Ec; apply op_pole_unit; auto using fin_nan).
  pose proof (op_pole_acc L sr c HL Hr Fc Bc) as A0. rewrite <- Ec in A0.
  destruct (op_stream s U eq_refl Wz) as [A B]. fold y in A, B. pose proof (proj2 U) as U1.
  assert (PB := PI_bounds).
  assert (Q : B2R c / B2R sr * B2R sr = B2R c) by (field; lra). set (q := B2R c / B2R sr) in *. clearbody q.
  revert A0. bp. intros A0. apply Rabs_le_inv in A0. split.
  - intros [Q1 Q2] NZ. apply (rec_stuck (B2R (op_pole s)) y U1 A B); [|exact NZ].
    revert Q1. replace (bpow radix2 (-18)) with (/ 262144) by (bp; lra). intros Q1.
    assert (q <= / 10) by nra. assert (/ 262144 <= q) by nra. split.
    + pose proof (exp_64 (2 * PI * q) ltac:(nra)). lra.
    + assert (E : exp (- (2 * PI * q)) <= exp (- (12 / 524288))) by (apply exp_le_mono; nra).
      pose proof (exp_neg_upper (12 / 524288) ltac:(lra)). replace (bpow radix2 (-16)) with (/ 65536) by (bp; lra). lra.
  - intros Q1. apply (rec_silent (B2R (op_pole s)) y U1 A B). assert (/ 8 <= q) by nra.
    pose proof (exp_78 (2 * PI * q) ltac:(nra)). lra.
Qed.
Lemma lg_run_inv L k sr t ops : exp_unit L -> sr_ok sr -> is_nan t = false -> (0 <= k <= 126)%Z -> Forall (lg_ok (bpow radix2 k)) ops ->
  lg_inv sr (bpow radix2 k) (fst (run (lg_op L) (lg_init L sr t) ops)).
Proof.
  intros HL Hs Nt K H. refine (proj1 (run_inv (lg_op L) (lg_inv sr (bpow radix2 k)) (lg_ok (bpow radix2 k)) (fun _ => True) _ _ ops _ _ H)).
  - intros s o I O. destruct o as [x|t'|v|]; unfold lg_op.
    + pose proof (proj1 (lg_tick_inv k sr s x K I O)) as T. destruct (lg_tick s x). exact T.
    + destruct I as (Es & C & P). refine (conj Es (conj _ P)). cbn [lg_setLagTime lg_coeff fst]. apply lag_coeff_unit; [exact HL|now rewrite Es|exact O].
    + destruct I as (Es & C & P). exact (conj Es (conj C O)).
    + destruct I as (Es & C & P). exact (conj Es (conj C (within0 _ (bpp k)))).
  - auto.
  - apply lg_init_inv; auto. apply bpp.
Qed.
Lemma lg_tail L k sr t0 ops t : exp_acc L -> exp_unit L -> sr_ok sr -> fin sr -> is_nan t0 = false -> (0 <= k <= 126)%Z -> Forall (lg_ok (bpow radix2 k)) ops -> fin t ->
  let s := lg_setLagTime L (fst (run (lg_op L) (lg_init L sr t0) ops)) t in
  let y n := lg_prev (after (lg_hold zero) n s) in
  (0 < B2R t -> 32 <= B2R t * B2R sr <= 65536 -> B2R (y 0%nat) <> 0 -> stuck y) /\ (B2R t <= 0 -> silent_from 1 y).
Proof.
  intros HL HU Hs Fs N0 K H Ft s y. destruct (lg_run_inv L k sr t0 ops HU Hs N0 K H) as (Es & _ & Wz & _).
  assert (Ps : 0 < B2R sr) by (apply flt_R in Hs; [|reflexivity|exact Fs]; change (B2R (fzero : f32)) with 0 in Hs; exact Hs).
  assert (Ec : lg_coeff s = lag_coeff L t sr) by (unfold s, lg_setLagTime; cbn [lg_coeff]; now rewrite Es).
  assert (U : unit_sample (lg_coeff s)) by (rewrite Ec; apply lag_coeff_unit; auto using fin_nan).
  destruct (lg_stream s U Wz) as [A B]. fold y in A, B. pose proof (proj2 U) as U1. split.
  - intros Pt BN NZ. apply (rec_stuck (B2R (lg_coeff s)) y U1 A B); [|exact NZ]. destruct (lag_c_acc L t sr HL Ft Fs Pt Ps BN) as (a & Ba & _ & Aa). rewrite Ec.
    set (N := B2R t * B2R sr) in *. assert (Q : a / N * N = a) by (field; lra). set (q := a / N) in *. clearbody q.
    revert Aa. bp. intros Aa. apply Rabs_le_inv in Aa. assert (q <= 0.25) by nra. assert (0.0001 <= q) by nra. split.
    + pose proof (exp_64 q ltac:(lra)). lra.
    + assert (E : exp (- q) <= exp (- (12 / 524288))) by (apply exp_le_mono; lra).
      pose proof (exp_neg_upper (12 / 524288) ltac:(lra)). replace (bpow radix2 (-16)) with (/ 65536) by (bp; lra). lra.
  - intros Nt m L1. split; [apply A|]. destruct m as [|m]; [lia|]. eapply eq_trans; [exact (B m)|]. replace (B2R (lg_coeff s)) with 0; [rewrite Rmult_0_l; apply rnd_0|].
    rewrite Ec. unfold lag_coeff. replace (fle t zero) with true; [now rewrite zero_R|]. symmetry. apply fle_R; [exact Ft|reflexivity|exact Nt].
Qed.
