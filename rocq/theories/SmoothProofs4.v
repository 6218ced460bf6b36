From Coq Require Import ZArith Reals Lra Lia Bool List Psatz.
From Flocq Require Import Core BinarySingleNaN.
From Verif Require Import Flt FltFacts FltMore FltKey FltArith Libm UtilModel UtilProofs EnvSpec EnvProofs FltClose OscSpec OscProofs OscProofs2 ExpBounds SmoothModel SmoothSpec SmoothProofs SmoothProofs3.
Import ListNotations.
Local Open Scope R_scope.

(** ** The lag time of Lag *)
Lemma lit_a : fin (fneg (fdec 6907755 1000000)) /\ - 6.907756 <= B2R (fneg (fdec 6907755 1000000)) <= - 6.907754.
Proof. split; [ffin|]. fval (fneg (fdec 6907755 1000000)). lra. Qed.
Lemma lag_c_acc L t sr : exp_acc L -> fin t -> fin sr -> 0 < B2R t -> 0 < B2R sr -> 32 <= B2R t * B2R sr <= 65536 ->
  exists a, 6.907754 <= a <= 6.907756 /\ fin (lag_coeff L t sr) /\
    Rabs (B2R (lag_coeff L t sr) - exp (- (a / (B2R t * B2R sr)))) <= 3 * bpow radix2 (-24).
Proof.
  intros HL Ft Fs Pt Ps BN. unfold lag_coeff.
  assert (E0 : fle t zero = false).
  { destruct (fle t zero) eqn:E; [|reflexivity]. apply fle_R in E; [|exact Ft|reflexivity]. rewrite zero_R in E. lra. }
  rewrite E0. destruct lit_a as [Fa Ba]. set (w := fneg (fdec 6907755 1000000) : f32) in *. clearbody w.
  exists (- B2R w). split; [lra|].
  set (N := B2R t * B2R sr) in *.
  destruct (fmul_b 32 65536 t sr (dyZ 32 ltac:(lia)) (dyZ 65536 ltac:(lia)) Ft Fs BN) as (Fp & Ep & Bp).
  fold N in Ep. set (p := fmul t sr) in *. clearbody p.
  assert (X1 : Rabs (B2R p - N) <= bpow radix2 (-24) * N + bpow radix2 (-150)).
  { rewrite Ep. rewrite <- (Rabs_pos_eq N) at 3 by lra. apply rrel32. }
  assert (T : 0 < bpow radix2 (-150) <= / 1125899906842624) by (exact t150').
  assert (Iv : / 65536 <= / B2R p <= / 32) by (split; apply Rinv_le_contravar; lra).
  destruct (fdiv_b (-1) 0 w p dyn1 dy0 Fa Fp) as (Fq & Eq & Bq); [lra|unfold Rdiv; nra|].
  set (q := fdiv w p) in *. clearbody q.
  assert (X2 : Rabs (B2R q - B2R w / B2R p) <= bpow radix2 (-24) * (7 * / B2R p) + bpow radix2 (-150)).
  { rewrite Eq. eapply Rle_trans; [apply rrel32|]. apply Rplus_le_compat_r, Rmult_le_compat_l; [apply bpow_ge_0|].
    unfold Rdiv. rewrite Rabs_mult, (Rabs_pos_eq (/ B2R p)) by lra. apply Rmult_le_compat_r; [lra|]. apply Rabs_le. lra. }
  assert (X3 : Rabs (B2R w / B2R p - B2R w / N) <= 7 * / 32 * / 16000000).
  { assert (IN : 0 < / N <= / 32) by (split; [apply Rinv_0_lt_compat; lra|apply Rinv_le_contravar; lra]).
    replace (B2R w / B2R p - B2R w / N) with (B2R w * ((N - B2R p) * / N) * / B2R p) by (field; lra).
    assert (Y : Rabs ((N - B2R p) * / N) <= / 16000000).
    { rewrite Rabs_mult, (Rabs_pos_eq (/ N)), Rabs_minus_sym by lra. apply Rmult_le_reg_r with N; [lra|].
      rewrite Rmult_assoc, Rinv_l by lra. revert X1. bp. lra. }
    rewrite !Rabs_mult. rewrite (Rabs_pos_eq (/ B2R p)) by lra.
    rewrite <- Rabs_mult. apply Rle_trans with (7 * / 16000000 * / 32); [|lra].
    apply Rmult_le_compat; [apply Rmult_le_pos; apply Rabs_pos|lra| |lra].
    apply Rmult_le_compat; try apply Rabs_pos; [apply Rabs_le; lra|exact Y]. }
  destruct (HL q Fq (proj2 Bq)) as [Fc Ac]. split; [exact Fc|].
  assert (X4 : Rabs (exp (B2R q) - exp (- (- B2R w / N))) <= bpow radix2 (-24)).
  { eapply Rle_trans; [apply exp_neg_lip; [lra|]|].
    - assert (0 < / N) by (apply Rinv_0_lt_compat; lra). unfold Rdiv. nra.
    - replace (B2R q - - (- B2R w / N)) with ((B2R q - B2R w / B2R p) + (B2R w / B2R p - B2R w / N)) by (field; lra).
      eapply Rle_trans; [apply Rabs_triang|]. revert X2. bp. nra. }
  replace (B2R (m_exp L q) - exp (- (- B2R w / N))) with ((B2R (m_exp L q) - exp (B2R q)) + (exp (B2R q) - exp (- (- B2R w / N)))) by ring.
  eapply Rle_trans; [apply Rabs_triang|]. revert Ac X4. bp. lra.
Qed.

Lemma pow_exp x n : exp x ^ n = exp (INR n * x).
Proof.
  induction n as [|n IH]; [cbn; rewrite Rmult_0_l, exp_0; reflexivity|].
  cbn [pow]. rewrite IH, <- exp_plus. f_equal. rewrite S_INR. ring.
Qed.
Lemma bern (d : R) n : 0 <= d <= 1 -> 1 - INR n * d <= (1 - d) ^ n.
Proof.
  intros D. induction n as [|n IH]; [cbn; lra|]. rewrite S_INR. cbn [pow].
  pose proof (pos_INR n). assert (0 <= (1 - d) ^ n) by (apply pow_le; lra). nra.
Qed.
Lemma pow_one_plus (d : R) n : 0 <= d -> (1 + d) ^ n <= exp (INR n * d).
Proof. intros D. rewrite <- pow_exp. apply pow_incr. pose proof (exp_ineq1_le d). lra. Qed.
Lemma pow_le_mono_n (c : R) n m : 0 <= c <= 1 -> (m <= n)%nat -> c ^ n <= c ^ m.
Proof.
  intros C H. induction H as [|n H IH]; [lra|]. cbn [pow]. assert (0 <= c ^ n) by (apply pow_le; lra). nra.
Qed.
Lemma lag_pow (c a N : R) : 6.907754 <= a <= 6.907756 -> 32 <= N <= 65536 -> 0 <= c <= 1 -> Rabs (c - exp (- (a / N))) <= 3 * bpow radix2 (-24) ->
  (forall n, N <= INR n -> c ^ n <= 0.00103) /\ (forall n, INR n <= N -> 0.00097 <= c ^ n) /\ 5 <= N * (1 - c).
Proof.
  intros A BN C E. set (z := a / N) in *.
  assert (IN : / 65536 <= / N <= / 32) by (split; apply Rinv_le_contravar; lra).
  assert (Zb : 0 < z <= 0.216) by (unfold z, Rdiv; split; nra).
  assert (ZN : N * z = a) by (unfold z; field; lra).
  assert (E1 : 1 - z <= exp (- z)) by (pose proof (exp_ineq1_le (- z)); lra).
  assert (E2 : exp (- z) <= 1 - z + 3 / 4 * (z * z)) by (apply exp_neg_upper; lra).
  set (e := exp (- z)) in *.
  assert (Eta : - 1.79e-7 <= c - e <= 1.79e-7) by (apply Rabs_le_inv in E; revert E; bp; lra).
  assert (LO : 0.000998 <= exp (- a)).
  { apply Rle_trans with (exp (- 6.907756)); [apply exp_lo|]. apply exp_le_mono. lra. }
  assert (HI : exp (- a) <= 0.001003).
  { apply Rle_trans with (exp (- 6.907754)); [|apply exp_hi]. apply exp_le_mono. lra. }
  assert (Hup : exp 0.02 <= 1.0205).
  { assert (Z2 : 0.02 = - (- 0.02)) by lra. rewrite Z2, exp_Ropp. apply Rle_trans with (/ (1 + - 0.02)); [apply Rinv_le_contravar; [lra|apply exp_ineq1_le]|lra]. }
  refine (conj _ (conj _ _)).
  - assert (G : forall n, N <= INR n -> INR n <= N + 1 -> c ^ n <= 0.00103).
    { intros n H1 H2. apply Rle_trans with ((e * (1 + 2.3e-7)) ^ n).
      - apply pow_incr. split; [lra|]. nra.
      - rewrite Rpow_mult_distr. unfold e. rewrite pow_exp.
        assert (P1 : exp (INR n * - z) <= exp (- a)).
        { apply exp_le_mono. nra. }
        assert (P2 : (1 + 2.3e-7) ^ n <= exp 0.02).
        { eapply Rle_trans; [apply pow_one_plus; lra|]. left. apply exp_increasing. nra. }
        pose proof (exp_pos (INR n * - z)). pose proof (pow_le (1 + 2.3e-7) n ltac:(lra)). nra. }
    intros n H. destruct (Rle_lt_dec (INR n) (N + 1)) as [H2|H2]; [now apply G|].
    set (m := Z.to_nat (up N)). pose proof (archimed N) as [U1 U2].
    assert (Um : INR m = IZR (up N)).
    { unfold m. rewrite INR_IZR_INZ, Z2Nat.id; [reflexivity|]. apply (le_IZR 0). lra. }
    apply Rle_trans with (c ^ m); [apply pow_le_mono_n; [exact C|]|apply G; lra].
    apply INR_le. lra.
  - intros n H. apply Rle_trans with ((e * (1 - 2.3e-7)) ^ n).
    + rewrite Rpow_mult_distr. unfold e. rewrite pow_exp.
      assert (P1 : exp (- a) <= exp (INR n * - z)).
      { apply exp_le_mono. nra. }
      pose proof (bern 2.3e-7 n ltac:(lra)) as P2. pose proof (pos_INR n).
      assert (0.98 <= (1 - 2.3e-7) ^ n) by nra. nra.
    + apply pow_incr. split; [nra|]. nra.
  - assert (1 - c >= z - 3 / 4 * (z * z) - 1.79e-7) by lra. nra.
Qed.
Lemma lag_time L k t sr n x v : exp_acc L -> exp_unit L -> (0 <= k <= 126)%Z -> fin t -> fin sr -> 0 < B2R t -> 0 < B2R sr ->
  32 <= B2R t * B2R sr <= 65536 -> within (bpow radix2 k) x -> within (bpow radix2 k) v ->
  let y := B2R (lg_prev (after (lg_hold x) n (lg_setValue (lg_init L sr t) v))) in
  (B2R t * B2R sr <= INR n -> Rabs (y - B2R x) <= 0.00103 * Rabs (B2R v - B2R x) + B2R t * B2R sr * bpow radix2 (k - 25)) /\
  (INR n <= B2R t * B2R sr -> 0.00097 * Rabs (B2R v - B2R x) - B2R t * B2R sr * bpow radix2 (k - 25) <= Rabs (y - B2R x)).
Proof.
  intros HL HU K Ft Fs Pt Ps BN X V y.
  assert (Hs : sr_ok sr) by (apply flt_R; [reflexivity|exact Fs|]; change (B2R (fzero : f32)) with 0; exact Ps).
  assert (I : lg_inv sr (bpow radix2 k) (lg_setValue (lg_init L sr t) v)).
  { refine (conj eq_refl (conj _ V)). apply lag_coeff_unit; auto. now apply fin_nan. }
  destruct (lg_converge k sr _ x n K I X) as (_ & _ & G). fold y in G.
  change (lg_coeff (lg_setValue (lg_init L sr t) v)) with (lag_coeff L t sr) in G.
  change (lg_prev (lg_setValue (lg_init L sr t) v)) with v in G.
  destruct (lag_c_acc L t sr HL Ft Fs Pt Ps BN) as (a & Ba & Fc & Ac).
  destruct I as (_ & [_ C] & _). change (lg_coeff (lg_setValue (lg_init L sr t) v)) with (lag_coeff L t sr) in C.
  destruct (lag_pow _ a _ Ba BN C Ac) as (H1 & H2 & H3). specialize (H1 n). specialize (H2 n).
  unfold geo_close in G. clearbody y. generalize dependent (B2R (lag_coeff L t sr)). intros c C G Ac H1 H2 H3.
  set (u := bpow radix2 (k - 25)) in *. assert (U : 0 < u) by apply bpow_gt_0.
  set (N := B2R t * B2R sr) in *. clearbody N.
  set (d := y - B2R x - c ^ n * (B2R v - B2R x)) in *.
  assert (P0 : 0 <= c ^ n <= 1) by (split; [apply pow_le; lra|rewrite <- (pow1 n); apply pow_incr; lra]).
  assert (Dd : Rabs d <= N * u).
  { assert (5 * Rabs d <= 5 * (N * u)); [|lra]. pose proof (Rabs_pos d).
    apply Rle_trans with (N * ((1 - c) * Rabs d)); [nra|]. apply Rle_trans with (N * (5 * u * (1 - c ^ n))); [apply Rmult_le_compat_l; [lra|exact G]|]. assert (0 <= N * u * c ^ n) by (apply Rmult_le_pos; [apply Rmult_le_pos; lra|lra]). lra. }
  assert (Ey : y - B2R x = d + c ^ n * (B2R v - B2R x)) by (unfold d; ring).
  rewrite Ey. clear Ey G. clearbody d. set (r := B2R v - B2R x) in *. clearbody r.
  pose proof (Rabs_pos r). split; intros Hn.
  - eapply Rle_trans; [apply Rabs_triang|]. rewrite Rabs_mult, (Rabs_pos_eq (c ^ n)) by lra. specialize (H1 Hn). nra.
  - pose proof (Rabs_triang_inv (c ^ n * r) (- d)) as T. rewrite Rabs_Ropp in T. replace (c ^ n * r - - d) with (d + c ^ n * r) in T by ring.
    rewrite Rabs_mult, (Rabs_pos_eq (c ^ n)) in T by lra. specialize (H2 Hn). nra.
Qed.

(** ** DCBlock *)
Lemma dc_n (sr c : f32) : fin sr -> 0 < B2R sr -> fin c -> B2R sr * bpow radix2 (-18) <= B2R c ->
  let n := fdiv c sr in let n := if flt (flit 1 (-2)) n then flit 1 (-2) else n in fin n /\ bpow radix2 (-18) <= B2R n <= / 4.
Proof.
  intros Fs Ps Fc Bc. cbn zeta.
  assert (Q : fin (flit 1 (-2) : f32) /\ B2R (flit 1 (-2) : f32) = / 4) by (split; [ffin|fval (flit 1 (-2) : f32); lra]).
  destruct Q as [Fq Eq]. destruct (fdiv_key c sr Fc Fs) as [N K]; [lra|]. set (n := fdiv c sr) in *.
  destruct (flt (flit 1 (-2)) n) eqn:E.
  - split; [exact Fq|]. rewrite Eq. bp. lra.
  - assert (Kn : key n <= / 4).
    { destruct (Rle_lt_dec (key n) (/ 4)) as [G|G]; [exact G|]. exfalso.
      assert (X : flt (flit 1 (-2)) n = true) by (apply flt_true; [now apply fin_nan|exact N|]; rewrite key_fin, Eq by exact Fq; exact G). congruence. }
    assert (Kl : bpow radix2 (-18) <= key n).
    { rewrite K. rewrite <- (sat_in (emax:=128) (bpow radix2 (-18))) by (rewrite Rabs_pos_eq by apply bpow_ge_0; apply bpow_lt; lia).
      apply sat_le. rewrite <- (rnd_fmt (prec:=24) (emax:=128) (bpow radix2 (-18))) by (apply fmt_bpow; cbn; lia). apply rnd_le.
      apply Rmult_le_reg_r with (B2R sr); [lra|]. unfold Rdiv. rewrite Rmult_assoc, Rinv_l by lra. lra. }
    assert (Fn : fin n).
    { apply fin_key_lt; [exact N|]. pose proof (bpow_ge_0 radix2 (-18)). rewrite Rabs_pos_eq by lra. apply Rle_lt_trans with 1; [lra|]. change 1 with (bpow radix2 0). apply bpow_lt. lia. }
    rewrite key_fin in Kn, Kl by exact Fn. auto.
Qed.
Lemma mtp : fin (fmul (fneg two) PIf) /\ - 6.29 <= B2R (fmul (fneg two) PIf) <= - 6.28.
Proof. split; [ffin|]. fval (fmul (fneg two) PIf). lra. Qed.
Lemma dc_coeff_b L sr c : exp_acc L -> exp_unit L -> fin sr -> 0 < B2R sr -> dc_cut_ok sr c ->
  fin (dc_coeffof L sr c) /\ 0 <= B2R (dc_coeffof L sr c) <= 1 - bpow radix2 (-16).
Proof.
  intros HL HU Fs Ps [Fc Bc]. unfold dc_coeffof. destruct (fle c zero) eqn:E.
  - split; [reflexivity|]. rewrite zero_R. bp. lra.
  - assert (P : 0 < B2R c).
    { destruct (Rlt_le_dec 0 (B2R c)) as [G|G]; [exact G|]. exfalso.
      assert (X : fle c zero = true) by (apply fle_R; [exact Fc|reflexivity|exact G]). congruence. }
    destruct Bc as [Bc|Bc]; [lra|]. destruct (dc_n sr c Fs Ps Fc Bc) as [Fn Bn]. cbn zeta in *.
    set (n := if flt _ _ then _ else _) in *. clearbody n. destruct mtp as [Fm Bm]. set (m := fmul (fneg two) PIf) in *. clearbody m.
    assert (B18 : bpow radix2 (-18) = / 262144) by (bp; lra). rewrite B18 in Bn.
    destruct (fmul_b (-2) (IZR (-12) * bpow radix2 (-19)) m n (dyZ (-2) ltac:(lia)) (dyq (-12) (-19) ltac:(lia) ltac:(lia)) Fm Fn) as (Fw & Ew & Bw).
    { bp. split; nra. }
    set (w := fmul m n) in *. clearbody w. revert Bw. bp. intros Bw.
    destruct (HL w Fw) as [Fe Ae]; [lra|]. pose proof (proj2 (HU w ltac:(apply fle_R; [exact Fw|reflexivity|]; change (B2R (fzero:f32)) with 0; lra))) as U.
    split; [exact Fe|]. split; [apply U|].
    assert (Ex : exp (B2R w) <= exp (- (12 / 524288))).
    { apply exp_le_mono. lra. }
    pose proof (exp_neg_upper (12 / 524288) ltac:(lra)) as Eu. revert Ae. bp. intros Ae. apply Rabs_le_inv in Ae. lra.
Qed.
(** One step with the input held. *)
Lemma sub_self (x : f32) : fin x -> fin (fsub x x) /\ B2R (fsub x x) = 0.
Proof.
  intros F. destruct (fsub_exact x x F F) as [A B]; [rewrite Rminus_diag_eq by reflexivity; apply dy0|]. rewrite B. split; [exact A|ring].
Qed.
Lemma dc_held (c x y : f32) : unit_sample c -> fin x -> fin y ->
  fin (dc_out c x y x) /\ B2R (dc_out c x y x) = rnd32 (B2R c * B2R y) /\ Rabs (B2R (dc_out c x y x)) <= Rabs (B2R y) /\ 0 <= B2R (dc_out c x y x) * B2R y.
Proof.
  intros [Fc Bc] Fx Fy. unfold dc_out. destruct (sub_self x Fx) as [Fz Ez]. set (z := fsub x x) in *. clearbody z.
  assert (D : dy32 (Rabs (B2R y))).
  { unfold Rabs. destruct (Rcase_abs _); [apply dy_opp|]; apply dy_B2R. }
  assert (M : Rabs (B2R c * B2R y) <= Rabs (B2R y)).
  { rewrite Rabs_mult, (Rabs_pos_eq (B2R c)) by lra. pose proof (Rabs_pos (B2R y)). nra. }
  apply Rabs_le_inv in M.
  destruct (fmul_b _ _ c y (dy_opp _ D) D Fc Fy M) as (Fm & Em & Bm).
  destruct (fadd_exact z (fmul c y) Fz Fm) as [Fa Ea].
  { rewrite Ez, Rplus_0_l. apply dy_B2R. }
  rewrite Ez, Rplus_0_l in Ea. rewrite Ea. split; [exact Fa|]. split; [exact Em|]. split; [now apply Rabs_le|].
  rewrite Em. destruct (Rle_lt_dec 0 (B2R y)) as [P|P].
  - apply Rmult_le_pos; [apply rnd_nonneg; nra|exact P].
  - assert (rnd32 (B2R c * B2R y) <= 0) by (apply rnd_nonpos; nra). nra.
Qed.
Definition dc_inv (m : R) (sr : f32) (s : dcb) : Prop :=
  dc_sr s = sr /\ (fin (dc_coeff s) /\ 0 <= B2R (dc_coeff s) <= 1 - bpow radix2 (-16)) /\
  (within m (dc_xl s) /\ fin (dc_yl s) /\ Rabs (B2R (dc_yl s) - B2R (dc_xl s)) <= 33 / 32 * m) /\
  (within m (dc_xr s) /\ fin (dc_yr s) /\ Rabs (B2R (dc_yr s) - B2R (dc_xr s)) <= 33 / 32 * m).
Lemma dc_aux (c M u x p y d1 d2 d3 : R) : 0 <= c <= 1 - / 65536 -> M = 16777216 * u -> 0 <= u ->
  Rabs x <= M -> Rabs p <= M -> Rabs (y - p) <= 33 / 32 * M -> Rabs d1 <= u -> Rabs d2 <= 2 * u -> Rabs d3 <= 4 * u ->
  Rabs ((x - p + d1) + (c * y + d2) + d3 - x) <= 33 / 32 * M.
Proof.
  intros C EM U X P Y D1 D2 D3.
  replace ((x - p + d1) + (c * y + d2) + d3 - x) with (c * (y - p) + (1 - c) * (- p) + (d1 + d2 + d3)) by ring.
  eapply Rle_trans; [apply Rabs_triang|]. eapply Rle_trans; [apply Rplus_le_compat_r, Rabs_triang|].
  rewrite !Rabs_mult, (Rabs_pos_eq c), (Rabs_pos_eq (1 - c)), Rabs_Ropp by lra.
  assert (Rabs (d1 + d2 + d3) <= 7 * u).
  { eapply Rle_trans; [apply Rabs_triang|]. eapply Rle_trans; [apply Rplus_le_compat_r, Rabs_triang|]. lra. }
  subst M. pose proof (Rabs_pos (y - p)). pose proof (Rabs_pos p). nra.
Qed.
Lemma dc_out_b k (c p y x : f32) : (-90 <= k <= 120)%Z -> fin c -> 0 <= B2R c <= 1 - bpow radix2 (-16) ->
  within (bpow radix2 k) p -> fin y -> Rabs (B2R y - B2R p) <= 33 / 32 * bpow radix2 k -> within (bpow radix2 k) x ->
  fin (dc_out c p y x) /\ Rabs (B2R (dc_out c p y x) - B2R x) <= 33 / 32 * bpow radix2 k /\ within (33 / 16 * bpow radix2 k) (dc_out c p y x).
Proof.
  intros K Fc Bc [Fp Bp] Fy By [Fx Bx]. unfold dc_out.
  set (M := bpow radix2 k) in *. assert (M0 : 0 < M) by apply bpow_gt_0.
  assert (E1 : bpow radix2 (k + 1) = 2 * M) by (unfold M; rewrite bpow_plus; change (bpow radix2 1) with 2; ring).
  assert (E2 : bpow radix2 (k + 2) = 4 * M) by (unfold M; rewrite bpow_plus; change (bpow radix2 2) with 4; ring).
  assert (E3 : bpow radix2 (k + 3) = 8 * M) by (unfold M; rewrite bpow_plus; change (bpow radix2 3) with 8; ring).
  set (u := bpow radix2 (k - 24)). assert (U : 0 < u) by apply bpow_gt_0.
  assert (EM : M = 16777216 * u) by (unfold M, u; replace k with (24 + (k - 24))%Z at 1 by lia; rewrite bpow_plus; reflexivity).
  assert (E16 : bpow radix2 (-16) = / 65536) by (bp; lra). rewrite E16 in Bc.
  pose proof Bp as Bp'. pose proof By as By'. pose proof Bx as Bx'.
  apply Rabs_le_inv in Bp'. apply Rabs_le_inv in By'. apply Rabs_le_inv in Bx'.
  destruct (bp_dy (k + 1) ltac:(lia)) as [D1 D1']. destruct (bp_dy (k + 2) ltac:(lia)) as [D2 D2']. destruct (bp_dy (k + 3) ltac:(lia)) as [D3 D3'].
  destruct (fsub_b _ _ x p D1' D1 Fx Fp ltac:(lra)) as (Fa & Ea & Ba).
  destruct (fmul_b _ _ c y D2' D2 Fc Fy ltac:(split; nra)) as (Fb & Eb & Bb).
  destruct (fadd_b _ _ (fsub x p) (fmul c y) D3' D3 Fa Fb ltac:(lra)) as (Fw & Ew & _).
  set (a := fsub x p) in *. set (b := fmul c y) in *. set (w := fadd a b) in *.
  assert (X1 : Rabs (B2R a - (B2R x - B2R p)) <= u) by (rewrite Ea; unfold u; replace (k - 24)%Z with (k + 1 - 25)%Z by lia; apply rnd_err1; [lia|apply Rabs_le; lra]).
  assert (X2 : Rabs (B2R b - B2R c * B2R y) <= 2 * u).
  { rewrite Eb. replace (2 * u) with (bpow radix2 (k + 2 - 25)) by (unfold u; replace (k + 2 - 25)%Z with (1 + (k - 24))%Z by lia; rewrite bpow_plus; reflexivity).
    apply rnd_err1; [lia|apply Rabs_le; split; nra]. }
  assert (X3 : Rabs (B2R w - (B2R a + B2R b)) <= 4 * u).
  { rewrite Ew. replace (4 * u) with (bpow radix2 (k + 3 - 25)) by (unfold u; replace (k + 3 - 25)%Z with (2 + (k - 24))%Z by lia; rewrite bpow_plus; reflexivity).
    apply rnd_err1; [lia|apply Rabs_le; lra]. }
  assert (R1 : Rabs (B2R w - B2R x) <= 33 / 32 * M).
  { replace (B2R w - B2R x) with ((B2R x - B2R p + (B2R a - (B2R x - B2R p))) + (B2R c * B2R y + (B2R b - B2R c * B2R y)) + (B2R w - (B2R a + B2R b)) - B2R x) by ring.
    apply (dc_aux (B2R c) M u); auto; lra. }
  split; [exact Fw|]. split; [exact R1|]. split; [exact Fw|].
  replace (B2R w) with ((B2R w - B2R x) + B2R x) by ring. eapply Rle_trans; [apply Rabs_triang|]. lra.
Qed.
Lemma runs_inv {S O} (step : S -> O -> S * list f32) (I : S -> Prop) (ok : O -> Prop) (P : f32 -> Prop) :
  (forall s o, I s -> ok o -> I (fst (step s o)) /\ Forall P (snd (step s o))) ->
  forall l s, I s -> Forall ok l -> I (fst (runs step s l)) /\ Forall P (snd (runs step s l)).
Proof.
  intros H1. induction l as [|o l IH]; intros s Hs Hl; [split; [exact Hs|constructor]|].
  inversion Hl as [|? ? Ho Hl']; subst. cbn [runs]. specialize (H1 s o Hs Ho).
  destruct (step s o) as [s' x]. cbn [fst snd] in *. specialize (IH s' (proj1 H1) Hl'). destruct (runs step s' l) as [s'' xs]. cbn [fst snd] in *.
  split; [apply IH|]. apply Forall_app. split; [apply H1|apply IH].
Qed.
Lemma dc_zero_side m : 0 <= m -> within m zero /\ fin zero /\ Rabs (B2R zero - B2R zero) <= 33 / 32 * m.
Proof. intros H. split; [now apply within0|]. split; [reflexivity|]. rewrite zero_R, Rminus_0_r, Rabs_R0. lra. Qed.
Lemma dc_run_inv L k sr c0 ops : exp_acc L -> exp_unit L -> fin sr -> 0 < B2R sr -> dc_cut_ok sr c0 -> (-90 <= k <= 120)%Z ->
  Forall (dc_ok (bpow radix2 k) sr) ops ->
  dc_inv (bpow radix2 k) sr (fst (runs (dc_op L) (dc_init L sr c0) ops)) /\
  Forall (within (33 / 16 * bpow radix2 k)) (snd (runs (dc_op L) (dc_init L sr c0) ops)).
Proof.
  intros HL HU Fs Ps C0 K H.
  refine ((runs_inv (dc_op L) (dc_inv (bpow radix2 k) sr) (dc_ok (bpow radix2 k) sr) _ _ ops _ _ H)).
  - intros s o (Es & [Fc Bc] & Il & Ir) O. pose proof Il as (Wl & Fl & Dl). pose proof Ir as (Wr & Fr & Dr). destruct o as [x|l r|c|]; unfold dc_op.
    + destruct (dc_out_b k _ _ _ x K Fc Bc Wl Fl Dl O) as (A & B & W). unfold dc_tick. cbn [fst snd].
      split; [|constructor; [exact W|constructor]]. exact (conj Es (conj (conj Fc Bc) (conj (conj O (conj A B)) Ir))).
    + destruct O as [Ol Or]. destruct (dc_out_b k _ _ _ l K Fc Bc Wl Fl Dl Ol) as (A & B & W). destruct (dc_out_b k _ _ _ r K Fc Bc Wr Fr Dr Or) as (A' & B' & W').
      unfold dc_tickStereo. cbn [fst snd]. split; [|constructor; [exact W|constructor; [exact W'|constructor]]].
      exact (conj Es (conj (conj Fc Bc) (conj (conj Ol (conj A B)) (conj Or (conj A' B'))))).
    + cbn [fst snd]. split; [|constructor]. refine (conj Es (conj _ (conj Il Ir))). unfold dc_setCutoff; cbn [dc_coeff]. rewrite Es. now apply dc_coeff_b.
    + cbn [fst snd]. split; [|constructor]. refine (conj Es (conj (conj Fc Bc) (conj (dc_zero_side _ (bpp k)) (dc_zero_side _ (bpp k))))).
  - refine (conj eq_refl (conj _ (conj (dc_zero_side _ (bpp k)) (dc_zero_side _ (bpp k))))). unfold dc_init, dc_setCutoff; cbn [dc_coeff dc_sr]. now apply dc_coeff_b.
Qed.
Lemma dc_bounded L k sr c0 ops : exp_acc L -> exp_unit L -> fin sr -> 0 < B2R sr -> dc_cut_ok sr c0 -> (-90 <= k <= 120)%Z ->
  Forall (dc_ok (bpow radix2 k) sr) ops ->
  Forall (within (33 / 16 * bpow radix2 k)) (snd (runs (dc_op L) (dc_init L sr c0) ops)).
Proof. intros. now apply dc_run_inv. Qed.
(** Decay with the input held. *)
Lemma dc_decay_aux (c d B Y Z T : R) (n : nat) : 0 <= c -> 0 <= d -> 0 <= B -> 0 <= T -> c * (1 + d) * T + B <= T ->
  Y <= (c * (1 + d)) ^ n * Z + T -> 0 <= Y -> forall W, W <= c * Y + d * (c * Y) + B -> W <= (c * (1 + d)) ^ S n * Z + T.
Proof.
  intros C D HB HT F H Y0 W HW. cbn [pow]. set (p := (c * (1 + d)) ^ n) in *. clearbody p.
  assert (c * (1 + d) * Y <= c * (1 + d) * (p * Z + T)) by (apply Rmult_le_compat_l; nra). nra.
Qed.
Lemma dc_decay s x n : fin (dc_coeff s) -> 0 <= B2R (dc_coeff s) <= 1 - bpow radix2 (-16) -> fin x -> fin (dc_yl s) -> dc_xl s = x ->
  let t := after (dc_hold x) n s in
  dc_xl t = x /\ fin (dc_yl t) /\ dc_coeff t = dc_coeff s /\
  Rabs (B2R (dc_yl t)) <= (B2R (dc_coeff s) * (1 + bpow radix2 (-24))) ^ n * Rabs (B2R (dc_yl s)) + bpow radix2 (-133).
Proof.
  intros Fc Bc Fx Fy Ex. induction n as [|n IH].
  - cbn [after]. refine (conj Ex (conj Fy (conj eq_refl _))). cbn [pow]. pose proof (bpow_ge_0 radix2 (-133)). lra.
  - cbn zeta in *. rewrite after_S. set (t := after (dc_hold x) n s) in *. clearbody t. destruct IH as (E1 & F1 & C1 & G).
    assert (U : unit_sample (dc_coeff t)) by (rewrite C1; split; [exact Fc|]; pose proof (bpow_ge_0 radix2 (-16)); lra).
    destruct (dc_held _ x _ U Fx F1) as (Fo & Eo & _). unfold dc_hold, dc_tick. cbn [fst dc_xl dc_yl dc_coeff]. rewrite E1 at 1.
    split; [reflexivity|]. rewrite E1. split; [exact Fo|]. split; [exact C1|].
    rewrite Eo, C1. set (c := B2R (dc_coeff s)) in *. set (y := B2R (dc_yl t)) in *.
    assert (T : bpow radix2 (-150) = bpow radix2 (-133) * / 131072).
    { change (/ 131072) with (bpow radix2 (-17)). rewrite <- bpow_plus. reflexivity. }
    set (V := bpow radix2 (-133)) in *. assert (V0 : 0 < V) by apply bpow_gt_0.
    assert (E24 : bpow radix2 (-24) = / 16777216) by (bp; lra). assert (E16 : bpow radix2 (-16) = / 65536) by (bp; lra). rewrite E16 in Bc.
    eapply dc_decay_aux with (Y := Rabs y) (B := bpow radix2 (-150)); [lra|apply bpow_ge_0|apply bpow_ge_0|lra| |exact G|apply Rabs_pos|].
    + rewrite T, E24. nra.
    + pose proof (rrel32 (c * y)) as R. rewrite Rabs_mult, (Rabs_pos_eq c) in R by lra.
      replace (rnd32 (c * y)) with (c * y + (rnd32 (c * y) - c * y)) by ring. eapply Rle_trans; [apply Rabs_triang|].
      rewrite Rabs_mult, (Rabs_pos_eq c) by lra. lra.
Qed.
Lemma dc_decays L sr c ops x n : exp_acc L -> exp_unit L -> fin sr -> 0 < B2R sr -> dc_cut_ok sr c ->
  Forall (dc_ok (bpow radix2 120) sr) ops -> within (bpow radix2 120) x ->
  let s := fst (dc_tick (fst (runs (dc_op L) (dc_init L sr c) ops)) x) in
  let a := B2R (dc_coeff s) in
  0 <= a <= 1 - bpow radix2 (-16) /\
  Rabs (B2R (dc_yl (after (dc_hold x) n s))) <= (a * (1 + bpow radix2 (-24))) ^ n * Rabs (B2R (dc_yl s)) + bpow radix2 (-133).
Proof.
  intros HL HU Fs Ps C H X. destruct (dc_run_inv L 120 sr c ops HL HU Fs Ps C ltac:(lia) H) as [(Es & [Fc Bc] & (Wl & Fl & Dl) & _) _].
  set (s0 := fst (runs _ _ _)) in *. clearbody s0. destruct (dc_out_b 120 _ _ _ x ltac:(lia) Fc Bc Wl Fl Dl X) as (A & _).
  split; [exact Bc|]. apply (dc_decay (fst (dc_tick s0 x)) x n); [exact Fc|exact Bc|apply X|exact A|reflexivity].
Qed.
(** Channels are independent. *)
Lemma dc_stereo_split L xs : forall s, 
  let swap s := Dcb (dc_sr s) (dc_cutoff s) (dc_coeff s) (dc_xr s) (dc_yr s) (dc_xl s) (dc_yl s) in
  snd (runs (dc_op L) s (map (fun p => BTick2 (fst p) (snd p)) xs)) =
  flat_map (fun p => [fst p; snd p]) (combine (snd (runs (dc_op L) s (map (fun p => BTick (fst p)) xs)))
                                              (snd (runs (dc_op L) (swap s) (map (fun p => BTick (snd p)) xs)))).
Proof.
  cbn zeta. 
  assert (G : forall c xs s s1 s2, dc_coeff s = c -> dc_coeff s1 = c -> dc_coeff s2 = c -> dc_xl s1 = dc_xl s -> dc_yl s1 = dc_yl s -> dc_xl s2 = dc_xr s -> dc_yl s2 = dc_yr s ->
    snd (runs (dc_op L) s (map (fun p => BTick2 (fst p) (snd p)) xs)) =
    flat_map (fun p => [fst p; snd p]) (combine (snd (runs (dc_op L) s1 (map (fun p => BTick (fst p)) xs)))
                                                (snd (runs (dc_op L) s2 (map (fun p => BTick (snd p)) xs))))).
  { intros c. clear xs. induction xs as [|[l r] xs IH]; intros s s1 s2 H0 H1 H2 H3 H4 H5 H6; [reflexivity|].
    cbn [map runs dc_op]. unfold dc_tickStereo, dc_tick. cbn [fst snd]. rewrite H0, H1, H2, H3, H4, H5, H6.
    match goal with |- snd (let (_, _) := runs _ ?a _ in _) = flat_map _ (combine (snd (let (_, _) := runs _ ?b _ in _)) (snd (let (_, _) := runs _ ?d _ in _))) =>
      pose proof (IH a b d eq_refl eq_refl eq_refl eq_refl eq_refl eq_refl eq_refl) as E; destruct (runs _ a _); destruct (runs _ b _); destruct (runs _ d _) end.
    cbn [fst snd app combine flat_map] in *. now rewrite E. }
  intros s. now apply (G (dc_coeff s)).
Qed.

(** ** Tape *)
Definition tp_inv (a : Z) (s : tape) : Prop :=
  fin (tp_bias s) /\ within (bpow radix2 (126 - a)) (tp_gain s) /\ fo_inv (bpow radix2 126) (tp_fo s) /\
  (td_gain (tp_l s) = fdec 99 100 /\ within 1 (td_x (tp_l s)) /\ within 256 (td_y (tp_l s))) /\
  (td_gain (tp_r s) = fdec 99 100 /\ within 1 (td_x (tp_r s)) /\ within 256 (td_y (tp_r s))).
Lemma td_b (d : tdc) x : td_gain d = fdec 99 100 -> within 1 (td_x d) -> within 256 (td_y d) -> within 1 x ->
  (td_gain (fst (td_tick d x)) = fdec 99 100 /\ within 1 (td_x (fst (td_tick d x))) /\ within 256 (td_y (fst (td_tick d x)))) /\ within 256 (snd (td_tick d x)).
Proof.
  intros Eg [Fp Bp] [Fy By] [Fx Bx]. unfold td_tick. cbn [fst snd td_gain td_x td_y]. rewrite Eg.
  assert (G : fin (fdec 99 100 : f32) /\ 0.98 <= B2R (fdec 99 100 : f32) <= 0.9901) by (split; [ffin|fval (fdec 99 100 : f32); lra]).
  destruct G as [Fg Bg]. set (g := fdec 99 100 : f32) in *. clearbody g. clear Eg.
  apply Rabs_le_inv in Bp. apply Rabs_le_inv in By. pose proof Bx as Bx'. apply Rabs_le_inv in Bx'.
  destruct (fsub_b (-2) 2 x (td_x d) (dyZ (-2) ltac:(lia)) (dyZ 2 ltac:(lia)) Fx Fp ltac:(lra)) as (Fa & _ & Ba).
  destruct (fmul_b (-254) 254 g (td_y d) (dyZ (-254) ltac:(lia)) (dyZ 254 ltac:(lia)) Fg Fy ltac:(split; nra)) as (Fb & _ & Bb).
  destruct (fadd_b (-256) 256 _ _ (dyZ (-256) ltac:(lia)) (dyZ 256 ltac:(lia)) Fa Fb ltac:(lra)) as (Fw & _ & Bw).
  assert (W : within 256 (fadd (fsub x (td_x d)) (fmul g (td_y d)))) by (split; [exact Fw|apply Rabs_le; lra]).
  split; [|exact W]. split; [reflexivity|]. split; [exact (conj Fx Bx)|exact W].
Qed.
Lemma fadd_nan (x y : f32) : fin x -> is_nan y = false -> is_nan (fadd x y) = false.
Proof.
  intros F N. destruct (nan_cases y N) as [Fy|[s ->]]; [now apply fadd_key|].
  unfold fadd. rewrite erase_correct. destruct x; try discriminate; reflexivity.
Qed.
Lemma tp_drive L a g b v x : tanh_unit L -> (-149 <= a)%Z -> (a <= 126)%Z -> within (bpow radix2 (126 - a)) g -> fin b -> fin v -> within (bpow radix2 a) x ->
  within (bpow radix2 126) (fmul x g) /\ within 1 (m_tanh L (fadd (fmul x g) (fmul v b))).
Proof.
  intros HT A1 A2 [Fg Bg] Fb Fv [Fx Bx].
  assert (M : Rabs (B2R x * B2R g) <= bpow radix2 126).
  { rewrite Rabs_mult. replace 126%Z with (a + (126 - a))%Z at 1 by lia. rewrite bpow_plus. apply Rmult_le_compat; try apply Rabs_pos; assumption. }
  destruct (bp_dy 126 ltac:(lia)) as [D1 D2]. apply Rabs_le_inv in M.
  destruct (fmul_b _ _ x g D2 D1 Fx Fg M) as (Fm & _ & Bm).
  split; [split; [exact Fm|now apply Rabs_le]|]. apply HT. apply fadd_nan; [exact Fm|]. now apply fmul_key.
Qed.
Lemma tp_bounded L a sr ops : exp_unit L -> tanh_unit L -> sr_ok sr -> (-149 <= a <= 126)%Z -> Forall (tp_ok a) ops ->
  Forall (within 1) (snd (runs (tp_op L) (tp_init L sr) ops)).
Proof.
  intros HU HT Hs A H. refine (proj2 (runs_inv (tp_op L) (tp_inv a) (tp_ok a) _ _ ops _ _ H)).
  - intros s o (Fb & Wg & If & (Gl & Xl & Yl) & (Gr & Xr & Yr)) O.
    assert (T256 : forall x : f32, within 256 x -> within 1 (m_tanh L x)) by (intros x [F _]; apply HT, fin_nan, F).
    destruct o as [x|l r|b|g|]; unfold tp_op.
    + unfold tp_tick.
      assert (W0 : within (bpow radix2 126) (fmul x (tp_gain s))) by (apply (tp_drive L a _ (tp_bias s) zero); auto; try lia; reflexivity).
      destruct (fo_tick_inv 126 (tp_fo s) (fmul x (tp_gain s)) ltac:(lia) If W0) as (If' & Wv & _).
      destruct (fo_tick (tp_fo s) (fmul x (tp_gain s))) as [f v]. cbn [fst snd] in *.
      destruct (tp_drive L a (tp_gain s) (tp_bias s) v x HT) as [_ W1]; auto; try lia; [apply Wv|].
      destruct (td_b (tp_l s) _ Gl Xl Yl W1) as [Id Wd]. destruct (td_tick (tp_l s) _) as [d y]. cbn [fst snd] in *.
      split; [|constructor; [now apply T256|constructor]]. exact (conj Fb (conj Wg (conj If' (conj Id (conj Gr (conj Xr Yr)))))).
    + destruct O as [Ol Or]. unfold tp_tickStereo. cbn [fst snd].
      assert (W0 : within (bpow radix2 126) (fmul l (tp_gain s))) by (apply (tp_drive L a _ (tp_bias s) zero); auto; try lia; reflexivity).
      destruct (fo_tick_inv 126 (tp_fo s) (fmul l (tp_gain s)) ltac:(lia) If W0) as (If' & Wv & _).
      destruct (fo_tick (tp_fo s) (fmul l (tp_gain s))) as [f v]. cbn [fst snd] in *.
      destruct (tp_drive L a (tp_gain s) (tp_bias s) v l HT) as [_ W1]; auto; try lia; [apply Wv|].
      destruct (tp_drive L a (tp_gain s) (tp_bias s) v r HT) as [_ W2]; auto; try lia; [apply Wv|].
      destruct (td_b (tp_l s) _ Gl Xl Yl W1) as [Id Wd]. destruct (td_b (tp_r s) _ Gr Xr Yr W2) as [Id2 Wd2].
      destruct (td_tick (tp_l s) _) as [d y]. destruct (td_tick (tp_r s) _) as [d2 y2]. cbn [fst snd] in *.
      split; [|constructor; [now apply T256|constructor; [now apply T256|constructor]]]. exact (conj Fb (conj Wg (conj If' (conj Id Id2)))).
    + cbn [fst snd]. split; [|constructor]. exact (conj O (conj Wg (conj If (conj (conj Gl (conj Xl Yl)) (conj Gr (conj Xr Yr)))))).
    + cbn [fst snd]. split; [|constructor]. exact (conj Fb (conj O (conj If (conj (conj Gl (conj Xl Yl)) (conj Gr (conj Xr Yr)))))).
    + cbn [fst snd]. split; [|constructor]. destruct If as (I1 & I2 & _).
      assert (Z1 : within 1 zero) by (apply within0; lra). assert (Z2 : within 256 zero) by (apply within0; lra).
      refine (conj Fb (conj Wg (conj (conj I1 (conj I2 (conj (within0 _ (bpp 126)) _))) (conj (conj Gl (conj Z1 Z2)) (conj Gr (conj Z1 Z2)))))).
      cbn [tp_reset tp_fo fo_reset fo_state]. rewrite zero_R. lra.
  - assert (Z1 : within 1 zero) by (apply within0; lra). assert (Z2 : within 256 zero) by (apply within0; lra).
    refine (conj eq_refl (conj _ (conj _ (conj (conj eq_refl (conj Z1 Z2)) (conj eq_refl (conj Z1 Z2)))))).
    + split; [ffin|]. cbn [tp_init tp_gain]. rewrite one_R, Rabs_R1. change 1 with (bpow radix2 0). apply bpow_le. lia.
    + apply fo_init_inv; auto; try (vm_compute; reflexivity). apply bpp.
Qed.
Lemma tp_stereo_left L s l r :
  snd (tp_tick L s l) = fst (snd (tp_tickStereo L s (l, r))) /\
  tp_l (fst (tp_tick L s l)) = tp_l (fst (tp_tickStereo L s (l, r))) /\
  tp_fo (fst (tp_tick L s l)) = tp_fo (fst (tp_tickStereo L s (l, r))).
Proof.
  unfold tp_tick, tp_tickStereo. cbn [fst snd]. destruct (fo_tick _ _) as [f v].
  destruct (td_tick (tp_l s) _). destruct (td_tick (tp_r s) _). cbn. auto.
Qed.
