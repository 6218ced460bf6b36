(** The hypotheses on std::tanh are those of a correctly rounded library and of the toy one; pole of OnePoleLPF;
    witnesses. *)
From Coq Require Import ZArith Reals Bool List Lra Lia.
From Flocq Require Import Core BinarySingleNaN.
From Verif Require Import Flt FltFacts FltMore FltKey FltArith Libm LibmInst UtilModel UtilProofs RealBounds EnvSpec EnvInst ExpBounds FltClose OscModel OscSpec OscProofs OscProofs2 OscProofs4 SmoothModel SmoothSpec SmoothProofs SmoothProofs2 SmoothProofs3 SmoothProofs4.
Import ListNotations.
Local Open Scope R_scope.

Lemma tanh_bnd x : -1 <= tanh x <= 1.
Proof.
  unfold tanh, sinh, cosh. pose proof (exp_pos x). pose proof (exp_pos (- x)).
  set (a := exp x) in *. set (b := exp (- x)) in *. clearbody a b.
  replace ((a - b) / 2 / ((a + b) / 2)) with ((a - b) * / (a + b)) by (field; lra).
  split; apply Rmult_le_reg_r with (a + b); try lra; rewrite Rmult_assoc, Rinv_l; lra.
Qed.
Lemma exact_tanh_unit : tanh_unit exact_libm.
Proof.
  intros x N. cbn [exact_libm m_tanh].
  assert (G : forall r, -1 <= r <= 1 -> within 1 (fofR r : f32)).
  { intros r B. destruct (fofR_b (prec:=24) (emax:=128) (-1) 1 r dyn1 dy1 B) as (A & _ & C). split; [exact A|apply Rabs_le; lra]. }
  destruct x as [s|s| |s m e H]; try discriminate N; cbn [cr_tanh lift_odd].
  - split; [reflexivity|]. cbn. rewrite Rabs_R0. lra.
  - destruct s; apply G; lra.
  - unfold lift. cbn [is_finite]. apply G, tanh_bnd.
Qed.
Lemma toy_tanh_unit : tanh_unit toy_tape.
Proof.
  intros x N. cbn [toy_tape m_tanh]. destruct (clamp_fin x (fneg one) one N) as [A B]; [ffin|ffin|rewrite fneg_R, one_R; lra|].
  rewrite fneg_R, one_R in B. split; [exact A|apply Rabs_le; lra].
Qed.
Lemma toy_exp_unit : exp_unit toy_tape.
Proof. intros x _. cbn [toy_tape m_exp]. split; [ffin|]. rewrite half_R. lra. Qed.

(** The pole of OnePoleLPF. *)
Lemma op_pole_acc L sr c : exp_acc L -> rate_ok sr -> fin c -> 1 <= B2R c <= B2R sr / 2 ->
  Rabs (B2R (op_poleof L sr c) - exp (- (2 * PI * (B2R c / B2R sr)))) <= bpow radix2 (-20).
Proof.
  intros HL Hr Fc Bc. assert (Q : freq_ok sr c) by (split; [exact Fc|lra]).
  pose proof (so_step_acc sr c Hr Q) as A. destruct (so_step_b sr c Hr Q) as [Fq Bq].
  pose proof (ratio_half sr c Hr Q) as H. destruct Hr as [Fs Bs]. pose proof TP_R as T. unfold op_poleof.
  assert (Ec : op_clamp sr c = c).
  { unfold op_clamp.
    assert (Hh : fin (fmul sr half) /\ B2R (fmul sr half) = B2R sr / 2).
    { destruct (half_rate sr (conj Fs Bs)) as [F E]. split; [exact F|]. rewrite E. lra. }
    destruct Hh as [Fh Eh]. destruct (clamp_spec c one (fmul sr half)) as (_ & _ & C & _); [now apply fin_nan|ffin|now apply fin_nan| |].
    - apply fle_R; [ffin|exact Fh|]. rewrite one_R, Eh. lra.
    - apply C; apply fle_R; auto; try ffin; rewrite ?one_R, ?Eh; lra. }
  rewrite Ec.
  assert (W : fin (fdiv (fmul (fneg TWO_PI) c) sr) /\ B2R (fdiv (fmul (fneg TWO_PI) c) sr) = - B2R (so_step c sr)).
  { unfold so_step in *.
    assert (D8 : dy32 (B2R sr * bpow radix2 2)).
    { split; [apply fmt_scale; lia|]. rewrite Rabs_mult, (Rabs_pos_eq (bpow _ _)) by apply bpow_ge_0. rewrite Rabs_pos_eq by lra.
      apply Rle_lt_trans with (bpow radix2 100 * bpow radix2 2); [apply Rmult_le_compat_r; [apply bpow_ge_0|lra]|]. rewrite <- bpow_plus. apply bpow_lt. lia. }
    destruct (fmul_b 0 _ TWO_PI c dy0 D8 TP_fin Fc) as (Fm & Em & Bm); [rewrite T; bp; nra|].
    destruct (fmul_b _ 0 (fneg TWO_PI) c (dy_opp _ D8) dy0 ltac:(ffin) Fc) as (Fm' & Em' & Bm'); [rewrite fneg_R, T; bp; nra|].
    assert (E : B2R (fmul (fneg TWO_PI) c) = - B2R (fmul TWO_PI c)).
    { rewrite Em, Em', fneg_R, <- rnd_opp. f_equal. ring. }
    assert (B4 : 0 <= B2R (fmul TWO_PI c) / B2R sr <= 4).
    { split; [apply Rmult_le_pos; [lra|left; apply Rinv_0_lt_compat; lra]|].
      apply Rmult_le_reg_r with (B2R sr); [lra|]. unfold Rdiv. rewrite Rmult_assoc, Rinv_l by lra. revert Bm. bp. lra. }
    destruct (fdiv_b 0 4 (fmul TWO_PI c) sr dy0 (dyZ 4 ltac:(lia)) Fm Fs ltac:(lra) B4) as (_ & Ed & _).
    destruct (fdiv_b (-4) 0 (fmul (fneg TWO_PI) c) sr (dyZ (-4) ltac:(lia)) dy0 Fm' Fs ltac:(lra)) as (Fd & Ed' & _).
    { rewrite E. unfold Rdiv in *. rewrite Ropp_mult_distr_l_reverse. lra. }
    split; [exact Fd|]. rewrite Ed, Ed', E, <- rnd_opp. f_equal. field. lra. }
  destruct W as [Fw Ew]. destruct (HL _ Fw) as [Fe Ae]; [rewrite Ew; lra|]. rewrite Ew in Ae.
  set (q := B2R (so_step c sr)) in *. set (p := B2R (m_exp L _)) in *. clearbody p q.
  set (r := B2R c / B2R sr) in *. clearbody r. pose proof PI_bounds as P.
  assert (X : Rabs (exp (- q) - exp (- (2 * PI * r))) <= 6e-7).
  { eapply Rle_trans; [apply exp_neg_lip; [lra|]|].
    - assert (0 <= PI * r) by nra. lra.
    - replace (- q - - (2 * PI * r)) with (- ((q - B2R TWO_PI * r) + (B2R TWO_PI - 2 * PI) * r)) by ring. rewrite Rabs_Ropp.
      eapply Rle_trans; [apply Rabs_triang|].
      assert (Rabs ((B2R TWO_PI - 2 * PI) * r) <= 1.1e-7).
      { rewrite Rabs_mult, (Rabs_pos_eq r) by lra.
        assert (Rabs (B2R TWO_PI - 2 * PI) <= 2e-7) by (rewrite T; apply Rabs_le; lra). pose proof (Rabs_pos (B2R TWO_PI - 2 * PI)). nra. }
      revert A. bp. lra. }
  replace (p - exp (- (2 * PI * r))) with ((p - exp (- q)) + (exp (- q) - exp (- (2 * PI * r)))) by ring.
  eapply Rle_trans; [apply Rabs_triang|]. revert Ae. bp. lra.
Qed.

(** A cutoff far below the sample rate rounds the DC coefficient to one. *)
Lemma rnd_near_one x : 1 - bpow radix2 (-26) <= x <= 1 -> rnd32 x = 1.
Proof.
  intros B. destruct (dy_rnd_bnd (prec:=24) (emax:=128) 0 1 x dy0 dy1) as [_ [_ H]]; [revert B; bp; lra|].
  destruct (Rle_lt_or_eq_dec _ _ H) as [Q|Q]; [exfalso|exact Q].
  assert (G1 : generic_format radix2 (SpecFloat.fexp 24 128) 1) by apply dy1.
  assert (G2 : generic_format radix2 (SpecFloat.fexp 24 128) (rnd32 x)) by apply fmt_rnd.
  pose proof (pred_ge_gt radix2 (SpecFloat.fexp 24 128) _ 1 G2 G1 Q) as P.
  change 1 with (bpow radix2 0) in P at 1. rewrite pred_bpow in P. change (SpecFloat.fexp 24 128 0) with (-24)%Z in P. change (bpow radix2 0) with 1 in P.
  assert (O : Rabs (rnd32 x - x) <= Rabs (1 - x)) by (apply round_N_pt; [apply fexp_correct; reflexivity|exact G1]).
  rewrite (Rabs_pos_eq (1 - x)) in O by lra. apply Rabs_le_inv in O. revert P B. bp. lra.
Qed.
Lemma tiny_coeff : B2R (dc_coeffof exact_libm (fofZ 48000) (fdec 1 100000)) = 1 /\ fin (dc_coeffof exact_libm (fofZ 48000) (fdec 1 100000)).
Proof.
  unfold dc_coeffof. replace (fle (fdec 1 100000) zero) with false by (vm_compute; reflexivity). cbn zeta.
  replace (flt (flit 1 (-2)) (fdiv (fdec 1 100000) (fofZ 48000))) with false by (vm_compute; reflexivity).
  set (w := fmul (fmul (fneg two) PIf) (fdiv (fdec 1 100000) (fofZ 48000)) : f32).
  assert (W : fin w /\ - bpow radix2 (-26) <= B2R w < 0) by (split; [ffin|fval w; bp; lra]).
  destruct W as [Fw Bw]. clearbody w. cbn [exact_libm m_exp].
  replace (cr_exp w) with (lift exp w) by (destruct w; try discriminate Fw; reflexivity).
  unfold lift. rewrite Fw. pose proof (exp_le1 _ (Rlt_le _ _ (proj2 Bw))) as E.
  destruct (fofR_b (prec:=24) (emax:=128) 0 1 (exp (B2R w)) dy0 dy1 E) as (A & B & _).
  split; [|exact A]. rewrite B. apply rnd_near_one. pose proof (exp_ineq1_le (B2R w)). lra.
Qed.
Lemma dc_stuck n : forall s, B2R (dc_coeff s) = 1 -> fin (dc_coeff s) -> dc_xl s = one -> fin (dc_yl s) -> B2R (dc_yl s) = 1 ->
  B2R (snd (dc_tick (after (dc_hold one) n s) one)) = 1.
Proof.
  assert (G : forall s, B2R (dc_coeff s) = 1 -> fin (dc_coeff s) -> dc_xl s = one -> fin (dc_yl s) -> B2R (dc_yl s) = 1 ->
    fin (snd (dc_tick s one)) /\ B2R (snd (dc_tick s one)) = 1).
  { intros s C Fc X Fy Y. destruct (dc_held (dc_coeff s) one (dc_yl s)) as (A & B & _); [split; [exact Fc|lra]|ffin|exact Fy|].
    unfold dc_tick. cbn [snd]. rewrite X. split; [exact A|]. rewrite B, C, Y, Rmult_1_l. apply rnd_fmt, dy1. }
  assert (I : forall n s, B2R (dc_coeff s) = 1 -> fin (dc_coeff s) -> dc_xl s = one -> fin (dc_yl s) -> B2R (dc_yl s) = 1 ->
    B2R (snd (dc_tick (after (dc_hold one) n s) one)) = 1).
  { clear n. induction n as [|n IH]; intros s C Fc X Fy Y; [now apply G|]. cbn [after]. apply IH; try assumption.
    - reflexivity.
    - now apply (G s).
    - now apply (G s). }
  intros. now apply I.
Qed.

Lemma dc_tiny n : B2R (snd (dc_tick (after (dc_hold one) (S n) (dc_init exact_libm (fofZ 48000) (fdec 1 100000))) one)) = 1.
Proof.
  destruct tiny_coeff as [C F]. cbn [after]. unfold dc_hold at 2.
  set (s := dc_init exact_libm (fofZ 48000) (fdec 1 100000)) in *.
  assert (Y : fin (dc_out (dc_coeff s) zero zero one) /\ B2R (dc_out (dc_coeff s) zero zero one) = 1).
  { unfold dc_out.
    assert (E1 : fsub one zero = one) by (vm_compute; reflexivity). rewrite E1.
    change (dc_coeff s) with (dc_coeffof exact_libm (fofZ 48000) (fdec 1 100000)).
    destruct (fmul_exact (dc_coeffof exact_libm (fofZ 48000) (fdec 1 100000)) zero F eq_refl) as [Fm Em]; [rewrite zero_R, Rmult_0_r; apply dy0|].
    rewrite zero_R, Rmult_0_r in Em.
    destruct (fadd_exact one _ one_fin Fm) as [Fa Ea]; [rewrite Em, one_R, Rplus_0_r; apply dy1|]. rewrite Em, one_R, Rplus_0_r in Ea. auto. }
  apply dc_stuck; [exact C|exact F|reflexivity|apply Y|apply Y].
Qed.
(** 60 second ramp from 1 to 1.2 at 48 kHz. *)
Definition long_ramp : lagl := LagL (fofZ 48000) (fofZ 60) one one zero 0.
Lemma long_init : ll_init (fofZ 48000) one (fofZ 60) = Some long_ramp.
Proof. vm_compute. reflexivity. Qed.
Lemma long_overshoot : exists s' ys, ll_ticks long_ramp (repeat (fdec 12 10) (Z.to_nat 2879999)) = Some (s', ys) /\
  exists y, nth_error ys (Z.to_nat 2879998) = Some y /\ 1.34 < B2R y.
Proof.
  set (x := fdec 12 10 : f32).
  assert (L : ll_len (fofZ 60) (fofZ 48000) = Some 2880000%Z) by (vm_compute; reflexivity).
  set (s1 := LagL (fofZ 48000) (fofZ 60) one x (ll_incof x one 2880000) 2880000).
  assert (Q : fin (ll_incof x one 2880000) /\ bpow radix2 (-24) < B2R (ll_incof x one 2880000) < 3 * bpow radix2 (-24)).
  { split; [ffin|]. fval (ll_incof x one 2880000). bp. lra. }
  destruct Q as [Fq Bq].
  set (n := Z.to_nat 2879999). assert (En : Z.of_nat n = 2879999%Z) by (apply Z2Nat.id; lia). clearbody n.
  set (m := Z.to_nat 2879998). assert (Em : Z.of_nat m = 2879998%Z) by (apply Z2Nat.id; lia). clearbody m.
  destruct (ll_creep x n s1 0%Z) as (s' & ys & E & Ln & H); [vm_compute; reflexivity|exact Fq|exact Bq|lia|lia|cbn [s1 ll_rem]; lia|ffin|cbn [s1 ll_cur]; rewrite one_R; lra|].
  assert (Hm : (m < length ys)%nat) by lia. destruct (nth_error ys m) as [y|] eqn:Ey; [|apply nth_error_None in Ey; lia].
  exists s', ys. split.
  - destruct n as [|n]; [cbn in En; lia|]. rewrite <- E. cbn [repeat ll_ticks]. 
    replace (ll_tick long_ramp x) with (ll_tick s1 x); [reflexivity|].
    unfold ll_tick. replace (feq x (ll_target s1)) with true by (vm_compute; reflexivity).
    replace (feq x (ll_target long_ramp)) with false by (vm_compute; reflexivity).
    change (ll_time long_ramp) with (fofZ 60 : f32). change (ll_sr long_ramp) with (fofZ 48000 : f32). rewrite L.
    replace (fle (fofZ 60) zero) with false by (vm_compute; reflexivity). reflexivity.
  - exists y. split; [exact Ey|]. rewrite (H m y Ey), Em. change (0 + 2879998 + 1)%Z with 2879999%Z. bp. lra.
Qed.
