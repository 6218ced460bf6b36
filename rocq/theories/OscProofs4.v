(** What the oscillators play: sample n against the ideal waveform at time n / sampleRate. *)
From Coq Require Import ZArith Reals Lra Lia Bool List Psatz.
From Flocq Require Import Core BinarySingleNaN.
From Verif Require Import Flt FltFacts FltMore FltKey FltArith Libm RealBounds UtilModel UtilProofs FltClose OscModel OscSpec OscProofs OscProofs2.
Import ListNotations.
Local Open Scope R_scope.

Lemma ratio_half sr f : rate_ok sr -> freq_ok sr f -> 0 <= B2R f / B2R sr <= / 2.
Proof.
  intros [_ Bs] [_ Bf]. split; [apply Rmult_le_pos; [lra|]; apply Rlt_le, Rinv_0_lt_compat; lra|].
  apply Rmult_le_reg_r with (B2R sr); [lra|]. unfold Rdiv. rewrite Rmult_assoc, Rinv_l; lra.
Qed.
Lemma so_step_acc sr f : rate_ok sr -> freq_ok sr f -> Rabs (B2R (so_step f sr) - B2R TWO_PI * (B2R f / B2R sr)) <= bpow radix2 (-21).
Proof.
  intros R Q. pose proof (ratio_half sr f R Q) as H. destruct R as [Fs Bs]. destruct Q as [Ff Bf]. unfold so_step. pose proof TP_R as T.
  assert (D4 : dy32 (B2R sr * bpow radix2 2)).
  { split; [apply fmt_scale; lia|]. rewrite Rabs_mult, (Rabs_pos_eq (bpow _ _)) by apply bpow_ge_0. rewrite Rabs_pos_eq by lra.
    apply Rle_lt_trans with (bpow radix2 100 * bpow radix2 2); [apply Rmult_le_compat_r; [apply bpow_ge_0|lra]|]. rewrite <- bpow_plus. apply bpow_lt. lia. }
  destruct (fmul_b 0 _ TWO_PI f dy0 D4 TP_fin Ff) as (Fm & Em & Bm); [rewrite T; bp; nra|].
  set (m := fmul TWO_PI f) in *. set (q := B2R f / B2R sr) in *.
  assert (Pi : 0 < / B2R sr <= 1). { split; [apply Rinv_0_lt_compat; lra|]. rewrite <- Rinv_1. apply Rinv_le_contravar; lra. }
  assert (E1 : Rabs (B2R m / B2R sr - B2R TWO_PI * q) <= bpow radix2 (-24) * (B2R TWO_PI * q) + bpow radix2 (-150)).
  { replace (B2R m / B2R sr - B2R TWO_PI * q) with ((B2R m - B2R TWO_PI * B2R f) * / B2R sr) by (unfold q; field; lra).
    rewrite Rabs_mult, (Rabs_pos_eq (/ B2R sr)) by lra. pose proof (rrel32 (B2R TWO_PI * B2R f)) as W. rewrite <- Em in W.
    rewrite (Rabs_pos_eq (B2R TWO_PI * B2R f)) in W by (rewrite T; nra).
    apply Rle_trans with ((bpow radix2 (-24) * (B2R TWO_PI * B2R f) + bpow radix2 (-150)) * / B2R sr); [apply Rmult_le_compat_r; lra|].
    rewrite Rmult_plus_distr_r. apply Rplus_le_compat; [right; unfold q; field; lra|]. pose proof (bpow_gt_0 radix2 (-150)). nra. }
  pose proof t150' as T150. rewrite T in E1. revert E1 T150. bp. intros E1 T150. apply Rabs_le_inv in E1.
  assert (P0 : 0 <= B2R m / B2R sr) by (apply Rmult_le_pos; lra).
  destruct (fdiv_b 0 (bpow radix2 2) m sr dy0 ltac:(apply bp_dy; lia) Fm Fs) as (Fd & Ed & Bd); [lra|bp; lra|].
  pose proof (rnd_err1 2 (B2R m / B2R sr) ltac:(lia)) as Er. rewrite <- Ed in Er. specialize (Er ltac:(rewrite Rabs_pos_eq by lra; bp; lra)).
  rewrite T. revert Er. change (2 - 25)%Z with (-23)%Z. bp. intros Er. apply Rabs_le_inv in Er. apply Rabs_le. lra.
Qed.

Lemma TP_2PI : Rabs (B2R TWO_PI - 2 * PI) <= bpow radix2 (-22).
Proof. rewrite TP_R. pose proof PI_bounds. bp. apply Rabs_le. lra. Qed.
Lemma sin_period_Z x m : sin (x - 2 * PI * IZR m) = sin x.
Proof.
  assert (P : forall k : nat, sin (x + 2 * INR k * PI) = sin x) by (intros; apply sin_period).
  destruct m as [|p|p].
  - f_equal. ring.
  - rewrite <- (sin_period (x - 2 * PI * IZR (Z.pos p)) (Pos.to_nat p)). f_equal. rewrite INR_IZR_INZ, positive_nat_Z. ring.
  - rewrite <- (P (Pos.to_nat p)). f_equal. rewrite INR_IZR_INZ, positive_nat_Z.
    change (Z.neg p) with (- Z.pos p)%Z. rewrite opp_IZR. ring.
Qed.

Lemma so_wave L sr f n : sin_acc L -> rate_ok sr -> freq_ok sr (fofZ 440) -> freq_ok sr f ->
  Rabs (B2R (nth_sample (so_tick L) n (so_setFrequency (so_init sr) f)) - sin (2 * PI * (B2R f / B2R sr) * INR n)) <= (INR n + 1) * bpow radix2 (-19).
Proof.
  intros A R Q0 Q. set (s := so_setFrequency (so_init sr) f).
  assert (I : so_inv sr s) by (apply (so_op_inv L sr (so_init sr) (OFreq f) R (so_init_inv sr R Q0) Q)).
  destruct (so_track L sr n s I) as [m E].
  assert (In : so_inv sr (after (so_tick L) n s)).
  { clear - I. revert I. generalize s. induction n as [|n IH]; intros x I; [exact I|]. cbn [after]. apply IH. now apply (so_tick_inv L). }
  destruct In as (Fp & Bp & _). destruct (A _ Fp Bp) as [_ Ea].
  change (B2R (so_phase s)) with 0 in E. change (so_inc s) with (so_step f sr) in E.
  pose proof (so_step_acc sr f R Q) as Es. pose proof (ratio_half sr f R Q) as H.
  unfold nth_sample. change (snd (so_tick L (after (so_tick L) n s))) with (m_sin L (so_phase (after (so_tick L) n s))).
  set (p := B2R (so_phase (after (so_tick L) n s))) in *. set (o := B2R (m_sin L _)) in *. set (i := B2R (so_step f sr)) in *.
  set (q := B2R f / B2R sr) in *. pose proof (pos_INR n) as Pn. set (N := INR n) in *. set (c := N * q - IZR m).
  pose proof TP_R as T. pose proof TP_2PI as T2. clearbody p o i q N.
  assert (D : Rabs (p - B2R TWO_PI * c) <= N * bpow radix2 (-20)).
  { assert (N * Rabs (i - B2R TWO_PI * q) <= N * bpow radix2 (-21)) as W by (apply Rmult_le_compat_l; assumption).
    replace (p - B2R TWO_PI * c) with ((p - (0 + N * i - IZR m * B2R TWO_PI)) + N * (i - B2R TWO_PI * q)) by (unfold c; ring).
    eapply Rle_trans; [apply Rabs_triang|]. rewrite Rabs_mult, (Rabs_pos_eq N) by assumption. revert E W. bp. intros. lra. }
  assert (C : Rabs c <= 2 + N).
  { rewrite T in D, Bp. revert D. bp. intros D. apply Rabs_le_inv in D. apply Rabs_le. lra. }
  assert (D2 : Rabs (p - 2 * PI * c) <= N * bpow radix2 (-20) + bpow radix2 (-22) * (2 + N)).
  { replace (p - 2 * PI * c) with ((p - B2R TWO_PI * c) + (B2R TWO_PI - 2 * PI) * c) by ring.
    eapply Rle_trans; [apply Rabs_triang|]. apply Rplus_le_compat; [exact D|]. rewrite Rabs_mult. apply Rmult_le_compat; auto using Rabs_pos. }
  pose proof (sin_lip p (2 * PI * c)) as L1.
  replace (sin (2 * PI * c)) with (sin (2 * PI * q * N)) in L1.
  2:{ rewrite <- (sin_period_Z (2 * PI * q * N) m). f_equal. unfold c. ring. }
  replace (o - sin (2 * PI * q * N)) with ((o - sin p) + (sin p - sin (2 * PI * q * N))) by ring.
  eapply Rle_trans; [apply Rabs_triang|]. revert Ea D2. bp. intros. lra.
Qed.

(** ** LFTri *)
Lemma inc_acc sr f : rate_ok sr -> freq_ok sr f -> Rabs (B2R (fdiv f sr) - B2R f / B2R sr) <= bpow radix2 (-25).
Proof.
  intros R Q. pose proof (ratio_half sr f R Q) as H. destruct R as [Fs Bs]. destruct Q as [Ff Bf].
  destruct (fdiv_b 0 1 f sr dy0 dy1 Ff Fs) as (F & E & _); [lra|lra|]. rewrite E. apply (rnd_err1 0); [lia|]. bp. apply Rabs_le. lra.
Qed.
Lemma lt_track sr n : forall s, lt_inv sr s -> lt_inv sr (after lt_tick n s) /\
  exists k : nat, Rabs (INR k + B2R (lt_phase (after lt_tick n s)) - (B2R (lt_phase s) + INR n * B2R (lt_inc s))) <= INR n * bpow radix2 (-24).
Proof.
  induction n as [|n IH]; intros s I.
  - split; [exact I|]. exists 0%nat. cbn [after]. change (INR 0) with 0. rewrite !Rmult_0_l, Rplus_0_r, Rplus_0_l, Rminus_diag_eq, Rabs_R0 by reflexivity. lra.
  - cbn [after]. destruct (lt_tick_inv sr s I) as [I' _]. destruct (IH _ I') as [In [k E]]. split; [exact In|].
    destruct I as (Fp & Bp & Fi & Bi & Es). destruct (unit_adv _ _ Fp Bp Fi ltac:(lra)) as (_ & _ & _ & T).
    change (lt_inc (fst (lt_tick s))) with (lt_inc s) in E. rewrite S_INR.
    set (q := B2R (lt_phase (after lt_tick n (fst (lt_tick s))))) in *.
    change (lt_phase (fst (lt_tick s))) with (if fle one (fadd (lt_phase s) (lt_inc s)) then fsub (fadd (lt_phase s) (lt_inc s)) one else fadd (lt_phase s) (lt_inc s)) in E.
    set (p' := if fle one (fadd (lt_phase s) (lt_inc s)) then _ else _) in *. clearbody q p'.
    destruct (fle one (fadd (lt_phase s) (lt_inc s))); [exists (S k); rewrite S_INR|exists k];
    apply Rabs_le_inv in E; apply Rabs_le_inv in T; apply Rabs_le; lra.
Qed.
(** Triangle of period 1: -1 at 0, 1 at 1/2. *)
Lemma lt_wave sr ip f n : rate_ok sr -> freq_ok sr (fofZ 440) -> freq_ok sr f -> fin ip ->
  let s := lt_setFrequency (lt_init sr ip) f in
  exists (k : nat) t, 0 <= t <= 1 /\ Rabs (INR k + t - (B2R (lt_phase s) + INR n * (B2R f / B2R sr))) <= INR n * bpow radix2 (-23) /\
    Rabs (B2R (nth_sample lt_tick n s) - (1 - Rabs (4 * t - 2))) <= bpow radix2 (-25).
Proof.
  intros R Q0 Q Fi s. assert (I : lt_inv sr s) by (apply (lt_op_inv sr (lt_init sr ip) (OFreq f) R (lt_init_inv sr ip R Q0 Fi) Q)).
  destruct (lt_track sr n s I) as [In [k E]]. exists k, (B2R (lt_phase (after lt_tick n s))). split; [apply In|]. split.
  - change (lt_inc s) with (fdiv f sr) in E. pose proof (inc_acc sr f R Q) as Es. pose proof (pos_INR n) as Pn.
    set (N := INR n) in *. set (q := B2R f / B2R sr) in *. set (i := B2R (fdiv f sr)) in *. set (p := B2R (lt_phase (after _ _ _))) in *.
    assert (N * Rabs (i - q) <= N * bpow radix2 (-25)) as W by (apply Rmult_le_compat_l; assumption).
    replace (INR k + p - (B2R (lt_phase s) + N * q)) with ((INR k + p - (B2R (lt_phase s) + N * i)) + N * (i - q)) by ring.
    eapply Rle_trans; [apply Rabs_triang|]. rewrite Rabs_mult, (Rabs_pos_eq N) by assumption. revert E W. bp. intros. lra.
  - apply (lt_out sr _ In).
Qed.

(** ** SawDPW: amplitude 2 *)
Lemma saw_shape sr s : rate_ok sr -> sw_inv sr s -> saw_freq_ok sr (sw_freq s) ->
  B2R (sw_phase s) + B2R (sw_inc s) <= 1 - bpow radix2 (-20) ->
  let p := B2R (sw_phase s) in let p' := B2R (sw_phase (fst (sw_tick s))) in
  Rabs (p' - (p + B2R (sw_inc s))) <= bpow radix2 (-24) /\
  Rabs (B2R (snd (sw_tick (fst (sw_tick s)))) - 2 * (p + p' - 1)) <= bpow radix2 (-7).
Proof.
  intros R (Fp & Bp & Fi & Bi & Es & Ec & Fv & Bv & Ei) Q NW.
  destruct (unit_adv _ _ Fp Bp Fi ltac:(lra)) as (F' & B' & _ & A).
  destruct (saw_wave _ Fp Bp) as (Fq & Bq & Eq).
  cbv zeta. change (sw_phase (fst (sw_tick s))) with (if fle one (fadd (sw_phase s) (sw_inc s)) then fsub (fadd (sw_phase s) (sw_inc s)) one else fadd (sw_phase s) (sw_inc s)).
  assert (W : fle one (fadd (sw_phase s) (sw_inc s)) = false).
  { destruct (fle one (fadd (sw_phase s) (sw_inc s))); [|reflexivity]. exfalso. apply Rabs_le_inv in A. revert A NW. bp. intros. lra. }
  unfold sw_tick at 1. unfold snd. cbv zeta. unfold sw_tick, fst, sw_phase at 3 4, sw_prev, sw_scale, sw_freq.
  cbv zeta. fold (sw_phase s) (sw_inc s) (sw_prev s) (sw_freq s) (sw_scale s).
  rewrite W in *. set (p' := fadd (sw_phase s) (sw_inc s)) in *.
  set (q := fmul (fsub (fmul (sw_phase s) two) one) (fsub (fmul (sw_phase s) two) one)) in *.
  destruct (saw_wave p' F' B') as (Fq' & Bq' & Eq').
  set (q' := fmul (fsub (fmul p' two) one) (fsub (fmul p' two) one)) in *.
  split; [exact A|].
  rewrite Ec. destruct (saw_scale_b sr (sw_freq s) R Q) as (FS & BX & ES & BS).
  destruct (saw_inc_b sr (sw_freq s) R Q) as (EI & PY). rewrite <- Ei in EI.
  set (S := fdiv (fmul sr half) (sw_freq s)) in *. set (X := B2R sr / (2 * B2R (sw_freq s))) in *. set (Y := B2R (sw_freq s) / B2R sr) in *.
  assert (XY : X * Y = / 2).
  { unfold X, Y. destruct R as [_ Br]. destruct Q as (_ & B1 & _). field. split; [lra|]. intros Z. rewrite Z in B1. lra. }
  destruct (fsub_b (-1) 1 q' q dyn1 dy1 Fq' Fq) as (Fd & Ed & Bd); [lra|].
  assert (Hd : Rabs (B2R (fsub q' q) - (B2R q' - B2R q)) <= bpow radix2 (-25)).
  { rewrite Ed. apply (rnd_err1 0); [lia|]. apply Rabs_le. bp. lra. }
  set (p0 := B2R (sw_phase s)) in *. set (p1 := B2R p') in *. set (i := B2R (sw_inc s)) in *. set (g := p0 + p1 - 1) in *.
  assert (Bg : Rabs g <= 1) by (unfold g; apply Rabs_le; lra).
  set (d := B2R (fsub q' q)) in *.
  assert (YX : Y <= / 2) by nra.
  assert (DD : Rabs (d - 4 * (Y * g)) <= bpow radix2 (-21) + 4 * (bpow radix2 (-23) * Y)).
  { assert (G1 : Rabs (4 * ((p1 - (p0 + i)) * g)) <= bpow radix2 (-22)).
    { rewrite Rabs_mult, (Rabs_pos_eq 4), Rabs_mult by lra.
      apply Rle_trans with (4 * (bpow radix2 (-24) * 1)); [|bp; lra]. apply Rmult_le_compat_l; [lra|]. apply Rmult_le_compat; auto using Rabs_pos. }
    assert (G2 : Rabs (4 * ((i - Y) * g)) <= 4 * (bpow radix2 (-23) * Y)).
    { rewrite Rabs_mult, (Rabs_pos_eq 4), Rabs_mult by lra. apply Rmult_le_compat_l; [lra|].
      rewrite <- (Rmult_1_r (bpow radix2 (-23) * Y)). apply Rmult_le_compat; auto using Rabs_pos. }
    replace (d - 4 * (Y * g)) with ((d - (B2R q' - B2R q)) + (B2R q' - (2 * p1 - 1) * (2 * p1 - 1)) - (B2R q - (2 * p0 - 1) * (2 * p0 - 1))
      + 4 * ((p1 - (p0 + i)) * g) + 4 * ((i - Y) * g)) by (unfold g; ring).
    fold p0 in Eq. fold p1 in Eq'. revert Hd Eq Eq' G1 G2. bp. intros Hd Eq Eq' G1 G2. apply Rabs_le_inv in Hd. apply Rabs_le_inv in Eq. apply Rabs_le_inv in Eq'.
    apply Rabs_le_inv in G1. apply Rabs_le_inv in G2. apply Rabs_le. lra. }
  assert (PB : Rabs (d * B2R S - 2 * g) <= / 200).
  { assert (Z : 2 * g = 4 * (Y * g) * X) by (replace (4 * (Y * g) * X) with (4 * (X * Y) * g) by ring; rewrite XY; field).
    replace (d * B2R S - 2 * g) with ((d - 4 * (Y * g)) * B2R S + 4 * (Y * g) * (B2R S - X)) by (rewrite Z; ring).
    eapply Rle_trans; [apply Rabs_triang|]. rewrite !Rabs_mult, (Rabs_pos_eq 4), (Rabs_pos_eq Y), (Rabs_pos_eq (B2R S)) by lra.
    assert (Rabs (d - 4 * (Y * g)) * B2R S <= (bpow radix2 (-21) + 4 * (bpow radix2 (-23) * Y)) * (X * (1 + bpow radix2 (-23)))) as V1.
    { apply Rmult_le_compat; [apply Rabs_pos|lra|exact DD|]. apply Rabs_le_inv in ES. lra. }
    assert (4 * (Y * Rabs g) * Rabs (B2R S - X) <= 4 * (Y * 1) * (bpow radix2 (-23) * X)) as V2.
    { apply Rmult_le_compat; [|apply Rabs_pos| |exact ES].
      - apply Rmult_le_pos; [lra|]. apply Rmult_le_pos; [lra|apply Rabs_pos].
      - apply Rmult_le_compat_l; [lra|]. apply Rmult_le_compat_l; lra. }
    replace ((bpow radix2 (-21) + 4 * (bpow radix2 (-23) * Y)) * (X * (1 + bpow radix2 (-23)))) with
      ((bpow radix2 (-21) * X + 4 * bpow radix2 (-23) * (X * Y)) * (1 + bpow radix2 (-23))) in V1 by ring.
    replace (4 * (Y * 1) * (bpow radix2 (-23) * X)) with (4 * bpow radix2 (-23) * (X * Y)) in V2 by ring.
    rewrite XY in V1, V2. revert V1 V2 BX. bp. intros. lra. }
  assert (ND : Rabs (d * B2R S) <= 3).
  { replace (d * B2R S) with ((d * B2R S - 2 * g) + 2 * g) by ring. eapply Rle_trans; [apply Rabs_triang|]. rewrite (Rabs_mult 2), (Rabs_pos_eq 2) by lra. lra. }
  destruct (fmul_b (-3) 3 (fsub q' q) S (dyZ (-3) ltac:(lia)) (dyZ 3 ltac:(lia)) Fd FS (Rabs_le_inv _ _ ND)) as (_ & E & _).
  pose proof (rnd_err1 2 (d * B2R S) ltac:(lia) ltac:(bp; lra)) as Er. fold d in E. rewrite <- E in Er.
  revert Er PB. change (2 - 25)%Z with (-23)%Z. bp. intros Er PB. apply Rabs_le_inv in Er. apply Rabs_le_inv in PB. apply Rabs_le. change (- / 128 <= B2R (fmul (fsub q' q) S) - 2 * g <= / 128). lra.
Qed.
