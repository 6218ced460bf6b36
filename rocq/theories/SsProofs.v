(** SuperSaw: one voice. *)
From Coq Require Import ZArith Reals Bool List Lra Lia Psatz.
From Flocq Require Import Core BinarySingleNaN.
From Verif Require Import Flt FltFacts FltMore FltKey FltArith Libm UtilModel UtilProofs FltClose FltRel Ln2
  OscModel OscSpec OscProofs OscProofs2 OscProofs3 EnvModel EnvSpec EnvProofs EnvProofs2 PanModel PanProofs VcModel VcSpec VcProofs SsSpec.
Import ListNotations.
Local Open Scope R_scope.

(** ** SawDPW with a new frequency before every sample *)
Lemma saw_any sr s g : rate_ok sr -> sw_inv sr s -> saw_freq_ok sr g ->
  sw_inv sr (fst (sw_tick (sw_setFrequency s g))) /\
  fin (snd (sw_tick (sw_setFrequency s g))) /\ Rabs (B2R (snd (sw_tick (sw_setFrequency s g)))) <= bpow radix2 13.
Proof.
  intros R I Q. assert (Fg : freq_ok sr g). { destruct Q as (F & B1 & B2). split; [exact F|]. destruct R as [_ Br]. pose proof (bpow_gt_0 radix2 14). nra. }
  pose proof (sw_op_inv sr s (OFreq g) R I Fg) as J. change (fst (sw_op s (OFreq g))) with (sw_setFrequency s g) in J.
  split; [now apply sw_tick_inv|].
  destruct J as (Fp & Bp & Fi & Bi & Es & Ec & Fv & Bv & Ei). destruct (saw_wave _ Fp Bp) as (Fq & Bq & _).
  unfold sw_tick, snd. cbv zeta. set (s' := sw_setFrequency s g) in *.
  destruct (fsub_b (-1) 1 _ (sw_prev s') dyn1 dy1 Fq Fv) as (Fd & _ & Bd); [lra|].
  rewrite Ec. destruct (saw_scale_b sr g R Q) as (FS & _ & _ & BS). change (sw_freq s') with g.
  set (d := fsub _ (sw_prev s')) in *. set (S := fdiv (fmul sr half) g) in *.
  destruct (bp_dy 13 ltac:(lia)) as [D1 D2].
  destruct (fmul_b _ _ d S D2 D1 Fd FS) as (F & _ & B); [|split; [exact F|now apply Rabs_le]].
  apply abs_dn. rewrite Rabs_mult, (Rabs_pos_eq (B2R S)) by lra. assert (A : Rabs (B2R d) <= 1) by (now apply unit_abs).
  pose proof (Rabs_pos (B2R d)). nra.
Qed.
(** The sample after a tick at frequency [f], at frequency [g]. *)
Lemma saw_moved sr s g : rate_ok sr -> sw_inv sr s -> saw_freq_ok sr (sw_freq s) -> saw_freq_ok sr g ->
  Rabs (B2R (snd (sw_tick (sw_setFrequency (fst (sw_tick s)) g)))) <= 2 * (B2R (sw_freq s) / B2R g) * (1 + bpow radix2 (-20)) + bpow radix2 (-7).
Proof.
  intros R (Fp & Bp & Fi & Bi & Es & Ec & Fv & Bv & Ei) Q Qg.
  destruct (unit_adv _ _ Fp Bp Fi ltac:(lra)) as (F' & B' & _ & A).
  destruct (saw_wave _ Fp Bp) as (Fq & Bq & Eq).
  unfold sw_tick at 1. unfold snd. cbv zeta. unfold sw_setFrequency, sw_tick, fst, sw_phase, sw_prev, sw_scale, sw_freq, sw_inc, sw_sr.
  cbv zeta. fold (sw_phase s) (sw_inc s) (sw_prev s) (sw_freq s) (sw_scale s).
  set (p' := if fle one (fadd (sw_phase s) (sw_inc s)) then fsub (fadd (sw_phase s) (sw_inc s)) one else fadd (sw_phase s) (sw_inc s)) in *.
  set (q := fmul (fsub (fmul (sw_phase s) two) one) (fsub (fmul (sw_phase s) two) one)) in *.
  destruct (saw_wave p' F' B') as (Fq' & Bq' & Eq').
  set (q' := fmul (fsub (fmul p' two) one) (fsub (fmul p' two) one)) in *.
  rewrite Ec. destruct (saw_scale_b sr g R Qg) as (FS & BX & ES & BS).
  destruct (saw_inc_b sr (sw_freq s) R Q) as (EI & PY). rewrite <- Ei in EI.
  set (S := fdiv (fmul sr half) g) in *. set (X := B2R sr / (2 * B2R g)) in *. set (Y := B2R (sw_freq s) / B2R sr) in *.
  assert (Pg : 0 < B2R g). { destruct Qg as (_ & B1 & _). destruct R as [_ Br]. pose proof (bpow_gt_0 radix2 14). nra. }
  set (rho := B2R (sw_freq s) / B2R g) in *.
  assert (XY : X * Y = rho / 2).
  { unfold X, Y, rho. destruct R as [_ Br]. field. split; lra. }
  assert (P0 : 0 < X) by (destruct BX; lra).
  destruct (fsub_b (-1) 1 q' q dyn1 dy1 Fq' Fq) as (Fd & Ed & Bd); [lra|].
  assert (Hd : Rabs (B2R (fsub q' q) - (B2R q' - B2R q)) <= bpow radix2 (-25)).
  { rewrite Ed. apply (rnd_err1 0); [lia|]. apply Rabs_le. bp. lra. }
  set (p0 := B2R (sw_phase s)) in *. set (p1 := B2R p') in *. set (i := B2R (sw_inc s)) in *.
  assert (D : Rabs ((2 * p1 - 1) * (2 * p1 - 1) - (2 * p0 - 1) * (2 * p0 - 1)) <= 4 * i + bpow radix2 (-22)).
  { replace ((2 * p1 - 1) * (2 * p1 - 1) - (2 * p0 - 1) * (2 * p0 - 1)) with (4 * ((p1 - p0) * (p1 + p0 - 1))) by ring.
    rewrite Rabs_mult, (Rabs_pos_eq 4), Rabs_mult by lra.
    assert (U1 : Rabs (p1 - p0) <= 1) by (apply Rabs_le; lra). assert (U2 : Rabs (p1 + p0 - 1) <= 1) by (apply Rabs_le; lra).
    pose proof (Rabs_pos (p1 - p0)). pose proof (Rabs_pos (p1 + p0 - 1)).
    replace (bpow radix2 (-22)) with (4 * bpow radix2 (-24)) by (bp; lra).
    assert (Rabs (p1 - p0) <= i + bpow radix2 (-24) \/ Rabs (p1 + p0 - 1) <= i + bpow radix2 (-24)) as [C|C].
    { destruct (fle one (fadd (sw_phase s) (sw_inc s))); apply Rabs_le_inv in A; [right|left]; apply Rabs_le; lra. }
    - assert (Rabs (p1 - p0) * Rabs (p1 + p0 - 1) <= (i + bpow radix2 (-24)) * 1) by (apply Rmult_le_compat; lra). lra.
    - assert (Rabs (p1 - p0) * Rabs (p1 + p0 - 1) <= 1 * (i + bpow radix2 (-24))) by (apply Rmult_le_compat; lra). lra. }
  assert (DD : Rabs (B2R (fsub q' q)) <= 4 * i + bpow radix2 (-21)).
  { revert D Hd Eq Eq'. fold p0 p1. bp. intros D Hd Eq Eq'. apply Rabs_le_inv in D. apply Rabs_le_inv in Hd. apply Rabs_le_inv in Eq. apply Rabs_le_inv in Eq'.
    apply Rabs_le. lra. }
  set (d := B2R (fsub q' q)) in *.
  assert (R0 : 0 < rho) by (assert (0 < X * Y) by (apply Rmult_lt_0_compat; lra); lra).
  assert (Pi : Rabs (d * B2R S) <= 2 * rho * (1 + / 2097152) + 129 / 32768).
  { rewrite Rabs_mult, (Rabs_pos_eq (B2R S)) by lra. revert ES EI DD BS BX. bp. intros ES EI DD BS BX.
    apply Rabs_le_inv in ES. apply Rabs_le_inv in EI.
    apply Rle_trans with ((4 * (Y * (1 + / 8388608)) + / 2097152) * (X * (1 + / 8388608))).
    - apply Rmult_le_compat; [apply Rabs_pos|lra| |]; lra.
    - replace ((4 * (Y * (1 + / 8388608)) + / 2097152) * (X * (1 + / 8388608))) with
        (4 * (X * Y) * ((1 + / 8388608) * (1 + / 8388608)) + / 2097152 * X * (1 + / 8388608)) by ring. rewrite XY.
      lra. }
  assert (UB : Rabs (d * B2R S) <= bpow radix2 13).
  { rewrite Rabs_mult, (Rabs_pos_eq (B2R S)) by lra. assert (Rabs d <= 1) by (apply Rabs_le; lra). pose proof (Rabs_pos d). nra. }
  destruct (bp_dy 13 ltac:(lia)) as [D1 D2].
  destruct (fmul_b _ _ (fsub q' q) S D2 D1 Fd FS (abs_dn _ _ UB)) as (F & E & _).
  rewrite E. pose proof (rrel32 (d * B2R S)) as RR. fold d in RR |- *. pose proof t150' as T. revert T RR. bp. intros T RR.
  set (z := d * B2R S) in *. apply Rle_trans with (Rabs z + Rabs (rnd32 z - z)).
  - replace (rnd32 z) with (z + (rnd32 z - z)) at 1 by ring. apply Rabs_triang.
  - lra.
Qed.

(** ** The frequency of a voice *)
Lemma pow_pos x y : 0 < Rpower x y. Proof. unfold Rpower. apply exp_pos. Qed.
Lemma pow2_lo_hi y : Rabs y <= / 2 -> 0.707 <= Rpower 2 y <= 1.4143.
Proof.
  intros H. apply abs_dn in H.
  assert (S : Rpower 2 (/ 2) <= 1.4143).
  { rewrite Rpower_sqrt by lra. pose proof (sqrt_sqrt 2 ltac:(lra)) as Q. pose proof (sqrt_pos 2). nra. }
  assert (M : forall a b, a <= b -> Rpower 2 a <= Rpower 2 b) by (intros; apply Rle_Rpower; lra).
  split; [|eapply Rle_trans; [apply M|exact S]; lra].
  apply Rle_trans with (Rpower 2 (- / 2)); [|apply M; lra]. rewrite Rpower_Ropp. pose proof (pow_pos 2 (/ 2)) as P.
  apply Rmult_le_reg_r with (Rpower 2 (/ 2)); [exact P|]. rewrite Rinv_l by lra. lra.
Qed.
Lemma pow2_mul a b : Rpower 2 a * Rpower 2 b = Rpower 2 (a + b). Proof. symmetry. apply Rpower_plus. Qed.
Definition vfreq (L : libm) (f y q : f32) : f32 := fmul (fmul f (m_pow L two y)) (m_pow L two q).
Lemma vfreq_close L sr f y q : pow2_acc L -> saw_rate sr -> fin f -> B2R sr / 4096 <= B2R f <= B2R sr / 5 ->
  fin y -> Rabs (B2R y) <= / 2 -> fin q -> Rabs (B2R q) <= / 2 ->
  rl 0.000001 (vfreq L f y q) (B2R f * Rpower 2 (B2R y + B2R q)) /\ saw_freq_ok sr (vfreq L f y q).
Proof.
  intros HP [Fs Bs] Ff Bf Fy By Fq Bq.
  destruct (HP y Fy ltac:(lra)) as [Fvy Evy]. destruct (HP q Fq ltac:(lra)) as [Fvq Evq].
  pose proof (pow2_lo_hi _ By) as Ly. pose proof (pow2_lo_hi _ Bq) as Lq. rewrite <- pow2_mul.
  set (a := Rpower 2 (B2R y)) in *. set (b := Rpower 2 (B2R q)) in *.
  assert (U : bpow radix2 (-22) <= 0.00000024) by (bp; lra). pose proof (bpow_gt_0 radix2 (-22)).
  assert (R1 : rl 0.00000024 (m_pow L two y) a) by (split; [exact Fvy|]; rewrite (Rabs_pos_eq a) by lra; nra).
  assert (R2 : rl 0.00000024 (m_pow L two q) b) by (split; [exact Fvq|]; rewrite (Rabs_pos_eq b) by lra; nra).
  assert (M : forall r, 0.1 <= r <= 1000000 -> mid r).
  { intros r Hr. unfold mid. rewrite Rabs_pos_eq by lra. split.
    - apply Rle_trans with (bpow radix2 (-4)); [apply bpow_le; lia|change (bpow radix2 (-4)) with (/ 16); lra].
    - apply Rle_trans with (bpow radix2 20); [change (bpow radix2 20) with 1048576; lra|apply bpow_le; lia]. }
  assert (R3 : rl 0.0000004 (fmul f (m_pow L two y)) (B2R f * a)).
  { apply rl_mul with 0 0.00000024; try lra; [apply rl_self; exact Ff|exact R1| |unfold ru; lra].
    apply M. split; nra. }
  assert (R4 : rl 0.000001 (vfreq L f y q) (B2R f * a * b)).
  { apply rl_mul with 0.0000004 0.00000024; try lra; [exact R3|exact R2| |unfold ru; lra].
    apply M. assert (0.3 <= B2R f * a <= 460000) by (split; nra). split; nra. }
  assert (AB : 0.4998 <= a * b <= 2.0003) by (split; nra).
  assert (G : B2R f * a * b = B2R f * (a * b)) by ring. rewrite G in R4. split; [exact R4|].
  destruct R4 as [Fg Eg]. rewrite (Rabs_pos_eq (B2R f * (a * b))) in Eg by (apply Rmult_le_pos; lra). apply Rabs_le_inv in Eg.
  assert (B2R f * 0.4998 <= B2R f * (a * b)) by (apply Rmult_le_compat_l; lra).
  assert (B2R f * (a * b) <= B2R f * 2.0003) by (apply Rmult_le_compat_l; lra).
  split; [exact Fg|]. bp. split; lra.
Qed.

(** ** One voice *)
Definition sv_inv (sr : f32) (v : svoice) : Prop := sw_inv sr (sv_saw v) /\ lt_inv sr (sv_vib v) /\ fin (sv_det v) /\ Rabs (B2R (sv_det v)) <= 6.
Definition wob (d y : f32) : Prop := fin y /\ Rabs (B2R y) <= Rabs (B2R d) / 12 + bpow radix2 (-26) /\ Rabs (B2R y) <= / 2.
(** The voice has produced a sample at the present settings. *)
Definition warm (L : libm) (sr f d : f32) (v : svoice) : Prop :=
  exists s0 y, sw_inv sr s0 /\ wob d y /\ sw_freq s0 = vfreq L f y (fdiv (sv_det v) (fofZ 12)) /\ sv_saw v = fst (sw_tick s0).
Definition peak (d : f32) : R := 2 * Rpower 2 (Rabs (B2R d) / 6) * (1 + 0.00001) + bpow radix2 (-7).
Definition side (i : Z) (spread : f32) : f32 := fmul (fsub (fmul (fofZ (i mod 2)) two) one) spread.

Lemma twelve : fin (fofZ 12 : f32) /\ B2R (fofZ 12 : f32) = 12. Proof. apply fofZ_R. lia. Qed.
Lemma dy_half : dy32 (/ 2). Proof. replace (/ 2) with (bpow radix2 (-1)) by (bp; lra). apply bp_dy. lia. Qed.
Lemma div12 (x : f32) m : fin x -> Rabs (B2R x) <= m -> m <= 6 ->
  fin (fdiv x (fofZ 12)) /\ Rabs (B2R (fdiv x (fofZ 12))) <= m / 12 + bpow radix2 (-26) /\ Rabs (B2R (fdiv x (fofZ 12))) <= / 2.
Proof.
  intros F B M. destruct twelve as [Ft Et].
  assert (Q : Rabs (B2R x / B2R (fofZ 12 : f32)) <= m / 12).
  { rewrite Et. unfold Rdiv. rewrite Rabs_mult, (Rabs_pos_eq (/ 12)) by lra. lra. }
  destruct (fdiv_b (- / 2) (/ 2) x (fofZ 12) (dy_opp _ dy_half) dy_half F Ft) as (G & E & C); [rewrite Et; lra|apply abs_dn; lra|].
  split; [exact G|]. split; [|now apply Rabs_le]. rewrite E.
  assert (H : Rabs (B2R x / B2R (fofZ 12 : f32)) <= bpow radix2 (-1)) by (change (bpow radix2 (-1)) with (/ 2); lra).
  pose proof (rnd_err1 (-1) _ ltac:(lia) H) as T. change (-1 - 25)%Z with (-26)%Z in T.
  set (z := B2R x / B2R (fofZ 12 : f32)) in *. replace (rnd32 z) with (z + (rnd32 z - z)) by ring. eapply Rle_trans; [apply Rabs_triang|]. lra.
Qed.
Lemma dy_abs (d : f32) : dy32 (Rabs (B2R d)). Proof. rewrite <- fabs_R. apply dy_B2R. Qed.
Lemma wobble (m d : f32) : audio m -> fin d -> Rabs (B2R d) <= 6 -> wob d (fdiv (fmul m d) (fofZ 12)).
Proof.
  intros [Fm Bm] Fd Bd.
  assert (P : Rabs (B2R m * B2R d) <= Rabs (B2R d)).
  { rewrite Rabs_mult. pose proof (unit_abs _ Bm). pose proof (Rabs_pos (B2R d)). pose proof (Rabs_pos (B2R m)). nra. }
  destruct (fmul_b _ _ m d (dy_opp _ (dy_abs d)) (dy_abs d) Fm Fd (abs_dn _ _ P)) as (F & _ & B).
  destruct (div12 (fmul m d) (Rabs (B2R d)) F (Rabs_le _ _ B) Bd) as (A & C & D). split; [exact A|]. split; [exact C|exact D].
Qed.
Lemma pow2_tiny : Rpower 2 (bpow radix2 (-25)) <= 1 + 0.0000001.
Proof.
  pose proof ln_2 as L. unfold Rpower. set (z := bpow radix2 (-25) * ln 2). assert (Z : 0 <= z <= 0.00000003) by (unfold z; bp; lra).
  pose proof (exp_ineq1_le (- z)) as H. assert (E : exp z * exp (- z) = 1) by (rewrite <- exp_plus; replace (z + - z) with 0 by ring; apply exp_0).
  pose proof (exp_pos z). nra.
Qed.
Lemma sv_tick_ok L sr f d sp i v : pow2_acc L -> saw_rate sr -> fin f -> B2R sr / 4096 <= B2R f <= B2R sr / 5 -> fin d -> Rabs (B2R d) <= 6 -> sv_inv sr v ->
  sv_inv sr (fst (sv_tick L f d sp i v)) /\ warm L sr f d (fst (sv_tick L f d sp i v)) /\ sv_det (fst (sv_tick L f d sp i v)) = sv_det v /\
  exists x, fin x /\ Rabs (B2R x) <= bpow radix2 13 /\ snd (sv_tick L f d sp i v) = pan2_process L x (side i sp) /\ (warm L sr f d v -> Rabs (B2R x) <= peak d).
Proof.
  intros HP R Ff Bf Fd Bd (Hs & Hl & Fq & Bq).
  assert (R' : rate_ok sr). { destruct R as [Fs Bs]. split; [exact Fs|]. split; [lra|]. apply Rle_trans with (bpow radix2 21); [change (bpow radix2 21) with 2097152; lra|apply bpow_le; lia]. }
  unfold sv_tick. destruct (lt_out sr _ Hl) as [Ao _]. destruct (lt_tick_inv sr _ Hl) as [Hl' _].
  destruct (lt_tick (sv_vib v)) as [vib m]. cbn [fst snd] in Ao, Hl'.
  pose proof (wobble m d Ao Fd Bd) as W. set (y := fdiv (fmul m d) (fofZ 12)) in *.
  destruct (div12 (sv_det v) 6 Fq Bq ltac:(lra)) as (Fw & _ & Bw). set (q := fdiv (sv_det v) (fofZ 12)) in *.
  change (fmul (fmul f (m_pow L two y)) (m_pow L two q)) with (vfreq L f y q).
  pose proof W as (Fy & By & Hy).
  destruct (vfreq_close L sr f y q HP R Ff Bf Fy Hy Fw Bw) as [G Q]. set (g := vfreq L f y q) in *.
  destruct (saw_any sr (sv_saw v) g R' Hs Q) as (I & Fx & Bx).
  assert (Isf : sw_inv sr (sw_setFrequency (sv_saw v) g)).
  { apply (sw_op_inv sr _ (OFreq g) R' Hs). destruct Q as (F & B1 & B2). split; [exact F|]. destruct R as [_ Bs]. pose proof (bpow_gt_0 radix2 14). nra. }
  assert (WM : warm L sr f d (SVoice (fst (sw_tick (sw_setFrequency (sv_saw v) g))) vib (sv_det v))).
  { exists (sw_setFrequency (sv_saw v) g), y. split; [exact Isf|]. split; [exact W|]. split; reflexivity. }
  assert (PK : warm L sr f d v -> Rabs (B2R (snd (sw_tick (sw_setFrequency (sv_saw v) g)))) <= peak d).
  { intros (s0 & y0 & I0 & (Fy0 & By0 & Hy0) & E0 & ->).
    destruct (vfreq_close L sr f y0 q HP R Ff Bf Fy0 Hy0 Fw Bw) as [G0 Q0]. fold q in E0.
    rewrite <- E0 in G0, Q0. eapply Rle_trans; [apply (saw_moved sr s0 g R' I0 Q0 Q)|]. unfold peak. apply Rplus_le_compat_r.
    destruct G as [_ G]. destruct G0 as [_ G0]. set (h := sw_freq s0) in *.
    set (u := B2R f * Rpower 2 (B2R y + B2R q)) in *. set (u0 := B2R f * Rpower 2 (B2R y0 + B2R q)) in *.
    assert (f0 : 0 < B2R f) by (destruct R as [_ Bs]; lra).
    assert (Pu : 0 < u) by (apply Rmult_lt_0_compat; [exact f0|apply pow_pos]). assert (Pu0 : 0 < u0) by (apply Rmult_lt_0_compat; [exact f0|apply pow_pos]).
    rewrite (Rabs_pos_eq u) in G by lra. rewrite (Rabs_pos_eq u0) in G0 by lra. apply Rabs_le_inv in G. apply Rabs_le_inv in G0.
    assert (UU : u0 <= u * (Rpower 2 (Rabs (B2R d) / 6) * (1 + 0.0000001))).
    { assert (E : u0 = u * Rpower 2 (B2R y0 - B2R y)).
      { unfold u, u0. rewrite Rmult_assoc, pow2_mul. do 2 f_equal. ring. }
      rewrite E. apply Rmult_le_compat_l; [lra|]. apply Rle_trans with (Rpower 2 (Rabs (B2R d) / 6 + bpow radix2 (-25))).
      - apply Rle_Rpower; [lra|]. apply abs_dn in By. apply abs_dn in By0. replace (bpow radix2 (-25)) with (bpow radix2 (-26) + bpow radix2 (-26)) by (bp; lra). lra.
      - rewrite <- pow2_mul. apply Rmult_le_compat_l; [apply Rlt_le, pow_pos|apply pow2_tiny]. }
    set (A := Rpower 2 (Rabs (B2R d) / 6)) in *. assert (PA : 0 < A) by apply pow_pos.
    assert (Pg : 0 < B2R g) by lra.
    assert (HH : B2R h / B2R g <= A * (1 + 0.000003)).
    { apply Rmult_le_reg_r with (B2R g); [exact Pg|]. unfold Rdiv. rewrite Rmult_assoc, Rinv_l, Rmult_1_r by lra.
      apply Rle_trans with ((1 + 0.000001) * (u * (A * (1 + 0.0000001)))); [lra|].
      apply Rle_trans with (A * (1 + 0.000003) * (u * (1 - 0.000001))); [|apply Rmult_le_compat_l; [apply Rmult_le_pos; lra|lra]].
      assert (0 < u * A) by (apply Rmult_lt_0_compat; lra). nra. }
    assert (0 < bpow radix2 (-20) <= 0.000001) by (bp; lra).
    apply Rle_trans with (2 * (A * (1 + 0.000003)) * (1 + bpow radix2 (-20))); [apply Rmult_le_compat_r; lra|]. nra. }
  destruct (sw_tick (sw_setFrequency (sv_saw v) g)) as [sw x]. cbn [fst snd] in *.
  split; [exact (conj I (conj Hl' (conj Fq Bq)))|]. split; [exact WM|]. split; [reflexivity|]. exists x. split; [exact Fx|]. split; [exact Bx|]. split; [reflexivity|exact PK].
Qed.
