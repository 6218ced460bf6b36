(** How long the envelope segments last, in samples. *)
From Coq Require Import ZArith Reals Lra Lia Bool List Psatz.
From Flocq Require Import Core BinarySingleNaN.
From Verif Require Import Flt FltFacts FltMore FltKey FltArith Libm UtilModel UtilProofs EnvModel EnvSpec EnvProofs EnvProofs2 FltClose OscProofs OscProofs2 ExpBounds ExpBounds2 SmoothProofs3 SmoothProofs4.
Import ListNotations.
Local Open Scope R_scope.

(** ** The coefficient *)
Lemma coeff_near L t sr : exp_acc L -> fin t -> fin sr -> 32 <= B2R t * B2R sr <= 65536 ->
  fin (coeff L t sr) /\ Rabs (B2R (coeff L t sr) - exp (- / (B2R t * B2R sr))) <= 2.5 * bpow radix2 (-24).
Proof.
  intros HL Ft Fs BN. unfold coeff. set (N := B2R t * B2R sr) in *.
  destruct (fmul_b 32 65536 t sr (dyZ 32 ltac:(lia)) (dyZ 65536 ltac:(lia)) Ft Fs BN) as (Fp & Ep & Bp).
  fold N in Ep. set (p := fmul t sr) in *. clearbody p.
  assert (X1 : Rabs (B2R p - N) <= bpow radix2 (-24) * N + bpow radix2 (-150)).
  { rewrite Ep. rewrite <- (Rabs_pos_eq N) at 3 by lra. apply rrel32. }
  assert (T : 0 < bpow radix2 (-150) <= / 1125899906842624) by (exact t150').
  assert (Iv : / 65536 <= / B2R p <= / 32) by (split; apply Rinv_le_contravar; lra).
  assert (Fo : fin (fneg one)) by ffin.
  destruct (fdiv_b (-1) 0 (fneg one) p dyn1 dy0 Fo Fp) as (Fq & Eq & Bq); [lra|rewrite fneg_R, one_R; unfold Rdiv; lra|].
  rewrite fneg_R, one_R in Eq. set (q := fdiv (fneg one) p) in *. clearbody q.
  assert (X2 : Rabs (B2R q - - (1) / B2R p) <= bpow radix2 (-24) * / B2R p + bpow radix2 (-150)).
  { rewrite Eq. eapply Rle_trans; [apply rrel32|]. apply Rplus_le_compat_r, Rmult_le_compat_l; [apply bpow_ge_0|].
    unfold Rdiv. rewrite Rabs_mult, Rabs_Ropp, Rabs_R1, (Rabs_pos_eq (/ B2R p)) by lra. lra. }
  assert (X3 : Rabs (- (1) / B2R p - - / N) <= / 32 * / 16000000).
  { assert (IN : 0 < / N <= / 32) by (split; [apply Rinv_0_lt_compat; lra|apply Rinv_le_contravar; lra]).
    replace (- (1) / B2R p - - / N) with (- ((N - B2R p) * / N) * / B2R p) by (field; lra).
    assert (Y : Rabs (- ((N - B2R p) * / N)) <= / 16000000).
    { rewrite Rabs_Ropp, Rabs_mult, (Rabs_pos_eq (/ N)), Rabs_minus_sym by lra. apply Rmult_le_reg_r with N; [lra|].
      rewrite Rmult_assoc, Rinv_l by lra. revert X1. bp. lra. }
    rewrite Rabs_mult, (Rabs_pos_eq (/ B2R p)) by lra.
    apply Rle_trans with (/ 16000000 * / 32); [|lra]. apply Rmult_le_compat; [apply Rabs_pos|lra|exact Y|lra]. }
  destruct (HL q Fq (proj2 Bq)) as [Fc Ac]. split; [exact Fc|].
  assert (X4 : Rabs (exp (B2R q) - exp (- / N)) <= / 2 * bpow radix2 (-24)).
  { eapply Rle_trans; [apply exp_neg_lip; [lra|]|].
    - assert (0 < / N) by (apply Rinv_0_lt_compat; lra). lra.
    - replace (B2R q - - / N) with ((B2R q - - (1) / B2R p) + (- (1) / B2R p - - / N)) by ring.
      eapply Rle_trans; [apply Rabs_triang|]. revert X2. bp. lra. }
  replace (B2R (m_exp L q) - exp (- / N)) with ((B2R (m_exp L q) - exp (B2R q)) + (exp (B2R q) - exp (- / N))) by ring.
  eapply Rle_trans; [apply Rabs_triang|]. revert Ac X4. bp. lra.
Qed.

(** The real coefficient: exp(-1/N) for 32 <= N <= 65536. *)
Lemma ecoef N : 32 <= N <= 65536 ->
  31 / 32 <= exp (- / N) < 1 /\ 125 / 128 <= N * (1 - exp (- / N)).
Proof.
  intros B. assert (I : 0 < / N <= / 32) by (split; [apply Rinv_0_lt_compat; lra|apply Rinv_le_contravar; lra]).
  pose proof (exp_ineq1_le (- / N)). split.
  - split; [lra|]. rewrite <- exp_0. apply exp_increasing. lra.
  - pose proof (exp_neg_upper (/ N) ltac:(lra)) as U.
    assert (E : N * / N = 1) by (apply Rinv_r; lra).
    apply Rle_trans with (N * (/ N - 3 / 4 * (/ N * / N))); [|apply Rmult_le_compat_l; lra].
    replace (N * (/ N - 3 / 4 * (/ N * / N))) with (N * / N * (1 - 3 / 4 * / N)) by ring. rewrite E. lra.
Qed.

(** ** One step towards a level, and many *)
Lemma att_step_acc c v e : unit_sample c -> unit_sample v -> Rabs (B2R c - e) <= 2.5 * bpow radix2 (-24) ->
  unit_sample (att c v) /\ Rabs (B2R (att c v) - (e * B2R v + (1 - e) * 1)) <= bpow radix2 (-22).
Proof.
  intros Hc Hv He. destruct (att_parts c v Hc Hv) as ([Fu Bu] & [Fw Bw] & Ua & Eu & Ew & Ea & _).
  split; [exact Ua|]. set (u := fsub one v) in *. set (w := fmul c u) in *.
  assert (X1 : Rabs (B2R u - (1 - B2R v)) <= bpow radix2 (-25)).
  { rewrite Eu. change (-25)%Z with (0 - 25)%Z. apply rnd_err1; [lia|]. change (bpow radix2 0) with 1. destruct Hv. apply Rabs_le. lra. }
  assert (X2 : Rabs (B2R w - B2R c * B2R u) <= bpow radix2 (-25)).
  { rewrite Ew. change (-25)%Z with (0 - 25)%Z. apply rnd_err1; [lia|]. change (bpow radix2 0) with 1. destruct Hc. apply Rabs_le. nra. }
  assert (X3 : Rabs (B2R (att c v) - (1 - B2R w)) <= bpow radix2 (-25)).
  { rewrite Ea. change (-25)%Z with (0 - 25)%Z. apply rnd_err1; [lia|]. change (bpow radix2 0) with 1. apply Rabs_le. lra. }
  destruct Hc as [_ Hc], Hv as [_ Hv].
  clear Eu Ew Ea. revert Hc Hv He Bu Bw X1 X2 X3. clear.
  generalize (B2R u) (B2R w) (B2R (att c v)) (B2R c) (B2R v). clear. intros ur wr a cr vr Hc Hv He Bu Bw X1 X2 X3. apply Rabs_le_inv in X1. apply Rabs_le_inv in X2. apply Rabs_le_inv in X3. apply Rabs_le_inv in He.
  revert He X1 X2 X3. bp. intros.
  assert (cr * (ur - (1 - vr)) <= 2.98023223876953125e-8 /\ - 2.98023223876953125e-8 <= cr * (ur - (1 - vr))) by (split; nra).
  assert ((cr - e) * (1 - vr) <= 1.490116119384765625e-7 /\ - 1.490116119384765625e-7 <= (cr - e) * (1 - vr)) by (split; nra).
  apply Rabs_le. lra.
Qed.
Lemma dcy_step_acc s c v e : unit_sample s -> unit_sample c -> unit_sample v -> Rabs (B2R c - e) <= 2.5 * bpow radix2 (-24) ->
  unit_sample (dcy s c v) /\ Rabs (B2R (dcy s c v) - (e * B2R v + (1 - e) * B2R s)) <= 9 * bpow radix2 (-25).
Proof.
  intros Hs Hc Hv He. destruct (dcy_parts s c v Hs Hc Hv) as (Fd & Fw & Ed & Ew & Ea & Bd & Bw & _ & _ & Ua).
  split; [exact Ua|]. set (d := fsub v s) in *. set (w := fmul c d) in *.
  destruct Hc as [_ Hc], Hv as [_ Hv], Hs as [_ Hs].
  assert (Ad : Rabs (B2R d) <= 1) by (apply Rabs_le; lra).
  assert (X1 : Rabs (B2R d - (B2R v - B2R s)) <= bpow radix2 (-25)).
  { rewrite Ed. change (-25)%Z with (0 - 25)%Z. apply rnd_err1; [lia|]. change (bpow radix2 0) with 1. apply Rabs_le. lra. }
  assert (X2 : Rabs (B2R w - B2R c * B2R d) <= bpow radix2 (-25)).
  { rewrite Ew. change (-25)%Z with (0 - 25)%Z. apply rnd_err1; [lia|]. change (bpow radix2 0) with 1.
    rewrite Rabs_mult, (Rabs_pos_eq (B2R c)) by lra. pose proof (Rabs_pos (B2R d)). nra. }
  assert (X3 : Rabs (B2R (dcy s c v) - (B2R s + B2R w)) <= bpow radix2 (-24)).
  { rewrite Ea. change (-24)%Z with (1 - 25)%Z. apply rnd_err1; [lia|]. change (bpow radix2 1) with 2.
    eapply Rle_trans; [apply Rabs_triang|]. rewrite (Rabs_pos_eq (B2R s)) by lra. lra. }
  clear Ed Ew Ea. apply Rabs_le_inv in Ad. revert Hc Hv Hs He Ad X1 X2 X3. clear.
  generalize (B2R d) (B2R w) (B2R (dcy s c v)) (B2R c) (B2R v) (B2R s). clear. intros dr wr a cr vr sr Hc Hv Hs He Ad X1 X2 X3.
  apply Rabs_le_inv in X1. apply Rabs_le_inv in X2. apply Rabs_le_inv in X3. apply Rabs_le_inv in He.
  revert He X1 X2 X3. bp. intros.
  assert (cr * (dr - (vr - sr)) <= 2.98023223876953125e-8 /\ - 2.98023223876953125e-8 <= cr * (dr - (vr - sr))) by (split; nra).
  assert ((cr - e) * (vr - sr) <= 1.490116119384765625e-7 /\ - 1.490116119384765625e-7 <= (cr - e) * (vr - sr)).
  { destruct (Rle_lt_dec vr sr); split; nra. }
  apply Rabs_le. lra.
Qed.

Lemma iter_geo (f : f32 -> f32) (e s d : R) : 0 <= e <= 1 -> 0 <= d ->
  (forall v, unit_sample v -> unit_sample (f v) /\ Rabs (B2R (f v) - (e * B2R v + (1 - e) * s)) <= d) ->
  forall n v, unit_sample v -> unit_sample (Nat.iter n f v) /\ geo_close e d (B2R v) s (B2R (Nat.iter n f v)) n.
Proof.
  intros He Hd Hf n v Hv. induction n as [|n [IU IG]].
  - split; [exact Hv|]. unfold geo_close. change (Nat.iter 0 f v) with v. cbn [pow].
    replace (B2R v - s - 1 * (B2R v - s)) with 0 by ring. rewrite Rabs_R0. lra.
  - change (Nat.iter (S n) f v) with (f (Nat.iter n f v)). destruct (Hf _ IU) as [U A]. split; [exact U|]. unfold geo_close in *. now apply geo_aux with (y := B2R (Nat.iter n f v)).
Qed.
Lemma geo_time N d s v y n : 32 <= N <= 65536 -> 0 <= d -> geo_close (exp (- / N)) d v s y n ->
  Rabs (y - (s + (v - s) * exp (- (INR n / N)))) <= N * (d * 1.024).
Proof.
  intros B D0 G. destruct (ecoef N B) as [E M]. unfold geo_close in G. rewrite pow_exp in G.
  replace (INR n * - / N) with (- (INR n / N)) in G by (unfold Rdiv; ring).
  set (p := exp (- (INR n / N))) in *. assert (P : 0 < p) by apply exp_pos.
  replace (y - (s + (v - s) * p)) with (y - s - p * (v - s)) by ring.
  set (r := Rabs (y - s - p * (v - s))) in *. assert (D : 0 <= r) by apply Rabs_pos. clearbody r.
  set (c := exp (- / N)) in *. clearbody c p.
  assert (G2 : (1 - c) * r <= d) by nra.
  assert (N * ((1 - c) * r) <= N * d) by (apply Rmult_le_compat_l; lra).
  assert (125 / 128 * r <= N * (1 - c) * r) by (apply Rmult_le_compat_r; lra). lra.
Qed.
Lemma att_iter c v N n : unit_sample c -> unit_sample v -> 32 <= N <= 65536 -> Rabs (B2R c - exp (- / N)) <= 2.5 * bpow radix2 (-24) ->
  let y := Nat.iter n (att c) v in
  unit_sample y /\ Rabs (B2R y - (1 - (1 - B2R v) * exp (- (INR n / N)))) <= N / 4000000.
Proof.
  intros Hc Hv B He y. destruct (ecoef N B) as [E _].
  destruct (iter_geo (att c) (exp (- / N)) 1 (bpow radix2 (-22)) ltac:(lra) ltac:(apply bpow_ge_0)) with (n := n) (v := v) as [U G]; auto.
  { intros u Hu. now apply att_step_acc. }
  fold y in U, G. split; [exact U|]. apply geo_time in G; [|exact B|apply bpow_ge_0].
  replace (1 - (1 - B2R v) * exp (- (INR n / N))) with (1 + (B2R v - 1) * exp (- (INR n / N))) by ring.
  eapply Rle_trans; [exact G|]. bp. lra.
Qed.
Lemma dcy_iter s c v N n : unit_sample s -> unit_sample c -> unit_sample v -> 32 <= N <= 65536 -> Rabs (B2R c - exp (- / N)) <= 2.5 * bpow radix2 (-24) ->
  let y := Nat.iter n (dcy s c) v in
  unit_sample y /\ Rabs (B2R y - (B2R s + (B2R v - B2R s) * exp (- (INR n / N)))) <= N / 3600000.
Proof.
  intros Hs Hc Hv B He y. destruct (ecoef N B) as [E _].
  assert (D : 0 <= 9 * bpow radix2 (-25)) by (pose proof (bpow_ge_0 radix2 (-25)); lra).
  destruct (iter_geo (dcy s c) (exp (- / N)) (B2R s) (9 * bpow radix2 (-25)) ltac:(lra) D) with (n := n) (v := v) as [U G]; auto.
  { intros u Hu. now apply dcy_step_acc. }
  fold y in U, G. split; [exact U|]. apply geo_time in G; [|exact B|exact D].
  eapply Rle_trans; [exact G|]. bp. lra.
Qed.

(** ** The release step *)
Lemma rel_step_acc c v N : unit_sample c -> unit_sample v -> 32 <= N <= 65536 -> Rabs (B2R c - exp (- / N)) <= 2.5 * bpow radix2 (-24) ->
  / 16384 <= B2R v ->
  B2R v * exp (- (/ N + bpow radix2 (-22))) <= B2R (fmul c v) <= B2R v * exp (- (/ N - bpow radix2 (-22))).
Proof.
  intros [Fc Hc] [Fv Hv] B He Lv. destruct (ecoef N B) as [E _].
  destruct (fmul_b 0 (B2R v) c v dy0 (dy_B2R v) Fc Fv) as (_ & Em & _); [nra|].
  pose proof (rrel32 (B2R c * B2R v)) as X. rewrite <- Em in X. clear Em.
  rewrite (Rabs_pos_eq (B2R c * B2R v)) in X by (apply Rmult_le_pos; lra). pose proof t150' as T.
  replace (- (/ N + bpow radix2 (-22))) with (- / N + - bpow radix2 (-22)) by ring.
  replace (- (/ N - bpow radix2 (-22))) with (- / N + bpow radix2 (-22)) by ring. rewrite !exp_plus.
  pose proof (exp_ineq1_le (bpow radix2 (-22))) as U1. pose proof (exp_neg_upper (bpow radix2 (-22)) (bpow_ge_0 _ _)) as U2.
  apply Rabs_le_inv in X. apply Rabs_le_inv in He.
  assert (T' : bpow radix2 (-150) <= bpow radix2 (-31) * B2R v).
  { apply Rle_trans with (bpow radix2 (-31) * bpow radix2 (-14)); [rewrite <- bpow_plus; apply bpow_le; lia|].
    apply Rmult_le_compat_l; [apply bpow_ge_0|]. bp. lra. }
  set (e := exp (- / N)) in *. set (m := B2R (fmul c v)) in *. set (cr := B2R c) in *. set (vr := B2R v) in *.
  set (hi := exp (bpow radix2 (-22))) in *. set (lo := exp (- bpow radix2 (-22))) in *. set (t := bpow radix2 (-150)) in *.
  clearbody e m cr vr hi lo t. clear Fc Fv c v. revert X He U1 U2 T'. bp. intros X He U1 U2 T'. clear T.
  assert (C1 : cr <= e * (1 + 1.54e-7)) by lra. assert (C2 : e * (1 - 1.54e-7) <= cr) by lra.
  assert (lo <= 1 - 2.3841e-7) by lra.
  split.
  - assert (vr * (e * (1 - 1.54e-7)) <= vr * cr) by (apply Rmult_le_compat_l; lra).
    assert (vr * (e * lo) <= vr * (e * (1 - 2.3841e-7))) by (apply Rmult_le_compat_l; [lra|apply Rmult_le_compat_l; lra]).
    assert (vr * (31 / 32) <= vr * e) by (apply Rmult_le_compat_l; lra). lra.
  - assert (vr * cr <= vr * (e * (1 + 1.54e-7))) by (apply Rmult_le_compat_l; lra).
    assert (vr * (e * (1 + 2.3841e-7)) <= vr * (e * hi)) by (apply Rmult_le_compat_l; [lra|apply Rmult_le_compat_l; lra]).
    assert (vr * (31 / 32) <= vr * e) by (apply Rmult_le_compat_l; lra). lra.
Qed.

Lemma rel_iter c v N n : unit_sample c -> unit_sample v -> 32 <= N <= 65536 -> Rabs (B2R c - exp (- / N)) <= 2.5 * bpow radix2 (-24) ->
  let y := Nat.iter n (fmul c) v in
  unit_sample y /\
  (B2R c0001 < B2R v * exp (- (INR n * (/ N + bpow radix2 (-22)))) -> B2R v * exp (- (INR n * (/ N + bpow radix2 (-22)))) <= B2R y) /\
  (B2R c0001 < B2R y -> B2R v * exp (- (INR n * (/ N + bpow radix2 (-22)))) <= B2R y <= B2R v * exp (- (INR n * (/ N - bpow radix2 (-22))))).
Proof.
  intros Hc Hv B He y. subst y.
  assert (IN : 0 < / N) by (apply Rinv_0_lt_compat; lra).
  assert (B22 : 0 < bpow radix2 (-22)) by apply bpow_gt_0. pose proof c0001_bnd as Bt.
  induction n as [|n (IU & IL & IH)].
  - change (Nat.iter 0 (fmul c) v) with v. cbn [INR]. rewrite !Rmult_0_l, Ropp_0, exp_0. split; [exact Hv|]. split; intros; lra.
  - change (Nat.iter (S n) (fmul c) v) with (fmul c (Nat.iter n (fmul c) v)). set (u := Nat.iter n (fmul c) v) in *.
    destruct (rel_unit c u Hc IU) as [U M]. split; [exact U|]. rewrite S_INR.
    replace (- ((INR n + 1) * (/ N + bpow radix2 (-22)))) with (- (INR n * (/ N + bpow radix2 (-22))) + - (/ N + bpow radix2 (-22))) by ring.
    replace (- ((INR n + 1) * (/ N - bpow radix2 (-22)))) with (- (INR n * (/ N - bpow radix2 (-22))) + - (/ N - bpow radix2 (-22))) by ring.
    rewrite !exp_plus. split; intros H.
    + set (p := exp (- (INR n * (/ N + bpow radix2 (-22))))) in *. assert (P : 0 < p) by apply exp_pos.
      pose proof (exp_pos (- (/ N + bpow radix2 (-22)))) as Q0.
      assert (Q : exp (- (/ N + bpow radix2 (-22))) <= 1) by (rewrite <- exp_0; apply exp_le_mono; lra).
      assert (Vp : 0 <= B2R v * p) by (apply Rmult_le_pos; [apply Hv|lra]).
      assert (L : B2R v * p <= B2R u) by (apply IL; nra).
      assert (G : / 16384 <= B2R u) by nra.
      destruct (rel_step_acc c u N Hc IU B He G) as [S _]. nra.
    + assert (G : / 16384 <= B2R u) by lra.
      destruct (rel_step_acc c u N Hc IU B He G) as [S1 S2]. destruct (IH ltac:(lra)) as [L1 L2].
      pose proof (exp_pos (- (/ N - bpow radix2 (-22)))) as Q0. pose proof (exp_pos (- (/ N + bpow radix2 (-22)))) as Q1.
      split; [eapply Rle_trans; [|exact S1]|eapply Rle_trans; [exact S2|]]; rewrite <- Rmult_assoc; apply Rmult_le_compat_r; lra.
Qed.

(** The stretched time constants: between n/N (1 -+ 1/64). *)
Lemma slack N n : 32 <= N <= 65536 ->
  INR n * (/ N + bpow radix2 (-22)) <= INR n / N * (65 / 64) /\ INR n / N * (63 / 64) <= INR n * (/ N - bpow radix2 (-22)).
Proof.
  intros B. assert (bpow radix2 (-22) <= / N * / 64).
  { apply Rle_trans with (/ 65536 * / 64); [bp; lra|]. apply Rmult_le_compat_r; [lra|]. apply Rinv_le_contravar; lra. }
  pose proof (pos_INR n). unfold Rdiv. split; nra.
Qed.
