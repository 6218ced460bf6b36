(** RLPF: parameters, NaN, and the settling bound in terms of the cutoff. *)
From Coq Require Import ZArith Reals Lra Lia Bool Psatz List.
From Flocq Require Import Core BinarySingleNaN.
From Verif Require Import Flt FltFacts FltMore FltKey FltArith FltClose Libm RealBounds UtilModel UtilProofs OscProofs2 Dbl LpModel LpSpec LpReal LpReal2 LpProofs.
Import ListNotations.
Local Open Scope R_scope.

Lemma sin_q t : 0 <= t <= PI / 2 -> 47 / 100 * t <= sin t.
Proof.
  intros H. pose proof PI_bounds. destruct (Req_dec t 0) as [->|N]; [rewrite sin_0; lra|]. replace t with (2 * (t / 2)) at 2 by field. rewrite sin_2a. set (h := t / 2). assert (Hh : 0 < h <= 7855 / 10000) by (unfold h; lra).
  destruct (MVT_cor2 sin cos 0 h) as (c & E & Hc); [lra|intros; apply derivable_pt_lim_sin|]. rewrite sin_0, !Rminus_0_r in E.
  pose proof (cos_lower c) as C1. pose proof (cos_lower h) as C2. assert (D1 : 691 / 1000 <= cos c) by nra. assert (D2 : 691 / 1000 <= cos h) by nra.
  rewrite E. replace t with (2 * h) by (unfold h; field). assert (691 / 1000 * (691 / 1000) <= cos c * cos h) by (apply Rmult_le_compat; lra). nra.
Qed.
Lemma sin_inv L s : sincos_acc L -> lp_params s -> let r := B2R (lp_sr s) / B2R (lp_freq s) in bpow radix2 (-33) / (sin (wof s) * sin (wof s)) <= bpow radix2 (-22) + bpow radix2 (-36) * (r * r).
Proof.
  intros HL Hp r. destruct Hp as (Hr & Ff & Hf & Fq & Hq). destruct (omega_b _ _ Hr Ff Hf) as (_ & B & B2). fold (wof s) in B, B2. set (w := wof s) in *. pose proof PI_bounds as Pb.
  assert (Sp : 0 < sin w) by (pose proof (sin_low w B); lra). set (S2 := sin w * sin w). assert (P2 : 0 < S2) by (unfold S2; apply Rmult_lt_0_compat; lra).
  change (bpow radix2 (-33)) with (/ 8589934592). change (bpow radix2 (-22)) with (/ 4194304). change (bpow radix2 (-36)) with (/ 68719476736).
  assert (R0 : 0 <= r * r) by (apply Rle_0_sqr). destruct Hr as [_ Hr].
  destruct (Rle_lt_dec w (PI / 2)) as [W|W].
  - pose proof (sin_q w ltac:(lra)) as Q. set (q := B2R (lp_freq s) / B2R (lp_sr s)) in *. assert (q0 : 0 < q) by (unfold q; apply Rmult_lt_0_compat; [lra|apply Rinv_0_lt_compat; lra]).
    assert (qr : q * r = 1) by (unfold q, r; field; lra).
    assert (Q2 : 2914 / 1000 * q <= sin w) by lra. assert (Q3 : 8 * (q * q) <= S2) by (unfold S2; nra).
    assert (/ S2 <= / 8 * (r * r)). { replace (/ 8 * (r * r)) with (/ (8 * (q * q))) by (replace r with (/ q) by (apply Rmult_eq_reg_l with q; [rewrite Rinv_r by lra; lra|lra]); field; lra). apply Rinv_le_contravar; [nra|exact Q3]. }
    unfold Rdiv. lra.
  - assert (Q : 293 / 10000 <= sin w).
    { rewrite <- sin_PI_x. set (y := PI - w). assert (Hy : 295 / 10000 <= y <= PI / 2) by (unfold y; lra). destruct (Rle_lt_dec y (/ 10)) as [Y|Y]; [|pose proof (sin_q y ltac:(lra)); lra].
      destruct (MVT_cor2 sin cos 0 y) as (c & E & Hc); [lra|intros; apply derivable_pt_lim_sin|]. rewrite sin_0, !Rminus_0_r in E. rewrite E. pose proof (cos_lower c). assert (995 / 1000 <= cos c) by nra. nra. }
    assert (/ S2 <= 1200). { replace 1200 with (/ / 1200) by field. apply Rinv_le_contravar; [lra|]. unfold S2. nra. }
    unfold Rdiv. lra.
Qed.
Lemma settles_f L s v : sincos_acc L -> lp_params s -> lp_current L s -> lp_fin s -> Rabs (fst (st s)) <= bpow radix2 80 -> Rabs (snd (st s)) <= bpow radix2 80 -> fin v -> Rabs (B2R v) <= bpow radix2 120 ->
  exists k, forall n, (k <= n)%nat -> fin (snd (lp_tick (lp_hold s v n) v)) /\
    let r := B2R (lp_sr s) / B2R (lp_freq s) in Rabs (B2R (snd (lp_tick (lp_hold s v n) v)) - B2R v) <= (bpow radix2 (-21) + bpow radix2 (-36) * (r * r)) * Rabs (B2R v) + bpow radix2 (-149).
Proof.
  intros HL Hp Hc Hf H1 H2 Fv Hv. destruct (settles L HL s v Hp Hc Hf H1 H2 Fv Hv) as [k Hk]. exists k. intros n Hn. destruct (Hk n Hn) as [F E]. split; [exact F|]. intros r.
  eapply Rle_trans; [exact E|]. apply Rplus_le_compat_r. apply Rmult_le_compat_r; [apply Rabs_pos|]. pose proof (sin_inv L s HL Hp) as I. cbn zeta in I. fold r in I.
  revert I. change (bpow radix2 (-22)) with (/ 4194304). change (bpow radix2 (-23)) with (/ 8388608). change (bpow radix2 (-21)) with (/ 2097152). intros I. lra.
Qed.

(** Clamped parameters. *)
Lemma top_R sr : lp_rate sr -> let t := fmul (fmul sr half) (fdec 99 100) in fin t /\ 1 <= B2R t <= 4951 / 10000 * B2R sr.
Proof.
  intros [Fs Hs] t. destruct (fmul_b (bpow radix2 1) (bpow radix2 17) sr half) as (F1 & R1 & B1); [apply dy_bpow; cbn; lia|apply dy_bpow; cbn; lia|exact Fs|reflexivity|rewrite half_R; change (bpow radix2 1) with 2; change (bpow radix2 17) with 131072; lra|].
  fval (fdec 99 100 : f32). assert (V' : 99 / 100 <= B2R (fdec 99 100 : f32) <= 990001 / 1000000) by (rewrite V; lra). set (c := B2R (fdec 99 100 : f32)) in *. clear V.
  revert B1. change (bpow radix2 1) with 2. change (bpow radix2 17) with 131072. intros B1.
  destruct (fmul_b (bpow radix2 0) (bpow radix2 17) (fmul sr half) (fdec 99 100)) as (F2 & R2 & B2); [apply dy_bpow; cbn; lia|apply dy_bpow; cbn; lia|exact F1|reflexivity|fold c; change (bpow radix2 0) with 1; change (bpow radix2 17) with 131072; nra|].
  revert B2. change (bpow radix2 0) with 1. change (bpow radix2 17) with 131072. intros B2. split; [exact F2|]. split; [apply B2|].
  fold c in R2. unfold t. rewrite R2, R1. pose proof (rrel32 (B2R sr * B2R (half : f32))) as E1. rewrite <- R1 in E1. rewrite <- R1. set (a := B2R (fmul sr half)) in *. rewrite half_R in E1.
  pose proof (rrel32 (a * c)) as E2. change (bpow radix2 (-24)) with (/ 16777216) in E1, E2. assert (T : bpow radix2 (-150) <= / 1048576) by (change (/ 1048576) with (bpow radix2 (-20)); apply bpow_le; lia).
  rewrite (Rabs_pos_eq (B2R sr * / 2)) in E1 by lra. assert (0 <= a * c) by nra. rewrite (Rabs_pos_eq (a * c)) in E2 by assumption. apply Rabs_le_inv in E1. apply Rabs_le_inv in E2. 
  assert (a * c <= a * (990001 / 1000000)) by (apply Rmult_le_compat_l; lra). lra.
Qed.
Lemma freq_ok L s f : lp_rate (lp_sr s) -> is_nan f = false -> let t := lp_setFreq L s f in fin (lp_freq t) /\ 1 <= B2R (lp_freq t) <= 4951 / 10000 * B2R (lp_sr s).
Proof.
  intros Hr N t. destruct (top_R _ Hr) as [Ft Bt]. destruct (clamp_fin f one _ N eq_refl Ft) as [F B]; [rewrite one_R; lra|]. rewrite one_R in B. split; [exact F|]. cbn [lp_freq t lp_setFreq]. unfold t. cbn [lp_freq lp_setFreq]. change (if flt f one then one else if flt (fmul (fmul (lp_sr s) half) (fdec 99 100)) f then fmul (fmul (lp_sr s) half) (fdec 99 100) else f) with (clamp f one (fmul (fmul (lp_sr s) half) (fdec 99 100))). lra.
Qed.
Lemma res_ok L s r : is_nan r = false -> let t := lp_setResonance L s r in fin (lp_res t) /\ / 10 <= B2R (lp_res t) <= 30.
Proof.
  intros N t. fval (fdec 1 10 : f32). fval (fofZ 30 : f32). destruct (clamp_fin r (fdec 1 10) (fofZ 30) N eq_refl eq_refl) as [F B]; [rewrite V, V0; lra|]. rewrite V, V0 in B.
  split; [exact F|]. unfold t. cbn [lp_res lp_setResonance]. change (if flt r (fdec 1 10) then fdec 1 10 else if flt (fofZ 30) r then fofZ 30 else r) with (clamp r (fdec 1 10) (fofZ 30)). lra.
Qed.
(** Calls whose parameters are numbers. *)
Definition lp_op_ok (o : lp_op) : Prop := match o with LpFreq f => is_nan f = false | LpRes r => is_nan r = false | _ => True end.
Lemma call_keeps L s o : lp_params s -> lp_current L s -> lp_op_ok o -> let t := fst (lp_call L s o) in lp_params t /\ lp_current L t /\ lp_sr t = lp_sr s.
Proof.
  intros Hp Hc Ho t. destruct Hp as (Hr & Ff & Hf & Fq & Hq). destruct o as [f|r|x|]; cbn [lp_op_ok] in Ho.
  - destruct (freq_ok L s f Hr Ho) as [A B]. split; [|split; reflexivity]. split; [exact Hr|]. split; [exact A|]. split; [exact B|]. split; assumption.
  - destruct (res_ok L s r Ho) as [A B]. split; [|split; reflexivity]. split; [exact Hr|]. split; [exact Ff|]. split; [exact Hf|]. split; assumption.
  - split; [|split; [exact Hc|reflexivity]]. repeat split; assumption || apply Hr || apply Hf || apply Hq.
  - split; [|split; [exact Hc|reflexivity]]. repeat split; assumption || apply Hr || apply Hf || apply Hq.
Qed.
Lemma run_keeps L os : forall s, lp_params s -> lp_current L s -> Forall lp_op_ok os -> lp_params (lp_run L s os) /\ lp_current L (lp_run L s os) /\ lp_sr (lp_run L s os) = lp_sr s.
Proof.
  induction os as [|o os IH]; intros s Hp Hc Ho; [auto|]. inversion Ho; subst. destruct (call_keeps L s o Hp Hc H1) as (A & B & C). unfold lp_run in *. cbn [fold_left]. destruct (IH _ A B H2) as (D & E & G). rewrite C in G. auto.
Qed.
Lemma init_ok L sr : lp_rate sr -> 889 <= B2R sr -> lp_params (lp_init L sr) /\ lp_current L (lp_init L sr) /\ lp_clear (lp_init L sr).
Proof.
  intros Hr H. split; [|split; [reflexivity|split; reflexivity]]. unfold lp_params, lp_init. cbn [lp_sr lp_freq lp_res]. fval (fofZ 440 : f32). fval (fdec 707 1000 : f32). rewrite V, V0.
  split; [exact Hr|]. split; [reflexivity|]. split; [lra|]. split; [reflexivity|lra].
Qed.
(** Any call of setFreq repairs a rate below 889 Hz. *)
Lemma init_freq_ok L sr f : lp_rate sr -> is_nan f = false -> lp_params (lp_setFreq L (lp_init L sr) f) /\ lp_current L (lp_setFreq L (lp_init L sr) f).
Proof.
  intros Hr N. split; [|reflexivity]. destruct (freq_ok L (lp_init L sr) f Hr N) as [A B]. split; [exact Hr|]. split; [exact A|]. split; [exact B|]. unfold lp_setFreq, lp_init. cbn [lp_res]. fval (fdec 707 1000 : f32). rewrite V. split; [reflexivity|lra].
Qed.
Lemma clear_fin s : lp_clear s -> lp_fin s /\ Rabs (fst (st s)) <= 0 /\ Rabs (snd (st s)) <= 0.
Proof. intros [H1 H2]. unfold lp_fin, st. rewrite H1, H2. cbn [fst snd]. replace (B2R (fzero : f64)) with 0 by reflexivity. rewrite Rabs_R0. repeat split; try reflexivity; lra. Qed.

(** NaN. *)
Lemma dadd_l (x y : f64) : is_nan x = true -> is_nan (fadd x y) = true. Proof. destruct x; try discriminate. reflexivity. Qed.
Lemma dadd_r (x y : f64) : is_nan y = true -> is_nan (fadd x y) = true. Proof. destruct y; try discriminate. destruct x; reflexivity. Qed.
Lemma dmul_l (x y : f64) : is_nan x = true -> is_nan (fmul x y) = true. Proof. destruct x; try discriminate. reflexivity. Qed.
Lemma dmul_r (x y : f64) : is_nan y = true -> is_nan (fmul x y) = true. Proof. destruct y; try discriminate. destruct x; reflexivity. Qed.
Lemma dsub_l (x y : f64) : is_nan x = true -> is_nan (fsub x y) = true. Proof. destruct x; try discriminate. reflexivity. Qed.
Lemma dsub_r (x y : f64) : is_nan y = true -> is_nan (fsub x y) = true. Proof. destruct y; try discriminate. destruct x; reflexivity. Qed.
Lemma ddiv_l (x y : f64) : is_nan x = true -> is_nan (fdiv x y) = true. Proof. destruct x; try discriminate. reflexivity. Qed.
Lemma d2f_nan (x : f64) : is_nan x = true -> is_nan (d2f x) = true. Proof. destruct x; try discriminate. reflexivity. Qed.
Lemma tick_nan s x : is_nan (lp_out s x) = true -> is_nan (snd (lp_tick s x)) = true /\ is_nan (lp_z1 (fst (lp_tick s x))) = true.
Proof.
  intros H. split; [apply d2f_nan; exact H|]. change (lp_z1 (fst (lp_tick s x))) with (fadd (fsub (fmul (lp_b1 (lp_c s)) (f2d x)) (fmul (lp_a1 (lp_c s)) (lp_out s x))) (lp_z2 s)). apply dadd_l, dsub_r, dmul_r, H.
Qed.
Lemma nan_stays L os : forall s, is_nan (lp_z1 s) = true -> ~ In LpReset os -> is_nan (lp_z1 (lp_run L s os)) = true.
Proof.
  induction os as [|o os IH]; intros s H N; [exact H|]. unfold lp_run in *. cbn [fold_left]. apply IH; [|intros G; apply N; now right].
  destruct o as [f|r|x|]; [exact H|exact H| |exfalso; apply N; now left]. apply tick_nan. apply dadd_r. exact H.
Qed.

(** Below 880 Hz the 440 Hz of [init] lie above the Nyquist frequency: the product of the poles exceeds one. *)
Lemma low_rate_unstable L sr : sincos_acc L -> fin sr -> 445 <= B2R sr <= 879 -> fin (lp_a2 (lp_c (lp_init L sr))) /\ 1001 / 1000 < B2R (lp_a2 (lp_c (lp_init L sr))).
Proof.
  intros HL Fs Hs. set (f := fofZ 440 : f32). assert (Vf : B2R f = 440) by (unfold f; fval (fofZ 440 : f32); lra). set (q := fdec 707 1000). assert (Vq : 7069 / 10000 <= B2R q <= 7071 / 10000) by (unfold q; fval (fdec 707 1000); lra).
  assert (Ff : fin f) by reflexivity. assert (Fq : fin q) by reflexivity.
  assert (U := du_num). pose proof PI_bounds as Pb.
  assert (Om : fin (lp_omega sr f) /\ 31450 / 10000 <= B2R (lp_omega sr f) <= 62130 / 10000).
  { pose proof (twice_d PIf eq_refl) as A1. rewrite PIf_R in A1. destruct (f2d_R f Ff) as [Fd Ed]. destruct (f2d_R sr Fs) as [Sd Es]. pose proof (ap_self _ Fd) as A2. rewrite Ed, Vf in A2. pose proof (ap_self _ Sd) as A3. rewrite Es in A3.
    assert (T : mid64 3000). { split; [apply Rle_trans with (bpow radix2 0); [apply bpow_le; lia|change (bpow radix2 0) with 1; lra]|]. apply Rle_trans with (bpow radix2 20); [change (bpow radix2 20) with 1048576; lra|apply bpow_le; lia]. }
    pose proof (ap_mul 0 0 (63 / 10) 440 3000 _ _ _ _ A1 A2 ltac:(rewrite Rabs_pos_eq; lra) ltac:(rewrite Rabs_pos_eq; lra) T ltac:(lra)) as A4.
    pose proof (ap_div _ 0 7 445 8 _ _ _ _ A4 A3) as A5. fold (lp_omega sr f) in A5. set (S := B2R sr) in *.
    assert (Q : 440 / 879 <= 440 / S <= 440 / 445). { split; apply Rmult_le_compat_l; try lra; apply Rinv_le_contravar; lra. }
    replace (2 * (13176795 / 4194304) * 440 / S) with (2 * (13176795 / 4194304) * (440 / S)) in A5 by (unfold Rdiv; ring).
    specialize (A5 ltac:(rewrite Rabs_pos_eq; lra) ltac:(rewrite Rabs_pos_eq; lra) ltac:(lra) ltac:(apply mid_num; lra) ltac:(rewrite U; lra)).
    destruct A5 as [Fo Eo]. split; [exact Fo|]. rewrite U in Eo. apply Rabs_le_inv in Eo. lra. }
  destruct Om as [Fo Ho]. set (w := B2R (lp_omega sr f)) in *. destruct (HL _ Fo ltac:(fold w; lra)) as [[F1 E1] _]. fold w in E1.
  assert (S1 : sin w <= - 15 / 10000).
  { replace (sin w) with (- sin (w - PI)) by (rewrite <- (neg_sin (w - PI)); f_equal; ring). set (y := w - PI). assert (Hy : 34 / 10000 <= y <= PI - 7 / 100) by (unfold y; lra).
    assert (15 / 10000 <= sin y); [|lra]. destruct (Rle_lt_dec y (PI / 2)); [pose proof (sin_q y ltac:(lra)); lra|]. rewrite <- sin_PI_x. pose proof (sin_q (PI - y) ltac:(lra)). lra. }
  pose proof (SIN_bound w) as Sb. assert (AS : ap (bpow radix2 (-53)) (d_sin L (lp_omega sr f)) (sin w)) by (split; [exact F1|exact E1]). change (bpow radix2 (-53)) with (/ 9007199254740992) in AS.
  pose proof (twice_d q Fq) as AQ. set (Q := B2R q) in *. set (al := sin w / (2 * Q)).
  assert (Hal : - 8 / 10 <= al <= - 1 / 1000).
  { assert (EQ : al * (2 * Q) = sin w) by (unfold al; field; lra). split.
    - apply Rmult_le_reg_r with (2 * Q); [lra|]. rewrite EQ. lra.
    - apply Rmult_le_reg_r with (2 * Q); [lra|]. rewrite EQ. lra. }
  pose proof (ap_div _ 0 1 1 2 _ _ _ _ AS AQ) as AL. fold al in AL. specialize (AL ltac:(apply Rabs_le; lra) ltac:(rewrite Rabs_pos_eq; lra) ltac:(lra) ltac:(apply mid_num; lra) ltac:(lra)).
  set (alpha := fdiv (d_sin L (lp_omega sr f)) (fmul d2 (f2d q))) in *.
  assert (AL' : ap (/ 1000000000000) alpha al) by (apply ap_weak with (1 := AL); rewrite U; lra).
  pose proof (ap_add _ _ 2 _ _ _ _ one_d AL' ltac:(apply mid_num; lra)) as A0. specialize (A0 ltac:(rewrite Rabs_pos_eq; lra)).
  pose proof (ap_sub _ _ 2 _ _ _ _ one_d AL' ltac:(apply mid_num; lra)) as A2. specialize (A2 ltac:(rewrite Rabs_pos_eq; lra)).
  assert (D : (1 - al) / (1 + al) = 1 + 2 * - al / (1 + al)) by (field; lra). assert (DL : 2 * - al <= 2 * - al / (1 + al)).
  { apply Rmult_le_reg_r with (1 + al); [lra|]. unfold Rdiv. rewrite (Rmult_assoc (2 * - al) (/ (1 + al))), Rinv_l by lra. nra. }
  assert (DU : (1 - al) / (1 + al) <= 10). { apply Rmult_le_reg_r with (1 + al); [lra|]. unfold Rdiv. rewrite Rmult_assoc, Rinv_l by lra. lra. }
  pose proof (ap_div _ _ 10 (1 / 10) 11 _ _ _ _ A2 A0) as A9. specialize (A9 ltac:(rewrite Rabs_pos_eq; lra) ltac:(rewrite Rabs_pos_eq by lra; rewrite U; lra) ltac:(lra) ltac:(apply mid_num; lra) ltac:(rewrite U; lra)).
  change (lp_a2 (lp_c (lp_init L sr))) with (fdiv (fsub d1 alpha) (fadd d1 alpha)). destruct A9 as [F9 E9]. split; [exact F9|]. rewrite U in E9. apply Rabs_le_inv in E9. lra.
Qed.

(** Settings that survive their own clamps. *)
Definition lp_fixed (s : rlpf) : Prop := clamp (lp_freq s) one (fmul (fmul (lp_sr s) half) (fdec 99 100)) = lp_freq s /\ clamp (lp_res s) (fdec 1 10) (fofZ 30) = lp_res s.
Lemma clamp_twice v lo hi : is_nan v = false -> fin lo -> fin hi -> B2R lo <= B2R hi -> clamp (clamp v lo hi) lo hi = clamp v lo hi.
Proof.
  intros N Fl Fh H. destruct (clamp_fin v lo hi N Fl Fh H) as [F B]. set (c := clamp v lo hi) in *. unfold clamp.
  rewrite (proj2 (flt_R_false c lo F Fl)) by lra. now rewrite (proj2 (flt_R_false hi c Fh F)) by lra.
Qed.
Lemma call_fixed L s o : lp_params s -> lp_fixed s -> lp_op_ok o -> lp_fixed (fst (lp_call L s o)).
Proof.
  intros (Hr & _) [A B] Ho. destruct o as [f|r|x|]; cbn [lp_op_ok] in Ho; [|  |split; assumption|split; assumption].
  - split; [|exact B]. destruct (top_R _ Hr) as [Ft Bt]. refine (clamp_twice f one _ Ho eq_refl Ft _). rewrite one_R. lra.
  - split; [exact A|]. fval (fdec 1 10 : f32). fval (fofZ 30 : f32). refine (clamp_twice r (fdec 1 10) (fofZ 30) Ho eq_refl eq_refl _). rewrite V, V0. lra.
Qed.
Lemma run_fixed L os : forall s, lp_params s -> lp_current L s -> lp_fixed s -> Forall lp_op_ok os -> lp_fixed (lp_run L s os).
Proof.
  induction os as [|o os IH]; intros s Hp Hc Hf Ho; [exact Hf|]. inversion Ho; subst. destruct (call_keeps L s o Hp Hc H1) as (A & B & _). unfold lp_run in *. cbn [fold_left]. apply IH; [exact A|exact B|now apply call_fixed|exact H2].
Qed.
Lemma top_low sr : lp_rate sr -> 889 <= B2R sr -> 440 <= B2R (fmul (fmul sr half) (fdec 99 100)).
Proof.
  intros [Fs Hs] H8. destruct (fmul_b (bpow radix2 1) (bpow radix2 17) sr half) as (F1 & R1 & B1); [apply dy_bpow; cbn; lia|apply dy_bpow; cbn; lia|exact Fs|reflexivity|rewrite half_R; change (bpow radix2 1) with 2; change (bpow radix2 17) with 131072; lra|].
  fval (fdec 99 100 : f32). assert (V' : 99 / 100 <= B2R (fdec 99 100 : f32) <= 990001 / 1000000) by (rewrite V; lra). set (c := B2R (fdec 99 100 : f32)) in *. clear V.
  revert B1. change (bpow radix2 1) with 2. change (bpow radix2 17) with 131072. intros B1.
  destruct (fmul_b (bpow radix2 0) (bpow radix2 17) (fmul sr half) (fdec 99 100)) as (F2 & R2 & B2); [apply dy_bpow; cbn; lia|apply dy_bpow; cbn; lia|exact F1|reflexivity|fold c; change (bpow radix2 0) with 1; change (bpow radix2 17) with 131072; nra|].
  fold c in R2. rewrite R2, R1. pose proof (rrel32 (B2R sr * B2R (half : f32))) as E1. rewrite <- R1 in E1. rewrite <- R1. set (a := B2R (fmul sr half)) in *. rewrite half_R in E1.
  pose proof (rrel32 (a * c)) as E2. change (bpow radix2 (-24)) with (/ 16777216) in E1, E2. assert (T : bpow radix2 (-150) <= / 1048576) by (change (/ 1048576) with (bpow radix2 (-20)); apply bpow_le; lia).
  rewrite (Rabs_pos_eq (B2R sr * / 2)) in E1 by lra. assert (0 <= a * c) by nra. rewrite (Rabs_pos_eq (a * c)) in E2 by assumption. apply Rabs_le_inv in E1. apply Rabs_le_inv in E2.
  assert (a * (99 / 100) <= a * c) by (apply Rmult_le_compat_l; lra). lra.
Qed.
Lemma init_fixed L sr : lp_rate sr -> 889 <= B2R sr -> lp_fixed (lp_init L sr).
Proof.
  intros Hr H8. split; [|reflexivity]. unfold lp_init. cbn [lp_freq lp_sr]. pose proof (top_low sr Hr H8) as T. destruct (top_R sr Hr) as [Ft _]. unfold clamp.
  fval (fofZ 440 : f32). rewrite (proj2 (flt_R_false (fofZ 440) one eq_refl eq_refl)) by (rewrite V, one_R; lra). now rewrite (proj2 (flt_R_false _ (fofZ 440) Ft eq_refl)) by (rewrite V; lra).
Qed.
(** After [reset] nothing but the two settings remains. *)
Lemma reset_fresh L sr os : lp_rate sr -> 889 <= B2R sr -> Forall lp_op_ok os ->
  let s := lp_run L (lp_init L sr) os in lp_reset s = lp_setResonance L (lp_setFreq L (lp_init L sr) (lp_freq s)) (lp_res s).
Proof.
  intros Hr H8 Ho s. destruct (init_ok L sr Hr H8) as (A & B & _). pose proof (init_fixed L sr Hr H8) as I. destruct (run_keeps L os _ A B Ho) as (P & C & E). destruct (run_fixed L os _ A B I Ho) as [D1 D2]. fold s in P, C, E, D1, D2.
  change (lp_sr (lp_init L sr)) with sr in E. unfold lp_current in C. unfold clamp in D1, D2. rewrite E in D1, C.
  unfold lp_reset, lp_setResonance, lp_setFreq, lp_init. cbn [lp_sr lp_freq lp_res lp_z1 lp_z2 lp_c]. rewrite D1, D2, C, E. reflexivity.
Qed.
