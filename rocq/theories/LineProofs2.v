(** XLine: the values follow the exponential curve. *)
From Coq Require Import ZArith Reals Bool List Lra Lia Psatz.
From Flocq Require Import Core BinarySingleNaN.
From Verif Require Import Flt FltFacts FltMore FltKey FltArith Libm UtilModel UtilProofs PanSpec PanProofs OscSpec OscProofs2 ExpBounds SmoothProofs3 LineModel LineSpec LineProofs.
Import ListNotations.
Local Open Scope R_scope.

Lemma ln_mono x y : 0 < x -> x <= y -> ln x <= ln y.
Proof. intros P [H| ->]; [left; now apply ln_increasing|right; reflexivity]. Qed.
(** A relative error as a factor exp(d). *)
Lemma rel_exp e x y : x <> 0 -> 0 <= e <= bpow radix2 (-20) -> Rabs (y - x) <= e * Rabs x ->
  exists d, Rabs d <= e * (1 + bpow radix2 (-19)) /\ y = x * exp d.
Proof.
  intros X E H. set (z := (y - x) / x).
  assert (Ez : y = x * (1 + z)) by (unfold z; field; exact X).
  assert (Bz : Rabs z <= e).
  { unfold z, Rdiv. rewrite Rabs_mult, Rabs_inv. apply Rmult_le_reg_r with (Rabs x); [now apply Rabs_pos_lt|].
    rewrite Rmult_assoc, Rinv_l, Rmult_1_r; [exact H|now apply Rabs_no_R0]. }
  clearbody z. exists (ln (1 + z)). revert E. bp. intros E. apply Rabs_le_inv in Bz.
  assert (P : 0 < 1 + z) by lra. split; [|rewrite exp_ln by exact P; exact Ez].
  assert (U : ln (1 + z) <= z).
  { rewrite <- (ln_exp z) at 2. apply ln_mono; [exact P|apply exp_ineq1_le]. }
  assert (L : z / (1 + z) <= ln (1 + z)).
  { rewrite <- (Ropp_involutive (ln (1 + z))). rewrite <- ln_Rinv by exact P.
    replace (z / (1 + z)) with (- (- z / (1 + z))) by (field; lra). apply Ropp_le_contravar.
    rewrite <- (ln_exp (- z / (1 + z))). apply ln_mono; [now apply Rinv_0_lt_compat|].
    replace (/ (1 + z)) with (1 + - z / (1 + z)) by (field; lra). apply exp_ineq1_le. }
  assert (L2 : - (e * (1 + / 524288)) <= z / (1 + z)).
  { apply Rmult_le_reg_r with (1 + z); [exact P|]. unfold Rdiv. rewrite Rmult_assoc, Rinv_l, Rmult_1_r by lra. nra. }
  apply Rabs_le. split; [lra|]. nra.
Qed.
Lemma rnd_exp x : bpow radix2 (-100) <= Rabs x -> exists d, Rabs d <= bpow radix2 (-24) * (1 + bpow radix2 (-18)) /\ rnd32 x = x * exp d.
Proof.
  intros H. assert (X : x <> 0) by (intros ->; rewrite Rabs_R0 in H; pose proof (bpow_gt_0 radix2 (-100)); lra).
  destruct (rel_exp (bpow radix2 (-24) * (1 + bpow radix2 (-20))) x (rnd32 x) X) as (d & D & E).
  - bp. lra.
  - eapply Rle_trans; [apply rrel32|]. assert (T : bpow radix2 (-150) <= bpow radix2 (-44) * Rabs x).
    { apply Rle_trans with (bpow radix2 (-44) * bpow radix2 (-100)); [rewrite <- bpow_plus; apply bpow_le; lia|]. apply Rmult_le_compat_l; [apply bpow_ge_0|exact H]. }
    revert T. generalize (bpow radix2 (-150)). bp. intros. lra.
  - exists d. split; [|exact E]. revert D. bp. lra.
Qed.

(** Size of a point of the curve. *)
Lemma curve_size s e t h : bpow radix2 (-48) <= Rabs s <= bpow radix2 48 -> bpow radix2 (-48) <= Rabs e <= bpow radix2 48 -> 0 < e / s ->
  0 <= t <= 1 -> Rabs h <= 1 -> bpow radix2 (-50) <= Rabs (s * exp (t * ln (e / s) + h)) <= bpow radix2 50.
Proof.
  intros Hs He Hse T H. rewrite Rabs_mult, (Rabs_pos_eq (exp _)) by (left; apply exp_pos). rewrite exp_plus.
  assert (S : s <> 0) by (intros ->; unfold Rdiv in Hse; rewrite Rinv_0, Rmult_0_r in Hse; lra).
  assert (G : bpow radix2 (-48) <= Rabs s * exp (t * ln (e / s)) <= bpow radix2 48).
  { assert (Q : Rabs e = Rabs s * exp (ln (e / s))).
    { rewrite exp_ln by exact Hse. rewrite <- (Rabs_pos_eq (e / s)) by lra. rewrite <- Rabs_mult. f_equal. field. exact S. }
    assert (Sp : 0 < Rabs s) by now apply Rabs_pos_lt.
    rewrite Q in He. destruct (Rle_lt_dec 0 (ln (e / s))) as [K|K].
    - assert (A : 1 <= exp (t * ln (e / s))) by (rewrite <- exp_0; apply exp_le_mono; nra).
      assert (B : exp (t * ln (e / s)) <= exp (ln (e / s))) by (apply exp_le_mono; nra). nra.
    - assert (A : exp (t * ln (e / s)) <= 1) by (rewrite <- exp_0; apply exp_le_mono; nra).
      assert (B : exp (ln (e / s)) <= exp (t * ln (e / s))) by (apply exp_le_mono; nra). nra. }
  rewrite <- Rmult_assoc. set (g := Rabs s * exp (t * ln (e / s))) in *. clearbody g.
  assert (E2 : / 4 <= exp h <= 4).
  { apply Rabs_le_inv in H. pose proof exp_le_3 as E3. split.
    - apply Rle_trans with (exp (- (1))); [|apply exp_le_mono; lra]. rewrite exp_Ropp. apply Rinv_le_contravar; [apply exp_pos|lra].
    - apply Rle_trans with (exp 1); [apply exp_le_mono; lra|lra]. }
  revert G. bp. intros G. nra.
Qed.

(** The growth factor. *)
Lemma ln_small x : bpow radix2 (-96) <= x <= bpow radix2 96 -> Rabs (ln x) <= 77.
Proof.
  assert (L2 : ln 2 <= 0.8).
  { pose proof (exp_sq_lower 0.4 ltac:(lra)). rewrite <- (ln_exp 0.8). apply ln_mono; [lra|]. replace 0.8 with (0.4 + 0.4) by lra. rewrite exp_plus. nra. }
  intros [A B].
  assert (P : 0 < x) by (eapply Rlt_le_trans; [|exact A]; apply bpow_gt_0).
  assert (K : ln (bpow radix2 96) <= 77).
  { rewrite bpow_exp. rewrite ln_exp. change (IZR radix2) with 2. lra. }
  apply Rabs_le. split.
  - rewrite <- (Rinv_inv x). rewrite ln_Rinv by now apply Rinv_0_lt_compat. apply Ropp_le_contravar. eapply Rle_trans; [|exact K].
    apply ln_mono; [now apply Rinv_0_lt_compat|]. change 96%Z with (- -96)%Z. rewrite bpow_opp. apply Rinv_le_contravar; [apply bpow_gt_0|exact A].
  - eapply Rle_trans; [|exact K]. apply ln_mono; assumption.
Qed.
Lemma growth_acc L (s e n : f32) : exp_rel L -> log_rel L -> moderate_end s -> moderate_end e -> 0 < B2R e / B2R s -> fin n -> 1 <= B2R n <= bpow radix2 21 ->
  let g := xl_growthof L s e n in
  fin g /\ exists h, Rabs h <= bpow radix2 (-16) / B2R n + bpow radix2 (-23) * (1 + bpow radix2 (-18)) /\ B2R g = exp (ln (B2R e / B2R s) / B2R n + h).
Proof.
  intros HE HL [Fs Hs] [Fe He] P Fn Hn. set (r := B2R e / B2R s) in *.
  assert (S : B2R s <> 0) by (intros Q; rewrite Q, Rabs_R0 in Hs; pose proof (bpow_gt_0 radix2 (-48)); lra).
  assert (Br : bpow radix2 (-96) <= r <= bpow radix2 96).
  { rewrite <- (Rabs_pos_eq r) by lra. unfold r, Rdiv. rewrite Rabs_mult, Rabs_inv.
    assert (I : bpow radix2 (-48) <= / Rabs (B2R s) <= bpow radix2 48).
    { split; [change (-48)%Z with (- (48))%Z|change 48%Z with (- -48)%Z]; rewrite bpow_opp; (apply Rinv_le_contravar; [|apply Hs]); [now apply Rabs_pos_lt|apply bpow_gt_0]. }
    split.
    - change (-96)%Z with (-48 + -48)%Z. rewrite bpow_plus. apply Rmult_le_compat; try apply bpow_ge_0; [apply He|apply I].
    - change 96%Z with (48 + 48)%Z. rewrite bpow_plus. apply Rmult_le_compat; [apply Rabs_pos|left; apply Rinv_0_lt_compat; now apply Rabs_pos_lt|apply He|apply I]. }
  unfold xl_growthof.
  replace (flt zero n) with true by (symmetry; apply flt_R; [reflexivity|exact Fn|rewrite zero_R; lra]).
  assert (NZ : feq s zero = false) by (destruct (feq s zero) eqn:Q; [|reflexivity]; apply feq_R in Q; [contradiction|exact Fs|reflexivity]).
  rewrite NZ. cbn [negb andb].
  destruct (fdiv_b (bpow radix2 (-96)) (bpow radix2 96) e s) as (Fq & Eq & Bq); auto; try (apply dy_bpow; cbn; lia).
  fold r in Eq. set (q := fdiv e s) in *. clearbody q.
  destruct (rnd_exp r) as (d & Bd & Ed).
  { rewrite Rabs_pos_eq by lra. eapply Rle_trans; [|apply Br]. apply bpow_le; lia. }
  assert (LQ : ln (B2R q) = ln r + d) by (rewrite Eq, Ed, ln_mult by (try exact P; apply exp_pos); now rewrite ln_exp).
  pose proof (ln_small r Br) as LR. destruct (HL q Fq) as [Fl El]; [eapply Rlt_le_trans; [|apply Bq]; apply bpow_gt_0|].
  rewrite LQ in El. set (l := m_log L q) in *. clearbody l. set (lr := ln r) in *. clearbody lr.
  assert (T149 : 0 < bpow radix2 (-149) <= bpow radix2 (-60)) by (split; [apply bpow_gt_0|apply bpow_le; lia]).
  assert (Dl : Rabs (B2R l - lr) <= 78 * bpow radix2 (-23)).
  { replace (B2R l - lr) with ((B2R l - (lr + d)) + d) by ring. eapply Rle_trans; [apply Rabs_triang|].
    pose proof (Rabs_triang lr d) as TT. revert El Bd T149. generalize (bpow radix2 (-149)). bp. intros. lra. }
  assert (Bl : Rabs (B2R l) <= 77.5).
  { replace (B2R l) with ((B2R l - lr) + lr) by ring. eapply Rle_trans; [apply Rabs_triang|]. revert Dl. bp. lra. }
  set (N := B2R n) in *.
  assert (IN : 0 < / N <= 1) by (split; [apply Rinv_0_lt_compat; lra|rewrite <- Rinv_1; apply Rinv_le_contravar; lra]).
  assert (BN : Rabs (B2R l / N) <= 77.5).
  { unfold Rdiv. rewrite Rabs_mult, (Rabs_pos_eq (/ N)) by lra. pose proof (Rabs_pos (B2R l)). nra. }
  destruct (fdiv_b (-77.5) 77.5 l n) as (Fx & Ex & Bx); auto.
  { replace (-77.5) with (IZR (-155) * bpow radix2 (-1)) by (bp; lra). split; [apply dy_F2R; cbn; lia|]. bp. rewrite Rabs_left; lra. }
  { replace 77.5 with (IZR 155 * bpow radix2 (-1)) by (bp; lra). split; [apply dy_F2R; cbn; lia|]. bp. rewrite Rabs_pos_eq; lra. }
  { fold N. lra. }
  { fold N. apply Rabs_le_inv in BN. lra. }
  fold N in Ex. set (x := fdiv l n) in *. clearbody x.
  destruct (HE x Fx) as [Fg Eg]; [apply Rabs_le; lra|]. split; [exact Fg|].
  destruct (rel_exp (bpow radix2 (-23)) (exp (B2R x)) (B2R (m_exp L x))) as (k & Bk & Ek).
  { pose proof (exp_pos (B2R x)). lra. }
  { bp. lra. }
  { rewrite (Rabs_pos_eq (exp _)) by (left; apply exp_pos). exact Eg. }
  exists (B2R x - lr / N + k). split.
  - eapply Rle_trans; [apply Rabs_triang|].
    assert (X : Rabs (B2R x - lr / N) <= bpow radix2 (-16) * / N).
    { replace (B2R x - lr / N) with ((B2R x - B2R l / N) + (B2R l - lr) * / N) by (unfold Rdiv; ring).
      eapply Rle_trans; [apply Rabs_triang|]. rewrite (Rabs_mult (B2R l - lr)), (Rabs_pos_eq (/ N)) by lra.
      pose proof (rrel32 (B2R l / N)) as Q. rewrite <- Ex in Q. unfold Rdiv in Q at 2. rewrite Rabs_mult, (Rabs_pos_eq (/ N)) in Q by lra.
      assert (IN2 : bpow radix2 (-21) <= / N) by (change (-21)%Z with (- (21))%Z; rewrite bpow_opp; apply Rinv_le_contravar; lra).
      assert (T150 : bpow radix2 (-150) <= bpow radix2 (-60)) by (apply bpow_le; lia).
      revert Q IN2 T150 Dl. generalize (bpow radix2 (-150)). bp. intros. nra. }
    unfold Rdiv. revert X Bk. bp. lra.
  - rewrite Ek, <- exp_plus. f_equal. ring.
Qed.

(** The values until the line is done. *)
Lemma xl_curve_go L s e n : let N := B2R n in
  exp_rel L -> log_rel L -> moderate_end s -> moderate_end e -> 0 < B2R e / B2R s -> fin n -> 1 <= N <= bpow radix2 21 ->
  (forall x, xl_value x = s -> xl_start x = s -> xl_end x = e -> xl_growth x = xl_growthof L s e n -> xl_n x = n -> xl_done x = false -> xl_count x = zero ->
   forall i, INR i < N -> let y := after xl_tick i x in
   xl_done y = false /\ (fin (xl_count y) /\ B2R (xl_count y) = INR i) /\
   fin (xl_value y) /\ exists h, Rabs h <= INR i * (bpow radix2 (-16) / N + bpow radix2 (-22)) /\ B2R (xl_value y) = B2R s * exp (INR i / N * ln (B2R e / B2R s) + h)).
Proof.
  intros N HE HL Ms Me P Fn Hn.
  destruct (growth_acc L s e n HE HL Ms Me P Fn Hn) as [Fg (k & Bk & Eg)]. fold N in Bk, Eg.
  intros x Ev Es Ee Egr En Ed Ec. induction i as [|i IH]; intros Hi y.
  - unfold y. cbn [after]. split; [exact Ed|]. split; [rewrite Ec; split; reflexivity|]. rewrite Ev. split; [apply Ms|].
    exists 0. rewrite Rabs_R0. cbn [INR]. split; [lra|]. unfold Rdiv at 1. rewrite !Rmult_0_l, Rplus_0_l, exp_0. ring.
  - assert (Hi' : INR i < N) by (rewrite S_INR in Hi; lra). destruct (IH Hi') as (D & [Fc Ecn] & Fv & h & Bh & Eh). clear IH.
    destruct (xl_const i x) as (_ & Ce & _ & _ & Cg & Cn & _). set (z := after xl_tick i x) in *.
    assert (Ey : y = fst (xl_tick z)) by apply after_S. clearbody y z.
    assert (Ki : (Z.of_nat i < 2 ^ 24)%Z).
    { apply lt_IZR. rewrite <- INR_IZR_INZ. eapply Rlt_le_trans; [exact Hi'|]. eapply Rle_trans; [apply Hn|]. bp. lra. }
    destruct (count_step (xl_count z) (Z.of_nat i) Fc) as [Fa Ea]; [now rewrite <- INR_IZR_INZ|lia|].
    rewrite plus_IZR, <- INR_IZR_INZ, <- S_INR in Ea.
    unfold xl_tick in Ey. rewrite D, Cn, En in Ey.
    replace (fle n (fadd (xl_count z) one)) with false in Ey by (symmetry; apply fle_R_false; [exact Fn|exact Fa|rewrite Ea; exact Hi]).
    cbn [fst] in Ey. subst y. cbn [xl_done xl_count xl_value]. split; [reflexivity|]. split; [split; [exact Fa|exact Ea]|].
    rewrite Cg, Egr. set (g := xl_growthof L s e n) in *.
    assert (V : B2R (xl_value z) * B2R g = B2R s * exp (INR (S i) / N * ln (B2R e / B2R s) + (h + k))).
    { rewrite Eh, Eg, Rmult_assoc, <- exp_plus. f_equal. f_equal. rewrite S_INR. field. lra. }
    assert (IN : 0 < / N) by (apply Rinv_0_lt_compat; lra).
    assert (Pi : 0 <= INR i) by apply pos_INR.
    assert (B21 : INR (S i) < 2097152) by (revert Hn; bp; intros; lra).
    assert (Bhk : Rabs (h + k) <= INR i * (bpow radix2 (-16) / N + bpow radix2 (-22)) + (bpow radix2 (-16) / N + bpow radix2 (-23) * (1 + bpow radix2 (-18)))).
    { eapply Rle_trans; [apply Rabs_triang|lra]. }
    assert (iN : INR (S i) * / N <= 1) by (apply Rmult_le_reg_r with N; [lra|]; rewrite Rmult_assoc, Rinv_l; lra).
    destruct (curve_size (B2R s) (B2R e) (INR (S i) / N) (h + k)) as [C1 C2]; auto.
    { apply Ms. } { apply Me. } 
    { unfold Rdiv. split; [apply Rmult_le_pos; [apply pos_INR|lra]|exact iN]. }
    { eapply Rle_trans; [exact Bhk|]. unfold Rdiv. rewrite S_INR in iN, B21. bp. nra. }
    rewrite <- V in C1, C2.
    destruct (fmul_b (- bpow radix2 50) (bpow radix2 50) (xl_value z) g) as (Fm & Em & _); auto; try (apply dy_opp); try (apply dy_bpow; cbn; lia).
    { now apply Rabs_le_inv. }
    split; [exact Fm|]. destruct (rnd_exp (B2R (xl_value z) * B2R g)) as (dd & Bd & Edd).
    { eapply Rle_trans; [|exact C1]. apply bpow_le; lia. }
    exists (h + k + dd). split.
    + eapply Rle_trans; [apply Rabs_triang|]. rewrite S_INR. unfold Rdiv in *. revert Bhk Bd. generalize (bpow radix2 (-16) * / N). bp. intros; nra.
    + rewrite Em, Edd, V, Rmult_assoc, <- exp_plus. f_equal. f_equal. ring.
Qed.

Lemma one_zero_out (v : f32) : fin v -> B2R v <> 0 -> fadd (fmul v one) zero = v.
Proof.
  intros F H. rewrite fmul_one. destruct v as [b|b| |b m e B]; try discriminate F; [cbn in H; lra|].
  unfold fadd. rewrite erase_correct. reflexivity.
Qed.

Lemma xl_curve L x s e d i : exp_rel L -> log_rel L -> moderate_end s -> moderate_end e -> same_sign s e -> flt zero d = true ->
  let n := fmul d (xl_sr x) in let N := B2R n in
  fin n -> 1 <= N <= bpow radix2 21 -> INR i < N ->
  exists h, Rabs h <= bpow radix2 (-16) + INR i * bpow radix2 (-22) /\
  let y := nth_sample xl_tick i (xl_set L x s e d one zero) in
  fin y /\ B2R y = B2R s * Rpower (B2R e / B2R s) (INR i / N) * exp h.
Proof.
  intros HE HL Ms Me S D n N Fn Hn Hi. destruct (set_fields L x s e d one zero S D) as (A1 & A2 & A3 & A4 & A5 & A6 & A7 & A8 & A9). fold n in A6, A9.
  assert (P : 0 < B2R e / B2R s).
  { destruct Ms as [Fs _], Me as [Fe _]. assert (Fz : fin zero) by reflexivity.
    destruct S as [[S1 S2]|[S1 S2]]; (apply flt_R in S1; [|assumption..]); (apply flt_R in S2; [|assumption..]); rewrite zero_R in S1, S2.
    - now apply Rdiv_lt_0_compat.
    - replace (B2R e / B2R s) with (- B2R e / - B2R s) by (field; lra). apply Rdiv_lt_0_compat; lra. }
  destruct (xl_curve_go L s e n HE HL Ms Me P Fn Hn _ A1 A2 A3 A9 A6 A8 A7 i Hi) as (_ & _ & Fv & h & Bh & Eh).
  exists h. assert (iN : 0 <= INR i * / N <= 1).
  { assert (0 < / N) by (apply Rinv_0_lt_compat; lra). pose proof (pos_INR i). split; [apply Rmult_le_pos; lra|].
    apply Rmult_le_reg_r with N; [lra|]. rewrite Rmult_assoc, Rinv_l; lra. }
  assert (Bh' : Rabs h <= bpow radix2 (-16) + INR i * bpow radix2 (-22)).
  { eapply Rle_trans; [exact Bh|]. fold N. unfold Rdiv. pose proof (bpow_gt_0 radix2 (-16)). nra. }
  split; [exact Bh'|]. cbv zeta. unfold nth_sample. rewrite xl_out.
  destruct (xl_const i (xl_set L x s e d one zero)) as (_ & _ & C1 & C2 & _). rewrite C1, C2, A4, A5.
  assert (C : bpow radix2 (-50) <= Rabs (B2R (xl_value (after xl_tick i (xl_set L x s e d one zero))))).
  { rewrite Eh. apply curve_size; [apply Ms|apply Me|exact P|unfold Rdiv; exact iN|].
    eapply Rle_trans; [exact Bh'|]. assert (INR i <= 2097152) by (revert Hn; bp; lra). bp. lra. }
  rewrite one_zero_out; [|exact Fv|intros Q; rewrite Q, Rabs_R0 in C; pose proof (bpow_gt_0 radix2 (-50)); lra].
  split; [exact Fv|]. rewrite Eh, exp_plus. unfold Rpower. now rewrite Rmult_assoc.
Qed.
