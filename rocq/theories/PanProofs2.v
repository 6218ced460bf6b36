(** Proofs about [setLevel] of Balance2 and XFade2. *)
From Coq Require Import ZArith Reals Lra Lia Bool Psatz.
From Flocq Require Import Core BinarySingleNaN.
From Verif Require Import Flt FltFacts FltMore FltKey FltArith Libm UtilModel UtilProofs RealBounds PanModel PanSpec PanProofs.
Local Open Scope R_scope.

Lemma e10_R : 0.0000000000999 < B2R e10 < 0.0000000001001. Proof. fval e10. lra. Qed.
Lemma e12_R : 0.000000000000999 < B2R e12 < 0.000000000001001. Proof. fval e12. lra. Qed.
Lemma e10_fin : fin e10. Proof. ffin. Qed.
Lemma e12_fin : fin e12. Proof. ffin. Qed.
Lemma dyb k : (-149 <= k < 128)%Z -> dy32 (bpow radix2 k). Proof. intros. apply dy_bpow. cbn. lia. Qed.
Lemma dynb k : (-149 <= k < 128)%Z -> dy32 (- bpow radix2 k). Proof. intros. apply dy_opp. now apply dyb. Qed.
Lemma rrel x : Rabs (rnd32 x - x) <= bpow radix2 (-24) * Rabs x + bpow radix2 (-150).
Proof. apply (@rnd_rel 24 128 _ x). Qed.

(** Dividing an approximation of q*l by an approximation of l. *)
Lemma div_acc (y D q l k k' t : R) : 0 < l -> Rabs (y - q * l) <= l * (k * Rabs q + t) -> Rabs (D - l) <= k' * l ->
  0 <= k -> 0 <= t -> 0 <= k' <= / 1000 -> 0 < D /\ Rabs (y / D - q) <= 1.002 * ((k + k') * Rabs q + t).
Proof.
  intros L E H K T K'. apply Rabs_le_inv in H. assert (HD : 0.999 * l <= D) by nra. assert (PD : 0 < D) by lra. split; [exact PD|].
  replace (y / D - q) with ((y - q * D) / D) by (field; lra).
  unfold Rdiv. rewrite Rabs_mult, (Rabs_pos_eq (/ D)) by (left; now apply Rinv_0_lt_compat).
  apply Rmult_le_reg_r with D; [exact PD|]. rewrite Rmult_assoc, Rinv_l, Rmult_1_r by lra.
  replace (y - q * D) with ((y - q * l) - q * (D - l)) by ring.
  eapply Rle_trans; [apply Rabs_triang|]. rewrite Rabs_Ropp, (Rabs_mult q).
  assert (Rabs (D - l) <= k' * l) by (apply Rabs_le; lra). pose proof (Rabs_pos q) as Pq.
  assert (Rabs q * Rabs (D - l) <= Rabs q * (k' * l)) by (apply Rmult_le_compat_l; lra).
  apply Rle_trans with (l * ((k + k') * Rabs q + t)); [lra|].
  assert (0 <= (k + k') * Rabs q + t) by nra. set (w := (k + k') * Rabs q + t) in *.
  apply Rle_trans with (1.002 * 0.999 * (l * w)); [nra|]. nra.
Qed.

(** ** XFade2 *)
Lemma xf_den l : xf_level_ok l -> fin (fadd l e12) /\ Rabs (B2R (fadd l e12) - B2R l) <= bpow radix2 (-22) * B2R l.
Proof.
  intros [F B]. pose proof e12_R as E. pose proof e12_fin as Fe.
  destruct (fadd_b 0 (bpow radix2 61) l e12 dy0 (dyb 61 ltac:(lia)) F Fe) as (Fs & Es & _).
  { revert B. bp. intros. lra. }
  split; [exact Fs|]. rewrite Es. pose proof (rrel (B2R l + B2R e12)) as R. pose proof t150 as T.
  replace (rnd32 (B2R l + B2R e12) - B2R l) with ((rnd32 (B2R l + B2R e12) - (B2R l + B2R e12)) + B2R e12) by ring.
  eapply Rle_trans; [apply Rabs_triang|]. rewrite (Rabs_pos_eq (B2R e12)) by lra.
  revert R B T. bp. intros R B T. rewrite (Rabs_pos_eq (B2R l + B2R e12)) in R by lra. lra.
Qed.
Lemma base_acc g q l : xf_level_ok l -> near (bpow radix2 (-22)) (bpow radix2 (-47)) g q (B2R l) -> Rabs q <= 1 ->
  near (5 * bpow radix2 (-23)) (bpow radix2 (-46)) (fdiv g (fadd l e12)) q 1.
Proof.
  intros HL [Fg Eg] Q. destruct (xf_den l HL) as [Fd Ed]. destruct HL as [Fl Bl].
  assert (P : 0 < B2R l) by (pose proof (bpow_gt_0 radix2 (-15)); lra).
  rewrite (Rabs_pos_eq (B2R l)) in Eg by lra.
  destruct (div_acc (B2R g) (B2R (fadd l e12)) q (B2R l) _ _ _ P Eg Ed) as [PD X]; [nb|nb|nb|].
  pose proof (Rabs_pos q) as Pq.
  set (u := B2R g / B2R (fadd l e12)) in *.
  assert (Eu : Rabs u <= Rabs q + Rabs (u - q)).
  { replace u with (q + (u - q)) at 1 by ring. apply Rabs_triang. }
  revert X. bp. intros X.
  assert (U2 : Rabs u <= 2) by nra.
  destruct (fdiv_b (-2) 2 g (fadd l e12) (dyZ (-2) ltac:(lia)) (dyZ 2 ltac:(lia)) Fg Fd) as (F & E & _); [lra|apply Rabs_le_inv; exact U2|].
  split; [exact F|]. rewrite E. fold u. rewrite Rabs_R1, Rmult_1_l, Rmult_1_r. change (IZR (-2)) with (-2).
  pose proof (rrel u) as R. pose proof t150 as T. revert R T. bp. intros R T.
  replace (rnd32 u - q) with ((rnd32 u - u) + (u - q)) by ring. eapply Rle_trans; [apply Rabs_triang|]. lra.
Qed.
Lemma mod_pos (l : f32) : bpow radix2 (-15) <= B2R l <= bpow radix2 60 -> moderate (B2R l).
Proof.
  intros B. split; rewrite Rabs_pos_eq by (pose proof (bpow_gt_0 radix2 (-15)); lra); [|lra].
  apply Rle_trans with (bpow radix2 (-15)); [apply bpow_le; lia|lra].
Qed.

Lemma near_weak k t k' t' y q r : near k t y q r -> k <= k' -> t <= t' -> near k' t' y q r.
Proof. intros [F E] K T. split; [exact F|]. eapply Rle_trans; [exact E|]. apply Rmult_le_compat_l; [apply Rabs_pos|]. pose proof (Rabs_pos q). nra. Qed.

Lemma xf_level L f pos l0 l1 : trig_acc L -> is_nan pos = false -> xf_level_ok l0 -> fin l1 -> moderate (B2R l1) ->
  let a := xf_setLevel (xf_setPosition L f pos l0) l1 in let b := xf_setPosition L f pos l1 in
  fin (x_gainA a) /\ fin (x_gainB a) /\
  Rabs (B2R (x_gainA a) - B2R (x_gainA b)) <= bpow radix2 (-19) * Rabs (B2R l1) /\
  Rabs (B2R (x_gainB a) - B2R (x_gainB b)) <= bpow radix2 (-19) * Rabs (B2R l1).
Proof.
  intros T N H0 F1 M1. unfold xf_setLevel, xf_setPosition, computeGains, x_gainA, x_gainB, x_baseA, x_baseB. cbv zeta.
  destruct (lev_near L pos l0 T N (proj1 H0) (mod_pos _ (proj2 H0))) as (_ & A & _ & B).
  destruct (lev_near L pos l1 T N F1 M1) as (_ & C & _ & D).
  pose proof (base_acc _ _ _ H0 A (cos1 _)) as A1. pose proof (base_acc _ _ _ H0 B (sin1 _)) as B1.
  destruct (near_mul _ _ l1 _ _ _ A1 F1 (cos1 _) ltac:(nb) ltac:(nb)) as [_ A2]; [now rewrite Rmult_1_l|].
  destruct (near_mul _ _ l1 _ _ _ B1 F1 (sin1 _) ltac:(nb) ltac:(nb)) as [_ B2]; [now rewrite Rmult_1_l|].
  rewrite Rmult_1_l in A2, B2. split; [apply A2|]. split; [apply B2|].
  assert (forall y q, near (bpow radix2 (-22)) (bpow radix2 (-47)) y q (B2R l1) ->
     near (5 * bpow radix2 (-23) + bpow radix2 (-23)) (2 * bpow radix2 (-46)) y q (B2R l1)) as W.
  { intros y q Y. apply (near_weak _ _ _ _ _ _ _ Y); nb. }
  pose proof (near_close _ _ _ _ _ _ A2 (W _ _ C) (cos1 _) ltac:(nb)) as E1.
  pose proof (near_close _ _ _ _ _ _ B2 (W _ _ D) (sin1 _) ltac:(nb)) as E2.
  revert E1 E2. bp. intros E1 E2. pose proof (Rabs_pos (B2R l1)). split; lra.
Qed.

Lemma zero_div (z d : f32) : fin z -> fin d -> B2R z = 0 -> B2R d <> 0 -> fin (fdiv z d) /\ B2R (fdiv z d) = 0.
Proof.
  intros Fz Fd Z D. assert (E : B2R z / B2R d = 0) by (rewrite Z; unfold Rdiv; ring).
  destruct (fdiv_exact z d Fz Fd D) as [F X]; rewrite E in *; [apply dy_0|auto].
Qed.

(** Level 0 then any finite level: silence. *)
Lemma xf_muted L f pos s l1 a b : trig_acc L -> is_nan pos = false -> fin l1 -> fin a -> fin b ->
  let x := xf_setLevel (xf_setPosition L f pos (B754_zero s)) l1 in
  fin (xf_tick x a b) /\ B2R (xf_tick x a b) = 0.
Proof.
  intros T N F1 Fa Fb x. destruct (gains_acc L pos T N) as [[Fs _] [Fc _]].
  unfold x, xf_setLevel, xf_setPosition, computeGains, xf_tick, x_gainA, x_gainB, x_baseA, x_baseB.
  assert (Z0 : fin (fadd (B754_zero s) e12 : f32) /\ B2R (fadd (B754_zero s) e12 : f32) <> 0).
  { destruct (add_zero e12 (B754_zero s) e12_fin eq_refl eq_refl) as [_ [F E]]. split; [exact F|]. rewrite E. pose proof e12_R. lra. }
  destruct Z0 as [Fd Ed].
  destruct (mul_zero (B754_zero s) _ eq_refl Fc eq_refl) as [C1 C2].
  destruct (mul_zero (B754_zero s) _ eq_refl Fs eq_refl) as [S1 S2].
  destruct (zero_div _ _ C1 Fd C2 Ed) as [C3 C4]. destruct (zero_div _ _ S1 Fd S2 Ed) as [S3 S4].
  destruct (zero_mul _ l1 C3 F1 C4) as [C5 C6]. destruct (zero_mul _ l1 S3 F1 S4) as [S5 S6].
  destruct (mul_zero _ a C5 Fa C6) as [C7 C8]. destruct (mul_zero _ b S5 Fb S6) as [S7 S8].
  destruct (add_zero _ _ C7 S7 S8) as [[F E] _]. rewrite C8 in E. auto.
Qed.

(** Level -1e-12: the cached base is a division by zero. *)
Lemma div0 (x : f32) : fin x -> B2R x < 0 -> fdiv x fzero = B754_infinity true.
Proof.
  intros F N. destruct x as [q|q| |q m e B]; try discriminate F; [cbn in N; lra|].
  destruct q; [vm_compute; reflexivity|]. exfalso. cbn in N.
  pose proof (F2R_gt_0 radix2 (Float radix2 (Zpos m) e) eq_refl). lra.
Qed.
Lemma xf_infinite L f : trig_acc L ->
  let x := xf_setLevel (xf_setPosition L f fzero (fneg e12)) one in
  x_gainA x = B754_infinity true /\ x_gainB x = B754_infinity true.
Proof.
  intros T x. unfold x, xf_setLevel, xf_setPosition, computeGains, x_gainA, x_gainB, x_baseA, x_baseB.
  assert (E0 : fadd (fneg e12) e12 = fzero) by (vm_compute; reflexivity). rewrite E0.
  assert (Fm : fin (fneg e12)) by ffin.
  assert (M : moderate (B2R (fneg e12))).
  { rewrite fneg_R. unfold moderate. rewrite Rabs_Ropp. pose proof e12_R. rewrite Rabs_pos_eq by lra. bp. lra. }
  destruct (lev_near L fzero (fneg e12) T eq_refl Fm M) as (_ & A & _ & B).
  assert (E : Rabs (B2R (pan_angle fzero) - PI / 4) <= / 20000000).
  { replace (B2R (pan_angle fzero)) with (13176795 / 16777216) by (fval (pan_angle fzero); lra).
    pose proof PI_bounds. apply Rabs_le. lra. }
  set (a := B2R (pan_angle fzero)) in *.
  assert (H : / 2 <= 1 / sqrt 2).
  { pose proof (Rlt_sqrt2_0). apply Rmult_le_reg_r with (sqrt 2); [lra|]. unfold Rdiv. rewrite Rmult_assoc, Rinv_l by lra.
    pose proof (sqrt_def 2 ltac:(lra)). nra. }
  pose proof (cos_lip a (PI / 4)) as C. pose proof (sin_lip a (PI / 4)) as S. rewrite cos_PI4 in C. rewrite sin_PI4 in S.
  apply (fun h => Rle_trans _ _ _ h E) in C. apply (fun h => Rle_trans _ _ _ h E) in S. apply Rabs_le_inv in C. apply Rabs_le_inv in S.
  assert (X : forall g q, near (bpow radix2 (-22)) (bpow radix2 (-47)) g q (B2R (fneg e12)) -> / 4 <= q <= 1 -> B2R g < 0).
  { clear. intros g q [_ E] Q. revert E. rewrite fneg_R. pose proof e12_R. rewrite Rabs_Ropp, (Rabs_pos_eq (B2R e12)), (Rabs_pos_eq q) by lra.
    bp. intros E. apply Rabs_le_inv in E. nra. }
  pose proof (COS_bound a). pose proof (SIN_bound a).
  rewrite (div0 _ (proj1 A)) by (apply (X _ _ A); lra). rewrite (div0 _ (proj1 B)) by (apply (X _ _ B); lra).
  split; vm_compute; reflexivity.
Qed.

(** ** Balance2 *)
Lemma bal_mod (l : f32) : bal_level_ok l -> moderate (B2R l).
Proof. intros [F B]. apply mod_pos. split; [|lra]. apply Rle_trans with (bpow radix2 (-4)); [apply bpow_le; lia|lra]. Qed.

(** The gains [setLevel] writes, given the angle it recovers. *)
Lemma regain L th a (l1 : f32) : trig_acc L -> fin th -> Rabs (B2R th) <= 2 -> fin l1 -> moderate (B2R l1) -> Rabs (B2R th - a) <= bpow radix2 (-14) ->
  near 0 (bpow radix2 (-13)) (fmul (m_cos L th) l1) (cos a) (B2R l1) /\ near 0 (bpow radix2 (-13)) (fmul (m_sin L th) l1) (sin a) (B2R l1).
Proof.
  intros T Ft Bt F1 M E. destruct (T th Ft Bt) as [S C].
  destruct (near_mul _ _ l1 _ _ _ (near_approx _ _ C) F1 (cos1 _) ltac:(nb) ltac:(nb)) as [_ C2]; [now rewrite Rmult_1_l|].
  destruct (near_mul _ _ l1 _ _ _ (near_approx _ _ S) F1 (sin1 _) ltac:(nb) ltac:(nb)) as [_ S2]; [now rewrite Rmult_1_l|].
  rewrite Rmult_1_l in *.
  assert (X : forall y q q', near (bpow radix2 (-23) + bpow radix2 (-23)) (2 * bpow radix2 (-48)) y q (B2R l1) -> Rabs q <= 1 -> Rabs (q - q') <= bpow radix2 (-14) ->
    near 0 (bpow radix2 (-13)) y q' (B2R l1)).
  { clear. intros y q q' [F E] Q D. split; [exact F|]. rewrite Rmult_0_l, Rplus_0_l.
    replace (B2R y - q' * B2R l1) with ((B2R y - q * B2R l1) + (q - q') * B2R l1) by ring.
    eapply Rle_trans; [apply Rabs_triang|]. rewrite (Rabs_mult (q - q')). pose proof (Rabs_pos (B2R l1)). revert E D. bp. intros E D.
    assert (Rabs (B2R l1) * ((/ 8388608 + / 8388608) * Rabs q + 2 * / 281474976710656) <= Rabs (B2R l1) * (/ 8388608 + / 8388608 + 2 * / 281474976710656))
      by (apply Rmult_le_compat_l; lra).
    assert (Rabs (q - q') * Rabs (B2R l1) <= / 16384 * Rabs (B2R l1)) by (apply Rmult_le_compat_r; lra). lra. }
  split; eapply X; eauto using cos1, sin1.
  - eapply Rle_trans; [apply cos_lip|exact E].
  - eapply Rle_trans; [apply sin_lip|exact E].
Qed.


Lemma angle_09 pos : is_nan pos = false -> fle pos (fdec 9 10) = true -> 0 <= B2R (pan_angle pos) <= 1.4923.
Proof.
  intros N H. split; [apply angle_bnd; exact N|].
  apply fle_true in H; [|exact N|reflexivity].
  assert (K : key (fdec 9 10) < 0.90000001) by (rewrite key_fin by ffin; fval (fdec 9 10); lra).
  destruct (clamp_unit pos N) as [Fc Bc].
  assert (B : B2R (clamp pos (fneg one) one) <= 0.90000001).
  { revert Fc. unfold clamp. destruct (flt pos (fneg one)) eqn:L; [rewrite fneg_R, one_R; lra|].
    destruct (flt one pos) eqn:G; intros Fc.
    - apply flt_true in G; [|reflexivity|exact N]. rewrite (key_fin one one_fin), one_R in G. lra.
    - rewrite key_fin in H by exact Fc. lra. }
  unfold pan_angle. set (c := clamp pos (fneg one) one) in *.
  assert (D1 : dy32 (249037 / 131072)).
  { replace (249037 / 131072) with (B2R (flit 249037 (-17) : f32)); [apply dy_B2R|]. fval (flit 249037 (-17) : f32). lra. }
  assert (D2 : dy32 (97799 / 65536)).
  { replace (97799 / 65536) with (B2R (flit 97799 (-16) : f32)); [apply dy_B2R|]. fval (flit 97799 (-16) : f32). lra. }
  destruct (fadd_b 0 _ c one dy0 D1 Fc one_fin) as (Fs & Es & Bs); [rewrite one_R; lra|].
  destruct (fmul_b 0 _ (fadd c one) PI4 dy0 D2 Fs PI4_fin) as (Fa & Ea & Ba); [rewrite PI4_R; nra|]. lra.
Qed.

Lemma bal_angle L b pos l0 : trig_acc L -> atan_acc L -> is_nan pos = false -> fle pos (fdec 9 10) = true -> bal_level_ok l0 ->
  let b' := bal2_setPosition L b pos l0 in let th := m_atan L (fdiv (b_right b') (fadd (b_left b') e10)) in
  fin th /\ Rabs (B2R th) <= 2 /\ Rabs (B2R th - B2R (pan_angle pos)) <= bpow radix2 (-14).
Proof.
  intros T AT N P9 HL b' th. destruct (lev_near L pos l0 T N (proj1 HL) (bal_mod _ HL)) as (_ & A & _ & B).
  pose proof (angle_09 pos N P9) as HA. set (a := B2R (pan_angle pos)) in *.
  unfold th, b', bal2_setPosition, b_left, b_right. cbv zeta.
  set (gl := fmul (m_cos L (pan_angle pos)) l0) in *. set (gr := fmul (m_sin L (pan_angle pos)) l0) in *.
  destruct A as [Fl El]. destruct B as [Fr Er]. destruct HL as [F0 B0].
  pose proof PI_bounds as HP.
  assert (C : 0.039 <= cos a).
  { rewrite <- sin_shift. pose proof (sin_half_lower (PI / 2 - a)).
    destruct (Rle_dec (PI / 2 - a) 1) as [Q|Q]; [lra|].
    (* angles below about 0.57 *)
    rewrite sin_shift. pose proof (cos_lower a). nra. }
  pose proof (COS_bound a) as CB. pose proof (SIN_bound a) as SB.
  assert (S0 : 0 <= sin a) by (apply sin_ge_0; lra).
  assert (P0 : 0 < B2R l0) by (pose proof (bpow_gt_0 radix2 (-4)); lra).
  rewrite (Rabs_pos_eq (B2R l0)) in El, Er by lra. rewrite (Rabs_pos_eq (cos a)) in El by lra. rewrite (Rabs_pos_eq (sin a)) in Er by lra.
  pose proof e10_R as E10. pose proof e10_fin as F10. pose proof t150 as T150.
  revert El Er B0. bp. intros El Er B0.
  set (q0 := cos a * B2R l0) in *.
  assert (Hq : 0.002437 <= q0) by (unfold q0; nra).
  assert (Hq2 : q0 <= B2R l0) by (unfold q0; nra).
  assert (Hq3 : B2R l0 <= 26 * q0) by (unfold q0; nra).
  assert (Kl : Rabs (B2R gl - q0) <= 0.000000238419 * q0).
  { eapply Rle_trans; [exact El|]. replace (B2R l0 * (/ 4194304 * cos a + / 140737488355328)) with (/ 4194304 * q0 + / 140737488355328 * B2R l0) by (unfold q0; ring). lra. }
  apply Rabs_le_inv in Kl.
  destruct (fadd_b 0 (bpow radix2 62) gl e10 dy0 (dyb 62 ltac:(lia)) Fl F10) as (Fs & Es & _); [bp; lra|].
  assert (Kd : Rabs (B2R (fadd gl e10) - q0) <= 0.00000047 * q0).
  { rewrite Es. pose proof (rrel (B2R gl + B2R e10)) as R. revert R. rewrite (Rabs_pos_eq (B2R gl + B2R e10)) by lra. bp. intros R.
    apply Rabs_le_inv in R. apply Rabs_le. lra. }
  assert (Kr : Rabs (B2R gr - sin a / cos a * q0) <= q0 * (/ 4194304 * Rabs (sin a / cos a) + / 1000000000000)).
  { replace (sin a / cos a * q0) with (sin a * B2R l0) by (unfold q0; field; lra).
    eapply Rle_trans; [exact Er|]. rewrite Rabs_pos_eq by (apply Rmult_le_pos; [lra|left; apply Rinv_0_lt_compat; lra]).
    replace (q0 * (/ 4194304 * (sin a / cos a) + / 1000000000000)) with (/ 4194304 * (sin a * B2R l0) + / 1000000000000 * q0) by (unfold q0; field; lra). lra. }
  destruct (div_acc (B2R gr) (B2R (fadd gl e10)) (sin a / cos a) q0 _ _ _ ltac:(lra) Kr Kd) as [PD X]; [lra|lra|lra|].
  set (tn := sin a / cos a) in *.
  assert (TB : 0 <= tn <= 26).
  { unfold tn. split; [apply Rmult_le_pos; [lra|left; apply Rinv_0_lt_compat; lra]|].
    apply Rmult_le_reg_r with (cos a); [lra|]. unfold Rdiv. rewrite Rmult_assoc, Rinv_l by lra. lra. }
  rewrite (Rabs_pos_eq tn) in X by lra. apply Rabs_le_inv in X.
  set (u := B2R gr / B2R (fadd gl e10)) in *.
  destruct (fdiv_b (-32) 32 gr (fadd gl e10) (dyZ (-32) ltac:(lia)) (dyZ 32 ltac:(lia)) Fr Fs) as (FR & ER & _); [lra|fold u; lra|].
  fold u in ER. set (rt := fdiv gr (fadd gl e10)) in *.
  assert (KR : Rabs (B2R rt - tn) <= 0.000022).
  { rewrite ER. pose proof (rrel u) as R. revert R. assert (Rabs u <= 27) by (apply Rabs_le; lra). bp. intros R.
    apply Rabs_le_inv in R. apply Rabs_le. lra. }
  destruct (AT rt FR) as [Ft Et].
  assert (EA : atan tn = a).
  { unfold tn. fold (tan a). apply atan_tan. lra. }
  pose proof (atan_lip (B2R rt) tn) as AL. rewrite EA in AL. apply (fun h => Rle_trans _ _ _ h KR) in AL. apply Rabs_le_inv in AL.
  assert (Rabs (atan (B2R rt)) <= 1.6) by (apply Rabs_le; lra). pose proof tiny as TN.
  revert Et. bp. intros Et.
  apply Rabs_le_inv in Et. split; [exact Ft|]. split; apply Rabs_le; lra.
Qed.

Lemma near_diff k1 t1 t2 y z q r : near k1 t1 y q r -> near 0 t2 z q r -> Rabs q <= 1 -> 0 <= k1 ->
  Rabs (B2R z - B2R y) <= (k1 + t1 + t2) * Rabs r.
Proof.
  intros [_ A] [_ B] Q K. rewrite Rmult_0_l, Rplus_0_l in B. replace (B2R z - B2R y) with ((B2R z - q * r) - (B2R y - q * r)) by ring.
  eapply Rle_trans; [apply Rabs_triang|]. rewrite Rabs_Ropp. pose proof (Rabs_pos r).
  assert (Rabs r * (k1 * Rabs q + t1) <= Rabs r * (k1 + t1)) by (apply Rmult_le_compat_l; nra). lra.
Qed.
Lemma bal_level L b pos l0 l1 : trig_acc L -> atan_acc L -> is_nan pos = false -> fle pos (fdec 9 10) = true -> bal_level_ok l0 ->
  fin l1 -> moderate (B2R l1) ->
  let x := bal2_setLevel L (bal2_setPosition L b pos l0) l1 in let y := bal2_setPosition L b pos l1 in
  fin (b_left x) /\ fin (b_right x) /\
  Rabs (B2R (b_left x) - B2R (b_left y)) <= bpow radix2 (-12) * Rabs (B2R l1) /\
  Rabs (B2R (b_right x) - B2R (b_right y)) <= bpow radix2 (-12) * Rabs (B2R l1).
Proof.
  intros T AT N P9 HL F1 M1. destruct (bal_angle L b pos l0 T AT N P9 HL) as (Ft & Bt & Et).
  destruct (regain L _ _ l1 T Ft Bt F1 M1 Et) as [A B].
  destruct (lev_near L pos l1 T N F1 M1) as (_ & C & _ & D).
  unfold bal2_setLevel. cbv zeta. unfold b_left at 1 3, b_right at 1 3.
  split; [apply A|]. split; [apply B|].
  pose proof (near_diff _ _ _ _ _ _ _ C A (cos1 _) ltac:(nb)) as E1. pose proof (near_diff _ _ _ _ _ _ _ D B (sin1 _) ltac:(nb)) as E2.
  unfold bal2_setPosition, b_left, b_right in *. cbv zeta in *.
  revert E1 E2. bp. intros E1 E2. pose proof (Rabs_pos (B2R l1)). split; lra.
Qed.

(** Hard right: the recovered angle is close to -pi/2. *)
Lemma bal_flip L b pos l0 l1 : trig_acc L -> atan_acc L -> fle one pos = true -> bal_level_ok l0 -> fin l1 -> bpow radix2 (-15) <= B2R l1 <= bpow radix2 60 ->
  B2R (b_right (bal2_setLevel L (bal2_setPosition L b pos l0) l1)) <= - 0.9 * B2R l1 /\
  0.9 * B2R l1 <= B2R (b_right (bal2_setPosition L b pos l1)).
Proof.
  intros T AT P1 HL F1 M1. assert (N : is_nan pos = false) by apply (fle_nan _ _ P1).
  assert (MM : moderate (B2R l1)) by now apply mod_pos.
  destruct (lev_near L pos l0 T N (proj1 HL) (bal_mod _ HL)) as (_ & A & _ & B).
  destruct (lev_near L pos l1 T N F1 MM) as (_ & _ & _ & D).
  rewrite (angle_hi pos P1) in *. rewrite (proj1 angle_one_R) in *.
  pose proof A1_bnd as HA. pose proof PI_bounds as HP.
  assert (S : 0.99 <= sin A1 <= 1).
  { split; [|apply SIN_bound]. rewrite <- cos_shift. pose proof (cos_lower (PI / 2 - A1)). nra. }
  assert (C : -0.000000045 <= cos A1 <= -0.00000002).
  { assert (E : cos A1 = - sin (A1 - PI / 2)). { rewrite <- sin_shift, <- sin_neg. f_equal. ring. }
    rewrite E. pose proof (sin_half_lower (A1 - PI / 2) ltac:(lra)). pose proof (sin_abs_le (A1 - PI / 2)) as Q.
    rewrite (Rabs_pos_eq (A1 - PI / 2)) in Q by lra. apply Rabs_le_inv in Q. lra. }
  pose proof e10_R as E10. pose proof e10_fin as F10. pose proof t150 as T150.
  assert (P0 : 0 < B2R l1) by (pose proof (bpow_gt_0 radix2 (-15)); lra).
  split.
  2: { unfold bal2_setPosition, b_right. rewrite (angle_hi pos P1). destruct D as [FD ED]. revert ED.
    rewrite (Rabs_pos_eq (B2R l1)), (Rabs_pos_eq (sin A1)) by lra. bp. intros ED. apply Rabs_le_inv in ED. nra. }
  unfold bal2_setLevel, bal2_setPosition, b_left, b_right. rewrite (angle_hi pos P1).
  set (gl := fmul (m_cos L (pan_angle one)) l0) in *. set (gr := fmul (m_sin L (pan_angle one)) l0) in *.
  destruct A as [Fl El]. destruct B as [Fr Er]. destruct HL as [F0 B0]. revert El Er B0. bp. intros El Er B0.
  rewrite (Rabs_pos_eq (B2R l0)) in El, Er by lra. rewrite (Rabs_pos_eq (sin A1)) in Er by lra. rewrite (Rabs_left1 (cos A1)) in El by lra.
  apply Rabs_le_inv in El. apply Rabs_le_inv in Er. set (v := B2R l0) in *.
  assert (Gl : -0.0000000451 * v <= B2R gl <= -0.0000000199 * v) by nra.
  assert (Gr : 0.98 * v <= B2R gr <= 1.01 * v) by nra.
  destruct (fadd_b (- bpow radix2 60) 0 gl e10 (dynb 60 ltac:(lia)) dy0 Fl F10) as (Fs & Es & _); [bp; lra|].
  assert (Gd : -0.000000046 * v <= B2R (fadd gl e10) <= -0.00000001 * v).
  { rewrite Es. pose proof (rrel (B2R gl + B2R e10)) as R. revert R. rewrite (Rabs_left1 (B2R gl + B2R e10)) by lra. bp. intros R.
    apply Rabs_le_inv in R. lra. }
  set (dn := fadd gl e10) in *.
  assert (Gq : -102000000 <= B2R gr / B2R dn <= -20000000).
  { assert (Hn : B2R dn < 0) by lra. assert (Hi : / B2R dn < 0) by now apply Rinv_lt_0_compat.
    assert (B2R dn * / B2R dn = 1) by (apply Rinv_r; lra). unfold Rdiv. set (w := / B2R dn) in *.
    split.
    - apply Rmult_le_reg_l with (- B2R dn); [lra|]. replace (- B2R dn * (B2R gr * w)) with (- (B2R gr * (B2R dn * w))) by ring. rewrite H. nra.
    - apply Rmult_le_reg_l with (- B2R dn); [lra|]. replace (- B2R dn * (B2R gr * w)) with (- (B2R gr * (B2R dn * w))) by ring. rewrite H. nra. }
  destruct (fdiv_b (- bpow radix2 27) (- bpow radix2 24) gr dn (dynb 27 ltac:(lia)) (dynb 24 ltac:(lia)) Fr Fs) as (FR & ER & BR); [lra|bp; lra|].
  set (rt := fdiv gr dn) in *. destruct (AT rt FR) as [Ft Et]. revert BR Et. bp. intros BR Et.
  assert (Q : -1.5708 <= atan (B2R rt) <= -1.5707).
  { pose proof (atan_big (- B2R rt) ltac:(lra)) as Z. rewrite atan_opp in Z.
    assert (/ - B2R rt <= / 16777216) by (apply Rinv_le_contravar; lra). lra. }
  rewrite (Rabs_left1 (atan (B2R rt))) in Et by lra. apply Rabs_le_inv in Et. pose proof tiny.
  set (th := m_atan L rt) in *.
  assert (HT : -1.571 <= B2R th <= -1.57) by lra.
  assert (BT : Rabs (B2R th) <= 2) by (apply Rabs_le; lra).
  destruct (T th Ft BT) as [ST _].
  destruct (near_mul _ _ l1 _ _ _ (near_approx _ _ ST) F1 (sin1 _) ltac:(nb) ltac:(nb)) as [_ [FS ES]]; [now rewrite Rmult_1_l|].
  rewrite Rmult_1_l in ES. revert ES. rewrite (Rabs_pos_eq (B2R l1)) by lra. pose proof (sin1 (B2R th)) as S1. bp. intros ES. apply Rabs_le_inv in ES.
  assert (SL : sin (B2R th) <= -0.99).
  { replace (B2R th) with (- (- B2R th)) by ring. rewrite sin_neg. rewrite <- cos_shift. pose proof (cos_lower (PI / 2 - - B2R th)).
    set (t := PI / 2 - - B2R th) in *. assert (TT : -0.1 <= t <= 0.1) by (unfold t; lra). assert (t * t <= 0.01) by (clear - TT; nra). lra. }
  assert (B2R l1 * ((/ 8388608 + / 8388608) * Rabs (sin (B2R th)) + 2 * / 281474976710656) <= B2R l1 * 0.001) by (apply Rmult_le_compat_l; lra).
  assert (sin (B2R th) * B2R l1 <= -0.99 * B2R l1) by (apply Rmult_le_compat_r; lra). lra.
Qed.

Lemma one_mul (x : f32) : fin x -> fin (fmul one x) /\ B2R (fmul one x) = B2R x.
Proof. intros F. destruct (fmul_exact one x one_fin F) as [A B]; rewrite one_R, Rmult_1_l in *; [apply dy_B2R|auto]. Qed.

(** Level 0 loses the position: the next setLevel is hard left. *)
Lemma bal_level0 L b pos s l1 : trig_acc L -> trig_zero L -> is_nan pos = false -> fin l1 ->
  let x := bal2_setLevel L (bal2_setPosition L b pos (B754_zero s)) l1 in
  B2R (fst (bal_response x)) = B2R l1 /\ B2R (snd (bal_response x)) = 0.
Proof.
  intros T Z N F1. cbv zeta. destruct (gains_acc L pos T N) as [[Fs _] [Fc _]].
  unfold bal2_setLevel, bal2_setPosition, b_left, b_right. cbv zeta.
  destruct (mul_zero (B754_zero s) _ eq_refl Fc eq_refl) as [C1 C2].
  destruct (mul_zero (B754_zero s) _ eq_refl Fs eq_refl) as [S1 S2].
  destruct (add_zero e10 _ e10_fin C1 C2) as [_ [F E]].
  set (d := fadd _ e10) in *. assert (D : B2R d <> 0) by (rewrite E; pose proof e10_R; lra).
  destruct (zero_div _ d S1 F S2 D) as [Q1 Q2].
  set (r := fdiv _ d) in *. assert (exists s', r = B754_zero s') as [s' ->].
  { destruct r as [q|q| |q m e B]; try discriminate Q1; [now exists q|]. exfalso. apply eq_0_F2R in Q2. destruct q; discriminate. }
  destruct (Z s') as (Z1 & Z2 & Z3). rewrite Z3, Z2, Z1. split.
  - unfold bal_response, bal2_tick, fst, b_left. destruct (one_mul l1 F1) as [U1 U2]. destruct (one_mul _ U1) as [_ V2]. now rewrite V2.
  - unfold bal_response, bal2_tick, snd, b_right. destruct (zero_mul (B754_zero s') l1 eq_refl F1 eq_refl) as [U1 U2].
    now apply mul_zero; [|exact one_fin|].
Qed.

(** ** The same, as heard through [tick]. *)
Lemma bal_resp b : fin (b_left b) -> fin (b_right b) ->
  fin (fst (bal_response b)) /\ fin (snd (bal_response b)) /\ B2R (fst (bal_response b)) = B2R (b_left b) /\ B2R (snd (bal_response b)) = B2R (b_right b).
Proof. intros A B. unfold bal_response, bal2_tick, fst, snd. destruct (one_mul _ A), (one_mul _ B). auto. Qed.
Lemma xf_resp x : fin (x_gainA x) -> fin (x_gainB x) ->
  fin (fst (xf_response x)) /\ fin (snd (xf_response x)) /\ B2R (fst (xf_response x)) = B2R (x_gainA x) /\ B2R (snd (xf_response x)) = B2R (x_gainB x).
Proof.
  intros A B. unfold xf_response, xf_tick, fst, snd. destruct (one_mul _ A) as [A1 A2], (one_mul _ B) as [B1 B2].
  destruct (zero_mul fzero _ eq_refl A eq_refl) as [C1 C2]. destruct (zero_mul fzero _ eq_refl B eq_refl) as [D1 D2].
  destruct (add_zero _ _ A1 D1 D2) as [[E1 E2] _]. destruct (add_zero _ _ B1 C1 C2) as [_ [G1 G2]]. rewrite E2, G2. auto.
Qed.
Lemma xf_level_heard L f pos l0 l1 : trig_acc L -> is_nan pos = false -> xf_level_ok l0 -> fin l1 -> moderate (B2R l1) ->
  pair_close (bpow radix2 (-19)) (B2R l1) (xf_response (xf_setLevel (xf_setPosition L f pos l0) l1)) (xf_response (xf_setPosition L f pos l1)).
Proof.
  intros T N H0 F1 M1. destruct (xf_level L f pos l0 l1 T N H0 F1 M1) as (A & B & C & D).
  destruct (lev_near L pos l1 T N F1 M1) as (_ & U & _ & V).
  destruct (xf_resp _ A B) as (A1 & A2 & A3 & A4). destruct (xf_resp (xf_setPosition L f pos l1) (proj1 U) (proj1 V)) as (B1 & B2 & B3 & B4).
  unfold pair_close. rewrite A3, A4, B3, B4. auto 10.
Qed.
Lemma bal_level_heard L b pos l0 l1 : trig_acc L -> atan_acc L -> is_nan pos = false -> fle pos (fdec 9 10) = true -> bal_level_ok l0 ->
  fin l1 -> moderate (B2R l1) ->
  pair_close (bpow radix2 (-12)) (B2R l1) (bal_response (bal2_setLevel L (bal2_setPosition L b pos l0) l1)) (bal_response (bal2_setPosition L b pos l1)).
Proof.
  intros T AT N P H0 F1 M1. destruct (bal_level L b pos l0 l1 T AT N P H0 F1 M1) as (A & B & C & D).
  destruct (lev_near L pos l1 T N F1 M1) as (_ & U & _ & V).
  destruct (bal_resp _ A B) as (A1 & A2 & A3 & A4). destruct (bal_resp (bal2_setPosition L b pos l1) (proj1 U) (proj1 V)) as (B1 & B2 & B3 & B4).
  unfold pair_close. rewrite A3, A4, B3, B4. auto 10.
Qed.
Lemma xf_infinite_heard L f : trig_acc L -> xf_tick (xf_setLevel (xf_setPosition L f fzero (fneg e12)) one) one one = B754_infinity true.
Proof. intros T. destruct (xf_infinite L f T) as [A B]. unfold xf_tick. rewrite A, B. vm_compute. reflexivity. Qed.

(** ** DBAmp *)
Lemma dbamp_zero L s : pow10_ok L -> dbamp L (B754_zero s) = one.
Proof.
  intros [_ P]. unfold dbamp. assert (E : fmul (B754_zero s) (fdec 5 100) = B754_zero s) by (destruct s; vm_compute; reflexivity). rewrite E. apply P.
Qed.
Lemma dbamp_mono L x y : pow10_ok L -> fle x y = true -> fle (dbamp L x) (dbamp L y) = true.
Proof.
  intros [P _] H. unfold dbamp. apply P. apply fmul_mono_l; [ffin| |exact H]. fval (fdec 5 100). lra.
Qed.
Lemma dbamp_sides L x : pow10_ok L ->
  (fle x fzero = true -> fle (dbamp L x) one = true) /\ (fle fzero x = true -> fle one (dbamp L x) = true).
Proof.
  intros P. split; intros H; rewrite <- (dbamp_zero L false P); now apply dbamp_mono.
Qed.
Lemma pow_exp_le t n : 0 <= 1 + t -> (1 + t) ^ n <= exp (INR n * t).
Proof.
  intros H. induction n as [|n IH]; [cbn; rewrite Rmult_0_l, exp_0; lra|].
  rewrite S_INR, Rmult_plus_distr_r, Rmult_1_l, exp_plus. cbn [pow]. rewrite Rmult_comm.
  apply Rmult_le_compat; [now apply pow_le|exact H|exact IH|]. 
  destruct (Req_dec t 0) as [->|N]; [rewrite exp_0; lra|]. left. now apply exp_ineq1.
Qed.
Lemma ln10 : 0 < ln 10 <= 2.4.
Proof.
  split; [rewrite <- ln_1; apply ln_increasing; lra|].
  rewrite <- (ln_exp 2.4). left. apply ln_increasing; [lra|].
  pose proof (pow_exp_le 0.075 32 ltac:(lra)) as H. replace (INR 32 * 0.075) with 2.4 in H by (cbn; lra).
  eapply Rlt_le_trans; [|exact H]. lra.
Qed.
Lemma exp_near0 t : Rabs t <= / 100 -> Rabs (exp t - 1) <= 1.02 * Rabs t.
Proof.
  intros H. apply Rabs_le_inv in H.
  assert (E : forall u, 1 + u <= exp u).
  { intros u. destruct (Req_dec u 0) as [->|N]; [rewrite exp_0; lra|]. left. now apply exp_ineq1. }
  pose proof (E t) as E1. pose proof (E (- t)) as E2.
  assert (exp t * exp (- t) = 1) by (rewrite <- exp_plus; replace (t + - t) with 0 by ring; apply exp_0).
  pose proof (exp_pos t).
  destruct (Rle_dec 0 t) as [P|P].
  - rewrite (Rabs_pos_eq t) by lra. apply Rabs_le. nra.
  - rewrite (Rabs_left t) by lra. apply Rabs_le. split; [lra|]. assert (exp t <= exp 0) by (left; apply exp_increasing; lra). rewrite exp_0 in *. lra.
Qed.
Lemma dbamp_acc L x : pow10_acc L -> fin x -> Rabs (B2R x) <= 200 ->
  fin (dbamp L x) /\ Rabs (B2R (dbamp L x) - Rpower 10 (B2R x / 20)) <= bpow radix2 (-18) * Rpower 10 (B2R x / 20).
Proof.
  intros P F B. unfold dbamp. apply Rabs_le_inv in B.
  assert (E : 0.05 <= B2R (fdec 5 100 : f32) <= 0.0500000008) by (fval (fdec 5 100 : f32); lra).
  destruct (fmul_b (-16) 16 x (fdec 5 100) (dyZ (-16) ltac:(lia)) (dyZ 16 ltac:(lia)) F ltac:(ffin)) as (Fy & Ey & _); [nra|].
  set (y := fmul x (fdec 5 100)) in *.
  assert (D : Rabs (B2R y - B2R x / 20) <= 0.0000008).
  { rewrite Ey. set (c := B2R (fdec 5 100 : f32)) in *. pose proof (rrel (B2R x * c)) as R. pose proof t150 as T. revert R T.
    assert (Rabs (B2R x * c) <= 10.001) by (apply Rabs_le; nra). bp. intros R T. apply Rabs_le_inv in R.
    assert (- 0.00000016 <= B2R x * c - B2R x / 20 <= 0.00000016) by nra. apply Rabs_le. lra. }
  destruct (P y Fy) as [Fp Ep]. { apply Rabs_le_inv in D. apply Rabs_le. lra. }
  split; [exact Fp|].
  set (d := B2R y - B2R x / 20) in *. assert (Hd : B2R y = B2R x / 20 + d) by (unfold d; ring).
  rewrite Hd, Rpower_plus in Ep. set (p := Rpower 10 (B2R x / 20)) in *. assert (Pp : 0 < p) by apply exp_pos.
  assert (Q : Rabs (Rpower 10 d - 1) <= 0.000002).
  { unfold Rpower. pose proof ln10 as L10.
    assert (Rabs (d * ln 10) <= 0.00000192). { rewrite Rabs_mult, (Rabs_pos_eq (ln 10)) by lra. pose proof (Rabs_pos d). nra. }
    eapply Rle_trans; [apply exp_near0; lra|]. lra. }
  apply Rabs_le_inv in Q. set (z := Rpower 10 d) in *. revert Ep. bp. intros Ep. apply Rabs_le_inv in Ep. apply Rabs_le. nra.
Qed.
Lemma bal_flip_heard L b pos l0 l1 : trig_acc L -> atan_acc L -> fle one pos = true -> bal_level_ok l0 -> fin l1 -> bpow radix2 (-15) <= B2R l1 <= bpow radix2 60 ->
  B2R (snd (bal_response (bal2_setLevel L (bal2_setPosition L b pos l0) l1))) <= - 0.9 * B2R l1 /\
  0.9 * B2R l1 <= B2R (snd (bal_response (bal2_setPosition L b pos l1))).
Proof.
  intros T AT H H0 F1 B1. destruct (bal_flip L b pos l0 l1 T AT H H0 F1 B1) as [A B].
  assert (P : 0 < B2R l1) by (pose proof (bpow_gt_0 radix2 (-15)); lra).
  assert (N : forall z, B2R z <> 0 -> fin z -> B2R (fmul one z) = B2R z) by (intros z _ Fz; now apply one_mul).
  assert (FN : forall z : f32, B2R z <> 0 -> fin z) by (intros z Hz; destruct z; try reflexivity; cbn in Hz; contradiction Hz; reflexivity).
  unfold bal_response, bal2_tick, snd. split; rewrite N; try apply FN; try exact A; try exact B; lra.
Qed.
