From Coq Require Import ZArith Reals Lra Lia Bool Psatz.
From Flocq Require Import Core BinarySingleNaN.
From Verif Require Import Flt FltFacts FltMore FltKey FltArith Libm UtilModel UtilProofs RealBounds PanModel PanSpec.
Local Open Scope R_scope.

Lemma tiny : 0 < bpow radix2 (-149) <= / 1000000000000000000000000000000.
Proof. split; [apply bpow_gt_0|]. apply Rle_trans with (bpow radix2 (-100)); [apply bpow_le; lia|]. bp. lra. Qed.
Lemma t150 : 0 < bpow radix2 (-150) <= bpow radix2 (-50) * bpow radix2 (-100).
Proof. split; [apply bpow_gt_0|]. rewrite <- bpow_plus. apply bpow_le; lia. Qed.

(** Multiplication by 1 is the identity on every value. *)
Lemma fmul_one (x : f32) : fmul x one = x.
Proof.
  destruct x as [s|s| |s m e B]; try (destruct s; vm_compute; reflexivity); [vm_compute; reflexivity|].
  remember (B754_finite s m e B : f32) as x eqn:Hx.
  assert (F : fin x) by (subst; reflexivity).
  destruct (fmul_exact x one F one_fin) as [F1 E1]; [rewrite one_R, Rmult_1_r; apply dy_B2R|].
  rewrite one_R, Rmult_1_r in E1.
  assert (N : B2R x <> 0).
  { subst. intros Z. apply eq_0_F2R in Z. destruct s; discriminate. }
  apply B2R_inj; [|subst; reflexivity|exact E1].
  destruct (fmul x one) as [q|q| |q mq eq Bq]; try discriminate F1; [|reflexivity].
  rewrite <- E1 in N. exfalso. apply N. reflexivity.
Qed.

Definition A1 : R := 13176795 / 8388608.
Lemma PI4_R : B2R PI4 = 13176795 / 16777216. Proof. fval PI4. lra. Qed.
Lemma PI4_fin : fin PI4. Proof. ffin. Qed.
Lemma A1_dy : dy32 A1.
Proof. replace A1 with (B2R (flit 13176795 (-23) : f32)); [apply dy_B2R|]. fval (flit 13176795 (-23) : f32). unfold A1. lra. Qed.
Lemma A1_bnd : 1.57079637 < A1 < 1.570796371. Proof. unfold A1. lra. Qed.

Lemma clamp_unit (pos : f32) : is_nan pos = false ->
  fin (clamp pos (fneg one) one) /\ -1 <= B2R (clamp pos (fneg one) one) <= 1.
Proof.
  intros N. destruct (clamp_fin pos (fneg one) one N) as [F B]; [ffin|exact one_fin|rewrite fneg_R, one_R; lra|].
  rewrite fneg_R, one_R in B. split; [exact F|lra].
Qed.
Lemma angle_bnd pos : is_nan pos = false -> fin (pan_angle pos) /\ 0 <= B2R (pan_angle pos) <= A1.
Proof.
  intros N. unfold pan_angle. destruct (clamp_unit pos N) as [Fc Bc]. set (c := clamp pos (fneg one) one) in *.
  destruct (fadd_b 0 2 c one dy0 (dyZ 2 ltac:(lia)) Fc one_fin) as (Fs & Es & Bs); [rewrite one_R; lra|].
  destruct (fmul_b 0 A1 (fadd c one) PI4 dy0 A1_dy Fs PI4_fin) as (Fa & Ea & Ba); [rewrite PI4_R; unfold A1; nra|].
  auto.
Qed.

Lemma gains_acc L pos : trig_acc L -> is_nan pos = false ->
  approx (m_sin L (pan_angle pos)) (sin (B2R (pan_angle pos))) /\ approx (m_cos L (pan_angle pos)) (cos (B2R (pan_angle pos))).
Proof.
  intros T N. destruct (angle_bnd pos N) as [F B]. pose proof A1_bnd. apply T; [exact F|]. apply Rabs_le. lra.
Qed.

(** ** Error bookkeeping: y approximates q*r with relative error k and slack t. *)
Definition near (k t : R) (y : f32) (q r : R) : Prop := fin y /\ Rabs (B2R y - q * r) <= Rabs r * (k * Rabs q + t).

Lemma near_approx g x : approx g x -> near (bpow radix2 (-23)) (bpow radix2 (-48)) g x 1.
Proof.
  intros [F E]. split; [exact F|]. rewrite Rmult_1_r, Rabs_R1, Rmult_1_l.
  eapply Rle_trans; [exact E|]. apply Rplus_le_compat_l, bpow_le. lia.
Qed.

Lemma near_size k t y q r : near k t y q r -> Rabs q <= 1 -> 0 <= k <= / 4 -> 0 <= t <= / 4 -> Rabs (B2R y) <= 3 / 2 * Rabs r.
Proof.
  intros [F E] Q K T. replace (B2R y) with ((B2R y - q * r) + q * r) by ring.
  eapply Rle_trans; [apply Rabs_triang|]. rewrite Rabs_mult. pose proof (Rabs_pos r). pose proof (Rabs_pos q).
  assert (Rabs r * (k * Rabs q + t) <= Rabs r * / 2) by (apply Rmult_le_compat_l; nra).
  assert (Rabs q * Rabs r <= 1 * Rabs r) by (apply Rmult_le_compat_r; lra). lra.
Qed.

Lemma near_mul k t (x y : f32) q r : near k t y q r -> fin x -> Rabs q <= 1 -> 0 <= k <= / 4 -> bpow radix2 (-48) <= t <= / 4 ->
  moderate (r * B2R x) ->
  near (k + bpow radix2 (-23)) (2 * t) (fmul x y) q (r * B2R x) /\ near (k + bpow radix2 (-23)) (2 * t) (fmul y x) q (r * B2R x).
Proof.
  intros NY Fx Q K T [M1 M2]. pose proof (near_size _ _ _ _ _ NY Q K ltac:(pose proof (bpow_gt_0 radix2 (-48)); lra)) as S.
  destruct NY as [Fy E].
  set (X := B2R x) in *. set (Y := B2R y) in *.
  assert (dy32 (bpow radix2 61) /\ dy32 (- bpow radix2 61)) as [D1 D2].
  { split; [|apply dy_opp]; apply dy_bpow; cbn; lia. }
  assert (P : Rabs (X * Y) <= bpow radix2 61).
  { rewrite Rabs_mult. rewrite Rabs_mult in M2. pose proof (Rabs_pos X). replace (bpow radix2 61) with (bpow radix2 60 * 2) by (bp; lra).
    apply Rle_trans with (Rabs X * (3 / 2 * Rabs r)); [apply Rmult_le_compat_l; lra|]. pose proof (bpow_gt_0 radix2 60). nra. }
  assert (G : Rabs (rnd32 (X * Y) - q * (r * X)) <= Rabs (r * X) * ((k + bpow radix2 (-23)) * Rabs q + 2 * t)).
  { replace (rnd32 (X * Y) - q * (r * X)) with ((rnd32 (X * Y) - X * Y) + X * (Y - q * r)) by ring.
    eapply Rle_trans; [apply Rabs_triang|]. rewrite (Rabs_mult X (Y - q * r)).
    pose proof (@rnd_rel 24 128 _ (X * Y)) as RR. change (- (24))%Z with (-24)%Z in RR. change (SpecFloat.emin 24 128 - 1)%Z with (-150)%Z in RR.
    rewrite Rabs_mult in RR.
    assert (S2 : Rabs Y <= Rabs r * (Rabs q + (k * Rabs q + t))).
    { replace Y with ((Y - q * r) + q * r) by ring. eapply Rle_trans; [apply Rabs_triang|]. rewrite (Rabs_mult q r). lra. }
    rewrite !Rabs_mult in *. pose proof t150 as T150. revert RR T T150 M1. 
    pose proof (bpow_gt_0 radix2 (-100)) as B100. set (b := bpow radix2 (-100)) in *. set (b150 := bpow radix2 (-150)) in *.
    pose proof (Rabs_pos X) as PX. pose proof (Rabs_pos r) as Pr. pose proof (Rabs_pos q) as Pq. bp. intros RR T T150 M1.
    set (V := Rabs r * Rabs X) in *. assert (HV : V = Rabs r * Rabs X) by reflexivity.
    assert (A : Rabs X * Rabs Y <= V * (Rabs q + (k * Rabs q + t))).
    { rewrite HV. replace (Rabs r * Rabs X * (Rabs q + (k * Rabs q + t))) with (Rabs X * (Rabs r * (Rabs q + (k * Rabs q + t)))) by ring.
      apply Rmult_le_compat_l; lra. }
    assert (B : Rabs X * Rabs (Y - q * r) <= V * (k * Rabs q + t)).
    { rewrite HV. replace (Rabs r * Rabs X * (k * Rabs q + t)) with (Rabs X * (Rabs r * (k * Rabs q + t))) by ring.
      apply Rmult_le_compat_l; lra. }
    assert (PV : 0 <= V) by lra.
    set (m := / 16777216) in *. assert (Hm : m = / 16777216) by reflexivity.
    apply Rle_trans with (V * (m * (Rabs q + (k * Rabs q + t)) + / 1125899906842624 + (k * Rabs q + t))).
    - assert (m * (Rabs X * Rabs Y) <= m * (V * (Rabs q + (k * Rabs q + t)))) by (apply Rmult_le_compat_l; lra).
      assert (b150 <= V * / 1125899906842624) by nra. lra.
    - apply Rmult_le_compat_l; [exact PV|].
      assert (m * (k * Rabs q + t) <= m * (/ 4 * Rabs q + t)) by (apply Rmult_le_compat_l; nra). nra. }
  split.
  - destruct (fmul_b _ _ x y D2 D1 Fx Fy) as (F & EE & _); [apply Rabs_le_inv; exact P|]. split; [exact F|]. rewrite EE. exact G.
  - destruct (fmul_b _ _ y x D2 D1 Fy Fx) as (F & EE & _); [apply Rabs_le_inv; rewrite Rmult_comm; exact P|].
    split; [exact F|]. rewrite EE, Rmult_comm. exact G.
Qed.

(** Sum of squares. *)
Lemma near_power k t y z c s r : near k t y c r -> near k t z s r -> c * c + s * s = 1 ->
  0 <= k <= 3 * bpow radix2 (-23) -> 0 <= t <= bpow radix2 (-44) -> same_power y z r.
Proof.
  intros [Fy Ey] [Fz Ez] P K T. split; [exact Fy|]. split; [exact Fz|].
  revert K T. bp. intros K T.
  set (Y := B2R y) in *. set (Z := B2R z) in *.
  assert (Bc : Rabs c <= 1) by (apply Rabs_le; nra). assert (Bs : Rabs s <= 1) by (apply Rabs_le; nra).
  assert (X : forall y q, Rabs (y - q * r) <= Rabs r * (k * Rabs q + t) -> Rabs q <= 1 ->
     Rabs (y * y - q * q * (r * r)) <= r * r * (7 / 8388608 * (q * q) + / 1000000000000)).
  { clear - K T. intros y q E Q. set (e := y - q * r) in *. assert (Hy : y = q * r + e) by (unfold e; ring).
    replace (y * y - q * q * (r * r)) with (2 * (e * (q * r)) + e * e) by (rewrite Hy; ring).
    eapply Rle_trans; [apply Rabs_triang|]. rewrite !Rabs_mult, (Rabs_pos_eq 2) by lra.
    assert (Qq : Rabs q * Rabs q = q * q) by (rewrite <- Rabs_mult; apply Rabs_pos_eq; nra).
    assert (Qr : Rabs r * Rabs r = r * r) by (rewrite <- Rabs_mult; apply Rabs_pos_eq; nra).
    pose proof (Rabs_pos q). pose proof (Rabs_pos r). pose proof (Rabs_pos e).
    assert (W : 0 <= k * Rabs q + t) by nra. set (w := k * Rabs q + t) in *. assert (Hw : w = k * Rabs q + t) by reflexivity.
    assert (A : Rabs e * (Rabs q * Rabs r) <= r * r * (w * Rabs q)).
    { rewrite <- Qr. replace (Rabs r * Rabs r * (w * Rabs q)) with ((Rabs r * w) * (Rabs q * Rabs r)) by ring. apply Rmult_le_compat_r; nra. }
    assert (B : Rabs e * Rabs e <= r * r * (w * w)).
    { rewrite <- Qr. replace (Rabs r * Rabs r * (w * w)) with ((Rabs r * w) * (Rabs r * w)) by ring. apply Rmult_le_compat; lra. }
    assert (C : 2 * (w * Rabs q) + w * w <= 7 / 8388608 * (q * q) + / 1000000000000).
    { rewrite <- Qq. assert (w <= 3 / 8388608 * Rabs q + / 17592186044416) by (rewrite Hw; nra).
      assert (w * Rabs q <= (3 / 8388608 * Rabs q + / 17592186044416) * Rabs q) by (apply Rmult_le_compat_r; lra).
      assert (w * w <= (3 / 8388608 * Rabs q + / 17592186044416) * (3 / 8388608 * Rabs q + / 17592186044416)) by (apply Rmult_le_compat; lra).
      nra. }
    assert (r * r * (2 * (w * Rabs q) + w * w) <= r * r * (7 / 8388608 * (q * q) + / 1000000000000)) by (apply Rmult_le_compat_l; nra).
    lra. }
  pose proof (X _ _ Ey Bc) as X1. pose proof (X _ _ Ez Bs) as X2. clear X.
  replace (Y * Y + Z * Z - r * r) with ((Y * Y - c * c * (r * r)) + (Z * Z - s * s * (r * r)) + (c * c + s * s - 1) * (r * r)) by ring.
  replace ((c * c + s * s - 1) * (r * r)) with 0 by (rewrite P; ring). rewrite Rplus_0_r.
  eapply Rle_trans; [apply Rabs_triang|].
  apply Rle_trans with (r * r * (7 / 8388608 * (c * c) + / 1000000000000) + r * r * (7 / 8388608 * (s * s) + / 1000000000000)); [lra|].
  replace (r * r * (7 / 8388608 * (c * c) + / 1000000000000) + r * r * (7 / 8388608 * (s * s) + / 1000000000000))
    with (r * r * (7 / 8388608 * (c * c + s * s) + / 500000000000)) by field. rewrite P. nra.
Qed.

Lemma cs1 a : cos a * cos a + sin a * sin a = 1.
Proof. pose proof (sin2_cos2 a) as H. unfold Rsqr in H. lra. Qed.
Lemma cos1 a : Rabs (cos a) <= 1. Proof. apply Rabs_le. apply COS_bound. Qed.
Lemma sin1 a : Rabs (sin a) <= 1. Proof. apply Rabs_le. apply SIN_bound. Qed.

Lemma gains_near L pos : trig_acc L -> is_nan pos = false ->
  near (bpow radix2 (-23)) (bpow radix2 (-48)) (m_cos L (pan_angle pos)) (cos (B2R (pan_angle pos))) 1 /\
  near (bpow radix2 (-23)) (bpow radix2 (-48)) (m_sin L (pan_angle pos)) (sin (B2R (pan_angle pos))) 1.
Proof. intros T N. destruct (gains_acc L pos T N). split; now apply near_approx. Qed.
Ltac nb := bp; lra.

(** Cached gains: cos/sin times level, in either order of multiplication. *)
Lemma lev_near L pos x : trig_acc L -> is_nan pos = false -> fin x -> moderate (B2R x) ->
  let k := bpow radix2 (-22) in let t := bpow radix2 (-47) in let a := B2R (pan_angle pos) in
  near k t (fmul x (m_cos L (pan_angle pos))) (cos a) (B2R x) /\ near k t (fmul (m_cos L (pan_angle pos)) x) (cos a) (B2R x) /\
  near k t (fmul x (m_sin L (pan_angle pos))) (sin a) (B2R x) /\ near k t (fmul (m_sin L (pan_angle pos)) x) (sin a) (B2R x).
Proof.
  intros T N F M k t a. destruct (gains_near L pos T N) as [A B].
  destruct (near_mul _ _ x _ _ _ A F (cos1 _) ltac:(nb) ltac:(nb)) as [A1 A2]; [now rewrite Rmult_1_l|].
  destruct (near_mul _ _ x _ _ _ B F (sin1 _) ltac:(nb) ltac:(nb)) as [B1 B2]; [now rewrite Rmult_1_l|].
  rewrite Rmult_1_l in *.
  assert (K : bpow radix2 (-23) + bpow radix2 (-23) = k) by (unfold k; nb).
  assert (T' : 2 * bpow radix2 (-48) = t) by (unfold t; nb). rewrite K, T' in *. auto.
Qed.

Lemma pan2_power L x pos : trig_acc L -> fin x -> moderate (B2R x) -> is_nan pos = false ->
  same_power (fst (pan2_process L x pos)) (snd (pan2_process L x pos)) (B2R x).
Proof.
  intros T F M N. destruct (lev_near L pos x T N F M) as (A & _ & B & _). unfold pan2_process, fst, snd.
  apply (near_power _ _ _ _ _ _ _ A B (cs1 _)); nb.
Qed.

Lemma bal2_power L b x pos level : trig_acc L -> fin x -> fin level -> moderate (B2R level) -> moderate (B2R level * B2R x) -> is_nan pos = false ->
  let b' := bal2_setPosition L b pos level in
  same_power (fst (bal2_tick b' x x)) (snd (bal2_tick b' x x)) (B2R level * B2R x).
Proof.
  intros T F Fl Ml M N. destruct (lev_near L pos level T N Fl Ml) as (_ & A & _ & B).
  destruct (near_mul _ _ x _ _ _ A F (cos1 _) ltac:(nb) ltac:(nb) M) as [A1 _].
  destruct (near_mul _ _ x _ _ _ B F (sin1 _) ltac:(nb) ltac:(nb) M) as [B1 _].
  unfold bal2_tick, bal2_setPosition, fst, snd, b_left, b_right.
  apply (near_power _ _ _ _ _ _ _ A1 B1 (cs1 _)); nb.
Qed.

Lemma zero_mul (z y : f32) : fin z -> fin y -> B2R z = 0 -> fin (fmul z y) /\ B2R (fmul z y) = 0.
Proof. intros F G E. destruct (fmul_exact z y F G) as [A B]; rewrite E, Rmult_0_l in *; [apply dy_0|auto]. Qed.
Lemma mul_zero (z y : f32) : fin z -> fin y -> B2R z = 0 -> fin (fmul y z) /\ B2R (fmul y z) = 0.
Proof. intros F G E. destruct (fmul_exact y z G F) as [A B]; rewrite E, Rmult_0_r in *; [apply dy_0|auto]. Qed.
Lemma add_zero (x z : f32) : fin x -> fin z -> B2R z = 0 ->
  (fin (fadd x z) /\ B2R (fadd x z) = B2R x) /\ (fin (fadd z x) /\ B2R (fadd z x) = B2R x).
Proof.
  intros F G E. split.
  - destruct (fadd_exact x z F G) as [A B]; rewrite E, Rplus_0_r in *; [apply dy_B2R|auto].
  - destruct (fadd_exact z x G F) as [A B]; rewrite E, Rplus_0_l in *; [apply dy_B2R|auto].
Qed.

Lemma xf_power L f x pos level : trig_acc L -> fin x -> fin level -> moderate (B2R level) -> moderate (B2R level * B2R x) -> is_nan pos = false ->
  let f' := xf_setPosition L f pos level in
  same_power (xf_tick f' x fzero) (xf_tick f' fzero x) (B2R level * B2R x).
Proof.
  intros T F Fl Ml M N. destruct (lev_near L pos level T N Fl Ml) as (_ & A & _ & B).
  destruct (near_mul _ _ x _ _ _ A F (cos1 _) ltac:(nb) ltac:(nb) M) as [A1 _].
  destruct (near_mul _ _ x _ _ _ B F (sin1 _) ltac:(nb) ltac:(nb) M) as [B1 _].
  unfold xf_setPosition, computeGains, xf_tick, x_gainA, x_gainB.
  set (ga := fmul (m_cos L (pan_angle pos)) level) in *. set (gb := fmul (m_sin L (pan_angle pos)) level) in *.
  destruct (zero_mul fzero gb eq_refl (proj1 B) eq_refl) as [Z1 Z2].
  destruct (zero_mul fzero ga eq_refl (proj1 A) eq_refl) as [Y1 Y2].
  destruct (add_zero (fmul x ga) _ (proj1 A1) Z1 Z2) as [[U1 U2] _].
  destruct (add_zero (fmul x gb) _ (proj1 B1) Y1 Y2) as [_ [V1 V2]].
  apply (near_power (bpow radix2 (-22) + bpow radix2 (-23)) (2 * bpow radix2 (-47)) _ _
    (cos (B2R (pan_angle pos))) (sin (B2R (pan_angle pos)))); [..|apply cs1|nb|nb].
  - split; [exact U1|]. rewrite U2. apply A1.
  - split; [exact V1|]. rewrite V2. apply B1.
Qed.

(** ** Positions. *)
Lemma clamp_hi pos : fle one pos = true -> clamp pos (fneg one) one = one.
Proof.
  intros H. destruct (fle_nan _ _ H) as [_ N]. apply fle_true in H; [|reflexivity|exact N].
  unfold clamp.
  assert (K1 : key one = 1) by (rewrite key_fin, one_R; [reflexivity|exact one_fin]).
  assert (K2 : key (fneg one) = -1) by (rewrite key_fin, fneg_R, one_R; [reflexivity|ffin]).
  destruct (flt pos (fneg one)) eqn:L.
  { apply flt_true in L; [|exact N|reflexivity]. lra. }
  destruct (flt one pos) eqn:G; [reflexivity|].
  assert (key pos = 1).
  { destruct (Rle_lt_or_eq_dec _ _ H) as [C|C]; [|lra]. apply flt_true in C; [congruence|reflexivity|exact N]. }
  assert (F : fin pos).
  { apply fin_key_lt; [exact N|]. rewrite H0, Rabs_R1. change 1 with (bpow radix2 0). apply bpow_lt. lia. }
  rewrite key_fin in H0 by exact F. apply B2R_inj; [|reflexivity|rewrite one_R; exact H0].
  destruct pos as [q|q| |q m e B]; try discriminate F; [|reflexivity]. cbn in H0. lra.
Qed.
Lemma clamp_lo pos : fle pos (fneg one) = true -> clamp pos (fneg one) one = fneg one.
Proof.
  intros H. destruct (fle_nan _ _ H) as [N _]. apply fle_true in H; [|exact N|reflexivity].
  unfold clamp.
  assert (K1 : key one = 1) by (rewrite key_fin, one_R; [reflexivity|exact one_fin]).
  assert (K2 : key (fneg one) = -1) by (rewrite key_fin, fneg_R, one_R; [reflexivity|ffin]).
  destruct (flt pos (fneg one)) eqn:L; [reflexivity|].
  destruct (flt one pos) eqn:G.
  { apply flt_true in G; [|reflexivity|exact N]. lra. }
  assert (key pos = -1).
  { destruct (Rle_lt_or_eq_dec _ _ H) as [C|C]; [|lra]. apply flt_true in C; [congruence|exact N|reflexivity]. }
  assert (F : fin pos).
  { apply fin_key_lt; [exact N|]. rewrite H0. rewrite Rabs_left by lra. replace (- -1) with 1 by lra. change 1 with (bpow radix2 0). apply bpow_lt. lia. }
  rewrite key_fin in H0 by exact F. apply B2R_inj; [|reflexivity|rewrite fneg_R, one_R; lra].
  destruct pos as [q|q| |q m e B]; try discriminate F; [|reflexivity]. cbn in H0. lra.
Qed.
Lemma angle_hi pos : fle one pos = true -> pan_angle pos = pan_angle one.
Proof. intros H. unfold pan_angle. rewrite (clamp_hi pos H), (clamp_hi one); [reflexivity|vm_compute; reflexivity]. Qed.
Lemma angle_lo pos : fle pos (fneg one) = true -> pan_angle pos = fzero.
Proof. intros H. unfold pan_angle. rewrite (clamp_lo pos H). vm_compute. reflexivity. Qed.
Lemma angle_one_R : B2R (pan_angle one) = A1 /\ fin (pan_angle one).
Proof. split; [fval (pan_angle one); unfold A1; lra|vm_compute; reflexivity]. Qed.

Lemma pan2_hard_left L x pos : trig_zero L -> fin x -> fle pos (fneg one) = true ->
  fst (pan2_process L x pos) = x /\ fin (snd (pan2_process L x pos)) /\ B2R (snd (pan2_process L x pos)) = 0.
Proof.
  intros Z F H. unfold pan2_process, fst, snd. rewrite (angle_lo pos H). destruct (Z false) as (Z1 & Z2 & Z3).
  change fzero with (B754_zero false : f32). rewrite Z1, Z2. split; [apply fmul_one|]. now apply mul_zero.
Qed.
Lemma pan2_centre L x : trig_acc L -> fin x -> moderate (B2R x) ->
  within (bpow radix2 (-20)) (fst (pan2_process L x fzero)) (sqrt (/ 2)) (B2R x) /\
  within (bpow radix2 (-20)) (snd (pan2_process L x fzero)) (sqrt (/ 2)) (B2R x).
Proof.
  intros T F M. destruct (lev_near L fzero x T eq_refl F M) as (A & _ & B & _). unfold pan2_process, fst, snd.
  assert (E : Rabs (B2R (pan_angle fzero) - PI / 4) <= / 20000000).
  { replace (B2R (pan_angle fzero)) with (13176795 / 16777216) by (fval (pan_angle fzero); lra).
    pose proof PI_bounds. apply Rabs_le. lra. }
  set (a := B2R (pan_angle fzero)) in *.
  pose proof (cos_lip a (PI / 4)) as C. pose proof (sin_lip a (PI / 4)) as S. rewrite cos_PI4 in C. rewrite sin_PI4 in S.
  assert (Q : 1 / sqrt 2 = sqrt (/ 2)).
  { rewrite sqrt_inv. unfold Rdiv. lra. }
  rewrite Q in *. set (h := sqrt (/ 2)) in *.
  assert (X : forall y q, near (bpow radix2 (-22)) (bpow radix2 (-47)) y q (B2R x) -> Rabs q <= 1 -> Rabs (q - h) <= / 20000000 ->
     within (bpow radix2 (-20)) y h (B2R x)).
  { clear. intros y q [Fy E] Q D. split; [exact Fy|].
    replace (B2R y - h * B2R x) with ((B2R y - q * B2R x) + (q - h) * B2R x) by ring.
    eapply Rle_trans; [apply Rabs_triang|]. rewrite (Rabs_mult (q - h)). pose proof (Rabs_pos (B2R x)). revert E. bp. intros E.
    assert (Rabs (B2R x) * (/ 4194304 * Rabs q + / 140737488355328) <= Rabs (B2R x) * (/ 4194304 * 1 + / 140737488355328)) by (apply Rmult_le_compat_l; lra).
    assert (Rabs (q - h) * Rabs (B2R x) <= / 20000000 * Rabs (B2R x)) by (apply Rmult_le_compat_r; lra). lra. }
  split; eapply X; eauto using cos1, sin1; lra.
Qed.

(** ** C18. *)
Lemma pan2_cached L p x pos : pan2_tick (pan2_setPan L p pos) x = pan2_process L x pos.
Proof. reflexivity. Qed.
Lemma xf_cached L f a b pos level : xf_tick (xf_setPosition L f pos level) a b = xf_process L a b pos level.
Proof. reflexivity. Qed.
Lemma xf_cached2 L f a b pos level : xf_tick2 (xf_setPosition L f pos level) a b = xf_process2 L a b pos level.
Proof. reflexivity. Qed.
Lemma bal2_cached L b l r pos : bal2_tick (bal2_setPosition L b pos one) l r = bal2_process L l r pos one.
Proof. unfold bal2_tick, bal2_setPosition, bal2_process, b_left, b_right. now rewrite !fmul_one. Qed.

Lemma near_close k t y z q r : near k t y q r -> near k t z q r -> Rabs q <= 1 -> 0 <= k -> Rabs (B2R y - B2R z) <= 2 * (k + t) * Rabs r.
Proof.
  intros [_ A] [_ B] Q K. replace (B2R y - B2R z) with ((B2R y - q * r) - (B2R z - q * r)) by ring.
  eapply Rle_trans; [apply Rabs_triang|]. rewrite Rabs_Ropp. pose proof (Rabs_pos r).
  assert (Rabs r * (k * Rabs q + t) <= Rabs r * (k + t)) by (apply Rmult_le_compat_l; nra). lra.
Qed.
Lemma bal2_cached_near L b l r pos level : trig_acc L -> fin l -> fin r -> fin level -> is_nan pos = false ->
  moderate (B2R level) -> moderate (B2R l) -> moderate (B2R r) -> moderate (B2R level * B2R l) -> moderate (B2R level * B2R r) ->
  let t := bal2_tick (bal2_setPosition L b pos level) l r in let p := bal2_process L l r pos level in
  Rabs (B2R (fst t) - B2R (fst p)) <= bpow radix2 (-20) * Rabs (B2R level * B2R l) /\
  Rabs (B2R (snd t) - B2R (snd p)) <= bpow radix2 (-20) * Rabs (B2R level * B2R r).
Proof.
  intros T Fl Fr Fv N Mv Ml Mr Ml2 Mr2. unfold bal2_tick, bal2_setPosition, bal2_process, fst, snd, b_left, b_right. cbv zeta.
  destruct (lev_near L pos level T N Fv Mv) as (_ & A & _ & B).
  destruct (lev_near L pos l T N Fl Ml) as (C & _ & _ & _). destruct (lev_near L pos r T N Fr Mr) as (_ & _ & D & _).
  destruct (near_mul _ _ l _ _ _ A Fl (cos1 _) ltac:(nb) ltac:(nb) Ml2) as [A1 _].
  destruct (near_mul _ _ r _ _ _ B Fr (sin1 _) ltac:(nb) ltac:(nb) Mr2) as [B1 _].
  rewrite Rmult_comm in Ml2, Mr2.
  destruct (near_mul _ _ level _ _ _ C Fv (cos1 _) ltac:(nb) ltac:(nb) Ml2) as [_ C1].
  destruct (near_mul _ _ level _ _ _ D Fv (sin1 _) ltac:(nb) ltac:(nb) Mr2) as [_ D1].
  rewrite (Rmult_comm (B2R l)) in C1. rewrite (Rmult_comm (B2R r)) in D1.
  pose proof (near_close _ _ _ _ _ _ A1 C1 (cos1 _) ltac:(nb)) as E1.
  pose proof (near_close _ _ _ _ _ _ B1 D1 (sin1 _) ltac:(nb)) as E2.
  revert E1 E2. bp. intros E1 E2.
  pose proof (Rabs_pos (B2R level * B2R l)). pose proof (Rabs_pos (B2R level * B2R r)). split; lra.
Qed.
Lemma pan2_clamped L x pos : fle one pos = true -> pan2_process L x pos = pan2_process L x one.
Proof. intros H. unfold pan2_process. now rewrite (angle_hi pos H). Qed.
Lemma pan2_hard_right L x pos : trig_acc L -> fin x -> moderate (B2R x) -> fle one pos = true ->
  within (bpow radix2 (-20)) (fst (pan2_process L x pos)) 0 (B2R x) /\
  within (bpow radix2 (-20)) (snd (pan2_process L x pos)) 1 (B2R x).
Proof.
  intros T F M H. rewrite (pan2_clamped L x pos H). destruct (lev_near L one x T eq_refl F M) as (A & _ & B & _).
  unfold pan2_process, fst, snd. rewrite (proj1 angle_one_R) in *. pose proof A1_bnd as HA. pose proof PI_bounds as HP.
  assert (C : Rabs (cos A1) <= / 20000000).
  { pose proof (cos_lip A1 (PI / 2)) as Q. rewrite cos_PI2, Rminus_0_r in Q. eapply Rle_trans; [exact Q|]. apply Rabs_le. lra. }
  assert (S : Rabs (sin A1 - 1) <= / 20000000).
  { pose proof (sin_lip A1 (PI / 2)) as Q. rewrite sin_PI2 in Q. eapply Rle_trans; [exact Q|]. apply Rabs_le. lra. }
  assert (X : forall y q h, near (bpow radix2 (-22)) (bpow radix2 (-47)) y q (B2R x) -> Rabs q <= 1 -> Rabs (q - h) <= / 20000000 ->
     within (bpow radix2 (-20)) y h (B2R x)).
  { clear. intros y q h [Fy E] Q D. split; [exact Fy|].
    replace (B2R y - h * B2R x) with ((B2R y - q * B2R x) + (q - h) * B2R x) by ring.
    eapply Rle_trans; [apply Rabs_triang|]. rewrite (Rabs_mult (q - h)). pose proof (Rabs_pos (B2R x)). revert E. bp. intros E.
    assert (Rabs (B2R x) * (/ 4194304 * Rabs q + / 140737488355328) <= Rabs (B2R x) * (/ 4194304 * 1 + / 140737488355328)) by (apply Rmult_le_compat_l; lra).
    assert (Rabs (q - h) * Rabs (B2R x) <= / 20000000 * Rabs (B2R x)) by (apply Rmult_le_compat_r; lra). lra. }
  split; eapply X; eauto using cos1, sin1. now rewrite Rminus_0_r.
Qed.
