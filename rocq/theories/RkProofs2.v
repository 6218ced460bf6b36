(** Runge-Kutta ladder: every state stays bounded. *)
From Coq Require Import ZArith Reals Lra Lia Bool Psatz List.
From Flocq Require Import Core BinarySingleNaN.
From Verif Require Import Flt FltFacts FltMore FltKey FltArith Libm UtilModel UtilProofs Dbl LpProofs MgModel MgSpec MgBase RdProofs2 ImProofs RkModel RkProofs LaSpec.
Import ListNotations.
Local Open Scope R_scope.

Definition pp : R := 13176795 / 2097152.
(** The coefficient is an exact product of two floats, so small multiples of it are doubles. *)
Lemma coeff_R (cut : f32) : fin cut -> fin (fmul (fmul (dz 2) dPI) (f2d cut)) /\ B2R (fmul (fmul (dz 2) dPI) (f2d cut)) = pp * B2R cut.
Proof.
  intros Fc. destruct (f2d_R cut Fc) as [Cd Ec]. assert (FK : fin (fmul (dz 2) dPI)) by ffin. assert (VK : B2R (fmul (dz 2) dPI) = pp) by (fval (fmul (dz 2) dPI); unfold pp; lra).
  assert (E : pp * B2R cut = 13176795 * bpow radix2 (-21) * B2R cut) by (unfold pp; bp; lra).
  assert (D : dy64 (pp * B2R cut)) by (rewrite E; apply dy_mul32; lia).
  destruct (fmul_b (pp * B2R cut) (pp * B2R cut) (fmul (dz 2) dPI) (f2d cut) D D FK Cd) as (F & _ & B); [rewrite VK, Ec; lra|]. split; [exact F|]. lra.
Qed.
Lemma coeff_dy (cut : f32) n : (Z.abs n <= 24)%Z -> dy64 (IZR n * (pp * B2R cut)).
Proof.
  intros N. replace (IZR n * (pp * B2R cut)) with (IZR (n * 13176795) * bpow radix2 (-21) * B2R cut); [apply dy_mul32; lia|]. rewrite mult_IZR. unfold pp. bp. field.
Qed.

Section Comp.
  Context (m : Z) (Hm : (1 <= m <= 64)%Z) (c h : f64) (C : R) (Fc : fin c) (Ec : B2R c = C) (PC : 0 <= C) (DC : forall n, (Z.abs n <= 24)%Z -> dy64 (IZR n * C)).
  Context (Fh : fin h) (Lh : bpow radix2 (-90) <= B2R h) (HC : B2R h * C <= IZR m * (982 / 10000)).
  Let E4 : R := IZR m * (101 / 256).
  Let B : R := 49 / 16 + 2 * E4.
  Lemma Pm : 1 <= IZR m <= 64. Proof. split; apply IZR_le; lia. Qed.
  Lemma dyE (a b : Z) : (Z.abs a < 2 ^ 20)%Z -> (Z.abs b < 2 ^ 20)%Z -> dy64 (IZR a / 16 + IZR b * E4).
  Proof.
    intros A Bb. unfold E4. replace (IZR a / 16 + IZR b * (IZR m * (101 / 256))) with (IZR (16 * a + b * m * 101) * bpow radix2 (-8)); [apply dyn; nia|].
    rewrite plus_IZR, !mult_IZR. bp. lra.
  Qed.
  Lemma dE4 : dy64 E4. Proof. replace E4 with (0 / 16 + 1 * E4) by lra. apply (dyE 0 1); lia. Qed.
  Lemma d0 : dy64 0. Proof. apply dy_0. Qed.
  (** A derivative. *)
  Lemma k_ok (A y : f64) : bd 2 A -> fin y -> let k := fmul c (fsub A (rk_clip y)) in
    fin k /\ - (4 * C) <= B2R k <= 4 * C /\ (49 / 16 <= B2R y -> B2R k <= 0) /\ (B2R y <= - (49 / 16) -> 0 <= B2R k).
  Proof.
    intros [FA BA] Fy. destruct (clip_R y Fy) as (Ft & Bt & Up & Dn). set (t := rk_clip y) in *. clearbody t. cbv zeta. apply Rabs_le_inv in BA, Bt.
    assert (d4 : dy64 4) by dynum 4%Z 0%Z.
    assert (SB : forall l r, dy64 l -> dy64 r -> l <= B2R A - B2R t <= r -> fin (fsub A t) /\ l <= B2R (fsub A t) <= r) by (intros l r Dl Dr X; destruct (fsub_b l r A t Dl Dr FA Ft X) as (F & _ & R); auto).
    destruct (SB (- 4) 4 (dy_opp _ d4) d4 ltac:(lra)) as [Fs Bs]. pose proof (DC 4 ltac:(lia)) as D4.
    assert (MB : forall l r, dy64 l -> dy64 r -> l <= C * B2R (fsub A t) <= r -> fin (fmul c (fsub A t)) /\ l <= B2R (fmul c (fsub A t)) <= r) by (intros l r Dl Dr X; destruct (fmul_b l r c (fsub A t) Dl Dr Fc Fs ltac:(rewrite Ec; exact X)) as (F & _ & R); auto).
    destruct (MB (- (4 * C)) (4 * C) (dy_opp _ D4) D4 ltac:(nra)) as [Fk Bk]. split; [exact Fk|]. split; [exact Bk|].
    split; intros K.
    - specialize (Up K). destruct (SB (- 4) 0 (dy_opp _ d4) d0 ltac:(lra)) as [_ N]. destruct (MB (- (4 * C)) 0 (dy_opp _ D4) d0 ltac:(nra)). lra.
    - specialize (Dn K). destruct (SB 0 4 d0 d4 ltac:(lra)) as [_ N]. destruct (MB 0 (4 * C) d0 D4 ltac:(nra)). lra.
  Qed.
  (** A step of at most [h] along a derivative. *)
  Lemma step_ok (x hh k : f64) : fin x -> Rabs (B2R x) <= B -> fin hh -> 0 <= B2R hh -> fin k -> Rabs (B2R hh * B2R k) <= E4 ->
    fin (fadd x (fmul hh k)) /\ B2R x - B2R x - (B + 2 * E4) <= B2R (fadd x (fmul hh k)) <= B + 2 * E4 /\
    (B2R k <= 0 -> B2R (fadd x (fmul hh k)) <= B2R x) /\ (0 <= B2R k -> B2R x <= B2R (fadd x (fmul hh k))) /\
    (49 / 16 + E4 <= B2R x -> 49 / 16 <= B2R (fadd x (fmul hh k))) /\ (B2R x <= - (49 / 16 + E4) -> B2R (fadd x (fmul hh k)) <= - (49 / 16)) /\
    (B2R x <= 49 / 16 + E4 -> B2R (fadd x (fmul hh k)) <= B) /\ (- (49 / 16 + E4) <= B2R x -> - B <= B2R (fadd x (fmul hh k))).
  Proof.
    intros Fx Bx Fhh Phh Fk X. apply Rabs_le_inv in X, Bx. pose proof dE4 as DE. pose proof d0 as D0.
    assert (MB : forall l r, dy64 l -> dy64 r -> l <= B2R hh * B2R k <= r -> fin (fmul hh k) /\ l <= B2R (fmul hh k) <= r) by (intros l r Dl Dr Y; destruct (fmul_b l r hh k Dl Dr Fhh Fk Y) as (F & _ & R); auto).
    destruct (MB (- E4) E4 (dy_opp _ DE) DE X) as [Fp Bp].
    assert (N1 : B2R k <= 0 -> B2R (fmul hh k) <= 0) by (intros K; destruct (MB (- E4) 0 (dy_opp _ DE) D0 ltac:(nra)); lra).
    assert (N2 : 0 <= B2R k -> 0 <= B2R (fmul hh k)) by (intros K; destruct (MB 0 E4 D0 DE ltac:(nra)); lra).
    clear MB X. set (p := fmul hh k) in *. clearbody p.
    assert (PE : 0 < E4) by (unfold E4; pose proof Pm; lra).
    assert (DB : dy64 B) by (replace B with (49 / 16 + 2 * E4) by reflexivity; apply (dyE 49 2); lia).
    assert (DB2 : dy64 (B + 2 * E4)) by (replace (B + 2 * E4) with (49 / 16 + 4 * E4) by (unfold B; lra); apply (dyE 49 4); lia).
    assert (D49 : dy64 (49 / 16)) by dynum 49%Z (-4)%Z. pose proof (dy_B2R x) as DX.
    assert (AB : forall l r, dy64 l -> dy64 r -> l <= B2R x + B2R p <= r -> fin (fadd x p) /\ l <= B2R (fadd x p) <= r) by (intros l r Dl Dr Y; destruct (fadd_b l r x p Dl Dr Fx Fp Y) as (F & _ & R); auto).
    destruct (AB (- (B + 2 * E4)) (B + 2 * E4) (dy_opp _ DB2) DB2 ltac:(lra)) as [Fs Bs].
    split; [exact Fs|]. split; [lra|].
    split; [intros K; specialize (N1 K); destruct (AB (- (B + 2 * E4)) (B2R x) (dy_opp _ DB2) DX ltac:(lra)); lra|].
    split; [intros K; specialize (N2 K); destruct (AB (B2R x) (B + 2 * E4) DX DB2 ltac:(lra)); lra|].
    split; [intros K; destruct (AB (49 / 16) (B + 2 * E4) D49 DB2 ltac:(lra)); lra|].
    split; [intros K; destruct (AB (- (B + 2 * E4)) (- (49 / 16)) (dy_opp _ DB2) (dy_opp _ D49) ltac:(lra)); lra|].
    split; [intros K; destruct (AB (- (B + 2 * E4)) B (dy_opp _ DB2) DB ltac:(unfold B in *; lra)); lra|].
    intros K; destruct (AB (- B) (B + 2 * E4) (dy_opp _ DB) DB2 ltac:(unfold B in *; lra)); lra.
  Qed.
  Definition hh2 : f64 := fmul (ddec 1 2) h.
  Definition hh6 : f64 := fmul (fdiv (dz 1) (dz 6)) h.
  Lemma hh2_R : fin hh2 /\ 0 <= B2R hh2 <= B2R h.
  Proof.
    pose proof (bpow_gt_0 radix2 (-90)). assert (V : B2R (ddec 1 2) = / 2) by (fval (ddec 1 2); lra). destruct (fmul_b 0 (B2R h) (ddec 1 2) h d0 (dy_B2R h) ltac:(ffin) Fh) as (F & _ & R); [rewrite V; lra|]. auto.
  Qed.
  Lemma hh6_R : fin hh6 /\ 0 <= B2R hh6 <= B2R h * (16667 / 100000).
  Proof.
    pose proof (bpow_gt_0 radix2 (-90)). assert (V : 1666 / 10000 <= B2R (fdiv (dz 1) (dz 6)) <= 166667 / 1000000) by (fval (fdiv (dz 1) (dz 6)); lra). assert (FS : fin (fdiv (dz 1) (dz 6))) by ffin. unfold hh6. set (s := fdiv (dz 1) (dz 6)) in *. clearbody s.
    destruct (fmul_b 0 (B2R h) s h d0 (dy_B2R h) FS Fh) as (F & E & R); [nra|]. split; [exact F|]. split; [lra|]. pose proof (rnd_rel (prec:=53) (emax:=1024) (B2R s * B2R h)) as Q. rewrite <- E in Q. rewrite (Rabs_pos_eq (B2R s * B2R h)) in Q by nra.
    apply Rabs_le_inv in Q. change (bpow radix2 (- (53))) with (bpow radix2 (-53)) in Q. assert (U1 : bpow radix2 (-53) <= / 1000000000) by (bp; lra). assert (U2 : bpow radix2 (SpecFloat.emin 53 1024 - 1) <= bpow radix2 (-90) * / 1000000000).
    { apply Rle_trans with (bpow radix2 (-90) * bpow radix2 (-30)); [rewrite <- bpow_plus; apply bpow_le; cbn; lia|]. apply Rmult_le_compat_l; [lra|bp; lra]. }
    pose proof (bpow_gt_0 radix2 (-53)) as U0. set (u := bpow radix2 (-53)) in *. set (z := bpow radix2 (SpecFloat.emin 53 1024 - 1)) in *. clearbody u z. set (hr := B2R h) in *. set (q := bpow radix2 (-90)) in *. clearbody q.
    assert (u * (B2R s * hr) <= / 1000000000 * (B2R s * hr)) by (apply Rmult_le_compat_r; nra). nra.
  Qed.
  (** One component through the solver: whatever bounded values [A1]..[A4] drive it. *)
  Definition kk (A y : f64) : f64 := fmul c (fsub A (rk_clip y)).
  Lemma comp_ok (x A1 A2 A3 A4 : f64) : fin x -> Rabs (B2R x) <= B -> bd 2 A1 -> bd 2 A2 -> bd 2 A3 -> bd 2 A4 ->
    let k1 := kk A1 x in let y2 := fadd x (fmul hh2 k1) in let k2 := kk A2 y2 in let y3 := fadd x (fmul hh2 k2) in let k3 := kk A3 y3 in let y4 := fadd x (fmul h k3) in let k4 := kk A4 y4 in
    bd B (fadd x (fmul hh6 (fadd (fadd (fadd k1 (fmul (dz 2) k2)) (fmul (dz 2) k3)) k4))).
  Proof.
    intros Fx Bx H1 H2 H3 H4 k1 y2 k2 y3 k3 y4 k4. destruct hh2_R as [F2 B2]. destruct hh6_R as [F6 B6]. pose proof (bpow_gt_0 radix2 (-90)) as P60. pose proof Pm as PM.
    assert (PH : 0 <= B2R h) by lra.
    assert (HK : forall k : f64, - (4 * C) <= B2R k <= 4 * C -> forall q, 0 <= q <= B2R h -> Rabs (q * B2R k) <= E4).
    { intros k Bk q Bq. rewrite Rabs_mult, (Rabs_pos_eq q) by lra. assert (Rabs (B2R k) <= 4 * C) by (apply Rabs_le; lra). pose proof (Rabs_pos (B2R k)). apply Rle_trans with (B2R h * (4 * C)); [apply Rmult_le_compat; lra|]. unfold E4. lra. }
    destruct (k_ok A1 x H1 Fx) as (Fk1 & Bk1 & Up1 & Dn1). change (fmul c (fsub A1 (rk_clip x))) with k1 in Fk1, Bk1, Up1, Dn1. clearbody k1.
    destruct (step_ok x hh2 k1 Fx Bx F2 (proj1 B2) Fk1 (HK k1 Bk1 _ B2)) as (Fy2 & By2 & _ & _ & S2 & T2 & _). fold y2 in Fy2, By2, S2, T2. clearbody y2.
    destruct (k_ok A2 y2 H2 Fy2) as (Fk2 & Bk2 & Up2 & Dn2). change (fmul c (fsub A2 (rk_clip y2))) with k2 in Fk2, Bk2, Up2, Dn2. clearbody k2.
    destruct (step_ok x hh2 k2 Fx Bx F2 (proj1 B2) Fk2 (HK k2 Bk2 _ B2)) as (Fy3 & By3 & _ & _ & S3 & T3 & _). fold y3 in Fy3, By3, S3, T3. clearbody y3.
    destruct (k_ok A3 y3 H3 Fy3) as (Fk3 & Bk3 & Up3 & Dn3). change (fmul c (fsub A3 (rk_clip y3))) with k3 in Fk3, Bk3, Up3, Dn3. clearbody k3.
    destruct (step_ok x h k3 Fx Bx Fh PH Fk3 (HK k3 Bk3 _ (conj PH (Rle_refl _)))) as (Fy4 & By4 & _ & _ & S4 & T4 & _). fold y4 in Fy4, By4, S4, T4. clearbody y4.
    destruct (k_ok A4 y4 H4 Fy4) as (Fk4 & Bk4 & Up4 & Dn4). change (fmul c (fsub A4 (rk_clip y4))) with k4 in Fk4, Bk4, Up4, Dn4. clearbody k4.
    assert (T : B2R (dz 2) = 2) by (fval (dz 2); lra). assert (FT : fin (dz 2)) by ffin.
    (* the weighted sum *)
    assert (SUM : forall a b, (a = 0 \/ a = 1)%Z -> (b = 0 \/ b = 1)%Z -> (forall k, k = k1 \/ k = k2 \/ k = k3 \/ k = k4 -> - (IZR a * (4 * C)) <= B2R k <= IZR b * (4 * C)) ->
      fin (fadd (fadd (fadd k1 (fmul (dz 2) k2)) (fmul (dz 2) k3)) k4) /\ - (IZR a * (24 * C)) <= B2R (fadd (fadd (fadd k1 (fmul (dz 2) k2)) (fmul (dz 2) k3)) k4) <= IZR b * (24 * C)).
    { intros a b Ha Hb K. assert (DA : forall n, (0 <= n <= 24)%Z -> dy64 (- (IZR a * (IZR n * C))) /\ dy64 (IZR b * (IZR n * C))).
      { intros n Hn. split.
        - replace (- (IZR a * (IZR n * C))) with (IZR (- (a * n)) * C) by (rewrite opp_IZR, mult_IZR; ring). apply DC. destruct Ha; subst; lia.
        - replace (IZR b * (IZR n * C)) with (IZR (b * n) * C) by (rewrite mult_IZR; ring). apply DC. destruct Hb; subst; lia. }
      pose proof (K k1 ltac:(auto)) as K1. pose proof (K k2 ltac:(auto)) as K2. pose proof (K k3 ltac:(auto)) as K3. pose proof (K k4 ltac:(auto)) as K4.
      destruct (DA 8%Z ltac:(lia)) as [L8 R8]. destruct (DA 12%Z ltac:(lia)) as [L12 R12]. destruct (DA 20%Z ltac:(lia)) as [L20 R20]. destruct (DA 24%Z ltac:(lia)) as [L24 R24].
      destruct (fmul_b _ _ (dz 2) k2 L8 R8 FT Fk2) as (G2 & _ & J2); [rewrite T; lra|]. destruct (fmul_b _ _ (dz 2) k3 L8 R8 FT Fk3) as (G3 & _ & J3); [rewrite T; lra|].
      destruct (fadd_b _ _ k1 (fmul (dz 2) k2) L12 R12 Fk1 G2) as (G4 & _ & J4); [lra|]. destruct (fadd_b _ _ (fadd k1 (fmul (dz 2) k2)) (fmul (dz 2) k3) L20 R20 G4 G3) as (G5 & _ & J5); [lra|].
      destruct (fadd_b _ _ (fadd (fadd k1 (fmul (dz 2) k2)) (fmul (dz 2) k3)) k4 L24 R24 G5 Fk4) as (G6 & _ & J6); [lra|]. auto. }
    destruct (SUM 1%Z 1%Z ltac:(auto) ltac:(auto)) as [Fs Bs]; [intros k [->|[->|[->| ->]]]; lra|].
    assert (NEG : 49 / 16 + E4 <= B2R x -> B2R (fadd (fadd (fadd k1 (fmul (dz 2) k2)) (fmul (dz 2) k3)) k4) <= 0).
    { intros K. assert (PE : 0 < E4) by (unfold E4; lra). specialize (Up1 ltac:(lra)). specialize (Up2 (S2 K)). specialize (Up3 (S3 K)). specialize (Up4 (S4 K)). destruct (SUM 1%Z 0%Z ltac:(auto) ltac:(auto)) as [_ J]; [intros k [->|[->|[->| ->]]]; lra|]. lra. }
    assert (POS : B2R x <= - (49 / 16 + E4) -> 0 <= B2R (fadd (fadd (fadd k1 (fmul (dz 2) k2)) (fmul (dz 2) k3)) k4)).
    { intros K. assert (PE : 0 < E4) by (unfold E4; lra). specialize (Dn1 ltac:(lra)). specialize (Dn2 (T2 K)). specialize (Dn3 (T3 K)). specialize (Dn4 (T4 K)). destruct (SUM 0%Z 1%Z ltac:(auto) ltac:(auto)) as [_ J]; [intros k [->|[->|[->| ->]]]; lra|]. lra. }
    clear SUM. set (sm := fadd (fadd (fadd k1 (fmul (dz 2) k2)) (fmul (dz 2) k3)) k4) in *. clearbody sm.
    assert (X : Rabs (B2R hh6 * B2R sm) <= E4).
    { rewrite Rabs_mult, (Rabs_pos_eq (B2R hh6)) by lra. assert (Rabs (B2R sm) <= 24 * C) by (apply Rabs_le; lra). pose proof (Rabs_pos (B2R sm)). apply Rle_trans with (B2R h * (16667 / 100000) * (24 * C)); [apply Rmult_le_compat; lra|]. replace (B2R h * (16667 / 100000) * (24 * C)) with (B2R h * C * (400008 / 100000)) by field. unfold E4. lra. }
    destruct (step_ok x hh6 sm Fx Bx F6 (proj1 B6) Fs X) as (Fz & Bz & S & T' & _ & _ & U & V). split; [exact Fz|]. apply Rabs_le_inv in Bx. assert (PE : 0 < E4) by (unfold E4; lra). apply Rabs_le. split.
    - destruct (Rle_lt_dec (B2R x) (- (49 / 16 + E4))) as [K|K]; [specialize (T' (POS K)); lra|apply V; lra].
    - destruct (Rle_lt_dec (49 / 16 + E4) (B2R x)) as [K|K]; [specialize (S (NEG K)); lra|apply U; lra].
  Qed.
End Comp.
