(** Bounds and settling of the disturbed resonant lowpass. *)
From Coq Require Import Reals Lra Lia Psatz.
From Flocq Require Import Core.
From Coquelicot Require Import Complex.
From Verif Require Import LpReal.
Local Open Scope R_scope.

(** A step whose disturbances are at most [kap] times (C + size of the state). *)
Definition dstep (b0 a1 a2 kap C x : R) (z z' : R * R) : Prop :=
  exists y e0 e1 e2, rstep b0 a1 a2 x e0 e1 e2 (fst z) (snd z) y (fst z') (snd z') /\ 2 * Rabs e0 + Rabs e1 + Rabs e2 <= kap * (C + Rabs (fst z) + Rabs (snd z)).

(** A contraction with a constant term ends up below twice its fixed point. *)
Lemma contract (N : nat -> R) m g : 0 <= m < 1 -> 0 < g -> (forall n, N (S n) <= m * N n + g) -> exists k, forall n, (k <= n)%nat -> N n <= 2 * g / (1 - m).
Proof.
  intros Hm Hg H. set (t := g / (1 - m)). assert (T : 0 < t) by (unfold t; apply Rmult_lt_0_compat; [lra|apply Rinv_0_lt_compat; lra]).
  assert (Tm : m * t + g = t) by (unfold t; field; lra).
  assert (A : forall n, N n - t <= m ^ n * Rabs (N 0%nat - t)).
  { induction n as [|n IH]; [cbn [pow]; rewrite Rmult_1_l; apply Rle_abs|]. specialize (H n). cbn [pow]. assert (m * (N n - t) <= m * (m ^ n * Rabs (N 0%nat - t))) by (apply Rmult_le_compat_l; lra). lra. }
  set (B := Rabs (N 0%nat - t)) in *. assert (B0 : 0 <= B) by apply Rabs_pos.
  destruct (pow_lt_1_zero m ltac:(rewrite Rabs_pos_eq; lra) (t / (B + 1)) ltac:(apply Rmult_lt_0_compat; [lra|apply Rinv_0_lt_compat; lra])) as [k Hk].
  exists k. intros n Hn. specialize (Hk n Hn). specialize (A n). rewrite Rabs_pos_eq in Hk by (apply pow_le; lra).
  assert (m ^ n * B <= t). { apply Rle_trans with (t / (B + 1) * B); [apply Rmult_le_compat_r; lra|]. unfold Rdiv. rewrite Rmult_assoc. rewrite <- (Rmult_1_r t) at 2. apply Rmult_le_compat_l; [lra|].
    apply Rmult_le_reg_r with (B + 1); [lra|]. rewrite Rmult_assoc, (Rmult_comm B), <- Rmult_assoc, Rinv_l by lra. lra. }
  unfold t in *. lra.
Qed.
(** The same with a threshold: a quantity multiplied by [m] as long as it is above [t]. *)
Lemma contract_to (N0 m t : R) : 0 <= m < 1 -> 0 < t -> exists k, Rmax t (m ^ k * N0) = t.
Proof.
  intros Hm Ht. destruct (pow_lt_1_zero m ltac:(rewrite Rabs_pos_eq; lra) (t / (Rabs N0 + 1)) ltac:(apply Rmult_lt_0_compat; [lra|apply Rinv_0_lt_compat; pose proof (Rabs_pos N0); lra])) as [k Hk].
  exists k. specialize (Hk k (Nat.le_refl k)). rewrite Rabs_pos_eq in Hk by (apply pow_le; lra). pose proof (Rabs_pos N0). pose proof (pow_le m k ltac:(lra)).
  apply Rmax_left. apply Rle_trans with (m ^ k * Rabs N0); [apply Rmult_le_compat_l; [lra|apply Rle_abs]|].
  apply Rle_trans with (t / (Rabs N0 + 1) * Rabs N0); [apply Rmult_le_compat_r; lra|]. unfold Rdiv. rewrite Rmult_assoc. rewrite <- (Rmult_1_r t) at 2. apply Rmult_le_compat_l; [lra|].
  apply Rmult_le_reg_r with (Rabs N0 + 1); [lra|]. rewrite Rmult_assoc, (Rmult_comm (Rabs N0)), <- Rmult_assoc, Rinv_l by lra. lra.
Qed.

Section Gauge.
  Variables b0 a1 a2 kap C : R.
  Hypothesis B0 : 0 <= b0.
  Hypothesis A1 : Rabs a1 <= 2.
  Hypothesis K0 : 0 < kap.
  Hypothesis C0 : 0 <= C.
  Variables p q : Complex.C.
  Hypothesis Rp : (p * p = - a1 * p - a2)%C.
  Hypothesis Pq : (p + q = - a1)%C.
  Hypothesis Lp : Cmod p < 1.
  Hypothesis Lq : Cmod q < 1.
  Let P := Cmod p.
  Let Qm := Cmod q.
  Let F1 := b0 * (Cmod (1 + p)%C * Cmod (1 + p)%C).
  Let F2 := b0 * (2 - a1).
  Definition wz (z : R * R) : R := Cmod (wv p (fst z) (snd z)).
  Lemma wz_pos z : 0 <= wz z. Proof. apply Cmod_ge_0. Qed.
  Lemma P_pos : 0 <= P. Proof. apply Cmod_ge_0. Qed.
  Lemma Q_pos : 0 <= Qm. Proof. apply Cmod_ge_0. Qed.
  Lemma wz_z2 z : Rabs (snd z) <= wz z + Rabs (fst z).
  Proof. pose proof (wv_z2 p (fst z) (snd z)) as H. fold (wz z) in H. pose proof (Rabs_pos (fst z)). assert (Cmod p * Rabs (fst z) <= 1 * Rabs (fst z)) by (apply Rmult_le_compat_r; lra). lra. Qed.
  Lemma wz_le Z z : Rabs (fst z) <= Z -> Rabs (snd z) <= Z -> wz z <= 2 * Z.
  Proof. intros H1 H2. pose proof (wv_le p (fst z) (snd z)) as H. fold (wz z) in H. pose proof (Rabs_pos (fst z)). assert (Cmod p * Rabs (fst z) <= 1 * Rabs (fst z)) by (apply Rmult_le_compat_r; lra). lra. Qed.
  Lemma step_w X x z z' : dstep b0 a1 a2 kap C x z z' -> Rabs x <= X -> wz z' <= P * wz z + F1 * X + kap * (C + 2 * Rabs (fst z) + wz z).
  Proof.
    intros (y & e0 & e1 & e2 & S & E) Hx. pose proof (w_bound p b0 a1 a2 x e0 e1 e2 _ _ _ _ _ Rp ltac:(lra) B0 S) as H. fold (wz z) (wz z') P in H.
    pose proof (wz_z2 z). pose proof (Rabs_pos e0). assert (F1 * Rabs x <= F1 * X). { apply Rmult_le_compat_l; [|exact Hx]. unfold F1. pose proof (Cmod_ge_0 (1 + p)%C). apply Rmult_le_pos; nra. }
    unfold F1 in *. assert (kap * (C + Rabs (fst z) + Rabs (snd z)) <= kap * (C + 2 * Rabs (fst z) + wz z)) by (apply Rmult_le_compat_l; lra). lra.
  Qed.
  Lemma F2_pos : 0 <= F2. Proof. unfold F2. apply Rabs_le_inv in A1. apply Rmult_le_pos; lra. Qed.
  Lemma step_z X x z z' : dstep b0 a1 a2 kap C x z z' -> Rabs x <= X -> Rabs (fst z') <= Qm * Rabs (fst z) + wz z + F2 * X + kap * (C + 2 * Rabs (fst z) + wz z).
  Proof.
    intros (y & e0 & e1 & e2 & S & E) Hx. pose proof (z_bound p q b0 a1 a2 x e0 e1 e2 _ _ _ _ _ Pq A1 B0 S) as H. fold (wz z) Qm F2 in H.
    pose proof (wz_z2 z). pose proof (Rabs_pos e2). assert (F2 * Rabs x <= F2 * X) by (apply Rmult_le_compat_l; [apply F2_pos|exact Hx]).
    assert (kap * (C + Rabs (fst z) + Rabs (snd z)) <= kap * (C + 2 * Rabs (fst z) + wz z)) by (apply Rmult_le_compat_l; lra). lra.
  Qed.

  (** First kind of bound: a pole well off the real axis. *)
  Section Im.
    Variable I : R.
    Hypothesis I0 : 0 < I <= 1.
    Hypothesis IP : I = Rabs (snd p).
    Hypothesis Small : 48 * kap <= (1 - P) * I.
    Lemma z_w z : Rabs (fst z) <= wz z / I.
    Proof. pose proof (wv_im p (fst z) (snd z)) as H. rewrite <- IP in H. fold (wz z) in H. apply Rmult_le_reg_l with I; [lra|]. replace (I * (wz z / I)) with (wz z) by (field; lra). exact H. Qed.
    Lemma step_I X x z z' : dstep b0 a1 a2 kap C x z z' -> Rabs x <= X -> wz z' <= (1 - 15 / 16 * (1 - P)) * wz z + F1 * X + kap * C.
    Proof.
      intros S Hx. pose proof (step_w X x z z' S Hx) as H. pose proof (z_w z) as Z. pose proof (wz_pos z) as W. set (w := wz z) in *.
      assert (T : kap * (2 * Rabs (fst z) + w) <= 1 / 16 * (1 - P) * w).
      { apply Rle_trans with (kap * (3 * (w / I))).
        - apply Rmult_le_compat_l; [lra|]. assert (w <= w / I). { apply Rmult_le_reg_r with I; [lra|]. replace (w / I * I) with w by (field; lra). nra. } lra.
        - replace (kap * (3 * (w / I))) with (3 * kap * w / I) by (field; lra). apply Rmult_le_reg_r with I; [lra|]. replace (3 * kap * w / I * I) with (3 * kap * w) by (field; lra). nra. }
      lra.
    Qed.
    Lemma keep_I W X x z z' : 16 / 15 * (F1 * X + kap * C) <= (1 - P) * W -> dstep b0 a1 a2 kap C x z z' -> Rabs x <= X -> wz z <= W -> wz z' <= W.
    Proof.
      intros HW S Hx H. pose proof (step_I X x z z' S Hx) as T. pose proof P_pos.
      assert ((1 - 15 / 16 * (1 - P)) * wz z <= (1 - 15 / 16 * (1 - P)) * W) by (apply Rmult_le_compat_l; unfold P in *; lra). lra.
    Qed.
  End Im.

  (** Second kind: two stages. *)
  Section Two.
    Hypothesis Small : 96 * kap <= (1 - P) * (1 - Qm).
    Variables X Z0 : R.
    Hypothesis X0 : 0 <= X.
    Hypothesis Z00 : 0 <= Z0.
    Let D := (1 - P) * (1 - Qm).
    Lemma D_pos : 0 < D. Proof. unfold D, P, Qm. apply Rmult_lt_0_compat; lra. Qed.
    Definition Zb : R := 16 / 15 * (F1 / D * X + F2 / (1 - Qm) * X + 2 * kap * C / D + 3 * Z0 / (1 - Qm)).
    Definition Wb : R := (F1 * X + kap * (C + 3 * Zb)) / (1 - P) + 2 * Z0.
    Lemma F1_pos : 0 <= F1. Proof. unfold F1. pose proof (Cmod_ge_0 (1 + p)%C). apply Rmult_le_pos; nra. Qed.
    Lemma Zb_pos : 0 <= Zb.
    Proof.
      unfold Zb. pose proof D_pos. pose proof F1_pos. pose proof F2_pos. assert (0 < 1 - Qm) by (unfold Qm; lra).
      assert (I1 := Rinv_0_lt_compat D ltac:(lra)). assert (I2 := Rinv_0_lt_compat (1 - Qm) ltac:(lra)). unfold Rdiv.
      assert (0 <= F1 * / D * X) by (apply Rmult_le_pos; [apply Rmult_le_pos|]; lra). assert (0 <= F2 * / (1 - Qm) * X) by (apply Rmult_le_pos; [apply Rmult_le_pos|]; lra).
      assert (0 <= 2 * kap * C * / D) by (apply Rmult_le_pos; [apply Rmult_le_pos|]; lra). assert (0 <= 3 * Z0 * / (1 - Qm)) by (apply Rmult_le_pos; lra). lra.
    Qed.
    Lemma Wb_Zb : Wb + F2 * X + kap * (C + 3 * Zb) <= (1 - Qm) * Zb - (1 - Qm) * Z0.
    Proof.
      pose proof D_pos as HD. pose proof Zb_pos as HZ. pose proof P_pos as HP. pose proof Q_pos as HQ. assert (A : 0 < 1 - Qm) by (unfold Qm; lra). assert (Ap : 0 < 1 - P) by (unfold P; lra).
      set (g := kap * (C + 3 * Zb)). assert (G : 0 <= g) by (unfold g; apply Rmult_le_pos; lra).
      assert (Gp : g <= g / (1 - P)). { apply Rmult_le_reg_r with (1 - P); [exact Ap|]. unfold Rdiv. rewrite Rmult_assoc, Rinv_l by lra. nra. }
      assert (Q1 : 2 * g / (1 - P) <= (1 - Qm) * (2 * kap * C / D + Zb / 16)).
      { replace (2 * g / (1 - P)) with ((1 - Qm) * (2 * g / D)) by (unfold D; field; split; lra). apply Rmult_le_compat_l; [lra|].
        unfold g. replace (2 * (kap * (C + 3 * Zb)) / D) with (2 * kap * C / D + 6 * kap * Zb / D) by (field; lra). apply Rplus_le_compat_l.
        apply Rmult_le_reg_r with D; [exact HD|]. replace (6 * kap * Zb / D * D) with (6 * kap * Zb) by (field; lra). unfold D. nra. }
      assert (E : (1 - Qm) * Zb = (1 - Qm) * (Zb / 16) + ((1 - Qm) * (F1 / D * X) + F2 * X + (1 - Qm) * (2 * kap * C / D) + 3 * Z0)).
      { replace ((1 - Qm) * Zb) with ((1 - Qm) * (Zb / 16) + (1 - Qm) * (15 / 16 * Zb)) by field. f_equal. unfold Zb. field. split; lra. }
      assert (E1 : (1 - Qm) * (F1 / D * X) = F1 * X / (1 - P)) by (unfold D; field; split; lra).
      unfold Wb. fold g. replace ((F1 * X + g) / (1 - P)) with (F1 * X / (1 - P) + g / (1 - P)) by (field; lra).
      replace (2 * g / (1 - P)) with (g / (1 - P) + g / (1 - P)) in Q1 by (field; lra). rewrite Rmult_plus_distr_l in Q1.
      assert ((1 - Qm) * Z0 <= 1 * Z0) by (apply Rmult_le_compat_r; lra). lra.
    Qed.
    Lemma Wb_le : Wb <= Zb.
    Proof.
      pose proof Wb_Zb as H. pose proof Zb_pos. pose proof Q_pos. pose proof F2_pos. assert (0 <= F2 * X) by (apply Rmult_le_pos; lra). assert (0 <= kap * (C + 3 * Zb)) by (apply Rmult_le_pos; lra).
      assert (0 <= (1 - Qm) * Z0) by (apply Rmult_le_pos; unfold Qm in *; lra). nra.
    Qed.
    Lemma keep_Two x z z' : dstep b0 a1 a2 kap C x z z' -> Rabs x <= X -> wz z <= Wb /\ Rabs (fst z) <= Zb -> wz z' <= Wb /\ Rabs (fst z') <= Zb.
    Proof.
      intros S Hx [Hw Hz]. pose proof Wb_le as WZ. pose proof Wb_Zb as WZ2. pose proof (step_w X x z z' S Hx) as H1. pose proof (step_z X x z z' S Hx) as H2.
      assert (G : kap * (C + 2 * Rabs (fst z) + wz z) <= kap * (C + 3 * Zb)) by (apply Rmult_le_compat_l; lra).
      assert (Ap : 0 < 1 - P) by (unfold P; lra). pose proof P_pos. pose proof Q_pos.
      assert (P * wz z <= P * Wb) by (apply Rmult_le_compat_l; lra). assert (Qm * Rabs (fst z) <= Qm * Zb) by (apply Rmult_le_compat_l; lra).
      split.
      - assert (E : (1 - P) * Wb = F1 * X + kap * (C + 3 * Zb) + (1 - P) * (2 * Z0)) by (unfold Wb; field; lra). assert (0 <= (1 - P) * (2 * Z0)) by (apply Rmult_le_pos; lra). lra.
      - assert (0 <= (1 - Qm) * Z0) by (apply Rmult_le_pos; unfold Qm in *; lra). lra.
    Qed.
    Lemma start_Two z : Rabs (fst z) <= Z0 -> Rabs (snd z) <= Z0 -> wz z <= Wb /\ Rabs (fst z) <= Zb.
    Proof.
      intros H1 H2. pose proof Zb_pos as HZ. pose proof F1_pos. pose proof F2_pos. assert (A : 0 < 1 - Qm) by (unfold Qm; lra). assert (Ap : 0 < 1 - P) by (unfold P; lra). split.
      - pose proof (wz_le Z0 z H1 H2). unfold Wb. assert (0 <= (F1 * X + kap * (C + 3 * Zb)) / (1 - P)); [|lra].
        apply Rmult_le_pos; [|left; apply Rinv_0_lt_compat; lra]. apply Rplus_le_le_0_compat; apply Rmult_le_pos; lra.
      - pose proof Wb_Zb as W. assert (0 <= Wb). { unfold Wb. apply Rplus_le_le_0_compat; [|lra]. apply Rmult_le_pos; [|left; apply Rinv_0_lt_compat; lra]. apply Rplus_le_le_0_compat; apply Rmult_le_pos; lra. }
        assert (0 <= F2 * X) by (apply Rmult_le_pos; lra). assert (0 <= kap * (C + 3 * Zb)) by (apply Rmult_le_pos; lra). nra.
    Qed.
  End Two.

  (** Settling without input. *)
  Section Settle.
    Hypothesis C1 : 0 < C.
    Variable zs : nat -> R * R.
    Hypothesis St : forall n, dstep b0 a1 a2 kap C 0 (zs n) (zs (S n)).
    Lemma settle_I I : 0 < I <= 1 -> I = Rabs (snd p) -> 48 * kap <= (1 - P) * I -> exists k, forall n, (k <= n)%nat -> Rabs (fst (zs n)) <= 32 / 15 * kap * C / ((1 - P) * I).
    Proof.
      intros I0 IP Sm. assert (Ap : 0 < 1 - P) by (unfold P; lra). pose proof P_pos.
      destruct (contract (fun n => wz (zs n)) (1 - 15 / 16 * (1 - P)) (kap * C)) as [k Hk].
      - lra.
      - apply Rmult_lt_0_compat; lra.
      - intro n. pose proof (step_I I I0 IP Sm 0 0 (zs n) (zs (S n)) (St n) ltac:(rewrite Rabs_R0; lra)). lra.
      - exists k. intros n Hn. specialize (Hk n Hn). cbn beta in Hk. pose proof (z_w I I0 IP (zs n)) as Z.
        eapply Rle_trans; [exact Z|]. apply Rmult_le_reg_r with I; [lra|]. replace (wz (zs n) / I * I) with (wz (zs n)) by (field; lra).
        replace (32 / 15 * kap * C / ((1 - P) * I) * I) with (2 * (kap * C) / (1 - (1 - 15 / 16 * (1 - P)))) by (field; split; lra). exact Hk.
    Qed.
    Lemma settle_Two : 96 * kap <= (1 - P) * (1 - Qm) -> exists k, forall n, (k <= n)%nat -> Rabs (fst (zs n)) <= 17 * kap * C / ((1 - P) * (1 - Qm)).
    Proof.
      intros Sm. set (D := (1 - P) * (1 - Qm)) in *. assert (Ap : 0 < 1 - P) by (unfold P; lra). assert (Aq : 0 < 1 - Qm) by (unfold Qm; lra). pose proof P_pos as HP. pose proof Q_pos as HQ.
      assert (D0 : 0 < D) by (unfold D; apply Rmult_lt_0_compat; lra). assert (Dp : D <= 1 - P) by (unfold D; nra). assert (Dq : D <= 1 - Qm) by (unfold D; nra).
      set (t := 17 * kap * C / D). assert (T : 0 < t). { unfold t. apply Rmult_lt_0_compat; [|apply Rinv_0_lt_compat; lra]. apply Rmult_lt_0_compat; lra. }
      assert (TE : kap * C = D / 17 * t) by (unfold t; field; lra).
      set (m := 1 - 2 / 5 * D). assert (M : 0 <= m < 1) by (unfold m; lra).
      set (Inv := fun N z => Rabs (fst z) <= N /\ wz z <= (1 - Qm) / 2 * N).
      assert (Mono : forall N N' z, Inv N z -> N <= N' -> Inv N' z). { intros N N' z [H1 H2] L. split; [lra|]. apply Rle_trans with (1 := H2). apply Rmult_le_compat_l; lra. }
      assert (Stp : forall N n, t <= N -> Inv N (zs n) -> Inv (m * N) (zs (S n))).
      { intros N n Ht [H1 H2]. assert (N0 : 0 < N) by lra. pose proof (wz_pos (zs n)) as Wp. pose proof (Rabs_pos (fst (zs n))) as Zp.
        pose proof (step_w 0 0 (zs n) (zs (S n)) (St n) ltac:(rewrite Rabs_R0; lra)) as Q1. pose proof (step_z 0 0 (zs n) (zs (S n)) (St n) ltac:(rewrite Rabs_R0; lra)) as Q2.
        set (z := Rabs (fst (zs n))) in *. set (w := wz (zs n)) in *. clearbody z w.
        assert (w1 : w <= N). { assert ((1 - Qm) / 2 * N <= 1 * N) by (apply Rmult_le_compat_r; lra). lra. }
        assert (G : kap * (C + 2 * z + w) <= (D / 17 + D / 32) * N).
        { assert (kap * (2 * z + w) <= kap * (3 * N)) by (apply Rmult_le_compat_l; lra). assert (kap * (3 * N) <= D / 32 * N) by nra. assert (D / 17 * t <= D / 17 * N) by (apply Rmult_le_compat_l; lra). lra. }
        assert (P1 : P * w <= P * ((1 - Qm) / 2 * N)) by (apply Rmult_le_compat_l; lra). assert (P2 : Qm * z <= Qm * N) by (apply Rmult_le_compat_l; lra).
        unfold Inv. split.
        - assert (D * N <= (1 - Qm) * N) by (apply Rmult_le_compat_r; lra). unfold m. lra.
        - assert (E : P * ((1 - Qm) / 2 * N) = (1 - Qm) / 2 * N - D / 2 * N) by (unfold D; field).
          assert (E2 : (1 - Qm) * (D * N) <= 1 * (D * N)) by (apply Rmult_le_compat_r; [apply Rmult_le_pos|]; lra).
          replace ((1 - Qm) / 2 * (m * N)) with ((1 - Qm) / 2 * N - 1 / 5 * ((1 - Qm) * (D * N))) by (unfold m; field).
          assert (0 <= D * N) by (apply Rmult_le_pos; lra). lra. }
      set (Z := Rabs (fst (zs 0%nat)) + Rabs (snd (zs 0%nat))).
      assert (Z1 : Rabs (fst (zs 0%nat)) <= Z /\ Rabs (snd (zs 0%nat)) <= Z /\ 0 <= Z). { unfold Z. pose proof (Rabs_pos (fst (zs 0%nat))). pose proof (Rabs_pos (snd (zs 0%nat))). lra. } destruct Z1 as (Z1 & Z2 & Z3).
      set (N0 := Z + 4 * Z / (1 - Qm)).
      assert (ZQ : 0 <= 4 * Z / (1 - Qm)) by (apply Rmult_le_pos; [lra|left; apply Rinv_0_lt_compat; lra]).
      assert (I0 : Inv N0 (zs 0%nat)).
      { split; [unfold N0; lra|]. pose proof (wz_le Z (zs 0%nat) Z1 Z2). replace ((1 - Qm) / 2 * N0) with ((1 - Qm) / 2 * Z + 2 * Z) by (unfold N0; field; lra). assert (0 <= (1 - Qm) / 2 * Z) by (apply Rmult_le_pos; lra). lra. }
      assert (All : forall n, Inv (Rmax t (m ^ n * N0)) (zs n)).
      { induction n as [|n IH].
        - apply (Mono N0); [exact I0|]. cbn [pow]. rewrite Rmult_1_l. apply Rmax_r.
        - apply Mono with (m * Rmax t (m ^ n * N0)); [apply Stp; [apply Rmax_l|exact IH]|]. cbn [pow]. unfold Rmax at 1. destruct (Rle_dec t (m ^ n * N0)).
          + rewrite <- Rmult_assoc. apply Rmax_r.
          + apply Rle_trans with t; [|apply Rmax_l]. assert (m * t <= 1 * t) by (apply Rmult_le_compat_r; lra). lra. }
      destruct (contract_to N0 m t M T) as [k Hk].
      exists k. intros n Hn. destruct (All n) as [H _]. apply Rle_trans with (1 := H). apply Rle_trans with (Rmax t (m ^ k * N0)); [|rewrite Hk; apply Rle_refl].
      assert (N00 : 0 <= N0) by (unfold N0; lra). apply Rle_max_compat_l. apply Rmult_le_compat_r; [exact N00|].
      replace n with (k + (n - k))%nat by lia. rewrite pow_add. rewrite <- (Rmult_1_r (m ^ k)) at 2. apply Rmult_le_compat_l; [apply pow_le; lra|].
      replace 1 with (1 ^ (n - k)) by apply pow1. apply pow_incr. lra.
    Qed.
  End Settle.
End Gauge.


(** The lowpass coefficients. *)
Section Both.
  Variables c s Q kap C : R.
  Hypothesis CS : c * c + s * s = 1.
  Hypothesis S0 : 23 / 1000000 <= s.
  Hypothesis HQ : / 10 <= Q <= 30.
  Hypothesis K0 : 0 < kap <= bpow radix2 (-45).
  Hypothesis C0 : 0 < C.
  Let al := s / (2 * Q).
  Let b0 := (1 - c) / 2 / (1 + al).
  Let a1 := - 2 * c / (1 + al).
  Let a2 := (1 - al) / (1 + al).
  Let S1 : 0 < s. Proof. lra. Qed.
  Let s2 : 529 / 1000000000000 <= s * s. Proof. nra. Qed.
  Let kap_s : 48 * 371 * kap <= s * s.
  Proof. destruct K0 as [_ K]. change (bpow radix2 (-45)) with (/ 35184372088832) in K. lra. Qed.
  Let ALs : al * (2 * Q) = s. Proof. exact (al_s s Q HQ). Qed.
  Let AL0 : 0 < al. Proof. exact (al_pos s Q S1 HQ). Qed.
  Let AL5 : al <= 5. Proof. exact (al_le c s Q CS S1 HQ). Qed.
  Let B0 : 0 <= b0. Proof. left. exact (b0_pos c s Q CS S1 HQ). Qed.
  Let A1 : Rabs a1 <= 2. Proof. exact (a1_le c s Q CS S1 HQ). Qed.
  Let SL : s <= 1. Proof. exact (s_le1 c s CS S1). Qed.
  Lemma F2_le : b0 * (2 - a1) * ((1 + al) * (1 + al)) = s * s + al * (1 - c).
  Proof. unfold b0, a1. replace (s * s) with (1 - c * c) by lra. field. lra. Qed.

  (** Poles with everything the gauges need. *)
  Definition good_im (p q : Complex.C) (I : R) : Prop :=
    (p * p = - a1 * p - a2)%C /\ (p + q = - a1)%C /\ Cmod p < 1 /\ Cmod q < 1 /\ 0 < I <= 1 /\ I = Rabs (snd p) /\ s * s / 371 <= (1 - Cmod p) * I /\ b0 * (Cmod (1 + p)%C * Cmod (1 + p)%C) <= (2 * Q + 1) * ((1 - Cmod p) * I).
  Definition good_two (p q : Complex.C) : Prop :=
    (p * p = - a1 * p - a2)%C /\ (p + q = - a1)%C /\ Cmod p < 1 /\ Cmod q < 1 /\ s * s / 36 <= (1 - Cmod p) * (1 - Cmod q) /\
    b0 * (Cmod (1 + p)%C * Cmod (1 + p)%C) / ((1 - Cmod p) * (1 - Cmod q)) + b0 * (2 - a1) / (1 - Cmod q) <= 47 / 10.

  Lemma caseA : 3 / 5 <= Q -> exists p q I, good_im p q I.
  Proof.
    intros HA. assert (L : al < s) by nra. assert (L2 : al <= s * (5 / 6)) by nra.
    destruct (complex_poles c s Q CS S1 HQ L) as (p & q & Rp & Pq & Ep & _ & I0 & I2 & F & Ap). fold al b0 a1 a2 in Rp, Pq, I2, F, Ap.
    exists p, q, (snd p). set (I := snd p) in *. pose proof (F1_eq c s Q CS S1 HQ _ F) as FE. fold al b0 a1 a2 in FE.
    assert (Apos : 0 < al / (1 + al)) by (apply Rmult_lt_0_compat; [lra|apply Rinv_0_lt_compat; lra]).
    set (J := I * (1 + al)). assert (J0 : 0 < J) by (unfold J; apply Rmult_lt_0_compat; lra).
    assert (J2 : J * J = s * s - al * al). { unfold J. replace (I * (1 + al) * (I * (1 + al))) with (I * I * ((1 + al) * (1 + al))) by ring. rewrite I2. field. lra. }
    assert (IJ : I = J / (1 + al)) by (unfold J; field; lra).
    assert (JL : 5527 / 10000 * s <= J). { apply Rsqr_incr_0_var; [|lra]. unfold Rsqr. nra. }
    assert (TQ : 2 * Q * s <= (2 * Q + 1) * J).
    { set (t := 2 * Q) in *. assert (T : 6 / 5 <= t) by (unfold t; lra). apply Rsqr_incr_0_var; [|apply Rmult_le_pos; lra]. unfold Rsqr.
      replace ((t + 1) * J * ((t + 1) * J)) with ((t + 1) * (t + 1) * (J * J)) by ring. rewrite J2.
      apply Rmult_le_reg_l with (t * t); [nra|]. replace (t * t * (t * s * (t * s))) with (t * t * (t * t) * (s * s)) by ring.
      replace (t * t * ((t + 1) * (t + 1) * (s * s - al * al))) with ((t + 1) * (t + 1) * (t * t * (s * s) - (al * t) * (al * t))) by ring. rewrite ALs.
      replace ((t + 1) * (t + 1) * (t * t * (s * s) - s * s)) with ((t * t * (t * t) + (2 * t * t * t - 2 * t - 1)) * (s * s)) by ring.
      apply Rmult_le_compat_r; [nra|]. assert (0 <= 2 * t * t * t - 2 * t - 1); [|lra]. assert (36 / 25 <= t * t) by nra. assert (36 / 25 * t <= t * t * t) by (apply Rmult_le_compat_r; lra). nra. }
    assert (D1 : al / (1 + al) * I <= (1 - Cmod p) * I) by (apply Rmult_le_compat_r; lra).
    assert (E1 : al / (1 + al) * I = al * J / ((1 + al) * (1 + al))) by (rewrite IJ; field; lra).
    assert (W0 : 0 < (1 + al) * (1 + al)) by (apply Rmult_lt_0_compat; lra).
    split; [exact Rp|]. split; [exact Pq|]. split; [lra|]. split; [rewrite <- Ep; lra|]. split; [split; [exact I0|]|].
    { rewrite IJ. apply Rmult_le_reg_r with (1 + al); [lra|]. replace (J / (1 + al) * (1 + al)) with J by (field; lra). nra. }
    split; [symmetry; apply Rabs_pos_eq; unfold I; left; exact I0|]. split.
    - apply Rle_trans with (2 := D1). rewrite E1. apply Rmult_le_reg_r with ((1 + al) * (1 + al)); [exact W0|].
      replace (al * J / ((1 + al) * (1 + al)) * ((1 + al) * (1 + al))) with (al * J) by (field; lra).
      assert (s / 60 <= al) by nra. assert (s / 60 * (5527 / 10000 * s) <= al * J) by (apply Rmult_le_compat; lra).
      assert ((1 + al) * (1 + al) <= 121 / 36) by nra. assert (s * s / 371 * ((1 + al) * (1 + al)) <= s * s / 371 * (121 / 36)) by (apply Rmult_le_compat_l; lra). lra.
    - apply Rle_trans with ((2 * Q + 1) * (al / (1 + al) * I)); [|apply Rmult_le_compat_l; lra]. rewrite FE, E1.
      apply Rmult_le_reg_r with ((1 + al) * (1 + al)); [exact W0|]. replace (s * s / ((1 + al) * (1 + al)) * ((1 + al) * (1 + al))) with (s * s) by (field; lra).
      replace ((2 * Q + 1) * (al * J / ((1 + al) * (1 + al))) * ((1 + al) * (1 + al))) with (al * ((2 * Q + 1) * J)) by (field; lra).
      rewrite <- ALs at 1. rewrite Rmult_assoc. apply Rmult_le_compat_l; lra.
  Qed.
  Lemma caseB : Q < 3 / 5 -> exists p q, good_two p q.
  Proof.
    intros HB. destruct (Rlt_le_dec al s) as [L|L].
    - destruct (complex_poles c s Q CS S1 HQ L) as (p & q & Rp & Pq & Ep & _ & _ & _ & F & Ap). fold al b0 a1 a2 in Rp, Pq, F, Ap.
      exists p, q. pose proof (F1_eq c s Q CS S1 HQ _ F) as FE. fold al b0 a1 a2 in FE. pose proof F2_le as F2.
      assert (Apos : 0 < al / (1 + al)) by (apply Rmult_lt_0_compat; [lra|apply Rinv_0_lt_compat; lra]).
      unfold good_two. rewrite <- Ep. split; [exact Rp|]. split; [exact Pq|]. split; [lra|]. split; [lra|].
      assert (D1 : al / (1 + al) * (al / (1 + al)) <= (1 - Cmod p) * (1 - Cmod p)) by (apply Rmult_le_compat; lra).
      assert (E1 : al / (1 + al) * (al / (1 + al)) = al * al / ((1 + al) * (1 + al))) by (field; lra).
      assert (W0 : 0 < (1 + al) * (1 + al)) by (apply Rmult_lt_0_compat; lra). assert (5 / 6 * s <= al) by nra.
      split.
      + apply Rle_trans with (2 := D1). rewrite E1. apply Rmult_le_reg_r with ((1 + al) * (1 + al)); [exact W0|].
        replace (al * al / ((1 + al) * (1 + al)) * ((1 + al) * (1 + al))) with (al * al) by (field; lra).
        assert ((1 + al) * (1 + al) <= 4) by nra. assert (s * s / 36 * ((1 + al) * (1 + al)) <= s * s / 36 * 4) by (apply Rmult_le_compat_l; nra). nra.
      + set (A := 1 - Cmod p) in *. assert (A0 : 0 < A) by lra. rewrite FE.
        assert (T1 : s * s / ((1 + al) * (1 + al)) / (A * A) <= 144 / 100).
        { apply Rmult_le_reg_r with (A * A); [nra|]. replace (s * s / ((1 + al) * (1 + al)) / (A * A) * (A * A)) with (s * s / ((1 + al) * (1 + al))) by (field; lra).
          apply Rle_trans with (144 / 100 * (al * al / ((1 + al) * (1 + al)))); [|apply Rmult_le_compat_l; lra].
          replace (144 / 100 * (al * al / ((1 + al) * (1 + al)))) with (144 / 100 * (al * al) / ((1 + al) * (1 + al))) by (field; lra).
          apply Rmult_le_compat_r; [left; apply Rinv_0_lt_compat; exact W0|nra]. }
        assert (T2 : b0 * (2 - a1) / A <= 32 / 10).
        { apply Rmult_le_reg_r with A; [lra|]. replace (b0 * (2 - a1) / A * A) with (b0 * (2 - a1)) by (field; lra).
          apply Rle_trans with (32 / 10 * (al / (1 + al))); [|apply Rmult_le_compat_l; lra].
          apply Rmult_le_reg_r with ((1 + al) * (1 + al)); [exact W0|]. rewrite F2. replace (32 / 10 * (al / (1 + al)) * ((1 + al) * (1 + al))) with (32 / 10 * (al * (1 + al))) by (field; lra).
          pose proof (c_lt1 c s CS S1). assert (al * (1 - c) <= al * 2) by (apply Rmult_le_compat_l; lra). assert (s * s <= 6 / 5 * al * 1) by (apply Rmult_le_compat; lra). nra. }
        lra.
    - destruct (real_poles c s Q CS S1 HQ L) as (p & q & Pq & Rp & PQ & P1 & Q1 & M1 & M2). fold al b0 a1 a2 in Pq, Rp, M1, M2.
      exists (RtoC p), (RtoC q). unfold good_two. rewrite <- (RtoC_plus 1 p), !Cmod_R. pose proof (c_lt1 c s CS S1) as Hc.
      assert (A4 : Rabs p < 1) by (apply Rabs_lt; lra). assert (A5 : Rabs q < 1) by (apply Rabs_lt; lra).
      split. { rewrite <- RtoC_mult, <- RtoC_opp, <- RtoC_mult, <- RtoC_minus. now f_equal. }
      split. { rewrite <- RtoC_plus, <- RtoC_opp. now f_equal. }
      split; [exact A4|]. split; [exact A5|].
      replace (Rabs (1 + p) * Rabs (1 + p)) with ((1 + p) * (1 + p)) by (rewrite <- Rabs_mult, Rabs_pos_eq by nra; ring).
      replace b0 with ((1 - p) * (1 - q) / 4) by lra. replace (2 - a1) with (2 + p + q) by lra.
      assert (Nq := nyq c s Q S1 HQ). fold al a1 a2 in Nq. rewrite Nq in M2. clear Nq.
      assert (B : (1 - p) * (1 - q) = 2 * (1 - c) / (1 + al)) by (rewrite M1; unfold b0; field; lra).
      assert (I6 : / 6 <= / (1 + al)) by (apply Rinv_le_contravar; lra).
      assert (Ss : s * s = (1 - c) * (1 + c)) by lra.
      unfold Rdiv in M2, B.
      destruct (Rle_lt_dec 0 p) as [Sp|Sp]; [|destruct (Rle_lt_dec 0 q) as [Sq|Sq]].
      + rewrite !Rabs_pos_eq by lra. split.
        * rewrite B, Ss. assert (2 * (1 - c) * / 6 <= 2 * (1 - c) * / (1 + al)) by (apply Rmult_le_compat_l; lra). nra.
        * replace ((1 - p) * (1 - q) / 4 * ((1 + p) * (1 + p)) / ((1 - p) * (1 - q))) with ((1 + p) * (1 + p) / 4) by (field; lra).
          replace ((1 - p) * (1 - q) / 4 * (2 + p + q) / (1 - q)) with ((1 - p) * (2 + p + q) / 4) by (field; lra). nra.
      + rewrite (Rabs_left p) by lra. rewrite (Rabs_pos_eq q) by lra. replace (1 - - p) with (1 + p) by ring. split.
        * assert (PP : (1 + p) * (1 - q) * ((1 - p) * (1 + q)) = 4 * (s * s) * (/ (1 + al) * / (1 + al))).
          { replace ((1 + p) * (1 - q) * ((1 - p) * (1 + q))) with ((1 - p) * (1 - q) * ((1 + p) * (1 + q))) by ring. rewrite B, M2, Ss. ring. }
          assert (I36 : / 36 <= / (1 + al) * / (1 + al)) by (replace (/ 36) with (/ 6 * / 6) by field; apply Rmult_le_compat; lra).
          assert (4 * (s * s) * / 36 <= 4 * (s * s) * (/ (1 + al) * / (1 + al))) by (apply Rmult_le_compat_l; nra).
          assert (0 <= (1 + p) * (1 - q)) by (apply Rmult_le_pos; lra). assert ((1 - p) * (1 + q) <= 4) by nra.
          assert ((1 + p) * (1 - q) * ((1 - p) * (1 + q)) <= (1 + p) * (1 - q) * 4) by (apply Rmult_le_compat_l; lra). lra.
        * replace ((1 - p) * (1 - q) / 4 * ((1 + p) * (1 + p)) / ((1 + p) * (1 - q))) with ((1 - p) * (1 + p) / 4) by (field; lra).
          replace ((1 - p) * (1 - q) / 4 * (2 + p + q) / (1 - q)) with ((1 - p) * (2 + p + q) / 4) by (field; lra). nra.
      + rewrite !Rabs_left by lra. replace (1 - - p) with (1 + p) by ring. replace (1 - - q) with (1 + q) by ring. split.
        * rewrite M2, Ss. assert (2 * (1 + c) * / 6 <= 2 * (1 + c) * / (1 + al)) by (apply Rmult_le_compat_l; lra). nra.
        * replace ((1 - p) * (1 - q) / 4 * ((1 + p) * (1 + p)) / ((1 + p) * (1 + q))) with ((1 - p) * (1 - q) / 4 * ((1 + p) / (1 + q))) by (field; lra).
          replace ((1 - p) * (1 - q) / 4 * (2 + p + q) / (1 + q)) with ((1 - p) * (1 - q) / 4 * ((2 + p + q) / (1 + q))) by (field; lra).
          assert (R1 : (1 + p) / (1 + q) <= 1). { apply Rmult_le_reg_r with (1 + q); [lra|]. replace ((1 + p) / (1 + q) * (1 + q)) with (1 + p) by (field; lra). lra. }
          assert (R2 : (2 + p + q) / (1 + q) <= 2). { apply Rmult_le_reg_r with (1 + q); [lra|]. replace ((2 + p + q) / (1 + q) * (1 + q)) with (2 + p + q) by (field; lra). lra. }
          assert (G : 0 <= (1 - p) * (1 - q) / 4 <= 1) by nra. set (g := (1 - p) * (1 - q) / 4) in *. nra.
  Qed.

  (** Bounded input gives a bounded state. *)
  Lemma bound_all X Z0 : 0 <= X -> 0 <= Z0 -> exists G : R * R -> Prop,
    (forall z, Rabs (fst z) <= Z0 -> Rabs (snd z) <= Z0 -> G z) /\
    (forall x z z', dstep b0 a1 a2 kap C x z z' -> Rabs x <= X -> G z -> G z') /\
    (forall z, G z -> let Z := 16 / 15 * ((2 * Q + 9 / 2) * X + C / 48) + bpow radix2 41 * Z0 in Rabs (fst z) <= Z /\ Rabs (snd z) <= 2 * Z).
  Proof.
    intros HX HZ. destruct K0 as [K1 K2]. change (bpow radix2 41) with 2199023255552. destruct (Rle_lt_dec (3 / 5) Q) as [HA|HB].
    - destruct (caseA HA) as (p & q & I & Rp & Pq & Lp & Lq & I0 & IP & SD & F1). set (F := b0 * (Cmod (1 + p)%C * Cmod (1 + p)%C)) in *.
      assert (F0 : 0 <= F) by (unfold F; pose proof (Cmod_ge_0 (1 + p)%C); apply Rmult_le_pos; nra).
      set (A := 1 - Cmod p) in *. assert (A0 : 0 < A) by (unfold A; lra).
      assert (Sm : 48 * kap <= A * I) by lra. assert (AI : 0 < A * I) by lra. pose proof (Cmod_ge_0 p).
      set (W := 16 / 15 * (F * X + kap * C) / A + 2 * Z0).
      assert (T0 : 0 <= 16 / 15 * (F * X + kap * C) / A). { apply Rmult_le_pos; [|left; apply Rinv_0_lt_compat; lra]. assert (0 <= F * X) by (apply Rmult_le_pos; lra). assert (0 <= kap * C) by (apply Rmult_le_pos; lra). lra. }
      assert (Zb : W / I <= 16 / 15 * ((2 * Q + 9 / 2) * X + C / 48) + 2199023255552 * Z0).
      { unfold W. replace ((16 / 15 * (F * X + kap * C) / A + 2 * Z0) / I) with (16 / 15 * (F / (A * I) * X + kap / (A * I) * C) + 2 / I * Z0) by (field; lra).
        assert (F / (A * I) <= 2 * Q + 1). { apply Rmult_le_reg_r with (A * I); [lra|]. replace (F / (A * I) * (A * I)) with F by (field; lra). exact F1. }
        assert (kap / (A * I) <= / 48). { apply Rmult_le_reg_r with (A * I); [lra|]. replace (kap / (A * I) * (A * I)) with kap by (field; lra). lra. }
        assert (2 / I <= 2199023255552). { apply Rmult_le_reg_r with I; [lra|]. replace (2 / I * I) with 2 by (field; lra). assert (A * I <= 1 * I) by (apply Rmult_le_compat_r; unfold A; lra). lra. }
        assert (F / (A * I) * X <= (2 * Q + 1) * X) by (apply Rmult_le_compat_r; lra). assert (kap / (A * I) * C <= / 48 * C) by (apply Rmult_le_compat_r; lra). assert (2 / I * Z0 <= 2199023255552 * Z0) by (apply Rmult_le_compat_r; lra). lra. }
      exists (fun z => wz p z <= W). split; [|split].
      + intros z H1 H2. pose proof (wz_le p Lp Z0 z H1 H2). unfold W. lra.
      + intros x z z' St Hx H'. refine (keep_I b0 a1 a2 kap C B0 K1 p Rp Lp I I0 IP Sm W X x z z' _ St Hx H').
        fold F A. unfold W. replace (A * (16 / 15 * (F * X + kap * C) / A + 2 * Z0)) with (16 / 15 * (F * X + kap * C) + A * (2 * Z0)) by (field; lra). assert (0 <= A * (2 * Z0)) by (apply Rmult_le_pos; lra). lra.
      + intros z H'. cbn zeta. assert (WI : wz p z / I <= W / I) by (apply Rmult_le_compat_r; [left; apply Rinv_0_lt_compat; lra|exact H']).
        pose proof (z_w p I I0 IP z) as H1. split; [lra|]. pose proof (wz_z2 p Lp z) as H2. pose proof (wz_pos p z).
        assert (wz p z <= wz p z / I). { apply Rmult_le_reg_r with I; [lra|]. replace (wz p z / I * I) with (wz p z) by (field; lra). nra. } lra.
    - destruct (caseB HB) as (p & q & Rp & Pq & Lp & Lq & SD & F12). set (F := b0 * (Cmod (1 + p)%C * Cmod (1 + p)%C)) in *. set (F2 := b0 * (2 - a1)) in *.
      assert (Sm : 96 * kap <= (1 - Cmod p) * (1 - Cmod q)) by lra. pose proof (Cmod_ge_0 p). pose proof (Cmod_ge_0 q).
      assert (Zle : Zb b0 a1 kap C p q X Z0 <= 16 / 15 * ((2 * Q + 9 / 2) * X + C / 48) + 2199023255552 * Z0).
      { unfold Zb. fold F F2. set (D := (1 - Cmod p) * (1 - Cmod q)) in *. assert (D0 : 0 < D) by (unfold D; apply Rmult_lt_0_compat; lra).
        replace (F / D * X + F2 / (1 - Cmod q) * X + 2 * kap * C / D + 3 * Z0 / (1 - Cmod q)) with ((F / D + F2 / (1 - Cmod q)) * X + kap / D * (2 * C) + 3 / (1 - Cmod q) * Z0) by (field; lra).
        assert (kap / D <= / 96). { apply Rmult_le_reg_r with D; [lra|]. replace (kap / D * D) with kap by (field; lra). lra. }
        assert (3 / (1 - Cmod q) <= 1000000000000). { apply Rmult_le_reg_r with (1 - Cmod q); [lra|]. replace (3 / (1 - Cmod q) * (1 - Cmod q)) with 3 by (field; lra). assert (D <= 1 - Cmod q) by (unfold D; nra). lra. }
        assert ((F / D + F2 / (1 - Cmod q)) * X <= 47 / 10 * X) by (apply Rmult_le_compat_r; lra). assert (kap / D * (2 * C) <= / 96 * (2 * C)) by (apply Rmult_le_compat_r; lra). assert (3 / (1 - Cmod q) * Z0 <= 1000000000000 * Z0) by (apply Rmult_le_compat_r; lra).
        assert (47 / 10 * X <= (2 * Q + 9 / 2) * X) by (apply Rmult_le_compat_r; lra). lra. }
      assert (C00 : 0 <= C) by lra.
      exists (fun z => wz p z <= Wb b0 a1 kap C p q X Z0 /\ Rabs (fst z) <= Zb b0 a1 kap C p q X Z0). split; [|split].
      + intros z H1 H2. exact (start_Two b0 a1 kap C B0 A1 K1 C00 p q Lp Lq Sm X Z0 HX HZ z H1 H2).
      + intros x z z' St Hx H'. exact (keep_Two b0 a1 a2 kap C B0 A1 K1 C00 p q Rp Pq Lp Lq Sm X Z0 HX HZ x z z' St Hx H').
      + intros z [H1 H2]. cbn zeta. pose proof (Wb_le b0 a1 kap C B0 A1 K1 C00 p q Lp Lq Sm X Z0 HX HZ) as WZ. pose proof (wz_z2 p Lp z). split; lra.
  Qed.

  (** Without input the state settles. *)
  Lemma settle_all (zs : nat -> R * R) : (forall n, dstep b0 a1 a2 kap C 0 (zs n) (zs (S n))) -> exists k, forall n, (k <= n)%nat -> Rabs (fst (zs n)) <= 800 * kap * C / (s * s).
  Proof.
    intros St. destruct K0 as [K1 K2]. assert (C00 : 0 <= C) by lra. assert (KC : 0 < kap * C) by (apply Rmult_lt_0_compat; lra). destruct (Rle_lt_dec (3 / 5) Q) as [HA|HB].
    - destruct (caseA HA) as (p & q & I & Rp & Pq & Lp & Lq & I0 & IP & SD & F1). assert (Sm : 48 * kap <= (1 - Cmod p) * I) by lra.
      destruct (settle_I b0 a1 a2 kap C B0 K1 p Rp Lp C0 zs St I I0 IP Sm) as [k Hk]. exists k. intros n Hn. eapply Rle_trans; [exact (Hk n Hn)|].
      set (D := (1 - Cmod p) * I) in *. assert (D0 : 0 < D) by lra. replace (32 / 15 * kap * C / D) with (32 / 15 * (kap * C) / D) by (field; lra). replace (800 * kap * C / (s * s)) with (800 * (kap * C) / (s * s)) by (field; lra).
      apply Rmult_le_reg_r with (D * (s * s)); [apply Rmult_lt_0_compat; nra|]. replace (32 / 15 * (kap * C) / D * (D * (s * s))) with (kap * C * (32 / 15 * (s * s))) by (field; lra). replace (800 * (kap * C) / (s * s) * (D * (s * s))) with (kap * C * (800 * D)) by (field; lra).
      apply Rmult_le_compat_l; lra.
    - destruct (caseB HB) as (p & q & Rp & Pq & Lp & Lq & SD & F12). assert (Sm : 96 * kap <= (1 - Cmod p) * (1 - Cmod q)) by lra.
      destruct (settle_Two b0 a1 a2 kap C B0 A1 K1 p q Rp Pq Lp Lq C0 zs St Sm) as [k Hk]. exists k. intros n Hn. eapply Rle_trans; [exact (Hk n Hn)|].
      set (D := (1 - Cmod p) * (1 - Cmod q)) in *. assert (D0 : 0 < D) by lra. replace (17 * kap * C / D) with (17 * (kap * C) / D) by (field; lra). replace (800 * kap * C / (s * s)) with (800 * (kap * C) / (s * s)) by (field; lra).
      apply Rmult_le_reg_r with (D * (s * s)); [apply Rmult_lt_0_compat; nra|]. replace (17 * (kap * C) / D * (D * (s * s))) with (kap * C * (17 * (s * s))) by (field; lra). replace (800 * (kap * C) / (s * s) * (D * (s * s))) with (kap * C * (800 * D)) by (field; lra).
      apply Rmult_le_compat_l; lra.
  Qed.
End Both.
