(** CombC: interpolator, read position, ring. *)
From Coq Require Import ZArith Reals Bool List Lra Lia Psatz.
From Flocq Require Import Core BinarySingleNaN.
From Verif Require Import Flt FltFacts FltMore FltKey FltArith FltClose FltScale Libm Res UtilModel UtilProofs OscSpec OscProofs3 PhasorProofs RdModel RdProofs RdProofs2 RdProofs3 CombModel CombSpec.
Import ListNotations.
Local Open Scope R_scope.

(** ** Interpolator *)
Lemma herm_acc j (y0 y1 y2 y3 t : f32) : (-100 <= j <= 96)%Z -> bnd j y0 -> bnd j y1 -> bnd j y2 -> bnd j y3 -> fin t -> 0 <= B2R t <= 1 ->
  fin (cb_herm y0 y1 y2 y3 t) /\
  Rabs (B2R (cb_herm y0 y1 y2 y3 t) - spline (B2R t) (B2R y0) (B2R y1) (B2R y2) (B2R y3)) <= bpow radix2 (j - 17).
Proof.
  intros J [F0 B0] [F1 B1] [F2 B2] [F3 B3] Ft Bt. unfold cb_herm.
  pose proof (cs_self j _ F0) as S0. pose proof (cs_self j _ F1) as S1. pose proof (cs_self j _ F2) as S2. pose proof (cs_self j _ F3) as S3.
  apply sc_abs in B0, B1, B2, B3. pose proof (bpow_gt_0 radix2 j) as PJ.
  assert (E : spline (B2R t) (B2R y0) (B2R y1) (B2R y2) (B2R y3) =
    spline (B2R t) (B2R y0 / bpow radix2 j) (B2R y1 / bpow radix2 j) (B2R y2 / bpow radix2 j) (B2R y3 / bpow radix2 j) * bpow radix2 j) by (unfold spline; field; lra).
  rewrite E. clear E. set (p0 := B2R y0 / bpow radix2 j) in *. set (p1 := B2R y1 / bpow radix2 j) in *. set (p2 := B2R y2 / bpow radix2 j) in *. set (p3 := B2R y3 / bpow radix2 j) in *.
  clearbody p0 p1 p2 p3. apply Rabs_le_inv in B0, B1, B2, B3. pose proof uu_b as U.
  assert (CH : cl 0 half (/ 2)) by (apply cl_const; [ffin|apply half_R]).
  assert (C15 : cl 0 (fdec 3 2) (3 / 2)) by (apply cl_const; [ffin|apply c15_R]). assert (C25 : cl 0 (fdec 5 2) (5 / 2)) by (apply cl_const; [ffin|apply c25_R]).
  assert (C2 : cl 0 two 2) by (apply cl_const; [ffin|apply two_R]).
  pose proof (cl_self _ Ft) as CT. set (x := B2R t) in *. clearbody x.
  st D20 (cs_sub j 1 _ _ _ _ _ _ ltac:(lia) S2 S0 ltac:(bp; assert (Rabs (p2 - p0) <= 2) by al; lra)) 2.
  st K1 (cs_mul j 1 0 _ (/2) 2 _ _ _ _ ltac:(lia) CH D20 ltac:(al) ltac:(al) ltac:(bp; lra)) 3.
  st N1 (cs_mul j 2 0 0 (5/2) 1 _ _ _ _ ltac:(lia) C25 S1 ltac:(al) ltac:(al) ltac:(bp; lra)) 4.
  st B1' (cs_sub j 2 _ _ _ _ _ _ ltac:(lia) S0 N1 ltac:(bp; assert (Rabs (p0 - 5 / 2 * p1) <= 7 / 2) by al; lra)) 8.
  st N2 (cs_mul j 1 0 0 2 1 _ _ _ _ ltac:(lia) C2 S2 ltac:(al) ltac:(al) ltac:(bp; lra)) 2.
  st B2' (cs_add j 3 _ _ _ _ _ _ ltac:(lia) B1' N2 ltac:(bp; assert (Rabs (p0 - 5 / 2 * p1 + 2 * p2) <= 11 / 2) by al; lra)) 18.
  st M3 (cs_mul j 0 0 0 (/2) 1 _ _ _ _ ltac:(lia) CH S3 ltac:(al) ltac:(al) ltac:(bp; lra)) 1.
  assert (Q2 : Rabs (p0 - 5 / 2 * p1 + 2 * p2 - / 2 * p3) <= 6) by al.
  st K2 (cs_sub j 3 _ _ _ _ _ _ ltac:(lia) B2' M3 ltac:(bp; lra)) 27.
  st D30 (cs_sub j 1 _ _ _ _ _ _ ltac:(lia) S3 S0 ltac:(bp; assert (Rabs (p3 - p0) <= 2) by al; lra)) 2.
  st H30 (cs_mul j 1 0 _ (/2) 2 _ _ _ _ ltac:(lia) CH D30 ltac:(al) ltac:(al) ltac:(bp; lra)) 3.
  st D12 (cs_sub j 1 _ _ _ _ _ _ ltac:(lia) S1 S2 ltac:(bp; assert (Rabs (p1 - p2) <= 2) by al; lra)) 2.
  st H12 (cs_mul j 2 0 _ (3/2) 2 _ _ _ _ ltac:(lia) C15 D12 ltac:(al) ltac:(al) ltac:(bp; lra)) 7.
  assert (Q3 : Rabs (/ 2 * (p3 - p0) + 3 / 2 * (p1 - p2)) <= 4) by al.
  st K3 (cs_add j 3 _ _ _ _ _ _ ltac:(lia) H30 H12 ltac:(bp; lra)) 18.
  set (a3 := / 2 * (p3 - p0) + 3 / 2 * (p1 - p2)) in *. set (a2 := p0 - 5 / 2 * p1 + 2 * p2 - / 2 * p3) in *. assert (Q1 : Rabs (/ 2 * (p2 - p0)) <= 1) by al. set (a1 := / 2 * (p2 - p0)) in *.
  assert (SP : spline x p0 p1 p2 p3 = ((a3 * x + a2) * x + a1) * x + p1) by (unfold spline, a3, a2, a1; field).
  rewrite SP. clear SP. clearbody a1 a2 a3.
  st R1 (cs_mulr j 3 _ _ 4 1 _ _ _ _ ltac:(lia) K3 CT Q3 ltac:(al) ltac:(bp; nra)) 26.
  assert (G1 : Rabs (a3 * x) <= 4) by (rewrite Rabs_mult, (Rabs_pos_eq x) by lra; pose proof (Rabs_pos a3); nra).
  assert (G2 : Rabs (a3 * x + a2) <= 10) by (eapply Rle_trans; [apply Rabs_triang|]; lra).
  st R2 (cs_add j 4 _ _ _ _ _ _ ltac:(lia) R1 K2 ltac:(bp; lra)) 69.
  set (b2 := a3 * x + a2) in *. clearbody b2.
  st R3 (cs_mulr j 4 _ _ 10 1 _ _ _ _ ltac:(lia) R2 CT G2 ltac:(al) ltac:(bp; nra)) 85.
  assert (G3 : Rabs (b2 * x) <= 10) by (rewrite Rabs_mult, (Rabs_pos_eq x) by lra; pose proof (Rabs_pos b2); nra).
  assert (G4 : Rabs (b2 * x + a1) <= 11) by (eapply Rle_trans; [apply Rabs_triang|]; lra).
  st R4 (cs_add j 4 _ _ _ _ _ _ ltac:(lia) R3 K1 ltac:(bp; lra)) 104.
  set (b1 := b2 * x + a1) in *. clearbody b1.
  st R5 (cs_mulr j 4 _ _ 11 1 _ _ _ _ ltac:(lia) R4 CT G4 ltac:(al) ltac:(bp; nra)) 120.
  assert (G5 : Rabs (b1 * x) <= 11) by (rewrite Rabs_mult, (Rabs_pos_eq x) by lra; pose proof (Rabs_pos b1); nra).
  assert (G6 : Rabs (b1 * x + p1) <= 12) by (eapply Rle_trans; [apply Rabs_triang|]; assert (Rabs p1 <= 1) by al; lra).
  st R6 (cs_add j 4 _ _ _ _ _ _ ltac:(lia) R5 S1 ltac:(bp; lra)) 136.
  apply cs_out in R6. destruct R6 as [F E]. split; [exact F|]. eapply Rle_trans; [exact E|].
  replace (j - 17)%Z with (-17 + j)%Z by lia. rewrite bpow_plus. apply Rmult_le_compat_r; [lra|]. unfold uu. bp. lra.
Qed.
(** The Catmull-Rom weights add up to at most 5/4 in absolute value. *)
Lemma spline_le M t p0 p1 p2 p3 : 0 <= t <= 1 -> Rabs p0 <= M -> Rabs p1 <= M -> Rabs p2 <= M -> Rabs p3 <= M -> Rabs (spline t p0 p1 p2 p3) <= 5 / 4 * M.
Proof.
  intros T A0 A1 A2 A3. assert (M0 : 0 <= M) by (eapply Rle_trans; [apply Rabs_pos|exact A0]).
  set (w0 := t * (1 - t) * (1 - t) / 2). set (w3 := t * t * (1 - t) / 2). set (w1 := 1 - 5 / 2 * (t * t) + 3 / 2 * (t * t * t)). set (w2 := t / 2 + 2 * (t * t) - 3 / 2 * (t * t * t)).
  assert (E : spline t p0 p1 p2 p3 = - w0 * p0 + w1 * p1 + w2 * p2 - w3 * p3) by (unfold spline, w0, w1, w2, w3; field).
  assert (T2 : 0 <= t * t <= t) by nra. assert (T3 : 0 <= t * t * t <= t * t) by nra.
  assert (W0 : 0 <= w0) by (unfold w0; assert (0 <= t * (1 - t)) by nra; nra). assert (W3 : 0 <= w3) by (unfold w3; nra).
  assert (W1 : 0 <= w1).
  { unfold w1. replace (1 - 5 / 2 * (t * t) + 3 / 2 * (t * t * t)) with ((1 - t) * (1 + t - 3 / 2 * (t * t))) by field. apply Rmult_le_pos; [lra|]. assert (3 / 2 * (t * t) <= 1 + t) by lra. lra. }
  assert (W2 : 0 <= w2) by (unfold w2; nra).
  assert (S : w0 + w1 + w2 + w3 <= 5 / 4).
  { replace (w0 + w1 + w2 + w3) with (1 + t * (1 - t)) by (unfold w0, w1, w2, w3; field). pose proof (Rle_0_sqr (t - / 2)) as Q. unfold Rsqr in Q. nra. }
  rewrite E. apply Rabs_le_inv in A0, A1, A2, A3. apply Rle_trans with ((w0 + w1 + w2 + w3) * M); [|nra].
  assert (X : forall w p, 0 <= w -> - M <= p <= M -> - (w * M) <= w * p <= w * M) by (intros w p Hw Hp; split; nra).
  pose proof (X w0 p0 W0 A0). pose proof (X w1 p1 W1 A1). pose proof (X w2 p2 W2 A2). pose proof (X w3 p3 W3 A3). clearbody w0 w1 w2 w3. apply Rabs_le. split; lra.
Qed.
Lemma herm_at0 (y0 y1 y2 y3 t : f32) : fin (cb_herm y0 y1 y2 y3 t) -> fin t -> B2R t = 0 -> B2R (cb_herm y0 y1 y2 y3 t) = B2R y1.
Proof.
  unfold cb_herm. cbv zeta. intros F Ft T. destruct (fadd_inv _ _ F) as [Fm F1]. destruct (fmul_inv _ _ Fm) as [Fa _].
  destruct (mul0 _ t Fa Ft ltac:(auto)) as [_ Z]. destruct (add0 _ _ Fm F1 Z) as [_ E]. exact E.
Qed.

(** ** Read position *)
Lemma wrap_val k r s : flt r zero = false -> cb_wrap k r s = Val r.
Proof. intros H. destruct k; cbn [cb_wrap]; now rewrite H. Qed.
Lemma flt0 (r : f32) : fin r -> flt r zero = false <-> 0 <= B2R r.
Proof. intros F. rewrite flt_R_false by (auto; reflexivity). now rewrite zero_R. Qed.
Lemma wrap_ends k : forall r s, (Z.of_nat k <= 2 ^ 22)%Z -> fin r -> - IZR (3 * Z.of_nat k) <= B2R r <= IZR (2 ^ 24) -> (4 <= s <= 2 ^ 24)%Z ->
  exists r', (forall fuel, (k <= fuel)%nat -> cb_wrap fuel r (fofZ s) = Val r') /\ fin r' /\ 0 <= B2R r' <= IZR (2 ^ 24).
Proof.
  induction k as [|k IH]; intros r s Hk Fr Br Hs.
  - exists r. cbn [Z.of_nat Z.mul] in Br. split; [|split; [exact Fr|lra]]. intros. apply wrap_val, flt0; [exact Fr|lra].
  - destruct (flt r zero) eqn:N.
    + apply flt_R in N; [|exact Fr|reflexivity]. rewrite zero_R in N. destruct (fofZ_R (prec:=24) (emax:=128) s ltac:(lia)) as [Fs Es].
      destruct (fadd_b (- IZR (3 * Z.of_nat k)) (IZR (2 ^ 24)) r (fofZ s)) as (A & _ & B); auto.
      * rewrite <- opp_IZR. apply dyZ. lia.
      * apply dyZ. lia.
      * rewrite Es. assert (4 <= IZR s <= IZR (2 ^ 24)) by (split; apply IZR_le; lia). rewrite Nat2Z.inj_succ in Br. replace (3 * Z.succ (Z.of_nat k))%Z with (3 * Z.of_nat k + 3)%Z in Br by lia. rewrite plus_IZR in Br. lra.
      * destruct (IH (fadd r (fofZ s)) s ltac:(lia) A B Hs) as (r' & V & F' & B'). exists r'. split; [|auto].
        intros [|fuel] L; [lia|]. cbn [cb_wrap]. replace (flt r zero) with true by (symmetry; apply flt_R; [exact Fr|reflexivity|rewrite zero_R; exact N]). apply V. lia.
    + exists r. assert (0 <= B2R r) by (now apply flt0). split; [|split; [exact Fr|lra]]. intros. now apply wrap_val.
Qed.
(** Delays within the line need at most one round; the delay used is off by two roundings at most, and exact for whole delays. *)
Lemma read_pos K w s (D : f32) : (0 <= w < s)%Z -> (4 <= s <= 2 ^ K)%Z -> (2 <= K <= 24)%Z -> fin D -> 0 <= B2R D <= IZR s - 4 ->
  exists r d k, (forall fuel, (1 <= fuel)%nat -> cb_wrap fuel (fsub (fofZ w) D) (fofZ s) = Val r) /\ fin r /\ 0 <= B2R r <= IZR s /\
    (k = 0 \/ k = 1)%Z /\ B2R r = IZR w - d + IZR k * IZR s /\ Rabs (d - B2R D) <= bpow radix2 (K - 24) /\ (forall m, B2R D = IZR m -> d = B2R D).
Proof.
  intros Hw Hs HK FD BD. assert (S24 : (2 ^ K <= 2 ^ 24)%Z) by (apply Z.pow_le_mono_r; lia).
  destruct (fofZ_R (prec:=24) (emax:=128) w ltac:(lia)) as [Fw Ew]. destruct (fofZ_R (prec:=24) (emax:=128) s ltac:(lia)) as [Fs Es].
  assert (W : 0 <= IZR w <= IZR s - 1) by (rewrite <- minus_IZR; split; apply IZR_le; lia). assert (SK : IZR s <= bpow radix2 K) by (rewrite <- (IZR_Zpower radix2) by lia; apply IZR_le; cbn; lia).
  assert (P4 : 4 <= IZR s) by (apply IZR_le; lia). set (e := bpow radix2 (K - 25)). assert (E2 : bpow radix2 (K - 24) = 2 * e) by (unfold e; replace (K - 24)%Z with (K - 25 + 1)%Z by lia; rewrite bpow_plus; change (bpow radix2 1) with 2; ring).
  assert (E0 : 0 < e) by apply bpow_gt_0.
  destruct (fsub_b (IZR (4 - s)) (IZR s) (fofZ w) D) as (F1 & R1 & B1); auto; [apply dyZ; lia..| |]. { rewrite Ew, minus_IZR. lra. }
  rewrite minus_IZR in B1. rewrite Ew in R1. assert (Er1 : Rabs (rnd32 (IZR w - B2R D) - (IZR w - B2R D)) <= e) by (apply rnd_err1; [lia|apply Rabs_le; lra]).
  set (r0 := fsub (fofZ w) D) in *. destruct (Rlt_le_dec (B2R r0) 0) as [N|N].
  - destruct (fadd_b (IZR 0) (IZR s) r0 (fofZ s)) as (F2 & R2 & B2'); auto; [apply dyZ; lia..|rewrite Es; lra|]. rewrite Es in R2.
    assert (Er2 : Rabs (rnd32 (B2R r0 + IZR s) - (B2R r0 + IZR s)) <= e) by (apply rnd_err1; [lia|apply Rabs_le; lra]).
    exists (fadd r0 (fofZ s)), (IZR w + IZR s - B2R (fadd r0 (fofZ s))), 1%Z. split.
    { intros [|fuel] L; [lia|]. cbn [cb_wrap]. replace (flt r0 zero) with true by (symmetry; apply flt_R; [exact F1|reflexivity|rewrite zero_R; exact N]). apply wrap_val, flt0; [exact F2|lra]. }
    split; [exact F2|]. split; [lra|]. split; [now right|]. split; [ring|]. rewrite E2. rewrite R2. split.
    + rewrite R1 in *. apply Rabs_le_inv in Er1, Er2. apply Rabs_le. split; lra.
    + intros m M. rewrite M in *. rewrite <- minus_IZR in R1. assert (Q : rnd32 (IZR (w - m)) = IZR (w - m)) by (apply rnd_fmt; apply (dyZ (w - m)); assert (m <= s)%Z by (apply le_IZR; lra); assert (0 <= m)%Z by (apply le_IZR; lra); lia).
      rewrite Q in R1. assert (w - m < 0)%Z by (apply lt_IZR; lra). rewrite R1, <- (plus_IZR (w - m) s). assert (0 <= m)%Z by (apply le_IZR; lra). assert (m <= s)%Z by (apply le_IZR; lra).
      rewrite (rnd_fmt (prec:=24) (emax:=128) (IZR (w - m + s))) by (apply (dyZ (w - m + s)); lia). rewrite plus_IZR, minus_IZR. ring.
  - exists r0, (IZR w - B2R r0), 0%Z. split; [intros fuel _; apply wrap_val, flt0; [exact F1|lra]|]. split; [exact F1|]. split; [lra|]. split; [now left|]. split; [ring|].
    rewrite R1. split; [rewrite E2; apply Rabs_le_inv in Er1; apply Rabs_le; split; lra|]. intros m M. rewrite M, <- minus_IZR.
    rewrite (rnd_fmt (prec:=24) (emax:=128)) by (apply (dyZ (w - m)); assert (0 <= m)%Z by (apply le_IZR; lra); assert (m <= s)%Z by (apply le_IZR; lra); lia). rewrite minus_IZR. ring.
Qed.

(** ** Ring *)
Definition cell (c : comb) (i : Z) : f32 := cb_buf c (i mod cb_size c).
(** The line holds the last [size] values. *)
Definition ring (c : comb) (hs : list f32) : Prop :=
  (4 <= cb_size c <= 2 ^ 24)%Z /\ (0 <= cb_wp c < cb_size c)%Z /\
  forall a, (1 <= a <= cb_size c)%Z -> cell c (cb_wp c - a) = nth (Z.to_nat (a - 1)) hs zero.
Lemma cell_mod c i k : (0 < cb_size c)%Z -> cell c (i + k * cb_size c) = cell c i.
Proof. intros H. unfold cell. now rewrite Z.mod_add by lia. Qed.
Lemma cell_ok c i : (0 < cb_size c)%Z -> cb_at c (i mod cb_size c) = Val (cell c i).
Proof. intros H. unfold cb_at, cell. pose proof (Z.mod_pos_bound i (cb_size c) H). replace (_ && _) with true; [reflexivity|]. symmetry. apply andb_true_intro. split; [apply Z.leb_le|apply Z.ltb_lt]; lia. Qed.
(** Every cell holds some past value or silence. *)
Lemma ring_any c hs i : ring c hs -> exists n, cell c i = nth n hs zero.
Proof.
  intros (S & W & R). set (a := ((cb_wp c - i - 1) mod cb_size c + 1)%Z). pose proof (Z.mod_pos_bound (cb_wp c - i - 1) (cb_size c) ltac:(lia)).
  exists (Z.to_nat (a - 1)). rewrite <- R by (unfold a; lia). unfold a. rewrite Z.mod_eq by lia.
  rewrite <- (cell_mod c i ((cb_wp c - i - 1) / cb_size c)) by lia. f_equal. ring.
Qed.
Lemma any_quiet j c hs i : ring c hs -> quiet j hs -> bnd j (cell c i).
Proof.
  intros R Q. destruct (ring_any c hs i R) as [n ->]. destruct (nth_in_or_default n hs zero) as [I|I].
  - unfold quiet in Q. rewrite Forall_forall in Q. now apply Q.
  - rewrite I. split; [reflexivity|]. rewrite zero_R, Rabs_R0. apply bpow_ge_0.
Qed.
(** A tick in terms of cells. *)
Lemma tick_cells c x r i f fuel : (4 <= cb_size c <= 2 ^ 24)%Z -> (0 <= cb_wp c < cb_size c)%Z ->
  cb_wrap fuel (fsub (fofZ (cb_wp c)) (cb_delay c)) (fofZ (cb_size c)) = Val r -> rd_split r = Some (i, f) -> (0 <= i <= 2 ^ 24)%Z ->
  let y := cb_herm (cell c (i - 1)) (cell c i) (cell c (i + 1)) (cell c (i + 2)) f in
  cb_tick fuel c x = Val (y, Comb (cb_sr c) (fun k => if (k =? cb_wp c)%Z then fadd x (fmul (cb_fb c) y) else cb_buf c k) (cb_max c) (cb_dt c) (cb_dc c) (cb_fb c) (cb_size c) ((cb_wp c + 1) mod cb_size c)).
Proof.
  intros S W V SP I y. unfold cb_tick. fold (cb_delay c). rewrite V. cbn [rbind]. unfold rd_split in SP. destruct (to_size r) as [i'|]; [|discriminate SP]. cbn [bind] in SP. injection SP as -> <-. cbn [of_opt rbind].
  rewrite (w64 (i + cb_size c)) by lia. rewrite !w64 by lia. rewrite !cell_ok by lia. cbn [rbind].
  replace (cb_at c (cb_wp c)) with (Val (cb_buf c (cb_wp c))) by (unfold cb_at; replace (_ && _) with true; [reflexivity|symmetry; apply andb_true_intro; split; [apply Z.leb_le|apply Z.ltb_lt]; lia]).
  cbn [rbind]. replace (i + cb_size c - 1)%Z with (i - 1 + 1 * cb_size c)%Z by lia. rewrite cell_mod by lia. reflexivity.
Qed.
Lemma ring_tick c hs y x : ring c hs ->
  ring (Comb (cb_sr c) (fun k => if (k =? cb_wp c)%Z then fadd x (fmul (cb_fb c) y) else cb_buf c k) (cb_max c) (cb_dt c) (cb_dc c) (cb_fb c) (cb_size c) ((cb_wp c + 1) mod cb_size c)) (fadd x (fmul (cb_fb c) y) :: hs).
Proof.
  intros (S & W & R). unfold ring, cell. cbn [cb_size cb_wp cb_buf]. split; [exact S|]. split; [apply Z.mod_pos_bound; lia|]. intros a A.
  set (n := cb_size c) in *. set (w := cb_wp c) in *.
  assert (E : (((w + 1) mod n - a) mod n = (w - (a - 1)) mod n)%Z) by (rewrite Zminus_mod_idemp_l; f_equal; lia). rewrite E.
  destruct (Z.eq_dec a 1) as [-> |NA].
  - change (Z.to_nat (1 - 1)) with 0%nat. cbn [nth]. replace (w - (1 - 1))%Z with w by lia. rewrite Z.mod_small, Z.eqb_refl by lia. reflexivity.
  - replace (Z.to_nat (a - 1)) with (Datatypes.S (Z.to_nat (a - 1 - 1))) by lia. cbn [nth]. rewrite <- R by lia. unfold cell. fold n w.
    replace ((w - (a - 1)) mod n =? w)%Z with false; [reflexivity|]. symmetry. apply Z.eqb_neq. intros K.
    destruct (Z_lt_le_dec (w - (a - 1)) 0) as [L|L].
    + replace (w - (a - 1))%Z with (w - (a - 1) + n + (-1) * n)%Z in K by lia. rewrite Z.mod_add, Z.mod_small in K by lia. lia.
    + rewrite Z.mod_small in K by lia. lia.
Qed.
