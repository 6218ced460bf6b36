(** The playback example on long files: what the position reaches. *)
From Coq Require Import ZArith Reals Lra Lia Bool List.
From Flocq Require Import Core BinarySingleNaN.
From Verif Require Import Flt FltFacts FltMore FltArith FltClose FltRel FltScale Libm UtilModel UtilProofs EnvSpec EnvProofs PanSpec OscSpec SmoothModel SmoothSpec SmoothProofs LineModel LineSpec PhasorProofs PhasorProofs2 PhasorProofs4
  RdModel RdSpec RdProofs RdProofs2 RdProofs3 DsModel PbModel PbProofs2 PbProofs3.
Import ListNotations.
Local Open Scope R_scope.
Local Notation rnd32 := (@rnd 24 128).

Definition span (a b : R) (x : f32) : Prop := fin x /\ a <= B2R x <= b.
(** A slow smoother stays within [0,1/2]. *)
Definition half_lag (s : lag) : Prop := span (/ 2) 1 (lg_coeff s) /\ span 0 (/ 2) (lg_prev s).
Lemma half_tick s x : half_lag s -> span 0 (/ 2) x -> half_lag (fst (lg_tick s x)) /\ span 0 (/ 2) (snd (lg_tick s x)).
Proof.
  intros [[Fc Bc] [Fp Bp]] [Fx Bx]. unfold lg_tick. cbv zeta. cbn [fst snd].
  assert (K : span 0 (/ 2) (fadd (fmul (lg_coeff s) (lg_prev s)) (fmul (fsub one (lg_coeff s)) x))).
  { set (c := lg_coeff s) in *. set (p := lg_prev s) in *. clearbody c p.
    destruct (bp_dy (-1) ltac:(lia)) as [Dh _]. destruct (bp_dy 0 ltac:(lia)) as [D1 _]. change (bpow radix2 (-1)) with (/ 2) in Dh. change (bpow radix2 0) with 1 in D1.
    assert (O1 : B2R (one : f32) = 1) by apply one_R.
    destruct (fsub_b 0 (/ 2) one c dy0 Dh ltac:(reflexivity) Fc) as (Fq & Rq & Bq); [lra|].
    pose proof (rnd_err1 (-1) (B2R (one : f32) - B2R c) ltac:(lia)) as Eq. rewrite Rabs_pos_eq in Eq by lra. change (bpow radix2 (-1)) with (/ 2) in Eq. specialize (Eq ltac:(lra)).
    rewrite <- Rq in Eq. set (q := fsub one c) in *. clearbody q. change (bpow radix2 (-1 - 25)) with (/ 67108864) in Eq. apply Rabs_le_inv in Eq. rewrite O1 in Eq.
    assert (P1 : 0 <= B2R c * B2R p <= / 2) by nra.
    destruct (fmul_b 0 (/ 2) c p dy0 Dh Fc Fp P1) as (F1 & R1 & B1).
    pose proof (rnd_err1 (-1) (B2R c * B2R p) ltac:(lia)) as E1. rewrite (Rabs_pos_eq (B2R c * B2R p)) in E1 by lra. change (bpow radix2 (-1)) with (/ 2) in E1. specialize (E1 ltac:(lra)). rewrite <- R1 in E1. change (bpow radix2 (-1 - 25)) with (/ 67108864) in E1. apply Rabs_le_inv in E1.
    assert (P2 : 0 <= B2R q * B2R x <= / 4) by nra.
    destruct (fmul_b 0 (/ 2) q x dy0 Dh Fq Fx ltac:(lra)) as (F2 & R2 & B2).
    pose proof (rnd_err1 (-2) (B2R q * B2R x) ltac:(lia)) as E2. rewrite (Rabs_pos_eq (B2R q * B2R x)) in E2 by lra. change (bpow radix2 (-2)) with (/ 4) in E2. specialize (E2 ltac:(lra)). rewrite <- R2 in E2. change (bpow radix2 (-2 - 25)) with (/ 134217728) in E2. apply Rabs_le_inv in E2.
    set (u := fmul c p) in *. set (v := fmul q x) in *. clearbody u v.
    destruct (fadd_b 0 1 u v dy0 D1 F1 F2 ltac:(lra)) as (F & R & B). split; [exact F|]. split; [apply B|].
    rewrite R. change (/ 2) with (bpow radix2 (-1)). apply rnd_tie_pow; [lia|unfold SpecFloat.emin; lia|]. change (bpow radix2 (-1)) with (/ 2). change (bpow radix2 (-1 - 24)) with (/ 33554432).
    assert (B2R c * B2R p + B2R q * B2R x <= / 2 + / 134217728).
    { assert (B2R c * B2R p <= B2R c * / 2) by (apply Rmult_le_compat_l; lra). assert (B2R q * B2R x <= B2R q * / 2) by (apply Rmult_le_compat_l; lra). lra. }
    lra. }
  split; [|exact K]. split; [|exact K]. split; assumption.
Qed.
Definition studio (sr : Z) : Prop := (8000 <= sr <= 2 ^ 24)%Z.
Lemma studio_jack sr : studio sr -> jack_rate sr. Proof. unfold studio, jack_rate. lia. Qed.
Lemma studio_R sr : studio sr -> fin (fofZ sr : f32) /\ B2R (fofZ sr : f32) = IZR sr /\ fin (fmul (fofZ sr) two : f32) /\ B2R (fmul (fofZ sr) two : f32) = 2 * IZR sr /\ 8000 <= IZR sr.
Proof.
  intros H. destruct (fofZ_R (prec:=24) (emax:=128) sr ltac:(unfold studio in H; lia)) as [F R]. assert (T2 : B2R (two : f32) = 2) by (fval (two : f32); lra).
  destruct (fmul_exact (fofZ sr : f32) two F ltac:(reflexivity)) as [Fm Rm].
  { rewrite T2. split; [change 2 with (bpow radix2 1); apply fmt_scale; lia|]. rewrite R, <- mult_IZR, <- abs_IZR. change (bpow radix2 128) with (IZR (2 ^ 128)). apply IZR_lt. unfold studio in H. lia. }
  rewrite T2, R in Rm. assert (8000 <= IZR sr) by (apply IZR_le; unfold studio in H; lia). repeat split; auto. lra.
Qed.
Lemma slow_coeff L sr : exp_unit L -> exp_acc L -> studio sr -> span (/ 2) 1 (lag_coeff L (fdec 2 10) (fmul (fofZ sr) two)).
Proof.
  intros U A H. destruct (studio_R sr H) as (_ & _ & Fi & Ri & Lo). destruct (jack_fine sr (studio_jack sr H)) as (_ & _ & _ & So).
  pose proof (lag_coeff_unit L (fdec 2 10) (fmul (fofZ sr) two) U So ltac:(reflexivity)) as [F B]. unfold unit_sample in *.
  assert (G : / 2 <= B2R (lag_coeff L (fdec 2 10) (fmul (fofZ sr) two))); [|split; [exact F|split; [exact G|apply B]]].
  unfold lag_coeff in *. change (fle (fdec 2 10 : f32) zero) with false in *. cbv iota in *.
  assert (Hi : IZR sr <= 16777216) by (apply IZR_le; unfold studio in H; lia).
  set (y := fmul (fofZ sr) two) in *. clearbody y.
  assert (R2 : Rabs (B2R (fdec 2 10 : f32) - 2 / 10) <= / 10000000) by (fval (fdec 2 10 : f32); apply Rabs_le; lra). apply Rabs_le_inv in R2.
  destruct (bp_dy 11 ltac:(lia)) as [D1 _]. destruct (bp_dy 24 ltac:(lia)) as [D2 _].
  destruct (fmul_b _ _ (fdec 2 10 : f32) y D1 D2 ltac:(reflexivity) Fi) as (Fz & _ & Bz).
  { change (bpow radix2 11) with 2048. change (bpow radix2 24) with 16777216. rewrite Ri. nra. }
  set (z := fmul _ _) in *. clearbody z. change (bpow radix2 11) with 2048 in Bz.
  assert (R3 : Rabs (B2R (fneg (fdec 6907755 1000000) : f32) + 6907755 / 1000000) <= / 1000000) by (fval (fneg (fdec 6907755 1000000) : f32); apply Rabs_le; lra). apply Rabs_le_inv in R3.
  assert (F3 : fin (fneg (fdec 6907755 1000000) : f32)) by reflexivity. set (w := fneg _) in *. clearbody w.
  destruct (bp_dy (-8) ltac:(lia)) as [_ D3]. change (bpow radix2 (-8)) with (/ 256) in D3.
  destruct (fdiv_b (- / 256) 0 w z D3 dy0 F3 Fz ltac:(lra)) as (Fq & _ & Bq).
  { split.
    - apply Rmult_le_reg_r with (B2R z); [lra|]. unfold Rdiv. rewrite Rmult_assoc, Rinv_l by lra. lra.
    - apply Rmult_le_reg_r with (B2R z); [lra|]. unfold Rdiv. rewrite Rmult_assoc, Rinv_l by lra. lra. }
  destruct (A (fdiv w z) Fq ltac:(lra)) as [_ E]. apply Rabs_le_inv in E. change (bpow radix2 (-23)) with (/ 8388608) in E.
  pose proof (exp_ineq1_le (B2R (fdiv w z))). lra.
Qed.

(** ** Reading where only the beginning matters *)
(** Same size, same frames up to [m] and same last frame. *)
Definition same_head (m : Z) (b b' : rbuf) : Prop :=
  rb_n b' = rb_n b /\ (forall c i, (0 <= i <= m \/ i = rb_n b - 1)%Z -> smp b' c i = smp b c i).
Lemma head_read b b' m p : rb_ok b -> rb_ok b' -> same_head (m + 2) b b' -> (0 <= m)%Z -> (m + 2 < rb_n b)%Z -> fin p -> 0 <= B2R p < IZR (m + 1) -> B2R p < B2R (fofZ (rb_n b) : f32) ->
  rd_tick2 (BufRd (Some b') true 4) p = rd_tick2 (BufRd (Some b) true 4) p.
Proof.
  intros O O' [En Es] M N Fp Bp Pn. destruct (phase_ok true (rb_n b) p (ok_n b O) (or_introl Fp)) as [F B]. destruct (split_ok _ F B) as (f & S & I).
  assert (T : Ztrunc (B2R p / B2R (fofZ (rb_n b) : f32)) = 0%Z).
  { assert (0 <= B2R p / B2R (fofZ (rb_n b) : f32) < 1). { split; [apply Rmult_le_pos; [lra|left; apply Rinv_0_lt_compat; lra]|]. apply Rmult_lt_reg_r with (B2R (fofZ (rb_n b) : f32)); [lra|]. unfold Rdiv. rewrite Rmult_assoc, Rinv_l; lra. }
    rewrite Ztrunc_floor by lra. apply Zfloor_imp. cbn. lra. }
  assert (V : B2R (rd_phase true (rb_n b) p) = B2R p).
  { destruct (fofZ_big (rb_n b) (ok_n b O)) as [Fn Bn]. destruct (ffmod_R p (fofZ (rb_n b)) Fp Fn ltac:(lra)) as [Fm Em]. rewrite T, Rmult_0_r, Rminus_0_r in Em.
    unfold rd_phase. cbv zeta. replace (flt (ffmod p (fofZ (rb_n b))) zero) with false; [exact Em|]. symmetry. apply flt_R_false; [exact Fm|reflexivity|]. rewrite Em. change (B2R (zero : f32)) with 0. lra. }
  rewrite V in S, I. set (i := Zfloor (B2R p)) in *.
  assert (Ii : (0 <= i <= m)%Z). { split; [lia|]. assert (i < m + 1)%Z; [|lia]. apply lt_IZR. eapply Rle_lt_trans; [apply Zfloor_lb|]. lra. }
  destruct (tick_form b true 4 p i f O S I) as [_ A]. assert (S' : rd_split (rd_phase true (rb_n b') p) = Some (i, f)) by (rewrite En; exact S). destruct (tick_form b' true 4 p i f O' S' I) as [_ A'].
  rewrite A, A'. assert (TT : forall c k, (0 <= k <= m + 2 \/ k = rb_n b - 1)%Z -> tapv b' c k = tapv b c k) by (intros c k K; unfold tapv; rewrite En; destruct (k <? rb_n b)%Z; [now apply Es|reflexivity]).
  assert (W : forall d, (0 <= d <= m + 2)%Z -> rd_wrap true d (rb_n b) = d) by (intros d D; unfold rd_wrap; apply Z.mod_small; lia).
  assert (P : (0 <= rd_prev true i (rb_n b) <= m + 2 \/ rd_prev true i (rb_n b) = rb_n b - 1)%Z).
  { unfold rd_prev. destruct (Z.eqb_spec i 0); [right; unfold rd_wrap; apply Z.mod_small; lia|left; rewrite W; lia]. }
  assert (G : forall c, interp 4 true b' c i f = interp 4 true b c i f).
  { intros c. cbv beta zeta delta [interp]. change (4 =? 2)%Z with false. change (4 =? 4)%Z with true. cbv iota. rewrite En. rewrite !W by lia. rewrite !TT by (auto; left; lia). reflexivity. }
  now rewrite !G.
Qed.

(** ** The player on a long file *)
Definition swap (b : rbuf) (s : player) : player := Player b (pl_frate s) (pl_ph s) (pl_lag s) (pl_ds s) (pl_base s) (pl_ctl s).
Record slow_inv (b : rbuf) (fr : Z) (s : player) : Prop := {
  si_buf : pl_buf s = b; si_fr : pl_frate s = fofZ fr; si_ph : cap_inv (-1) (fofZ (rb_n b)) (pl_ph s); si_lag : half_lag (pl_lag s);
  si_base : span 0 (/ 2) (pl_base s); si_ctl : span 0 1 (pl_ctl s) }.
(** What happens around the player: JACK at least as fast as the file, pointer asking for forward play up to normal speed. *)
Definition gentle (L : libm) (fr : Z) (o : pl_call) : Prop :=
  match o with LRate sr => studio sr /\ (fr <= sr)%Z | LMouse x w => span 0 1 (pl_rate L x w) | LBlock _ => True end.
Definition long_file (b : rbuf) : Prop := rb_ok b /\ (2 ^ 23 + 3 <= rb_n b)%Z.
Lemma long_end b : long_file b -> ph_par (fofZ (rb_n b)) /\ bpow radix2 (-1 + 24) < B2R (fofZ (rb_n b) : f32).
Proof.
  intros [O N]. destruct (fofZ_big (rb_n b) (ok_n b O)) as [F B]. split.
  - split; [exact F|]. rewrite Rabs_pos_eq by lra. eapply Rle_trans; [apply B|apply bpow_le; lia].
  - destruct (fofZ_R (prec:=24) (emax:=128) (2 ^ 23 + 3) ltac:(lia)) as [F3 R3].
    apply Rlt_le_trans with (B2R (fofZ (2 ^ 23 + 3) : f32)); [rewrite R3; change (bpow radix2 (-1 + 24)) with (IZR (2 ^ 23)); apply IZR_lt; lia|].
    pose proof (flit_R (prec:=24) (emax:=128) (rb_n b) 0) as Q. change (bpow radix2 0) with 1 in Q. rewrite Rmult_1_r in Q.
    destruct (Rlt_le_dec (Rabs (rnd32 (IZR (rb_n b)))) (bpow radix2 128)) as [T|T].
    + destruct (Q T) as [_ E]. unfold fofZ at 2. rewrite E. apply rnd_ge_B2R. rewrite R3. now apply IZR_le.
    + exfalso. pose proof (ok_n b O) as Z. assert (D : dy32 (bpow radix2 62)) by (apply bp_dy; lia).
      destruct (dy_rnd_bnd (prec:=24) (emax:=128) 0 (bpow radix2 62) (IZR (rb_n b)) dy0 D) as [X _]; [|lra]. change (bpow radix2 62) with (IZR (2 ^ 62)). split; apply IZR_le; lia.
Qed.
Lemma half_base fr sr : (1 <= fr <= sr)%Z -> studio sr -> span 0 (/ 2) (fdiv (fofZ fr) (fmul (fofZ sr) two)).
Proof.
  intros Hf Hs. destruct (studio_R sr Hs) as (_ & _ & Fi & Ri & Lo). destruct (fofZ_R (prec:=24) (emax:=128) fr ltac:(unfold studio in Hs; lia)) as [Ff Rf].
  destruct (bp_dy (-1) ltac:(lia)) as [Dh _]. change (bpow radix2 (-1)) with (/ 2) in Dh. set (y := fmul _ _) in *. clearbody y. set (x := fofZ fr) in *. clearbody x.
  assert (0 < IZR fr <= IZR sr) by (split; [apply IZR_lt|apply IZR_le]; lia).
  destruct (fdiv_b 0 (/ 2) x y dy0 Dh Ff Fi ltac:(lra)) as (F & _ & B); [|split; assumption]. rewrite Rf, Ri. split.
  - apply Rmult_le_pos; [lra|left; apply Rinv_0_lt_compat; lra].
  - apply Rmult_le_reg_r with (2 * IZR sr); [lra|]. unfold Rdiv. rewrite Rmult_assoc, Rinv_l by lra. lra.
Qed.
Lemma span_mul (x y : f32) : span 0 (/ 2) x -> span 0 1 y -> span 0 (/ 2) (fmul x y).
Proof.
  intros [Fx Bx] [Fy By]. destruct (bp_dy (-1) ltac:(lia)) as [Dh _]. change (bpow radix2 (-1)) with (/ 2) in Dh.
  destruct (fmul_b 0 (/ 2) x y dy0 Dh Fx Fy ltac:(nra)) as (F & _ & B). split; assumption.
Qed.
Lemma slow_configure L b fr s sr : exp_unit L -> exp_acc L -> rb_ok b -> (1 <= fr <= sr)%Z -> studio sr -> pl_buf s = b -> pl_frate s = fofZ fr -> span 0 1 (pl_ctl s) ->
  slow_inv b fr (pl_configure L s (fofZ sr)).
Proof.
  intros U A O Hf Hs Eb Ef Hc. pose proof (half_base fr sr Hf Hs) as Bb. pose proof (slow_coeff L sr U A Hs) as Cc.
  unfold pl_configure. cbv zeta. rewrite Eb, (ok_valid b O), Ef. set (base := fdiv _ _) in *. clearbody base.
  pose proof (span_mul base (pl_ctl s) Bb Hc) as T. set (tg := fmul base (pl_ctl s)) in *. clearbody tg.
  constructor; cbn [pl_buf pl_frate pl_ph pl_lag pl_ds pl_base pl_ctl]; auto.
  - unfold cap_inv, ph_set. cbn [ph_rate ph_start ph_end ph_pos ph_value]. rewrite zero_R. change (bpow radix2 (-1)) with (/ 2). pose proof (bpow_gt_0 radix2 (-1 + 24)). destruct T as [FT BT].
    assert (FZ : fin zero) by reflexivity. intuition lra.
  - split; [exact Cc|exact T].
Qed.
Lemma slow_tick b b' fr s t : long_file b -> rb_ok b' -> same_head (2 ^ 23 + 2) b b' -> slow_inv b fr s -> span 0 (/ 2) t ->
  exists s', pl_tick s t = Some s' /\ pl_tick (swap b' s) t = Some (swap b' s') /\ slow_inv b fr s' /\ pl_base s' = pl_base s /\ pl_ctl s' = pl_ctl s.
Proof.
  intros Lf O' SH [I1 I2 I3 I4 I5 I6] T. destruct (long_end b Lf) as [Pe E]. destruct Lf as [O N]. unfold pl_tick, swap. cbn [pl_buf pl_frate pl_ph pl_lag pl_ds pl_base pl_ctl].
  destruct (half_tick (pl_lag s) t I4 T) as [J4 [Fr Br]]. destruct (lg_tick (pl_lag s) t) as [lg r]. cbn [fst snd] in J4, Fr, Br.
  assert (J3 : cap_inv (-1) (fofZ (rb_n b)) (ph_setRate (pl_ph s) r)). { destruct (cap_op (-1) (fofZ (rb_n b)) (pl_ph s) (HRate r) ltac:(lia) Pe E I3) as [X _]; [|exact X]. split; [exact Fr|]. change (bpow radix2 (-1)) with (/ 2). lra. }
  destruct (cap_tick (-1) _ _ ltac:(lia) Pe E J3) as (K3 & V & _). assert (Vx : fin (ph_value (ph_setRate (pl_ph s) r)) /\ 0 <= B2R (ph_value (ph_setRate (pl_ph s) r)) <= bpow radix2 (-1 + 24)) by (destruct J3 as (_ & _ & _ & _ & _ & _ & X & Y); auto).
  rewrite <- V in Vx. clear V. destruct (ph_tick (ph_setRate (pl_ph s) r)) as [ph phase]. cbn [fst snd] in K3, Vx. destruct Vx as [Fp Bp]. change (bpow radix2 (-1 + 24)) with (IZR (2 ^ 23)) in *.
  assert (R : rd_tick2 (BufRd (Some b') true 4) phase = rd_tick2 (BufRd (Some b) true 4) phase).
  { apply (head_read b b' (2 ^ 23)); auto; [lia|lia| |lra]. split; [lra|]. eapply Rle_lt_trans; [apply Bp|]. apply IZR_lt. lia. }
  rewrite I1, R. destruct (rd_defined b true 4 phase O (or_introl Fp)) as (i & f & _ & _ & _ & D). rewrite D. cbn [bind fst snd].
  eexists. split; [reflexivity|]. cbn [pl_buf pl_frate pl_ph pl_lag pl_ds pl_base pl_ctl]. split; [reflexivity|]. split; [constructor; auto|auto].
Qed.
Lemma slow_frame b b' fr s t : long_file b -> rb_ok b' -> same_head (2 ^ 23 + 2) b b' -> slow_inv b fr s -> span 0 (/ 2) t ->
  exists s' y, pl_frame s t = Some (s', y) /\ pl_frame (swap b' s) t = Some (swap b' s', y) /\ slow_inv b fr s'.
Proof.
  intros Lf O' SH I T. unfold pl_frame. destruct (slow_tick b b' fr s t Lf O' SH I T) as (s1 & A1 & B1 & I1 & _). rewrite A1, B1. cbn [bind].
  destruct (slow_tick b b' fr s1 t Lf O' SH I1 T) as (s2 & A2 & B2 & I2 & _). rewrite A2, B2. cbn [bind].
  change (pl_ds (swap b' s2)) with (pl_ds s2). destruct (ds2_read (pl_ds s2)) as [d y]. exists (Player (pl_buf s2) (pl_frate s2) (pl_ph s2) (pl_lag s2) d (pl_base s2) (pl_ctl s2)), y.
  split; [reflexivity|]. split; [reflexivity|]. destruct I2. constructor; auto.
Qed.
Lemma slow_frames b b' fr t n : long_file b -> rb_ok b' -> same_head (2 ^ 23 + 2) b b' -> span 0 (/ 2) t -> forall s, slow_inv b fr s ->
  exists s' ys, pl_frames s t n = Some (s', ys) /\ pl_frames (swap b' s) t n = Some (swap b' s', ys) /\ slow_inv b fr s'.
Proof.
  intros Lf O' SH T. induction n as [|n IH]; intros s I; cbn [pl_frames]; [exists s, []; auto|].
  destruct (slow_frame b b' fr s t Lf O' SH I T) as (s1 & y & A1 & B1 & I1). rewrite A1, B1. cbn [bind].
  destruct (IH s1 I1) as (s2 & ys & A2 & B2 & I2). rewrite A2, B2. cbn [bind]. exists s2, (y :: ys). auto.
Qed.
Lemma swap_configure L b b' s sr : pl_buf s = b -> rb_ok b -> rb_ok b' -> rb_n b' = rb_n b -> pl_configure L (swap b' s) sr = swap b' (pl_configure L s sr).
Proof.
  intros E O O' N. unfold pl_configure, swap. cbv zeta. cbn [pl_buf pl_frate pl_ph pl_lag pl_ds pl_base pl_ctl]. rewrite E, (ok_valid b O), (ok_valid b' O'), N. reflexivity.
Qed.
Lemma slow_run L b b' fr os : exp_unit L -> exp_acc L -> long_file b -> rb_ok b' -> same_head (2 ^ 23 + 2) b b' -> (1 <= fr)%Z -> Forall (gentle L fr) os -> forall s, slow_inv b fr s ->
  exists s' ys, pl_run L s os = Some (s', ys) /\ pl_run L (swap b' s) os = Some (swap b' s', ys).
Proof.
  intros U A Lf O' SH Hf H. induction H as [|o os Ho H IH]; intros s I; cbn [pl_run]; [exists s, []; auto|].
  assert (S : exists s1 ys, pl_op L s o = Some (s1, ys) /\ pl_op L (swap b' s) o = Some (swap b' s1, ys) /\ slow_inv b fr s1).
  { destruct o as [sr|x w|n]; cbn [pl_op].
    - eexists _, []. split; [reflexivity|]. destruct Ho as [Hs Hle]. destruct I. split.
      + rewrite (swap_configure L b b' s (fofZ sr)); auto; [apply Lf|apply SH].
      + apply slow_configure; auto; (apply Lf || lia).
    - eexists _, []. split; [reflexivity|]. split; [reflexivity|]. destruct I. constructor; auto.
    - unfold pl_block. change (pl_base (swap b' s)) with (pl_base s). change (pl_ctl (swap b' s)) with (pl_ctl s).
      apply (slow_frames b b' fr); auto. destruct I. now apply span_mul. }
  destruct S as (s1 & ys & A1 & B1 & I1). rewrite A1, B1. cbn [bind]. destruct (IH s1 I1) as (s2 & zs & A2 & B2). rewrite A2, B2. cbn [bind]. exists s2, (ys ++ zs). auto.
Qed.
(** Output of a run of the program. *)
Definition heard (L : libm) (b : rbuf) (fr sr : Z) (os : list pl_call) : option (list (f32 * f32)) := option_map snd (pl_run L (pl_start L b fr sr) os).
Lemma never_heard L b b' fr sr os : exp_unit L -> exp_acc L -> long_file b -> rb_ok b' -> same_head (2 ^ 23 + 2) b b' -> studio sr -> (1 <= fr <= sr)%Z -> Forall (gentle L fr) os ->
  heard L b' fr sr os = heard L b fr sr os /\ heard L b fr sr os <> None.
Proof.
  intros U A Lf O' SH Hs Hf H. unfold heard. assert (O : rb_ok b) by apply Lf.
  assert (I : slow_inv b fr (pl_start L b fr sr)).
  { unfold pl_start. apply slow_configure; auto. cbn [pl_ctl]. split; [reflexivity|]. rewrite one_R. lra. }
  assert (E : pl_start L b' fr sr = swap b' (pl_start L b fr sr)) by (unfold pl_start; erewrite <- (swap_configure L b b'); [reflexivity|reflexivity|exact O|exact O'|apply SH]).
  rewrite E. destruct (slow_run L b b' fr os U A Lf O' SH ltac:(lia) H _ I) as (s2 & ys & P & Q). rewrite P, Q. split; [reflexivity|discriminate].
Qed.
