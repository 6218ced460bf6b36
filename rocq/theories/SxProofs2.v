(** Supersaw example: control mapping, bounded dry signal, what a change of rate does. *)
From Coq Require Import ZArith Reals Lra Lia Bool Psatz List.
From Flocq Require Import Core BinarySingleNaN.
From Verif Require Import Flt FltFacts FltMore FltKey FltArith FltClose FltRel FltScale Libm UtilModel UtilProofs Ln2 EnvModel EnvSpec EnvProofs OscModel OscSpec OscProofs LineSpec SmoothModel SmoothSpec SmoothProofs SmoothProofs4 DsModel DsSpec DsProofs DsProofs2
  MgModel MgSpec MgBase RkModel RkProofs3 LaSpec VcModel SsSpec SsProofs SsProofs2 SsProofs3 FvModel FvSpec VcSpec PanProofs PbProofs2 PbProofs3 PbProofs4 MxModel MxProofs SxModel SxSpec SxProofs.
Import ListNotations.
Local Open Scope R_scope.
Local Notation rnd32 := (@rnd 24 128).
Local Notation dy32 := (@dy 24 128).
Local Notation span := PbProofs4.span.
Local Notation within := SmoothSpec.within.
Local Notation unit_clamp := PbProofs2.unit_clamp.

(** ** The controls *)
Lemma sx_cutoff_eq L x w : sx_cutoff L x w = log_map L (fofZ 100) (fofZ 12000) (unit_clamp (fdiv (fofZ x) (fofZ w))). Proof. reflexivity. Qed.
Lemma hz12000 : fin (fofZ 12000 : f32) /\ B2R (fofZ 12000 : f32) = 12000. Proof. destruct (fofZ_R (prec:=24) (emax:=128) 12000 ltac:(lia)). auto. Qed.
Lemma ln_12000 : 0 <= ln 12000 <= 14.
Proof.
  split; [rewrite <- ln_1; left; apply ln_increasing; lra|]. apply Rle_trans with (ln (2 ^ 14)); [left; apply ln_increasing; lra|]. rewrite ln_pow by lra. pose proof ln_2 as L2. simpl INR. lra.
Qed.
Lemma sx_map L es s u : exp_rel L -> log_rel L -> cl es s u -> 0 <= u <= 1 -> 0 <= B2R s <= 1 -> 0 <= es <= bpow radix2 (-25) ->
  rl (bpow radix2 (-16)) (log_map L (fofZ 100) (fofZ 12000) s) (geo 100 12000 u).
Proof.
  intros EL LL C U S E. destruct hz100 as [F1 R1]. destruct hz12000 as [F2 R2].
  assert (Eg : geo 100 12000 u = geo (B2R (fofZ 100 : f32)) (B2R (fofZ 12000 : f32)) u) by (now rewrite R1, R2). rewrite Eg.
  assert (E' : es <= bpow radix2 (-20)) by (eapply Rle_trans; [apply E|apply bpow_le; lia]).
  pose proof (ln_small 100 ltac:(lra)) as N1. pose proof ln_12000 as N2.
  eapply rl_weak; [apply (log_map_acc L 4 es); auto; try (cbn; lia); try lra|].
  - rewrite R1, Rabs_pos_eq by lra. change (bpow radix2 4) with 16. lra.
  - rewrite R2, Rabs_pos_eq by lra. change (bpow radix2 4) with 16. lra.
  - change (bpow radix2 4) with 16. change (bpow radix2 (-23)) with (/ 8388608). change (bpow radix2 (-16)) with (/ 65536). change (bpow radix2 (-25)) with (/ 33554432) in E. lra.
Qed.
Lemma sx_cut_range L x w : exp_rel L -> log_rel L -> span (999 / 10) 12001 (sx_cutoff L x w).
Proof.
  intros EL LL. rewrite sx_cutoff_eq. destruct (uclamp_fin (fdiv (fofZ x) (fofZ w))) as [Fs Bs]. set (s := unit_clamp _) in *. clearbody s.
  destruct (sx_map L 0 s (B2R s) EL LL (cl_self _ Fs) Bs Bs ltac:(pose proof (bpow_ge_0 radix2 (-25)); lra)) as [F E].
  pose proof (geo_in 100 12000 (B2R s) ltac:(lra) ltac:(lra) Bs) as G. set (g := geo _ _ _) in *. rewrite (Rabs_pos_eq g) in E by lra. apply Rabs_le_inv in E. change (bpow radix2 (-16)) with (/ 65536) in E. split; [exact F|lra].
Qed.
Lemma sx_cut_acc L x w : exp_rel L -> log_rel L -> screen x w -> rl (bpow radix2 (-16)) (sx_cutoff L x w) (geo 100 12000 (rclamp (IZR x / IZR w))).
Proof.
  intros EL LL S. rewrite sx_cutoff_eq. destruct (uclamp_fin (fdiv (fofZ x) (fofZ w))) as [Fs Bs]. apply (sx_map L (bpow radix2 (-25))); auto; [now apply frac_cl|apply rclamp_in|]. pose proof (bpow_ge_0 radix2 (-25)). lra.
Qed.
Lemma sx_drive_range y h : fin (sx_drive y h) /\ 0 <= B2R (sx_drive y h) <= 1.
Proof. apply uclamp_fin. Qed.
Lemma sx_drive_acc y h : screen y h -> cl (bpow radix2 (-24)) (sx_drive y h) (1 - rclamp (IZR y / IZR h)).
Proof.
  intros [Hx Hw]. change (sx_drive y h) with (unit_clamp (fsub one (fdiv (fofZ y) (fofZ h)))).
  destruct (fofZ_R (prec:=24) (emax:=128) y ltac:(lia)) as [Fx Rx]. destruct (fofZ_R (prec:=24) (emax:=128) h ltac:(lia)) as [Fw Rw].
  assert (W1 : 1 <= IZR h) by (apply IZR_le; lia).
  assert (Ax : Rabs (IZR y) <= bpow radix2 24) by (rewrite <- abs_IZR; change (bpow radix2 24) with (IZR (2 ^ 24)); apply IZR_le; lia).
  assert (A : Rabs (IZR y / IZR h) <= bpow radix2 24).
  { unfold Rdiv. rewrite Rabs_mult, Rabs_inv, (Rabs_pos_eq (IZR h)) by lra. rewrite <- (Rmult_1_r (bpow radix2 24)).
    apply Rmult_le_compat; [apply Rabs_pos|left; apply Rinv_0_lt_compat; lra|exact Ax|]. rewrite <- Rinv_1. apply Rinv_le_contravar; lra. }
  destruct (bp_dy 24 ltac:(lia)) as [D1 D2]. destruct (bp_dy 25 ltac:(lia)) as [D3 D4].
  destruct (fdiv_b (- bpow radix2 24) (bpow radix2 24) (fofZ y : f32) (fofZ h) D2 D1 Fx Fw) as (F & R & B); [rewrite Rw; lra|rewrite Rx, Rw; apply Rabs_le_inv; exact A|].
  rewrite Rx, Rw in R. set (q := IZR y / IZR h) in *. set (v := fdiv _ _) in *. clearbody v. destruct one_1 as [F1 R1].
  destruct (fsub_b _ _ (one : f32) v D4 D3 F1 F) as (Fn & Rn & _); [rewrite R1; change (bpow radix2 25) with 33554432; change (bpow radix2 24) with 16777216 in B; lra|].
  destruct (uclamp_R _ Fn) as [Fu Ru]. rewrite Rn, R1 in Ru.
  pose proof (clamp_rnd (1 - B2R v)) as E1. rewrite <- Ru in E1. rewrite R, rclamp_flip in E1. pose proof (clamp_rnd q) as E2. set (n := unit_clamp _) in *. clearbody n.
  split; [exact Fu|]. change (bpow radix2 (-25)) with (/ 33554432) in *. change (bpow radix2 (-24)) with (/ 16777216).
  apply Rabs_le_inv in E1, E2. apply Rabs_le. lra.
Qed.
Lemma ratio_1e4 : fdiv (fofZ 100) (fdec 1 100) = (fofZ 10000 : f32). Proof. vm_compute. reflexivity. Qed.
Lemma sx_gain_eq L n : sx_gain L n = fmul (fdec 1 100) (m_pow L (fofZ 10000) (unit_clamp n)).
Proof. unfold sx_gain. rewrite ratio_1e4. reflexivity. Qed.
Lemma pow1e4_b n : 0 <= n <= 1 -> 1 <= Rpower 10000 n <= 10000.
Proof.
  intros H. split.
  - rewrite <- (Rpower_O 10000) at 1 by lra. apply Rle_Rpower; lra.
  - apply Rle_trans with (Rpower 10000 1); [apply Rle_Rpower; lra|rewrite Rpower_1; lra].
Qed.
(** The gain: 0.01 * 10000^n. *)
Lemma sx_gain_acc L n : pow1e4_acc L -> let g := / 100 * Rpower 10000 (B2R (unit_clamp n)) in fin (sx_gain L n) /\ Rabs (B2R (sx_gain L n) - g) <= bpow radix2 (-21) * g.
Proof.
  intros HP g. rewrite sx_gain_eq. destruct (uclamp_fin n) as [Fu Bu]. set (u := unit_clamp n) in *. clearbody u. destruct (HP u Fu Bu) as [Fp Ep]. pose proof (pow1e4_b _ Bu) as G. subst g. set (w := Rpower 10000 (B2R u)) in *. clearbody w.
  set (p := m_pow L _ u) in *. clearbody p. change (bpow radix2 (-22)) with (/ 4194304) in Ep.
  assert (A : rl (/ 40000000) (fdec 1 100) (/ 100)) by (split; [reflexivity|]; fval (fdec 1 100 : f32); rewrite (Rabs_pos_eq (/ 100)) by lra; apply Rabs_le; lra).
  assert (B : rl (/ 4194304) p w) by (split; [exact Fp|]; rewrite (Rabs_pos_eq w) by lra; exact Ep).
  assert (C : rl (/ 2097152) (fmul (fdec 1 100) p) (/ 100 * w)).
  { apply (rl_mul (/ 40000000) (/ 4194304)); auto; try lra; [|unfold ru; lra]. unfold mid. rewrite Rabs_pos_eq by (apply Rmult_le_pos; lra). split; [apply Rle_trans with (bpow radix2 (-10)); [apply bpow_le; lia|cbn; lra]|apply Rle_trans with (bpow radix2 20); [cbn; lra|apply bpow_le; lia]]. }
  destruct C as [Fc Ec]. split; [exact Fc|]. rewrite (Rabs_pos_eq (/ 100 * w)) in Ec by (apply Rmult_le_pos; lra). change (bpow radix2 (-21)) with (/ 2097152). exact Ec.
Qed.
Lemma sx_gain_fin L n : pow1e4_acc L -> fin (sx_gain L n). Proof. intros HP. apply (sx_gain_acc L n HP). Qed.

(** ** Rates *)
Lemma sx_hz_R sr : sx_hz sr -> mx_hz sr /\ fin (fofZ sr : f32) /\ B2R (fofZ sr : f32) = IZR sr /\ 44100 <= IZR sr <= 225280 /\ fmul (fofZ sr) one = (fofZ sr : f32).
Proof.
  intros H. unfold sx_hz in H. destruct (fofZ_R (prec:=24) (emax:=128) sr ltac:(lia)) as [F R]. split; [unfold mx_hz; lia|]. split; [exact F|]. split; [exact R|]. split; [split; apply IZR_le; lia|apply fmul_one].
Qed.
Lemma sx_rates sr : sx_hz sr -> saw_rate (fofZ sr) /\ mg_rate (fofZ sr) /\ 64000 <= IZR 24 * B2R (fofZ sr : f32) /\ rate_fine (fofZ sr) /\ sr_ok (fofZ sr).
Proof.
  intros H. destruct (sx_hz_R sr H) as (_ & F & R & B & _). assert (bpow radix2 18 <= bpow radix2 90) by (apply bpow_le; lia). change (bpow radix2 18) with 262144 in *.
  unfold saw_rate, mg_rate, rate_fine. rewrite R. split; [split; [exact F|lra]|]. split; [split; [exact F|lra]|]. split; [lra|]. split; [split; [exact F|lra]|].
  unfold sr_ok. apply flt_R; [reflexivity|exact F|]. rewrite R. change (B2R (fzero : f32)) with 0. lra.
Qed.

(** ** Voices *)
Definition chord (f : f32) : Prop := fin f /\ 55 <= B2R f <= 8820.
Lemma chords : chord (fofZ 55) /\ chord (fdec 32963 100) /\ chord (fdec 52325 100).
Proof. unfold chord. fval (fofZ 55 : f32). fval (fdec 32963 100 : f32). fval (fdec 52325 100 : f32). repeat split; try reflexivity; lra. Qed.
Lemma voice_ok L sr rnd f : exp_unit L -> pow2_acc L -> sin_unit L -> cos_unit L -> sx_hz sr -> (forall k, unit_sample (rnd k)) -> chord f -> ss_inv (fofZ sr) (sx_voice L (fofZ sr) rnd f).
Proof.
  intros HE HP HS HC H U [Ff Bf]. destruct (sx_rates sr H) as (R & _). destruct (sx_hz_R sr H) as (_ & _ & Rs & Bs & _).
  assert (K : forall s o, ss_inv (fofZ sr) s -> ss_ok (fofZ sr) o -> ss_inv (fofZ sr) (fst (ss_call L s o))) by (intros s o I O; now apply ss_call_inv).
  pose proof (ss_init_inv L (fofZ sr) rnd HE R U) as I0. unfold sx_voice. cbv zeta. set (s0 := ss_init L (fofZ sr) rnd) in *. clearbody s0.
  assert (I1 : ss_inv (fofZ sr) (ss_setFrequency s0 f)). { refine (K s0 (SsFreq f) I0 _). cbn [ss_ok]. rewrite Rs. split; [exact Ff|lra]. } set (s1 := ss_setFrequency s0 f) in *. clearbody s1.
  assert (I2 : ss_inv (fofZ sr) (ss_setDetune s1 (fdec 2 10))). { refine (K s1 (SsDetune (fdec 2 10)) I1 _). cbn [ss_ok]. split; [reflexivity|]. fval (fdec 2 10 : f32). apply Rabs_le. lra. } set (s2 := ss_setDetune s1 _) in *. clearbody s2.
  assert (I3 : ss_inv (fofZ sr) (ss_setVibratoRate s2 (fofZ 6))). { refine (K s2 (SsRate (fofZ 6)) I2 _). cbn [ss_ok]. rewrite Rs. split; [reflexivity|]. fval (fofZ 6 : f32). lra. } set (s3 := ss_setVibratoRate s2 _) in *. clearbody s3.
  assert (I4 : ss_inv (fofZ sr) (ss_setVibratoDepth s3 (fdec 3 10))). { refine (K s3 (SsDepth (fdec 3 10)) I3 _). cbn [ss_ok]. split; [reflexivity|]. fval (fdec 3 10 : f32). apply Rabs_le. lra. } set (s4 := ss_setVibratoDepth s3 _) in *. clearbody s4.
  assert (I5 : ss_inv (fofZ sr) (ss_setSpread s4 (fdec 6 10))) by exact (K s4 (SsSpread (fdec 6 10)) I4 eq_refl). set (s5 := ss_setSpread s4 _) in *. clearbody s5.
  assert (I6 : ss_inv (fofZ sr) (ss_setAttack L s5 (fdec 1 100))) by exact (K s5 (SsAttack (fdec 1 100)) I5 Logic.I). set (s6 := ss_setAttack L s5 _) in *. clearbody s6.
  assert (I7 : ss_inv (fofZ sr) (ss_setDecay L s6 (fdec 1 10))) by exact (K s6 (SsDecay (fdec 1 10)) I6 Logic.I). set (s7 := ss_setDecay L s6 _) in *. clearbody s7.
  assert (I8 : ss_inv (fofZ sr) (ss_setSustain s7 (fdec 7 10))) by exact (K s7 (SsSustain (fdec 7 10)) I7 eq_refl). set (s8 := ss_setSustain s7 _) in *. clearbody s8.
  assert (I9 : ss_inv (fofZ sr) (ss_setRelease L s8 (fdec 3 10))) by exact (K s8 (SsRelease (fdec 3 10)) I8 Logic.I). set (s9 := ss_setRelease L s8 _) in *. clearbody s9.
  exact (K s9 (SsGate one) I9 Logic.I).
Qed.
Lemma voices_ok L sr r0 r1 r2 : exp_unit L -> pow2_acc L -> sin_unit L -> cos_unit L -> sx_hz sr -> (forall k, unit_sample (r0 k)) -> (forall k, unit_sample (r1 k)) -> (forall k, unit_sample (r2 k)) ->
  Forall (ss_inv (fofZ sr)) (sx_voices L (fofZ sr) r0 r1 r2) /\ length (sx_voices L (fofZ sr) r0 r1 r2) = 3%nat.
Proof.
  intros HE HP HS HC H U0 U1 U2. destruct chords as (C1 & C2 & C3). split; [|reflexivity]. unfold sx_voices. constructor; [now apply voice_ok|]. constructor; [now apply voice_ok|]. constructor; [now apply voice_ok|]. constructor.
Qed.
Definition loud (n : Z) (x : f32) : Prop := fin x /\ Rabs (B2R x) <= IZR (n * 21675).
Lemma loud_add n a b : (0 <= n <= 100)%Z -> loud n a -> loud 1 b -> loud (n + 1) (fadd a b).
Proof.
  intros N [Fa Ba] [Fb Bb]. assert (D : dy32 (IZR ((n + 1) * 21675))) by (apply dy_IZR; change (2 ^ 24)%Z with 16777216%Z; lia).
  destruct (fadd_b _ _ a b (dy_opp _ D) D Fa Fb) as (F & _ & B).
  { apply Rabs_le_inv. eapply Rle_trans; [apply Rabs_triang|]. rewrite Z.mul_add_distr_r, plus_IZR. lra. }
  split; [exact F|now apply Rabs_le].
Qed.
Lemma mix_loud L sr vs : pow2_acc L -> sin_unit L -> cos_unit L -> saw_rate sr -> Forall (ss_inv sr) vs -> forall n m, (0 <= n)%Z -> (n + Z.of_nat (length vs) <= 100)%Z -> loud n (fst m) -> loud n (snd m) ->
  let r := sx_mix L vs m in Forall (ss_inv sr) (fst r) /\ length (fst r) = length vs /\ loud (n + Z.of_nat (length vs)) (fst (snd r)) /\ loud (n + Z.of_nat (length vs)) (snd (snd r)).
Proof.
  intros HP HS HC R. induction 1 as [|v t V T IH]; intros n m N0 N1 A B; cbn [sx_mix length].
  { cbn [fst snd]. replace (n + Z.of_nat 0)%Z with n by lia. split; [constructor|auto]. }
  cbn [length] in N1. destruct (ss_tick_ok L sr v HP HS HC R V) as [[I1 _] (e & ml & mr & E & _ & Ue & M1 & M2 & _)]. destruct (ss_tick L v) as [v' y]. cbn [fst snd] in I1, E. subst y. cbn [fst snd].
  destruct (out_fin ml e M1 Ue) as [F1 B1]. destruct (out_fin mr e M2 Ue) as [F2 B2].
  set (yl := fmul (fmul ml ss_norm) e) in *. set (yr := fmul (fmul mr ss_norm) e) in *. clearbody yl yr.
  specialize (IH (n + 1)%Z (fadd (fst m) yl, fadd (snd m) yr) ltac:(lia) ltac:(lia)). cbn [fst snd] in IH. destruct IH as (J1 & J2 & J3 & J4); [apply loud_add; auto; [lia|now split]|apply loud_add; auto; [lia|now split]|].
  destruct (sx_mix L t _) as [t' m']. cbn [fst snd] in *. replace (n + Z.of_nat (S (length t)))%Z with (n + 1 + Z.of_nat (length t))%Z by lia. split; [now constructor|]. split; [cbn [length]; now f_equal|auto].
Qed.

(** ** Filter *)
Lemma filter_ok L sr dr : pow1e4_acc L -> sx_hz sr -> rk_inv 24 (fofZ sr) (sx_filter L (fofZ sr) dr).
Proof.
  intros HP H. destruct (sx_rates sr H) as (_ & R & R24 & _). destruct (sx_hz_R sr H) as (_ & _ & Rs & Bs & _).
  assert (K : forall s o, rk_inv 24 (fofZ sr) s -> rk_good (IZR 24 / 64) (fofZ sr) o -> rk_inv 24 (fofZ sr) (fst (rk_call s o))) by (intros s o I O; apply rk_step_ok; auto; lia).
  assert (I0 : rk_inv 24 (fofZ sr) (rk_init (fofZ sr))) by (apply rk_init_inv; auto; lia).
  unfold sx_filter. set (s0 := rk_init _) in *. clearbody s0.
  assert (I1 : rk_inv 24 (fofZ sr) (rk_setOversample s0 2)) by (refine (K s0 (RkOver 2) I0 _); cbn [rk_good]; lia). set (s1 := rk_setOversample s0 2) in *. clearbody s1.
  assert (I2 : rk_inv 24 (fofZ sr) (rk_setCutoff s1 (fofZ 5000))). { refine (K s1 (RkCut (fofZ 5000)) I1 _). cbn [rk_good]. rewrite Rs. split; [reflexivity|]. fval (fofZ 5000 : f32). lra. } set (s2 := rk_setCutoff s1 _) in *. clearbody s2.
  assert (I3 : rk_inv 24 (fofZ sr) (rk_setResonance s2 (fdec 1 100))) by exact (K s2 (RkRes (fdec 1 100)) I2 eq_refl). set (s3 := rk_setResonance s2 _) in *. clearbody s3.
  exact (K s3 (RkDrive (sx_gain L dr)) I3 (sx_gain_fin L dr HP)).
Qed.
Lemma tuned_ok sr f c g : sx_hz sr -> rk_inv 24 (fofZ sr) f -> span 0 16384 c -> fin g -> rk_inv 24 (fofZ sr) (sx_tuned f c g) /\ rk_cut (sx_tuned f c g) = c.
Proof.
  intros H I0 [Fc Bc] Fg. split; [|reflexivity]. destruct (sx_rates sr H) as (_ & R & R24 & _). destruct (sx_hz_R sr H) as (_ & _ & Rs & Bs & _).
  assert (K : forall s o, rk_inv 24 (fofZ sr) s -> rk_good (IZR 24 / 64) (fofZ sr) o -> rk_inv 24 (fofZ sr) (fst (rk_call s o))) by (intros s o I O; apply rk_step_ok; auto; lia).
  unfold sx_tuned. assert (I2 : rk_inv 24 (fofZ sr) (rk_setCutoff f c)). { refine (K f (RkCut c) I0 _). cbn [rk_good]. rewrite Rs. split; [exact Fc|]. lra. } set (s2 := rk_setCutoff f _) in *. clearbody s2.
  assert (I3 : rk_inv 24 (fofZ sr) (rk_setResonance s2 (fdec 1 100))) by exact (K s2 (RkRes (fdec 1 100)) I2 eq_refl). set (s3 := rk_setResonance s2 _) in *. clearbody s3.
  exact (K s3 (RkDrive g) I3 Fg).
Qed.

(** ** Cutoff smoother *)
Lemma sx_step (c p x : f32) sr : sx_hz sr -> unit_sample c -> fin (fsub one c) -> 343 / 10 / IZR sr <= B2R (fsub one c) <= 346 / 10 / IZR sr -> B2R c + B2R (fsub one c) = 1 ->
  span 0 16384 p -> span (999 / 10) 12001 x -> let y := fadd (fmul c p) (fmul (fsub one c) x) in
  fin y /\ 0 < B2R y <= 16384 /\ (99 <= B2R p -> 99 <= B2R y) /\ (B2R p = 0 -> B2R y <= 10).
Proof.
  intros Hs U Fq Bq Eq [Fp Bp] [Fx Bx] y. destruct (sx_hz_R sr Hs) as (_ & Fs & Rs & Bs & _).
  assert (W : within (bpow radix2 14) y) by (apply (mix32 14); [lia|exact U|split; [exact Fx|]|split; [exact Fp|]]; change (bpow radix2 14) with 16384; rewrite Rabs_pos_eq; lra).
  destruct W as [Fy By]. change (bpow radix2 14) with 16384 in By. apply Rabs_le_inv in By. destruct U as [Fc Bc].
  set (q := fsub one c) in *. clearbody q. set (r := IZR sr) in *. assert (I : / 225280 <= / r <= / 44100) by (split; apply Rinv_le_contravar; lra). unfold Rdiv in Bq.
  destruct (bp_dy 4 ltac:(lia)) as [D4 _]. change (bpow radix2 4) with 16 in D4. destruct (bp_dy 15 ltac:(lia)) as [D15 _]. change (bpow radix2 15) with 32768 in D15. destruct (bp_dy 14 ltac:(lia)) as [D14 _]. change (bpow radix2 14) with 16384 in D14.
  destruct (bp_dy (-8) ltac:(lia)) as [Dl _]. change (bpow radix2 (-8)) with (/ 256) in Dl.
  assert (Qx : 343 / 10 * / r * (999 / 10) <= B2R q * B2R x <= 346 / 10 * / r * 12001).
  { split; [apply Rmult_le_compat; lra|apply Rmult_le_compat; lra]. }
  destruct (fmul_b _ _ q x Dl D4 Fq Fx ltac:(lra)) as (Fm & Rm & Bm).
  pose proof (rnd_err1 4 (B2R q * B2R x) ltac:(lia)) as Em. change (bpow radix2 4) with 16 in Em. change (bpow radix2 (4 - 25)) with (/ 2097152) in Em. rewrite Rabs_pos_eq in Em by lra. specialize (Em ltac:(lra)). rewrite <- Rm in Em.
  assert (P : 0 <= B2R c * B2R p <= 16384) by nra. destruct (fmul_b 0 16384 c p dy0 D14 Fc Fp P) as (Fn & Rn & Bn).
  destruct (fadd_b (B2R (fmul q x)) 32768 (fmul c p) (fmul q x) (dy_B2R (fmul q x)) D15 Fn Fm ltac:(destruct Bn; destruct Bm; split; lra)) as (_ & Ra & Ba). fold y in Ra, Ba.
  split; [exact Fy|]. split; [lra|]. split.
  - intros H99. assert (D99 : dy32 99) by (apply dy_IZR; lia).
    destruct (fadd_b 99 32768 (fmul c p) (fmul q x) D99 D15 Fn Fm) as (_ & _ & G); [|fold y in G; lra]. split; [|lra].
    assert (N : rnd32 (99 * B2R c) <= B2R (fmul c p)) by (rewrite Rn; apply rnd_le; nra).
    pose proof (rnd_err1 7 (99 * B2R c) ltac:(lia)) as E7. change (bpow radix2 7) with 128 in E7. change (bpow radix2 (7 - 25)) with (/ 262144) in E7. rewrite Rabs_pos_eq in E7 by lra. specialize (E7 ltac:(lra)). apply Rabs_le_inv in E7, Em.
    assert (B2R q * (999 / 10) <= B2R q * B2R x) by (apply Rmult_le_compat_l; lra). lra.
  - intros H0. assert (Z : B2R c * B2R p = 0) by (rewrite H0; ring). assert (Zn : B2R (fmul c p) = 0) by (rewrite Rn, Z; apply rnd_0).
    assert (D10 : dy32 10) by (apply dy_IZR; lia). apply Rabs_le_inv in Em.
    destruct (fadd_b 0 10 (fmul c p) (fmul q x) dy0 D10 Fn Fm) as (_ & _ & G); [rewrite Zn; lra|fold y in G; lra].
Qed.

(** ** Downsampler with factor 1 *)
Lemma idle_one L rate j d x : exp_unit L -> exp_acc L -> rate_fine rate -> (-100 <= j <= 96)%Z -> bnd j x -> idle L rate j d ->
  let r := ds_read (ds_write d x) in idle L rate j (fst r) /\ bnd j (snd r).
Proof.
  intros U A [Fr Br] J B1 (h & I & M) r.
  assert (N0 : (Z.of_nat (me_m h) < 2 ^ 64)%Z) by (rewrite M; reflexivity).
  pose proof (note_ok L rate j d h (DsWrite x) U A Fr Br J B1 N0 I) as I2.
  set (h2 := ds_note h (DsWrite x)) in *.
  assert (N2 : me_m h2 = 1%nat) by (unfold h2; cbn [ds_note me_m]; now rewrite M).
  pose proof (note_ok L rate j _ _ DsRead U A Fr Br J Logic.I ltac:(rewrite N2; reflexivity) I2) as I3.
  pose proof (read_ok L rate j _ _ J I2 ltac:(rewrite N2; split; [vm_compute; discriminate|reflexivity])) as R. cbv zeta in R. destruct R as (Fy & By & _).
  cbn [ds_call fst] in I2, I3, Fy, By. subst r. split.
  - exists (ds_note h2 DsRead). split; [|reflexivity]. destruct (ds_read (ds_write d x)). exact I3.
  - split; assumption.
Qed.
Definition dc_ok (d : f32 * f32) : Prop := within 128 (fst d) /\ fin (snd d) /\ Rabs (B2R (snd d) - B2R (fst d)) <= 33 / 32 * 128.
Lemma dc_zero : dc_ok (zero, zero).
Proof. unfold dc_ok, within. cbn [fst snd]. change (B2R (zero : f32)) with 0. rewrite Rminus_0_r, Rabs_R0. repeat split; lra. Qed.
Lemma dc_step d x : dc_ok d -> within 128 x -> dc_ok (sx_dc d x) /\ bnd 9 (snd (sx_dc d x)).
Proof.
  intros (P & Fy & By) X. assert (C : fin (fdec 995 1000 : f32) /\ 0 <= B2R (fdec 995 1000 : f32) <= 1 - bpow radix2 (-16)) by (split; [reflexivity|]; fval (fdec 995 1000 : f32); change (bpow radix2 (-16)) with (/ 65536); lra).
  destruct C as [Fc Bc]. change 128 with (bpow radix2 7) in P, By, X. destruct (dc_out_b 7 _ (fst d) (snd d) x ltac:(lia) Fc Bc P Fy By X) as (F & E & W).
  unfold sx_dc, dc_ok. cbn [fst snd]. set (o := dc_out _ _ _ _) in *. clearbody o. change 128 with (bpow radix2 7). split; [auto|]. destruct W as [_ W]. split; [exact F|]. change (bpow radix2 9) with 512. change (bpow radix2 7) with 128 in W. lra.
Qed.

(** ** The invariant *)
Record sx_inv (L : libm) (sr : Z) (s : choir) : Prop := {
  xi_hz : sx_hz sr; xi_v : Forall (ss_inv (fofZ sr)) (sx_v s) /\ length (sx_v s) = 3%nat;
  xi_cl : mx_smooth L sr 16384 (sx_cl s);
  xi_dl : idle L (fofZ sr) 9 (fst (sx_ds s)); xi_dr : idle L (fofZ sr) 9 (snd (sx_ds s));
  xi_fl : rk_inv 24 (fofZ sr) (sx_fl s); xi_fr : rk_inv 24 (fofZ sr) (sx_fr s);
  xi_pl : op_inv (fofZ sr) (bpow radix2 9) (sx_pl s); xi_pr : op_inv (fofZ sr) (bpow radix2 9) (sx_pr s);
  xi_cll : dc_ok (sx_dcl s); xi_clr : dc_ok (sx_dcr s);
  xi_cut : span (999 / 10) 12001 (sx_cut s) }.
Record libs (L : libm) : Prop := { l_eu : exp_unit L; l_ea : exp_acc L; l_er : exp_rel L; l_lr : log_rel L; l_p2 : pow2_acc L; l_p4 : pow1e4_acc L; l_su : sin_unit L; l_cu : cos_unit L }.
Lemma post_ok L sr c : exp_unit L -> sx_hz sr -> fin c -> op_inv (fofZ sr) (bpow radix2 9) (op_init L (fofZ sr) c).
Proof.
  intros HE H F. destruct (sx_hz_R sr H) as (_ & Fs & Rs & Bs & _). refine (conj eq_refl (conj _ (conj eq_refl (within0 _ (bpp 9))))). exact (op_pole_unit L (fofZ sr) c HE Fs ltac:(rewrite Rs; lra) (fin_nan _ F)).
Qed.
Lemma k5000 : span (999 / 10) 12001 (fofZ 5000). Proof. split; [reflexivity|]. fval (fofZ 5000 : f32). lra. Qed.
Lemma sx_rate_ok L gen s sr sr' t : libs L -> draws gen -> sx_inv L sr' s -> sx_hz sr -> sx_rate L gen s sr = Some t -> sx_inv L sr t /\ B2R (lg_prev (sx_cl t)) = 0 /\ sx_cut t = sx_cut s.
Proof.
  intros HL HD I H E. destruct HL as [HU HA HR HG HP HQ HS HC]. destruct (sx_hz_R sr H) as (_ & _ & _ & _ & One). unfold sx_rate in E. cbv zeta in E. rewrite One in E. destruct (sx_reverb _ _) as [g|]; [|discriminate]. injection E as <-.
  destruct (xi_cut _ _ _ I) as [Fc Bc]. split; [|split; reflexivity].
  constructor; cbn [sx_v sx_cl sx_dl sx_ds sx_fl sx_fr sx_rev sx_pl sx_pr sx_dcl sx_dcr sx_cut sx_dr ds2_init fst snd]; [exact H|apply voices_ok; auto|apply smooth_zero; lra|apply idle_init; lia|apply idle_init; lia|apply filter_ok; auto|apply filter_ok; auto|apply post_ok; auto|apply post_ok; auto|apply dc_zero|apply dc_zero|now split].
Qed.
Lemma start_ok L gen sr t : libs L -> draws gen -> sx_hz sr -> sx_start L gen sr = Some t -> sx_inv L sr t /\ 99 <= B2R (lg_prev (sx_cl t)).
Proof.
  intros HL HD H E. destruct HL as [HU HA HR HG HP HQ HS HC]. destruct (sx_hz_R sr H) as (_ & _ & _ & _ & One). unfold sx_start in E. cbv zeta in E. rewrite One in E. destruct (sx_reverb _ _) as [g|]; [|discriminate]. injection E as <-.
  destruct k5000 as [Fc Bc]. assert (R5 : B2R (fofZ 5000 : f32) = 5000) by (fval (fofZ 5000 : f32); lra). split.
  - constructor; cbn [sx_v sx_cl sx_dl sx_ds sx_fl sx_fr sx_rev sx_pl sx_pr sx_dcl sx_dcr sx_cut sx_dr ds2_init fst snd]; [exact H|apply voices_ok; auto|apply smooth_init; [lra|split; [exact Fc|lra]]|apply idle_init; lia|apply idle_init; lia|apply filter_ok; auto|apply filter_ok; auto|apply post_ok; auto|apply post_ok; auto|apply dc_zero|apply dc_zero|now split].
  - cbn [sx_cl lg_setValue lg_prev]. rewrite R5. lra.
Qed.
Lemma put_ok L sr s p : libs L -> sx_inv L sr s -> sx_inv L sr (sx_put L s p).
Proof. intros HL I. destruct I. destruct p as [x w|y h]; constructor; auto. cbn [sx_put sx_cut]. apply sx_cut_range; apply HL. Qed.
Lemma rev_ok L sr s g : sx_inv L sr s -> sx_inv L sr (sx_setrev s g).
Proof. intros I. destruct I. constructor; auto. Qed.
Lemma inv3 : fin (fdiv one (fofZ 3) : f32) /\ 0 <= B2R (fdiv one (fofZ 3) : f32) <= / 2.
Proof. split; [ffin|]. fval (fdiv one (fofZ 3) : f32). lra. Qed.
Lemma third x : loud 3 x -> fin (fmul x (fdiv one (fofZ 3))).
Proof.
  intros [F B]. destruct inv3 as [Fi Bi]. set (i := fdiv one _) in *. clearbody i. change (IZR (3 * 21675)) with 65025 in B. destruct (bp_dy 16 ltac:(lia)) as [D E].
  destruct (fmul_b _ _ x i E D F Fi) as (G & _); [|exact G]. apply Rabs_le_inv. rewrite Rabs_mult, (Rabs_pos_eq (B2R i)) by lra. change (bpow radix2 16) with 65536. replace 65536 with (131072 * / 2) by lra. apply Rmult_le_compat; [apply Rabs_pos|lra|lra|lra].
Qed.
Lemma tick_all L sr s : libs L -> sx_inv L sr s -> let r := sx_tick L s in
  sx_inv L sr (fst r) /\ within2 512 (snd r) /\ rk_cut (sx_fl (fst r)) = lg_prev (sx_cl (fst r)) /\ rk_cut (sx_fr (fst r)) = lg_prev (sx_cl (fst r)) /\ sx_cut (fst r) = sx_cut s /\
  0 < B2R (lg_prev (sx_cl (fst r))) /\ (99 <= B2R (lg_prev (sx_cl s)) -> 99 <= B2R (lg_prev (sx_cl (fst r)))) /\ (B2R (lg_prev (sx_cl s)) = 0 -> B2R (lg_prev (sx_cl (fst r))) <= 10).
Proof.
  intros HL [H [V1 V2] (S1 & S2 & S3) D1 D2 F1 F2 P1 P2 C1 C2 Hc]. destruct HL as [HU HA HR HG HP HQ HS HC]. destruct (sx_hz_R sr H) as (Hm & Fs & Rs & Bs & _). destruct (sx_rates sr H) as (R1 & R2 & R3 & R4 & R5).
  destruct (mx_coeff_R L sr HU HA Hm) as (U & Fq & Bq & Eq).
  pose proof (sx_step _ (lg_prev (sx_cl s)) (sx_cut s) sr H U Fq Bq Eq S3 Hc) as K. cbv zeta in K. rewrite <- S2 in K.
  unfold sx_tick, lg_tick. cbv zeta. set (c := fadd (fmul (lg_coeff (sx_cl s)) (lg_prev (sx_cl s))) _) in *. set (d := fadd (fmul (lg_coeff (sx_dl s)) _) _) in *. clearbody c d.
  destruct K as (Fc & Bc & K1 & K2). pose proof (sx_gain_fin L d HQ) as Fg. set (g := sx_gain L d) in *. clearbody g.
  assert (L0 : loud 0 zero) by (split; [reflexivity|]; change (B2R (zero : f32)) with 0; rewrite Rabs_R0; cbn; lra).
  pose proof (mix_loud L (fofZ sr) (sx_v s) HP HS HC R1 V1 0%Z (zero, zero) ltac:(lia) ltac:(rewrite V2; cbn; lia) L0 L0) as M. cbv zeta in M. rewrite V2 in M. change (0 + Z.of_nat 3)%Z with 3%Z in M.
  destruct (sx_mix L (sx_v s) (zero, zero)) as [vs [ml mr]]. cbn [fst snd] in M. destruct M as (M1 & M2 & M3 & M4). cbn [fst snd]. apply third in M3, M4.
  set (xl := fmul ml _) in *. set (xr := fmul mr _) in *. clearbody xl xr.
  destruct (tuned_ok sr (sx_fl s) c g H F1 (conj Fc (conj (Rlt_le _ _ (proj1 Bc)) (proj2 Bc))) Fg) as [T1 T1c]. destruct (tuned_ok sr (sx_fr s) c g H F2 (conj Fc (conj (Rlt_le _ _ (proj1 Bc)) (proj2 Bc))) Fg) as [T2 T2c].
  set (f1 := sx_tuned (sx_fl s) c g) in *. set (f2 := sx_tuned (sx_fr s) c g) in *. clearbody f1 f2.
  destruct (rk_tick_ok 24 ltac:(lia) (fofZ sr) R2 f1 xl T1 M3) as (G1 & Y1 & Z1). destruct (rk_tick_ok 24 ltac:(lia) (fofZ sr) R2 f2 xr T2 M4) as (G2 & Y2 & Z2).
  assert (Q1 : rk_cut (fst (rk_tick f1 xl)) = rk_cut f1) by reflexivity. assert (Q2 : rk_cut (fst (rk_tick f2 xr)) = rk_cut f2) by reflexivity.
  destruct (rk_tick f1 xl) as [f1' yl]. destruct (rk_tick f2 xr) as [f2' yr]. cbn [fst snd] in *.
  destruct (dc_step (sx_dcl s) yl C1) as [E1 O1]; [split; [exact Y1|lra]|]. destruct (dc_step (sx_dcr s) yr C2) as [E2 O2]; [split; [exact Y2|lra]|].
  set (dl := sx_dc (sx_dcl s) yl) in *. set (dr := sx_dc (sx_dcr s) yr) in *. clearbody dl dr.
  destruct (idle_one L (fofZ sr) 9 (fst (sx_ds s)) (snd dl) HU HA R4 ltac:(lia) O1 D1) as [W1 X1]. destruct (idle_one L (fofZ sr) 9 (snd (sx_ds s)) (snd dr) HU HA R4 ltac:(lia) O2 D2) as [W2 X2].
  unfold ds2_read, ds2_write. cbn [fst snd]. destruct (ds_read (ds_write (fst (sx_ds s)) (snd dl))) as [el ul]. destruct (ds_read (ds_write (snd (sx_ds s)) (snd dr))) as [er ur]. cbn [fst snd] in *.
  destruct (op_tickmod_inv L 9 (fofZ sr) (sx_pl s) ul c ltac:(lia) HU Fs ltac:(rewrite Rs; lra) (fin_nan _ Fc) P1 X1) as [N1 B1]. destruct (op_tickmod_inv L 9 (fofZ sr) (sx_pr s) ur c ltac:(lia) HU Fs ltac:(rewrite Rs; lra) (fin_nan _ Fc) P2 X2) as [N2 B2].
  destruct (op_tickmod L (sx_pl s) ul c) as [pl zl]. destruct (op_tickmod L (sx_pr s) ur c) as [pr zr]. cbn [fst snd] in *.
  split; [|split; [split; assumption|]].
  - constructor; cbn [sx_v sx_cl sx_dl sx_ds sx_fl sx_fr sx_rev sx_pl sx_pr sx_dcl sx_dcr sx_cut sx_dr fst snd]; auto. split; [exact S1|]. split; [exact S2|]. split; [exact Fc|]. cbn [lg_prev]. lra.
  - cbn [sx_fl sx_fr sx_cl sx_cut lg_prev]. split; [congruence|]. split; [congruence|]. split; [reflexivity|]. split; [apply Bc|]. split; assumption.
Qed.

(** ** Sessions *)
Lemma sx_dry L gen sr os s ys : libs L -> draws gen -> sx_hz sr -> Forall sx_ok os -> sx_session L gen sr os = Some (s, ys) ->
  (exists sr', sx_inv L sr' s) /\ exists dry wet, map (@length _) dry = sx_sizes os /\ fv_run L (FvInit (fofZ sr) :: room_set ++ room_calls os dry) fv_new = Some (sx_rev s, wet) /\ blended (concat dry) wet ys /\ Forall (within2 512) (concat dry).
Proof.
  intros HL HD H HO. unfold sx_session. destruct (sx_start L gen sr) as [s0|] eqn:E0; [|discriminate]. intros E.
  destruct (chain L gen (fun s => exists r, sx_inv L r s) (within2 512) sx_ok) with (os := os) (s := s0) (s' := s) (ys := ys) as (I & dry & wet & A & B & C & D); auto.
  - intros t n t' [r I] O Et. exists n. now apply (sx_rate_ok L gen t n r t').
  - intros t p [r I]. exists r. now apply put_ok.
  - intros t g [r I]. exists r. now apply rev_ok.
  - intros t [r I]. destruct (tick_all L r t HL I) as (J & W & _). split; [now exists r|exact W].
  - exists sr. now apply (start_ok L gen sr s0).
  - split; [exact I|]. exists dry, wet. split; [exact A|]. split; [|auto]. change (FvInit (fofZ sr) :: room_set ++ room_calls os dry) with ((FvInit (fofZ sr) :: room_set) ++ room_calls os dry).
    rewrite fv_app, (rev_start L _ _ _ (start_inv _ _ _ _ E0)), B. reflexivity.
Qed.
Definition no_rate (o : sx_call) : Prop := match o with SxRate _ => False | _ => True end.
Definition open_at (lo hi : R) (s : choir) : Prop := span lo hi (rk_cut (sx_fl s)) /\ span lo hi (rk_cut (sx_fr s)).
Lemma sx_held L gen sr os s ys : libs L -> draws gen -> sx_hz sr -> Forall no_rate os -> sx_session L gen sr os = Some (s, ys) -> open_at 99 16384 s.
Proof.
  intros HL HD H HO. unfold sx_session. destruct (sx_start L gen sr) as [s0|] eqn:E0; [|discriminate]. intros E. destruct (start_ok L gen sr s0 HL HD H E0) as [I0 J0].
  assert (S0 : open_at 99 16384 s0).
  { unfold sx_start in E0. cbv zeta in E0. destruct (sx_reverb _ _) as [g|]; [|discriminate]. injection E0 as <-. destruct k5000 as [F B]. assert (R5 : B2R (fofZ 5000 : f32) = 5000) by (fval (fofZ 5000 : f32); lra).
    unfold open_at. cbn [sx_fl sx_fr sx_filter rk_setDrive rk_setResonance rk_setCutoff rk_cut]. split; (split; [exact F|lra]). }
  destruct (chain L gen (fun s => sx_inv L sr s /\ 99 <= B2R (lg_prev (sx_cl s)) /\ open_at 99 16384 s) (fun _ => True) no_rate) with (os := os) (s := s0) (s' := s) (ys := ys) as (I & _); auto; [..|apply I].
  - intros t n t' _ [].
  - intros t p (I & J & S). split; [now apply put_ok|]. split; [destruct p; exact J|destruct p; exact S].
  - intros t g (I & J & S). split; [now apply rev_ok|auto].
  - intros t (I & J & S). destruct (tick_all L sr t HL I) as (A & _ & C1 & C2 & _ & _ & B & _). specialize (B J). split; [|exact Logic.I]. split; [exact A|]. split; [exact B|]. destruct (xi_cl _ _ _ A) as (_ & _ & [Fp Bp]). unfold open_at. rewrite C1, C2. split; (split; [exact Fp|lra]).
Qed.
(** The sample right after a change of rate. *)
Lemma sx_dropped L gen sr os sr' ps s ys : libs L -> draws gen -> sx_hz sr -> Forall sx_ok os -> sx_hz sr' -> sx_session L gen sr (os ++ [SxRate sr'; SxBlock [ps]]) = Some (s, ys) ->
  span 0 10 (rk_cut (sx_fl s)) /\ span 0 10 (rk_cut (sx_fr s)) /\ 999 / 10 <= B2R (sx_cut s).
Proof.
  intros HL HD H HO H' E.
  assert (X : exists s1 y1 s2, sx_session L gen sr os = Some (s1, y1) /\ sx_rate L gen s1 sr' = Some s2 /\ exists y, sx_block L s2 [ps] = Some (s, y)).
  { unfold sx_session in E |- *. destruct (sx_start L gen sr) as [s0|]; [|discriminate]. rewrite run_app in E. destruct (sx_run L gen s0 os) as [[s1 y1]|]; [|discriminate]. exists s1, y1. cbn [sx_run sx_op] in E.
    destruct (sx_rate L gen s1 sr') as [s2|]; [|discriminate]. exists s2. split; [reflexivity|]. split; [reflexivity|]. destruct (sx_block L s2 [ps]) as [[s3 y3]|]; [|discriminate]. cbn [app] in E. injection E as <- _. now exists y3. }
  destruct X as (s1 & y1 & s2 & E1 & E2 & y & E3). destruct (sx_dry L gen sr os s1 y1 HL HD H HO E1) as [[r I1] _]. destruct (sx_rate_ok L gen s1 sr' r s2 HL HD I1 H' E2) as (I2 & J2 & _).
  destruct (block_inv L s2 [ps] s y E3) as (s4 & d & w & T & _ & _ & _ & _ & S & _). cbn [sx_ticks] in T.
  assert (I3 : sx_inv L sr' (fold_left (sx_put L) ps s2) /\ B2R (lg_prev (sx_cl (fold_left (sx_put L) ps s2))) = 0).
  { clear - I2 J2 HL. revert s2 I2 J2. induction ps as [|p t IH]; intros s2 I J; [auto|]. cbn [fold_left]. apply IH; [now apply put_ok|destruct p; exact J]. }
  destruct I3 as [I3 J3]. set (s3 := fold_left (sx_put L) ps s2) in *. clearbody s3. destruct (tick_all L sr' s3 HL I3) as (A & _ & C1 & C2 & Ek & P & _ & Z). specialize (Z J3).
  destruct (sx_tick L s3) as [t v]. cbn [fst snd] in *. change (0 <? 8192)%Z with true in T. cbv iota in T. injection T as <- _. rewrite S. cbn [sx_setrev sx_fl sx_fr sx_cut]. destruct (xi_cl _ _ _ A) as (_ & _ & [Fp Bp]). rewrite C1, C2, Ek. destruct (xi_cut _ _ _ I3) as [_ Bc].
  split; [split; [exact Fp|lra]|]. split; [split; [exact Fp|lra]|lra].
Qed.
(** After a change of rate the voices differ in nothing but the frequency. *)
Lemma sx_voice_freq L sr rnd f : sx_voice L sr rnd f = ss_setFrequency (sx_voice L sr rnd zero) f.
Proof. unfold sx_voice. cbv zeta. set (s0 := ss_init L sr rnd). clearbody s0. destruct s0. reflexivity. Qed.
Lemma same_voices L gen s n t : sx_rate L gen s n = Some t -> exists v, sx_v t = map (ss_setFrequency v) [fofZ 55; fdec 32963 100; fdec 52325 100].
Proof.
  unfold sx_rate. cbv zeta. destruct (sx_reverb _ _) as [g|]; [|discriminate]. intros E. injection E as <-. cbn [sx_v]. set (r := fmul (fofZ n) one). clearbody r. exists (sx_voice L r (gen 42%Z) zero).
  unfold sx_voices. cbn [map]. rewrite (sx_voice_freq L r (gen 42%Z) (fofZ 55)), (sx_voice_freq L r (gen 42%Z) (fdec 32963 100)), (sx_voice_freq L r (gen 42%Z) (fdec 52325 100)). reflexivity.
Qed.
