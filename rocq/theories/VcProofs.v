(** ExampleVoice: bounds and silence. *)
From Coq Require Import ZArith Reals Bool List Lra Lia.
From Flocq Require Import Core BinarySingleNaN.
From Verif Require Import Flt FltFacts FltMore FltKey FltArith Libm UtilModel UtilProofs FltClose
  OscModel OscSpec OscProofs OscProofs3 EnvModel EnvSpec EnvProofs PanModel PanProofs VcModel VcSpec.
Import ListNotations.
Local Open Scope R_scope.

(** ** Magnitudes *)
Definition mg (k : Z) (x : f32) : Prop := fin x /\ Rabs (B2R x) <= bpow radix2 k.
Lemma mg_weak j k x : mg j x -> (j <= k)%Z -> mg k x.
Proof. intros [F B] H. split; [exact F|]. eapply Rle_trans; [exact B|]. now apply bpow_le. Qed.
Lemma abs_dn x b : Rabs x <= b -> - b <= x <= b.
Proof. intros H. unfold Rabs in H. destruct (Rcase_abs x); lra. Qed.
Lemma mg_mul a b x y : (-149 <= a + b < 128)%Z -> mg a x -> mg b y -> mg (a + b) (fmul x y).
Proof.
  intros H [Fx Bx] [Fy By]. destruct (bp_dy (a + b) H) as [D1 D2].
  assert (B : Rabs (B2R x * B2R y) <= bpow radix2 (a + b)).
  { rewrite Rabs_mult, bpow_plus. apply Rmult_le_compat; auto using Rabs_pos. }
  destruct (fmul_b _ _ x y D2 D1 Fx Fy (abs_dn _ _ B)) as (F & _ & C). split; [exact F|]. now apply Rabs_le.
Qed.
Lemma mg_add c a b x y : (-149 <= c < 128)%Z -> (a < c)%Z -> (b < c)%Z -> mg a x -> mg b y -> mg c (fadd x y).
Proof.
  intros H Ha Hb [Fx Bx] [Fy By]. destruct (bp_dy c H) as [D1 D2].
  assert (B : Rabs (B2R x + B2R y) <= bpow radix2 c).
  { eapply Rle_trans; [apply Rabs_triang|].
    assert (X : bpow radix2 a <= bpow radix2 (c - 1)) by (apply bpow_le; lia).
    assert (Y : bpow radix2 b <= bpow radix2 (c - 1)) by (apply bpow_le; lia).
    replace (bpow radix2 c) with (bpow radix2 (c - 1) + bpow radix2 (c - 1)); [lra|].
    replace c with (c - 1 + 1)%Z at 3 by lia. rewrite bpow_plus. change (bpow radix2 1) with 2. lra. }
  destruct (fadd_b _ _ x y D2 D1 Fx Fy (abs_dn _ _ B)) as (F & _ & C). split; [exact F|]. now apply Rabs_le.
Qed.
Lemma mg_div a x y : (-149 <= a < 128)%Z -> mg a x -> fin y -> 1 <= B2R y -> mg a (fdiv x y).
Proof.
  intros H [Fx Bx] Fy By. destruct (bp_dy a H) as [D1 D2].
  assert (B : Rabs (B2R x / B2R y) <= bpow radix2 a).
  { unfold Rdiv. rewrite Rabs_mult, Rabs_inv, (Rabs_pos_eq (B2R y)) by lra.
    apply Rle_trans with (Rabs (B2R x) * 1); [|lra]. apply Rmult_le_compat_l; [apply Rabs_pos|].
    rewrite <- Rinv_1. apply Rinv_le; lra. }
  destruct (fdiv_b _ _ x y D2 D1 Fx Fy) as (F & _ & C); [lra|exact (abs_dn _ _ B)|]. split; [exact F|]. now apply Rabs_le.
Qed.
(** A factor of size at most 1 never increases the size. *)
Lemma shrink (x y : f32) m : fin x -> Rabs (B2R x) <= 1 -> fin y -> Rabs (B2R y) <= m -> dy32 m -> fin (fmul y x) /\ Rabs (B2R (fmul y x)) <= m.
Proof.
  intros Fx Bx Fy By D.
  assert (B : Rabs (B2R y * B2R x) <= m).
  { rewrite Rabs_mult. pose proof (Rabs_pos (B2R y)). pose proof (Rabs_pos (B2R x)). nra. }
  destruct (fmul_b (- m) m y x (dy_opp _ D) D Fy Fx (abs_dn _ _ B)) as (F & _ & C). split; [exact F|]. now apply Rabs_le.
Qed.
Lemma unit_abs x : -1 <= x <= 1 -> Rabs x <= 1. Proof. intros. apply Rabs_le. lra. Qed.

(** ** The sine oscillator at any frequency up to 2^77 Hz *)
Definition wide (sr : f32) (s : sinosc) : Prop := mg 111 (so_phase s) /\ mg 80 (so_inc s) /\ so_sr s = sr.
Lemma TP_mg : mg 3 TWO_PI.
Proof. split; [ffin|]. fval TWO_PI. rewrite Rabs_pos_eq by lra. change (bpow radix2 3) with 8. lra. Qed.
Lemma wide_step sr f : fin sr -> 1 <= B2R sr -> mg 77 f -> mg 80 (so_step f sr).
Proof. intros Fs Bs Hf. unfold so_step. apply mg_div; [lia| |exact Fs|exact Bs]. apply (mg_mul 3 77); [lia|exact TP_mg|exact Hf]. Qed.
Lemma wide_setf sr s f : fin sr -> 1 <= B2R sr -> mg 77 f -> wide sr s -> wide sr (so_setFrequency s f).
Proof. intros Fs Bs Hf (P & I & E). refine (conj P (conj _ E)). cbn [so_setFrequency so_inc]. rewrite E. now apply wide_step. Qed.
Lemma wide_tick L sr s : sin_unit L -> wide sr s -> wide sr (fst (so_tick L s)) /\ audio (snd (so_tick L s)).
Proof.
  intros S ([Fp Bp] & [Fi Bi] & E). split; [|apply S; exact Fp].
  refine (conj _ (conj (conj Fi Bi) E)). unfold so_tick, fst, so_phase. fold (so_phase s).
  assert (A : mg 111 (fadd (so_phase s) (so_inc s))).
  { assert (B : Rabs (B2R (so_phase s) + B2R (so_inc s)) <= bpow radix2 111 + bpow radix2 (111 - 24)).
    { eapply Rle_trans; [apply Rabs_triang|]. assert (bpow radix2 80 <= bpow radix2 (111 - 24)) by (apply bpow_le; lia). lra. }
    pose proof (rnd_tie_pow_abs (prec:=24) (emax:=128) 111 _ ltac:(lia) ltac:(cbn; lia) B) as C.
    destruct (fadd_ok (so_phase s) (so_inc s) Fp Fi) as [X Y].
    { eapply Rle_lt_trans; [exact C|]. apply bpow_lt. lia. }
    split; [exact X|]. now rewrite Y. }
  destruct (fle TWO_PI (fadd (so_phase s) (so_inc s))) eqn:C; [|exact A].
  destruct A as [Fa Ba]. destruct TP_mg as [Ft Bt]. apply fle_R in C; [|exact Ft|exact Fa].
  destruct (bp_dy 111 ltac:(lia)) as [D1 D2]. apply abs_dn in Ba.
  assert (T0 : 0 < B2R TWO_PI) by (fval TWO_PI; lra).
  destruct (fsub_b 0 (bpow radix2 111) (fadd (so_phase s) (so_inc s)) TWO_PI dy0 D1 Fa Ft) as (F & _ & G); [lra|].
  split; [exact F|]. rewrite Rabs_pos_eq; lra.
Qed.

(** ** The voice *)
Definition ev_inv (sr : f32) (amp : R) (v : voice) : Prop :=
  (wide sr (ev_osc v) /\ ar_inv (ev_env v) /\ ln_inv sr (ev_vib v) /\ ln_inv sr (ev_pan v)) /\
  (mg 40 (ev_base v) /\ flt (flit 1 40) (ev_depth v) = false) /\
  unit_sample (ev_pdepth v) /\ (unit_sample (ev_amp v) /\ B2R (ev_amp v) = amp).

Lemma vr_rate sr : voice_rate sr -> rate_ok sr.
Proof. intros [F B]. split; [exact F|lra]. Qed.
Lemma vr_sr sr : voice_rate sr -> sr_ok sr.
Proof. intros [F B]. unfold sr_ok. apply flt_R; [reflexivity|exact F|]. change (B2R fzero) with 0. lra. Qed.
Lemma clamp01 x : is_nan x = false -> unit_sample (clamp x zero one).
Proof.
  intros N. destruct (clamp_fin x zero one N) as [F B]; [reflexivity|exact one_fin|rewrite one_R; change (B2R zero) with 0; lra|].
  rewrite one_R in B. change (B2R zero) with 0 in B. split; assumption.
Qed.
Lemma clamp01_R x : is_nan x = false -> B2R (clamp x zero one) = if flt x zero then 0 else if flt one x then 1 else B2R x.
Proof. intros N. unfold clamp. destruct (flt x zero); [reflexivity|]. destruct (flt one x); [apply one_R|reflexivity]. Qed.

Lemma ev_init_inv L sr : exp_unit L -> voice_rate sr -> ev_inv sr (1 / 2) (ev_init L sr).
Proof.
  intros HE R. pose proof (vr_rate _ R) as R1. pose proof (vr_sr _ R) as R2. destruct R as [Fs Bs].
  assert (M0 : mg 40 (fofZ 440)).
  { split; [ffin|]. fval (fofZ 440 : f32). rewrite Rabs_pos_eq by lra. apply Rle_trans with (bpow radix2 9); [change (bpow radix2 9) with 512; lra|apply bpow_le; lia]. }
  unfold ev_init. refine (conj (conj _ (conj _ (conj _ _))) (conj (conj _ _) (conj _ (conj _ _)))); cbn [ev_osc ev_env ev_vib ev_pan ev_base ev_depth ev_pdepth ev_amp].
  - refine (conj _ (conj _ eq_refl)); [split; [reflexivity|]; cbn [so_init so_phase]; change (B2R zero) with 0; rewrite Rabs_R0; apply bpow_ge_0|].
    cbn [so_init so_inc]. apply wide_step; [exact Fs|lra|]. apply mg_weak with 40%Z; [exact M0|lia].
  - pose proof (ar_init_inv L sr HE R2) as I.
    pose proof (proj1 (ar_step_inv L _ (ArOAttack (fdec 1 100)) HE Logic.I I)) as I1. cbn [ar_step fst] in I1.
    exact (proj1 (ar_step_inv L _ (ArORelease (fdec 3 10)) HE Logic.I I1)).
  - apply ln_setf_inv; [exact R1|now apply ln_init_inv|]. apply flt_R_false; [exact Fs|ffin|]. fval (fofZ 5 : f32). lra.
  - apply ln_setf_inv; [exact R1|now apply ln_init_inv|]. apply flt_R_false; [exact Fs|ffin|]. rewrite one_R. lra.
  - exact M0.
  - vm_compute. reflexivity.
  - apply unit_one.
  - split; [ffin|]. fval half. lra.
  - fval half. lra.
Qed.

Lemma ev_reset_inv sr amp v : voice_rate sr -> ev_inv sr amp v -> ev_inv sr amp (ev_reset v).
Proof.
  intros R (((P & I & E) & A & V & N) & B & X). pose proof (vr_rate _ R) as R1.
  refine (conj (conj _ (conj _ (conj _ _))) (conj B X)); cbn [ev_reset ev_osc ev_env ev_vib ev_pan].
  - refine (conj _ (conj I E)). split; [reflexivity|]. cbn [so_reset so_phase]. change (B2R zero) with 0. rewrite Rabs_R0. apply bpow_ge_0.
  - refine (proj1 (ar_step_inv half_exp _ ArOReset _ Logic.I A)). intros x _. split; [ffin|]. cbn [half_exp libm_of_exp m_exp]. fval half. lra.
  - apply (ln_op_inv sr _ (NReset seed0) R1 V). cbn. unfold seed0. lia.
  - apply (ln_op_inv sr _ (NReset seed0) R1 N). cbn. unfold seed0. lia.
Qed.

Lemma ln2_mg : mg (-4) LN2_12.
Proof. split; [ffin|]. fval LN2_12. rewrite Rabs_pos_eq by lra. change (bpow radix2 (-4)) with (/16). lra. Qed.
Lemma big_R : B2R (flit 1 40 : f32) = bpow radix2 40 /\ fin (flit 1 40 : f32).
Proof. split; [|ffin]. fval (flit 1 40 : f32). change (bpow radix2 40) with 1099511627776. lra. Qed.
Lemma depth_mg d : flt (flit 1 40) d = false -> flt zero d = true -> mg 40 d.
Proof.
  intros H P. destruct (flt_nan _ _ P) as [_ N]. destruct big_R as [E Fb].
  assert (K0 : 0 < key d) by (apply flt_true in P; [exact P|reflexivity|exact N]).
  assert (K : key d <= bpow radix2 40).
  { destruct (Rle_or_lt (key d) (bpow radix2 40)) as [|K]; [assumption|]. exfalso.
    assert (flt (flit 1 40) d = true); [|congruence]. apply flt_true; [now apply fin_nan|exact N|]. now rewrite key_fin, E. }
  assert (F : fin d). { apply fin_key_lt; [exact N|]. rewrite Rabs_pos_eq by lra. eapply Rle_lt_trans; [exact K|]. apply bpow_lt. lia. }
  rewrite key_fin in K, K0 by exact F. split; [exact F|]. rewrite Rabs_pos_eq; lra.
Qed.
Lemma ev_vibrato_inv sr amp v : voice_rate sr -> ev_inv sr amp v ->
  ln_inv sr (fst (ev_vibrato v)) /\ wide sr (snd (ev_vibrato v)).
Proof.
  intros [Fs Bs] ((W & A & V & N) & (Hb & Hd) & _). unfold ev_vibrato.
  destruct (flt zero (ev_depth v)) eqn:D; [|split; assumption].
  destruct (ln_tick_inv sr _ V) as [V' [Fo Bo]]. destruct (ln_tick (ev_vib v)) as [vib m]. cbn [fst snd] in V', Fo, Bo |- *.
  split; [exact V'|]. apply wide_setf; [exact Fs|lra| |exact W].
  pose proof (depth_mg _ Hd D) as Md.
  assert (Mm : mg 0 m) by (split; [exact Fo|apply unit_abs; exact Bo]).
  apply (mg_mul 40 37); [lia|exact Hb|]. apply mg_add with 0%Z 36%Z; [lia|lia|lia| |].
  - split; [exact one_fin|]. rewrite one_R, Rabs_R1. cbn. lra.
  - apply (mg_mul 40 (-4)); [lia| |exact ln2_mg]. apply (mg_mul 0 40); [lia|exact Mm|exact Md].
Qed.

Lemma ev_tick_inv L sr amp v : exp_unit L -> sin_unit L -> cos_unit L -> voice_rate sr -> ev_inv sr amp v ->
  ev_inv sr amp (fst (ev_tick L v)) /\
  (fin (fst (snd (ev_tick L v))) /\ Rabs (B2R (fst (snd (ev_tick L v)))) <= amp) /\
  (fin (snd (snd (ev_tick L v))) /\ Rabs (B2R (snd (snd (ev_tick L v)))) <= amp).
Proof.
  intros HE HS HC R I. destruct (ev_vibrato_inv sr amp v R I) as [V W].
  destruct I as ((_ & A & _ & N) & B & Hp & Ha & Ea). unfold ev_tick.
  destruct (ev_vibrato v) as [vib osc]. cbn [fst snd] in V, W.
  destruct (wide_tick L sr osc HS W) as [W' [Fo Bo]]. destruct (so_tick L osc) as [osc' o]. cbn [fst snd] in W', Fo, Bo.
  destruct (ar_tick_inv _ A) as [A' [Fe Be]]. destruct (ar_tick (ev_env v)) as [env e]. cbn [fst snd] in A', Fe, Be.
  destruct (ln_tick_inv sr _ N) as [N' [Fp Bp]]. destruct (ln_tick (ev_pan v)) as [pan p]. cbn [fst snd] in N', Fp, Bp.
  cbn [fst snd].
  split; [exact (conj (conj W' (conj A' (conj V N'))) (conj B (conj Hp (conj Ha Ea))))|].
  pose proof Ha as [Fa Ba].
  destruct (shrink e o 1 Fe ltac:(apply unit_abs; lra) Fo ltac:(apply unit_abs; lra) dy1) as [F1 B1].
  assert (F2 : fin (fmul (fmul o e) (ev_amp v)) /\ Rabs (B2R (fmul (fmul o e) (ev_amp v))) <= amp).
  { destruct (fmul_b (- B2R (ev_amp v)) (B2R (ev_amp v)) (fmul o e) (ev_amp v) (dy_opp _ (dy_B2R _)) (dy_B2R _) F1 Fa) as (F & _ & C).
    - apply abs_dn in B1. split; nra.
    - split; [exact F|]. apply Rabs_le. rewrite Ea in C. exact C. }
  destruct F2 as [F2 B2].
  destruct Hp as [Fd Bd].
  destruct (shrink (ev_pdepth v) p 1 Fd ltac:(apply unit_abs; lra) Fp ltac:(apply unit_abs; lra) dy1) as [F3 B3].
  destruct (angle_bnd (fmul p (ev_pdepth v)) (fin_nan _ F3)) as [F4 _].
  assert (D : dy32 amp) by (rewrite <- Ea; apply dy_B2R).
  unfold pan2_process. cbn [fst snd].
  destruct (HC _ F4) as [Fc Bc]. destruct (HS _ F4) as [Fn Bn].
  split; apply shrink; try assumption; now apply unit_abs.
Qed.

Lemma ev_call_inv L sr amp v o : exp_unit L -> sin_unit L -> cos_unit L -> voice_rate sr -> ev_ok sr o -> ev_inv sr amp v ->
  ev_inv sr (amp_set amp o) (fst (ev_call L v o)).
Proof.
  intros HE HS HC R O I. pose proof (vr_rate _ R) as R1. pose proof I as ((W & A & V & N) & (Hb & Hd) & Hp & Ha & Ea).
  destruct o; cbn [ev_call fst amp_set].
  - cbn in O. subst sr0. now apply ev_init_inv.
  - destruct O as [Ff Bf]. destruct R as [Fs Bs].
    refine (conj (conj _ (conj A (conj V N))) (conj (conj _ Hd) (conj Hp (conj Ha Ea)))).
    + apply wide_setf; [exact Fs|lra| |exact W]. apply mg_weak with 40%Z; [split; assumption|lia].
    + split; assumption.
  - exact (conj (conj W (conj (proj1 (ar_step_inv L _ (ArOAttack t) HE Logic.I A)) (conj V N))) (conj (conj Hb Hd) (conj Hp (conj Ha Ea)))).
  - exact (conj (conj W (conj (proj1 (ar_step_inv L _ (ArORelease t) HE Logic.I A)) (conj V N))) (conj (conj Hb Hd) (conj Hp (conj Ha Ea)))).
  - exact (conj (conj W (conj A (conj V N))) (conj (conj Hb O) (conj Hp (conj Ha Ea)))).
  - refine (conj (conj W (conj A (conj _ N))) (conj (conj Hb Hd) (conj Hp (conj Ha Ea)))). now apply ln_setf_inv.
  - refine (conj (conj W (conj A (conj V N))) (conj (conj Hb Hd) (conj Hp (conj _ _)))); cbn [ev_setAmplitude ev_amp]; [now apply clamp01|now apply clamp01_R].
  - refine (conj (conj W (conj A (conj V N))) (conj (conj Hb Hd) (conj _ (conj Ha Ea)))). now apply clamp01.
  - exact (conj (conj W (conj (proj1 (ar_step_inv L _ ArOTrigger HE Logic.I A)) (conj V N))) (conj (conj Hb Hd) (conj Hp (conj Ha Ea)))).
  - exact (conj (conj W (conj (proj1 (ar_step_inv L _ ArORel HE Logic.I A)) (conj V N))) (conj (conj Hb Hd) (conj Hp (conj Ha Ea)))).
  - exact (conj (conj W (conj (proj1 (ar_step_inv L _ (ArOGate on) HE Logic.I A)) (conj V N))) (conj (conj Hb Hd) (conj Hp (conj Ha Ea)))).
  - pose proof (proj1 (ev_tick_inv L sr amp v HE HS HC R I)) as T. destruct (ev_tick L v). exact T.
  - now apply ev_reset_inv.
Qed.

Lemma ev_run_fst L o t v : fst (ev_run L v (o :: t)) = fst (ev_run L (fst (ev_call L v o)) t).
Proof. cbn [ev_run]. destruct (ev_call L v o) as [v1 r]. cbn [fst]. destruct (ev_run L v1 t). reflexivity. Qed.
Lemma ev_run_inv L sr ops : exp_unit L -> sin_unit L -> cos_unit L -> voice_rate sr -> Forall (ev_ok sr) ops ->
  forall amp v, ev_inv sr amp v -> ev_inv sr (fold_left amp_set ops amp) (fst (ev_run L v ops)).
Proof.
  intros HE HS HC R H. induction H as [|o t Ho Ht IH]; intros amp v I; [exact I|].
  rewrite ev_run_fst. cbn [fold_left]. apply IH. now apply ev_call_inv.
Qed.
Lemma ev_after_inv L sr ops : exp_unit L -> sin_unit L -> cos_unit L -> voice_rate sr -> Forall (ev_ok sr) ops ->
  ev_inv sr (amp_of ops) (ev_after L sr ops).
Proof. intros HE HS HC R H. apply ev_run_inv; auto. now apply ev_init_inv. Qed.
Lemma ev_bounded L sr ops : exp_unit L -> sin_unit L -> cos_unit L -> voice_rate sr -> Forall (ev_ok sr) ops ->
  let y := ev_next L (ev_after L sr ops) in
  (fin (fst y) /\ Rabs (B2R (fst y)) <= amp_of ops) /\ (fin (snd y) /\ Rabs (B2R (snd y)) <= amp_of ops).
Proof. intros HE HS HC R H. apply (ev_tick_inv L sr _ _ HE HS HC R (ev_after_inv L sr ops HE HS HC R H)). Qed.

(** ** Silence *)
Lemma mul_zero_fin (x y : f32) : fin x -> fin y -> B2R y = 0 -> fin (fmul x y) /\ B2R (fmul x y) = 0.
Proof.
  intros Fx Fy E. destruct (fmul_b 0 0 x y dy0 dy0 Fx Fy) as (F & _ & B); [rewrite E; lra|]. split; [exact F|lra].
Qed.
Lemma zero_mul_fin (x y : f32) : fin x -> fin y -> B2R x = 0 -> fin (fmul x y) /\ B2R (fmul x y) = 0.
Proof.
  intros Fx Fy E. destruct (fmul_b 0 0 x y dy0 dy0 Fx Fy) as (F & _ & B); [rewrite E; lra|]. split; [exact F|lra].
Qed.
Lemma ev_tick_silent L sr amp v : exp_unit L -> sin_unit L -> cos_unit L -> voice_rate sr -> ev_inv sr amp v -> ev_isActive v = false ->
  silent (snd (ev_tick L v)) /\ ev_isActive (fst (ev_tick L v)) = false.
Proof.
  intros HE HS HC R I Q. destruct (ev_vibrato_inv sr amp v R I) as [V W].
  destruct I as ((_ & A & _ & N) & B & Hp & Ha & Ea). unfold ev_tick.
  assert (Q' : ar_state (ev_env v) = ArIdle) by (unfold ev_isActive, ar_isActive in Q; destruct (ar_state (ev_env v)); congruence).
  destruct (ar_idle _ Q') as [E0 S0].
  destruct (ev_vibrato v) as [vib osc]. cbn [fst snd] in V, W.
  destruct (wide_tick L sr osc HS W) as [W' [Fo Bo]]. destruct (so_tick L osc) as [osc' o]. cbn [fst snd] in W', Fo, Bo.
  destruct (ar_tick (ev_env v)) as [env e]. cbn [fst snd] in E0, S0.
  destruct (ln_tick_inv sr _ N) as [N' [Fp Bp]]. destruct (ln_tick (ev_pan v)) as [pan p]. cbn [fst snd] in N', Fp, Bp.
  cbn [fst snd]. split; [|unfold ev_isActive, ar_isActive; cbn [ev_env]; now rewrite S0].
  subst e. destruct (mul_zero_fin o fzero Fo eq_refl eq_refl) as [F1 Z1].
  destruct (zero_mul_fin _ (ev_amp v) F1 (proj1 Ha) Z1) as [F2 Z2].
  destruct Hp as [Fd Bd].
  destruct (shrink (ev_pdepth v) p 1 Fd ltac:(apply unit_abs; lra) Fp ltac:(apply unit_abs; lra) dy1) as [F3 B3].
  destruct (angle_bnd (fmul p (ev_pdepth v)) (fin_nan _ F3)) as [F4 _].
  unfold pan2_process, silent. cbn [fst snd].
  split; apply zero_mul_fin; auto; [apply HC; exact F4|apply HS; exact F4].
Qed.
Lemma quiet_call L v o : ev_quiet o -> ev_isActive v = false -> ev_isActive (fst (ev_call L v o)) = false.
Proof.
  intros Q H. unfold ev_isActive, ar_isActive in *. assert (S : ar_state (ev_env v) = ArIdle) by (destruct (ar_state (ev_env v)); congruence).
  destruct o; cbn [ev_call fst ev_quiet] in *; try contradiction; try reflexivity; try exact H.
  - unfold ev_release, ev_with_env. cbn [ev_env ar_release ar_with ar_state]. now rewrite S.
  - destruct on; [contradiction|]. unfold ev_setGate, ev_with_env, ar_setGate. cbn. destruct (ar_gate (ev_env v)); cbn; now rewrite S.
  - unfold ev_tick. destruct (ev_vibrato v) as [a b]. destruct (so_tick L b). pose proof (proj2 (ar_idle _ S)) as X.
    destruct (ar_tick (ev_env v)). destruct (ln_tick (ev_pan v)). cbn in *. now rewrite X.
Qed.
Lemma ev_silent L sr ops post : exp_unit L -> sin_unit L -> cos_unit L -> voice_rate sr -> Forall (ev_ok sr) (ops ++ post) ->
  ev_isActive (ev_after L sr ops) = false -> Forall ev_quiet post ->
  Forall silent (ev_samples L (ev_after L sr ops) post).
Proof.
  intros HE HS HC R H Q Hq. apply Forall_app in H. destruct H as [H1 H2].
  pose proof (ev_after_inv L sr ops HE HS HC R H1) as I. revert Q I. generalize (amp_of ops) as amp, (ev_after L sr ops) as v.
  induction Hq as [|o t Ho Ht IH]; intros amp v Q I; [constructor|].
  inversion H2 as [|? ? H3 H4]; subst.
  pose proof (ev_call_inv L sr amp v o HE HS HC R H3 I) as I'. pose proof (quiet_call L v o Ho Q) as Q'.
  assert (X : forall y, snd (ev_call L v o) = Some y -> silent y).
  { destruct o; cbn [ev_call snd]; try discriminate. pose proof (proj1 (ev_tick_silent L sr amp v HE HS HC R I Q)) as T.
    destruct (ev_tick L v). cbn [snd] in *. intros y E. injection E as <-. exact T. }
  unfold ev_samples in *. cbn [ev_run]. specialize (IH H4 _ _ Q' I'). destruct (ev_call L v o) as [v1 r]. cbn [fst snd] in *.
  destruct (ev_run L v1 t) as [v2 rs]. cbn [snd flat_map] in *. apply Forall_app. split; [|exact IH].
  destruct r as [y|]; [|constructor]. constructor; [now apply X|constructor].
Qed.
