From Coq Require Import ZArith Reals Lra Lia Bool List Psatz.
From Flocq Require Import Core BinarySingleNaN.
From Verif Require Import Flt FltFacts FltMore FltKey FltArith Libm UtilModel UtilProofs EnvSpec EnvProofs FltClose OscSpec OscProofs SmoothModel SmoothSpec.
Import ListNotations.
Local Open Scope R_scope.

(** ** Coefficients *)
Lemma rnd32_neg x : x <= 0 -> @sat 128 (rnd32 x) <= 0.
Proof.
  intros H. apply Rle_trans with (@sat 128 (rnd32 0)); [apply sat_le, rnd_le, H|].
  rewrite rnd_0, sat_in; [lra|]. rewrite Rabs_R0. apply bpow_gt_0.
Qed.
Lemma neg_over (a p : f32) : fin a -> B2R a < 0 -> is_nan p = false -> Bsign p = false -> fle (fdiv a p) fzero = true.
Proof.
  intros Fa Ha N S.
  assert (Sa : exists m e B, a = B754_finite true m e B).
  { destruct a as [b|b| |b m e B]; try discriminate; [cbn in Ha; lra|]. destruct b; [eauto|].
    exfalso. assert (0 < B2R (B754_finite false m e B : f32)) by (apply F2R_gt_0; cbn; lia). lra. }
  destruct p as [b|b| |b m e B]; try destruct b; try discriminate.
  - destruct Sa as (m & e & B & ->). unfold fdiv. rewrite erase_correct. reflexivity.
  - destruct Sa as (m & e & B & ->). unfold fdiv. rewrite erase_correct. reflexivity.
  - set (p := B754_finite false m e B : f32) in *.
    assert (Pp : 0 < B2R p) by (apply F2R_gt_0; cbn; lia).
    destruct (fdiv_key a p Fa eq_refl) as [N1 K1]; [lra|].
    apply fle_true; [exact N1|reflexivity|]. rewrite K1. change (key (fzero : f32)) with 0.
    apply rnd32_neg. unfold Rdiv. assert (0 < / B2R p) by now apply Rinv_0_lt_compat. nra.
Qed.
Lemma lag_lit : fin (fneg (fdec 6907755 1000000)) /\ B2R (fneg (fdec 6907755 1000000)) < 0.
Proof. split; [ffin|]. fval (fneg (fdec 6907755 1000000)). lra. Qed.
Lemma pos_of_gt (t : f32) : is_nan t = false -> fle t zero = false -> flt fzero t = true.
Proof.
  intros N H. apply flt_true; [reflexivity|exact N|]. change (key (fzero : f32)) with 0.
  destruct (Rlt_le_dec 0 (key t)) as [P|P]; [exact P|]. exfalso.
  assert (X : fle t zero = true) by (apply fle_true; [exact N|reflexivity|exact P]). congruence.
Qed.
Lemma lag_coeff_unit L t sr : exp_unit L -> sr_ok sr -> is_nan t = false -> unit_sample (lag_coeff L t sr).
Proof.
  intros HL Hs Nt. unfold lag_coeff. destruct (fle t zero) eqn:E; [split; [reflexivity|cbn; lra]|].
  destruct (mul_pos_sign t sr (pos_of_gt t Nt E) Hs) as [N S].
  apply HL. destruct lag_lit. now apply neg_over.
Qed.

(** ** The shared recurrence *)
Lemma mix32 k (c x y : f32) : (0 <= k <= 126)%Z -> unit_sample c -> within (bpow radix2 k) x -> within (bpow radix2 k) y ->
  within (bpow radix2 k) (fadd (fmul c y) (fmul (fsub one c) x)) /\
  within (bpow radix2 k) (fadd (fmul (fsub one c) x) (fmul c y)).
Proof.
  intros K [Fc Bc] [Fx Bx] [Fy By].
  destruct (one_minus c one Fc one_fin one_R Bc) as (Fq & Bq & Sq); [cbn; lia..|].
  split; apply mix_abs; try assumption; try lia; try (cbn; lia); try lra.
Qed.

(** ** Lag *)
Definition lg_inv (sr : f32) (m : R) (s : lag) : Prop := lg_sr s = sr /\ unit_sample (lg_coeff s) /\ within m (lg_prev s).
Lemma within0 m : 0 <= m -> within m zero.
Proof. intros H. split; [reflexivity|]. rewrite zero_R, Rabs_R0. exact H. Qed.
Lemma bpp k : 0 <= bpow radix2 k. Proof. apply bpow_ge_0. Qed.
Lemma lg_init_inv L sr t m : exp_unit L -> sr_ok sr -> is_nan t = false -> 0 <= m -> lg_inv sr m (lg_init L sr t).
Proof. intros HL Hs Nt Hm. refine (conj eq_refl (conj _ (within0 m Hm))). apply lag_coeff_unit; assumption. Qed.
Lemma lg_tick_inv k sr s x : (0 <= k <= 126)%Z -> lg_inv sr (bpow radix2 k) s -> within (bpow radix2 k) x ->
  lg_inv sr (bpow radix2 k) (fst (lg_tick s x)) /\ within (bpow radix2 k) (snd (lg_tick s x)).
Proof.
  intros K (Es & C & P) X. destruct (mix32 k (lg_coeff s) x (lg_prev s) K C X P) as [W _].
  split; [|exact W]. exact (conj Es (conj C W)).
Qed.
Lemma lg_bounded L k sr t ops : exp_unit L -> sr_ok sr -> is_nan t = false -> (0 <= k <= 126)%Z -> Forall (lg_ok (bpow radix2 k)) ops ->
  forall y, In (Some y) (snd (run (lg_op L) (lg_init L sr t) ops)) -> within (bpow radix2 k) y.
Proof.
  intros HL Hs Nt K H. refine (proj2 (run_inv (lg_op L) (lg_inv sr (bpow radix2 k)) (lg_ok (bpow radix2 k)) _ _ _ ops _ _ H)).
  - intros s o I O. destruct o as [x|t'|v|]; unfold lg_op.
    + pose proof (proj1 (lg_tick_inv k sr s x K I O)) as T. destruct (lg_tick s x). exact T.
    + destruct I as (Es & C & P). refine (conj Es (conj _ P)). cbn [lg_setLagTime lg_coeff fst]. apply lag_coeff_unit; [exact HL|now rewrite Es|exact O].
    + destruct I as (Es & C & P). exact (conj Es (conj C O)).
    + destruct I as (Es & C & P). exact (conj Es (conj C (within0 _ (bpp k)))).
  - intros s o y I O E. destruct o as [x|t'|v|]; unfold lg_op in E; try discriminate E.
    pose proof (proj2 (lg_tick_inv k sr s x K I O)) as T. destruct (lg_tick s x). cbn [snd] in *. injection E as <-. exact T.
  - apply lg_init_inv; auto. apply bpp.
Qed.

(** ** OnePoleLPF *)
Lemma op_clamp_pos sr c : fin sr -> 0 < B2R sr -> is_nan c = false -> fin (op_clamp sr c) /\ 0 <= B2R (op_clamp sr c).
Proof.
  intros Fs Ps Nc. unfold op_clamp.
  assert (Hh : fin (fmul sr half) /\ 0 <= B2R (fmul sr half)).
  { assert (D : dy32 (B2R sr)) by apply dy_B2R.
    destruct (fmul_b 0 (B2R sr) sr half dy0 D Fs ltac:(ffin)) as (F & _ & B); [rewrite half_R; lra|]. split; [exact F|apply B]. }
  destruct Hh as [Fh Bh]. unfold clamp.
  destruct (flt c one) eqn:E1; [split; [ffin|rewrite one_R; lra]|].
  destruct (flt (fmul sr half) c) eqn:E2; [auto|].
  assert (K1 : 1 <= key c).
  { destruct (Rle_lt_dec 1 (key c)) as [G|G]; [exact G|]. exfalso.
    assert (X : flt c one = true) by (apply flt_true; [exact Nc|reflexivity|]; rewrite (key_fin one), one_R by ffin; exact G). congruence. }
  assert (K2 : key c <= B2R (fmul sr half)).
  { destruct (Rle_lt_dec (key c) (B2R (fmul sr half))) as [G|G]; [exact G|]. exfalso.
    assert (X : flt (fmul sr half) c = true) by (apply flt_true; [now apply fin_nan|exact Nc|]; rewrite key_fin by exact Fh; exact G). congruence. }
  assert (Fc : fin c).
  { apply fin_key_lt; [exact Nc|]. rewrite Rabs_pos_eq by lra. eapply Rle_lt_trans; [exact K2|].
    eapply Rle_lt_trans; [apply Rle_abs|]. apply abs_B2R_lt_emax. }
  split; [exact Fc|]. rewrite <- key_fin by exact Fc. lra.
Qed.
Lemma op_pole_unit L sr c : exp_unit L -> fin sr -> 0 < B2R sr -> is_nan c = false -> unit_sample (op_poleof L sr c).
Proof.
  intros HL Fs Ps Nc. destruct (op_clamp_pos sr c Fs Ps Nc) as [Fc Bc]. apply HL.
  set (k := op_clamp sr c) in *. clearbody k.
  assert (Tn : fin (fneg TWO_PI) /\ B2R (fneg TWO_PI) < 0) by (split; [ffin|rewrite fneg_R, TP_R; lra]).
  destruct Tn as [Ft Bt].
  destruct (fmul_key (fneg TWO_PI) k Ft Fc) as [N K].
  assert (Kp : key (fmul (fneg TWO_PI) k) <= 0) by (rewrite K; apply rnd32_neg; nra).
  destruct (nan_cases _ N) as [F|[s E]].
  - rewrite key_fin in Kp by exact F. destruct (fdiv_key _ sr F Fs) as [N1 K1]; [lra|].
    apply fle_true; [exact N1|reflexivity|]. rewrite K1. change (key (fzero : f32)) with 0.
    apply rnd32_neg. unfold Rdiv. assert (0 < / B2R sr) by now apply Rinv_0_lt_compat. nra.
  - rewrite E in *. destruct s; [|cbn [key] in Kp; pose proof (@Mpos 128); cbn in Kp; lra].
    assert (S : Bsign sr = false) by now apply pos_sign.
    destruct sr as [b|b| |b m e B]; try discriminate; [cbn in Ps; lra|]. cbn in S. subst b. unfold fdiv. rewrite erase_correct. reflexivity.
Qed.
Definition op_inv (sr : f32) (m : R) (s : opl) : Prop :=
  op_sr s = sr /\ unit_sample (op_pole s) /\ op_gain s = fsub one (op_pole s) /\ within m (op_z s).
Lemma op_tick_inv k sr s x : (0 <= k <= 126)%Z -> op_inv sr (bpow radix2 k) s -> within (bpow radix2 k) x ->
  op_inv sr (bpow radix2 k) (fst (op_tick s x)) /\ within (bpow radix2 k) (snd (op_tick s x)).
Proof.
  intros K (Es & C & G & P) X. destruct (mix32 k (op_pole s) x (op_z s) K C X P) as [_ W]. rewrite <- G in W.
  split; [|exact W]. exact (conj Es (conj C (conj G W))).
Qed.
Lemma op_tickmod_inv L k sr s x c : (0 <= k <= 126)%Z -> exp_unit L -> fin sr -> 0 < B2R sr -> is_nan c = false ->
  op_inv sr (bpow radix2 k) s -> within (bpow radix2 k) x ->
  op_inv sr (bpow radix2 k) (fst (op_tickmod L s x c)) /\ within (bpow radix2 k) (snd (op_tickmod L s x c)).
Proof.
  intros K HL Fs Ps Nc (Es & C & G & P) X. pose proof (op_pole_unit L sr c HL Fs Ps Nc) as U. rewrite <- Es in U.
  destruct (mix32 k _ x (op_z s) K U X P) as [_ W].
  split; [|exact W]. exact (conj Es (conj C (conj G W))).
Qed.
Lemma op_bounded L k sr c0 ops : exp_unit L -> fin sr -> 0 < B2R sr -> is_nan c0 = false -> (0 <= k <= 126)%Z -> Forall (op_ok (bpow radix2 k)) ops ->
  forall y, In (Some y) (snd (run (op_op L) (op_init L sr c0) ops)) -> within (bpow radix2 k) y.
Proof.
  intros HL Fs Ps N0 K H. refine (proj2 (run_inv (op_op L) (op_inv sr (bpow radix2 k)) (op_ok (bpow radix2 k)) _ _ _ ops _ _ H)).
  - intros s o I O. destruct o as [x|x c|c|]; unfold op_op.
    + pose proof (proj1 (op_tick_inv k sr s x K I O)) as T. destruct (op_tick s x). exact T.
    + destruct O as [X O]. pose proof (proj1 (op_tickmod_inv L k sr s x c K HL Fs Ps O I X)) as T. destruct (op_tickmod L s x c). exact T.
    + destruct I as (Es & C & G & P). refine (conj Es (conj _ (conj eq_refl P))). cbn [op_setCutoff op_pole fst]. rewrite Es. apply op_pole_unit; assumption.
    + destruct I as (Es & C & G & P). exact (conj Es (conj C (conj G (within0 _ (bpp k))))).
  - intros s o y I O E. destruct o as [x|x c|c|]; unfold op_op in E; try discriminate E.
    + pose proof (proj2 (op_tick_inv k sr s x K I O)) as T. destruct (op_tick s x). cbn [snd] in *. injection E as <-. exact T.
    + destruct O as [X O]. pose proof (proj2 (op_tickmod_inv L k sr s x c K HL Fs Ps O I X)) as T. destruct (op_tickmod L s x c). cbn [snd] in *. injection E as <-. exact T.
  - refine (conj eq_refl (conj _ (conj eq_refl (within0 _ (bpp k))))). apply op_pole_unit; assumption.
Qed.

(** ** The envelope follower *)
Definition fo_inv (m : R) (s : follower) : Prop :=
  unit_sample (fo_ac s) /\ unit_sample (fo_rc s) /\ within m (fo_state s) /\ 0 <= B2R (fo_state s).
Lemma fabs_fin32 (x : f32) : fin x -> fin (fabs x).
Proof. destruct x; try discriminate; reflexivity. Qed.
Lemma mix_nonneg (c x y : f32) : unit_sample c -> fin x -> 0 <= B2R x -> fin y -> 0 <= B2R y ->
  fin (fadd (fmul c y) (fmul (fsub one c) x)) -> fin (fmul c y) -> fin (fmul (fsub one c) x) -> 0 <= B2R (fadd (fmul c y) (fmul (fsub one c) x)).
Proof.
  intros [Fc Bc] Fx Px Fy Py Fz F1 F2.
  destruct (one_minus c one Fc one_fin one_R Bc) as (Fq & Bq & _); [cbn; lia..|].
  assert (M : forall a b : f32, fin a -> fin b -> fin (fmul a b) -> 0 <= B2R a -> 0 <= B2R b -> 0 <= B2R (fmul a b)).
  { intros a b Fa Fb Fab Pa Pb. destruct (fmul_key a b Fa Fb) as [_ K]. rewrite key_fin in K by exact Fab. rewrite K.
    apply Rle_trans with (@sat 128 (rnd32 0)); [rewrite rnd_0, sat_in; [lra|rewrite Rabs_R0; apply bpow_gt_0]|].
    apply sat_le, rnd_le. nra. }
  destruct (fadd_key _ _ F1 F2) as [_ K]. rewrite key_fin in K by exact Fz. rewrite K.
  apply Rle_trans with (@sat 128 (rnd32 0)); [rewrite rnd_0, sat_in; [lra|rewrite Rabs_R0; apply bpow_gt_0]|].
  apply sat_le, rnd_le. pose proof (M c y Fc Fy F1 (proj1 Bc) Py). pose proof (M _ x Fq Fx F2 (proj1 Bq) Px). lra.
Qed.
Lemma fadd_fin_inv (a b : f32) : fin (fadd a b) -> fin a /\ fin b.
Proof.
  unfold fin, fadd. rewrite erase_correct. destruct a as [s|s| |s m e B], b as [s'|s'| |s' m' e' B']; cbn; auto;
  try discriminate; destruct s, s'; cbn; try discriminate; auto.
Qed.
Lemma fo_tick_inv k s x : (0 <= k <= 126)%Z -> fo_inv (bpow radix2 k) s -> within (bpow radix2 k) x ->
  fo_inv (bpow radix2 k) (fst (fo_tick s x)) /\ within (bpow radix2 k) (snd (fo_tick s x)) /\ 0 <= B2R (snd (fo_tick s x)).
Proof.
  intros K (A & R & W & P) [Fx Bx]. unfold fo_tick.
  set (c := if flt (fo_state s) (fabs x) then fo_ac s else fo_rc s).
  assert (C : unit_sample c) by (unfold c; destruct (flt _ _); assumption).
  assert (Wa : within (bpow radix2 k) (fabs x)) by (split; [now apply fabs_fin32|rewrite fabs_R, Rabs_Rabsolu; exact Bx]).
  destruct (mix32 k c (fabs x) (fo_state s) K C Wa W) as [W1 _]. change (flt (fo_state s) (fabs x)) with (flt (fo_state s) (fabs x)) in *.
  assert (P1 : 0 <= B2R (fadd (fmul c (fo_state s)) (fmul (fsub one c) (fabs x)))).
  { destruct (fadd_fin_inv _ _ (proj1 W1)) as [Fa Fb]. apply mix_nonneg; auto; [apply Wa|rewrite fabs_R; apply Rabs_pos|apply W|apply W1]. }
  cbn [fst snd]. split; [|exact (conj W1 P1)]. exact (conj A (conj R (conj W1 P1))).
Qed.
Lemma recip_unit L t sr : exp_unit L -> flt fzero t = true -> sr_ok sr -> unit_sample (m_exp L (fdiv (fneg one) (fmul t sr))).
Proof. intros HL Ht Hs. destruct (mul_pos_sign t sr Ht Hs) as [N S]. apply HL. now apply neg_recip. Qed.
Lemma fo_init_inv L sr a r m : exp_unit L -> sr_ok sr -> flt fzero a = true -> flt fzero r = true -> 0 <= m -> fo_inv m (fo_init L sr a r).
Proof.
  intros HL Hs Ha Hr Hm. refine (conj (recip_unit L a sr HL Ha Hs) (conj (recip_unit L r sr HL Hr Hs) (conj (within0 m Hm) _))).
  cbn [fo_init fo_state]. rewrite zero_R. lra.
Qed.
Lemma fo_bounded L k sr a r ops : exp_unit L -> sr_ok sr -> flt fzero a = true -> flt fzero r = true -> (0 <= k <= 126)%Z -> Forall (fo_ok (bpow radix2 k)) ops ->
  forall y, In (Some y) (snd (run fo_op (fo_init L sr a r) ops)) -> within (bpow radix2 k) y /\ 0 <= B2R y.
Proof.
  intros HL Hs Ha Hr K H. refine (proj2 (run_inv fo_op (fo_inv (bpow radix2 k)) (fo_ok (bpow radix2 k)) _ _ _ ops _ _ H)).
  - intros s o I O. destruct o as [x|]; unfold fo_op.
    + pose proof (proj1 (fo_tick_inv k s x K I O)) as T. destruct (fo_tick s x). exact T.
    + destruct I as (A & R & _). refine (conj A (conj R (conj (within0 _ (bpp k)) _))). cbn [fo_reset fst fo_state]. rewrite zero_R. lra.
  - intros s o y I O E. destruct o as [x|]; unfold fo_op in E; try discriminate E.
    pose proof (proj2 (fo_tick_inv k s x K I O)) as T. destruct (fo_tick s x). cbn [snd] in *. injection E as <-. exact T.
  - apply fo_init_inv; auto. apply bpp.
Qed.
