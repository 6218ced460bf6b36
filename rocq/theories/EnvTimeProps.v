(** C115: how long the segments of EnvelopeAR and EnvelopeADSR last. *)
From Coq Require Import ZArith Reals Lra Lia Bool List.
From Flocq Require Import Core BinarySingleNaN.
From Verif Require Import Flt FltFacts FltMore FltArith UtilProofs Libm LibmInst UtilModel EnvModel EnvSpec EnvProofs EnvProofs2 EnvProps EnvTime2.
Import ListNotations.
Local Open Scope R_scope.

(** [T] is the segment time in samples, the time set by the caller times the sample rate. *)

(** EnvelopeAR, setAttack(t), trigger(), n ticks: the level follows 1 - (1-v) e^(-n/T) up to
    T/4000000 until it is set to 1. *)
Theorem C115_ar_attack_curve : forall L e t n, exp_unit L -> exp_acc L -> ar_reach L e ->
  fin t -> fin (ar_sr e) -> flt (fdec 1 10000) t = true ->
  let T := B2R t * B2R (ar_sr e) in 32 <= T <= 65536 ->
  let y := ar_value (fst (ar_ticks n (ar_trigger (ar_setAttack L e t)))) in
  y = one \/ Rabs (B2R y - (1 - (1 - B2R (ar_value e)) * exp (- (INR n / T)))) <= T / 4000000.
Proof. intros L e t n HL HA R Ft Fs Ct T B. apply (ar_attack_curve L e t n T); auto. Qed.
Print Assumptions C115_ar_attack_curve.

(** From silence the peak takes between 6.4 T and 7.7 T samples (T up to 2048), not T. *)
Theorem C115_ar_attack_time : forall L e t n, exp_unit L -> exp_acc L -> ar_reach L e ->
  fin t -> fin (ar_sr e) -> flt (fdec 1 10000) t = true ->
  let T := B2R t * B2R (ar_sr e) in 32 <= T <= 2048 ->
  let y := ar_value (fst (ar_ticks n (ar_trigger (ar_setAttack L e t)))) in
  (B2R (ar_value e) = 0 -> INR n <= 6.4 * T -> B2R y < 0.999) /\ (7.7 * T <= INR n -> y = one).
Proof. intros L e t n HL HA R Ft Fs Ct T B. apply (ar_attack_time L e t n T); auto. Qed.
Print Assumptions C115_ar_attack_time.

(** EnvelopeAR.h:116 says 99.3% of the target is reached in attackTime; the level is at most 65%. *)
Theorem C115_ar_attack_comment_refuted : forall L e t n, exp_unit L -> exp_acc L -> ar_reach L e ->
  fin t -> fin (ar_sr e) -> flt (fdec 1 10000) t = true ->
  let T := B2R t * B2R (ar_sr e) in 32 <= T <= 65536 -> B2R (ar_value e) = 0 -> INR n <= T ->
  B2R (ar_value (fst (ar_ticks n (ar_trigger (ar_setAttack L e t))))) <= 0.65.
Proof. intros L e t n HL HA R Ft Fs Ct T B. apply (ar_attack_comment L e t n T); auto. Qed.
Print Assumptions C115_ar_attack_comment_refuted.

(** EnvelopeAR, setRelease(t), release(), n ticks: while it still sounds the level is
    v e^(-n/T) with the exponent off by at most 1/64. *)
Theorem C115_ar_release_curve : forall L e t n, exp_unit L -> exp_acc L -> ar_reach L e ->
  fin t -> fin (ar_sr e) -> flt (fdec 1 10000) t = true ->
  let T := B2R t * B2R (ar_sr e) in 32 <= T <= 65536 -> ar_isActive e = true ->
  let r := fst (ar_ticks n (ar_release (ar_setRelease L e t))) in let v := B2R (ar_value e) in
  ar_isActive r = true -> v * exp (- (INR n / T * (65 / 64))) <= B2R (ar_value r) <= v * exp (- (INR n / T * (63 / 64))).
Proof.
  intros L e t n HL HA R Ft Fs Ct T B A r v. assert (NI : ar_state e <> ArIdle) by (intros X; unfold ar_isActive in A; rewrite X in A; discriminate).
  intros Q. destruct (ar_release_env L e t T HL HA R Ft Fs Ct eq_refl B NI) as (I & S & _).
  apply (ar_release_curve L e t n T HL HA R Ft Fs Ct eq_refl B NI).
  destruct (ar_rel_run n _ I S) as (_ & [(X & _)|(X & _)] & _); [exact X|]. unfold ar_isActive in Q. unfold r in Q. rewrite X in Q. discriminate.
Qed.
Print Assumptions C115_ar_release_curve.

(** From full level the release takes between 8.9 T and 9.5 T samples; whatever the level, it is over after 9.5 T. *)
Theorem C115_ar_release_time : forall L e t n, exp_unit L -> exp_acc L -> ar_reach L e ->
  fin t -> fin (ar_sr e) -> flt (fdec 1 10000) t = true ->
  let T := B2R t * B2R (ar_sr e) in 32 <= T <= 65536 -> ar_isActive e = true ->
  let r := fst (ar_ticks n (ar_release (ar_setRelease L e t))) in
  (B2R (ar_value e) = 1 -> INR n <= 8.9 * T -> ar_isActive r = true) /\
  (9.5 * T <= INR n -> ar_isActive r = false /\ ar_value r = fzero).
Proof.
  intros L e t n HL HA R Ft Fs Ct T B A. apply (ar_release_time L e t n T); auto.
  intros X. unfold ar_isActive in A. rewrite X in A. discriminate.
Qed.
Print Assumptions C115_ar_release_time.

(** EnvelopeAR.h:127 says 99.3% has decayed in releaseTime; at least 36% is left. *)
Theorem C115_ar_release_comment_refuted : forall L e t n, exp_unit L -> exp_acc L -> ar_reach L e ->
  fin t -> fin (ar_sr e) -> flt (fdec 1 10000) t = true ->
  let T := B2R t * B2R (ar_sr e) in 32 <= T <= 65536 -> ar_isActive e = true -> 0.001 <= B2R (ar_value e) -> INR n <= T ->
  let r := fst (ar_ticks n (ar_release (ar_setRelease L e t))) in
  ar_isActive r = true /\ 0.36 * B2R (ar_value e) <= B2R (ar_value r).
Proof.
  intros L e t n HL HA R Ft Fs Ct T B A. apply (ar_release_comment L e t n T); auto.
  intros X. unfold ar_isActive in A. rewrite X in A. discriminate.
Qed.
Print Assumptions C115_ar_release_comment_refuted.

(** EnvelopeADSR: the attack of a held note from silence lasts between 6.4 T and 7.7 T samples. *)
Theorem C115_adsr_attack_time : forall L e t g n, exp_unit L -> exp_acc L -> ad_reach L e ->
  fin t -> fin (ad_sr e) -> flt (fdec 1 10000) t = true ->
  let T := B2R t * B2R (ad_sr e) in 32 <= T <= 2048 -> fle (ad_gate e) fzero = true -> flt fzero g = true ->
  let a := ad_setgate (ad_setAttack L e t) g in let r := fst (ad_ticks n a) in
  (B2R (ad_value e) = 0 -> INR n <= 6.4 * T -> ad_state r = Attack /\ B2R (ad_value r) < 0.999) /\
  (7.7 * T <= INR n -> exists k, (1 <= k <= n)%nat /\ ad_value (fst (ad_ticks k a)) = one /\ ad_state (fst (ad_ticks k a)) = Decay).
Proof. intros L e t g n HL HA R Ft Fs Ct T B. apply (ad_attack_time L e t g n T); auto. Qed.
Print Assumptions C115_adsr_attack_time.

(** Its decay follows s + (v-s) e^(-n/T) up to T/3600000, lasts at least 5.2 T samples when it starts
    0.3 away from the sustain level, and is over after 7.8 T. *)
Theorem C115_adsr_decay_curve : forall L e t n, exp_unit L -> exp_acc L -> ad_reach L e ->
  fin t -> fin (ad_sr e) -> flt (fdec 1 10000) t = true ->
  let T := B2R t * B2R (ad_sr e) in 32 <= T <= 65536 -> ad_state e = Decay -> flt fzero (ad_gate e) = true ->
  let r := fst (ad_ticks n (ad_setDecay L e t)) in let s := B2R (ad_sus e) in
  ad_state r = Decay -> Rabs (B2R (ad_value r) - (s + (B2R (ad_value e) - s) * exp (- (INR n / T)))) <= T / 3600000.
Proof. intros L e t n HL HA R Ft Fs Ct T B S G. apply (ad_decay_curve L e t n T); auto. Qed.
Print Assumptions C115_adsr_decay_curve.
Theorem C115_adsr_decay_time : forall L e t n, exp_unit L -> exp_acc L -> ad_reach L e ->
  fin t -> fin (ad_sr e) -> flt (fdec 1 10000) t = true ->
  let T := B2R t * B2R (ad_sr e) in 32 <= T <= 2048 -> ad_state e = Decay -> flt fzero (ad_gate e) = true ->
  let r := fst (ad_ticks n (ad_setDecay L e t)) in
  (0.3 <= Rabs (B2R (ad_value e) - B2R (ad_sus e)) -> INR n <= 5.2 * T -> ad_state r = Decay) /\
  (7.8 * T <= INR n -> ad_state r = Sustain /\ ad_value r = ad_sus e).
Proof. intros L e t n HL HA R Ft Fs Ct T B S G. apply (ad_decay_time L e t n T); auto. Qed.
Print Assumptions C115_adsr_decay_time.

(** Its release leaves at least 36% after T samples and is over after 9.5 T. *)
Theorem C115_adsr_release_time : forall L e t g n, exp_unit L -> exp_acc L -> ad_reach L e ->
  fin t -> fin (ad_sr e) -> flt (fdec 1 10000) t = true ->
  let T := B2R t * B2R (ad_sr e) in 32 <= T <= 65536 -> ad_isActive e = true -> flt fzero (ad_gate e) = true -> fle g fzero = true ->
  let r := fst (ad_ticks n (ad_setgate (ad_setRelease L e t) g)) in
  (0.001 <= B2R (ad_value e) -> INR n <= T -> ad_isActive r = true /\ 0.36 * B2R (ad_value e) <= B2R (ad_value r)) /\
  (9.5 * T <= INR n -> ad_isActive r = false /\ ad_value r = fzero).
Proof.
  intros L e t g n HL HA R Ft Fs Ct T B A. apply (ad_release_time L e t g n T); auto.
  intros X. unfold ad_isActive in A. rewrite X in A. discriminate.
Qed.
Print Assumptions C115_adsr_release_time.

(** The usage comment of EnvelopeAR.h with a correctly rounded [exp]: the 10 ms attack at 48 kHz is
    below the peak after 3000 samples (62 ms) and at it after 3700. *)
Example ex_C115 :
  let e := ar_init exact_libm (fofZ 48000) in
  let y n := ar_value (fst (ar_ticks n (ar_trigger (ar_setAttack exact_libm e (fdec 1 100))))) in
  B2R (y (Z.to_nat 479)) <= 0.65 /\ B2R (y (Z.to_nat 3000)) < 0.999 /\ y (Z.to_nat 3700) = one.
Proof.
  intros e y. destruct C20_exp_hypotheses as [HU HA].
  assert (R : ar_reach exact_libm e) by (exists (fofZ 48000), []; split; [vm_compute; reflexivity|split; [constructor|reflexivity]]).
  assert (Ft : fin (fdec 1 100 : f32)) by ffin. assert (Fs : fin (ar_sr e)) by (unfold e; cbn [ar_init ar_sr]; ffin).
  assert (Ct : flt (fdec 1 10000) (fdec 1 100 : f32) = true) by (vm_compute; reflexivity).
  assert (ET : 479.99 <= B2R (fdec 1 100 : f32) * B2R (ar_sr e) <= 480.00001).
  { unfold e. cbn [ar_init ar_sr]. fval (fdec 1 100 : f32). fval (fofZ 48000 : f32). rewrite V0, V. lra. }
  assert (IN : forall z, (0 <= z)%Z -> INR (Z.to_nat z) = IZR z) by (intros z Hz; rewrite INR_IZR_INZ, Z2Nat.id by exact Hz; reflexivity).
  split; [|split].
  - apply C115_ar_attack_comment_refuted; auto; [lra|]. rewrite IN by lia. lra.
  - destruct (C115_ar_attack_time exact_libm e (fdec 1 100) (Z.to_nat 3000) HU HA R Ft Fs Ct ltac:(lra)) as [A _].
    apply A; [reflexivity|]. rewrite IN by lia. lra.
  - destruct (C115_ar_attack_time exact_libm e (fdec 1 100) (Z.to_nat 3700) HU HA R Ft Fs Ct ltac:(lra)) as [_ A].
    apply A. rewrite IN by lia. lra.
Qed.
