(** Property theorems for Pan2, Balance2, XFade2 and DBAmp (C17-C19, C56). *)
From Coq Require Import ZArith Reals Bool List Lra.
From Flocq Require Import Core BinarySingleNaN.
From Verif Require Import Flt FltFacts Libm LibmInst UtilModel UtilProofs PanModel PanSpec PanProofs PanProofs2 PanInst.
Local Open Scope R_scope.

(** The hypotheses on sin, cos, atan and pow are those of a correctly rounded library. *)
Theorem C17_trig_hypotheses : trig_acc exact_libm /\ atan_acc exact_libm /\ trig_zero exact_libm.
Proof. exact (conj exact_trig_acc (conj exact_atan_acc exact_trig_zero)). Qed.
Print Assumptions C17_trig_hypotheses.

(** C17: equal power. *)
Theorem C17_pan2_equal_power : forall L x pos, trig_acc L -> fin x -> moderate (B2R x) -> is_nan pos = false ->
  same_power (fst (pan2_process L x pos)) (snd (pan2_process L x pos)) (B2R x).
Proof. exact pan2_power. Qed.
Print Assumptions C17_pan2_equal_power.
Theorem C17_balance2_equal_power : forall L b x pos level, trig_acc L -> fin x -> fin level -> moderate (B2R level) ->
  moderate (B2R level * B2R x) -> is_nan pos = false ->
  let b' := bal2_setPosition L b pos level in
  same_power (fst (bal2_tick b' x x)) (snd (bal2_tick b' x x)) (B2R level * B2R x).
Proof. exact bal2_power. Qed.
Print Assumptions C17_balance2_equal_power.
Theorem C17_xfade2_equal_power : forall L f x pos level, trig_acc L -> fin x -> fin level -> moderate (B2R level) ->
  moderate (B2R level * B2R x) -> is_nan pos = false ->
  let f' := xf_setPosition L f pos level in
  same_power (xf_tick f' x fzero) (xf_tick f' fzero x) (B2R level * B2R x).
Proof. exact xf_power. Qed.
Print Assumptions C17_xfade2_equal_power.
Theorem C17_hard_left : forall L x pos, trig_zero L -> fin x -> fle pos (fneg one) = true ->
  fst (pan2_process L x pos) = x /\ fin (snd (pan2_process L x pos)) /\ B2R (snd (pan2_process L x pos)) = 0.
Proof. exact pan2_hard_left. Qed.
Print Assumptions C17_hard_left.
Theorem C17_hard_right : forall L x pos, trig_acc L -> fin x -> moderate (B2R x) -> fle one pos = true ->
  within (bpow radix2 (-20)) (fst (pan2_process L x pos)) 0 (B2R x) /\
  within (bpow radix2 (-20)) (snd (pan2_process L x pos)) 1 (B2R x).
Proof. exact pan2_hard_right. Qed.
Print Assumptions C17_hard_right.
Theorem C17_centre : forall L x, trig_acc L -> fin x -> moderate (B2R x) ->
  within (bpow radix2 (-20)) (fst (pan2_process L x fzero)) (sqrt (/ 2)) (B2R x) /\
  within (bpow radix2 (-20)) (snd (pan2_process L x fzero)) (sqrt (/ 2)) (B2R x).
Proof. exact pan2_centre. Qed.
Print Assumptions C17_centre.
Theorem C17_out_of_range : forall L x pos, fle one pos = true -> pan2_process L x pos = pan2_process L x one.
Proof. exact pan2_clamped. Qed.
Print Assumptions C17_out_of_range.
Example ex_C17 : fin (fofZ 3 : f32) /\ moderate (B2R (fofZ 3 : f32)) /\ same_power (fst (pan2_process exact_libm (fofZ 3) half)) (snd (pan2_process exact_libm (fofZ 3) half)) 3.
Proof.
  assert (F : fin (fofZ 3 : f32)) by ffin. assert (E : B2R (fofZ 3 : f32) = 3) by (fval (fofZ 3 : f32); lra).
  assert (M : moderate (B2R (fofZ 3 : f32))) by (unfold moderate; rewrite E, Rabs_pos_eq by lra; bp; lra).
  split; [exact F|]. split; [exact M|]. rewrite <- E. apply pan2_power; [exact exact_trig_acc|exact F|exact M|reflexivity].
Qed.

(** C18: cached gains against direct processing. *)
Theorem C18_pan2 : forall L p x pos, pan2_tick (pan2_setPan L p pos) x = pan2_process L x pos.
Proof. exact pan2_cached. Qed.
Print Assumptions C18_pan2.
Theorem C18_xfade2 : forall L f a b pos level, xf_tick (xf_setPosition L f pos level) a b = xf_process L a b pos level.
Proof. exact xf_cached. Qed.
Print Assumptions C18_xfade2.
Theorem C18_xfade2_stereo : forall L f a b pos level,
  xf_tick2 (xf_setPosition L f pos level) a b = xf_process2 L a b pos level.
Proof. exact xf_cached2. Qed.
Print Assumptions C18_xfade2_stereo.
Theorem C18_balance2_unit_level : forall L b l r pos, bal2_tick (bal2_setPosition L b pos one) l r = bal2_process L l r pos one.
Proof. exact bal2_cached. Qed.
Print Assumptions C18_balance2_unit_level.
Theorem C18_balance2_close : forall L b l r pos level, trig_acc L -> fin l -> fin r -> fin level -> is_nan pos = false ->
  moderate (B2R level) -> moderate (B2R l) -> moderate (B2R r) -> moderate (B2R level * B2R l) -> moderate (B2R level * B2R r) ->
  let t := bal2_tick (bal2_setPosition L b pos level) l r in let p := bal2_process L l r pos level in
  Rabs (B2R (fst t) - B2R (fst p)) <= bpow radix2 (-20) * Rabs (B2R level * B2R l) /\
  Rabs (B2R (snd t) - B2R (snd p)) <= bpow radix2 (-20) * Rabs (B2R level * B2R r).
Proof. exact bal2_cached_near. Qed.
Print Assumptions C18_balance2_close.
(** With a level other than 1 the two paths multiply in a different order and differ in the last bit. *)
Theorem C18_balance2_level_refuted : forall L b, m_cos L (pan_angle zero) = SQ2 -> exists l r level,
  flt (fst (bal2_tick (bal2_setPosition L b zero level) l r)) (fst (bal2_process L l r zero level)) = true.
Proof.
  intros L b H. exists (fofZ 7), (fofZ 7), (fofZ 3).
  unfold bal2_tick, bal2_setPosition, bal2_process, fst, b_left. rewrite H. vm_compute. reflexivity.
Qed.
Print Assumptions C18_balance2_level_refuted.
Theorem C18_centre_hypothesis : m_cos exact_libm (pan_angle zero) = SQ2.
Proof. exact exact_centre. Qed.
Print Assumptions C18_centre_hypothesis.
Example ex_C18 : bal2_tick (bal2_setPosition toy_trig bal2_0 zero one) (fofZ 7) (fofZ 5) = bal2_process toy_trig (fofZ 7) (fofZ 5) zero one /\
  bal2_process toy_trig (fofZ 7) (fofZ 5) zero one = ((fofZ 7 * SQ2)%F, (fofZ 5 * SQ2)%F).
Proof. split; vm_compute; reflexivity. Qed.

(** C19: setLevel. *)
Theorem C19_xfade2_keeps_position : forall L f pos l0 l1, trig_acc L -> is_nan pos = false -> xf_level_ok l0 -> fin l1 -> moderate (B2R l1) ->
  pair_close (bpow radix2 (-19)) (B2R l1) (xf_response (xf_setLevel (xf_setPosition L f pos l0) l1)) (xf_response (xf_setPosition L f pos l1)).
Proof. exact xf_level_heard. Qed.
Print Assumptions C19_xfade2_keeps_position.
Theorem C19_balance2_keeps_position : forall L b pos l0 l1, trig_acc L -> atan_acc L -> is_nan pos = false -> fle pos (fdec 9 10) = true ->
  bal_level_ok l0 -> fin l1 -> moderate (B2R l1) ->
  pair_close (bpow radix2 (-12)) (B2R l1) (bal_response (bal2_setLevel L (bal2_setPosition L b pos l0) l1)) (bal_response (bal2_setPosition L b pos l1)).
Proof. exact bal_level_heard. Qed.
Print Assumptions C19_balance2_keeps_position.
(** After level 0, XFade2 stays silent at any later level. *)
Theorem C19_xfade2_mute_sticks_refuted : forall L f pos s l1 a b, trig_acc L -> is_nan pos = false -> fin l1 -> fin a -> fin b ->
  let x := xf_setLevel (xf_setPosition L f pos (B754_zero s)) l1 in
  fin (xf_tick x a b) /\ B2R (xf_tick x a b) = 0.
Proof. exact xf_muted. Qed.
Print Assumptions C19_xfade2_mute_sticks_refuted.
(** The guard 1e-12f added to the level makes level -1e-12f divide by zero. *)
Theorem C19_xfade2_infinite_refuted : forall L f, trig_acc L ->
  xf_tick (xf_setLevel (xf_setPosition L f fzero (fneg e12)) one) one one = B754_infinity true.
Proof. exact xf_infinite_heard. Qed.
Print Assumptions C19_xfade2_infinite_refuted.
(** Hard right: setLevel inverts the polarity of the right channel. *)
Theorem C19_balance2_polarity_refuted : forall L b pos l0 l1, trig_acc L -> atan_acc L -> fle one pos = true -> bal_level_ok l0 ->
  fin l1 -> bpow radix2 (-15) <= B2R l1 <= bpow radix2 60 ->
  B2R (snd (bal_response (bal2_setLevel L (bal2_setPosition L b pos l0) l1))) <= - 0.9 * B2R l1 /\
  0.9 * B2R l1 <= B2R (snd (bal_response (bal2_setPosition L b pos l1))).
Proof. exact bal_flip_heard. Qed.
Print Assumptions C19_balance2_polarity_refuted.
(** After level 0, Balance2 forgets the position: the next setLevel is hard left. *)
Theorem C19_balance2_level0_refuted : forall L b pos s l1, trig_acc L -> trig_zero L -> is_nan pos = false -> fin l1 ->
  let x := bal2_setLevel L (bal2_setPosition L b pos (B754_zero s)) l1 in
  B2R (fst (bal_response x)) = B2R l1 /\ B2R (snd (bal_response x)) = 0.
Proof. exact bal_level0. Qed.
Print Assumptions C19_balance2_level0_refuted.
Example ex_C19 : xf_level_ok half /\ bal_level_ok half /\
  xf_response (xf_setLevel (xf_setPosition toy_trig xfade_0 zero half) (fofZ 2)) = xf_response (xf_setPosition toy_trig xfade_0 zero (fofZ 2)) /\
  xf_response (xf_setPosition toy_trig xfade_0 zero (fofZ 2)) = ((fofZ 2 * SQ2)%F, (fofZ 2 * SQ2)%F).
Proof.
  split; [|split; [|split; vm_compute; reflexivity]]; (split; [ffin|rewrite half_R; bp; lra]).
Qed.

(** C56: decibels to amplitude. *)
Theorem C56_pow_hypotheses : pow10_ok exact_libm.
Proof. exact exact_pow10. Qed.
Print Assumptions C56_pow_hypotheses.
Theorem C56_zero_db_is_unity : forall L s, pow10_ok L -> dbamp L (B754_zero s) = one.
Proof. exact dbamp_zero. Qed.
Print Assumptions C56_zero_db_is_unity.
Theorem C56_monotone : forall L x y, pow10_ok L -> fle x y = true -> fle (dbamp L x) (dbamp L y) = true.
Proof. exact dbamp_mono. Qed.
Print Assumptions C56_monotone.
(** Hence attenuation never amplifies and gain never attenuates. *)
Theorem C56_sides_of_unity : forall L x, pow10_ok L ->
  (fle x fzero = true -> fle (dbamp L x) one = true) /\ (fle fzero x = true -> fle one (dbamp L x) = true).
Proof. exact dbamp_sides. Qed.
Print Assumptions C56_sides_of_unity.
Theorem C56_accuracy : forall L x, pow10_acc L -> fin x -> Rabs (B2R x) <= 200 ->
  fin (dbamp L x) /\ Rabs (B2R (dbamp L x) - Rpower 10 (B2R x / 20)) <= bpow radix2 (-18) * Rpower 10 (B2R x / 20).
Proof. exact dbamp_acc. Qed.
Print Assumptions C56_accuracy.
Theorem C56_pow_accuracy_hypothesis : pow10_acc exact_libm.
Proof. exact exact_pow10_acc. Qed.
Print Assumptions C56_pow_accuracy_hypothesis.
Example ex_C56 : fin (dbamp exact_libm (fofZ 20)) /\ Rabs (B2R (dbamp exact_libm (fofZ 20)) - 10) <= bpow radix2 (-18) * 10 /\
  dbamp exact_libm fzero = one.
Proof.
  assert (E : B2R (fofZ 20 : f32) = 20) by (fval (fofZ 20 : f32); lra).
  destruct (C56_accuracy exact_libm (fofZ 20) exact_pow10_acc) as [F A]; [ffin|rewrite E, Rabs_pos_eq; lra|].
  rewrite E in A. replace (20 / 20) with 1 in A by lra. rewrite Rpower_1 in A by lra.
  split; [exact F|]. split; [exact A|]. apply dbamp_zero, exact_pow10.
Qed.
