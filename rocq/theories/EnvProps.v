(** Property theorems for EnvelopeAR and EnvelopeADSR (C20-C24, C55). *)
From Coq Require Import ZArith Reals Bool List.
From Flocq Require Import Core BinarySingleNaN.
From Verif Require Import Flt FltFacts Libm LibmInst UtilModel EnvModel EnvSpec EnvProofs EnvProofs2 EnvInst.
Import ListNotations.
Local Open Scope R_scope.

(** C20: every sample of every history is a number in [0,1]. *)
Theorem C20_unit_range : forall L sr ops x, exp_unit L -> sr_ok sr -> Forall ar_op_ok ops ->
  In (Some x) (snd (ar_run L (ar_init L sr) ops)) -> fin x /\ 0 <= B2R x <= 1.
Proof. exact ar_bounds. Qed.
Print Assumptions C20_unit_range.
(** The hypotheses on exp are those of a correctly rounded exp. *)
Theorem C20_exp_hypotheses : exp_unit exact_libm /\ exp_acc exact_libm.
Proof. exact (conj exact_exp_unit exact_exp_acc). Qed.
Print Assumptions C20_exp_hypotheses.
Example ex_C20 : exp_unit half_exp /\
  snd (ar_run half_exp (ar_init half_exp (fofZ 48000))
    [ArOTick; ArOTrigger; ArOTick; ArOAttack B754_nan; ArOTick; ArORel; ArOTick]) =
  [Some fzero; None; Some half; None; Some (flit 3 (-2)); None; Some (flit 3 (-3))].
Proof. split; [exact half_exp_unit|]. vm_compute. reflexivity. Qed.

(** C21: monotone phases. *)
Theorem C21_attack_nondecreasing : forall L e, exp_unit L -> ar_reach L e -> ar_state e = ArAttack ->
  B2R (ar_ac e) < 1 -> B2R (ar_value e) <= B2R (snd (ar_tick e)).
Proof. exact ar_attack_mono. Qed.
Print Assumptions C21_attack_nondecreasing.
Theorem C21_attack_drop_bounded : forall L e, exp_unit L -> ar_reach L e -> ar_state e = ArAttack ->
  B2R (ar_value e) - bpow radix2 (-24) <= B2R (snd (ar_tick e)).
Proof. exact ar_attack_near. Qed.
Print Assumptions C21_attack_drop_bounded.
Theorem C21_release_nonincreasing : forall L e, exp_unit L -> ar_reach L e -> ar_state e = ArRelease ->
  B2R (snd (ar_tick e)) <= B2R (ar_value e).
Proof. exact ar_release_mono. Qed.
Print Assumptions C21_release_nonincreasing.
Theorem C21_idle_silent : forall L ops e, ar_state e = ArIdle -> Forall ar_quiet ops ->
  ar_state (fst (ar_run L e ops)) = ArIdle /\ forall x, In (Some x) (snd (ar_run L e ops)) -> x = fzero.
Proof. exact ar_idle_run. Qed.
Print Assumptions C21_idle_silent.
Theorem C21_release_ends : forall L e, exp_unit L -> ar_reach L e -> ar_state e = ArRelease -> B2R (ar_rc e) < 1 ->
  exists n, ar_state (fst (ar_ticks n e)) = ArIdle.
Proof. exact ar_release_ends. Qed.
Print Assumptions C21_release_ends.
Example ex_C21 :
  let e := fst (ar_run half_exp (ar_init half_exp (fofZ 48000)) [ArOTrigger; ArOTick; ArORel]) in
  ar_state e = ArRelease /\ ar_value e = half /\ ar_state (fst (ar_ticks 12 e)) = ArRelease /\ ar_state (fst (ar_ticks 13 e)) = ArIdle.
Proof. vm_compute. auto. Qed.
(** When the attack coefficient rounds to 1 the attack can go down by a rounding step. *)
Theorem C21_attack_coefficient_one_refuted : exists L e, exp_unit L /\ ar_reach L e /\ ar_state e = ArAttack /\
  flt (snd (ar_tick e)) (ar_value e) = true.
Proof.
  exists two_exp, (fst (ar_run two_exp (ar_init two_exp (fofZ 48000))
    [ArOTrigger; ArOTick; ArORel; ArOTick; ArOTick; ArOTick; ArOAttack (fofZ 100000); ArOTrigger])).
  split; [exact two_exp_unit|]. split.
  - eexists _, _. split; [|split; [|reflexivity]]; [vm_compute; reflexivity|repeat constructor].
  - split; vm_compute; reflexivity.
Qed.
Print Assumptions C21_attack_coefficient_one_refuted.

(** C22: the attack completes within 2^24+1 samples exactly when the stored
    coefficient is at most 1-501/2^24; no coefficient lies between the two cases. *)
Theorem C22_attack_completes : forall L e, exp_unit L -> ar_reach L e -> ar_state e = ArAttack ->
  B2R (ar_ac e) <= 1 - 501 / 16777216 ->
  exists n, (Z.of_nat n <= 2 ^ 24 + 1)%Z /\ ar_value (fst (ar_ticks n e)) = one.
Proof. exact ar_complete. Qed.
Print Assumptions C22_attack_completes.
Theorem C22_attack_stalls : forall L e, exp_unit L -> ar_reach L e -> ar_state e = ArAttack ->
  1 - 500 / 16777216 <= B2R (ar_ac e) -> B2R (ar_value e) < B2R c999 ->
  forall n, ar_state (fst (ar_ticks n e)) = ArAttack /\ B2R (ar_value (fst (ar_ticks n e))) < 0.99900001.
Proof. exact ar_stall. Qed.
Print Assumptions C22_attack_stalls.
Theorem C22_no_third_case : forall c : f32, unit_sample c ->
  B2R c <= 1 - 501 / 16777216 \/ 1 - 500 / 16777216 <= B2R c.
Proof. exact no_gap. Qed.
Print Assumptions C22_no_third_case.
(** In terms of the attack time: up to 33300 samples completes, from 33700 samples on never. *)
Theorem C22_short_attack_time : forall L sr t, exp_unit L -> exp_acc L -> sr_ok sr -> fin (fmul t sr) ->
  flt (fdec 1 10000) t = true -> 1 <= B2R (fmul t sr) <= 33300 ->
  exists n, (Z.of_nat n <= 2 ^ 24 + 1)%Z /\ ar_value (fst (ar_ticks n (ar_start L sr t))) = one.
Proof. exact ar_time_short. Qed.
Print Assumptions C22_short_attack_time.
Theorem C22_long_attack_time_refuted : forall L sr t, exp_unit L -> exp_acc L -> sr_ok sr -> fin (fmul t sr) ->
  flt (fdec 1 10000) t = true -> 33700 <= B2R (fmul t sr) ->
  forall n, ar_state (fst (ar_ticks n (ar_start L sr t))) = ArAttack /\
            B2R (ar_value (fst (ar_ticks n (ar_start L sr t)))) < 0.99900001.
Proof. exact ar_time_long. Qed.
Print Assumptions C22_long_attack_time_refuted.
(** One second at 48 kHz is such a long attack; 10 ms is a short one. *)
Example ex_C22 : fmul (fofZ 1) (fofZ 48000) = (fofZ 48000 : f32) /\ flt (fdec 1 10000) (fofZ 1 : f32) = true /\
  fle (fmul (fdec 1 100) (fofZ 48000)) (fofZ 33300 : f32) = true /\ sr_ok (fofZ 48000).
Proof. vm_compute. auto. Qed.
Theorem C22_adsr_attack_completes : forall L e, exp_unit L -> ad_reach L e -> ad_state e = Attack ->
  flt fzero (ad_gate e) = true -> B2R (ad_ac e) <= 1 - 501 / 16777216 ->
  exists n, (Z.of_nat n <= 2 ^ 24 + 1)%Z /\ ad_value (fst (ad_ticks n e)) = one /\ ad_state (fst (ad_ticks n e)) = Decay.
Proof. exact ad_complete. Qed.
Print Assumptions C22_adsr_attack_completes.
Theorem C22_adsr_attack_stalls : forall L e, exp_unit L -> ad_reach L e -> ad_state e = Attack ->
  flt fzero (ad_gate e) = true -> 1 - 500 / 16777216 <= B2R (ad_ac e) -> B2R (ad_value e) < B2R c999 ->
  forall n, ad_state (fst (ad_ticks n e)) = Attack /\ B2R (ad_value (fst (ad_ticks n e))) < 0.99900001.
Proof. exact ad_stall. Qed.
Print Assumptions C22_adsr_attack_stalls.
Example ex_C22_adsr :
  let e := fst (ad_run half_exp (ad_init half_exp (fofZ 48000)) [AdGate (fofZ 3)]) in
  ad_state e = Attack /\ ad_state (fst (ad_ticks 9 e)) = Attack /\ ad_state (fst (ad_ticks 10 e)) = Decay /\
  ad_value (fst (ad_ticks 10 e)) = one.
Proof. vm_compute. auto. Qed.

(** C23 *)
Theorem C23_unit_range : forall L sr ops x, exp_unit L -> sr_ok sr -> Forall ad_op_ok ops ->
  In (Some x) (snd (ad_run L (ad_init L sr) ops)) -> fin x /\ 0 <= B2R x <= 1.
Proof. exact ad_bounds. Qed.
Print Assumptions C23_unit_range.
Example ex_C23 :
  snd (ad_run half_exp (ad_init half_exp (fofZ 48000))
    ([AdSustain half; AdGate one] ++ repeat AdTick 10 ++ [AdTick; AdSustain (fofZ 9); AdTick; AdGate zero; AdTick])) =
  [None; None; Some half; Some (flit 3 (-2)); Some (flit 7 (-3)); Some (flit 15 (-4)); Some (flit 31 (-5));
   Some (flit 63 (-6)); Some (flit 127 (-7)); Some (flit 255 (-8)); Some (flit 511 (-9)); Some one;
   Some (flit 3 (-2)); None; Some (flit 7 (-3)); None; Some (flit 7 (-4))].
Proof. vm_compute. reflexivity. Qed.
(** A NaN sustain level is stored and comes out. *)
Theorem C23_nan_sustain_refuted : exists L ops, exp_unit L /\
  In (Some B754_nan) (snd (ad_run L (ad_init L (fofZ 48000)) ops)).
Proof.
  exists half_exp, ([AdSustain B754_nan; AdGate one] ++ repeat AdTick 11). split; [exact half_exp_unit|].
  vm_compute. auto 20.
Qed.
Print Assumptions C23_nan_sustain_refuted.

(** C24: gate semantics of histories without a NaN gate. *)
Theorem C24_gate_semantics : forall L sr ops e, Forall ad_gate_ok ops -> e = fst (ad_run L (ad_init L sr) ops) ->
  sounding_phase (ad_state e) = flt fzero (last_gate ops) /\
  ad_isDone e = (sounded ops && negb (ad_isActive e))%bool /\
  forall g, is_nan g = false ->
    ad_value (ad_setgate e g) = ad_value e /\
    ad_state (ad_setgate e g) =
      (if flt fzero g then (if flt fzero (last_gate ops) then ad_state e else Attack)
       else if ad_isActive e then Release else Idle).
Proof. exact ad_gate_spec. Qed.
Print Assumptions C24_gate_semantics.
Theorem C24_release_ends : forall L e, exp_unit L -> ad_reach L e -> ad_state e = Release -> B2R (ad_rc e) < 1 ->
  exists n, ad_isActive (fst (ad_ticks n e)) = false /\ ad_isDone (fst (ad_ticks n e)) = true.
Proof. exact ad_release_ends. Qed.
Print Assumptions C24_release_ends.
Theorem C24_idle_silent : forall n e, ad_state e = Idle ->
  ad_state (fst (ad_ticks n e)) = Idle /\ Forall (fun x => x = fzero) (snd (ad_ticks n e)).
Proof. exact ad_idle_ticks. Qed.
Print Assumptions C24_idle_silent.
Theorem C24_sustain_holds : forall n e, ad_state e = Sustain -> flt fzero (ad_gate e) = true ->
  ad_state (fst (ad_ticks n e)) = Sustain /\ Forall (fun x => x = ad_sus e) (snd (ad_ticks n e)).
Proof. exact ad_sustain_ticks. Qed.
Print Assumptions C24_sustain_holds.
Example ex_C24 :
  let ops := [AdGate one; AdTick; AdGate two; AdTick; AdGate zero; AdTick; AdGate one] in
  let e := fst (ad_run half_exp (ad_init half_exp (fofZ 48000)) ops) in
  ad_state e = Attack /\ last_gate ops = one /\ ad_value e = flit 3 (-3) /\ ad_isDone e = false /\
  ad_isDone (fst (ad_run half_exp e (AdGate (fneg one) :: repeat AdTick 12))) = true.
Proof. vm_compute. auto. Qed.
(** After a NaN gate the next rising edge is missed. *)
Theorem C24_nan_gate_refuted : exists L ops, exp_unit L /\ last_gate ops = one /\
  ad_state (fst (ad_run L (ad_init L (fofZ 48000)) ops)) = Idle.
Proof. exists half_exp, [AdGate B754_nan; AdGate one]. split; [exact half_exp_unit|]. vm_compute. auto. Qed.
Print Assumptions C24_nan_gate_refuted.

(** C55: with short attack and decay a held note reaches the peak and then
    stays at the sustain level for ever. *)
Theorem C55_held_note : forall L e, exp_unit L -> ad_reach L e -> ad_state e = Attack -> flt fzero (ad_gate e) = true ->
  B2R (ad_ac e) <= 1 - 501 / 16777216 -> B2R (ad_dc e) <= 1 - bpow radix2 (-13) ->
  exists m n, ad_value (fst (ad_ticks m e)) = one /\
    forall k, ad_value (fst (ad_ticks (m + n + k) e)) = ad_sus e /\ ad_state (fst (ad_ticks (m + n + k) e)) = Sustain.
Proof. exact ad_note. Qed.
Print Assumptions C55_held_note.
Theorem C55_decay_settles : forall L e, exp_unit L -> ad_reach L e -> ad_state e = Decay -> flt fzero (ad_gate e) = true ->
  B2R (ad_dc e) <= 1 - bpow radix2 (-13) ->
  exists n, (Z.of_nat n <= 2 ^ 25 + 1)%Z /\ ad_value (fst (ad_ticks n e)) = ad_sus e /\ ad_state (fst (ad_ticks n e)) = Sustain.
Proof. exact ad_settle. Qed.
Print Assumptions C55_decay_settles.
(** The coefficient bounds in terms of the times: 8000 samples of decay or less
    settle; with the default sustain level 33800 or more never do. *)
Theorem C55_decay_time : forall L t sr, exp_acc L -> fin (fmul t sr) ->
  (1 <= B2R (fmul t sr) <= 8000 -> B2R (coeff L t sr) <= 1 - bpow radix2 (-13)) /\
  (33800 <= B2R (fmul t sr) -> 1 - 499 / 16777216 <= B2R (coeff L t sr)).
Proof. exact (fun L t sr A F => conj (coeff_short2 L t sr A F) (coeff_long2 L t sr A F)). Qed.
Print Assumptions C55_decay_time.
Theorem C55_long_decay_refuted : forall L e, exp_unit L -> ad_reach L e -> ad_state e = Decay -> flt fzero (ad_gate e) = true ->
  ad_sus e = fdec 7 10 -> 1 - 499 / 16777216 <= B2R (ad_dc e) -> 0.70101 <= B2R (ad_value e) ->
  forall n, ad_state (fst (ad_ticks n e)) = Decay /\ 0.701 <= B2R (ad_value (fst (ad_ticks n e))).
Proof. exact ad_decay_stall. Qed.
Print Assumptions C55_long_decay_refuted.
Example ex_C55 :
  let e := fst (ad_run half_exp (ad_init half_exp (fofZ 48000)) (AdGate one :: repeat AdTick 10)) in
  ad_state e = Decay /\ ad_sus e = fdec 7 10 /\ ad_state (fst (ad_ticks 8 e)) = Decay /\
  ad_state (fst (ad_ticks 9 e)) = Sustain /\ ad_value (fst (ad_ticks 9 e)) = fdec 7 10.
Proof. vm_compute. auto. Qed.
