(** The JACK example: the property theorems C101-C103. *)
From Coq Require Import ZArith Reals Bool List Lra Lia.
From Flocq Require Import Core BinarySingleNaN.
From Verif Require Import Flt FltFacts Libm LibmInst UtilModel UtilProofs OscModel OscSpec OscInst EnvModel EnvSpec EnvInst PanModel VcModel VcSpec VcInst VcProps JxModel JxSpec JxProofs.
Import ListNotations.
Local Open Scope R_scope.

(** ** C101: level *)
(** Whatever is typed and whenever the rate changes (1000 Hz to 262144 Hz): every frame asked for is played, both channels finite and at most 1/2. *)
Theorem C101_bounded : forall L sr os, exp_unit L -> sin_unit L -> cos_unit L -> jx_hz sr -> Forall jx_ok os ->
  length (jx_plays L sr [] os) = frames os /\
  Forall (fun y => (fin (fst y) /\ Rabs (B2R (fst y)) <= 1 / 2) /\ (fin (snd y) /\ Rabs (B2R (snd y)) <= 1 / 2)) (jx_plays L sr [] os).
Proof. exact jx_safe. Qed.
Print Assumptions C101_bounded.
Definition typed : list jx_call := [JNumber B754_nan; JBlock 2; JEnter; JNumber (fofZ 220); JBlock 3; JRate 96000; JEnter; JBlock 1].
Lemma typed_ok : Forall jx_ok typed.
Proof. unfold typed. repeat (constructor; [first [exact I|unfold jx_ok, jx_hz; lia]|]). constructor. Qed.
Example ex_C101 : length (jx_plays exact_libm 48000 [] typed) = 6%nat /\ Forall (fun y => Rabs (B2R (fst y)) <= 1 / 2) (jx_plays exact_libm 48000 [] typed).
Proof.
  destruct (C101_bounded exact_libm 48000 typed exact_exp_unit exact_sin_unit exact_cos_unit ltac:(unfold jx_hz; lia) typed_ok) as [A B]. split; [exact A|]. eapply Forall_impl; [|exact B]. intros y H. apply H.
Qed.
(** With a simple library the note is at 1/4, close to half of the limit, after 20 frames. *)
Example ex_C101_values : let y := last (jx_plays mid_libm 48000 [] [JEnter; JBlock 21]) (zero, zero) in (flt (fdec 24 100) (fst y) && flt (fst y) (fdec 26 100))%bool = true.
Proof. vm_compute. reflexivity. Qed.

(** ** C102: notes *)
(** Before the first empty line there is silence. *)
Theorem C102_quiet_start : forall L sr os, exp_unit L -> sin_unit L -> cos_unit L -> jx_hz sr -> Forall jx_ok os -> Forall no_enter os ->
  Forall silent (jx_plays L sr [] os).
Proof. exact jx_quiet_start. Qed.
Print Assumptions C102_quiet_start.
(** As long as the rate does not change the voice is active at the end of every block played while the note is on. *)
Theorem C102_held_sounds : forall L sr os n, Forall no_rate os -> held os = true -> ev_isActive (jx_v (jx_after L sr (os ++ [JBlock n]))) = true.
Proof. exact jx_sounds. Qed.
Print Assumptions C102_held_sounds.
(** Once a block has been played with the note off, at most three seconds of sound are left. *)
Theorem C102_released_fades : forall L sr os n more, exp_unit L -> exp_acc L -> sin_unit L -> cos_unit L -> jx_hz sr -> Forall jx_ok os -> held os = false ->
  Forall no_enter more -> Forall no_rate more ->
  Forall silent (skipn (Z.to_nat (3 * rate_of sr os)) (jx_plays L sr (os ++ [JBlock n]) more)).
Proof. exact jx_fades. Qed.
Print Assumptions C102_released_fades.
(** A sample-rate callback silences a held note for good: nothing is heard until an empty line is typed, although the note counts as on. *)
Theorem C102_rate_change_refuted : forall L sr os n sr' more, exp_unit L -> sin_unit L -> cos_unit L -> jx_hz sr -> Forall jx_ok os -> jx_hz sr' -> Forall jx_ok more -> Forall no_enter more ->
  Forall silent (jx_plays L sr (os ++ [JBlock n; JRate sr']) more).
Proof. exact jx_rate_mutes. Qed.
Print Assumptions C102_rate_change_refuted.
(** The note is on and heard; after a callback with the same rate it is on and not heard; switched off and on again it is heard. *)
Example ex_C102 : let last_left os := fst (last (jx_plays mid_libm 48000 [] os) (zero, zero)) in
  held [JEnter] = true /\ flt zero (last_left [JEnter; JBlock 5]) = true /\ last_left [JEnter; JBlock 5; JRate 48000; JBlock 5] = zero /\
  held [JEnter; JBlock 5; JRate 48000] = true /\ flt zero (last_left [JEnter; JBlock 5; JRate 48000; JEnter; JBlock 1; JEnter; JBlock 5]) = true.
Proof. vm_compute. repeat split. Qed.
(** A released note is still heard for a while, then exactly 0. *)
Example ex_C102_fade : let left k := fst (last (jx_plays mid_libm 1000 [] [JEnter; JBlock 9; JEnter; JBlock k]) (zero, one)) in flt zero (left 10%nat) = true /\ left 20%nat = zero.
Proof. vm_compute. repeat split. Qed.

(** ** C103: pitch *)
(** As long as the rate does not change every frame is played within 0.58 percent, a tenth of a semitone, of the frequency asked for. *)
Theorem C103_pitch : forall L sr os n, exp_unit L -> sin_unit L -> cos_unit L -> jx_hz sr -> Forall no_rate os ->
  let p := pitch (jx_v (jx_after L sr (os ++ [JBlock (S n)]))) in fin p /\ Rabs (B2R p - B2R (asked os)) <= 0.0058 * B2R (asked os).
Proof. exact jx_pitch. Qed.
Print Assumptions C103_pitch.
(** The callback also drops the vibrato setting: the first frame after it is played 2.8 percent flat, half a semitone. *)
Theorem C103_rate_change_refuted : forall L sr os sr', exp_unit L -> sin_unit L -> cos_unit L -> jx_hz sr -> Forall jx_ok os -> jx_hz sr' ->
  let p := pitch (jx_v (jx_after L sr (os ++ [JRate sr'; JBlock 1]))) in fin p /\ 0.972 * B2R (asked os) <= B2R p <= 0.9722 * B2R (asked os).
Proof. exact jx_flat. Qed.
Print Assumptions C103_rate_change_refuted.
(** 220 Hz asked for: 218.8 Hz at first, 213.9 Hz after the callback. *)
Example ex_C103 : let p os := pitch (jx_v (jx_after mid_libm 48000 os)) in
  asked [JNumber (fofZ 220); JNumber (fofZ 20); JNumber B754_nan] = fofZ 220 /\
  flt (fdec 2187 10) (p [JNumber (fofZ 220); JBlock 1]) = true /\ flt (p [JNumber (fofZ 220); JBlock 1]) (fdec 2189 10) = true /\
  flt (fdec 2138 10) (p [JNumber (fofZ 220); JRate 48000; JBlock 1]) = true /\ flt (p [JNumber (fofZ 220); JRate 48000; JBlock 1]) (fdec 2139 10) = true.
Proof. vm_compute. repeat split. Qed.
