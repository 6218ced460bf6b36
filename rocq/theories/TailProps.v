(** C119: what is left of a sound after its end. *)
From Coq Require Import ZArith Reals Lra Lia Bool List Psatz.
From Flocq Require Import Core BinarySingleNaN.
From Verif Require Import Flt FltFacts FltMore FltKey FltArith Libm LibmInst UtilModel UtilProofs EnvSpec EnvInst OscSpec OscProofs SmoothModel SmoothSpec SmoothProofs SmoothProofs3 SmoothProofs4 SmoothInst EnvProps OscProps SmoothProps TailProofs.
Import ListNotations.
Local Open Scope R_scope.

(** ** Falling silent *)
(** DCBlock with the input held at any level: with a cutoff of at least an eighth of the sample rate
    the output is exactly zero after 278 samples, with a cutoff of zero or less at once. *)
Theorem C119_dcblock_short : forall L k sr c0 ops c x, exp_acc L -> exp_unit L -> fin sr -> 0 < B2R sr -> dc_cut_ok sr c0 -> (-90 <= k <= 120)%Z ->
  Forall (dc_ok (bpow radix2 k) sr) ops -> fin c -> within (bpow radix2 k) x ->
  let s := dc_setCutoff L (fst (runs (dc_op L) (dc_init L sr c0) ops)) c in
  let y n := snd (dc_tick (after (dc_hold x) n s) x) in
  (B2R sr / 8 <= B2R c -> silent_from 278 y) /\ (B2R c <= 0 -> silent_from 1 y).
Proof.
  intros L k sr c0 ops c x HL HU Fs Ps C0 K H Fc X s y. split; intros Hc.
  - assert (C : dc_cut_ok sr c) by (split; [exact Fc|right; replace (bpow radix2 (-18)) with (/ 262144) by (bp; lra); lra]).
    exact (proj1 (proj2 (dc_tail L k sr c0 ops c x HL HU Fs Ps C0 K H C X)) Hc).
  - assert (C : dc_cut_ok sr c) by (split; [exact Fc|left; exact Hc]).
    exact (proj2 (proj2 (dc_tail L k sr c0 ops c x HL HU Fs Ps C0 K H C X)) Hc).
Qed.
Print Assumptions C119_dcblock_short.
(** OnePoleLPF after the input has become zero. *)
Theorem C119_onepole_short : forall L k sr c0 ops c, exp_acc L -> exp_unit L -> rate_ok sr -> is_nan c0 = false -> (0 <= k <= 126)%Z ->
  Forall (op_ok (bpow radix2 k)) ops -> fin c -> 1 <= B2R c -> B2R sr / 8 <= B2R c <= B2R sr / 2 ->
  let s := op_setCutoff L (fst (run (op_op L) (op_init L sr c0) ops)) c in
  silent_from 278 (fun n => op_z (after (op_hold zero) n s)).
Proof. intros L k sr c0 ops c HL HU Hr N0 K H Fc C1 C2. apply (op_tail L k sr c0 ops c HL HU Hr N0 K H Fc); lra. Qed.
Print Assumptions C119_onepole_short.
(** Lag with a lag time of zero or less. *)
Theorem C119_lag_short : forall L k sr t0 ops t, exp_acc L -> exp_unit L -> sr_ok sr -> fin sr -> is_nan t0 = false -> (0 <= k <= 126)%Z ->
  Forall (lg_ok (bpow radix2 k)) ops -> fin t -> B2R t <= 0 ->
  let s := lg_setLagTime L (fst (run (lg_op L) (lg_init L sr t0) ops)) t in
  silent_from 1 (fun n => lg_prev (after (lg_hold zero) n s)).
Proof. intros L k sr t0 ops t HL HU Hs Fs N0 K H Ft Nt. now apply (lg_tail L k sr t0 ops t HL HU Hs Fs N0 K H Ft). Qed.
Print Assumptions C119_lag_short.

(** ** Not falling silent: with the usual settings the output never is zero again, and ends in a subnormal number that is repeated for ever. *)
Theorem C119_dcblock_refuted : forall L k sr c0 ops c x, exp_acc L -> exp_unit L -> fin sr -> 0 < B2R sr -> dc_cut_ok sr c0 -> (-90 <= k <= 120)%Z ->
  Forall (dc_ok (bpow radix2 k) sr) ops -> fin c -> B2R sr * bpow radix2 (-18) <= B2R c <= B2R sr / 10 -> within (bpow radix2 k) x ->
  let s := dc_setCutoff L (fst (runs (dc_op L) (dc_init L sr c0) ops)) c in
  let y n := snd (dc_tick (after (dc_hold x) n s) x) in
  B2R (y 0%nat) <> 0 -> stuck y.
Proof.
  intros L k sr c0 ops c x HL HU Fs Ps C0 K H Fc Bc X s y. assert (C : dc_cut_ok sr c) by (split; [exact Fc|right; apply Bc]).
  assert (P : 0 < B2R c) by (pose proof (bpow_gt_0 radix2 (-18)); nra).
  apply (dc_tail L k sr c0 ops c x HL HU Fs Ps C0 K H C X). lra.
Qed.
Print Assumptions C119_dcblock_refuted.
Theorem C119_onepole_refuted : forall L k sr c0 ops c, exp_acc L -> exp_unit L -> rate_ok sr -> is_nan c0 = false -> (0 <= k <= 126)%Z ->
  Forall (op_ok (bpow radix2 k)) ops -> fin c -> 1 <= B2R c -> B2R sr * bpow radix2 (-18) <= B2R c <= B2R sr / 10 ->
  let s := op_setCutoff L (fst (run (op_op L) (op_init L sr c0) ops)) c in
  B2R (op_z s) <> 0 -> stuck (fun n => op_z (after (op_hold zero) n s)).
Proof.
  intros L k sr c0 ops c HL HU Hr N0 K H Fc C1 C2. assert (1 <= B2R sr) by apply Hr. apply (op_tail L k sr c0 ops c HL HU Hr N0 K H Fc); lra.
Qed.
Print Assumptions C119_onepole_refuted.
Theorem C119_lag_refuted : forall L k sr t0 ops t, exp_acc L -> exp_unit L -> sr_ok sr -> fin sr -> is_nan t0 = false -> (0 <= k <= 126)%Z ->
  Forall (lg_ok (bpow radix2 k)) ops -> fin t -> 0 < B2R t -> 32 <= B2R t * B2R sr <= 65536 ->
  let s := lg_setLagTime L (fst (run (lg_op L) (lg_init L sr t0) ops)) t in
  B2R (lg_prev s) <> 0 -> stuck (fun n => lg_prev (after (lg_hold zero) n s)).
Proof. intros L k sr t0 ops t HL HU Hs Fs N0 K H Ft Pt BN. now apply (lg_tail L k sr t0 ops t HL HU Hs Fs N0 K H Ft). Qed.
Print Assumptions C119_lag_refuted.

(** The default lag time at 48 kHz: a Lag that stood at 1 never comes back to zero. *)
Example ex_C119_lag : stuck (fun n => lg_prev (after (lg_hold zero) n (lg_setLagTime exact_libm (fst (run (lg_op exact_libm) (lg_init exact_libm sr48 (fdec 1 10)) [GSet one])) (fdec 1 10)))).
Proof.
  apply (C119_lag_refuted exact_libm 0 sr48 (fdec 1 10) [GSet one]); try reflexivity.
  - apply C20_exp_hypotheses.
  - apply C20_exp_hypotheses.
  - lia.
  - constructor; [|constructor]. split; [ffin|]. rewrite one_R, Rabs_R1. bp. lra.
  - fval (fdec 1 10 : f32). lra.
  - assert (E : B2R sr48 = 48000) by (fval sr48; lra). rewrite E. fval (fdec 1 10 : f32). lra.
  - cbn [run lg_op fst lg_setValue lg_setLagTime lg_prev lg_init]. rewrite one_R. lra.
Qed.
(** One step of the end state, computed: three quarters of 2^-148 is 2^-148; and a half of 2^-149 is zero. *)
Example ex_C119_step :
  snd (lg_tick (Lag sr48 (fdec 1 10) (flit 3 (-2)) (flit 1 (-148))) zero) = flit 1 (-148) /\
  snd (dc_tick (Dcb sr48 (fofZ 4000) (flit 3 (-2)) one (flit 1 (-148)) zero zero) one) = flit 1 (-148) /\
  snd (op_tick (Opl sr48 (fofZ 8000) half half (flit 1 (-149))) zero) = zero.
Proof. vm_compute. repeat split. Qed.
(** The hypotheses on the settings hold for the usual ones: DC blocker 10 Hz, low-pass 1 kHz, at 48 kHz. *)
Example ex_C119_hyp : let c := fofZ 10 : f32 in let d := fofZ 1000 : f32 in
  B2R (sr48 : f32) * bpow radix2 (-18) <= B2R c <= B2R (sr48 : f32) / 10 /\ B2R (sr48 : f32) * bpow radix2 (-18) <= B2R d <= B2R (sr48 : f32) / 10.
Proof. cbn zeta. assert (E : B2R sr48 = 48000) by (fval sr48; lra). rewrite E. fval (fofZ 10 : f32). fval (fofZ 1000 : f32). bp. lra. Qed.
