(** Properties of the MusicDSP ladder: C92. *)
From Coq Require Import ZArith Reals Lra Lia Bool List.
From Flocq Require Import Core BinarySingleNaN.
From Verif Require Import Flt FltFacts FltMore FltKey Libm LibmInst UtilModel UtilProofs Dbl LpSpec LpInst MgModel MgSpec MgBase MgInst MgProps MdModel LaSpec LaProofs MdProofs MdProofs2.
Import ListNotations.
Local Open Scope R_scope.

(** C92: inputs of magnitude up to 1 give outputs of magnitude up to 61/64, with the cutoff moved anywhere from 1 Hz to a 25th of the sample rate and any resonance but NaN ... *)
Theorem C92_full_resonance : forall L r0 sr os, sincos_acc L -> mg_rate sr -> 25000 <= B2R sr ->
  (forall o, In o os -> match o with MdCut c => fin c /\ 1 <= B2R c <= / 25 * B2R sr | MdRes r => is_nan r = false | MdTick x => fin x /\ Rabs (B2R x) <= 1 | MdReset => True end) ->
  forall y, In y (snd (mg_run (md_call L) (md_init L r0 sr) os)) -> fin y /\ Rabs (B2R y) <= 61 / 64.
Proof.
  intros L r0 sr os HL Hr H1 Ho. apply Forall_forall. apply (md_full L sr r0 os HL Hr H1). apply Forall_forall. intros o H. specialize (Ho o H). destruct o as [c|r|x|]; cbn [md_ok]; auto. split; [exact Ho|]. now apply unit_clamp_R.
Qed.
Print Assumptions C92_full_resonance.
Lemma clamp_low r rho : fin r -> B2R r <= rho -> 0 <= rho -> B2R (unit_clamp r) <= rho.
Proof.
  intros F B P. unfold unit_clamp. destruct (flt r fzero); [exact P|]. destruct (flt one r) eqn:E; [|exact B]. apply (proj1 (flt_R _ _ one_fin F)) in E. lra.
Qed.
(** ... up to 0.075 of the sample rate if the resonance stays up to 1/2, and up to 0.15 of it if the resonance stays up to 0.22 (it is 0.1 after [init]). *)
Theorem C92_half_resonance : forall L r0 sr os, sincos_acc L -> mg_rate sr -> 13334 <= B2R sr ->
  (forall o, In o os -> match o with MdCut c => fin c /\ 1 <= B2R c <= 75 / 1000 * B2R sr | MdRes r => fin r /\ B2R r <= / 2 | MdTick x => fin x /\ Rabs (B2R x) <= 1 | MdReset => True end) ->
  forall y, In y (snd (mg_run (md_call L) (md_init L r0 sr) os)) -> fin y /\ Rabs (B2R y) <= 61 / 64.
Proof.
  intros L r0 sr os HL Hr H1 Ho. apply Forall_forall. apply (md_half L sr r0 os HL Hr H1). apply Forall_forall. intros o H. specialize (Ho o H). destruct o as [c|r|x|]; cbn [md_ok]; auto.
  destruct Ho as [F B]. split; [now apply fin_nan|]. apply clamp_low; [exact F|exact B|lra].
Qed.
Print Assumptions C92_half_resonance.
Theorem C92_low_resonance : forall L r0 sr os, sincos_acc L -> mg_rate sr -> 6667 <= B2R sr ->
  (forall o, In o os -> match o with MdCut c => fin c /\ 1 <= B2R c <= 15 / 100 * B2R sr | MdRes r => fin r /\ B2R r <= 22 / 100 | MdTick x => fin x /\ Rabs (B2R x) <= 1 | MdReset => True end) ->
  forall y, In y (snd (mg_run (md_call L) (md_init L r0 sr) os)) -> fin y /\ Rabs (B2R y) <= 61 / 64.
Proof.
  intros L r0 sr os HL Hr H1 Ho. apply Forall_forall. apply (md_low L sr r0 os HL Hr H1). apply Forall_forall. intros o H. specialize (Ho o H). destruct o as [c|r|x|]; cbn [md_ok]; auto.
  destruct Ho as [F B]. split; [now apply fin_nan|]. apply clamp_low; [exact F|exact B|lra].
Qed.
Print Assumptions C92_low_resonance.
Definition tune : list md_op := [MdCut (fofZ 1800); MdRes (B754_infinity false); MdTick one; MdTick one; MdTick (fneg one); MdCut (fofZ 20); MdRes (fofZ (-3)); MdTick one; MdReset; MdTick one].
Example ex_C92 : forall y, In y (snd (mg_run (md_call exact_libm) (md_init exact_libm fzero (fofZ 48000)) tune)) -> fin y /\ Rabs (B2R y) <= 61 / 64.
Proof.
  apply (C92_full_resonance _ _ _ _ exact_sincos rate48); [fval (fofZ 48000 : f32); lra|]. pose proof one_R as O1. assert (A1 : Rabs (B2R one) <= 1) by (rewrite O1, Rabs_R1; lra). assert (A2 : Rabs (B2R (fneg one : f32)) <= 1) by (rewrite fneg_R, Rabs_Ropp; exact A1).
  assert (C1 : fin (fofZ 1800 : f32) /\ 1 <= B2R (fofZ 1800 : f32) <= / 25 * B2R (fofZ 48000 : f32)) by (fval (fofZ 48000 : f32); fval (fofZ 1800 : f32); split; [reflexivity|lra]).
  assert (C2 : fin (fofZ 20 : f32) /\ 1 <= B2R (fofZ 20 : f32) <= / 25 * B2R (fofZ 48000 : f32)) by (fval (fofZ 48000 : f32); fval (fofZ 20 : f32); split; [reflexivity|lra]).
  intros o H. repeat (destruct H as [<-|H]; [first [exact C1|exact C2|exact Logic.I|reflexivity|split; [reflexivity|assumption]]|]). destruct H.
Qed.
(** The bound is nearly met: over 0.94 at 1.8 kHz (with the two-term sine of [poly_libm]). *)
Example ex_C92_near : existsb (fun y : f32 => flt (fdec 94 100) y) (snd (mg_run (md_call poly_libm) (md_init poly_libm fzero (fofZ 48000)) (MdCut (fofZ 1800) :: MdRes one :: map (fun i => MdTick (if Nat.even (i / 13) then one else fneg one)) (seq 0 200)))) = true.
Proof. vm_compute. reflexivity. Qed.

(** C92: beyond, the filter runs away: at 48 kHz, 20 kHz and full resonance, fifteen inputs of magnitude 1 leave it giving NaN whatever is set and played, until [reset] - with every library whose sine is accurate. *)
Definition fifteen : list f32 := fneg one :: one :: fneg one :: one :: repeat (fneg one) 11.
Theorem C92_runaway_refuted : forall L r0 os, sincos_acc L -> (forall o, In o os -> o <> MdReset) ->
  forall y, In y (snd (mg_run (md_call L) (fst (mg_run (md_call L) (md_init L r0 (fofZ 48000)) (MdCut (fofZ 20000) :: MdRes one :: map MdTick fifteen))) os)) -> is_nan y = true.
Proof.
  intros L r0 os HL Ho. apply Forall_forall. apply (md_runaway L r0 os HL). apply Forall_forall. intros o H. specialize (Ho o H). destruct o; cbn [md_on]; auto.
Qed.
Print Assumptions C92_runaway_refuted.
Example ex_C92_runaway : sincos_acc exact_libm /\ map (fun y : f32 => is_nan y) (snd (mg_run (md_call poly_libm) (md_init poly_libm fzero (fofZ 48000)) (MdCut (fofZ 20000) :: MdRes one :: map MdTick fifteen ++ [MdCut (fofZ 100); MdRes fzero; MdTick fzero; MdReset; MdTick fzero]))) = repeat false 13 ++ [true; true; true; false].
Proof. split; [exact exact_sincos|vm_compute; reflexivity]. Qed.
