(** Property theorems for examples/basic_example.cpp (C116). *)
From Coq Require Import ZArith Reals Bool List Lia.
From Flocq Require Import Core BinarySingleNaN.
From Verif Require Import AllocModel LoopModel LoopSpec.
From Verif Require Import Flt FltFacts Libm LibmInst UtilModel PanSpec OscModel OscSpec EnvModel EnvSpec EnvInst VcModel VcSpec BxModel.
From Verif Require BxProofs BxProofs2 BxProofs3.
Import ListNotations.
Local Open Scope R_scope.

(** Example 1 prints sin(2 pi 440 i / 48000) for i = 0..7, to (i+1) 2^-19. *)
Theorem C116_sine : forall L i, sin_acc L -> (i < 8)%nat -> exists x, nth_error (bx_ex1 L) i = Some x /\
  Rabs (B2R x - sin (2 * PI * (440 / 48000) * INR i)) <= (INR i + 1) * bpow radix2 (-19).
Proof. exact BxProofs2.ex1_wave. Qed.
Print Assumptions C116_sine.

(** Example 2 prints 1 - e^(-(i+1)/T), T the attack of 0.01 s in samples, to 0.000121: a rising row of numbers. *)
Theorem C116_envelope : forall L, exp_unit L -> exp_acc L ->
  (forall i, (i < 8)%nat -> exists x, nth_error (bx_ex2 L) i = Some x /\
     Rabs (B2R x - (1 - exp (- (INR (S i) / (B2R (fdec 1 100 : f32) * 48000))))) <= 0.000121) /\
  (forall i j x y, (i < j < 8)%nat -> nth_error (bx_ex2 L) i = Some x -> nth_error (bx_ex2 L) j = Some y -> B2R x < B2R y).
Proof.
  intros L HU HA. split; [intros i; exact (BxProofs2.ex2_curve L i HU HA)|].
  intros i j x y. exact (BxProofs3.ex2_up L i j x y HU HA).
Qed.
Print Assumptions C116_envelope.

(** Example 3 prints these numbers (over 2^24) on every machine: no library function is involved. *)
Theorem C116_noise : bx_ex3 =
  map (fun m => flit m (-24)) [-13820230; -13819776; -13819321; -13818866; -13818408; -13817952; -13817496; -13817037]%Z.
Proof. exact BxProofs2.ex3_values. Qed.
Print Assumptions C116_noise.

(** Example 4: the history of the voice is the 7 calls of lines 88-96, 51 blocks, [release], 49 blocks.
    Each printed peak is the largest absolute sample of its channel, and at most the amplitude 0.8. *)
Theorem C116_peaks : forall L, exp_unit L -> sin_unit L -> cos_unit L ->
  let m := fst (bx_ex4 L) in
  let ys := ev_samples L (ev_init L bx_sr)
    ([EvFreq (fofZ 440); EvAttack (fdec 1 100); EvRelTime (fdec 5 10); EvDepth (fdec 1 10); EvRate (fofZ 5); EvAmp (fdec 8 10); EvTrigger] ++
     repeat EvTick (51 * 64) ++ EvRelease :: repeat EvTick (49 * 64)) in
  fin (fst m) /\ fin (snd m) /\ B2R (fst m) <= B2R (fdec 8 10 : f32) /\ B2R (snd m) <= B2R (fdec 8 10 : f32) /\
  Forall (fun y => Rabs (B2R (fst y)) <= B2R (fst m) /\ Rabs (B2R (snd y)) <= B2R (snd m)) ys /\
  (exists y, In y ys /\ B2R (fst m) = Rabs (B2R (fst y))) /\ (exists y, In y ys /\ B2R (snd m) = Rabs (B2R (snd y))).
Proof. exact BxProofs3.ex4_peaks. Qed.
Print Assumptions C116_peaks.

(** Example 4 prints "Voice active: yes": the release is still sounding 3136 samples later. *)
Theorem C116_still_active : forall L, exp_unit L -> exp_acc L -> snd (bx_ex4 L) = true.
Proof. exact BxProofs3.ex4_active. Qed.
Print Assumptions C116_still_active.

(** Example 5, whatever the buffers held before: no store is out of bounds, the block on show is the tenth
    (samples 577-640 of the voice), and the processing buffer holds the ninth. *)
Theorem C116_loop : forall L l r,
  length (bufA l) = 64%nat -> length (bufB l) = 64%nat -> length (bufA r) = 64%nat -> length (bufB r) = 64%nat ->
  let ops := [EvFreq (fofZ 440); EvTrigger] ++ repeat EvTick (8 * 64 + (64 + 64)) in
  let ys := ev_samples L (ev_init L bx_sr) ops in
  exists l' r', bx_ex5 L l r = Some (ev_after L bx_sr ops, (l', r')) /\
    shows l' (getOutputBuffer l') (map fst (skipn (8 * 64 + 64) ys)) /\
    shows r' (getOutputBuffer r') (map snd (skipn (8 * 64 + 64) ys)) /\
    shows l' (getProcessingBuffer l') (map fst (firstn 64 (skipn (8 * 64) ys))) /\
    shows r' (getProcessingBuffer r') (map snd (firstn 64 (skipn (8 * 64) ys))).
Proof. exact BxProofs3.ex5_shows. Qed.
Print Assumptions C116_loop.

(** The hypotheses hold of the correctly rounded library. *)
Example ex_C116 : snd (bx_ex4 exact_libm) = true.
Proof. apply C116_still_active; [apply exact_exp_unit|apply exact_exp_acc]. Qed.
(** With buffers full of 9s at the start: the tenth block is in the second buffer, the ninth in the first. *)
Example ex_C116_loop : let l0 := LState (repeat (fofZ 9) 64) (repeat (fofZ 9) 64) false fzero in
  match bx_ex5 toy_trig l0 l0 with
  | Some (_, (l, r)) => getOutputBuffer l = SB /\ load l SB 0 = Some (flit 16777215 (-26)) /\ load r SA 63 = load r SB 0 /\ load r SB 64 = None
  | None => False
  end.
Proof. vm_compute. repeat split. Qed.
