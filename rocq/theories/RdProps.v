(** BufRd: the property theorems. *)
From Coq Require Import ZArith Reals Bool List Lra Lia.
From Flocq Require Import Core BinarySingleNaN.
From Verif Require Import Flt FltFacts FltMore FltKey FltScale UtilModel UtilProofs OscSpec RdModel RdSpec RdProofs RdProofs2 RdProofs3.
Import ListNotations.
Local Open Scope R_scope.

(** C37: every read of a good buffer at a finite phase (any phase but NaN when not looping) is defined, in every mode. *)
Theorem C37_safe : forall b lp mode p, rb_ok b -> fin p \/ (lp = false /\ is_nan p = false) ->
  exists l r, rd_tick (BufRd (Some b) lp mode) p = Some l /\ rd_tick2 (BufRd (Some b) lp mode) p = Some (l, r).
Proof. intros b lp mode p O P. destruct (rd_defined b lp mode p O P) as (i & f & _ & _ & A & B). eauto. Qed.
Print Assumptions C37_safe.
(** C37: a NaN phase, or an infinite one when looping, is always an undefined conversion. *)
Theorem C37_nan_phase_undefined_refuted : forall b lp mode p, rb_ok b -> is_nan p = true \/ (lp = true /\ is_finite p = false) ->
  rd_tick (BufRd (Some b) lp mode) p = None /\ rd_tick2 (BufRd (Some b) lp mode) p = None.
Proof. exact rd_undefined. Qed.
Print Assumptions C37_nan_phase_undefined_refuted.
(** C37: without a usable buffer the reader is silent for every phase, NaN included, and reads nothing. *)
Theorem C37_no_buffer : forall r p, (forall b, rd_buf r = Some b -> rb_data b = None \/ (rb_n b <= 0)%Z \/ (rb_ch b <> 1%Z /\ rb_ch b <> 2%Z)) ->
  rd_tick r p = Some zero /\ rd_tick2 r p = Some (zero, zero).
Proof.
  intros r p H. unfold rd_tick, rd_tick2. destruct (rd_buf r) as [b|]; [|split; reflexivity].
  replace (rb_valid b) with false; [split; reflexivity|]. symmetry. unfold rb_valid. destruct (H b eq_refl) as [A|[A|[A B]]].
  - rewrite A. reflexivity.
  - apply Z.ltb_ge in A. rewrite A, andb_false_r. reflexivity.
  - apply Z.eqb_neq in A, B. rewrite A, B. apply andb_false_r.
Qed.
Print Assumptions C37_no_buffer.

(** C38: at integer phases every mode returns the stored frame exactly, in both channels: frame [k mod n] when looping, the nearest one when clamping. *)
Theorem C38_integer_phase : forall j b lp mode p k, rb_ok b -> (rb_n b <= 2 ^ 24)%Z -> (-100 <= j <= 96)%Z -> loud j b 0 -> loud j b 1 -> fin p -> B2R p = IZR k ->
  exists l r, rd_tick (BufRd (Some b) lp mode) p = Some l /\ rd_tick2 (BufRd (Some b) lp mode) p = Some (l, r) /\ fin l /\ fin r /\
    B2R l = B2R (smp b 0 (frame lp (rb_n b) k)) /\ B2R r = B2R (smp b 1 (frame lp (rb_n b) k)).
Proof. exact rd_int. Qed.
Print Assumptions C38_integer_phase.
Definition buf_of (l : list f32) : rbuf := let n := Z.of_nat (length l) in RBuf (Some (fun i => nth (Z.to_nat i) l zero)) n 1 (fofZ 48000) n.
Definition is_value (o : option f32) (v : f32) : bool := match o with Some y => feq y v | None => false end.
(** C38: samples near the largest float overflow in linear mode: phase 0 over (3e38, -3e38) gives NaN. *)
Theorem C38_huge_samples_refuted :
  match rd_tick (rd_init (Some (buf_of [flit 3 126; flit (-3) 126]))) zero with Some y => is_nan y | None => false end = true.
Proof. vm_compute. reflexivity. Qed.
Print Assumptions C38_huge_samples_refuted.
(** C38: with 2^24+1 frames the length rounds to 2^24 and phase 2^24 reads frame 0. *)
Theorem C38_long_buffer_refuted : forall d, rd_tick (BufRd (Some (RBuf (Some d) 16777217 1 (fofZ 48000) 16777217)) true 1) (fofZ 16777216) = Some (d 0%Z).
Proof. intros d. vm_compute. reflexivity. Qed.
Print Assumptions C38_long_buffer_refuted.

(** C39: a looping reader without interpolation returns the frame at floor(p mod n) for every p >= 0. *)
Theorem C39_loop_nonneg : forall b mode p, rb_ok b -> (rb_n b <= 2 ^ 24)%Z -> mode <> 2%Z -> mode <> 4%Z -> fin p -> 0 <= B2R p ->
  let i := Zfloor (rd_pos true (rb_n b) (B2R p)) in
  (0 <= i < rb_n b)%Z /\ rd_tick (BufRd (Some b) true mode) p = Some (smp b 0 i) /\ rd_tick2 (BufRd (Some b) true mode) p = Some (smp b 0 i, smp b 1 i).
Proof.
  intros b mode p O N M2 M4 Fp P i. pose proof (ok_n b O) as N1. destruct (rd_at true (rb_n b) p ltac:(lia) Fp) as (q & f & _ & _ & _ & _ & _ & _ & Q & QE).
  specialize (QE (or_intror P)). destruct (pos_bnd true (rb_n b) (B2R p) ltac:(lia)) as (PB & PL & _). specialize (PL eq_refl). split.
  - split; [apply Zfloor_lub, PB|]. apply lt_IZR. eapply Rle_lt_trans; [apply Zfloor_lb|exact PL].
  - unfold i. rewrite <- QE. apply rd_hold; auto. rewrite QE. exact PL.
Qed.
Print Assumptions C39_loop_nonneg.
(** C39: for negative phases the wrapped position is rounded once to a float; below the length, that is where the frame is read. *)
Theorem C39_loop_negative : forall b mode p, rb_ok b -> (rb_n b <= 2 ^ 24)%Z -> mode <> 2%Z -> mode <> 4%Z -> fin p ->
  forall q, q = rnd32 (rd_pos true (rb_n b) (B2R p)) -> q < IZR (rb_n b) ->
  rd_tick (BufRd (Some b) true mode) p = Some (smp b 0 (Zfloor q)) /\ rd_tick2 (BufRd (Some b) true mode) p = Some (smp b 0 (Zfloor q), smp b 1 (Zfloor q)).
Proof. intros b mode p. apply rd_hold. Qed.
Print Assumptions C39_loop_negative.
(** C39: a negative phase whose wrapped position is within 2^-26 of the length (relatively) is read as silence, whatever the buffer holds. *)
Theorem C39_below_multiple_refuted : forall j b mode p, rb_ok b -> (rb_n b <= 2 ^ 24)%Z -> (-100 <= j <= 96)%Z -> loud j b 0 -> loud j b 1 -> fin p -> B2R p < 0 ->
  IZR (rb_n b) * (1 - bpow radix2 (-26)) < rd_pos true (rb_n b) (B2R p) ->
  exists l r, rd_tick (BufRd (Some b) true mode) p = Some l /\ rd_tick2 (BufRd (Some b) true mode) p = Some (l, r) /\ fin l /\ fin r /\ B2R l = 0 /\ B2R r = 0.
Proof. exact rd_silent. Qed.
Print Assumptions C39_below_multiple_refuted.
(** C39: when not looping, phases before the first and after the last frame read those frames. *)
Theorem C39_clamps : forall b mode p, rb_ok b -> (rb_n b <= 2 ^ 24)%Z -> mode <> 2%Z -> mode <> 4%Z -> fin p ->
  let i := Zfloor (rd_pos false (rb_n b) (B2R p)) in
  rd_tick (BufRd (Some b) false mode) p = Some (smp b 0 i) /\ rd_tick2 (BufRd (Some b) false mode) p = Some (smp b 0 i, smp b 1 i).
Proof.
  intros b mode p O N M2 M4 Fp i. pose proof (ok_n b O) as N1. destruct (rd_at false (rb_n b) p ltac:(lia) Fp) as (q & f & _ & _ & _ & _ & _ & _ & Q & QE).
  specialize (QE (or_introl eq_refl)). destruct (pos_bnd false (rb_n b) (B2R p) ltac:(lia)) as (PB & _ & PL). specialize (PL eq_refl).
  unfold i. rewrite <- QE. apply rd_hold; auto. rewrite QE. lra.
Qed.
Print Assumptions C39_clamps.

(** C40: without and with linear interpolation, the output never exceeds a power of two that bounds the samples, for buffers of any length. *)
Theorem C40_bounded : forall k b lp mode p, rb_ok b -> (-125 <= k <= 126)%Z -> loud k b 0 -> loud k b 1 -> mode <> 4%Z -> fin p \/ (lp = false /\ is_nan p = false) ->
  exists l r, rd_tick (BufRd (Some b) lp mode) p = Some l /\ rd_tick2 (BufRd (Some b) lp mode) p = Some (l, r) /\
    fin l /\ Rabs (B2R l) <= bpow radix2 k /\ fin r /\ Rabs (B2R r) <= bpow radix2 k.
Proof. intros k b lp mode p O K L0 L1 M P. destruct (rd_bounded k b lp mode p O K L0 L1 M P) as (l & r & A & B & [C D] & [E F]). exists l, r. auto 10. Qed.
Print Assumptions C40_bounded.
(** C40: tickStereo is two independent mono readers on the left and the right channel, and tick is the left one; equal bit for bit, and undefined together. *)
Theorem C40_channels : forall b lp mode p, rb_ok b ->
  rd_tick (BufRd (Some b) lp mode) p = rd_tick (BufRd (Some (mono_of b 0)) lp mode) p /\
  rd_tick2 (BufRd (Some b) lp mode) p =
    match rd_tick (BufRd (Some (mono_of b 0)) lp mode) p, rd_tick (BufRd (Some (mono_of b 1)) lp mode) p with Some l, Some r => Some (l, r) | _, _ => None end.
Proof.
  intros b lp mode p O. destruct (rd_channels b lp mode p O) as [A B]. split; [exact A|]. rewrite B.
  destruct (rd_tick (BufRd (Some (mono_of b 0)) lp mode) p) as [l|], (rd_tick (BufRd (Some (mono_of b 1)) lp mode) p); reflexivity.
Qed.
Print Assumptions C40_channels.
(** C40: cubic mode does overshoot: 1.25 between full-scale samples. *)
Theorem C40_cubic_overshoot_refuted :
  is_value (rd_tick (rd_setInterpolation (rd_init (Some (buf_of [fofZ (-1); one; one; fofZ (-1)]))) 4) (fdec 3 2)) (fdec 125 100) = true.
Proof. vm_compute. reflexivity. Qed.
Print Assumptions C40_cubic_overshoot_refuted.

(** C59: linear mode is within 2^(j-22) of the exact interpolation between the two frames around the position (2^j bounds the samples). *)
Theorem C59_linear : forall j b lp p, rb_ok b -> (rb_n b <= 2 ^ 24)%Z -> (-100 <= j <= 96)%Z -> loud j b 0 -> loud j b 1 -> fin p -> lp = false \/ 0 <= B2R p ->
  let q := rd_pos lp (rb_n b) (B2R p) in let i := Zfloor q in
  let y c := linear (q - IZR i) (B2R (smp b c i)) (B2R (smp b c (frame lp (rb_n b) (i + 1)))) in
  exists l r, rd_tick (BufRd (Some b) lp 2) p = Some l /\ rd_tick2 (BufRd (Some b) lp 2) p = Some (l, r) /\
    Rabs (B2R l - y 0%Z) <= bpow radix2 (j - 22) /\ Rabs (B2R r - y 1%Z) <= bpow radix2 (j - 22).
Proof.
  intros j b lp p O N J L0 L1 Fp P q i y. pose proof (ok_n b O) as N1. destruct (rd_at lp (rb_n b) p ltac:(lia) Fp) as (q' & f & _ & _ & _ & _ & _ & _ & Q & QE).
  specialize (QE P). destruct (pos_bnd lp (rb_n b) (B2R p) ltac:(lia)) as (PB & PL & PN).
  assert (QN : q < IZR (rb_n b)) by (destruct lp; [now apply PL|]; assert (q <= IZR (rb_n b) - 1) by (now apply PN); lra).
  destruct (rd_linear j b lp p O N J L0 L1 Fp q (eq_trans (eq_sym QE) Q) QN) as (l & r & A & B & _ & _ & C & D & _). exists l, r. auto.
Qed.
Print Assumptions C59_linear.
(** C59: cubic mode is within 2^(j-17) of the Catmull-Rom curve through the four frames around the position: always when looping, from frame 1 on when not. *)
Theorem C59_cubic : forall j b lp p, rb_ok b -> (rb_n b <= 2 ^ 24)%Z -> (-100 <= j <= 96)%Z -> loud j b 0 -> loud j b 1 -> fin p -> lp = false \/ 0 <= B2R p ->
  let q := rd_pos lp (rb_n b) (B2R p) in let i := Zfloor q in let n := rb_n b in
  lp = true \/ 1 <= q ->
  let y c := spline (q - IZR i) (B2R (smp b c (frame lp n (i - 1)))) (B2R (smp b c i)) (B2R (smp b c (frame lp n (i + 1)))) (B2R (smp b c (frame lp n (i + 2)))) in
  exists l r, rd_tick (BufRd (Some b) lp 4) p = Some l /\ rd_tick2 (BufRd (Some b) lp 4) p = Some (l, r) /\
    Rabs (B2R l - y 0%Z) <= bpow radix2 (j - 17) /\ Rabs (B2R r - y 1%Z) <= bpow radix2 (j - 17).
Proof.
  intros j b lp p O N J L0 L1 Fp P q i n W y. pose proof (ok_n b O) as N1. destruct (rd_at lp (rb_n b) p ltac:(lia) Fp) as (q' & f & _ & _ & _ & _ & _ & _ & Q & QE).
  specialize (QE P). destruct (pos_bnd lp (rb_n b) (B2R p) ltac:(lia)) as (PB & PL & PN).
  assert (QN : q < IZR (rb_n b)) by (destruct lp; [now apply PL|]; assert (q <= IZR (rb_n b) - 1) by (now apply PN); lra).
  destruct (rd_spline j b lp p O N J L0 L1 Fp q (eq_trans (eq_sym QE) Q) QN) as (l & r & A & B & _ & _ & C & D). exists l, r.
  fold i n in C, D. replace (before lp n i) with (frame lp n (i - 1)) in C, D; [auto|].
  unfold before. destruct W as [-> |W]; [reflexivity|]. replace (i =? 0)%Z with false; [now rewrite andb_false_r|]. symmetry. apply Z.eqb_neq.
  assert (1 <= i)%Z by (apply Zfloor_lub; exact W). lia.
Qed.
Print Assumptions C59_cubic.
(** C59: before frame 1 a reader that does not loop takes the last frame of the buffer as the predecessor of the first. *)
Theorem C59_cubic_start_refuted : forall j b p, rb_ok b -> (rb_n b <= 2 ^ 24)%Z -> (-100 <= j <= 96)%Z -> loud j b 0 -> loud j b 1 -> fin p ->
  let q := rd_pos false (rb_n b) (B2R p) in let n := rb_n b in
  q < 1 ->
  let y c := spline q (B2R (smp b c (n - 1))) (B2R (smp b c 0)) (B2R (smp b c (frame false n 1))) (B2R (smp b c (frame false n 2))) in
  exists l r, rd_tick (BufRd (Some b) false 4) p = Some l /\ rd_tick2 (BufRd (Some b) false 4) p = Some (l, r) /\
    Rabs (B2R l - y 0%Z) <= bpow radix2 (j - 17) /\ Rabs (B2R r - y 1%Z) <= bpow radix2 (j - 17).
Proof.
  intros j b p O N J L0 L1 Fp q n W y. pose proof (ok_n b O) as N1. destruct (rd_at false (rb_n b) p ltac:(lia) Fp) as (q' & f & _ & _ & _ & _ & _ & _ & Q & QE).
  specialize (QE (or_introl eq_refl)). destruct (pos_bnd false (rb_n b) (B2R p) ltac:(lia)) as (PB & PL & PN). fold q in PB.
  assert (QN : q < IZR (rb_n b)) by (assert (q <= IZR (rb_n b) - 1) by (now apply PN); lra).
  destruct (rd_spline j b false p O N J L0 L1 Fp q (eq_trans (eq_sym QE) Q) QN) as (l & r & A & B & _ & _ & C & D). exists l, r.
  assert (I : Zfloor q = 0%Z) by (apply Zfloor_imp; split; [apply PB|exact W]). rewrite I in C, D. rewrite Rminus_0_r in C, D. auto.
Qed.
Print Assumptions C59_cubic_start_refuted.

(** ** Examples *)
Definition ramp4 : rbuf := buf_of [fofZ 10; fofZ 20; fofZ 40; fofZ 80].
(** The hypotheses hold for a real buffer. *)
Example ex_C37_ok : rb_ok ramp4.
Proof. eexists. split; [reflexivity|]. cbn. lia. Qed.
Example ex_C38_loud : loud 7 ramp4 0 /\ loud 7 ramp4 1.
Proof.
  assert (A : forall i, (0 <= i < 4)%Z -> fin (smp ramp4 0 i) /\ Rabs (B2R (smp ramp4 0 i)) <= bpow radix2 7).
  { intros i I. assert (C : (i = 0 \/ i = 1 \/ i = 2 \/ i = 3)%Z) by lia.
    assert (V : forall z, (0 <= z <= 80)%Z -> fin (fofZ z : f32) /\ Rabs (B2R (fofZ z : f32)) <= bpow radix2 7).
    { intros z Z. destruct (fofZ_R (prec:=24) (emax:=128) z ltac:(lia)) as [F E]. split; [exact F|]. rewrite E, Rabs_pos_eq by (apply IZR_le; lia). apply (IZR_le z 128). lia. }
    destruct C as [-> |[-> |[-> | ->]]]; [apply (V 10%Z)|apply (V 20%Z)|apply (V 40%Z)|apply (V 80%Z)]; lia. }
  split; exact A.
Qed.
(** Linear, looping: 3.5 lies between 80 and the wrapped 10. *)
Example ex_C59_linear : is_value (rd_tick (rd_init (Some ramp4)) (fdec 7 2)) (fofZ 45) = true.
Proof. vm_compute. reflexivity. Qed.
Example ex_C38 : is_value (rd_tick (rd_setInterpolation (rd_init (Some ramp4)) 4) (fofZ (-2))) (fofZ 40) = true.
Proof. vm_compute. reflexivity. Qed.
Example ex_C39 : is_value (rd_tick (rd_setInterpolation (rd_init (Some ramp4)) 1) (fdec (-5) 2)) (fofZ 20) = true
  /\ is_value (rd_tick (rd_setLoop (rd_init (Some ramp4)) false) (fofZ 100)) (fofZ 80) = true.
Proof. vm_compute. split; reflexivity. Qed.
(** Just below zero the looping reader falls silent although all samples are at least 10. *)
Example ex_C39_silent : is_value (rd_tick (rd_init (Some ramp4)) (flit (-1) (-30))) zero = true.
Proof. vm_compute. reflexivity. Qed.
(** Silence with one click at the very end: without looping, cubic interpolation hears it at the start. *)
Example ex_C59_start : is_value (rd_tick (rd_setInterpolation (rd_setLoop (rd_init (Some (buf_of [zero; zero; zero; zero; fofZ 16]))) false) 4) half) (fofZ (-1)) = true.
Proof. vm_compute. reflexivity. Qed.
Example ex_C40 : match rd_tick2 (rd_init (Some (RBuf (Some (fun i => fofZ i)) 8 2 (fofZ 48000) 4))) (fdec 3 2) with Some (l, r) => feq l (fofZ 3) && feq r (fofZ 4) | None => false end = true.
Proof. vm_compute. reflexivity. Qed.
