(** The Moog example: the property theorems C98-C100. *)
From Coq Require Import ZArith Reals Bool List Lra Lia.
From Flocq Require Import Core BinarySingleNaN.
From Verif Require Import Flt FltFacts FltMore FltRel FltClose FltArith Libm LibmInst UtilModel UtilProofs EnvSpec EnvInst LineSpec LineInst SmoothModel MgModel MgSpec MgInst ObModel PbProofs2 PbProofs4 MxModel MxProofs.
Import ListNotations.
Local Open Scope R_scope.

(** ** C98: pointer to cutoff and resonance *)
(** Column [x] of [w]: 100 Hz * 80^u at the fraction [u] of the width, within 2^-16 of it. *)
Theorem C98_cutoff : forall L x w, exp_rel L -> log_rel L -> screen x w ->
  let f := 100 * Rpower 80 (Rmax 0 (Rmin 1 (IZR x / IZR w))) in
  fin (mx_cutoff L x w) /\ Rabs (B2R (mx_cutoff L x w) - f) <= bpow radix2 (-16) * f.
Proof.
  intros L x w EL LL S f. destruct (cutoff_acc L x w EL LL S) as [F E]. split; [exact F|]. change (Rmax 0 (Rmin 1 (IZR x / IZR w))) with (rclamp (IZR x / IZR w)) in f. pose proof (rclamp_in (IZR x / IZR w)) as U. set (u := rclamp _) in *.
  assert (G : geo 100 8000 u = f). { unfold geo, f, Rpower. rewrite exp_plus, exp_ln by lra. f_equal. f_equal. f_equal. replace 8000 with (80 * 100) by lra. rewrite ln_mult by lra. ring. }
  rewrite G in E. assert (0 < f) by (unfold f, Rpower; pose proof (exp_pos (u * ln 80)); lra). rewrite (Rabs_pos_eq f) in E by lra. exact E.
Qed.
Print Assumptions C98_cutoff.
(** Row [y] of [h]: 0.99 at the top, 0 at the bottom, linear in between, within 2^-23. *)
Theorem C98_resonance : forall y h, screen y h ->
  fin (mx_resonance y h) /\ Rabs (B2R (mx_resonance y h) - 99 / 100 * (1 - Rmax 0 (Rmin 1 (IZR y / IZR h)))) <= bpow radix2 (-23).
Proof. exact res_acc. Qed.
Print Assumptions C98_resonance.
(** Any integers at all, a screen of width or height 0 included: the stored values are in range and never a NaN. *)
Theorem C98_any_pointer : forall L x w y h, exp_rel L -> log_rel L ->
  fin (mx_cutoff L x w) /\ 999 / 10 <= B2R (mx_cutoff L x w) <= 8001 /\ fin (mx_resonance y h) /\ 0 <= B2R (mx_resonance y h) <= 1.
Proof. intros L x w y h EL LL. destruct (cutoff_range L x w EL LL) as [A B]. destruct (res_range y h) as [C D]. auto. Qed.
Print Assumptions C98_any_pointer.
(** On a screen of 1920 x 1080: the middle column is 894.4 Hz, the middle row 0.495; left of the screen is 100 Hz; a screen without rows gives 0.99 above it, 0 else. *)
Example ex_C98 : Rabs (B2R (mx_cutoff exact_libm 960 1920) - 100 * sqrt 80) <= bpow radix2 (-16) * (100 * sqrt 80) /\ Rabs (B2R (mx_cutoff exact_libm (-7) 1920) - 100) <= / 100 /\
  flt (fdec 4949 10000) (mx_resonance 540 1080) = true /\ flt (mx_resonance 540 1080) (fdec 4951 10000) = true /\ mx_resonance (-1) 0 = fdec 99 100 /\ mx_resonance 0 0 = fdec 99 100 /\ mx_resonance 5 0 = zero.
Proof.
  split; [|split; [|vm_compute; repeat split]].
  - pose proof (proj2 (C98_cutoff exact_libm 960 1920 exact_exp_rel exact_log_rel ltac:(unfold screen; lia))) as E. cbv zeta in E.
    replace (Rmax 0 (Rmin 1 (IZR 960 / IZR 1920))) with (/ 2) in E by (replace (IZR 960 / IZR 1920) with (/ 2) by lra; rewrite Rmin_right, Rmax_right by lra; reflexivity). rewrite Rpower_sqrt in E by lra. exact E.
  - pose proof (proj2 (C98_cutoff exact_libm (-7) 1920 exact_exp_rel exact_log_rel ltac:(unfold screen; lia))) as E. cbv zeta in E.
    replace (Rmax 0 (Rmin 1 (IZR (-7) / IZR 1920))) with 0 in E by (rewrite Rmin_right, Rmax_left by lra; reflexivity). rewrite Rpower_O, Rmult_1_r in E by lra.
    eapply Rle_trans; [exact E|]. change (bpow radix2 (-16)) with (/ 65536). lra.
Qed.

(** ** C99: what the program plays *)
(** Sample rates from 32800 Hz to 262144 Hz, any pointer, any changes of rate, any order of events: one sample per tick, finite and at most 0.3000002. *)
Theorem C99_bounded : forall L sr os, exp_unit L -> exp_acc L -> exp_rel L -> log_rel L -> dtan_acc L -> dtanh_unit L -> mx_hz sr -> Forall mx_ok os ->
  length (snd (mx_run L sr os)) = ticks os /\ Forall (fun y => fin y /\ Rabs (B2R y) <= 0.3000002) (snd (mx_run L sr os)).
Proof. intros L sr os HU HA EL LL HT HH H K. split; [apply mx_length|]. exact (proj2 (mx_safe L sr os HU HA EL LL HT HH H K)). Qed.
Print Assumptions C99_bounded.
Definition session : list mx_call := [XTick; XCol 0 1920; XRow 0 1080; XTick; XRate 96000; XTick; XCol (-3) 0; XTick].
Example ex_C99 : Forall (fun y => fin y /\ Rabs (B2R y) <= 0.3000002) (snd (mx_run exact_libm 48000 session)) /\ length (snd (mx_run exact_libm 48000 session)) = 4%nat.
Proof.
  destruct (C99_bounded exact_libm 48000 session exact_exp_unit exact_exp_acc exact_exp_rel exact_log_rel exact_dtan exact_dtanh_unit) as [A B]; [unfold mx_hz; lia| |split; [exact B|exact A]].
  unfold session. repeat (constructor; [cbn [mx_ok]; first [exact I|unfold mx_hz; lia]|]). constructor.
Qed.
(** With a computable library ([exp] as its first terms) the chord is heard: sample 60 of the start is between 0.05 and 0.3. *)
Definition play_libm : libm := {|
  m_exp := fun x => fadd (fadd one x) (fmul half (fmul x x)); m_sin := fun _ => zero; m_cos := fun _ => one; m_tan := fun x => x; m_tanh := fun x => x; m_log := fun x => x; m_atan := fun x => x; m_pow := fun x _ => x;
  d_exp := d_exp poly_libm; d_sin := d_sin poly_libm; d_cos := d_cos poly_libm; d_tan := d_tan poly_libm; d_tanh := d_tanh poly_libm; d_pow := d_pow poly_libm |}.
Example ex_C99_values : let ys := snd (mx_run play_libm 48000 (repeat XTick 61)) in (flt (fdec 5 100) (fabs (nth 60 ys zero)) && flt (fabs (nth 60 ys zero)) (fdec 3 10))%bool = true.
Proof. vm_compute. reflexivity. Qed.

(** ** C100: the cutoff the filter is given *)
(** Without a change of rate it never leaves 99 Hz .. 8192 Hz. *)
Theorem C100_held : forall L sr os, exp_unit L -> exp_acc L -> exp_rel L -> log_rel L -> dtan_acc L -> dtanh_unit L -> mx_hz sr -> Forall no_rate os ->
  fin (ob_cut (mx_f (fst (mx_run L sr os)))) /\ 99 <= B2R (ob_cut (mx_f (fst (mx_run L sr os)))) <= 8192.
Proof. exact mx_held. Qed.
Print Assumptions C100_held.
(** The sample-rate callback drops the smoothed values: with the next sample the filter is closed, to less than 9 Hz, wherever the pointer is. *)
Theorem C100_rate_change_refuted : forall L sr os sr', exp_unit L -> exp_acc L -> exp_rel L -> log_rel L -> dtan_acc L -> dtanh_unit L -> mx_hz sr -> Forall mx_ok os -> mx_hz sr' ->
  let c := ob_cut (mx_f (fst (mx_run L sr (os ++ [XRate sr'; XTick])))) in fin c /\ 0 < B2R c <= 9.
Proof. exact mx_dropped. Qed.
Print Assumptions C100_rate_change_refuted.
(** Even when the rate did not change: 1000 Hz before, about 0.7 Hz after. *)
Example ex_C100 : let c os := ob_cut (mx_f (fst (mx_run play_libm 48000 os))) in
  flt (fofZ 999) (c [XTick]) = true /\ flt (c [XTick]) (fofZ 1001) = true /\ flt (fdec 7 10) (c [XTick; XRate 48000; XTick]) = true /\ flt (c [XTick; XRate 48000; XTick]) (fdec 8 10) = true.
Proof. vm_compute. repeat split. Qed.
