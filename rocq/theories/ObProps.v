(** Property theorems for the Oberheim ladder: C72-C74. *)
From Coq Require Import ZArith Reals Lra Lia Bool List.
From Flocq Require Import Core BinarySingleNaN.
From Verif Require Import Flt FltFacts FltMore Libm LibmInst UtilModel UtilProofs MgModel MgSpec MgBase MgInst ObModel LdSpec ObProofs ObProofs2 TanBounds.
Import ListNotations.
Local Open Scope R_scope.

(** C72: with cutoffs from 1 Hz to 0.2499 sample rates, moved at will, any resonance and any samples (infinities included) every output is in [-1,1]. *)
Theorem C72_unit : forall L sr os, dtanh_unit L -> dtan_acc L -> mg_rate sr -> 8000 <= B2R sr -> Forall (ob_good (2499 / 10000) sr) os ->
  Forall (fun y => fin y /\ -1 <= B2R y <= 1) (snd (mg_run (ob_call L) (ob_init L sr) os)).
Proof. intros L sr os H1 H2 Hs H8 K. rewrite <- init_reset. exact (ob_low L sr [] os H1 H2 Hs H8 (Forall_nil _) K). Qed.
Print Assumptions C72_unit.
(** C72: with a cutoff up to 0.475 sample rates that is set while the memory is empty and then left alone, every output is at most 16. *)
Theorem C72_fixed_cutoff : forall L sr c os, dtanh_unit L -> dtan_acc L -> mg_rate sr -> mg_cut (475 / 1000) sr c -> Forall (fun o => ob_good (475 / 1000) sr o /\ ob_no_cut o) os ->
  Forall (fun y => fin y /\ Rabs (B2R y) <= 16) (snd (mg_run (ob_call L) (ob_init L sr) (ObCut c :: os))).
Proof.
  intros L sr c os H1 H2 Hs Hc K. pose proof (ob_fixed L sr [] c os H1 H2 Hs (Forall_nil _) Hc K) as T. cbv zeta in T. cbn [app mg_run ob_call fst] in T. cbn [mg_run ob_call].
  change (ob_reset (ob_setCutoff L (ob_init L sr) c)) with (ob_setCutoff L (ob_init L sr) c) in T. destruct (mg_run (ob_call L) (ob_setCutoff L (ob_init L sr) c) os). exact T.
Qed.
Print Assumptions C72_fixed_cutoff.
(** C72: with cutoffs up to 0.475 sample rates, moved at will, every output is finite and at most 2^21. *)
Theorem C72_moving_cutoff : forall L sr os, dtanh_unit L -> dtan_acc L -> mg_rate sr -> Forall (ob_good (475 / 1000) sr) os ->
  Forall (fun y => fin y /\ Rabs (B2R y) <= bpow radix2 21) (snd (mg_run (ob_call L) (ob_init L sr) os)).
Proof. intros L sr os H1 H2 Hs K. rewrite <- init_reset. exact (ob_mod L sr [] os H1 H2 Hs (Forall_nil _) K). Qed.
Print Assumptions C72_moving_cutoff.
(** C72: cutoffs down to 2^-25 of the sample rate, far below 1 Hz, moved at will: every output is at most 1 + 2^-21. *)
Theorem C72_slow_cutoff : forall L sr os, dtanh_unit L -> dtan_acc L -> mg_rate sr -> 8000 <= B2R sr -> Forall (ob_crawl sr) os ->
  Forall (fun y => fin y /\ Rabs (B2R y) <= 1 + / 2097152) (snd (mg_run (ob_call L) (ob_init L sr) os)).
Proof. exact crawl_run. Qed.
Print Assumptions C72_slow_cutoff.
Example ex_C72_slow : ob_crawl (fofZ 48000) (ObCut (fdec 2 1000)).
Proof. split; [ffin|]. fval (fdec 2 1000 : f32). fval (fofZ 48000 : f32). unfold crawl. set (a := fdec 2 1000 : f32) in *. set (b := fofZ 48000 : f32) in *. lra. Qed.
(** The correctly rounded library meets both assumptions; a history that sweeps the cutoff, with full resonance and an infinite sample. *)
Definition sweep : list ob_op := [ObRes one; ObTick one; ObCut (fofZ 11000); ObTick (- fofZ 5)%F; ObCut one; ObTick (B754_infinity false); ObReset; ObTick one].
Example ex_C72_hyp : dtanh_unit exact_libm /\ dtan_acc exact_libm /\ mg_rate (fofZ 48000) /\ 8000 <= B2R (fofZ 48000 : f32) /\ Forall (ob_good (2499 / 10000) (fofZ 48000)) sweep.
Proof.
  split; [exact exact_dtanh_unit|]. split; [exact exact_dtan|]. unfold sweep. fval (fofZ 48000 : f32). fval (fofZ 11000 : f32). pose proof one_R. set (s := fofZ 48000 : f32) in *. set (c := fofZ 11000 : f32) in *.
  split; [split; [ffin|lra]|]. split; [lra|]. repeat (apply Forall_cons; [cbn [ob_good]; first [exact Logic.I|reflexivity|unfold mg_cut; split; [ffin|lra]]|]); apply Forall_nil.
Qed.
(** Outputs with a computable library: a step of 1 at cutoff 6000 Hz, resonance 0.1, passes 0.65 at the sixth sample and reaches the bound 1. *)
Example ex_C72_values : let ys := snd (mg_run (ob_call poly_libm) (ob_init poly_libm (fofZ 48000)) (ObCut (fofZ 6000) :: map (fun _ => ObTick one) (seq 0 40))) in
  (flt (fdec 65 100) (nth 5 ys fzero) && flt (nth 5 ys fzero) (fdec 66 100) && flt fzero (nth 0 ys fzero) && feq (last ys fzero) one)%bool = true.
Proof. vm_compute. reflexivity. Qed.

(** C73: from a NaN sample on every output is a NaN, whatever is set and played, until [reset]. *)
Theorem C73_nan_sticks : forall L s x os, dtanh_nan L -> is_nan x = true -> Forall ob_no_reset os -> Forall (fun y => is_nan y = true) (snd (mg_run (ob_call L) s (ObTick x :: os))).
Proof. exact ob_nan. Qed.
Print Assumptions C73_nan_sticks.
(** C73: [reset] restores the bounds of C72 whatever the samples before it were. *)
Theorem C73_reset_recovers : forall L sr pre os, dtanh_unit L -> dtan_acc L -> mg_rate sr -> 8000 <= B2R sr -> Forall (ob_sane (2499 / 10000) sr) pre -> Forall (ob_good (2499 / 10000) sr) os ->
  let s := fst (mg_run (ob_call L) (ob_init L sr) pre) in Forall (fun y => fin y /\ -1 <= B2R y <= 1) (snd (mg_run (ob_call L) s (ObReset :: os))).
Proof.
  intros L sr pre os H1 H2 Hs H8 Kp Ko s. pose proof (ob_low L sr pre os H1 H2 Hs H8 Kp Ko) as T. cbv zeta in T. fold s in T. cbn [mg_run ob_call]. destruct (mg_run (ob_call L) (ob_reset s) os). exact T.
Qed.
Print Assumptions C73_reset_recovers.
Definition upset : list ob_op := [ObTick one; ObTick B754_nan; ObCut (fofZ 500); ObTick one; ObReset; ObTick one].
Example ex_C73 : map (fun y : f32 => is_nan y) (snd (mg_run (ob_call poly_libm) (ob_init poly_libm (fofZ 48000)) upset)) = [false; true; true; false].
Proof. vm_compute. reflexivity. Qed.
Example ex_C73_hyp : dtanh_nan exact_libm /\ Forall (ob_sane (2499 / 10000) (fofZ 48000)) (firstn 4 upset).
Proof.
  split; [exact exact_dtanh_nan|]. unfold upset. cbn [firstn]. fval (fofZ 48000 : f32). fval (fofZ 500 : f32). set (s := fofZ 48000 : f32) in *. set (c := fofZ 500 : f32) in *. repeat (apply Forall_cons; [cbn [ob_sane ob_good]; first [exact Logic.I|unfold mg_cut; split; [ffin|lra]]|]); apply Forall_nil.
Qed.

(** C74: cutoffs above half the sample rate are accepted and the filter runs away.  At 48 kHz and 28.8 kHz the prewarping takes the tangent of 0.6 pi, which is about -3.078; with a library whose tangent is that accurate there, one sample of 1 and silence after it, the output passes 10^9 within 40 samples. *)
Definition over_libm : libm := {|
  m_exp := fun x => x; m_sin := fun x => x; m_cos := fun x => x; m_tan := fun x => x; m_tanh := fun x => x; m_log := fun x => x; m_atan := fun x => x; m_pow := fun x _ => x;
  d_exp := fun x => x; d_sin := fun x => x; d_cos := fun x => x; d_tan := fun x => if fle (dz 1) x then ddec (-30777) 10000 else x; d_tanh := poly_tanh; d_pow := fun x _ => x |}.
Theorem C74_above_nyquist_refuted : exists L sr c os, dtanh_unit L /\ (forall w : f64, 18849 / 10000 <= B2R w <= 18850 / 10000 -> Rabs (B2R (d_tan L w) - tan (B2R w)) <= / 50) /\ mg_rate sr /\ fin c /\ B2R sr / 2 < B2R c < B2R sr /\ Forall (ob_good 1 sr) os /\
  Exists (fun y : f32 => 1000000000 <= Rabs (B2R y)) (snd (mg_run (ob_call L) (ob_init L sr) (ObCut c :: os))).
Proof.
  exists over_libm, (fofZ 48000), (fofZ 28800), (ObTick one :: map (fun _ => ObTick fzero) (seq 0 39)). fval (fofZ 48000 : f32). fval (fofZ 28800 : f32).
  split; [|split; [|split; [split; [ffin|set (s := fofZ 48000 : f32) in *; lra]|split; [ffin|split; [set (s := fofZ 48000 : f32) in *; set (c := fofZ 28800 : f32) in *; lra|split; [repeat constructor|]]]]]].
  - intros x N. change (d_tanh over_libm x) with (poly_tanh x). unfold poly_tanh. rewrite N. fval (dz 1). assert (F1 : fin (dz 1)) by ffin.
    destruct (flt x (fneg (dz 1))) eqn:A; [split; [ffin|rewrite fneg_R; lra]|]. destruct (flt (dz 1) x) eqn:B; [split; [ffin|lra]|].
    destruct (FltKey.nan_cases x N) as [F|[s ->]]; [|destruct s; discriminate]. split; [exact F|]. apply (proj1 (flt_R_false _ _ F (fneg_fin _ F1))) in A. apply (proj1 (flt_R_false _ _ F1 F)) in B. rewrite fneg_R in A. lra.
  - intros w Hw. change (d_tan over_libm w) with (if fle (dz 1) w then ddec (-30777) 10000 else w). fval (dz 1). assert (Fw : fin w) by (destruct w; try reflexivity; cbn in Hw; lra).
    rewrite (proj2 (fle_R (dz 1) w ltac:(ffin) Fw)) by lra. fval (ddec (-30777) 10000). pose proof (tan06 _ Hw). apply Rabs_le. lra.
  - match goal with |- Exists _ ?l => set (ys := l) end. assert (E : In (last ys fzero) ys) by (vm_compute; auto 60). apply Exists_exists. exists (last ys fzero). split; [exact E|].
    fval (last ys fzero). set (y := last ys fzero) in *. clearbody y. clear ys E. unfold Rabs. destruct (Rcase_abs _); lra.
Qed.
Print Assumptions C74_above_nyquist_refuted.
