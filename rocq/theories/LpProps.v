(** Properties of RLPF: C49, C69, C70. *)
From Coq Require Import ZArith Reals Lra Lia Bool List.
From Flocq Require Import Core BinarySingleNaN.
From Verif Require Import Flt FltFacts Libm LibmInst UtilModel UtilProofs LpModel LpSpec LpReal2 LpProofs LpProofs2 LpInst.
Import ListNotations.
Local Open Scope R_scope.

(** C49: whatever happened before, after [reset] inputs bounded by m give finite outputs bounded by (2 Q + 11) m. *)
Theorem C49_bounded : forall L sr os xs m, sincos_acc L -> lp_rate sr -> 889 <= B2R sr ->
  (forall o, In o os -> match o with LpFreq f => is_nan f = false | LpRes r => is_nan r = false | _ => True end) ->
  bpow radix2 (-149) <= m <= bpow radix2 120 -> (forall x, In x xs -> fin x /\ Rabs (B2R x) <= m) ->
  let s := lp_run L (lp_init L sr) (os ++ [LpReset]) in
  / 10 <= B2R (lp_res s) <= 30 /\ forall y, In y (lp_ticks s xs) -> fin y /\ Rabs (B2R y) <= (2 * B2R (lp_res s) + 11) * m.
Proof.
  intros L sr os xs m HL Hr H8 Ho Hm Hx s. destruct (init_ok L sr Hr H8) as (A & B & _).
  assert (Oo : Forall lp_op_ok (os ++ [LpReset])) by (apply Forall_app; split; [apply Forall_forall; exact Ho|repeat constructor]).
  destruct (run_keeps L _ _ A B Oo) as (P & C & _). fold s in P, C.
  assert (Cl : lp_clear s) by (unfold s, lp_run; rewrite fold_left_app; split; reflexivity). destruct (clear_fin s Cl) as (F & Z1 & Z2).
  split; [apply P|]. intros y Hy. pose proof (ticks_bounded L HL s m 0 xs P C F Z1 Z2 Hm) as T. rewrite Rmult_0_r, Rplus_0_r in T.
  assert (Z : 0 <= 0 <= bpow radix2 80) by (split; [lra|apply bpow_ge_0]). specialize (T Z ltac:(apply Forall_forall; exact Hx)). rewrite Forall_forall in T. exact (T y Hy).
Qed.
Print Assumptions C49_bounded.

(** C49: from any finite memory, too, the outputs stay finite. *)
Theorem C49_bounded_any_memory : forall L s xs m z, sincos_acc L -> lp_params s -> lp_current L s -> fin (lp_z1 s) -> fin (lp_z2 s) -> Rabs (B2R (lp_z1 s)) <= z -> Rabs (B2R (lp_z2 s)) <= z -> z <= bpow radix2 80 ->
  bpow radix2 (-149) <= m <= bpow radix2 120 -> (forall x, In x xs -> fin x /\ Rabs (B2R x) <= m) ->
  forall y, In y (lp_ticks s xs) -> fin y /\ Rabs (B2R y) <= (2 * B2R (lp_res s) + 11) * m + bpow radix2 42 * z.
Proof.
  intros L s xs m z HL P C F1 F2 Z1 Z2 Hz Hm Hx y Hy. assert (Zp : 0 <= z <= bpow radix2 80) by (pose proof (Rabs_pos (B2R (lp_z1 s))); lra).
  pose proof (ticks_bounded L HL s m z xs P C (conj F1 F2) Z1 Z2 Hm Zp ltac:(apply Forall_forall; exact Hx)) as T. rewrite Forall_forall in T. exact (T y Hy).
Qed.
Print Assumptions C49_bounded_any_memory.

(** C49: a constant input is reproduced: unit gain at 0 Hz. *)
Theorem C49_settles : forall L s v, sincos_acc L -> lp_params s -> lp_current L s -> fin (lp_z1 s) -> fin (lp_z2 s) -> Rabs (B2R (lp_z1 s)) <= bpow radix2 80 -> Rabs (B2R (lp_z2 s)) <= bpow radix2 80 -> fin v -> Rabs (B2R v) <= bpow radix2 120 ->
  exists k, forall n, (k <= n)%nat -> fin (snd (lp_tick (lp_hold s v n) v)) /\
    let r := B2R (lp_sr s) / B2R (lp_freq s) in
    Rabs (B2R (snd (lp_tick (lp_hold s v n) v)) - B2R v) <= (bpow radix2 (-21) + bpow radix2 (-36) * (r * r)) * Rabs (B2R v) + bpow radix2 (-149).
Proof. intros L s v HL P C F1 F2. exact (settles_f L s v HL P C (conj F1 F2)). Qed.
Print Assumptions C49_settles.

(** C49 is false of rates below 880 Hz before the first [setFreq]: the product of the two poles exceeds one ... *)
Theorem C49_low_rate_refuted : forall L sr, sincos_acc L -> fin sr -> 445 <= B2R sr <= 879 ->
  fin (lp_a2 (lp_c (lp_init L sr))) /\ 1001 / 1000 < B2R (lp_a2 (lp_c (lp_init L sr))).
Proof. exact low_rate_unstable. Qed.
Print Assumptions C49_low_rate_refuted.
(** ... and a single 1 at the input already overflows the output; [setFreq] with any number repairs the filter. *)
Theorem C49_low_rate_overflow_refuted : exists y, In y (lp_ticks (lp_init slow_trig (fofZ 600)) (one :: repeat fzero 120)) /\ is_finite y = false.
Proof. exists (nth 120 (lp_ticks (lp_init slow_trig (fofZ 600)) (one :: repeat fzero 120)) one). split; [apply nth_In; vm_compute; lia|vm_compute; reflexivity]. Qed.
Print Assumptions C49_low_rate_overflow_refuted.
Theorem C49_low_rate_repaired : forall L sr f, lp_rate sr -> is_nan f = false -> lp_params (lp_setFreq L (lp_init L sr) f) /\ lp_current L (lp_setFreq L (lp_init L sr) f).
Proof. exact init_freq_ok. Qed.
Print Assumptions C49_low_rate_repaired.

Example ex_C49_rate : lp_params (lp_init exact_libm (fofZ 48000)) /\ lp_current exact_libm (lp_init exact_libm (fofZ 48000)).
Proof. destruct (init_ok exact_libm (fofZ 48000)) as (A & B & _); [split; [reflexivity|]; fval (fofZ 48000 : f32); lra|fval (fofZ 48000 : f32); lra|auto]. Qed.
Example ex_C49_settles : let s := lp_setFreq quarter_trig (lp_init quarter_trig (fofZ 48000)) (fofZ 12000) in
  map (fun n => feq (snd (lp_tick (lp_hold s half n) half)) half) [0; 1; 60]%nat = [false; false; true].
Proof. vm_compute. reflexivity. Qed.
(** With Q = 30 the bound 2 Q + 11 is used: a tone at the cutoff comes out about 30 times as loud. *)
Example ex_C49_loud : let s := lp_setResonance quarter_trig (lp_setFreq quarter_trig (lp_init quarter_trig (fofZ 48000)) (fofZ 12000)) (fofZ 30) in
  existsb (fun y => flt (fofZ 25) y) (lp_ticks s (concat (repeat [one; fzero; fneg one; fzero] 60))) = true.
Proof. vm_compute. reflexivity. Qed.

(** C69: after any calls the cutoff, Q and coefficients are in range and belong together. *)
Theorem C69_parameters : forall L sr os, lp_rate sr -> 889 <= B2R sr ->
  (forall o, In o os -> match o with LpFreq f => is_nan f = false | LpRes r => is_nan r = false | _ => True end) ->
  let s := lp_run L (lp_init L sr) os in
  lp_sr s = sr /\ fin (lp_freq s) /\ 1 <= B2R (lp_freq s) <= 4951 / 10000 * B2R sr /\ fin (lp_res s) /\ / 10 <= B2R (lp_res s) <= 30 /\
  lp_c s = lp_coeffs L sr (lp_freq s) (lp_res s).
Proof.
  intros L sr os Hr H8 Ho s. destruct (init_ok L sr Hr H8) as (A & B & _). destruct (run_keeps L os _ A B ltac:(apply Forall_forall; exact Ho)) as (P & C & E). fold s in P, C, E. change (lp_sr (lp_init L sr)) with sr in E.
  destruct P as (_ & P1 & P2 & P3 & P4). unfold lp_current in C. rewrite E in P2, C. auto 8.
Qed.
Print Assumptions C69_parameters.
(** A value in range is taken over exactly. *)
Theorem C69_freq_kept : forall L s f, flt f one = false -> flt (fmul (fmul (lp_sr s) half) (fdec 99 100)) f = false -> lp_freq (lp_setFreq L s f) = f /\ lp_res (lp_setFreq L s f) = lp_res s /\ lp_z1 (lp_setFreq L s f) = lp_z1 s /\ lp_z2 (lp_setFreq L s f) = lp_z2 s.
Proof. intros L s f A B. unfold lp_setFreq. cbn [lp_freq lp_res lp_z1 lp_z2]. rewrite A, B. auto. Qed.
Print Assumptions C69_freq_kept.
Theorem C69_res_kept : forall L s r, flt r (fdec 1 10) = false -> flt (fofZ 30) r = false -> lp_res (lp_setResonance L s r) = r /\ lp_freq (lp_setResonance L s r) = lp_freq s /\ lp_z1 (lp_setResonance L s r) = lp_z1 s /\ lp_z2 (lp_setResonance L s r) = lp_z2 s.
Proof. intros L s r A B. unfold lp_setResonance. cbn [lp_freq lp_res lp_z1 lp_z2]. rewrite A, B. auto. Qed.
Print Assumptions C69_res_kept.
(** The order of the two setters does not matter. *)
Theorem C69_setters_commute : forall L s f r, lp_setResonance L (lp_setFreq L s f) r = lp_setFreq L (lp_setResonance L s r) f.
Proof. reflexivity. Qed.
Print Assumptions C69_setters_commute.
(** NaN passes both clamps. *)
Theorem C69_nan_refuted : forall L s, lp_freq (lp_setFreq L s B754_nan) = B754_nan /\ lp_res (lp_setResonance L s B754_nan) = B754_nan.
Proof. intros L s. unfold lp_setFreq, lp_setResonance. cbn [lp_freq lp_res]. split; [|reflexivity]. destruct (fmul (fmul (lp_sr s) half) (fdec 99 100)); reflexivity. Qed.
Print Assumptions C69_nan_refuted.
Example ex_C69 : let s := lp_run quarter_trig (lp_init quarter_trig (fofZ 48000)) [LpFreq (B754_infinity false); LpTick one; LpRes (fofZ (-3)); LpReset; LpRes (fofZ 99)] in
  (feq (lp_freq s) (fofZ 23760), feq (lp_res s) (fofZ 30)) = (true, true).
Proof. vm_compute. reflexivity. Qed.

(** C70: a NaN sample makes every later output NaN until [reset]; setting parameters does not help. *)
Theorem C70_nan_sticks : forall L s x os y, is_nan x = true -> ~ In LpReset os ->
  is_nan (snd (lp_tick s x)) = true /\ is_nan (snd (lp_tick (lp_run L (fst (lp_tick s x)) os) y)) = true.
Proof.
  intros L s x os y N R. assert (H : is_nan (lp_out s x) = true) by (apply dadd_l, dmul_r, Dbl.f2d_nan, N). destruct (tick_nan s x H) as [A B]. split; [exact A|].
  pose proof (nan_stays L os _ B R) as C. apply tick_nan. apply dadd_r. exact C.
Qed.
Print Assumptions C70_nan_sticks.
(** So does a NaN cutoff that was in force for one sample. *)
Theorem C70_nan_freq_sticks : forall L s x os y, (forall w, is_nan w = true -> is_nan (d_sin L w) = true /\ is_nan (d_cos L w) = true) -> ~ In LpReset os ->
  let t := lp_setFreq L s B754_nan in is_nan (snd (lp_tick t x)) = true /\ is_nan (snd (lp_tick (lp_run L (fst (lp_tick t x)) os) y)) = true.
Proof.
  intros L s x os y HN R t. assert (H : is_nan (lp_out t x) = true).
  { apply dadd_l, dmul_l. assert (Ef : lp_freq t = B754_nan) by apply (C69_nan_refuted L s). change (lp_c t) with (lp_coeffs L (lp_sr s) (lp_freq t) (lp_res s)). rewrite Ef. unfold lp_coeffs. cbn [lp_b0].
    apply ddiv_l, ddiv_l, dsub_r. apply HN. unfold lp_omega. apply ddiv_l, dmul_r. reflexivity. }
  destruct (tick_nan t x H) as [A B]. split; [exact A|]. pose proof (nan_stays L os _ B R) as C. apply tick_nan. apply dadd_r. exact C.
Qed.
Print Assumptions C70_nan_freq_sticks.
(** [reset] leaves nothing of the history but the two settings: the filter equals a new one given these. *)
Theorem C70_reset_fresh : forall L sr os, lp_rate sr -> 889 <= B2R sr ->
  (forall o, In o os -> match o with LpFreq f => is_nan f = false | LpRes r => is_nan r = false | _ => True end) ->
  let s := lp_run L (lp_init L sr) os in lp_reset s = lp_setResonance L (lp_setFreq L (lp_init L sr) (lp_freq s)) (lp_res s).
Proof. intros L sr os Hr H8 Ho. apply reset_fresh; [exact Hr|exact H8|apply Forall_forall; exact Ho]. Qed.
Print Assumptions C70_reset_fresh.
Example ex_C70 : let s := lp_setFreq quarter_trig (lp_init quarter_trig (fofZ 48000)) (fofZ 12000) in
  map is_nan (lp_ticks s [one; B754_nan; one; fzero]) = [false; true; true; true] /\ map is_nan (lp_ticks (lp_reset (fst (lp_tick s B754_nan))) [one; fzero]) = [false; false].
Proof. vm_compute. split; reflexivity. Qed.
