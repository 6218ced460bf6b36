(** ExampleVoice: pitch, shared random sequence, reset, non-finite frequencies. *)
From Coq Require Import ZArith Reals Bool List Lra Lia.
From Flocq Require Import Core BinarySingleNaN.
From Verif Require Import Flt FltFacts FltMore FltKey FltArith Libm UtilModel UtilProofs FltClose FltRel Ln2
  OscModel OscSpec OscProofs OscProofs3 EnvModel EnvSpec EnvProofs PanModel PanProofs VcModel VcSpec VcProofs.
Import ListNotations.
Local Open Scope R_scope.

(** ** Pitch *)
Lemma tick_pitch L v : pitch (fst (ev_tick L v)) =
  if flt zero (ev_depth v) then fmul (ev_base v) (fadd one (fmul (fmul (snd (ln_tick (ev_vib v))) (ev_depth v)) LN2_12)) else pitch v.
Proof.
  unfold ev_tick, ev_vibrato, pitch. destruct (flt zero (ev_depth v)).
  - destruct (ln_tick (ev_vib v)) as [vib m]. unfold so_tick. destruct (ar_tick (ev_env v)). destruct (ln_tick (ev_pan v)). reflexivity.
  - unfold so_tick. destruct (ar_tick (ev_env v)). destruct (ln_tick (ev_pan v)). reflexivity.
Qed.
Lemma tick_depth L v : ev_depth (fst (ev_tick L v)) = ev_depth v /\ ev_base (fst (ev_tick L v)) = ev_base v.
Proof.
  unfold ev_tick, ev_vibrato. destruct (flt zero (ev_depth v)).
  - destruct (ln_tick (ev_vib v)) as [vib m]. unfold so_tick. destruct (ar_tick (ev_env v)). destruct (ln_tick (ev_pan v)). auto.
  - unfold so_tick. destruct (ar_tick (ev_env v)). destruct (ln_tick (ev_pan v)). auto.
Qed.
Lemma LN2_close : Rabs (B2R LN2_12 - ln 2 / 12) <= 0.00000002 /\ 0.05776 <= B2R LN2_12 <= 0.05777.
Proof. pose proof ln_2. fval LN2_12. split; [apply Rabs_le; lra|lra]. Qed.
Lemma ratio_close (m d : f32) : fin m -> -1 <= B2R m <= 1 -> fin d -> 0 < B2R d <= 1 ->
  cl 0.0000001 (fadd one (fmul (fmul m d) LN2_12)) (1 + B2R m * B2R d * (ln 2 / 12)).
Proof.
  intros Fm Bm Fd Bd. destruct LN2_close as [E B].
  assert (C1 := cl_mul 0 0 0 1 1 m d _ _ ltac:(lia) (cl_self m Fm) (cl_self d Fd) ltac:(apply Rabs_le; lra) ltac:(apply Rabs_le; lra) ltac:(cbn; lra)).
  assert (FL : fin LN2_12) by ffin.
  assert (C0 : cl 0.00000002 LN2_12 (ln 2 / 12)) by (split; assumption).
  change (bpow radix2 (0 - 25)) with (/ 33554432) in C1.
  assert (M : Rabs (B2R m * B2R d) <= 1). { rewrite Rabs_mult. pose proof (unit_abs _ Bm). pose proof (Rabs_pos (B2R m)). rewrite (Rabs_pos_eq (B2R d)) by lra. nra. }
  assert (C1' : cl 0.00000003 (fmul m d) (B2R m * B2R d)) by (apply cl_weak with (1 := C1); lra).
  pose proof ln_2 as L2.
  assert (C2 := cl_mul (-4) _ _ 1 0.0578 _ _ _ _ ltac:(lia) C1' C0 M ltac:(apply Rabs_le; lra) ltac:(change (bpow radix2 (-4)) with (/ 16); lra)).
  change (bpow radix2 (-4 - 25)) with (/ 536870912) in C2.
  assert (C2' : cl 0.00000003 (fmul (fmul m d) LN2_12) (B2R m * B2R d * (ln 2 / 12))) by (apply cl_weak with (1 := C2); lra).
  assert (M2 : Rabs (B2R m * B2R d * (ln 2 / 12)) <= 0.06).
  { rewrite Rabs_mult, (Rabs_pos_eq (ln 2 / 12)) by lra. pose proof (Rabs_pos (B2R m * B2R d)). nra. }
  assert (C3 := cl_add 1 _ _ _ _ _ _ ltac:(lia) (cl_self one one_fin) C2'). rewrite one_R in C3.
  apply cl_weak with (0 + 0.00000003 + bpow radix2 (1 - 25)); [apply C3|change (bpow radix2 (1 - 25)) with (/ 16777216); lra].
  change (bpow radix2 1) with 2. pose proof (Rabs_triang 1 (B2R m * B2R d * (ln 2 / 12))). rewrite Rabs_R1 in H. lra.
Qed.
(** A positive depth up to one semitone: the pitch follows base * 2^(m*d/12), at most 0.22% flat and a millionth sharp. *)
Lemma vib_close (f m d : f32) : fin m -> -1 <= B2R m <= 1 -> fin d -> 0 < B2R d <= 1 -> fin f -> bpow radix2 (-60) <= B2R f <= bpow radix2 60 ->
  let p := fmul f (fadd one (fmul (fmul m d) LN2_12)) in
  let ideal := B2R f * Rpower 2 (B2R m * B2R d / 12) in
  fin p /\ (1 - 0.0022) * ideal <= B2R p <= (1 + 0.000001) * ideal.
Proof.
  intros Fm Bm Fd Bd Ff Bf p ideal. pose proof (ratio_close m d Fm Bm Fd Bd) as C. pose proof ln_2 as L2.
  set (x := B2R m * B2R d * (ln 2 / 12)) in *.
  assert (X : Rabs x <= 0.0578).
  { unfold x. rewrite !Rabs_mult, (Rabs_pos_eq (ln 2 / 12)), (Rabs_pos_eq (B2R d)) by lra. pose proof (unit_abs _ Bm). pose proof (Rabs_pos (B2R m)).
    assert (Rabs (B2R m) * B2R d <= 1) by nra. assert (0 <= Rabs (B2R m) * B2R d) by (apply Rmult_le_pos; lra). nra. }
  destruct (exp_lin x ltac:(lra)) as [E1 E2].
  assert (EI : ideal = B2R f * exp x).
  { unfold ideal, Rpower, x. f_equal. f_equal. field. }
  destruct C as [Fr Er]. set (r := fadd one (fmul (fmul m d) LN2_12)) in *. clearbody r.
  assert (f0 : 0 < B2R f). { pose proof (bpow_gt_0 radix2 (-60)). lra. }
  apply Rabs_le_inv in Er. apply Rabs_le_inv in X.
  assert (R : rl 0.0000001 p (B2R f * B2R r)).
  { apply rl_mul with 0 0; try lra; try (apply rl_self; assumption); [|unfold ru; lra].
    unfold mid. rewrite Rabs_pos_eq by (apply Rmult_le_pos; lra). split.
    - apply Rle_trans with (bpow radix2 (-60) * / 2); [replace (bpow radix2 (-60) * / 2) with (bpow radix2 (-60 + -1)) by (rewrite bpow_plus; reflexivity); apply bpow_le; lia|].
      apply Rmult_le_compat; try lra. apply bpow_ge_0.
    - apply Rle_trans with (bpow radix2 60 * 2); [|replace (bpow radix2 60 * 2) with (bpow radix2 (60 + 1)) by (rewrite bpow_plus; reflexivity); apply bpow_le; lia].
      apply Rmult_le_compat; lra. }
  destruct R as [Fp Ep]. split; [exact Fp|]. rewrite (Rabs_pos_eq (B2R f * B2R r)) in Ep by (apply Rmult_le_pos; lra). apply Rabs_le_inv in Ep.
  rewrite EI. pose proof (exp_pos x) as P0.
  assert (G : 0.94 <= exp x) by lra.
  assert (B2R r <= (1 + 0.00000011) * exp x) by lra. assert ((1 - 0.00211) * exp x <= B2R r) by lra.
  assert (B2R f * B2R r <= B2R f * ((1 + 0.00000011) * exp x)) by (apply Rmult_le_compat_l; lra).
  assert (B2R f * ((1 - 0.00211) * exp x) <= B2R f * B2R r) by (apply Rmult_le_compat_l; lra).
  assert (0 < B2R f * exp x) by (apply Rmult_lt_0_compat; lra). split; lra.
Qed.
Lemma vib_pitch L sr ops : exp_unit L -> sin_unit L -> cos_unit L -> voice_rate sr -> Forall (ev_ok sr) ops ->
  let v := ev_after L sr ops in
  fin (ev_depth v) -> 0 < B2R (ev_depth v) <= 1 -> bpow radix2 (-60) <= B2R (ev_base v) ->
  exists m, -1 <= m <= 1 /\
  let p := pitch (fst (ev_tick L v)) in
  let ideal := B2R (ev_base v) * Rpower 2 (m * B2R (ev_depth v) / 12) in
  fin p /\ (1 - 0.0022) * ideal <= B2R p <= (1 + 0.000001) * ideal.
Proof.
  intros HE HS HC R H v Fd Bd Bf. pose proof (ev_after_inv L sr ops HE HS HC R H) as ((W & A & V & N) & ((Ff & Uf) & Hd) & _). fold v in V, Ff, Uf.
  destruct (ln_tick_inv sr _ V) as [_ [Fm Bm]]. exists (B2R (snd (ln_tick (ev_vib v)))). split; [exact Bm|]. cbv zeta.
  assert (D : flt zero (ev_depth v) = true) by (apply flt_R; [reflexivity|exact Fd|apply Bd]).
  rewrite tick_pitch, D. apply vib_close; try assumption. split; [exact Bf|]. apply Rle_trans with (bpow radix2 40); [|apply bpow_le; lia].
  apply abs_dn in Uf. apply Uf.
Qed.

(** ** Switching the vibrato off keeps the last modulated pitch. *)
Lemma keep_call L v o : keeps_pitch o -> flt zero (ev_depth v) = false ->
  flt zero (ev_depth (fst (ev_call L v o))) = false /\ pitch (fst (ev_call L v o)) = pitch v /\ ev_base (fst (ev_call L v o)) = ev_base v.
Proof.
  intros K D. destruct o; cbn [keeps_pitch] in K; try contradiction; try (cbn [ev_call fst]; auto; fail).
  - pose proof (tick_pitch L v) as P. pose proof (tick_depth L v) as [E F]. rewrite D in P. cbn [ev_call].
    destruct (ev_tick L v) as [v' y]. cbn [fst] in *. rewrite E. auto.
Qed.
Lemma keep_run L ops : Forall keeps_pitch ops -> forall v, flt zero (ev_depth v) = false ->
  pitch (fst (ev_run L v ops)) = pitch v /\ ev_base (fst (ev_run L v ops)) = ev_base v.
Proof.
  intros H. induction H as [|o t Ho Ht IH]; intros v D; [auto|]. rewrite ev_run_fst. destruct (keep_call L v o Ho D) as (A & B & C).
  destruct (IH _ A) as [P Q]. split; congruence.
Qed.
Lemma depth_off L v d ops : flt zero d = false -> Forall keeps_pitch ops ->
  pitch (fst (ev_run L v (EvDepth d :: ops))) = pitch v.
Proof. intros D K. rewrite ev_run_fst. destruct (keep_run L ops K (fst (ev_call L v (EvDepth d))) D) as [E _]. rewrite E. reflexivity. Qed.
Lemma freq_repairs L v f ops : flt zero (ev_depth v) = false -> Forall keeps_pitch ops ->
  pitch (fst (ev_run L v (EvFreq f :: ops))) = f.
Proof. intros D K. rewrite ev_run_fst. destruct (keep_run L ops K (fst (ev_call L v (EvFreq f))) D) as [E _]. rewrite E. reflexivity. Qed.

(** ** One random sequence for both modulators *)
Lemma draws_S n k : draws (S n) k = lcg (draws n k). Proof. reflexivity. Qed.
Lemma fill_points ph inc f sr k : at_points k 0 (ln_fill ph inc f sr k).
Proof. split; reflexivity. Qed.
Lemma setf_points k n s f : at_points k n s -> at_points k n (ln_setFrequency s f).
Proof. intros H. exact H. Qed.
Lemma tick_points k n s : at_points k n s -> exists n', at_points k n' (fst (ln_tick s)).
Proof.
  intros [E S]. unfold ln_tick. cbv zeta. cbn [fst]. destruct (fle one (fadd (ln_phase s) (ln_inc s))).
  - exists (Datatypes.S n). cbn [map Nat.add] in E. injection E as E0 E1 E2 E3. split; cbn [ln_p0 ln_p1 ln_p2 ln_p3 ln_seed map].
    + rewrite E1, E2, E3, S. reflexivity.
    + rewrite S. reflexivity.
  - exists n. split; assumption.
Qed.
Definition shared (v : voice) : Prop := (exists n, at_points seed0 n (ev_vib v)) /\ exists n, at_points seed0 n (ev_pan v).
Lemma shared_call L v o : shared v -> shared (fst (ev_call L v o)).
Proof.
  intros [[n V] [k P]]. destruct o; cbn [ev_call fst]; try (split; [exists n; exact V|exists k; exact P]).
  - split; exists 0%nat; apply setf_points, fill_points.
  - destruct (tick_points _ _ _ P) as [k' P']. unfold ev_tick, ev_vibrato. destruct (flt zero (ev_depth v)).
    + destruct (tick_points _ _ _ V) as [n' V']. destruct (ln_tick (ev_vib v)). unfold so_tick. destruct (ar_tick (ev_env v)). destruct (ln_tick (ev_pan v)).
      split; [exists n'; exact V'|exists k'; exact P'].
    + unfold so_tick. destruct (ar_tick (ev_env v)). destruct (ln_tick (ev_pan v)). split; [exists n; exact V|exists k'; exact P'].
  - split; exists 0%nat; apply fill_points.
Qed.
Lemma shared_run L ops : forall v, shared v -> shared (fst (ev_run L v ops)).
Proof. induction ops as [|o t IH]; intros v H; [exact H|]. rewrite ev_run_fst. now apply IH, shared_call. Qed.
Lemma shared_after L sr ops : shared (ev_after L sr ops).
Proof. apply shared_run. split; exists 0%nat; apply setf_points, fill_points. Qed.

Lemma lock_call L v o : keeps_vibrato o -> ev_vib v = ev_pan v -> flt zero (ev_depth v) = true ->
  ev_vib (fst (ev_call L v o)) = ev_pan (fst (ev_call L v o)) /\ flt zero (ev_depth (fst (ev_call L v o))) = true.
Proof.
  intros K E D. destruct o; cbn [keeps_vibrato] in K; try contradiction; cbn [ev_call fst]; try (split; [exact E|exact D]).
  - split; [exact E|exact K].
  - unfold ev_tick, ev_vibrato. rewrite D, E. destruct (ln_tick (ev_pan v)). unfold so_tick. destruct (ar_tick (ev_env v)). split; [reflexivity|exact D].
  - split; [|exact D]. cbn [ev_reset ev_vib ev_pan]. now rewrite E.
Qed.
Lemma lock_run L ops : Forall keeps_vibrato ops -> forall v, ev_vib v = ev_pan v -> flt zero (ev_depth v) = true ->
  ev_vib (fst (ev_run L v ops)) = ev_pan (fst (ev_run L v ops)) /\ flt zero (ev_depth (fst (ev_run L v ops))) = true.
Proof.
  intros H. induction H as [|o t Ho Ht IH]; intros v E D; [auto|]. rewrite ev_run_fst. destruct (lock_call L v o Ho E D) as [A B]. now apply IH.
Qed.
Lemma lockstep L sr ops : Forall keeps_vibrato ops ->
  let v := ev_after L sr (EvRate one :: ops) in
  exists m mono, pitch (fst (ev_tick L v)) = fmul (ev_base v) (fadd one (fmul (fmul m (ev_depth v)) LN2_12)) /\
    ev_next L v = pan2_process L mono (fmul m (ev_pdepth v)).
Proof.
  intros H v. destruct (lock_run L ops H (ev_setVibratoRate (ev_init L sr) one) eq_refl ltac:(vm_compute; reflexivity)) as [E D].
  assert (EV : v = fst (ev_run L (ev_setVibratoRate (ev_init L sr) one) ops)) by (unfold v, ev_after; rewrite ev_run_fst; reflexivity).
  rewrite <- EV in E, D. clear EV. clearbody v. exists (snd (ln_tick (ev_vib v))).
  rewrite tick_pitch, D. unfold ev_next, ev_tick. destruct (ev_vibrato v) as [vib osc]. rewrite E. destruct (so_tick L osc) as [o1 o].
  destruct (ar_tick (ev_env v)) as [e1 e]. exists (fmul (fmul o e) (ev_amp v)).
  destruct (ln_tick (ev_pan v)) as [p1 p]. auto.
Qed.

(** ** Reset *)
Definition same (v w : voice) : Prop :=
  ev_env v = ev_env w /\ ev_vib v = ev_vib w /\ ev_pan v = ev_pan w /\ ev_base v = ev_base w /\ ev_depth v = ev_depth w /\
  ev_pdepth v = ev_pdepth w /\ ev_amp v = ev_amp w /\
  so_phase (ev_osc v) = so_phase (ev_osc w) /\ so_sr (ev_osc v) = so_sr (ev_osc w) /\
  (flt zero (ev_depth v) = true \/ ev_osc v = ev_osc w).
Lemma same_osc_step (a b : sinosc) f : so_phase a = so_phase b -> so_sr a = so_sr b -> so_setFrequency a f = so_setFrequency b f.
Proof. intros P S. unfold so_setFrequency. now rewrite P, S. Qed.
Lemma same_tick L v w : same v w -> snd (ev_tick L v) = snd (ev_tick L w) /\ same (fst (ev_tick L v)) (fst (ev_tick L w)).
Proof.
  intros (E1 & E2 & E3 & E4 & E5 & E6 & E7 & P & S & D).
  assert (X : ev_vibrato v = ev_vibrato w).
  { unfold ev_vibrato. rewrite <- E5, <- E2, <- E4. destruct (flt zero (ev_depth v)).
    - destruct (ln_tick (ev_vib v)). now rewrite (same_osc_step _ _ _ P S).
    - destruct D as [D|D]; [discriminate|]. now rewrite D. }
  unfold ev_tick. rewrite X, E1, E3, E4, E5, E6, E7. destruct (ev_vibrato w) as [a b]. destruct (so_tick L b). destruct (ar_tick (ev_env w)). destruct (ln_tick (ev_pan w)).
  cbn [fst snd]. split; [reflexivity|]. unfold same. cbn [ev_osc ev_env ev_vib ev_pan ev_base ev_depth ev_pdepth ev_amp]. tauto.
Qed.
Lemma same_call L v w o : no_depth_off o -> same v w -> snd (ev_call L v o) = snd (ev_call L w o) /\ same (fst (ev_call L v o)) (fst (ev_call L w o)).
Proof.
  intros K H. pose proof H as (E1 & E2 & E3 & E4 & E5 & E6 & E7 & P & S & D).
  destruct o; cbn [no_depth_off] in K; cbn [ev_call].
  - split; [reflexivity|]. unfold same. tauto.
  - split; [reflexivity|]. unfold same, ev_setFrequency. cbn [fst ev_osc ev_env ev_vib ev_pan ev_base ev_depth ev_pdepth ev_amp].
    rewrite (same_osc_step _ _ f P S). tauto.
  - split; [reflexivity|]. unfold same, ev_setAttack, ev_with_env. cbn [fst ev_osc ev_env ev_vib ev_pan ev_base ev_depth ev_pdepth ev_amp]. rewrite E1. tauto.
  - split; [reflexivity|]. unfold same, ev_setRelease, ev_with_env. cbn [fst ev_osc ev_env ev_vib ev_pan ev_base ev_depth ev_pdepth ev_amp]. rewrite E1. tauto.
  - split; [reflexivity|]. unfold same, ev_setVibratoDepth. cbn [fst ev_osc ev_env ev_vib ev_pan ev_base ev_depth ev_pdepth ev_amp]. tauto.
  - split; [reflexivity|]. unfold same, ev_setVibratoRate. cbn [fst ev_osc ev_env ev_vib ev_pan ev_base ev_depth ev_pdepth ev_amp]. rewrite E2. tauto.
  - split; [reflexivity|]. unfold same, ev_setAmplitude. cbn [fst ev_osc ev_env ev_vib ev_pan ev_base ev_depth ev_pdepth ev_amp]. tauto.
  - split; [reflexivity|]. unfold same, ev_setPanDepth. cbn [fst ev_osc ev_env ev_vib ev_pan ev_base ev_depth ev_pdepth ev_amp]. tauto.
  - split; [reflexivity|]. unfold same, ev_trigger, ev_with_env. cbn [fst ev_osc ev_env ev_vib ev_pan ev_base ev_depth ev_pdepth ev_amp]. rewrite E1. tauto.
  - split; [reflexivity|]. unfold same, ev_release, ev_with_env. cbn [fst ev_osc ev_env ev_vib ev_pan ev_base ev_depth ev_pdepth ev_amp]. rewrite E1. tauto.
  - split; [reflexivity|]. unfold same, ev_setGate, ev_with_env. cbn [fst ev_osc ev_env ev_vib ev_pan ev_base ev_depth ev_pdepth ev_amp]. rewrite E1. tauto.
  - destruct (same_tick L v w H) as [A B]. destruct (ev_tick L v), (ev_tick L w). cbn [fst snd] in *. split; [now f_equal|exact B].
  - split; [reflexivity|]. unfold same, ev_reset, so_reset. cbn [fst ev_osc ev_env ev_vib ev_pan ev_base ev_depth ev_pdepth ev_amp so_phase so_sr]. rewrite E1, E2, E3.
    repeat (split; [first [reflexivity|assumption]|]). destruct D as [D|D]; [now left|right; now rewrite D].
Qed.
Lemma same_run L ops : Forall no_depth_off ops -> forall v w, same v w -> snd (ev_run L v ops) = snd (ev_run L w ops).
Proof.
  intros H. induction H as [|o t Ho Ht IH]; intros v w S; [reflexivity|]. cbn [ev_run]. destruct (same_call L v w o Ho S) as [A B].
  destruct (ev_call L v o) as [v1 r1]. destruct (ev_call L w o) as [w1 r2]. cbn [fst snd] in A, B. specialize (IH _ _ B).
  destruct (ev_run L v1 t), (ev_run L w1 t). cbn [snd] in *. now f_equal.
Qed.
(** What [reset] keeps. *)
Definition cfg (v w : voice) : Prop :=
  ar_reset (ev_env v) = ar_reset (ev_env w) /\ ln_reset (ev_vib v) seed0 = ln_reset (ev_vib w) seed0 /\ ln_reset (ev_pan v) seed0 = ln_reset (ev_pan w) seed0 /\
  ev_base v = ev_base w /\ ev_depth v = ev_depth w /\ ev_pdepth v = ev_pdepth w /\ ev_amp v = ev_amp w /\
  so_sr (ev_osc v) = so_sr (ev_osc w) /\ (flt zero (ev_depth v) = true \/ so_reset (ev_osc v) zero = so_reset (ev_osc w) zero).
Lemma ar_reset_tick e : ar_reset (fst (ar_tick e)) = ar_reset e.
Proof. unfold ar_tick. cbv zeta. cbn [fst]. destruct (ar_state e); [reflexivity|destruct (fle c999 _); reflexivity|destruct (fle _ c0001); reflexivity]. Qed.
Lemma ar_reset_gate e b : ar_reset (ar_setGate e b) = ar_reset e.
Proof. unfold ar_setGate. destruct (b && negb (ar_gate e)); [reflexivity|]. destruct (negb b && ar_gate e); reflexivity. Qed.
Lemma ln_reset_tick s k : ln_reset (fst (ln_tick s)) k = ln_reset s k.
Proof. unfold ln_tick. cbv zeta. cbn [fst]. destruct (fle one _); reflexivity. Qed.
Lemma so_reset_tick L s : so_reset (fst (so_tick L s)) zero = so_reset s zero. Proof. reflexivity. Qed.
Lemma cfg_call L v w o : playing o -> cfg v w -> cfg (fst (ev_call L v o)) w.
Proof.
  intros K H. pose proof H as (E1 & E2 & E3 & E4 & E5 & E6 & E7 & S & D).
  destruct o; cbn [playing] in K; try contradiction; cbn [ev_call fst]; try exact H.
  - unfold cfg, ev_setGate, ev_with_env. cbn [ev_osc ev_env ev_vib ev_pan ev_base ev_depth ev_pdepth ev_amp]. rewrite ar_reset_gate. exact H.
  - unfold ev_tick, ev_vibrato. pose proof (ar_reset_tick (ev_env v)) as T1. pose proof (ln_reset_tick (ev_pan v) seed0) as T2. pose proof (ln_reset_tick (ev_vib v) seed0) as T3.
    destruct (flt zero (ev_depth v)) eqn:Q.
    + destruct (ln_tick (ev_vib v)). unfold so_tick. destruct (ar_tick (ev_env v)). destruct (ln_tick (ev_pan v)). cbn [fst] in *.
      unfold cfg. cbn [ev_osc ev_env ev_vib ev_pan ev_base ev_depth ev_pdepth ev_amp so_setFrequency so_sr]. rewrite T1, T2, T3. tauto.
    + unfold so_tick. destruct (ar_tick (ev_env v)). destruct (ln_tick (ev_pan v)). cbn [fst] in *.
      unfold cfg. cbn [ev_osc ev_env ev_vib ev_pan ev_base ev_depth ev_pdepth ev_amp so_sr so_reset so_inc so_freq]. rewrite T1, T2, Q. tauto.
Qed.
Lemma cfg_run L ops w : Forall playing ops -> forall v, cfg v w -> cfg (fst (ev_run L v ops)) w.
Proof. intros H. induction H as [|o t Ho Ht IH]; intros v C; [exact C|]. rewrite ev_run_fst. now apply IH, cfg_call. Qed.
Lemma cfg_same v w : cfg v w -> ev_reset w = w -> same (ev_reset v) w.
Proof.
  intros (E1 & E2 & E3 & E4 & E5 & E6 & E7 & S & D) R. rewrite <- R. unfold same, ev_reset. cbn [ev_osc ev_env ev_vib ev_pan ev_base ev_depth ev_pdepth ev_amp so_reset so_phase so_sr]. tauto.
Qed.
Lemma fresh_init L sr : ev_reset (ev_init L sr) = ev_init L sr. Proof. reflexivity. Qed.
Ltac voices := match goal with H : Voice _ _ _ _ _ _ _ _ _ = Voice _ _ _ _ _ _ _ _ _ |- _ => injection H; clear H; intros end.
Lemma fresh_setting L v o : setting o -> ev_reset v = v -> ev_reset (fst (ev_call L v o)) = fst (ev_call L v o).
Proof.
  intros K R. destruct v as [osc env vib pan b d pd am sr]. unfold ev_reset in R. cbn [ev_osc ev_env ev_vib ev_pan ev_base ev_depth ev_pdepth ev_amp ev_sr] in R.
  voices. destruct o; cbn [setting] in K; try contradiction; cbn [ev_call fst]; unfold ev_setFrequency, ev_setAttack, ev_setRelease, ev_with_env, ev_setVibratoDepth, ev_setVibratoRate, ev_setAmplitude, ev_setPanDepth, ev_reset;
    cbn [ev_osc ev_env ev_vib ev_pan ev_base ev_depth ev_pdepth ev_amp ev_sr]; f_equal; try assumption.
  - destruct osc as [ph i fr s]. unfold so_reset, so_setFrequency in *. cbn in *. congruence.
  - destruct env as [e0 e1 e2 e3 e4 e5 e6 e7]. unfold ar_reset, ar_with, ar_setAttack in *. cbn [ar_value ar_ac ar_rc ar_at ar_rt ar_sr ar_state ar_gate] in *. congruence.
  - destruct env as [e0 e1 e2 e3 e4 e5 e6 e7]. unfold ar_reset, ar_with, ar_setRelease in *. cbn [ar_value ar_ac ar_rc ar_at ar_rt ar_sr ar_state ar_gate] in *. congruence.
  - destruct vib as [n0 n1 n2 n3 n4 n5 n6 n7 n8]. unfold ln_reset, ln_fill, ln_setFrequency in *. cbn [ln_p0 ln_p1 ln_p2 ln_p3 ln_phase ln_inc ln_freq ln_sr ln_seed] in *. congruence.
Qed.
Lemma fresh_run L ops : Forall setting ops -> forall v, ev_reset v = v -> ev_reset (fst (ev_run L v ops)) = fst (ev_run L v ops).
Proof. intros H. induction H as [|o t Ho Ht IH]; intros v C; [exact C|]. rewrite ev_run_fst. now apply IH, fresh_setting. Qed.
Lemma ev_run_app L a b : forall v, fst (ev_run L v (a ++ b)) = fst (ev_run L (fst (ev_run L v a)) b).
Proof. induction a as [|o t IH]; intros v; [reflexivity|]. rewrite <- app_comm_cons, !ev_run_fst. apply IH. Qed.
Lemma reset_replay L sr setup played rest : Forall setting setup -> Forall playing played -> Forall no_depth_off rest ->
  ev_samples L (ev_after L sr (setup ++ played ++ [EvReset])) rest = ev_samples L (ev_after L sr setup) rest.
Proof.
  intros A B C. unfold ev_samples. f_equal. apply same_run; [exact C|]. unfold ev_after. rewrite !ev_run_app.
  set (w := fst (ev_run L (ev_init L sr) setup)). change (fst (ev_run L ?v [EvReset])) with (ev_reset v).
  apply cfg_same; [|apply fresh_run; [exact A|apply fresh_init]].
  apply cfg_run; [exact B|]. unfold cfg. tauto.
Qed.

(** ** A frequency that is not a number poisons the voice. *)
Definition bad (x : f32) : Prop := is_finite x = false.
Lemma bad_add (x y : f32) : bad y \/ bad x -> bad (fadd x y).
Proof. unfold bad. destruct x as [[]|[]| |], y as [[]|[]| |]; intros [H|H]; try discriminate H; reflexivity. Qed.
Lemma bad_sub (x y : f32) : bad x -> bad (fsub x y).
Proof. unfold bad. destruct x as [[]|[]| |], y as [[]|[]| |]; intros H; try discriminate H; reflexivity. Qed.
Lemma bad_mul (x y : f32) : bad y \/ bad x -> bad (fmul x y).
Proof. unfold bad. destruct x as [[]|[]| |[]], y as [[]|[]| |[]]; intros [H|H]; try discriminate H; reflexivity. Qed.
Lemma bad_div (x y : f32) : bad x -> bad (fdiv x y).
Proof. unfold bad. destruct x as [[]|[]| |[]], y as [[]|[]| |[]]; intros H; try discriminate H; reflexivity. Qed.
Lemma nan_mul (x y : f32) : is_nan x = true -> is_nan (fmul x y) = true.
Proof. destruct x; try discriminate. intros _. destruct y; reflexivity. Qed.
Lemma bad_phase L s : bad (so_phase s) \/ bad (so_inc s) -> bad (so_phase (fst (so_tick L s))).
Proof.
  intros H. unfold so_tick. cbn [fst so_phase]. assert (A : bad (fadd (so_phase s) (so_inc s))) by (apply bad_add; tauto).
  destruct (fle TWO_PI _); [now apply bad_sub|exact A].
Qed.
Lemma tick_osc L v : ev_osc (fst (ev_tick L v)) = fst (so_tick L (snd (ev_vibrato v))).
Proof. unfold ev_tick. destruct (ev_vibrato v) as [a b]. cbn [snd]. destruct (so_tick L b). destruct (ar_tick (ev_env v)). destruct (ln_tick (ev_pan v)). reflexivity. Qed.
Lemma vib_phase v : so_phase (snd (ev_vibrato v)) = so_phase (ev_osc v).
Proof. unfold ev_vibrato. destruct (flt zero (ev_depth v)); [|reflexivity]. destruct (ln_tick (ev_vib v)). reflexivity. Qed.
Lemma tick_nan L v : sin_bad L -> bad (so_phase (ev_osc v)) -> both_nan (snd (ev_tick L v)) /\ bad (so_phase (ev_osc (fst (ev_tick L v)))).
Proof.
  intros HS B. split; [|rewrite tick_osc; apply bad_phase; left; now rewrite vib_phase].
  rewrite <- vib_phase in B. unfold ev_tick. destruct (ev_vibrato v) as [a b]. cbn [snd] in B. unfold so_tick.
  destruct (ar_tick (ev_env v)). destruct (ln_tick (ev_pan v)). cbn [snd]. unfold pan2_process, both_nan. cbn [fst snd].
  pose proof (HS _ B) as N. split; now repeat apply nan_mul.
Qed.
Lemma bad_call L v o : no_restart o -> bad (so_phase (ev_osc v)) -> bad (so_phase (ev_osc (fst (ev_call L v o)))).
Proof.
  intros K B. destruct o; cbn [no_restart] in K; try contradiction; try exact B. cbn [ev_call].
  assert (T : bad (so_phase (ev_osc (fst (ev_tick L v))))) by (rewrite tick_osc; apply bad_phase; left; now rewrite vib_phase).
  destruct (ev_tick L v). exact T.
Qed.
Lemma nan_run L ops : sin_bad L -> Forall no_restart ops -> forall v, bad (so_phase (ev_osc v)) -> Forall both_nan (ev_samples L v ops).
Proof.
  intros HS H. induction H as [|o t Ho Ht IH]; intros v B; [constructor|].
  assert (X : forall y, snd (ev_call L v o) = Some y -> both_nan y).
  { destruct o; cbn [ev_call snd]; try discriminate. pose proof (proj1 (tick_nan L v HS B)) as T. destruct (ev_tick L v). cbn [snd] in *. intros y E. injection E as <-. exact T. }
  unfold ev_samples in *. cbn [ev_run]. pose proof (bad_call L v o Ho B) as B'. destruct (ev_call L v o) as [v1 r]. cbn [fst snd] in *.
  specialize (IH v1 B'). destruct (ev_run L v1 t) as [v2 rs]. cbn [snd flat_map] in *. apply Forall_app. split; [|exact IH].
  destruct r as [y|]; [|constructor]. constructor; [now apply X|constructor].
Qed.
Lemma poison L sr pre f post : sin_bad L -> bad f -> Forall no_restart post ->
  Forall both_nan (ev_samples L (ev_after L sr (pre ++ [EvFreq f; EvTick])) post).
Proof.
  intros HS B H. apply nan_run; [exact HS|exact H|]. unfold ev_after. rewrite ev_run_app. set (v := fst (ev_run L (ev_init L sr) pre)). clearbody v.
  rewrite !ev_run_fst. cbn [ev_run fst ev_call]. set (w := ev_setFrequency v f). replace (fst (let (v0, y) := ev_tick L w in (v0, Some y))) with (fst (ev_tick L w)) by (now destruct (ev_tick L w)).
  rewrite tick_osc. apply bad_phase. right. unfold ev_vibrato. destruct (flt zero (ev_depth w)).
  - destruct (ln_tick (ev_vib w)). cbn [snd so_setFrequency so_inc]. apply bad_div, bad_mul. left. apply bad_mul. right. exact B.
  - cbn [snd]. unfold w. cbn [ev_setFrequency ev_osc so_setFrequency so_inc]. apply bad_div, bad_mul. left. exact B.
Qed.
