From Verif Require Import AllocModel LoopModel LoopSpec LoopProofs.
From Coq Require Import ZArith Reals Lra Lia Bool List Psatz.
From Flocq Require Import Core BinarySingleNaN.
From Verif Require Import Flt FltFacts FltMore FltArith Libm UtilModel UtilProofs OscModel OscSpec EnvModel EnvSpec EnvProofs EnvProofs2 ExpBounds ExpBounds2 EnvTime EnvTime2
  VcModel VcSpec VcProofs VcProofs2 BxModel.
Import ListNotations.
Local Open Scope R_scope.

Definition ticks_of (n : nat) : list ev_op := repeat EvTick n.

(** ** Blocks *)
Lemma fill_nth {S} (tick : S -> S * f32) n : forall i s, (i < n)%nat -> nth_error (snd (bx_fill tick n s)) i = Some (nth_sample tick i s).
Proof.
  induction n as [|n IH]; intros i s H; [lia|]. cbn [bx_fill]. unfold nth_sample in *.
  destruct i as [|i].
  - cbn [after]. destruct (tick s) as [s1 y]. now destruct (bx_fill tick n s1).
  - cbn [after]. specialize (IH i (fst (tick s)) ltac:(lia)). destruct (tick s) as [s1 y]. cbn [fst] in *.
    destruct (bx_fill tick n s1). exact IH.
Qed.
Lemma nth_firstn {A} (l : list A) n i : (i < n)%nat -> nth_error (firstn n l) i = nth_error l i.
Proof.
  revert n i. induction l as [|h t IH]; intros [|n] [|i] H; try lia; try reflexivity; cbn; try (now destruct i).
  apply IH. lia.
Qed.
Lemma ev_samples_cons L v o t : ev_samples L v (o :: t) =
  (match snd (ev_call L v o) with Some y => [y] | None => [] end) ++ ev_samples L (fst (ev_call L v o)) t.
Proof.
  unfold ev_samples. cbn [ev_run]. destruct (ev_call L v o) as [v1 r]. cbn [fst snd]. destruct (ev_run L v1 t) as [v2 rs]. reflexivity.
Qed.
Lemma ev_samples_app L a b : forall v, ev_samples L v (a ++ b) = ev_samples L v a ++ ev_samples L (fst (ev_run L v a)) b.
Proof.
  induction a as [|o t IH]; intros v; [reflexivity|]. rewrite <- app_comm_cons, !ev_samples_cons, ev_run_fst, IH, app_assoc. reflexivity.
Qed.
Lemma call_tick L v : ev_call L v EvTick = (fst (ev_tick L v), Some (snd (ev_tick L v))).
Proof. cbn [ev_call]. now destruct (ev_tick L v). Qed.
Lemma fill_run L n : forall v, bx_fill (ev_tick L) n v = (fst (ev_run L v (ticks_of n)), ev_samples L v (ticks_of n)).
Proof.
  induction n as [|n IH]; intros v; [reflexivity|]. unfold ticks_of in *. cbn [repeat bx_fill].
  rewrite ev_run_fst, ev_samples_cons, call_tick. cbn [fst snd app].
  destruct (ev_tick L v) as [v1 y]. cbn [fst snd]. rewrite IH. reflexivity.
Qed.
Lemma samples_len L n : forall v, length (ev_samples L v (ticks_of n)) = n.
Proof.
  induction n as [|n IH]; intros v; [reflexivity|]. unfold ticks_of in *. cbn [repeat]. rewrite ev_samples_cons, call_tick. cbn [fst snd app length]. now rewrite IH.
Qed.

(** ** Example 4 *)
Fixpoint block_calls (n : nat) (block : Z) : list ev_op :=
  match n with
  | O => []
  | S n => ticks_of bx_n ++ (if (block =? 100 / 2)%Z then [EvRelease] else []) ++ block_calls n (block + 1)
  end.
Lemma scan_app m a b : bx_scan m (a ++ b) = bx_scan (bx_scan m a) b.
Proof. apply fold_left_app. Qed.
Lemma blocks_run L n : forall block v m, bx_blocks L n block v m =
  (fst (ev_run L v (block_calls n block)), bx_scan m (ev_samples L v (block_calls n block))).
Proof.
  induction n as [|n IH]; intros block v m; [reflexivity|]. cbn [bx_blocks block_calls].
  rewrite fill_run, IH. rewrite !ev_run_app, !ev_samples_app, !scan_app.
  set (w := fst (ev_run L v (ticks_of bx_n))). destruct (block =? 100 / 2)%Z; reflexivity.
Qed.
Lemma calls_100 : block_calls 100 0 = ticks_of (51 * 64) ++ EvRelease :: ticks_of (49 * 64).
Proof. vm_compute. reflexivity. Qed.

Definition bx_setup : list ev_op :=
  [EvFreq (fofZ 440); EvAttack (fdec 1 100); EvRelTime (fdec 5 10); EvDepth (fdec 1 10); EvRate (fofZ 5); EvAmp (fdec 8 10); EvTrigger].
Definition bx_calls : list ev_op := bx_setup ++ ticks_of (51 * 64) ++ EvRelease :: ticks_of (49 * 64).
Lemma voice_setup L : bx_voice L = ev_after L bx_sr bx_setup.
Proof. reflexivity. Qed.
Lemma setup_no_samples L v : ev_samples L v bx_setup = [].
Proof. reflexivity. Qed.
Lemma ex4_run L : bx_ex4 L = (bx_scan (fzero, fzero) (ev_samples L (ev_init L bx_sr) bx_calls), ev_isActive (ev_after L bx_sr bx_calls)).
Proof.
  unfold bx_ex4. rewrite blocks_run, calls_100, voice_setup. unfold bx_calls, ev_after.
  rewrite (ev_samples_app L bx_setup), setup_no_samples, (ev_run_app L bx_setup).
  generalize (fst (ev_run L (ev_init L bx_sr) bx_setup)). generalize (ticks_of (51 * 64) ++ EvRelease :: ticks_of (49 * 64)).
  intros l v. cbn [app]. reflexivity.
Qed.

Lemma bx_sr_R : fin bx_sr /\ B2R bx_sr = 48000. Proof. apply fofZ_R. lia. Qed.
Lemma bx_rate : voice_rate bx_sr.
Proof. destruct bx_sr_R as [F E]. split; [exact F|]. rewrite E. split; [lra|]. apply Rle_trans with (bpow radix2 16); [change (bpow radix2 16) with 65536; lra|apply bpow_le; lia]. Qed.
Lemma ticks_ok sr n : Forall (ev_ok sr) (ticks_of n).
Proof. induction n; constructor; [exact Logic.I|assumption]. Qed.
Lemma setup_ok : Forall (ev_ok bx_sr) bx_setup.
Proof.
  repeat constructor; try reflexivity.
  destruct (fofZ_R (prec:=24) (emax:=128) 440 ltac:(lia)) as [_ E]. rewrite E, Rabs_pos_eq by lra.
  apply Rle_lt_trans with (bpow radix2 9); [change (bpow radix2 9) with 512; lra|apply bpow_lt; lia].
Qed.
Lemma calls_ok : Forall (ev_ok bx_sr) bx_calls.
Proof. unfold bx_calls. apply Forall_app. split; [exact setup_ok|]. apply Forall_app. split; [apply ticks_ok|]. constructor; [exact Logic.I|apply ticks_ok]. Qed.

Definition no_amp (o : ev_op) : Prop := match o with EvInit _ | EvAmp _ => False | _ => True end.
Definition in_amp (amp : Rdefinitions.R) (y : f32 * f32) : Prop :=
  (fin (fst y) /\ Rabs (B2R (fst y)) <= amp) /\ (fin (snd y) /\ Rabs (B2R (snd y)) <= amp).
Lemma samples_amp L sr amp ops : exp_unit L -> sin_unit L -> cos_unit L -> voice_rate sr -> Forall (ev_ok sr) ops -> Forall no_amp ops ->
  forall v, ev_inv sr amp v -> Forall (in_amp amp) (ev_samples L v ops).
Proof.
  intros HE HS HC R H. induction H as [|o t Ho Ht IH]; intros N v I; [constructor|]. inversion N as [|? ? N1 N2]; subst.
  rewrite ev_samples_cons. apply Forall_app. split.
  - destruct o; try (cbn [ev_call snd]; constructor). rewrite call_tick. cbn [snd]. constructor; [|constructor].
    apply (ev_tick_inv L sr amp v HE HS HC R I).
  - apply IH; [exact N2|]. pose proof (ev_call_inv L sr amp v o HE HS HC R Ho I) as J. destruct o; try contradiction; exact J.
Qed.

(** The scan finds the largest absolute value. *)
Lemma scan_spec (amp : Rdefinitions.R) ys : Forall (in_amp amp) ys -> forall m : f32 * f32, (fin (fst m) /\ 0 <= B2R (fst m) <= amp) -> (fin (snd m) /\ 0 <= B2R (snd m) <= amp) ->
  let r := bx_scan m ys in
  (fin (fst r) /\ B2R (fst m) <= B2R (fst r) <= amp) /\ (fin (snd r) /\ B2R (snd m) <= B2R (snd r) <= amp) /\
  Forall (in_amp amp) ys /\
  Forall (fun y => Rabs (B2R (fst y)) <= B2R (fst r) /\ Rabs (B2R (snd y)) <= B2R (snd r)) ys /\
  (fst r = fst m \/ exists y, In y ys /\ fst r = fabs (fst y)) /\ (snd r = snd m \/ exists y, In y ys /\ snd r = fabs (snd y)).
Proof.
  induction 1 as [|y t [[F1 B1] [F2 B2]] Ht IH]; intros m [G1 D1] [G2 D2].
  - cbn [bx_scan fold_left]. cbv zeta. repeat split; auto; first [apply Rle_refl|apply D1|apply D2|constructor].
  - assert (P : forall a x : f32, fin a -> 0 <= B2R a <= amp -> fin x -> Rabs (B2R x) <= amp ->
      (fin (bx_peak a x) /\ B2R a <= B2R (bx_peak a x) <= amp) /\ Rabs (B2R x) <= B2R (bx_peak a x) /\ (bx_peak a x = a \/ bx_peak a x = fabs x)).
    { intros a x Fa Ba Fx Bx. unfold bx_peak. assert (Fb : fin (fabs x)) by now apply fabs_fin. destruct (flt a (fabs x)) eqn:E.
      - apply flt_R in E; [|exact Fa|exact Fb]. rewrite fabs_R in *. repeat split; auto; lra.
      - apply flt_R_false in E; [|exact Fa|exact Fb]. rewrite fabs_R in *. repeat split; auto; lra. }
    destruct (P (fst m) (fst y) G1 D1 F1 B1) as ([Q1 Q2] & Q3 & Q4). destruct (P (snd m) (snd y) G2 D2 F2 B2) as ([S1 S2] & S3 & S4). clear P.
    cbn [bx_scan fold_left]. set (m' := (bx_peak (fst m) (fst y), bx_peak (snd m) (snd y))).
    destruct (IH m') as ((A1 & A2) & (A3 & A4) & A5 & A6 & A7 & A8); [cbn [m' fst]; split; [exact Q1|lra]|cbn [m' snd]; split; [exact S1|lra]|].
    fold (bx_scan m' t). set (r := bx_scan m' t) in *. cbn zeta in *. cbn [m' fst] in A2, A7. cbn [m' snd] in A4, A8.
    split; [split; [exact A1|lra]|]. split; [split; [exact A3|lra]|]. split; [constructor; [repeat split; auto|exact A5]|].
    split; [constructor; [split; [eapply Rle_trans; [exact Q3|apply A2]|eapply Rle_trans; [exact S3|apply A4]]|exact A6]|]. split.
    + destruct A7 as [A7|(z & Z1 & Z2)]; [|right; exists z; split; [now right|exact Z2]].
      destruct Q4 as [Q4|Q4]; [left; congruence|right; exists y; split; [now left|congruence]].
    + destruct A8 as [A8|(z & Z1 & Z2)]; [|right; exists z; split; [now right|exact Z2]].
      destruct S4 as [S4|S4]; [left; congruence|right; exists y; split; [now left|congruence]].
Qed.
Lemma ticks_no_amp n : Forall no_amp (ticks_of n).
Proof. induction n; constructor; [exact Logic.I|assumption]. Qed.
Lemma setup_amp : amp_of bx_setup = B2R (fdec 8 10 : f32).
Proof.
  unfold amp_of, bx_setup. cbn [fold_left amp_set].
  replace (flt (fdec 8 10) zero) with false by (vm_compute; reflexivity). replace (flt one (fdec 8 10)) with false by (vm_compute; reflexivity). reflexivity.
Qed.
Lemma ex4_samples L : exp_unit L -> sin_unit L -> cos_unit L ->
  Forall (in_amp (B2R (fdec 8 10 : f32))) (ev_samples L (ev_init L bx_sr) bx_calls).
Proof.
  intros HE HS HC. unfold bx_calls. rewrite (ev_samples_app L bx_setup), setup_no_samples. cbn [app].
  apply samples_amp with bx_sr; auto using bx_rate.
  - apply Forall_app. split; [apply ticks_ok|]. constructor; [exact Logic.I|apply ticks_ok].
  - apply Forall_app. split; [apply ticks_no_amp|]. constructor; [exact Logic.I|apply ticks_no_amp].
  - rewrite <- setup_amp. apply (ev_after_inv L bx_sr bx_setup HE HS HC bx_rate setup_ok).
Qed.

(** The envelope of a voice that only ticks. *)
Lemma tick_env L v : ev_env (fst (ev_tick L v)) = fst (ar_tick (ev_env v)).
Proof.
  unfold ev_tick. destruct (ev_vibrato v) as [vib osc]. destruct (so_tick L osc) as [o1 y]. destruct (ar_tick (ev_env v)) as [e x].
  destruct (ln_tick (ev_pan v)) as [p q]. reflexivity.
Qed.
Lemma ticks_env L n : forall v, ev_env (fst (ev_run L v (ticks_of n))) = fst (ar_ticks n (ev_env v)).
Proof.
  induction n as [|n IH]; intros v; [reflexivity|]. unfold ticks_of in *. cbn [repeat]. rewrite ev_run_fst, call_tick. cbn [fst].
  rewrite IH, tick_env. symmetry. apply ar_ticks_S.
Qed.
Lemma T_short : 479.99 <= B2R (fdec 1 100 : f32) * 48000 <= 480.00001.
Proof. fval (fdec 1 100 : f32). lra. Qed.
Lemma N51 : INR (51 * 64) = 3264.
Proof. rewrite mult_INR, !INR_IZR_INZ. change (Z.of_nat 51) with 51%Z. change (Z.of_nat 64) with 64%Z. lra. Qed.
Lemma N49 : INR (49 * 64) = 3136.
Proof. rewrite mult_INR, !INR_IZR_INZ. change (Z.of_nat 49) with 49%Z. change (Z.of_nat 64) with 64%Z. lra. Qed.
(** After 3264 samples of attack the level is above 0.99, and after 3136 samples of release still above 0.84. *)
Lemma ar_ticks_inv n : forall e, ar_inv e -> ar_inv (fst (ar_ticks n e)).
Proof. induction n as [|n IH]; intros e I; [exact I|]. rewrite ar_ticks_S. apply IH. apply (ar_tick_inv e I). Qed.
Lemma ar_tick_rc e : ar_rc (fst (ar_tick e)) = ar_rc e.
Proof. unfold ar_tick. destruct (ar_state e); [reflexivity| |]; match goal with |- context [if ?b then _ else _] => destruct b end; reflexivity. Qed.
Lemma ar_ticks_rc n : forall e, ar_rc (fst (ar_ticks n e)) = ar_rc e.
Proof. induction n as [|n IH]; intros e; [reflexivity|]. rewrite ar_ticks_S, IH. apply ar_tick_rc. Qed.
Lemma exp_small x : 0 <= x -> 1 - x <= exp (- x).
Proof. intros H. pose proof (exp_ineq1_le (- x)). lra. Qed.
Lemma env_level L n1 n2 T a : exp_unit L -> INR n1 = 3264 -> INR n2 = 3136 -> 479.99 <= T <= 480.00001 ->
  ar_inv a -> ar_state a = ArAttack -> B2R (ar_value a) = 0 -> near (ar_ac a) T -> near (ar_rc a) 24000 ->
  let e := fst (ar_ticks n2 (ar_release (fst (ar_ticks n1 a)))) in ar_state e = ArRelease /\ 0.84 <= B2R (ar_value e).
Proof.
  intros HU H1 H2 TS I1 Sa Za Na Nr. cbn zeta.
  destruct (ar_att_run n1 a I1 Sa) as (I2 & S2 & _ & D & _). pose proof (ar_ticks_rc n1 a) as R2.
  pose proof I1 as (Hv & Ha & _). 
  destruct (att_iter (ar_ac a) (ar_value a) T n1 Ha Hv ltac:(lra) Na) as [_ A].
  set (b := fst (ar_ticks n1 a)) in *. clearbody b.
  assert (Lb : 0.99 <= B2R (ar_value b)).
  { destruct D as [[-> _]| ->]; [|rewrite one_R; lra]. rewrite Za in A. apply Rabs_le_inv in A.
    rewrite H1 in A.
    assert (X : exp (- (3264 / T)) <= exp (- (6.4))).
    { apply le_exp. apply Rmult_le_reg_r with T; [lra|]. unfold Rdiv. rewrite Rmult_assoc, Rinv_l by lra. lra. }
    pose proof exp_m64hi. lra. }
  clear A D. set (r := ar_release b).
  assert (Ir : ar_inv r) by apply (ar_step_inv L b ArORel HU Logic.I I2).
  assert (Sr : ar_state r = ArRelease) by (unfold r; cbn [ar_release ar_with ar_state]; now rewrite S2).
  assert (Rr : ar_rc r = ar_rc a) by (unfold r; cbn [ar_release ar_with ar_rc]; exact R2).
  destruct (ar_rel_run n2 r Ir Sr) as (_ & D & V).
  pose proof Ir as (Hvr & _ & Hrr & _). rewrite Rr in *.
  destruct (rel_bounds (ar_rc a) (ar_value r) 24000 n2 Hrr Hvr ltac:(lra) Nr) as (_ & B1 & _ & _).
  change (ar_value r) with (ar_value b) in *.
  assert (X : 0.86 <= exp (- (INR n2 / 24000 * (65 / 64)))).
  { rewrite H2. eapply Rle_trans; [|apply exp_small; lra]. lra. }
  assert (Y : 0.99 * 0.86 <= B2R (ar_value b) * exp (- (INR n2 / 24000 * (65 / 64)))) by (apply Rmult_le_compat; lra).
  destruct (B1 ltac:(lra)) as [B2 B3].
  assert (S3 : ar_state (fst (ar_ticks n2 r)) = ArRelease) by (apply V; intros k K; apply B2; lia).
  split; [exact S3|]. destruct D as [(_ & -> & _)|[Q _]]; [|congruence]. lra.
Qed.
Lemma ex4_level L : exp_unit L -> exp_acc L ->
  let e := ev_env (ev_after L bx_sr bx_calls) in ar_state e = ArRelease /\ 0.84 <= B2R (ar_value e).
Proof.
  intros HU HA. unfold bx_calls, ev_after. rewrite !ev_run_app. rewrite ev_run_fst. cbn [ev_call fst].
  rewrite ticks_env. cbn [ev_release ev_with_env ev_env]. rewrite ticks_env.
  set (s0 := ar_setRelease L (ar_setAttack L (ar_init L bx_sr) (fdec 1 100)) (fdec 3 10)).
  set (s1 := ar_setRelease L (ar_setAttack L s0 (fdec 1 100)) (fdec 5 10)).
  change (ev_env (fst (ev_run L (ev_init L bx_sr) bx_setup))) with (ar_trigger s1).
  destruct bx_sr_R as [Fs Es]. assert (Hs : sr_ok bx_sr) by apply (vr_sr _ bx_rate).
  assert (I1 : ar_inv (ar_trigger s1)).
  { apply (ar_step_inv L s1 ArOTrigger HU Logic.I), (ar_step_inv L _ (ArORelease (fdec 5 10)) HU Logic.I), (ar_step_inv L _ (ArOAttack (fdec 1 100)) HU Logic.I),
      (ar_step_inv L _ (ArORelease (fdec 3 10)) HU Logic.I), (ar_step_inv L _ (ArOAttack (fdec 1 100)) HU Logic.I). now apply ar_init_inv. }
  assert (Na : near (ar_ac (ar_trigger s1)) (B2R (fdec 1 100 : f32) * 48000)).
  { unfold near. change (ar_ac (ar_trigger s1)) with (coeff L (clamp_time (fdec 1 100)) bx_sr). rewrite clamp_time_id by (vm_compute; reflexivity).
    rewrite <- Es. apply coeff_near; [exact HA|ffin|exact Fs|]. rewrite Es. pose proof T_short. lra. }
  assert (Nr : near (ar_rc (ar_trigger s1)) 24000).
  { unfold near. change (ar_rc (ar_trigger s1)) with (coeff L (clamp_time (fdec 5 10)) bx_sr). rewrite clamp_time_id by (vm_compute; reflexivity).
    assert (E5 : B2R (fdec 5 10 : f32) * B2R bx_sr = 24000) by (rewrite Es; fval (fdec 5 10 : f32); lra).
    rewrite <- E5. apply coeff_near; [exact HA|ffin|exact Fs|]. rewrite E5. lra. }
  apply (env_level L _ _ _ _ HU N51 N49 T_short I1 eq_refl eq_refl Na Nr).
Qed.
