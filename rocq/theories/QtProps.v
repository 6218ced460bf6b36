(** C118: silence in, silence out. *)
From Coq Require Import ZArith Bool List Reals Lra Lia.
From Flocq Require Import Core BinarySingleNaN.
From Verif Require Import Flt FltFacts Libm LibmInst UtilModel UtilProofs Res PolSpec FltPol QtSpec QtProofs EnvSpec OscSpec SmoothModel SmoothSpec SmoothProps SmoothInst LpModel LpSpec DsModel DsSpec CombModel MgModel MgSpec MgBase MgInst MgProps.
From Verif Require Import StModel KjModel KjProofs MtModel RkModel ImModel MdModel ObModel LdSpec ObProps LaProps MdProps PolProofs PolProofs2 PolProofs3 PolProofs4 PolProps.
Import ListNotations.

(** ** Whatever the settings, NaN and infinite ones included, silence gives zeros or NaN, from [init] or from a [reset] in any state on. *)
Ltac still := constructor; try reflexivity; try exact opp_zero.
Theorem C118_lag : forall L sr time s os, Forall lg_mute os -> Forall hush (snd (mg_run (lg_op L) (lg_init L sr time) os)) /\ Forall hush (snd (mg_run (lg_op L) (lg_reset s) os)).
Proof. intros L sr time s os M. split; (apply (run_hush (lg_op L) lg_mute lg_opp); [intros; apply lg_step_rel; auto using lg_mute_rel|still|exact M]). Qed.
Theorem C118_onepole : forall L sr c s os, Forall op_mute os -> Forall hush (snd (mg_run (op_op L) (op_init L sr c) os)) /\ Forall hush (snd (mg_run (op_op L) (op_reset s) os)).
Proof. intros L sr c s os M. split; (apply (run_hush (op_op L) op_mute op_opp); [intros; apply op_step_rel; auto using op_mute_rel|still|exact M]). Qed.
Theorem C118_dcblock : forall L sr c s os, Forall dc_mute os -> Forall hush (snd (runs (dc_op L) (dc_init L sr c) os)) /\ Forall hush (snd (runs (dc_op L) (dc_reset s) os)).
Proof. intros L sr c s os M. split; (apply (runs_hush (dc_op L) dc_mute dc_opp); [intros; apply dc_step_rel; auto using dc_mute_rel|still|exact M]). Qed.
(** With any bias: the follower that it scales is silent, too. *)
Theorem C118_tape : forall L sr s os, odd (m_tanh L) -> Forall tp_mute os -> Forall hush (snd (runs (tp_op L) (tp_init L sr) os)) /\ Forall hush (snd (runs (tp_op L) (tp_reset s) os)).
Proof. intros L sr s os HT M. split; (apply (runs_hush (tp_op L) tp_mute tp_still); [intros; apply tp_still_step; auto|still|exact M]). Qed.
Theorem C118_laglinear : forall sr v time s os, mute v -> Forall ll_mute os ->
  (forall s0 ys, ll_init sr v time = Some s0 -> rruns ll_call s0 os = Val ys -> Forall hush ys) /\ (forall ys, rruns ll_call (ll_reset s) os = Val ys -> Forall hush ys).
Proof.
  intros sr v time s os V M. split.
  - intros s0 ys E. apply (rruns_hush ll_call ll_mute ll_opp); [intros; apply ll_step_rel; auto using ll_mute_rel| |exact M].
    pose proof (ll_init_opp sr v v time (mute_self _ V)) as Q. rewrite E in Q. exact Q.
  - apply (rruns_hush ll_call ll_mute ll_opp); [intros; apply ll_step_rel; auto using ll_mute_rel|still|exact M].
Qed.
Theorem C118_rlpf : forall L sr s os, Forall lp_mute os -> Forall hush (snd (mg_run (lp_call L) (lp_init L sr) os)) /\ Forall hush (snd (mg_run (lp_call L) (lp_reset s) os)).
Proof. intros L sr s os M. split; (apply (run_hush (lp_call L) lp_mute lp_opp); [intros; apply lp_step_rel; auto using lp_mute_rel|still|exact M]). Qed.
Theorem C118_downsampler : forall L rate f s os, Forall ds_mute os -> Forall hush (snd (mg_run (ds_call L) (ds_init L rate f) os)) /\ Forall hush (snd (mg_run (ds_call L) (ds_reset s) os)).
Proof. intros L rate f s os M. split; (apply (run_hush (ds_call L) ds_mute ds_opp); [intros; apply ds_step_rel; auto using ds_mute_rel|still; repeat constructor|exact M]). Qed.
Theorem C118_combc : forall L fuel sr maxDelay c s os, Forall cb_mute os -> cb_init L sr maxDelay = Val c ->
  (forall ys, rruns (cb_call L fuel) c os = Val ys -> Forall hush ys) /\ (forall ys, rruns (cb_call L fuel) (cb_reset s) os = Val ys -> Forall hush ys).
Proof.
  intros L fuel sr m c s os M E. split; (apply (rruns_hush (cb_call L fuel) cb_mute cb_opp); [intros; apply cb_step_rel; auto using cb_mute_rel| |exact M]).
  - exact (cb_init_opp _ _ _ _ E).
  - still.
Qed.
Theorem C118_stilson : forall r0 sr s0 s os, Forall st_mute os -> st_init r0 sr = Val s0 ->
  (forall ys, rruns st_call s0 os = Val ys -> Forall hush ys) /\ (forall ys, rruns st_call (st_reset s) os = Val ys -> Forall hush ys).
Proof.
  intros r0 sr s0 s os M E. split; (apply (rruns_hush st_call st_mute st_opp); [intros; apply st_step_rel; auto using st_mute_rel| |exact M]).
  - exact (st_init_opp _ _ _ E).
  - still.
Qed.
Theorem C118_microtracker : forall sr s os, Forall mt_mute os -> Forall hush (snd (mg_run mt_call (mt_init sr) os)) /\ Forall hush (snd (mg_run mt_call (mt_reset s) os)).
Proof. intros sr s os M. split; (apply (run_hush mt_call mt_mute mt_opp); [intros; apply mt_step_rel; auto using mt_mute_rel|still|exact M]). Qed.
Theorem C118_rksimulation : forall sr s os, Forall rk_mute os -> Forall hush (snd (mg_run rk_call (rk_init sr) os)) /\ Forall hush (snd (mg_run rk_call (rk_reset s) os)).
Proof. intros sr s os M. split; (apply (run_hush rk_call rk_mute rk_opp); [intros; apply rk_step_rel; auto using rk_mute_rel|still; still|exact M]). Qed.
Theorem C118_musicdsp : forall L r0 sr s os, Forall md_mute os -> Forall hush (snd (mg_run (md_call L) (md_init L r0 sr) os)) /\ Forall hush (snd (mg_run (md_call L) (md_reset s) os)).
Proof. intros L r0 sr s os M. split; (apply (run_hush (md_call L) md_mute md_opp); [intros; apply md_step_rel; auto using md_mute_rel|still|exact M]). Qed.
Theorem C118_oberheim : forall L sr s os, odd (d_tanh L) -> Forall ob_mute os -> Forall hush (snd (mg_run (ob_call L) (ob_init L sr) os)) /\ Forall hush (snd (mg_run (ob_call L) (ob_reset s) os)).
Proof. intros L sr s os HT M. split; (apply (run_hush (ob_call L) ob_mute ob_opp); [intros; apply ob_step_rel; auto using ob_mute_rel|still|exact M]). Qed.
Theorem C118_improved : forall L sr s os, odd (d_tanh L) -> Forall im_mute os -> Forall hush (snd (mg_run (im_call L) (im_init sr) os)) /\ Forall hush (snd (mg_run (im_call L) (im_reset s) os)).
Proof. intros L sr s os HT M. split; (apply (run_hush (im_call L) im_mute im_opp); [intros; apply im_step_rel; auto using im_mute_rel|still; still|exact M]). Qed.

(** ** Exactly zero, with the settings for which outputs are known to be numbers (C30, C32, C50, C53, C72, C89 to C92). *)
Lemma exactly (l : list f32) : Forall hush l -> (forall y, In y l -> is_finite y = true) -> Forall mute l.
Proof. rewrite !Forall_forall. intros H F y I. apply fin_hush; auto. Qed.
Lemma mute_within m (x : f32) : mute x -> (0 <= m)%R -> within m x.
Proof. intros M P. destruct x; try destruct M. split; [reflexivity|]. cbn. now rewrite Rabs_R0. Qed.
Lemma mute_fin (x : f32) : mute x -> is_finite x = true.
Proof. destruct x; intros []; reflexivity. Qed.
Lemma mg_in_run {S O : Type} (call : S -> O -> S * option f32) os : forall s y, In y (snd (mg_run call s os)) -> In (Some y) (snd (OscSpec.run call s os)).
Proof.
  induction os as [|o os IH]; intros s y; cbn [mg_run OscSpec.run]; [intros []|]. destruct (call s o) as [t z]. specialize (IH t y).
  destruct (mg_run call t os) as [u ys], (OscSpec.run call t os) as [v zs]. cbn [fst snd] in *. destruct z; cbn [In]; intros I; [destruct I as [->|I]; auto|auto].
Qed.
Theorem C118_exact_lag : forall L sr time os, exp_unit L -> EnvSpec.sr_ok sr -> is_nan time = false -> Forall lg_mute os -> (forall t, In (GTime t) os -> is_nan t = false) ->
  Forall mute (snd (mg_run (lg_op L) (lg_init L sr time) os)).
Proof.
  intros L sr time os HE Hs Ht M K. apply exactly; [apply (C118_lag L sr time (lg_init L sr time) os M)|]. intros y I. apply mg_in_run in I.
  apply (C30_lag L 0 sr time os HE Hs Ht ltac:(lia)) with (2 := I). apply Forall_forall. rewrite Forall_forall in M. intros o J. specialize (M o J).
  destruct o; cbn [lg_ok lg_mute] in *; auto; try (now apply K); apply mute_within; auto; cbn; lra.
Qed.
Theorem C118_exact_onepole : forall L sr c os, exp_unit L -> fin sr -> (0 < B2R sr)%R -> is_nan c = false -> Forall op_mute os ->
  (forall o, In o os -> match o with PTickMod _ c | PCutoff c => is_nan c = false | _ => True end) ->
  Forall mute (snd (mg_run (op_op L) (op_init L sr c) os)).
Proof.
  intros L sr c os HE Fs Hs Hc M K. apply exactly; [apply (C118_onepole L sr c (op_init L sr c) os M)|]. intros y I. apply mg_in_run in I.
  apply (C30_onepole L 0 sr c os HE Fs Hs Hc ltac:(lia)) with (2 := I). apply Forall_forall. rewrite Forall_forall in M. intros o J. specialize (M o J). specialize (K o J).
  destruct o; cbn [op_ok op_mute] in *; auto; [|split; [|exact K]]; apply mute_within; auto; cbn; lra.
Qed.
Theorem C118_exact_dcblock : forall L sr c os, exp_acc L -> exp_unit L -> fin sr -> (0 < B2R sr)%R -> dc_cut_ok sr c -> Forall dc_mute os -> (forall c, In (BCutoff c) os -> dc_cut_ok sr c) ->
  Forall mute (snd (runs (dc_op L) (dc_init L sr c) os)).
Proof.
  intros L sr c os HA HE Fs Hs Hc M K. apply exactly; [apply (C118_dcblock L sr c (dc_init L sr c) os M)|]. intros y I.
  pose proof (C32_bounded L 0 sr c os HA HE Fs Hs Hc ltac:(lia)) as B. revert y I. apply Forall_forall. eapply Forall_impl; [|apply B; apply Forall_forall]; [intros y Y; exact (proj1 Y)|]. rewrite Forall_forall in M. intros o J. specialize (M o J).
  destruct o; cbn [SmoothSpec.dc_ok dc_mute] in *; auto; [apply mute_within; auto; cbn; lra| ]. destruct M. split; apply mute_within; auto; cbn; lra.
Qed.
Theorem C118_exact_tape : forall L sr os, odd (m_tanh L) -> exp_unit L -> tanh_unit L -> EnvSpec.sr_ok sr -> Forall tp_mute os ->
  (forall o, In o os -> match o with TBias b => is_finite b = true | TGain g => within (bpow radix2 126) g | _ => True end) ->
  Forall mute (snd (runs (tp_op L) (tp_init L sr) os)).
Proof.
  intros L sr os HO HE HT Hs M K. apply exactly; [apply (C118_tape L sr (tp_init L sr) os HO M)|]. intros y I.
  pose proof (C53_unit_range L 0 sr os HE HT Hs ltac:(lia)) as B. revert y I. apply Forall_forall. eapply Forall_impl; [|apply B; apply Forall_forall]; [intros y Y; exact (proj1 Y)|]. rewrite Forall_forall in M. intros o J. specialize (M o J). specialize (K o J).
  destruct o; cbn [tp_ok tp_mute] in *; auto; [apply mute_within; auto; cbn; lra| ]. destruct M. split; apply mute_within; auto; cbn; lra.
Qed.
(** Krajeski: here the settings matter, see below. *)
Theorem C118_exact_krajeski : forall L sr os, dtanh_unit L -> dpow_acc L -> mg_rate sr -> odd (d_tanh L) -> Forall kj_mute os ->
  (forall o, In o os -> match o with KjCut c => mg_cut (3 / 10) sr c | KjRes r => is_nan r = false | _ => True end) ->
  Forall mute (snd (mg_run (kj_call L) (kj_init L sr) os)).
Proof.
  intros L sr os HT HP Hr HO M K. assert (G : forall o, In o os -> kj_op_ok sr o).
  { rewrite Forall_forall in M. intros o J. specialize (M o J). specialize (K o J). destruct o; cbn [kj_op_ok kj_mute] in *; auto. now apply mute_fin. }
  apply exactly.
  - apply (run_hush (kj_call L) (fun o => kj_op_ok sr o /\ kj_mute o) (fun s t => kj_opp s t /\ kj_inv sr s)).
    + intros s o [A B] H. apply kj_step_rel; auto. now apply kj_mute_rel.
    + split; [apply kj_init_opp|now apply kj_init_inv].
    + rewrite Forall_forall in M. apply Forall_forall. auto.
  - intros y I. apply (C50_krajeski_bounded L sr os HT HP Hr) with (2 := I). intros o J. specialize (G o J). destruct o; exact G.
Qed.
Theorem C118_exact_improved : forall L sr os, odd (d_tanh L) -> dtanh_unit L -> dtanh_sat L -> mg_rate sr -> Forall im_mute os ->
  (forall o, In o os -> match o with ImCut c => is_nan c = false | ImRes r => is_nan r = false | ImDrive d => is_finite d = true | _ => True end) ->
  Forall mute (snd (mg_run (im_call L) (im_init sr) os)).
Proof.
  intros L sr os HO HT HS Hr M K. apply exactly; [apply (C118_improved L sr (im_init sr) os HO M)|]. intros y I. apply (C89_improved L sr os HT HS Hr) with (2 := I).
  rewrite Forall_forall in M. intros o J. specialize (M o J). specialize (K o J). destruct o; cbn [im_mute] in *; auto. now apply mute_fin.
Qed.
Theorem C118_exact_oberheim : forall L sr os, odd (d_tanh L) -> dtanh_unit L -> dtan_acc L -> mg_rate sr -> Forall ob_mute os ->
  (forall o, In o os -> match o with ObCut c => mg_cut (475 / 1000) sr c | ObRes r => is_nan r = false | _ => True end) ->
  Forall mute (snd (mg_run (ob_call L) (ob_init L sr) os)).
Proof.
  intros L sr os HO HT HS Hr M K. apply exactly; [apply (C118_oberheim L sr (ob_init L sr) os HO M)|]. intros y I.
  pose proof (C72_moving_cutoff L sr os HT HS Hr) as B. revert y I. apply Forall_forall. eapply Forall_impl; [|apply B; apply Forall_forall]; [intros y Y; exact (proj1 Y)|]. rewrite Forall_forall in M. intros o J. specialize (M o J). specialize (K o J). destruct o; cbn [ob_mute ob_good] in *; auto. destruct x; try destruct M; reflexivity.
Qed.
Theorem C118_exact_rksimulation : forall m sr os, (1 <= m <= 64)%Z -> mg_rate sr -> (64000 <= IZR m * B2R sr)%R -> Forall rk_mute os ->
  (forall o, In o os -> match o with RkCut c => fin c /\ (0 <= B2R c <= IZR m / 64 * B2R sr)%R | RkRes r => is_nan r = false | RkDrive d => is_finite d = true | RkOver n => (- 2 ^ 31 <= n < 2 ^ 31)%Z | _ => True end) ->
  Forall mute (snd (mg_run rk_call (rk_init sr) os)).
Proof.
  intros m sr os Hm Hr Hs M K. apply exactly; [apply (C118_rksimulation sr (rk_init sr) os M)|]. intros y I. apply (C90_rk m sr os Hm Hr Hs) with (2 := I).
  rewrite Forall_forall in M. intros o J. specialize (M o J). specialize (K o J). destruct o; cbn [rk_mute] in *; auto. now apply mute_fin.
Qed.
Theorem C118_exact_microtracker : forall sr os, mg_rate sr -> Forall mt_mute os ->
  (forall o, In o os -> match o with MtCut c => is_nan c = false /\ flt c fzero = false | MtRes r => fin r /\ (B2R r <= 24 / 100)%R | _ => True end) ->
  Forall mute (snd (mg_run mt_call (mt_init sr) os)).
Proof.
  intros sr os Hr M K. apply exactly; [apply (C118_microtracker sr (mt_init sr) os M)|]. intros y I. apply (C91_microtracker 0 sr os ltac:(lia) Hr) with (2 := I).
  rewrite Forall_forall in M. intros o J. specialize (M o J). specialize (K o J). destruct o; cbn [mt_mute] in *; auto. apply (mute_within (bpow radix2 0)); auto; cbn; lra.
Qed.
Theorem C118_exact_musicdsp : forall L r0 sr os, sincos_acc L -> mg_rate sr -> (25000 <= B2R sr)%R -> Forall md_mute os ->
  (forall o, In o os -> match o with MdCut c => fin c /\ (1 <= B2R c <= / 25 * B2R sr)%R | MdRes r => is_nan r = false | _ => True end) ->
  Forall mute (snd (mg_run (md_call L) (md_init L r0 sr) os)).
Proof.
  intros L r0 sr os HL Hr Hs M K. apply exactly; [apply (C118_musicdsp L r0 sr (md_init L r0 sr) os M)|]. intros y I. apply (C92_full_resonance L r0 sr os HL Hr Hs) with (2 := I).
  rewrite Forall_forall in M. intros o J. specialize (M o J). specialize (K o J). destruct o; cbn [md_mute] in *; auto. apply (mute_within 1); auto; lra.
Qed.
(** A NaN cutoff makes the Krajeski ladder turn silence into -10^30: its clamp maps NaN to its lower bound. *)
Theorem C118_krajeski_refuted : exists L sr, odd (d_tanh L) /\ mg_rate sr /\
  exists y, In y (snd (mg_run (kj_call L) (kj_init L sr) [KjCut B754_nan; KjTick zero])) /\ is_finite y = true /\ (B2R y < - bpow radix2 99)%R.
Proof.
  exists poly_libm, (fofZ 48000). split; [exact poly_tanh_odd|]. split; [split; [reflexivity|fval (fofZ 48000 : f32); lra]|].
  exists (fneg (d2f kj_big)). split; [left; vm_compute; reflexivity|]. split; [vm_compute; reflexivity|].
  assert (E : B2R (flit (-1) 99 : f32) = (- bpow radix2 99)%R) by (fval (flit (-1) 99 : f32); bp; lra). rewrite <- E. apply flt_R; vm_compute; reflexivity.
Qed.

(** Settings changed to absurd values while silence is played: four zeros, then NaN from an infinite cutoff on (infinity times zero). *)
Example ex_C118 :
  let os := [RkTick zero; RkDrive (fofZ 2); RkTick (fneg zero); RkOver 2; RkTick zero; RkReset; RkTick zero; RkCut (B754_infinity false); RkTick zero] in
  Forall rk_mute os /\ snd (mg_run rk_call (rk_init (fofZ 48000)) os) = [zero; zero; zero; zero; B754_nan].
Proof. split; [repeat constructor|]. vm_compute. reflexivity. Qed.
Lemma head_hush (l : list f32) : Forall hush l -> match l with a :: _ => hush a | [] => True end.
Proof. destruct 1; auto. Qed.
(** After a loud sample a ladder rings on in silence, after [reset] it does not. *)
Example ex_C118_reset :
  let s := fst (mg_run mt_call (mt_init (fofZ 48000)) [MtTick one; MtTick half]) in
  Forall mute (snd (mg_run mt_call (mt_reset s) [MtTick zero; MtTick zero; MtTick zero])) /\ ~ Forall hush (snd (mg_run mt_call s [MtTick zero; MtTick zero; MtTick zero])).
Proof.
  split; [vm_compute; repeat constructor|]. intros H. apply head_hush in H. vm_compute in H. exact H.
Qed.
Print Assumptions C118_lag.
Print Assumptions C118_onepole.
Print Assumptions C118_dcblock.
Print Assumptions C118_tape.
Print Assumptions C118_laglinear.
Print Assumptions C118_rlpf.
Print Assumptions C118_downsampler.
Print Assumptions C118_combc.
Print Assumptions C118_stilson.
Print Assumptions C118_microtracker.
Print Assumptions C118_rksimulation.
Print Assumptions C118_musicdsp.
Print Assumptions C118_oberheim.
Print Assumptions C118_improved.
Print Assumptions C118_exact_lag.
Print Assumptions C118_exact_onepole.
Print Assumptions C118_exact_dcblock.
Print Assumptions C118_exact_tape.
Print Assumptions C118_exact_krajeski.
Print Assumptions C118_exact_improved.
Print Assumptions C118_exact_oberheim.
Print Assumptions C118_exact_rksimulation.
Print Assumptions C118_exact_microtracker.
Print Assumptions C118_exact_musicdsp.
Print Assumptions C118_krajeski_refuted.
