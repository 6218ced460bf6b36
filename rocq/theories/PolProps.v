(** C117: inverting the input inverts the output. *)
From Coq Require Import ZArith Bool List Reals Lra Lia.
From Flocq Require Import Core BinarySingleNaN.
From Verif Require Import Flt FltFacts FltMore FltKey FltArith Libm LibmInst UtilModel UtilProofs Res PolSpec FltPol SmoothModel SmoothSpec SmoothInst LpModel DsModel CombModel PanModel FvModel MgModel MgSpec MgBase MgInst.
From Verif Require Import StModel KjModel KjProofs MtModel RkModel ImModel MdModel ObModel PolProofs PolProofs2 PolProofs3 PolProofs4.
Import ListNotations.

(** A correctly rounded hyperbolic tangent is odd. *)
Lemma tanh_neg x : (tanh (- x) = - tanh x)%R.
Proof. unfold tanh, sinh, cosh. rewrite Ropp_involutive. pose proof (exp_pos x). pose proof (exp_pos (- x)). field. lra. Qed.
Section OddTanh.
  Context {prec emax : Z} {Hp : Prec_gt_0 prec} {Hm : Prec_lt_emax prec emax}.
  Lemma cr_tanh_odd : dy (prec:=prec) (emax:=emax) 1 -> odd (cr_tanh (prec:=prec) (emax:=emax)).
  Proof.
    intros D1. pose proof (dy_opp _ D1) as D2.
    assert (G : forall r, (-1 <= r <= 1)%R -> opp (fofR r : binary_float prec emax) (fofR (- r))).
    { intros r B. destruct (fofR_b (-1) 1 r D2 D1 B) as (F1 & E1 & _). destruct (fofR_b (-1) 1 (- r) D2 D1) as (F2 & E2 & _); [lra|].
      apply same_fin; [now apply fneg_fin|exact F2|]. now rewrite fneg_R, E1, E2, rnd_opp. }
    assert (K : forall x y : binary_float prec emax, fin x -> fin y -> opp x y -> B2R y = (- B2R x)%R).
    { intros x y Fx Fy O. destruct (same_inv _ _ O) as [(_ & _ & E)|(A & _)]; [rewrite <- E; apply fneg_R|]. apply fneg_fin in Fx. rewrite Fx in A. discriminate A. }
    intros x y O. destruct x as [s|s| |s m e h], y as [t|t| |t m' e' h']; try discriminate O; cbn [cr_tanh lift_odd lift is_finite].
    - exact Logic.I.
    - injection O as <-. destruct s; cbn [negb]; [|apply G; lra]. replace (1)%R with (- -1)%R at 1 by ring. replace (fofR 1 : binary_float prec emax) with (fofR (- -1) : binary_float prec emax) by (f_equal; ring). apply G; lra.
    - reflexivity.
    - rewrite (K (B754_finite s m e h) (B754_finite t m' e' h') eq_refl eq_refl O), tanh_neg. apply G, tanh_bnd.
  Qed.
End OddTanh.
Lemma exact_tanh_odd : odd (m_tanh exact_libm) /\ odd (d_tanh exact_libm).
Proof. split; cbn [exact_libm m_tanh d_tanh]; apply cr_tanh_odd; apply (dy_bpow 0); cbn; lia. Qed.

(** ** Smoothers *)
Theorem C117_lag : forall L sr time os,
  Forall2 opp (snd (mg_run (lg_op L) (lg_init L sr time) os)) (snd (mg_run (lg_op L) (lg_init L sr time) (map lg_flip os))).
Proof. intros. apply (run_opp (lg_op L) lg_flip lg_opp (lg_step_opp L)). constructor; try reflexivity; exact opp_zero. Qed.
Theorem C117_onepole : forall L sr c os,
  Forall2 opp (snd (mg_run (op_op L) (op_init L sr c) os)) (snd (mg_run (op_op L) (op_init L sr c) (map op_flip os))).
Proof. intros. apply (run_opp (op_op L) op_flip op_opp (op_step_opp L)). constructor; try reflexivity; exact opp_zero. Qed.
Theorem C117_dcblock : forall L sr c os,
  Forall2 opp (snd (runs (dc_op L) (dc_init L sr c) os)) (snd (runs (dc_op L) (dc_init L sr c) (map dc_flip os))).
Proof.
  intros. apply (runs_opp (dc_op L) dc_flip (fun _ => True) dc_opp (dc_step_opp L)); [apply Forall_forall; auto|]. constructor; try reflexivity; exact opp_zero.
Qed.
(** The initial value of a LagLinear is a sample, too. *)
Theorem C117_laglinear : forall sr v time os,
  ropp (Forall2 opp) (s <~ of_opt (ll_init sr v time) ;; rruns ll_call s os) (s <~ of_opt (ll_init sr (fneg v) time) ;; rruns ll_call s (map ll_flip os)).
Proof.
  intros. pose proof (ll_init_opp sr v (fneg v) time (opp_neg v)) as H.
  destruct (ll_init sr v time), (ll_init sr (fneg v) time); cbn [of_opt ropp rbind] in *; try destruct H; auto. now apply (rruns_opp ll_call ll_flip ll_opp ll_step_opp).
Qed.

(** ** Filters *)
Theorem C117_rlpf : forall L sr os,
  Forall2 opp (snd (mg_run (lp_call L) (lp_init L sr) os)) (snd (mg_run (lp_call L) (lp_init L sr) (map lp_flip os))).
Proof. intros. apply (run_opp (lp_call L) lp_flip lp_opp (lp_step_opp L)). constructor; try reflexivity; exact opp_zero. Qed.
Theorem C117_downsampler : forall L rate f os,
  Forall2 opp (snd (mg_run (ds_call L) (ds_init L rate f) os)) (snd (mg_run (ds_call L) (ds_init L rate f) (map ds_flip os))).
Proof. intros. apply (run_opp (ds_call L) ds_flip ds_opp (ds_step_opp L)). constructor; try reflexivity; try exact opp_zero; repeat constructor. Qed.
Theorem C117_combc : forall L fuel sr maxDelay c os, cb_init L sr maxDelay = Val c ->
  ropp (Forall2 opp) (rruns (cb_call L fuel) c os) (rruns (cb_call L fuel) c (map cb_flip os)).
Proof. intros L fuel sr m c os E. apply (rruns_opp (cb_call L fuel) cb_flip cb_opp (cb_step_opp L fuel)). exact (cb_init_opp _ _ _ _ E). Qed.
Theorem C117_fverb : forall L h,
  match fv_run L h fv_new, fv_run L (map fv_flip h) fv_new with
  | Some (_, ys), Some (_, zs) => Forall2 opp2 ys zs
  | None, None => True
  | _, _ => False
  end.
Proof.
  intros. pose proof (fv_run_opp L h fv_new fv_new fv_new_opp) as H. destruct (fv_run L h fv_new) as [[f ys]|], (fv_run L (map fv_flip h) fv_new) as [[g zs]|]; cbn [orel fst snd] in H; tauto.
Qed.

(** ** Ladders *)
Theorem C117_stilson : forall r0 sr s os, st_init r0 sr = Val s -> ropp (Forall2 opp) (rruns st_call s os) (rruns st_call s (map st_flip os)).
Proof. intros r0 sr s os E. apply (rruns_opp st_call st_flip st_opp st_step_opp). exact (st_init_opp _ _ _ E). Qed.
Theorem C117_microtracker : forall sr os, Forall2 opp (snd (mg_run mt_call (mt_init sr) os)) (snd (mg_run mt_call (mt_init sr) (map mt_flip os))).
Proof. intros. apply (run_opp mt_call mt_flip mt_opp mt_step_opp). apply mt_init_opp. Qed.
Theorem C117_rksimulation : forall sr os, Forall2 opp (snd (mg_run rk_call (rk_init sr) os)) (snd (mg_run rk_call (rk_init sr) (map rk_flip os))).
Proof. intros. apply (run_opp rk_call rk_flip rk_opp rk_step_opp). apply rk_init_opp. Qed.
Theorem C117_musicdsp : forall L r0 sr os, Forall2 opp (snd (mg_run (md_call L) (md_init L r0 sr) os)) (snd (mg_run (md_call L) (md_init L r0 sr) (map md_flip os))).
Proof. intros. apply (run_opp (md_call L) md_flip md_opp (md_step_opp L)). apply md_init_opp. Qed.
Theorem C117_oberheim : forall L sr os, odd (d_tanh L) -> Forall2 opp (snd (mg_run (ob_call L) (ob_init L sr) os)) (snd (mg_run (ob_call L) (ob_init L sr) (map ob_flip os))).
Proof. intros L sr os HT. apply (run_opp (ob_call L) ob_flip ob_opp (fun s t o => ob_step_opp L s t o HT)). apply ob_init_opp. Qed.
Theorem C117_improved : forall L sr os, odd (d_tanh L) -> Forall2 opp (snd (mg_run (im_call L) (im_init sr) os)) (snd (mg_run (im_call L) (im_init sr) (map im_flip os))).
Proof. intros L sr os HT. apply (run_opp (im_call L) im_flip im_opp (fun s t o => im_step_opp L s t o HT)). apply im_init_opp. Qed.
(** Krajeski's clamp turns NaN into its lower bound, so this one needs the settings of C50 under which no NaN arises. *)
Theorem C117_krajeski : forall L sr os, dtanh_unit L -> dpow_acc L -> mg_rate sr -> odd (d_tanh L) ->
  (forall o, In o os -> match o with KjCut c => mg_cut (3 / 10) sr c | KjRes r => is_nan r = false | KjTick x => is_finite x = true | KjReset => True end) ->
  Forall2 opp (snd (mg_run (kj_call L) (kj_init L sr) os)) (snd (mg_run (kj_call L) (kj_init L sr) (map kj_flip os))).
Proof.
  intros L sr os HT HL Hr HO Ho. apply (run_ok_opp (kj_call L) kj_flip (kj_op_ok sr) (fun s t => kj_opp s t /\ kj_inv sr s)).
  - intros s t o K H. now apply kj_step_opp.
  - apply Forall_forall. intros o I. specialize (Ho o I). destruct o; exact Ho.
  - split; [apply kj_init_opp|now apply kj_init_inv].
Qed.
Lemma poly_tanh_odd : odd poly_tanh.
Proof.
  intros x y H. unfold poly_tanh. assert (N : is_nan x = is_nan y) by (destruct x, y; try discriminate H; reflexivity). rewrite <- N. destruct (is_nan x) eqn:Nx; [reflexivity|].
  assert (P : opp (dz 1) (fneg (dz 1))) by apply opp_neg. pose proof (opp_sym _ _ P) as Q.
  rewrite (opp_flt _ _ _ _ H P), (opp_flt _ _ _ _ Q H). destruct (flt x (fneg (dz 1))) eqn:A, (flt (dz 1) x) eqn:B; auto.
  exfalso. destruct (is_finite x) eqn:F.
  - apply flt_R in A; [|exact F|reflexivity]. apply flt_R in B; [|reflexivity|exact F]. rewrite fneg_R in A. pose proof one_R64. lra.
  - destruct (nf_cases x F) as [->|[[] ->]]; vm_compute in A, B; discriminate.
Qed.
Theorem C117_krajeski_nan_refuted : exists L sr, odd (d_tanh L) /\ mg_rate sr /\
  ~ Forall2 opp (snd (mg_run (kj_call L) (kj_init L sr) [KjTick B754_nan])) (snd (mg_run (kj_call L) (kj_init L sr) (map kj_flip [KjTick B754_nan]))).
Proof.
  exists poly_libm, (fofZ 48000). split; [exact poly_tanh_odd|]. split; [split; [reflexivity|fval (fofZ 48000 : f32); lra]|]. intros H.
  assert (E : forall y, In y (snd (mg_run (kj_call poly_libm) (kj_init poly_libm (fofZ 48000)) [KjTick B754_nan])) -> opp y y).
  { cbn [map kj_flip] in H. intros y I. change (fneg (B754_nan : f32)) with (B754_nan : f32) in H.
    remember (snd (mg_run (kj_call poly_libm) (kj_init poly_libm (fofZ 48000)) [KjTick B754_nan])) as l eqn:El. clear El. revert I.
    assert (G : forall l : list f32, Forall2 opp l l -> In y l -> opp y y). { clear. induction l as [|a l IH]; intros H I; [destruct I|]. inversion H; subst. destruct I as [<-|I]; auto. }
    now apply G. }
  specialize (E (snd (kj_tick poly_libm (kj_init poly_libm (fofZ 48000)) B754_nan))). apply (fun P => P (or_introl eq_refl)) in E. vm_compute in E. discriminate E.
Qed.

(** ** Tape: with no bias *)
Lemma head_opp (l l' : list f32) : Forall2 opp l l' -> match l, l' with a :: _, b :: _ => opp a b | _, _ => True end.
Proof. destruct 1; auto. Qed.
Theorem C117_tape : forall L sr os, odd (m_tanh L) -> (forall b, In (TBias b) os -> fin b /\ B2R b = 0%R) ->
  Forall2 opp (snd (runs (tp_op L) (tp_init L sr) os)) (snd (runs (tp_op L) (tp_init L sr) (map tp_flip os))).
Proof.
  intros L sr os HT HB. apply (runs_opp (tp_op L) tp_flip no_bias tp_opp (fun s t o => tp_step_opp L s t o HT)).
  - apply Forall_forall. intros o I. destruct o; try exact Logic.I. now apply HB.
  - constructor; try reflexivity; try exact opp_zero. split; reflexivity.
Qed.
Lemma toy_tanh_odd : odd (m_tanh toy_tape).
Proof.
  intros x y H. cbn [toy_tape m_tanh]. unfold clamp. assert (P : opp (fneg one) (one : f32)) by (apply opp_sym, opp_neg). assert (Q : opp (one : f32) (fneg one)) by apply opp_neg.
  rewrite (opp_flt _ _ _ _ H Q), (opp_flt _ _ _ _ P H). destruct (flt x (fneg one)) eqn:A, (flt one x) eqn:B; auto.
  exfalso. destruct (is_finite x) eqn:F.
  - apply flt_R in A; [|exact F|reflexivity]. apply flt_R in B; [|reflexivity|exact F]. rewrite fneg_R, one_R in A. rewrite one_R in B. lra.
  - destruct (nf_cases x F) as [->|[[] ->]]; vm_compute in A, B; discriminate.
Qed.
Theorem C117_tape_bias_refuted : exists L sr os, odd (m_tanh L) /\ tanh_unit L /\
  ~ Forall2 opp (snd (runs (tp_op L) (tp_init L sr) os)) (snd (runs (tp_op L) (tp_init L sr) (map tp_flip os))).
Proof.
  exists toy_tape, (fofZ 48000), [TBias half; TTick half]. split; [exact toy_tanh_odd|]. split; [exact toy_tanh_unit|]. intros H. apply head_opp in H. vm_compute in H. discriminate H.
Qed.

(** ** Panners and crossfader *)
Theorem C117_pan : forall L (x y r s pos level : f32),
  opp2 (pan2_process L x pos) (pan2_process L (fneg x) pos) /\ (forall p, opp2 (pan2_tick p x) (pan2_tick p (fneg x))) /\
  opp2 (bal2_process L x r pos level) (bal2_process L (fneg x) (fneg r) pos level) /\ (forall b, opp2 (bal2_tick b x r) (bal2_tick b (fneg x) (fneg r))) /\
  opp (xf_process L x y pos level) (xf_process L (fneg x) (fneg y) pos level) /\
  opp2 (xf_process2 L (x, r) (y, s) pos level) (xf_process2 L (fneg x, fneg r) (fneg y, fneg s) pos level) /\
  (forall f, opp (xf_tick f x y) (xf_tick f (fneg x) (fneg y))) /\ (forall f, opp2 (xf_tick2 f (x, r) (y, s)) (xf_tick2 f (fneg x, fneg r) (fneg y, fneg s))).
Proof.
  intros. pose proof (opp_neg x). pose proof (opp_neg y). pose proof (opp_neg r). pose proof (opp_neg s).
  unfold opp2, pan2_process, pan2_tick, bal2_process, bal2_tick, xf_process, xf_process2, xf_tick, xf_tick2, computeGains. cbv zeta. cbn [fst snd]. repeat split; intros; opps.
Qed.

(** Positive and negative samples, an infinity, a setting changed on the way: both runs computed. *)
Example ex_C117 :
  let os := [RkTick half; RkDrive (fofZ 2); RkTick (fofZ (-3)); RkOver 2; RkTick (B754_infinity true); RkReset; RkTick half] in
  length (snd (mg_run rk_call (rk_init (fofZ 48000)) os)) = 4%nat /\
  (exists y z : f32, hd_error (snd (mg_run rk_call (rk_init (fofZ 48000)) os)) = Some y /\ hd_error (snd (mg_run rk_call (rk_init (fofZ 48000)) (map rk_flip os))) = Some z /\
    (0 < B2R y)%R /\ B2R z = (- B2R y)%R).
Proof.
  split; [vm_compute; reflexivity|]. eexists. eexists. split; [vm_compute; reflexivity|]. split; [vm_compute; reflexivity|]. cbn [B2R]. unfold F2R. cbn [Fnum Fexp cond_Zopp Z.opp].
  pose proof (bpow_gt_0 radix2 (-41)). split; [|lra]. apply Rmult_lt_0_compat; [lra|apply bpow_gt_0].
Qed.
Example ex_C117_tape : odd (m_tanh exact_libm) /\
  snd (runs (tp_op toy_tape) (tp_init toy_tape (fofZ 48000)) [TTick half; TTick2 (fofZ 3) (fofZ (-4))]) <> [] /\
  Forall2 opp (snd (runs (tp_op toy_tape) (tp_init toy_tape (fofZ 48000)) [TTick half; TTick2 (fofZ 3) (fofZ (-4))]))
    (snd (runs (tp_op toy_tape) (tp_init toy_tape (fofZ 48000)) [TTick (fneg half); TTick2 (fneg (fofZ 3)) (fneg (fofZ (-4)))])).
Proof.
  split; [exact (proj1 exact_tanh_odd)|]. split; [discriminate|]. apply (C117_tape toy_tape (fofZ 48000) [TTick half; TTick2 (fofZ 3) (fofZ (-4))] toy_tanh_odd).
  intros b [H|[H|[]]]; discriminate H.
Qed.
Print Assumptions C117_lag.
Print Assumptions C117_onepole.
Print Assumptions C117_dcblock.
Print Assumptions C117_laglinear.
Print Assumptions C117_rlpf.
Print Assumptions C117_downsampler.
Print Assumptions C117_combc.
Print Assumptions C117_fverb.
Print Assumptions C117_stilson.
Print Assumptions C117_microtracker.
Print Assumptions C117_rksimulation.
Print Assumptions C117_musicdsp.
Print Assumptions C117_oberheim.
Print Assumptions C117_improved.
Print Assumptions C117_krajeski.
Print Assumptions C117_krajeski_nan_refuted.
Print Assumptions C117_tape.
Print Assumptions C117_tape_bias_refuted.
Print Assumptions C117_pan.
