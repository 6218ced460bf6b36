(** C121: changing a parameter disturbs neither the signal nor the other parameters. *)
From Coq Require Import ZArith Reals Lra Lia Bool List Relations.
From Flocq Require Import Core BinarySingleNaN.
From Verif Require Import Flt FltFacts Libm Res UtilModel OscModel EnvModel SmoothModel LineModel RdModel VcModel LpModel CombModel.
From Verif Require Import PanSpec MgBase StModel KjModel MtModel RkModel ImModel MdModel ObModel DefProps.
Import ListNotations.
Local Open Scope flt_scope.

(** [set] to [b], any other calls, then [set] to some other value and back to [b]: as if the last two calls had not been made. *)
Definition undone {S A} (set : S -> A -> S) (other : S -> S -> Prop) : Prop :=
  forall s a b t, clos_refl_trans S other (set s b) t -> set (set t a) b = t.
(** Two setters may be called in either order. *)
Definition commute {S A B} (f : S -> A -> S) (g : S -> B -> S) : Prop := forall s a b, g (f s a) b = f (g s b) a.

Lemma undone_intro {S A} (set : S -> A -> S) (other : S -> S -> Prop) :
  (forall s a b, set (set s a) b = set s b) -> (forall s b s', other s s' -> set s b = s -> set s' b = s') -> undone set other.
Proof.
  intros L I s a b t H. rewrite L. assert (E : set (set s b) b = set s b) by apply L. revert E. generalize (set s b) H. clear s H.
  intros s H. induction H as [x y R|x|x y z _ IH1 _ IH2]; intros E; [exact (I _ _ _ R E)|exact E|exact (IH2 (IH1 E))].
Qed.
Ltac und := intros s b s' H E; cbv beta in H; repeat match goal with H : _ \/ _ |- _ => destruct H | H : Coq.Init.Logic.ex _ |- _ => destruct H end; subst s'; rewrite <- E; try reflexivity.

(** SinOsc, LFTri, SawDPW and LFNoise2: the frequency. *)
Theorem C121_oscillators : forall L,
  undone so_setFrequency (fun s s' => s' = fst (so_tick L s) \/ exists p, s' = so_reset s p) /\
  undone lt_setFrequency (fun s s' => s' = fst (lt_tick s) \/ exists p, s' = lt_reset s p) /\
  undone sw_setFrequency (fun s s' => s' = fst (sw_tick s) \/ s' = sw_reset s) /\
  undone ln_setFrequency (fun s s' => s' = fst (ln_tick s) \/ (exists k, s' = ln_setSeed s k) \/ exists k, s' = ln_reset s k).
Proof.
  intros L. repeat split; (apply undone_intro; [reflexivity|und]). unfold ln_tick. destruct (_ >=? one); reflexivity.
Qed.
(** Lag, OnePoleLPF and DCBlock. *)
Theorem C121_smoothers : forall L,
  undone (lg_setLagTime L) (fun s s' => (exists x, s' = fst (lg_tick s x)) \/ (exists v, s' = lg_setValue s v) \/ s' = lg_reset s) /\
  undone (op_setCutoff L) (fun s s' => (exists x, s' = fst (op_tick s x)) \/ (exists x c, s' = fst (op_tickmod L s x c)) \/ s' = op_reset s) /\
  undone (dc_setCutoff L) (fun s s' => (exists x, s' = fst (dc_tick s x)) \/ (exists x, s' = fst (dc_tickStereo s x)) \/ s' = dc_reset s).
Proof. intros L. repeat split; (apply undone_intro; [reflexivity|und]). Qed.
(** Tape: bias and gain. *)
Theorem C121_tape : forall L,
  undone tp_setBias (fun s s' => (exists x, s' = fst (tp_tick L s x)) \/ (exists x, s' = fst (tp_tickStereo L s x)) \/ (exists g, s' = tp_setPregain s g) \/ s' = tp_reset s) /\
  undone tp_setPregain (fun s s' => (exists x, s' = fst (tp_tick L s x)) \/ (exists x, s' = fst (tp_tickStereo L s x)) \/ (exists g, s' = tp_setBias s g) \/ s' = tp_reset s) /\
  commute tp_setBias tp_setPregain.
Proof. intros L. repeat split; (apply undone_intro; [reflexivity|und]). Qed.
(** EnvelopeAR. *)
Lemma ar_tick_with e : exists v s g, fst (ar_tick e) = ar_with e v s g.
Proof. unfold ar_tick. destruct (ar_state e); [|destruct (_ >=? c999)|destruct (_ <=? c0001)]; cbn [fst]; do 3 eexists; reflexivity. Qed.
Lemma ar_gate_with e b : exists v s g, ar_setGate e b = ar_with e v s g.
Proof. unfold ar_setGate. destruct (_ && _); [|destruct (_ && _)]; [do 3 eexists; reflexivity..|]. exists (ar_value e), (ar_state e), (ar_gate e). now destruct e. Qed.
Theorem C121_envelope_ar : forall L,
  undone (ar_setAttack L) (fun e e' => exists o, match o with ArOInit _ | ArOAttack _ => False | _ => True end /\ e' = fst (ar_step L e o)) /\
  undone (ar_setRelease L) (fun e e' => exists o, match o with ArOInit _ | ArORelease _ => False | _ => True end /\ e' = fst (ar_step L e o)) /\
  commute (ar_setAttack L) (ar_setRelease L).
Proof.
  intros L. repeat split; (apply undone_intro; [reflexivity|]); intros e t e' [o [Ho ->]] E; destruct o; try destruct Ho; cbn [ar_step fst].
  all: try (rewrite <- E; reflexivity).
  all: try (destruct (ar_gate_with e b) as (v & s & g & ->); rewrite <- E; reflexivity).
  all: destruct (ar_tick_with e) as (v & s & g & X); destruct (ar_tick e) as [e1 x1]; cbn [fst] in *; rewrite X; rewrite <- E; reflexivity.
Qed.
(** EnvelopeADSR. *)
Lemma ad_tick_with e : exists v s g d, fst (ad_tick e) = ad_with e v s g d.
Proof.
  unfold ad_tick. destruct (ad_state e); [|destruct (_ >=? c999)|destruct (_ <? c001)| |destruct (_ <=? c0001)]; cbn [fst]; do 4 eexists; reflexivity.
Qed.
Lemma ad_gate_with e b : exists v s g d, ad_setgate e b = ad_with e v s g d.
Proof. unfold ad_setgate. destruct (_ && _); [|destruct (_ && _)]; do 4 eexists; reflexivity. Qed.
Theorem C121_envelope_adsr : forall L,
  undone (ad_setAttack L) (fun e e' => exists o, match o with AdInit _ | AdAttack _ => False | _ => True end /\ e' = fst (ad_step L e o)) /\
  undone (ad_setDecay L) (fun e e' => exists o, match o with AdInit _ | AdDecay _ => False | _ => True end /\ e' = fst (ad_step L e o)) /\
  undone ad_setSustain (fun e e' => exists o, match o with AdInit _ | AdSustain _ => False | _ => True end /\ e' = fst (ad_step L e o)) /\
  undone (ad_setRelease L) (fun e e' => exists o, match o with AdInit _ | AdRelease _ => False | _ => True end /\ e' = fst (ad_step L e o)) /\
  undone ad_setDoneAction (fun e e' => exists o, match o with AdInit _ | AdAction _ => False | _ => True end /\ e' = fst (ad_step L e o)).
Proof.
  intros L. repeat split; (apply undone_intro; [reflexivity|]); intros e t e' [o [Ho ->]] E; destruct o; try destruct Ho; cbn [ad_step fst].
  all: try (rewrite <- E; reflexivity).
  all: try (destruct (ad_gate_with e g) as (v & s & h & d & ->); rewrite <- E; reflexivity).
  all: destruct (ad_tick_with e) as (v & s & h & d & X); destruct (ad_tick e) as [e1 x1]; cbn [fst] in *; rewrite X; rewrite <- E; reflexivity.
Qed.
(** Phasor: rate, start, end and reset position. *)
Definition ph_other (r st en po : bool) (p p' : phasor) : Prop :=
  p' = fst (ph_tick p) \/ (exists t, p' = fst (ph_tickTrig p t)) \/ (exists x, p' = ph_resetTo p x) \/ p' = ph_reset p \/
  (r = true /\ exists x, p' = ph_setRate p x) \/ (st = true /\ exists x, p' = ph_setStart p x) \/ (en = true /\ exists x, p' = ph_setEnd p x) \/
  (po = true /\ exists x, p' = ph_setResetPos p x).
Theorem C121_phasor :
  undone ph_setRate (ph_other false true true true) /\ undone ph_setStart (ph_other true false true true) /\
  undone ph_setEnd (ph_other true true false true) /\ undone ph_setResetPos (ph_other true true true false).
Proof.
  unfold ph_other. repeat split; (apply undone_intro; [reflexivity|]); intros s b s' H E; cbv beta in H;
    repeat match goal with H : _ \/ _ |- _ => destruct H | H : Coq.Init.Logic.ex _ |- _ => destruct H | H : _ /\ _ |- _ => destruct H end; try discriminate; subst s'; rewrite <- E; reflexivity.
Qed.
(** BufRd: buffer, looping and interpolation. *)
Theorem C121_bufrd : commute rd_setBuffer rd_setLoop /\ commute rd_setBuffer rd_setInterpolation /\ commute rd_setLoop rd_setInterpolation /\
  (forall r b b', rd_setBuffer (rd_setBuffer r b') b = rd_setBuffer r b) /\ (forall r b b', rd_setLoop (rd_setLoop r b') b = rd_setLoop r b) /\
  (forall r b b', rd_setInterpolation (rd_setInterpolation r b') b = rd_setInterpolation r b) /\
  (forall r b l m, rd_setInterpolation (rd_setLoop (rd_setBuffer r b) l) m = BufRd b l m).
Proof. repeat split. Qed.
(** RLPF. *)
Theorem C121_rlpf : forall L,
  undone (lp_setFreq L) (fun s s' => exists o, match o with LpFreq _ => False | _ => True end /\ s' = fst (lp_call L s o)) /\
  undone (lp_setResonance L) (fun s s' => exists o, match o with LpRes _ => False | _ => True end /\ s' = fst (lp_call L s o)) /\
  commute (lp_setFreq L) (lp_setResonance L).
Proof.
  intros L. repeat split; (apply undone_intro; [reflexivity|]); intros e t e' [o [Ho ->]] E; destruct o; try destruct Ho; rewrite <- E; reflexivity.
Qed.
(** The ladders.  What a tick leaves alone: *)
Lemma kj_shape L s x : exists a b c d e f g h i, fst (kj_call L s (KjTick x)) = Kj (kj_sr s) (kj_cut s) (kj_res s) a b c d e f g h i (kj_wc s) (kj_g s) (kj_gRes s).
Proof. cbn [kj_call]. unfold kj_tick. cbn [fst]. do 9 eexists. reflexivity. Qed.
Lemma mt_shape s x : exists a b c d e f g, fst (mt_call s (MtTick x)) = Mt (mt_sr s) (mt_cut s) (mt_res s) a b c d e f g (mt_c s).
Proof. cbn [mt_call]. unfold mt_tick. cbn [fst]. do 7 eexists. reflexivity. Qed.
Lemma rk_shape s x : exists q, fst (rk_call s (RkTick x)) = Rk (rk_sr s) (rk_cut s) (rk_res s) (rk_drive s) (rk_makeup s) q (rk_coeff s) (rk_over s) (rk_step s).
Proof. cbn [rk_call]. unfold rk_tick. cbn [fst]. eexists. reflexivity. Qed.
Ltac ladp := apply undone_intro; [reflexivity|]; let o := fresh "o" in intros e t e' [o [Ho ->]] E; destruct o; try destruct Ho.
(** Krajeski; its setResonance also takes the cutoff into account, and setCutoff does not (C51). *)
Theorem C121_krajeski : forall L,
  undone (kj_setCutoff L) (fun s s' => exists o, match o with KjCut _ => False | _ => True end /\ s' = fst (kj_call L s o)) /\
  undone (kj_setResonance L) (fun s s' => exists o, match o with KjRes _ | KjCut _ => False | _ => True end /\ s' = fst (kj_call L s o)).
Proof.
  intros L. split; ladp; try (destruct (kj_shape L e x) as (a1 & a2 & a3 & a4 & a5 & a6 & a7 & a8 & a9 & ->)); try (rewrite <- E; reflexivity).
Qed.
Theorem C121_microtracker :
  undone mt_setCutoff (fun s s' => exists o, match o with MtCut _ => False | _ => True end /\ s' = fst (mt_call s o)) /\
  undone mt_setResonance (fun s s' => exists o, match o with MtRes _ => False | _ => True end /\ s' = fst (mt_call s o)).
Proof.
  split; ladp; try (destruct (mt_shape e x) as (a1 & a2 & a3 & a4 & a5 & a6 & a7 & ->)); try (rewrite <- E; reflexivity).
Qed.
Theorem C121_rksimulation :
  undone rk_setCutoff (fun s s' => exists o, match o with RkCut _ => False | _ => True end /\ s' = fst (rk_call s o)) /\
  undone rk_setResonance (fun s s' => exists o, match o with RkRes _ => False | _ => True end /\ s' = fst (rk_call s o)) /\
  undone rk_setDrive (fun s s' => exists o, match o with RkDrive _ => False | _ => True end /\ s' = fst (rk_call s o)) /\
  undone rk_setOversample (fun s s' => exists o, match o with RkOver _ => False | _ => True end /\ s' = fst (rk_call s o)).
Proof.
  repeat split; ladp; try (destruct (rk_shape e x) as (q & ->)); try (rewrite <- E; reflexivity).
Qed.
Lemma im_shape L s x : exists c0 c1 c2 c3, fst (im_call L s (ImTick x)) = Im (im_sr s) (im_cut s) (im_res s) (im_makeup s) (im_x s) (im_g s) (im_drive s) c0 c1 c2 c3.
Proof. cbn [im_call]. unfold im_tick. cbn [fst]. do 4 eexists. reflexivity. Qed.
Theorem C121_improved : forall L,
  undone im_setCutoff (fun s s' => exists o, match o with ImCut _ => False | _ => True end /\ s' = fst (im_call L s o)) /\
  undone im_setResonance (fun s s' => exists o, match o with ImRes _ => False | _ => True end /\ s' = fst (im_call L s o)) /\
  undone im_setDrive (fun s s' => exists o, match o with ImDrive _ => False | _ => True end /\ s' = fst (im_call L s o)).
Proof.
  intros L. repeat split; ladp; try (destruct (im_shape L e x) as (a1 & a2 & a3 & a4 & ->)); try (rewrite <- E; reflexivity).
Qed.
Lemma ob_shape L s x : exists a b c d, fst (ob_call L s (ObTick x)) =
  Ob (ob_sr s) (ob_cut s) (ob_res s) (ob_alpha s) (ObPole (ob_beta (ob_0 s)) a) (ObPole (ob_beta (ob_1 s)) b) (ObPole (ob_beta (ob_2 s)) c) (ObPole (ob_beta (ob_3 s)) d) (ob_K s) (ob_gamma s) (ob_alpha0 s).
Proof. cbn [ob_call]. unfold ob_tick, ob_stage. cbn [fst]. do 4 eexists. reflexivity. Qed.
Theorem C121_oberheim : forall L,
  undone (ob_setCutoff L) (fun s s' => exists o, match o with ObCut _ => False | _ => True end /\ s' = fst (ob_call L s o)) /\
  undone ob_setResonance (fun s s' => exists o, match o with ObRes _ => False | _ => True end /\ s' = fst (ob_call L s o)).
Proof.
  intros L. split; ladp; try (destruct (ob_shape L e x) as (a1 & a2 & a3 & a4 & ->)); try (rewrite <- E; reflexivity).
Qed.
(** MusicDSP: setCutoff recomputes the feedback for the stored (already limited) resonance. *)
Lemma md_shape L s x : exists a b c d e f g h, fst (md_call L s (MdTick x)) = Md (md_sr s) (md_cut s) (md_res s) (md_p s) (md_k s) (md_t1 s) (md_t2 s) (md_rc s) a b c d e f g h.
Proof. cbn [md_call]. unfold md_tick. cbn [fst]. do 8 eexists. reflexivity. Qed.
Theorem C121_musicdsp : forall L,
  undone (md_setCutoff L) (fun s s' => exists o, match o with MdCut _ => False | _ => True end /\ s' = fst (md_call L s o)) /\
  undone md_setResonance (fun s s' => exists o, match o with MdRes _ => False | _ => True end /\ s' = fst (md_call L s o)).
Proof.
  intros L. destruct (md_cut_shape L) as (P & K & T1 & T2 & H). destruct md_res_shape as (R & G).
  split; (apply undone_intro; [intros; rewrite ?H, ?G; cbn [md_sr md_cut md_res md_p md_k md_t1 md_t2 md_rc md_s0 md_s1 md_s2 md_s3 md_y0 md_y1 md_y2 md_y3]; rewrite ?unit_clamp_twice; reflexivity|]);
    intros e t e' [o [Ho ->]] E; destruct o; try destruct Ho; try (destruct (md_shape L e x) as (a1 & a2 & a3 & a4 & a5 & a6 & a7 & a8 & ->));
    cbn [md_call fst]; rewrite <- E; unfold md_reset; rewrite ?H, ?G; cbn [md_sr md_cut md_res md_p md_k md_t1 md_t2 md_rc md_s0 md_s1 md_s2 md_s3 md_y0 md_y1 md_y2 md_y3]; rewrite ?unit_clamp_twice; reflexivity.
Qed.
(** CombC, as long as the calls are defined. *)
Lemma cb_shape fuel c x y c' : cb_tick fuel c x = Val (y, c') -> exists b w, c' = Comb (cb_sr c) b (cb_max c) (cb_dt c) (cb_dc c) (cb_fb c) (cb_size c) w.
Proof.
  unfold cb_tick. cbv zeta. repeat match goal with |- context [rbind ?e _] => destruct e as [?| |]; cbn [rbind]; [|discriminate..] end.
  intros H. injection H as _ <-. do 2 eexists. reflexivity.
Qed.
Theorem C121_comb : forall L fuel,
  undone (cb_setDelayTime L) (fun c c' => exists o r, match o with CbDelay _ => False | _ => True end /\ cb_call L fuel c o = Val (c', r)) /\
  undone (cb_setDecayTime L) (fun c c' => exists o r, match o with CbDecay _ => False | _ => True end /\ cb_call L fuel c o = Val (c', r)) /\
  commute (cb_setDelayTime L) (cb_setDecayTime L).
Proof.
  intros L fuel. split; [|split; [|intros s a b; reflexivity]]; (apply undone_intro; [reflexivity|]); intros e t e' (o & r & Ho & X) E; destruct o; try destruct Ho; cbn [cb_call] in X.
  all: try (injection X as <- _; rewrite <- E; reflexivity).
  all: destruct (cb_tick fuel e x) as [[y c1]| |] eqn:T; cbn [rbind] in X; try discriminate X; injection X as <- _; cbn [snd];
       destruct (cb_shape _ _ _ _ _ T) as (b & w & ->); rewrite <- E; reflexivity.
Qed.
(** ExampleVoice: all parameters but the frequency, which the vibrato moves. *)
Lemma ev_shape L v : exists osc pan, fst (ev_tick L v) = Voice osc (fst (ar_tick (ev_env v))) (fst (ev_vibrato v)) pan (ev_base v) (ev_depth v) (ev_pdepth v) (ev_amp v) (ev_sr v).
Proof.
  unfold ev_tick. destruct (ev_vibrato v) as [vib osc]. unfold so_tick. destruct (ar_tick (ev_env v)) as [e o]. destruct (ln_tick (ev_pan v)) as [pn q]. do 2 eexists. reflexivity.
Qed.
Definition ev_other (L : libm) (own : ev_op -> bool) (v v' : voice) : Prop := exists o, match o with EvInit _ => False | _ => own o = false end /\ v' = fst (ev_call L v o).
Theorem C121_voice_levels : forall L,
  undone ev_setVibratoDepth (ev_other L (fun o => match o with EvDepth _ => true | _ => false end)) /\
  undone ev_setPanDepth (ev_other L (fun o => match o with EvPan _ => true | _ => false end)) /\
  undone ev_setAmplitude (ev_other L (fun o => match o with EvAmp _ => true | _ => false end)).
Proof.
  intros L. split; [|split]; (apply undone_intro; [reflexivity|]); intros v t v' [o [Ho ->]] E.
  - apply (f_equal ev_depth) in E. cbn [ev_setVibratoDepth ev_depth] in E. apply ev_depth_id.
    destruct o; try discriminate Ho; try contradiction Ho; cbn [ev_call fst]; try exact E.
    destruct (ev_shape L v) as (osc & pan & X). destruct (ev_tick L v) as [v1 y1]. cbn [fst] in *. rewrite X. exact E.
  - apply (f_equal ev_pdepth) in E. cbn [ev_setPanDepth ev_pdepth] in E. apply ev_pan_id.
    destruct o; try discriminate Ho; try contradiction Ho; cbn [ev_call fst]; try exact E.
    destruct (ev_shape L v) as (osc & pan & X). destruct (ev_tick L v) as [v1 y1]. cbn [fst] in *. rewrite X. exact E.
  - apply (f_equal ev_amp) in E. cbn [ev_setAmplitude ev_amp] in E. apply ev_amp_id.
    destruct o; try discriminate Ho; try contradiction Ho; cbn [ev_call fst]; try exact E.
    destruct (ev_shape L v) as (osc & pan & X). destruct (ev_tick L v) as [v1 y1]. cbn [fst] in *. rewrite X. exact E.
Qed.
Lemma ln_tick_keeps s f : ln_setFrequency s f = s -> ln_setFrequency (fst (ln_tick s)) f = fst (ln_tick s).
Proof. intros E. rewrite <- E. unfold ln_tick. destruct (_ >=? one); reflexivity. Qed.
Lemma ev_vibrato_keeps v f : ln_setFrequency (ev_vib v) f = ev_vib v -> ln_setFrequency (fst (ev_vibrato v)) f = fst (ev_vibrato v).
Proof.
  intros E. unfold ev_vibrato. destruct (ev_depth v >? zero); [|exact E]. pose proof (ln_tick_keeps _ _ E) as K. destruct (ln_tick (ev_vib v)) as [a b]. exact K.
Qed.
Lemma ev_rate_inv v r : ev_setVibratoRate v r = v -> ln_setFrequency (ev_vib v) r = ev_vib v.
Proof. intros E. exact (f_equal ev_vib E). Qed.
Theorem C121_voice_rate : forall L, undone ev_setVibratoRate (ev_other L (fun o => match o with EvRate _ => true | _ => false end)).
Proof.
  intros L. apply undone_intro; [reflexivity|]. intros v t v' [o [Ho ->]] E. apply ev_rate_inv in E. apply ev_rate_id.
  destruct o; try discriminate Ho; try contradiction Ho; cbn [ev_call fst]; try exact E.
  - destruct (ev_shape L v) as (osc & pan & X). destruct (ev_tick L v) as [v1 y1]. cbn [fst] in *. rewrite X. exact (ev_vibrato_keeps _ _ E).
  - cbn [ev_reset ev_vib]. rewrite <- E. reflexivity.
Qed.
Lemma ar_tick_keeps (set : ar -> f32 -> ar) : (forall e v s g t, set (ar_with e v s g) t = ar_with (set e t) v s g) -> forall e t, set e t = e ->
  set (fst (ar_tick e)) t = fst (ar_tick e) /\ (forall b, set (ar_setGate e b) t = ar_setGate e b) /\ set (ar_reset e) t = ar_reset e /\ set (ar_trigger e) t = ar_trigger e /\ set (ar_release e) t = ar_release e.
Proof.
  intros W e t E. split; [destruct (ar_tick_with e) as (v & s & g & ->); rewrite W, E; reflexivity|]. split.
  - intros b. destruct (ar_gate_with e b) as (v & s & g & ->). rewrite W, E. reflexivity.
  - split; [|split]; unfold ar_reset, ar_trigger, ar_release; rewrite W, E; reflexivity.
Qed.
Theorem C121_voice_times : forall L,
  undone (ev_setAttack L) (ev_other L (fun o => match o with EvAttack _ => true | _ => false end)) /\
  undone (ev_setRelease L) (ev_other L (fun o => match o with EvRelTime _ => true | _ => false end)).
Proof.
  intros L. split; (apply undone_intro; [reflexivity|]); intros v t v' [o [Ho ->]] E; apply (f_equal ev_env) in E; cbn [ev_setAttack ev_setRelease ev_with_env ev_env] in E; apply ev_env_id.
  - destruct (ar_tick_keeps (ar_setAttack L) ltac:(reflexivity) _ _ E) as (K1 & K2 & K3 & K4 & K5).
    destruct o; try discriminate Ho; try contradiction Ho; cbn [ev_call fst]; try exact E; try apply K2; try exact K3; try exact K4; try exact K5.
    + cbn [ev_setRelease ev_with_env ev_env]. rewrite <- E. reflexivity.
    + destruct (ev_shape L v) as (osc & pan & X). destruct (ev_tick L v) as [v1 y1]. cbn [fst] in *. rewrite X. exact K1.
  - destruct (ar_tick_keeps (ar_setRelease L) ltac:(reflexivity) _ _ E) as (K1 & K2 & K3 & K4 & K5).
    destruct o; try discriminate Ho; try contradiction Ho; cbn [ev_call fst]; try exact E; try apply K2; try exact K3; try exact K4; try exact K5.
    + cbn [ev_setAttack ev_with_env ev_env]. rewrite <- E. reflexivity.
    + destruct (ev_shape L v) as (osc & pan & X). destruct (ev_tick L v) as [v1 y1]. cbn [fst] in *. rewrite X. exact K1.
Qed.
(** SuperSaw: frequency, vibrato depth, spread and the envelope. *)
Lemma ss_shape L s : exists vs, fst (ss_tick L s) = SSaw vs (fst (ad_tick (ss_env s))) (ss_freq s) (ss_vrate s) (ss_vdepth s) (ss_det s) (ss_spread s) (ss_sr s).
Proof. unfold ss_tick. destruct (ad_tick (ss_env s)) as [e x]. destruct (ss_mix _ _ _ _ _ _) as [vs m]. eexists. reflexivity. Qed.
Definition ss_other (L : libm) (own : ss_op -> bool) (s s' : ssaw) : Prop := exists o, match o with SsInit _ _ => False | _ => own o = false end /\ s' = fst (ss_call L s o).
Lemma ss_freq_id s f : f = ss_freq s -> ss_setFrequency s f = s.
Proof. intros ->. now destruct s. Qed.
Lemma ss_depth_id s f : f = ss_vdepth s -> ss_setVibratoDepth s f = s.
Proof. intros ->. now destruct s. Qed.
Lemma ss_spread_id s f : clamp f zero one = ss_spread s -> ss_setSpread s f = s.
Proof. intros E. unfold ss_setSpread. rewrite E. now destruct s. Qed.
Theorem C121_supersaw : forall L,
  undone ss_setFrequency (ss_other L (fun o => match o with SsFreq _ => true | _ => false end)) /\
  undone ss_setVibratoDepth (ss_other L (fun o => match o with SsDepth _ => true | _ => false end)) /\
  undone ss_setSpread (ss_other L (fun o => match o with SsSpread _ => true | _ => false end)).
Proof.
  intros L. split; [|split]; (apply undone_intro; [reflexivity|]); intros v t v' [o [Ho ->]] E.
  - apply (f_equal ss_freq) in E. cbn [ss_setFrequency ss_freq] in E. apply ss_freq_id.
    destruct o; try discriminate Ho; try contradiction Ho; cbn [ss_call fst]; try exact E.
    destruct (ss_shape L v) as (vs & X). destruct (ss_tick L v) as [v1 y1]. cbn [fst] in *. rewrite X. exact E.
  - apply (f_equal ss_vdepth) in E. cbn [ss_setVibratoDepth ss_vdepth] in E. apply ss_depth_id.
    destruct o; try discriminate Ho; try contradiction Ho; cbn [ss_call fst]; try exact E.
    destruct (ss_shape L v) as (vs & X). destruct (ss_tick L v) as [v1 y1]. cbn [fst] in *. rewrite X. exact E.
  - apply (f_equal ss_spread) in E. cbn [ss_setSpread ss_spread] in E. apply ss_spread_id.
    destruct o; try discriminate Ho; try contradiction Ho; cbn [ss_call fst]; try exact E.
    destruct (ss_shape L v) as (vs & X). destruct (ss_tick L v) as [v1 y1]. cbn [fst] in *. rewrite X. exact E.
Qed.
Lemma ad_tick_keeps (set : adsr -> f32 -> adsr) : (forall e v s g d t, set (ad_with e v s g d) t = ad_with (set e t) v s g d) -> forall e t, set e t = e ->
  set (fst (ad_tick e)) t = fst (ad_tick e) /\ (forall b, set (ad_setgate e b) t = ad_setgate e b) /\ set (ad_reset e) t = ad_reset e.
Proof.
  intros W e t E. split; [destruct (ad_tick_with e) as (v & s & g & d & ->); rewrite W, E; reflexivity|]. split.
  - intros b. destruct (ad_gate_with e b) as (v & s & g & d & ->). rewrite W, E. reflexivity.
  - unfold ad_reset. rewrite W, E. reflexivity.
Qed.
Ltac ssenv L set v t Ho E o := destruct (ad_tick_keeps set ltac:(reflexivity) _ _ E) as (K1 & K2 & K3);
    destruct o; try discriminate Ho; try contradiction Ho; cbn [ss_call fst]; try exact E; try apply K2; try exact K3;
    try (cbn [ss_setAttack ss_setDecay ss_setSustain ss_setRelease ss_with_env ss_env]; rewrite <- E; reflexivity);
    (let vs := fresh "vs" in let X := fresh "X" in destruct (ss_shape L v) as (vs & X); destruct (ss_tick L v) as [v1 y1]; cbn [fst] in *; rewrite X; exact K1).
Theorem C121_supersaw_envelope : forall L,
  undone (ss_setAttack L) (ss_other L (fun o => match o with SsAttack _ => true | _ => false end)) /\
  undone (ss_setDecay L) (ss_other L (fun o => match o with SsDecay _ => true | _ => false end)) /\
  undone ss_setSustain (ss_other L (fun o => match o with SsSustain _ => true | _ => false end)) /\
  undone (ss_setRelease L) (ss_other L (fun o => match o with SsRelease _ => true | _ => false end)).
Proof.
  intros L. split; [|split; [|split]]; (apply undone_intro; [reflexivity|]); intros v t v' [o [Ho ->]] E; apply (f_equal ss_env) in E;
    cbn [ss_setAttack ss_setDecay ss_setSustain ss_setRelease ss_with_env ss_env] in E; apply ss_env_id.
  - ssenv L (ad_setAttack L) v t Ho E o.
  - ssenv L (ad_setDecay L) v t Ho E o.
  - ssenv L ad_setSustain v t Ho E o.
  - ssenv L (ad_setRelease L) v t Ho E o.
Qed.
(** LagLinear.h:68-82 is different: setTime starts the ramp anew, so giving it the time already in force in the middle of a ramp changes the next sample (one half otherwise). *)
Theorem C121_laglinear_refuted : exists s s1 s2 y, ll_init one zero (fofZ 4) = Some s /\ ll_tick s one = Some (s1, y) /\ ll_setTime s1 (fofZ 4) = Some s2 /\
  option_map snd (ll_tick s1 one) = Some half /\ option_map snd (ll_tick s2 one) = Some (flit 7 (-4)).
Proof. do 4 eexists. repeat (split; [vm_compute; reflexivity|]). vm_compute. reflexivity. Qed.
(** Instances: one sample into a smoothed step another lag time makes a difference, and the way back removes it. *)
Example ex_C121_lag : let s := fst (lg_tick (lg_setLagTime toy_trig (lg_init toy_trig (fofZ 48000) one) zero) half) in
  lg_prev s = half /\ lg_time (lg_setLagTime toy_trig s one) = one /\ lg_setLagTime toy_trig (lg_setLagTime toy_trig s one) zero = s.
Proof. repeat split; vm_compute; reflexivity. Qed.
Example ex_C121_phasor : let p := fst (ph_tick (ph_setRate (ph_init (fofZ 48000)) half)) in
  ph_value p = half /\ ph_rate (ph_setRate p (fofZ 2)) = fofZ 2 /\ ph_setRate (ph_setRate p (fofZ 2)) half = p.
Proof. repeat split; vm_compute; reflexivity. Qed.
Example ex_C121_bufrd : rd_setLoop (rd_setBuffer (rd_setLoop (rd_init None) false) None) true = rd_init None /\ rd_loop (rd_setBuffer (rd_setLoop (rd_init None) false) None) = false.
Proof. split; reflexivity. Qed.

Print Assumptions C121_oscillators.
Print Assumptions C121_smoothers.
Print Assumptions C121_tape.
Print Assumptions C121_envelope_ar.
Print Assumptions C121_envelope_adsr.
Print Assumptions C121_phasor.
Print Assumptions C121_bufrd.
Print Assumptions C121_rlpf.
Print Assumptions C121_krajeski.
Print Assumptions C121_microtracker.
Print Assumptions C121_rksimulation.
Print Assumptions C121_improved.
Print Assumptions C121_oberheim.
Print Assumptions C121_musicdsp.
Print Assumptions C121_comb.
Print Assumptions C121_voice_levels.
Print Assumptions C121_voice_rate.
Print Assumptions C121_voice_times.
Print Assumptions C121_supersaw.
Print Assumptions C121_supersaw_envelope.
Print Assumptions C121_laglinear_refuted.
