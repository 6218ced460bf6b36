(** C122: reset gives back a fresh object with the same settings. *)
From Coq Require Import ZArith Reals Lra Lia Bool List Relations.
From Flocq Require Import Core BinarySingleNaN.
From Verif Require Import Flt FltFacts Libm Res UtilModel OscModel EnvModel SmoothModel LineModel LpModel CombModel PanSpec DefProps SetProps.
Import ListNotations.
Local Open Scope flt_scope.

(** What every call keeps, a history keeps. *)
Lemma kept {S} (P : S -> Prop) (R : S -> S -> Prop) s t : (forall a b, R a b -> P a -> P b) -> P s -> clos_refl_trans S R s t -> P t.
Proof. intros I H C. induction C as [x y r|x|x y z _ IH1 _ IH2]; [exact (I _ _ r H)|exact H|exact (IH2 (IH1 H))]. Qed.
Ltac kp C P := refine (_ (kept P _ _ _ _ _ C)); [|intros ? ? H E; cbv beta in H;
  repeat match goal with H : _ \/ _ |- _ => destruct H | H : Coq.Init.Logic.ex _ |- _ => destruct H end; subst; exact E|].

(** The oscillators, from whatever state [s] they were in when their frequency was set. *)
Theorem C122_sinosc : forall L s f t, clos_refl_trans _ (fun s s' => s' = fst (so_tick L s) \/ exists p, s' = so_reset s p) (so_setFrequency s f) t ->
  so_reset t zero = so_setFrequency (so_init (so_sr s)) f.
Proof.
  intros L s f t C. kp C (fun t => so_inc t = so_step f (so_sr s) /\ so_freq t = f /\ so_sr t = so_sr s); [|repeat split].
  intros (A & B & D). unfold so_reset. rewrite A, B, D. reflexivity.
Qed.
Theorem C122_lftri : forall s f t, clos_refl_trans _ (fun s s' => s' = fst (lt_tick s) \/ exists p, s' = lt_reset s p) (lt_setFrequency s f) t ->
  lt_reset t zero = lt_setFrequency (lt_init (lt_sr s) zero) f.
Proof.
  intros s f t C. kp C (fun t => lt_inc t = f / lt_sr s /\ lt_freq t = f /\ lt_sr t = lt_sr s); [|repeat split].
  intros (A & B & D). unfold lt_reset. rewrite A, B, D. unfold lt_setFrequency, lt_init. cbn [lt_phase lt_sr].
  assert (Z : (let p := zero * flit 1 (-2) in p - ffloor p) = (zero : f32)) by (vm_compute; reflexivity). cbv zeta in Z. rewrite Z. reflexivity.
Qed.
(** SawDPW: fresh with initial phase -1, not with the default 0 (C28). *)
Theorem C122_sawdpw : forall sr ip t, clos_refl_trans _ (fun s s' => s' = fst (sw_tick s) \/ s' = sw_reset s \/ exists f, s' = sw_setFrequency s f) (sw_init sr ip) t ->
  sw_reset t = sw_setFrequency (sw_init sr (fneg one)) (sw_freq t).
Proof.
  intros sr ip t C. assert (K : sw_inc t = sw_freq t / sr /\ sw_sr t = sr /\ sw_scale t = sr * half).
  { apply (kept (fun t => sw_inc t = sw_freq t / sr /\ sw_sr t = sr /\ sw_scale t = sr * half) _ _ _) with (3 := C); [|repeat split].
    intros a b [->|[->|[f ->]]] (A & B & D); cbn [sw_tick fst sw_reset sw_setFrequency sw_inc sw_freq sw_sr sw_scale]; rewrite ?B; auto. }
  destruct K as (A & B & D). unfold sw_reset. rewrite A, B, D. unfold sw_setFrequency, sw_init. cbn [sw_phase sw_prev sw_sr sw_scale].
  assert (Z : (let p := (fneg one + one) * half in let p := if p <? zero then zero else p in if p >? one then one else p) = (zero : f32)) by (vm_compute; reflexivity).
  cbv zeta in Z. rewrite Z. reflexivity.
Qed.
Theorem C122_sawdpw_default_refuted : forall sr ip, (sw_phase (sw_reset (sw_init sr ip)) =? sw_phase (sw_init sr zero)) = false.
Proof. intros. vm_compute. reflexivity. Qed.
Theorem C122_lfnoise2 : forall s f t k, clos_refl_trans _ (fun s s' => s' = fst (ln_tick s) \/ (exists k, s' = ln_setSeed s k) \/ exists k, s' = ln_reset s k) (ln_setFrequency s f) t ->
  ln_reset t k = ln_setFrequency (ln_init (ln_sr s) k) f.
Proof.
  intros s f t k C. set (g := if f >? zero then f else fdec 1 1000).
  assert (K : ln_inc t = g / ln_sr s /\ ln_freq t = g /\ ln_sr t = ln_sr s).
  { apply (kept (fun t => ln_inc t = g / ln_sr s /\ ln_freq t = g /\ ln_sr t = ln_sr s) _ _ _) with (3 := C); [|repeat split].
    intros a b [->|[[j ->]|[j ->]]] E; try exact E. unfold ln_tick. destruct (_ >=? one); exact E. }
  destruct K as (A & B & D). unfold ln_reset. rewrite A, B, D. reflexivity.
Qed.
(** The smoothers. *)
Theorem C122_lag : forall L s lt t, clos_refl_trans _ (fun s s' => (exists x, s' = fst (lg_tick s x)) \/ (exists v, s' = lg_setValue s v) \/ s' = lg_reset s) (lg_setLagTime L s lt) t ->
  lg_reset t = lg_init L (lg_sr s) lt.
Proof.
  intros L s lt t C. kp C (fun t => lg_sr t = lg_sr s /\ lg_time t = lt /\ lg_coeff t = lag_coeff L lt (lg_sr s)); [|repeat split].
  intros (A & B & D). unfold lg_reset, lg_setValue. rewrite A, B, D. reflexivity.
Qed.
Theorem C122_onepole : forall L s c t,
  clos_refl_trans _ (fun s s' => (exists x, s' = fst (op_tick s x)) \/ (exists x c, s' = fst (op_tickmod L s x c)) \/ s' = op_reset s) (op_setCutoff L s c) t ->
  op_reset t = op_init L (op_sr s) c.
Proof.
  intros L s c t C. kp C (fun t => op_sr t = op_sr s /\ op_cutoff t = op_clamp (op_sr s) c /\ op_pole t = op_poleof L (op_sr s) c /\ op_gain t = one - op_poleof L (op_sr s) c); [|repeat split].
  intros (A & B & D & E). unfold op_reset. rewrite A, B, D, E. reflexivity.
Qed.
Theorem C122_dcblock : forall L s c t,
  clos_refl_trans _ (fun s s' => (exists x, s' = fst (dc_tick s x)) \/ (exists x, s' = fst (dc_tickStereo s x)) \/ s' = dc_reset s) (dc_setCutoff L s c) t ->
  dc_reset t = dc_init L (dc_sr s) c.
Proof.
  intros L s c t C. kp C (fun t => dc_sr t = dc_sr s /\ dc_cutoff t = c /\ dc_coeff t = dc_coeffof L (dc_sr s) c); [|repeat split].
  intros (A & B & D). unfold dc_reset. rewrite A, B, D. reflexivity.
Qed.
Theorem C122_tape : forall L sr t,
  clos_refl_trans _ (fun s s' => (exists x, s' = fst (tp_tick L s x)) \/ (exists x, s' = fst (tp_tickStereo L s x)) \/ (exists b, s' = tp_setBias s b) \/ (exists g, s' = tp_setPregain s g) \/ s' = tp_reset s)
    (tp_init L sr) t ->
  tp_reset t = tp_setPregain (tp_setBias (tp_init L sr) (tp_bias t)) (tp_gain t).
Proof.
  intros L sr t C. assert (K : fo_reset (tp_fo t) = tp_fo (tp_init L sr) /\ td_reset (tp_l t) = tp_l (tp_init L sr) /\ td_reset (tp_r t) = tp_r (tp_init L sr)).
  { apply (kept (fun t => fo_reset (tp_fo t) = tp_fo (tp_init L sr) /\ td_reset (tp_l t) = tp_l (tp_init L sr) /\ td_reset (tp_r t) = tp_r (tp_init L sr)) _ _ _) with (3 := C); [|repeat split].
    intros a b [[x ->]|[[x ->]|[[x ->]|[[x ->]| ->]]]] E; exact E. }
  destruct K as (A & B & D). unfold tp_reset. rewrite A, B, D. reflexivity.
Qed.
(** The envelopes, after setting all their parameters in whatever state [e]. *)
Theorem C122_envelope_ar : forall L e a r t,
  clos_refl_trans _ (fun e e' => exists o, match o with ArOInit _ | ArOAttack _ | ArORelease _ => False | _ => True end /\ e' = fst (ar_step L e o)) (ar_setRelease L (ar_setAttack L e a) r) t ->
  ar_reset t = ar_setRelease L (ar_setAttack L (ar_init L (ar_sr e)) a) r.
Proof.
  intros L e a r t C. set (P := fun t => ar_sr t = ar_sr e /\ ar_at t = clamp_time a /\ ar_rt t = clamp_time r /\ ar_ac t = coeff L (clamp_time a) (ar_sr e) /\ ar_rc t = coeff L (clamp_time r) (ar_sr e)).
  assert (K : P t).
  { apply (kept P _ _ _) with (3 := C); [|repeat split]. intros x y [o [Ho ->]] E; destruct o; try contradiction Ho; cbn [ar_step fst]; try exact E.
    - destruct (ar_gate_with x b) as (v & s & g & ->). exact E.
    - destruct (ar_tick_with x) as (v & s & g & X). destruct (ar_tick x) as [x1 y1]. cbn [fst] in *. rewrite X. exact E. }
  destruct K as (A1 & A2 & A3 & A4 & A5). unfold ar_reset, ar_with. rewrite A1, A2, A3, A4, A5. reflexivity.
Qed.
Definition ad_config (L : libm) (e : adsr) (a d s r : f32) (k : Z) : adsr := ad_setDoneAction (ad_setRelease L (ad_setSustain (ad_setDecay L (ad_setAttack L e a) d) s) r) k.
Theorem C122_envelope_adsr : forall L e a d s r k t,
  clos_refl_trans _ (fun e e' => (exists g, e' = ad_setgate e g) \/ e' = fst (ad_tick e) \/ e' = ad_reset e) (ad_config L e a d s r k) t ->
  ad_reset t = ad_config L (ad_init L (ad_sr e)) a d s r k.
Proof.
  intros L e a d s r k t C.
  set (P := fun t => ad_sr t = ad_sr e /\ ad_ac t = coeff L (clamp_time a) (ad_sr e) /\ ad_dc t = coeff L (clamp_time d) (ad_sr e) /\ ad_rc t = coeff L (clamp_time r) (ad_sr e) /\ ad_sus t = clamp s fzero one /\ ad_action t = k).
  assert (K : P t).
  { apply (kept P _ _ _) with (3 := C); [|repeat split]. intros x y [[g ->]|[->| ->]] E; try exact E.
    - destruct (ad_gate_with x g) as (v & p & h & w & ->). exact E.
    - destruct (ad_tick_with x) as (v & p & h & w & ->). exact E. }
  destruct K as (A1 & A2 & A3 & A4 & A5 & A6). unfold ad_reset, ad_with. rewrite A1, A2, A3, A4, A5, A6. reflexivity.
Qed.
(** Phasor and XLine. *)
Theorem C122_phasor : forall p r s e q t,
  clos_refl_trans _ (fun p p' => p' = fst (ph_tick p) \/ (exists x, p' = fst (ph_tickTrig p x)) \/ (exists x, p' = ph_resetTo p x) \/ p' = ph_reset p) (ph_set p r s e q) t ->
  ph_reset t = ph_set (ph_init (ph_sr p)) r s e q.
Proof.
  intros p r s e q t C. kp C (fun t => ph_rate t = r /\ ph_start t = s /\ ph_end t = e /\ ph_pos t = q /\ ph_sr t = ph_sr p); [|repeat split].
  intros (A1 & A2 & A3 & A4 & A5). unfold ph_reset, ph_resetTo. rewrite A1, A2, A3, A4, A5. reflexivity.
Qed.
Theorem C122_xline : forall L x s e d m a t, clos_refl_trans _ (fun x x' => x' = fst (xl_tick x) \/ x' = xl_reset x) (xl_set L x s e d m a) t ->
  xl_reset t = xl_set L (xl_init L (xl_sr x)) s e d m a.
Proof.
  intros L x s e d m a t C. assert (K : xl_reset t = xl_reset (xl_set L x s e d m a)).
  { apply (kept (fun t => xl_reset t = xl_reset (xl_set L x s e d m a)) _ _ _) with (3 := C); [|reflexivity]. intros u v [->| ->] E; [|exact E].
    unfold xl_tick. destruct (xl_done u); [exact E|]. destruct (if _ >=? _ then _ else _) as [w b]. exact E. }
  rewrite K. unfold xl_set. destruct (xl_ends s e) as [s' e']. reflexivity.
Qed.
(** RLPF and CombC. *)
Theorem C122_rlpf : forall L s f r t, clos_refl_trans _ (fun s s' => (exists x, s' = fst (lp_tick s x)) \/ s' = lp_reset s) (lp_setResonance L (lp_setFreq L s f) r) t ->
  lp_reset t = lp_setResonance L (lp_setFreq L (lp_init L (lp_sr s)) f) r.
Proof.
  intros L s f r t C. assert (K : lp_reset t = lp_reset (lp_setResonance L (lp_setFreq L s f) r)).
  { apply (kept (fun t => lp_reset t = lp_reset (lp_setResonance L (lp_setFreq L s f) r)) _ _ _) with (3 := C); [|reflexivity]. intros u v [[x ->]| ->] E; exact E. }
  rewrite K. reflexivity.
Qed.
Theorem C122_comb : forall L fuel sr m c d dc t, cb_init L sr m = Val c ->
  clos_refl_trans _ (fun c c' => exists o r, cb_call L fuel c o = Val (c', r)) c t ->
  cb_reset (cb_setDecayTime L (cb_setDelayTime L t d) dc) = cb_setDecayTime L (cb_setDelayTime L c d) dc.
Proof.
  intros L fuel sr m c d dc t H C. assert (K : cb_sr t = cb_sr c /\ cb_max t = cb_max c /\ cb_size t = cb_size c).
  { apply (kept (fun t => cb_sr t = cb_sr c /\ cb_max t = cb_max c /\ cb_size t = cb_size c) _ _ _) with (3 := C); [|auto].
    intros u v (o & r & X) E. destruct o; cbn [cb_call] in X; try (injection X as <- _; exact E).
    destruct (cb_tick fuel u x) as [[y c1]| |] eqn:T; cbn [rbind] in X; try discriminate X. injection X as <- _. cbn [snd].
    destruct (cb_shape _ _ _ _ _ T) as (b & w & ->). exact E. }
  destruct K as (A & B & D). unfold cb_reset, cb_setDecayTime, cb_setDelayTime, cb_update. cbn [cb_sr cb_buf cb_max cb_dt cb_dc cb_fb cb_size cb_wp].
  rewrite A, B, D. unfold cb_init in H. destruct (of_opt _) as [n| |]; cbn [rbind] in H; try discriminate H. injection H as <-. reflexivity.
Qed.
(** Instances. *)
Example ex_C122_lag : let t := fst (lg_tick (lg_setLagTime toy_trig (lg_init toy_trig (fofZ 48000) one) zero) half) in
  lg_prev t = half /\ lg_reset t = lg_init toy_trig (fofZ 48000) zero.
Proof. split; vm_compute; reflexivity. Qed.
Example ex_C122_phasor : let t := fst (ph_tick (fst (ph_tickTrig (ph_set (ph_init (fofZ 48000)) half zero two one) one))) in
  ph_value t = two /\ ph_trig t = one /\ ph_reset t = ph_set (ph_init (fofZ 48000)) half zero two one.
Proof. repeat split; vm_compute; reflexivity. Qed.
Example ex_C122_ar : let e := ar_setRelease toy_trig (ar_setAttack toy_trig (ar_init toy_trig (fofZ 48000)) one) half in
  let t := fst (ar_tick (ar_trigger (ar_setRelease toy_trig (ar_setAttack toy_trig (ar_trigger e) one) half))) in
  ar_state t <> ar_state e /\ ar_reset t = e.
Proof. cbv zeta. split; [vm_compute; discriminate|vm_compute; reflexivity]. Qed.
Example ex_C122_sawdpw : let t := fst (sw_tick (sw_setFrequency (sw_init (fofZ 48000) half) (fofZ 6000))) in
  (sw_phase t =? zero) = false /\ sw_reset t = sw_setFrequency (sw_init (fofZ 48000) (fneg one)) (fofZ 6000).
Proof. split; vm_compute; reflexivity. Qed.

Print Assumptions C122_sinosc.
Print Assumptions C122_lftri.
Print Assumptions C122_sawdpw.
Print Assumptions C122_sawdpw_default_refuted.
Print Assumptions C122_lfnoise2.
Print Assumptions C122_lag.
Print Assumptions C122_onepole.
Print Assumptions C122_dcblock.
Print Assumptions C122_tape.
Print Assumptions C122_envelope_ar.
Print Assumptions C122_envelope_adsr.
Print Assumptions C122_phasor.
Print Assumptions C122_xline.
Print Assumptions C122_rlpf.
Print Assumptions C122_comb.
