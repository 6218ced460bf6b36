(** FVerb: what a NaN does. *)
From Coq Require Import ZArith Reals Bool List Lra Lia Psatz.
From Flocq Require Import Core BinarySingleNaN.
From Verif Require Import Flt FltFacts FltMore FltKey FltArith FltClose Libm UtilModel UtilProofs PhasorProofs EnvSpec OscSpec FvModel FvSpec FvSpec2 FvProofs FvProofs2 FvProofs3 FvProofs4 FvProofs5 FvProofs6 FvProofs7 FvProofs8.
Import ListNotations.

Notation bad x := (is_nan x = true) (only parsing).
Lemma addl (x y : f32) : bad x -> bad (fadd x y). Proof. destruct x; try discriminate. reflexivity. Qed.
Lemma addr (x y : f32) : bad y -> bad (fadd x y). Proof. destruct y; try discriminate. destruct x; reflexivity. Qed.
Lemma subl (x y : f32) : bad x -> bad (fsub x y). Proof. destruct x; try discriminate. reflexivity. Qed.
Lemma subr (x y : f32) : bad y -> bad (fsub x y). Proof. destruct y; try discriminate. destruct x; reflexivity. Qed.
Lemma mull (x y : f32) : bad x -> bad (fmul x y). Proof. destruct x; try discriminate. reflexivity. Qed.
Lemma mulr (x y : f32) : bad y -> bad (fmul x y). Proof. destruct y; try discriminate. destruct x; reflexivity. Qed.
Lemma negn (x : f32) : bad x -> bad (fneg x). Proof. destruct x; try discriminate. reflexivity. Qed.
Lemma to_int_nan (x : f32) : bad x -> to_int x = None. Proof. destruct x; try discriminate. reflexivity. Qed.

(** ** One side *)
Definition newest (l : line) : f32 := hd zero l.
Lemma diff_bad g D l u : bad g \/ bad u -> bad (snd (diffuse g D l u)).
Proof. intros [H|H]; unfold diffuse; cbn [snd]; apply addl; [now apply mull|]. apply mulr. now apply subl. Qed.
(** The input chain is NaN from the low-pass on if it is NaN there. *)
Lemma side_shape p damped D pre m x cross s : exists t d lp,
  let s' := side_step p damped D pre m x cross s in
  n_lp s' = lp /\ n_diff s' = t :: n_diff s /\ n_damp s' = fmul d (fsub one (p8 p)) :: n_damp s /\
  lp = fadd (ago pre (fmul x (p27 p) :: n_pre s)) (fmul (p25 p) (n_lp s)) /\
  (bad lp \/ bad (p24 p) \/ bad (p25 p) \/ bad (p20 p) \/ bad (p15 p) \/ bad (p12 p) \/ bad (p29 p) -> bad t).
Proof.
  unfold side_step.
  set (lp := fadd (ago pre _) _).
  set (hp := fadd (fmul lp (fsub one (p25 p))) (fmul (p24 p) (n_hp s))). assert (HP : bad lp \/ bad (p24 p) \/ bad (p25 p) -> bad hp).
  { intros [H|[H|H]]; unfold hp; [apply addl; now apply mull|apply addr; now apply mull|apply addl; apply mulr; now apply subr]. } clearbody hp.
  set (u := fmul (fmul half (fadd (p24 p) one)) (fsub hp (n_hp s))). assert (U : bad hp -> bad u) by (intros H; apply mulr; now apply subl). clearbody u.
  pose proof (diff_bad (p20 p) (l1 D) (n_1 s) u) as Y1. destruct (diffuse (p20 p) (l1 D) (n_1 s) u) as [a1 y1]. cbn [snd] in Y1.
  pose proof (diff_bad (p20 p) (l2 D) (n_2 s) y1) as Y2. destruct (diffuse (p20 p) (l2 D) (n_2 s) y1) as [a2 y2]. cbn [snd] in Y2.
  pose proof (diff_bad (p15 p) (l3 D) (n_3 s) y2) as Y3. destruct (diffuse (p15 p) (l3 D) (n_3 s) y2) as [a3 y3]. cbn [snd] in Y3.
  unfold diffuse2. set (w4 := ago (l4 D - 1) (n_4 s)). clearbody w4.
  set (v4 := fsub y3 (fmul (p15 p) w4)). assert (V4 : bad y3 -> bad v4) by (intros H; now apply subl). clearbody v4.
  set (v := fadd (fadd (fadd w4 (fmul (p29 p) cross)) (fmul (p15 p) v4)) (fmul (p12 p) (n_z s))).
  assert (V : bad v4 \/ bad (p15 p) \/ bad (p12 p) \/ bad (p29 p) -> bad v).
  { intros [H|[H|[H|H]]]; unfold v; [apply addl, addr; now apply mulr|apply addl, addr; now apply mull|apply addr; now apply mull|apply addl, addl, addr; now apply mull]. } clearbody v.
  set (t := fadd (fneg (fmul (p12 p) v)) (n_z s)). assert (T : bad v -> bad t) by (intros H; apply addl, negn; now apply mulr).
  eexists t, _, lp. cbn [n_lp n_diff n_damp]. split; [reflexivity|]. split; [reflexivity|]. split; [reflexivity|]. split; [reflexivity|].
  clearbody t lp. tauto.
Qed.

(** ** The first [m] entries of a line are NaN *)
Definition runs (m : nat) (l : line) : Prop := forall j, (j < m)%nat -> bad (nth j l zero).
Lemma runs_cons m x l : bad x -> runs m l -> runs (Datatypes.S m) (x :: l).
Proof. intros X R [|j] H; [exact X|]. cbn [nth]. apply R. lia. Qed.
Lemma runs_ago m l n : runs m l -> (0 <= n < Z.of_nat m)%Z -> bad (ago n l).
Proof. intros R H. unfold ago. apply R. lia. Qed.
Lemma span_pos fs (c : f32) : fin fs -> (1 <= B2R fs <= 192000)%R -> (is_finite c && fle zero c && fle c one)%bool = true -> (0 <= span fs c)%Z.
Proof.
  intros F B H. apply andb_prop in H. destruct H as [H H3]. apply andb_prop in H. destruct H as [H1 H2].
  replace 0%Z with (span fs zero). apply span_le; auto. rewrite H1, H2, H3. reflexivity.
  assert (D : dy32 192000) by (apply dyZ; lia). unfold span. rewrite Btrunc_R. destruct (fmul_b 0 192000 zero fs dy0 D eq_refl F ltac:(rewrite zero_R; lra)) as (_ & E & _).
  rewrite E, zero_R, Rmult_0_l. unfold rnd32, rnd. rewrite round_0; [apply (Ztrunc_IZR 0)|typeclasses eauto].
Qed.

(** ** Runs of sets and blocks *)
Section Keep2.
  Variables (L : libm) (J : nat -> ideal -> Prop) (Q : nat -> f32 * f32 -> Prop).
  Hypothesis fstep : forall m e w c pre xl xr n' o0 o1, J m e -> ctl_step L (e_k e) w (e_c e) = Some (c, pre) ->
    net_step (rate (e_sr e)) (t_par c) pre (t_R c) (t_L c) xl xr (e_n e) = (n', o0, o1) ->
    J (Datatypes.S m) (Ideal (e_sr e) (e_k e) (e_sl e) c n') /\ Q m (o0, o1).
  Hypothesis sstep : forall m e sl, J m e -> J m (Ideal (e_sr e) (e_k e) sl (e_c e) (e_n e)).
  Lemma keep2_frames w xs : forall e m e' ys, J m e -> ideal_frames L w e xs = Some (e', ys) ->
    J (length ys + m) e' /\ forall i y, nth_error ys i = Some y -> Q (i + m) y.
  Proof using fstep.
    induction xs as [|[xl xr] t IH]; intros e m e' ys HJ H.
    - injection H as <- <-. split; [exact HJ|]. intros [|i] y Hy; discriminate Hy.
    - cbn [ideal_frames] in H. destruct (ctl_step L (e_k e) w (e_c e)) as [[c pre]|] eqn:EC; [|discriminate].
      destruct (net_step (rate (e_sr e)) (t_par c) pre (t_R c) (t_L c) xl xr (e_n e)) as [[n o0] o1] eqn:EN.
      destruct (fstep _ _ _ _ _ _ _ _ _ _ HJ EC EN) as [J' Q'].
      destruct (ideal_frames L w (Ideal (e_sr e) (e_k e) (e_sl e) c n) t) as [[e2 os]|] eqn:EF; [|discriminate]. injection H as <- <-.
      destruct (IH _ _ _ _ J' EF) as [J2 Q2]. cbn [length]. rewrite <- plus_n_Sm in J2. split; [exact J2|].
      intros [|i] y Hy; [injection Hy as <-; exact Q'|]. specialize (Q2 i y Hy). rewrite <- plus_n_Sm in Q2. exact Q2.
  Qed.
  Lemma keep2_run t : Forall going t -> forall e m e' ys, J m e -> ideal_run L t (Some e) = Some (e', ys) -> forall i y, nth_error ys i = Some y -> Q (i + m) y.
  Proof using fstep sstep.
    induction 1 as [|o t HO HT IH]; intros e m e' ys HJ H i y Hy.
    - injection H as _ <-. destruct i; discriminate Hy.
    - cbn [ideal_run] in H. destruct o as [sr|p x| |xs]; try contradiction; cbn [ideal_op] in H.
      + destruct (ideal_run L t _) as [[e2 b]|] eqn:ER in H; [|discriminate]. injection H as <- <-. cbn [app] in Hy.
        refine (IH _ m _ _ _ ER i y Hy). now apply sstep.
      + destruct (ideal_frames L _ e xs) as [[e1 a]|] eqn:EF; [|discriminate]. destruct (ideal_run L t (Some e1)) as [[e2 b]|] eqn:ER; [|discriminate]. injection H as <- <-.
        destruct (keep2_frames _ xs e m e1 a HJ EF) as (J1 & Q1).
        destruct (Nat.lt_ge_cases i (length a)) as [LT|GE].
        * rewrite nth_error_app1 in Hy by exact LT. now apply Q1.
        * rewrite nth_error_app2 in Hy by exact GE. pose proof (IH _ _ _ _ J1 ER _ _ Hy) as Q2. replace (i + m)%nat with (i - length a + (length a + m))%nat by lia. exact Q2.
  Qed.
End Keep2.

(** ** NaN settings *)
Definition smoothed (p : fvparam) (s : fvpar) : f32 :=
  match p with
  | PREDELAY => p28 s | INPUT_AMOUNT => p27 s | INPUT_LOW_PASS_CUTOFF => p25 s | INPUT_HIGH_PASS_CUTOFF => p24 s
  | INPUT_DIFFUSION_1 => p20 s | INPUT_DIFFUSION_2 => p15 s | TAIL_DENSITY => p12 s | DECAY => p29 s
  | DAMPING => p8 s | MODULATOR_FREQUENCY => p36 s | MODULATOR_DEPTH => p37 s
  end.
Lemma slow_bad L k s p : exp_nan L -> bad (slider p s) -> bad (smoothed p (fv_slow L k s)).
Proof. intros E H. unfold fv_slow. destruct p; cbn [smoothed p8 p12 p15 p20 p24 p25 p27 p28 p29 p36 p37 slider] in *; try (now apply mulr); apply mulr, E, negn; now apply mulr. Qed.
Lemma smooth_bad k w s p : bad (smoothed p w) \/ bad (smoothed p s) -> bad (smoothed p (fv_smooth k w s)).
Proof. intros H. unfold fv_smooth. destruct p; cbn [smoothed p8 p12 p15 p20 p24 p25 p27 p28 p29 p36 p37] in *; (destruct H as [H|H]; [now apply addl|apply addr; now apply mulr]). Qed.
Lemma ctl_par L k w c c' pre : ctl_step L k w c = Some (c', pre) -> t_par c' = fv_smooth k w (t_par c).
Proof.
  unfold ctl_step. destruct (to_int _); [|discriminate]. destruct (fv_phase _ _ _); [|discriminate]. destruct (fv_dR _ _ _ _); [|discriminate]. destruct (fv_dL _ _ _ _); [|discriminate].
  intros H. injection H as <- _. reflexivity.
Qed.
(** Predelay and modulation: undefined. *)
Lemma ctl_undef L k w c p : p = PREDELAY \/ p = MODULATOR_FREQUENCY \/ p = MODULATOR_DEPTH -> bad (smoothed p w) -> ctl_step L k w c = None.
Proof.
  intros P H. assert (B : bad (smoothed p (fv_smooth k w (t_par c)))) by (apply smooth_bad; now left). unfold ctl_step. set (s := fv_smooth k w (t_par c)) in *. clearbody s.
  destruct P as [->|[->| ->]]; cbn [smoothed] in B.
  - rewrite to_int_nan; [reflexivity|]. now apply mulr.
  - destruct (to_int _); [|reflexivity]. unfold fv_phase. rewrite to_int_nan; [reflexivity|]. apply addr. now apply mulr.
  - destruct (to_int _); [|reflexivity]. destruct (fv_phase _ _ _) as [ph|]; [|reflexivity]. unfold fv_dR. destruct (to_int _); [|reflexivity]. destruct (to_int _); [|reflexivity].
    rewrite to_int_nan; [reflexivity|]. apply mulr, addl. now apply mull.
Qed.

(** The other settings: NaN comes out. *)
Definition pJ (p : fvparam) (fs : f32) (m : nat) (e : ideal) : Prop :=
  rate (e_sr e) = fs /\ bad (smoothed p (t_par (e_c e))) /\
  match p with DAMPING => runs m (n_damp (nR (e_n e))) /\ runs m (n_damp (nL (e_n e))) | _ => runs m (n_diff (nR (e_n e))) /\ runs m (n_diff (nL (e_n e))) end.
Definition late (fs : f32) (m : nat) (y : f32 * f32) : Prop := (span fs sR1 <= Z.of_nat m)%Z -> bad (fst y) /\ bad (snd y).
Lemma lines_bad p fs par pre mR mL xl xr n n' o0 o1 m : fin fs -> (1 <= B2R fs <= 192000)%R -> audible p -> bad (smoothed p par) ->
  match p with DAMPING => runs m (n_damp (nR n)) /\ runs m (n_damp (nL n)) | _ => runs m (n_diff (nR n)) /\ runs m (n_diff (nL n)) end ->
  net_step fs par pre mR mL xl xr n = (n', o0, o1) ->
  match p with DAMPING => runs (Datatypes.S m) (n_damp (nR n')) /\ runs (Datatypes.S m) (n_damp (nL n')) | _ => runs (Datatypes.S m) (n_diff (nR n')) /\ runs (Datatypes.S m) (n_diff (nL n')) end /\
  late fs m (o0, o1).
Proof.
  intros Ff Bf A B R H. unfold net_step in H.
  destruct (side_shape par fv_dampR (lensR fs) pre mR xr (ago (span fs (flit 1783083 (-24))) (n_out (nL n))) (nR n)) as (t & d & lp & _ & ET & ED & _ & T).
  set (r := side_step par fv_dampR _ _ _ _ _ _) in *. clearbody r.
  destruct (side_shape par fv_dampL (lensL fs) pre mL xl (ago (span fs (flit 4194163 (-25)) + 1) (n_out r)) (nL n)) as (t' & d' & lp' & _ & ET' & ED' & _ & T').
  set (l := side_step par fv_dampL _ _ _ _ _ _) in *. clearbody l. cbv zeta in *.
  assert (P0 : (0 <= span fs sL1)%Z) by (apply span_pos; auto). assert (P1 : (0 <= span fs sR1)%Z) by (apply span_pos; auto).
  assert (P2 : (0 <= span fs (flit 13493479 (-31)))%Z) by (apply span_pos; auto). assert (P3 : (0 <= span fs (flit 12086405 (-30)))%Z) by (apply span_pos; auto).
  assert (L0 : (span fs sL1 <= span fs sR1)%Z) by (apply span_le; auto). assert (L2 : (span fs (flit 13493479 (-31)) <= span fs sR1)%Z) by (apply span_le; auto). assert (L3 : (span fs (flit 12086405 (-30)) <= span fs sR1)%Z) by (apply span_le; auto).
  injection H as <- <- <-. cbn [nR nL]. unfold late. cbn [fst snd].
  assert (DIFF : p <> DAMPING -> runs m (n_diff (nR n)) /\ runs m (n_diff (nL n)) -> (runs (Datatypes.S m) (n_diff r) /\ runs (Datatypes.S m) (n_diff l))).
  { intros NP [R1 R2]. rewrite ET, ET'. split; apply runs_cons; auto; [apply T|apply T']; destruct p; try contradiction; cbn [smoothed] in B; tauto. }
  assert (DAMP : p = DAMPING -> runs m (n_damp (nR n)) /\ runs m (n_damp (nL n)) -> (runs (Datatypes.S m) (n_damp r) /\ runs (Datatypes.S m) (n_damp l))).
  { intros -> [R1 R2]. rewrite ED, ED'. cbn [smoothed] in B. split; apply runs_cons; auto; apply mulr; now apply subr. }
  destruct (fvparam_eq_dec p DAMPING) as [->|NP].
  - destruct (DAMP eq_refl R) as [R1 R2]. split; [now split|]. intros SM. split; apply mulr, subr.
    + apply addl, addr. apply (runs_ago (Datatypes.S m)); [exact R2|lia].
    + apply addl, addr. apply (runs_ago (Datatypes.S m)); [exact R1|lia].
  - assert (RR : runs m (n_diff (nR n)) /\ runs m (n_diff (nL n))) by (destruct p; try exact R; contradiction).
    destruct (DIFF NP RR) as [R1 R2]. split; [destruct p; try (now split); contradiction|]. intros SM. split; apply mulr, subl, addl, addl; apply (runs_ago (Datatypes.S m)); auto.
    + fold sL1. lia.
    + fold sR1. lia.
Qed.

Lemma setp_bad p s : bad (slider p (fv_setp p (fv_clamp p nan32) s)).
Proof. rewrite slider_set. destruct p; vm_compute; reflexivity. Qed.
Lemma in_force L h e a : ideal_run L h None = Some (e, a) -> forall fs, rate_in_force None h = Some fs -> exists i, e = Some i /\ rate (e_sr i) = fs.
Proof. intros H fs R. pose proof (rate_run L h None e a H) as Q. cbn [rate_of] in Q. rewrite R in Q. destruct e as [i|]; [|discriminate]. injection Q as Q. now exists i. Qed.
Lemma nan_undefined L h p x xs t fs : p = PREDELAY \/ p = MODULATOR_FREQUENCY \/ p = MODULATOR_DEPTH -> rate_in_force None h = Some fs ->
  fv_run L (h ++ FvSet p nan32 :: FvProc (x :: xs) :: t) fv_new = None.
Proof.
  intros P R. destruct (fv_run L _ fv_new) as [[f ys]|] eqn:E; [|reflexivity]. exfalso. destruct (run_ideal L _ _ _ _ _ _ _ _ frel_new E) as (e & _ & _ & _ & EI & _).
  rewrite ideal_app in EI. destruct (ideal_run L h None) as [[e1 a]|] eqn:E1; [|discriminate]. destruct (in_force L h e1 a E1 fs R) as (i & -> & _).
  cbn [ideal_run ideal_op] in EI. cbn [e_k e_sl] in EI. destruct x as [xl xr]. cbn [ideal_frames e_k e_sl e_c] in EI.
  rewrite (ctl_undef L _ _ _ p P) in EI; [discriminate|]. pose proof (setp_bad p (e_sl i)) as B. set (sl := fv_setp p _ _) in *. clearbody sl.
  unfold fv_slow. destruct P as [->|[->| ->]]; cbn [smoothed p28 p36 p37 slider] in *; now apply mulr.
Qed.
Lemma nan_setting L h p t xs x t' f a f' b fs : exp_nan L -> audible p -> rate_in_force None h = Some fs -> fv_run L (h ++ [FvSet p nan32]) fv_new = Some (f, a) ->
  t = FvProc (x :: xs) :: t' -> Forall going t' -> fv_run L t f = Some (f', b) -> forall i y, nth_error b i = Some y -> late fs i y.
Proof.
  intros EN A R H1 -> G H2 i y Hy. destruct (run_ideal L _ _ _ _ _ _ _ _ frel_new H1) as (e & on & buf & n & EI & F).
  rewrite ideal_app in EI. destruct (ideal_run L h None) as [[e1 a1]|] eqn:E1; [|discriminate]. destruct (in_force L h e1 a1 E1 fs R) as (j & -> & ER).
  cbn [ideal_run ideal_op] in EI. injection EI as EI _. subst e.
  destruct (run_ideal L _ _ _ _ _ _ _ _ F H2) as (e2 & _ & _ & _ & EI2 & _). clear F H1 H2.
  change (x :: xs) with ([x] ++ xs) in EI2. change (FvProc ([x] ++ xs) :: t') with ([] ++ FvProc ([x] ++ xs) :: t') in EI2. rewrite run_split in EI2. cbn [app] in EI2.
  set (sl := fv_setp p (fv_clamp p nan32) (e_sl j)) in *. assert (SB : bad (slider p sl)) by apply setp_bad. clearbody sl.
  change (FvProc [x] :: FvProc xs :: t') with ([FvProc [x]] ++ FvProc xs :: t') in EI2. rewrite ideal_app in EI2.
  destruct x as [xl xr]. cbn [ideal_run ideal_op e_k e_sl] in EI2. cbn [ideal_frames e_k e_sl e_c e_sr e_n] in EI2.
  destruct (ctl_step L (e_k j) (fv_slow L (e_k j) sl) (e_c j)) as [[c pre]|] eqn:EC; [|discriminate].
  destruct (net_step (rate (e_sr j)) (t_par c) pre (t_R c) (t_L c) xl xr (e_n j)) as [[n1 o0] o1] eqn:ENN.
  set (e3 := Ideal (e_sr j) (e_k j) sl c n1) in *.
  assert (FB : fin fs /\ (1 <= B2R fs <= 192000)%R) by (rewrite <- ER; destruct (rate_bounds (e_sr j)) as (X & Y & _); split; [exact X|lra]). destruct FB as [Ff Bf].
  assert (PB : bad (smoothed p (t_par c))) by (rewrite (ctl_par _ _ _ _ _ _ EC); apply smooth_bad; left; now apply slow_bad).
  rewrite ER in ENN.
  assert (R0 : match p with DAMPING => runs 0 (n_damp (nR (e_n j))) /\ runs 0 (n_damp (nL (e_n j))) | _ => runs 0 (n_diff (nR (e_n j))) /\ runs 0 (n_diff (nL (e_n j))) end).
  { assert (Z : forall l, runs 0 l) by (intros l q Hq; lia). destruct p; split; apply Z. }
  destruct (lines_bad p fs _ _ _ _ _ _ _ _ _ _ _ Ff Bf A PB R0 ENN) as [R1 Q0].
  change (FvProc xs :: t') with ([] ++ FvProc xs :: t') in EI2. cbn [app] in EI2.
  destruct (ideal_run L (FvProc xs :: t') (Some e3)) as [[e4 b4]|] eqn:E4.
  2:{ cbn [ideal_run ideal_op] in E4, EI2. rewrite E4 in EI2. discriminate. }
  cbn [ideal_run ideal_op] in E4, EI2. rewrite E4 in EI2. injection EI2 as _ <-. cbn [app] in Hy.
  destruct i as [|i]; [injection Hy as <-; exact Q0|]. cbn [nth_error] in Hy.
  assert (J1 : pJ p fs 1 e3) by (unfold e3; split; [exact ER|]; split; [exact PB|exact R1]).
  replace (Datatypes.S i) with (i + 1)%nat by lia.
  refine (keep2_run L (pJ p fs) (late fs) _ _ (FvProc xs :: t') (Forall_cons (FvProc xs) (I : going (FvProc xs)) G) e3 1%nat e4 b4 J1 _ i y Hy).
  - intros m e w c' pre' yl yr n' q0 q1 (JR & JB & JL) HC HN. rewrite JR in HN.
    assert (PB' : bad (smoothed p (t_par c'))) by (rewrite (ctl_par _ _ _ _ _ _ HC); apply smooth_bad; now right).
    destruct (lines_bad p fs _ _ _ _ _ _ _ _ _ _ _ Ff Bf A PB' JL HN) as [R2 Q2]. split; [|exact Q2]. split; [exact JR|]. split; [exact PB'|exact R2].
  - intros m e s J. exact J.
  - cbn [ideal_run ideal_op]. exact E4.
Qed.

(** ** A NaN sample, without predelay *)
Definition of_side (r : bool) (n : net) : side := if r then nR n else nL n.
Definition hit (r : bool) (fs : f32) (m : nat) (e : ideal) : Prop := rate (e_sr e) = fs /\ bad (n_lp (of_side r (e_n e))) /\ runs m (n_diff (of_side r (e_n e))).
Definition heard (r : bool) (fs : f32) (m : nat) (y : f32 * f32) : Prop :=
  ((span fs (if r then sL1 else sL2) <= Z.of_nat m)%Z -> bad (fst y)) /\ ((span fs (if r then sR2 else sR1) <= Z.of_nat m)%Z -> bad (snd y)).
Lemma hit_step r fs par pre mR mL xl xr n n' o0 o1 m : fin fs -> (1 <= B2R fs <= 192000)%R ->
  bad (n_lp (of_side r n)) \/ pre = 0%Z /\ bad (if r then xr else xl) -> runs m (n_diff (of_side r n)) ->
  net_step fs par pre mR mL xl xr n = (n', o0, o1) -> bad (n_lp (of_side r n')) /\ runs (Datatypes.S m) (n_diff (of_side r n')) /\ heard r fs m (o0, o1).
Proof.
  intros Ff Bf B R H. unfold net_step in H.
  destruct (side_shape par fv_dampR (lensR fs) pre mR xr (ago (span fs (flit 1783083 (-24))) (n_out (nL n))) (nR n)) as (t & d & lp & ELP & ET & _ & EL & T).
  set (rr := side_step par fv_dampR _ _ _ _ _ _) in *. clearbody rr.
  destruct (side_shape par fv_dampL (lensL fs) pre mL xl (ago (span fs (flit 4194163 (-25)) + 1) (n_out rr)) (nL n)) as (t' & d' & lp' & ELP' & ET' & _ & EL' & T').
  set (l := side_step par fv_dampL _ _ _ _ _ _) in *. clearbody l. cbv zeta in *.
  assert (P0 : (0 <= span fs sL1)%Z) by (apply span_pos; auto). assert (P1 : (0 <= span fs sR1)%Z) by (apply span_pos; auto).
  assert (P2 : (0 <= span fs sL2)%Z) by (apply span_pos; auto). assert (P3 : (0 <= span fs sR2)%Z) by (apply span_pos; auto).
  assert (LB : bad (if r then lp else lp')).
  { destruct r; cbn [of_side] in B; [rewrite EL|rewrite EL']; (destruct B as [B|[-> B]]; [apply addr; now apply mulr|apply addl; unfold ago; cbn [Z.to_nat nth]; now apply mull]). }
  injection H as <- <- <-. destruct r; cbn [of_side nR nL] in *.
  - rewrite ELP. split; [exact LB|]. assert (RR : runs (Datatypes.S m) (n_diff rr)) by (rewrite ET; apply runs_cons; [apply T; now left|exact R]).
    split; [exact RR|]. split; intros HM; cbn [fst snd]; apply mulr.
    + apply subl, addl, addl. apply (runs_ago (Datatypes.S m)); [exact RR|]. fold sL1. lia.
    + apply subr, addl, addl, addr. apply (runs_ago (Datatypes.S m)); [exact RR|]. fold sR2. lia.
  - rewrite ELP'. split; [exact LB|]. assert (RR : runs (Datatypes.S m) (n_diff l)) by (rewrite ET'; apply runs_cons; [apply T'; now left|exact R]).
    split; [exact RR|]. split; intros HM; cbn [fst snd]; apply mulr.
    + apply subr, addl, addl, addr. apply (runs_ago (Datatypes.S m)); [exact RR|]. fold sL2. lia.
    + apply subl, addl, addl. apply (runs_ago (Datatypes.S m)); [exact RR|]. fold sR1. lia.
Qed.
(** Predelay 0 since the start. *)
Definition waits (fs : f32) (e : ideal) : Prop :=
  rate (e_sr e) = fs /\ fin (k0 (e_k e)) /\ fin (k2 (e_k e)) /\ fin (k5 (e_k e)) /\ is_zero (s_pre (e_sl e)) /\ is_zero (p28 (t_par (e_c e))).
Lemma wait_ctl L fs e c pre : waits fs e -> ctl_step L (e_k e) (fv_slow L (e_k e) (e_sl e)) (e_c e) = Some (c, pre) -> pre = 0%Z /\ is_zero (p28 (t_par c)).
Proof.
  intros (_ & F0 & F2 & F5 & Z1 & Z2) H. pose proof (ctl_par _ _ _ _ _ _ H) as EP.
  assert (ZP : is_zero (p28 (fv_smooth (e_k e) (fv_slow L (e_k e) (e_sl e)) (t_par (e_c e))))).
  { unfold fv_smooth, fv_slow. cbn [p28]. apply isz_add; now apply isz_mul. }
  split; [|now rewrite EP]. unfold ctl_step in H. set (s := fv_smooth _ _ _) in *. clearbody s.
  assert (ZK : is_zero (fmul (k0 (e_k e)) (p28 s))) by (now apply isz_mul). destruct ZK as [b EB]. rewrite EB in H.
  change (to_int (B754_zero b)) with (Some 0%Z) in H. destruct (fv_phase _ _ _); [|discriminate]. destruct (fv_dR _ _ _ _); [|discriminate]. destruct (fv_dL _ _ _ _); [|discriminate]. now injection H as _ <-.
Qed.
Section Sample.
  Variables (L : libm) (fs : f32) (r : bool).
  Hypothesis Ff : fin fs.
  Hypothesis Bf : (1 <= B2R fs <= 192000)%R.
  Let chan (x : f32 * f32) := if r then snd x else fst x.

  Lemma hit_fstep m e w c pre xl xr n' o0 o1 : hit r fs m e -> ctl_step L (e_k e) w (e_c e) = Some (c, pre) ->
    net_step (rate (e_sr e)) (t_par c) pre (t_R c) (t_L c) xl xr (e_n e) = (n', o0, o1) ->
    hit r fs (Datatypes.S m) (Ideal (e_sr e) (e_k e) (e_sl e) c n') /\ heard r fs m (o0, o1).
  Proof using Ff Bf.
    intros (E & B & R) _ HN. rewrite E in HN. destruct (hit_step r fs _ _ _ _ _ _ _ _ _ _ m Ff Bf (or_introl B) R HN) as (B' & R' & Q). split; [|exact Q]. split; [exact E|]. split; [exact B'|exact R'].
  Qed.
  Lemma hit_sstep m e sl : hit r fs m e -> hit r fs m (Ideal (e_sr e) (e_k e) sl (e_c e) (e_n e)). Proof using. intros H. exact H. Qed.
  Lemma wait_frames xs : forall e e' ys, waits fs e -> ideal_frames L (fv_slow L (e_k e) (e_sl e)) e xs = Some (e', ys) ->
    waits fs e' /\ length ys = length xs /\
    forall j x, nth_error xs j = Some x -> bad (chan x) -> hit r fs (length xs - j) e' /\ forall i y, nth_error ys i = Some y -> (j <= i)%nat -> heard r fs (i - j) y.
  Proof using Ff Bf.
    induction xs as [|[xl xr] t IH]; intros e e' ys W H.
    - injection H as <- <-. split; [exact W|]. split; [reflexivity|]. intros [|j] x Hx; discriminate Hx.
    - cbn [ideal_frames] in H. destruct (ctl_step L (e_k e) _ (e_c e)) as [[c pre]|] eqn:EC; [|discriminate]. destruct (wait_ctl L fs e c pre W EC) as [-> ZP].
      destruct (net_step (rate (e_sr e)) (t_par c) 0 (t_R c) (t_L c) xl xr (e_n e)) as [[n o0] o1] eqn:EN.
      destruct (ideal_frames L _ (Ideal (e_sr e) (e_k e) (e_sl e) c n) t) as [[e2 os]|] eqn:EF; [|discriminate]. injection H as <- <-.
      destruct W as (ER & F0 & F2 & F5 & Z1 & Z2). assert (W1 : waits fs (Ideal (e_sr e) (e_k e) (e_sl e) c n)) by (exact (conj ER (conj F0 (conj F2 (conj F5 (conj Z1 ZP)))))).
      destruct (IH _ _ _ W1 EF) as (W2 & LN & NXT). split; [exact W2|]. split; [cbn [length]; now rewrite LN|].
      intros [|j] x Hx HB.
      + injection Hx as <-. rewrite ER in EN.
        assert (R0 : runs 0 (n_diff (of_side r (e_n e)))) by (intros q Hq; lia).
        assert (HB' : bad (if r then xr else xl)) by (unfold chan in HB; destruct r; exact HB).
        destruct (hit_step r fs _ _ _ _ _ _ _ _ _ _ 0 Ff Bf (or_intror (conj eq_refl HB')) R0 EN) as (B1 & R1 & Q1).
        destruct (keep2_frames L (hit r fs) (heard r fs) hit_fstep _ t (Ideal (e_sr e) (e_k e) (e_sl e) c n) 1%nat e2 os (conj ER (conj B1 R1)) EF) as (J2 & Q2).
        rewrite LN, Nat.add_1_r in J2. cbn [length]. rewrite Nat.sub_0_r. split; [exact J2|]. intros [|i] y Hy _; [injection Hy as <-; exact Q1|].
        specialize (Q2 i y Hy). rewrite Nat.add_1_r in Q2. exact Q2.
      + destruct (NXT j x Hx HB) as [J2 Q2]. cbn [length]. split; [exact J2|]. intros [|i] y Hy HI; [lia|]. exact (Q2 i y Hy ltac:(lia)).
  Qed.
  Lemma wait_run t : Forall no_predelay t -> forall e e' ys, waits fs e -> ideal_run L t (Some e) = Some (e', ys) ->
    forall j x, nth_error (ins t) j = Some x -> bad (chan x) -> forall i y, nth_error ys i = Some y -> (j <= i)%nat -> heard r fs (i - j) y.
  Proof using Ff Bf.
    induction 1 as [|o t HO HT IH]; intros e e' ys W H j x Hx HB i y Hy HI.
    - destruct j; discriminate Hx.
    - cbn [ideal_run] in H. destruct o as [sr|p v| |xs]; try contradiction; cbn [ideal_op] in H.
      + destruct (ideal_run L t _) as [[e2 b]|] eqn:ER in H; [|discriminate]. injection H as <- <-. cbn [app] in Hy.
        refine (IH _ _ _ _ ER j x Hx HB i y Hy HI). destruct W as (A & F0 & F2 & F5 & Z1 & Z2). split; [exact A|]. split; [exact F0|]. split; [exact F2|]. split; [exact F5|]. split; [|exact Z2].
        cbn [e_sl]. pose proof (slider_set p (fv_clamp p v) (e_sl e) PREDELAY) as SS. cbn [slider] in SS. rewrite SS. destruct p; try exact Z1. contradiction.
      + destruct (ideal_frames L _ e xs) as [[e1 a]|] eqn:EF; [|discriminate]. destruct (ideal_run L t (Some e1)) as [[e2 b]|] eqn:ER; [|discriminate]. injection H as <- <-.
        destruct (wait_frames xs e e1 a W EF) as (W1 & LN & NXT). cbn [ins flat_map] in Hx. fold (ins t) in Hx.
        assert (GT : Forall going t) by (eapply Forall_impl; [|exact HT]; intros [sr|[]| |]; try contradiction; intros _; exact I).
        destruct (Nat.lt_ge_cases j (length xs)) as [LJ|GJ].
        * rewrite nth_error_app1 in Hx by exact LJ. destruct (NXT j x Hx HB) as [J1 Q1].
          destruct (Nat.lt_ge_cases i (length a)) as [LT|GE].
          -- rewrite nth_error_app1 in Hy by exact LT. now apply Q1.
          -- rewrite nth_error_app2 in Hy by exact GE.
             pose proof (keep2_run L (hit r fs) (heard r fs) hit_fstep hit_sstep t GT e1 _ e2 b J1 ER _ _ Hy) as Q2. replace (i - j)%nat with (i - length a + (length xs - j))%nat by lia. exact Q2.
        * rewrite nth_error_app2 in Hx by exact GJ. rewrite nth_error_app2 in Hy by lia. pose proof (IH _ _ _ W1 ER _ _ Hx HB _ _ Hy ltac:(lia)) as Q2.
          replace (i - j)%nat with (i - length a - (j - length xs))%nat by lia. exact Q2.
  Qed.
End Sample.
Lemma clamp_zero z : is_nan z = false -> (flt zero z = false) -> is_zero (fv_clamp PREDELAY z).
Proof.
  intros N H. destruct (clamp_held PREDELAY z N) as [F E]. assert (B : B2R (fv_clamp PREDELAY z) = 0%R).
  { rewrite E. unfold held. cbn [range_lo range_hi]. destruct z as [s|[|]| |s m e HB]; try reflexivity; try discriminate N; try discriminate H.
    - rewrite Rmin_right, Rmax_left; cbn; lra || reflexivity.
    - set (x := B754_finite s m e HB : f32) in *. apply flt_R_false in H; [|reflexivity|reflexivity]. rewrite zero_R in H. rewrite Rmin_right, Rmax_left; lra. }
  destruct (fv_clamp PREDELAY z) as [s|s| |s m e HB]; try discriminate F; [now exists s|]. exfalso. cbn [B2R] in B. apply eq_0_F2R in B. destruct s; discriminate B.
Qed.
Lemma nan_sample (r : bool) L h o z t f a f' b fs : sin_unit L -> Forall op_good (h ++ [o]) -> restarts o -> rate_in_force None (h ++ [o]) = Some fs ->
  is_nan z = false -> flt zero z = false -> fv_run L (h ++ [o; FvSet PREDELAY z]) fv_new = Some (f, a) -> Forall no_predelay t -> fv_run L t f = Some (f', b) ->
  forall j x, nth_error (ins t) j = Some x -> is_nan (if r then snd x else fst x) = true ->
  forall i y, nth_error b i = Some y -> (j <= i)%nat -> heard r fs (i - j) y.
Proof.
  intros S G RS RT NZ LZ H1 NP H2 j x Hx HB i y Hy HI.
  change [o; FvSet PREDELAY z] with ([o] ++ [FvSet PREDELAY z]) in H1. rewrite app_assoc, run_app in H1.
  destruct (fv_run L (h ++ [o]) fv_new) as [[f0 a0]|] eqn:E0; [|discriminate]. cbn [fv_run fv_op] in H1. injection H1 as H1 _.
  destruct (fresh L h o fs f0 a0 S G RS RT E0) as (e & on & buf & n & F & EG & ER & EN & E2).
  pose proof (op_refines L (FvSet PREDELAY z) f0 (Some e) on buf n F I) as R. cbn [ideal_op fv_op] in R. destruct R as (f1 & E1 & F1). injection E1 as E1. rewrite H1 in E1. subst f1.
  destruct (run_ideal L _ _ _ _ _ _ _ _ F1 H2) as (e2 & _ & _ & _ & EI & _).
  destruct (fs_ok L h o fs f0 a0 S G RS RT E0) as [Ff Bf].
  refine (wait_run L fs r Ff Bf t NP _ _ _ _ EI j x Hx _ i y Hy HI); [|destruct r; exact HB].
  destruct EG as ((Gr & K & SL & C) & SP). split; [exact ER|]. cbn [e_k e_sl e_c].
  destruct (kg2 _ _ K) as (K2 & _). destruct (kg5 _ _ K) as (K5 & _). split; [rewrite (kg0 _ _ K); apply Gr|]. split; [exact K2|]. split; [exact K5|].
  split; [pose proof (slider_set PREDELAY (fv_clamp PREDELAY z) (e_sl e) PREDELAY) as SS; cbn [slider] in SS; rewrite SS; now apply clamp_zero|].
  rewrite E2. apply isz0.
Qed.
