(** FVerb: silence, onset and the crossing of the channels. *)
From Coq Require Import ZArith Reals Bool List Lra Lia Psatz.
From Flocq Require Import Core BinarySingleNaN.
From Verif Require Import Flt FltFacts FltMore FltKey FltArith FltClose Libm UtilModel UtilProofs PhasorProofs EnvSpec OscSpec FvModel FvSpec FvSpec2 FvProofs FvProofs2 FvProofs3 FvProofs4 FvProofs5.
Import ListNotations.
Local Open Scope R_scope.

(** ** All smoothed parameters *)
Lemma exp_aim L fs k s b : good_rate fs -> kgood fs k -> exp_unit L -> fin s -> 0 <= B2R s <= b -> b <= 20000 ->
  aim fs 1 (fmul (k1 k) (m_exp L (fneg (fmul (k3 k) s)))).
Proof.
  intros G K E F B Bb. destruct (kg1 _ _ K) as (F1 & B1 & B1'). destruct (kg3 _ _ K) as (F3 & B3).
  assert (D : dy32 65536) by (apply dyZ; lia).
  destruct (fmul_b 0 65536 (k3 k) s dy0 D F3 F ltac:(nra)) as (FM & _ & BM).
  assert (X : fin (m_exp L (fneg (fmul (k3 k) s))) /\ 0 <= B2R (m_exp L (fneg (fmul (k3 k) s))) <= 1).
  { apply E. apply fle_R; [apply fneg_fin; exact FM|reflexivity|]. rewrite fneg_R. change (B2R (fzero : f32)) with 0. lra. }
  destruct X as (FX & BX). apply (aim_mul fs _ _ 44.1001 1); auto; lra.
Qed.
Lemma aims L fs k s : good_rate fs -> kgood fs k -> exp_unit L -> sl_ok s -> 
  let w := fv_slow L k s in
  aim fs 1 (p8 w) /\ aim fs 1 (p12 w) /\ aim fs 1 (p15 w) /\ aim fs 1 (p20 w) /\ aim fs 1 (p24 w) /\ aim fs 1 (p25 w) /\ aim fs 1 (p27 w) /\ aim fs 1 (p29 w).
Proof.
  intros G K E S. cbv zeta. unfold fv_slow. cbn [p8 p12 p15 p20 p24 p25 p27 p29].
  destruct (kg4 _ _ K) as (F4 & B4).
  assert (PC : forall x, fin x -> 0 <= B2R x <= 100 -> aim fs 1 (fmul (k4 k) x)).
  { intros x F B. apply (aim_mul fs _ _ 0.441001 100); auto; lra. }
  assert (RG : forall p lo hi, (B2R (fv_lo p), B2R (fv_hi p)) = (lo, hi) -> 0 <= lo -> fin (slider p s) /\ 0 <= B2R (slider p s) <= hi).
  { intros p lo hi H Hl. destruct (range_R _ _ _ _ (S p) H) as (F & B). split; [exact F|lra]. }
  destruct (RG _ _ _ (lohi_R DAMPING) ltac:(lra)) as (Fa & Ba). destruct (RG _ _ _ (lohi_R TAIL_DENSITY) ltac:(lra)) as (Fb & Bb).
  destruct (RG _ _ _ (lohi_R INPUT_DIFFUSION_2) ltac:(lra)) as (Fc & Bc). destruct (RG _ _ _ (lohi_R INPUT_DIFFUSION_1) ltac:(lra)) as (Fd & Bd).
  destruct (RG _ _ _ (lohi_R INPUT_HIGH_PASS_CUTOFF) ltac:(lra)) as (Fe & Be). destruct (RG _ _ _ (lohi_R INPUT_LOW_PASS_CUTOFF) ltac:(lra)) as (Ff & Bf).
  destruct (RG _ _ _ (lohi_R INPUT_AMOUNT) ltac:(lra)) as (Fg & Bg). destruct (RG _ _ _ (lohi_R DECAY) ltac:(lra)) as (Fh & Bh). cbn [slider] in *.
  split; [apply (exp_aim L fs k _ 20000); auto; lra|]. split; [auto|]. split; [auto|]. split; [auto|].
  split; [apply (exp_aim L fs k _ 1000); auto; lra|]. split; [apply (exp_aim L fs k _ 20000); auto; lra|]. split; auto.
Qed.
Lemma smooth_all L fs k s p : good_rate fs -> kgood fs k -> exp_unit L -> sl_ok s -> sp_ok p -> sp_ok (fv_smooth k (fv_slow L k s) p).
Proof.
  intros G K E S (a & b & c & d & e & f & g & h & i & j & l).
  destruct (aims L fs k s G K E S) as (A1 & A2 & A3 & A4 & A5 & A6 & A7 & A8). destruct (aims_int L fs k s G K S) as (B1 & B2 & B3).
  unfold fv_smooth, sp_ok. cbn [p8 p12 p15 p20 p24 p25 p27 p28 p29 p36 p37].
  repeat match goal with |- soft _ _ /\ _ => split end; apply (smooth_soft fs); auto; lra.
Qed.
Definition unit32 (x : f32) : Prop := fin x /\ 0 <= B2R x <= 1.
Lemma mix_unit (x : f32) : unit32 (fmaxf zero (fminf one x)).
Proof.
  unfold fmaxf, fminf. assert (U1 : unit32 one) by (split; [exact one_fin|rewrite one_R; lra]). assert (U0 : unit32 zero) by (split; [reflexivity|rewrite zero_R; lra]).
  destruct (flt x one) eqn:H1.
  - destruct (flt zero x) eqn:H0; [|exact U0].
    assert (F : fin x). { destruct x as [s|[|]| |s m e B]; try reflexivity; [discriminate H0|discriminate H1|discriminate H1]. }
    split; [exact F|]. apply flt_R in H1; [|exact F|exact one_fin]. apply flt_R in H0; [|reflexivity|exact F]. rewrite one_R in H1. rewrite zero_R in H0. lra.
  - destruct (flt zero one); [exact U1|exact U0].
Qed.

(** What holds of the control values of every frame. *)
Definition good_ctl (c : ctl) : Prop := sp_ok (t_par c) /\ fin (x_mix (t_R c)) /\ fin (x_mix (t_L c)).
Definition egood (e : ideal) : Prop := einv e /\ sp_ok (t_par (e_c e)).
Lemma sp_int_of p : sp_ok p -> sp_int p.
Proof. intros (a & b & c & d & e & f & g & h & i & j & l). split; [exact h|]. split; [exact j|exact l]. Qed.
Lemma sp_ok0 : sp_ok fv_par0.
Proof. unfold sp_ok, fv_par0. cbn [p8 p12 p15 p20 p24 p25 p27 p28 p29 p36 p37]. repeat match goal with |- soft _ _ /\ _ => split end; apply soft0; lra. Qed.
Lemma ctl_good L fs k s c : good_rate fs -> kgood fs k -> sin_unit L -> exp_unit L -> sl_ok s -> ctl_int c -> sp_ok (t_par c) ->
  exists c' pre, ctl_step L k (fv_slow L k s) c = Some (c', pre) /\ ctl_int c' /\ good_ctl c'.
Proof.
  intros G K S E SL C P. destruct (ctl_defined L fs k s c G K S SL C) as (c' & pre & EQ & C' & EP & _).
  exists c', pre. split; [exact EQ|]. split; [exact C'|]. split; [rewrite EP; now apply (smooth_all L fs)|].
  unfold ctl_step in EQ. destruct (to_int _); [|discriminate]. destruct (fv_phase _ _ _); [|discriminate]. destruct (fv_dR _ _ _ _); [|discriminate]. destruct (fv_dL _ _ _ _); [|discriminate].
  injection EQ as <- _. cbn [t_R t_L]. unfold fv_modstep. cbn [x_mix]. split; apply mix_unit.
Qed.

(** ** A property of the network that every frame keeps *)
Section Keep.
  Variables (L : libm) (fs : f32) (P : nat -> net -> Prop) (X : f32 * f32 -> Prop) (Q : nat -> f32 * f32 -> Prop).
  Hypothesis S : sin_unit L.
  Hypothesis E : exp_unit L.
  Hypothesis step : forall c pre xl xr n m n' o0 o1, good_ctl c -> X (xl, xr) -> P m n ->
    net_step fs (t_par c) pre (t_R c) (t_L c) xl xr n = (n', o0, o1) -> P (Datatypes.S m) n' /\ Q m (o0, o1).

  Lemma keep_frames xs : Forall X xs -> forall e m e' ys, egood e -> rate (e_sr e) = fs -> P m (e_n e) ->
    ideal_frames L (fv_slow L (e_k e) (e_sl e)) e xs = Some (e', ys) ->
    egood e' /\ rate (e_sr e') = fs /\ P (length ys + m) (e_n e') /\ forall i y, nth_error ys i = Some y -> Q (i + m) y.
  Proof.
    induction 1 as [|[xl xr] t HX HT IH]; intros e m e' ys G R HP H.
    - injection H as <- <-. split; [exact G|]. split; [exact R|]. split; [exact HP|]. intros [|i] y Hy; discriminate Hy.
    - cbn [ideal_frames] in H. destruct G as ((Gr & K & SL & C) & SP). pose proof Gr as Gr'.
      destruct (ctl_good L _ _ _ _ Gr K S E SL C SP) as (c' & pre & EC & C' & GC). rewrite EC in H. rewrite R in H.
      destruct (net_step fs (t_par c') pre (t_R c') (t_L c') xl xr (e_n e)) as [[n o0] o1] eqn:EN.
      destruct (step _ _ _ _ _ _ _ _ _ GC HX HP EN) as (HP' & HQ).
      destruct (ideal_frames L _ (Ideal (e_sr e) (e_k e) (e_sl e) c' n) t) as [[e2 os]|] eqn:EF; [|discriminate]. injection H as <- <-.
      destruct (IH (Ideal (e_sr e) (e_k e) (e_sl e) c' n) (Datatypes.S m) e2 os) as (G2 & R2 & P2 & Q2); [split; [split; [exact Gr'|split; [exact K|split; [exact SL|exact C']]]|apply GC]|exact R|exact HP'|exact EF|].
      split; [exact G2|]. split; [exact R2|]. cbn [length]. rewrite <- plus_n_Sm in P2. split; [exact P2|].
      intros [|i] y Hy; [injection Hy as <-; exact HQ|]. specialize (Q2 i y Hy). rewrite <- plus_n_Sm in Q2. exact Q2.
  Qed.
  Lemma keep_run t : Forall (plays X) t -> forall e m e' ys, egood e -> rate (e_sr e) = fs -> P m (e_n e) ->
    ideal_run L t (Some e) = Some (e', ys) -> forall i y, nth_error ys i = Some y -> Q (i + m) y.
  Proof.
    induction 1 as [|o t HO HT IH]; intros e m e' ys G R HP H i y Hy.
    - injection H as _ <-. destruct i; discriminate Hy.
    - cbn [ideal_run] in H. destruct o as [sr|p x| |xs]; cbn [plays] in HO; try contradiction; cbn [ideal_op] in H.
      + destruct (ideal_run L t _) as [[e2 b]|] eqn:ER in H; [|discriminate]. injection H as <- <-. cbn [app] in Hy.
        refine (IH _ m _ _ _ _ _ ER i y Hy); [|exact R|exact HP].
        destruct G as ((Gr & K & SL & C) & SP). split; [|exact SP]. split; [exact Gr|]. split; [exact K|]. split; [now apply sl_set|exact C].
      + destruct (ideal_frames L _ e xs) as [[e1 a]|] eqn:EF; [|discriminate]. destruct (ideal_run L t (Some e1)) as [[e2 b]|] eqn:ER; [|discriminate]. injection H as <- <-.
        destruct (keep_frames xs HO e m e1 a G R HP EF) as (G1 & R1 & P1 & Q1).
        destruct (Nat.lt_ge_cases i (length a)) as [LT|GE].
        * rewrite nth_error_app1 in Hy by exact LT. now apply Q1.
        * rewrite nth_error_app2 in Hy by exact GE. pose proof (IH _ _ _ _ G1 R1 P1 ER _ _ Hy) as Q2. replace (i + m)%nat with (i - length a + (length a + m))%nat by lia. exact Q2.
  Qed.
End Keep.

(** ** Zeros *)
Notation isz := is_zero (only parsing).
Lemma isz0 : isz zero. Proof. now exists false. Qed.
Lemma isz_add x y : isz x -> isz y -> isz (fadd x y). Proof. intros [[|] ->] [[|] ->]; eexists; reflexivity. Qed.
Lemma isz_sub x y : isz x -> isz y -> isz (fsub x y). Proof. intros [[|] ->] [[|] ->]; eexists; reflexivity. Qed.
Lemma isz_neg x : isz x -> isz (fneg x). Proof. intros [[|] ->]; eexists; reflexivity. Qed.
Lemma isz_mul c x : fin c -> isz x -> isz (fmul c x).
Proof. intros F [s ->]. destruct c as [sc|sc| |sc m e B]; try discriminate F; destruct sc, s; eexists; reflexivity. Qed.
Lemma isz_mul' c x : fin c -> isz x -> isz (fmul x c).
Proof. intros F [s ->]. destruct c as [sc|sc| |sc m e B]; try discriminate F; destruct sc, s; eexists; reflexivity. Qed.
Lemma isz_fin x : isz x -> fin x. Proof. now intros [s ->]. Qed.
Lemma isz_ago n l : Forall isz l -> isz (ago n l).
Proof. intros H. unfold ago. destruct (nth_in_or_default (Z.to_nat n) l zero) as [In0| ->]; [|apply isz0]. rewrite Forall_forall in H. now apply H. Qed.
Lemma ago_old k l : (Z.of_nat (length l) <= k)%Z -> ago k l = zero.
Proof. intros H. unfold ago. apply nth_overflow. lia. Qed.
Lemma isz_lerp x near far : fin x -> isz near -> isz far -> isz (fadd near (fmul x (fsub far near))).
Proof. intros F A B. apply isz_add; [exact A|]. apply isz_mul; [exact F|]. now apply isz_sub. Qed.

(** ** One side *)
Definition pfin (p : fvpar) : Prop :=
  fin (p8 p) /\ fin (p12 p) /\ fin (p15 p) /\ fin (p20 p) /\ fin (p24 p) /\ fin (p25 p) /\ fin (p27 p) /\ fin (p29 p) /\
  fin (fsub one (p8 p)) /\ fin (fsub one (p25 p)) /\ fin (fmul half (fadd (p24 p) one)).
Lemma sp_pfin p : sp_ok p -> pfin p.
Proof.
  intros (a & b & c & d & e & f & g & h & i & j & l). unfold soft in *. unfold pfin.
  assert (D2 : dy32 2) by (apply dyZ; lia). assert (D4 : dy32 4) by (apply dyZ; lia). assert (Dm : dy32 (-2)) by (apply (dyZ (-2)); lia).
  destruct (fadd_b 0 4 (p24 p) one dy0 D4 (proj1 e) one_fin ltac:(rewrite one_R; lra)) as (Fa & _ & Ba).
  assert (FH : fin half) by ffin. assert (BH : B2R half = / 2) by (fval half; lra).
  repeat match goal with |- _ /\ _ => split end; try (now apply a); try (now apply b); try (now apply c); try (now apply d); try (now apply e); try (now apply f); try (now apply g); try (now apply i).
  - apply (fsub_b (-2) 2 one (p8 p) Dm D2 one_fin (proj1 a)). rewrite one_R. lra.
  - apply (fsub_b (-2) 2 one (p25 p) Dm D2 one_fin (proj1 f)). rewrite one_R. lra.
  - apply (fmul_b 0 4 half _ dy0 D4 FH Fa). rewrite BH. lra.
Qed.
Lemma gain_fin (x : f32) : fin (fminf half (fmaxf (fdec 1 4) x)).
Proof.
  unfold fminf, fmaxf. destruct (flt (fdec 1 4) x) eqn:H1.
  - destruct (flt x half) eqn:H2; [|ffin]. destruct x as [s|[|]| |s m e B]; try reflexivity; [discriminate H1|discriminate H2|discriminate H1].
  - destruct (flt (fdec 1 4) half); ffin.
Qed.

Definition quiet (s : side) : Prop :=
  Forall isz (n_pre s) /\ isz (n_lp s) /\ isz (n_hp s) /\ Forall isz (n_1 s) /\ Forall isz (n_2 s) /\ Forall isz (n_3 s) /\ Forall isz (n_4 s) /\
  Forall isz (n_5 s) /\ isz (n_z s) /\ Forall isz (n_7 s) /\ isz (n_d s) /\ Forall isz (n_8 s) /\ Forall isz (n_out s) /\ Forall isz (n_damp s) /\ Forall isz (n_diff s).
Definition dmp (f : f32 -> f32 -> f32 -> f32) : Prop := forall r z t, fin r -> isz z -> fin t -> isz (f r z t).
Lemma dmpR : dmp fv_dampR. Proof. intros r z t R Z T. unfold fv_dampR. apply isz_mul'; [exact T|]. now apply isz_mul. Qed.
Lemma finite_mul_soft (a b : f32) : soft 1 a -> fin b -> -1 <= B2R b <= 1 -> fin (fmul a b).
Proof. intros (F & B) Fb Bb. assert (D2 : dy32 2) by (apply dyZ; lia). assert (Dm : dy32 (-2)) by (apply (dyZ (-2)); lia). apply (fmul_b (-2) 2 a b Dm D2 F Fb). nra. Qed.

Lemma quiet_diffuse g D l u : fin g -> Forall isz l -> isz u -> Forall isz (fst (diffuse g D l u)) /\ isz (snd (diffuse g D l u)).
Proof.
  intros G HL U. unfold diffuse. cbn [fst snd]. pose proof (isz_ago (D - 1) l HL) as W.
  assert (V : isz (fsub u (fmul g (ago (D - 1) l)))) by (apply isz_sub; [exact U|now apply isz_mul]).
  split; [now constructor|]. apply isz_add; [now apply isz_mul|exact W].
Qed.
Lemma quiet_step p damped D pre m x cross s : pfin p -> (forall z, isz z -> isz (damped (p29 p) z (fsub one (p8 p)))) -> fin (x_mix m) -> quiet s -> isz x -> isz cross ->
  quiet (side_step p damped D pre m x cross s).
Proof.
  intros (f8 & f12 & f15 & f20 & f24 & f25 & f27 & f29 & g8 & g25 & g24) DM M (q0 & q1 & q2 & q3 & q4 & q5 & q6 & q7 & q8 & q9 & q10 & q11 & q12 & q13 & q14) HX HC.
  unfold side_step.
  set (pl := fmul x (p27 p) :: n_pre s). assert (PL : Forall isz pl) by (constructor; [now apply isz_mul'|exact q0]). clearbody pl.
  set (lp := fadd (ago pre pl) (fmul (p25 p) (n_lp s))). assert (LP : isz lp) by (apply isz_add; [now apply isz_ago|now apply isz_mul]). clearbody lp.
  set (hp := fadd (fmul lp (fsub one (p25 p))) (fmul (p24 p) (n_hp s))). assert (HP : isz hp) by (apply isz_add; [now apply isz_mul'|now apply isz_mul]). clearbody hp.
  set (u := fmul (fmul half (fadd (p24 p) one)) (fsub hp (n_hp s))). assert (U : isz u) by (apply isz_mul; [exact g24|now apply isz_sub]). clearbody u.
  destruct (quiet_diffuse (p20 p) (l1 D) (n_1 s) u f20 q3 U) as (A1 & Y1). destruct (diffuse (p20 p) (l1 D) (n_1 s) u) as [a1 y1]. cbn [fst snd] in *.
  destruct (quiet_diffuse (p20 p) (l2 D) (n_2 s) y1 f20 q4 Y1) as (A2 & Y2). destruct (diffuse (p20 p) (l2 D) (n_2 s) y1) as [a2 y2]. cbn [fst snd] in *.
  destruct (quiet_diffuse (p15 p) (l3 D) (n_3 s) y2 f15 q5 Y2) as (A3 & Y3). destruct (diffuse (p15 p) (l3 D) (n_3 s) y2) as [a3 y3]. cbn [fst snd] in *.
  unfold diffuse2. set (w4 := ago (l4 D - 1) (n_4 s)). assert (W4 : isz w4) by (now apply isz_ago). clearbody w4.
  set (v4 := fsub y3 (fmul (p15 p) w4)). assert (V4 : isz v4) by (apply isz_sub; [exact Y3|now apply isz_mul]). clearbody v4.
  set (v := fadd (fadd (fadd w4 (fmul (p29 p) cross)) (fmul (p15 p) v4)) (fmul (p12 p) (n_z s))).
  assert (V : isz v) by (repeat apply isz_add; try exact W4; now apply isz_mul). clearbody v.
  set (a5 := v :: n_5 s). assert (A5 : Forall isz a5) by (now constructor). clearbody a5.
  set (z := fadd (ago (lim (x_a m)) a5) _). assert (Z : isz z) by (apply isz_lerp; [exact M|now apply isz_ago|now apply isz_ago]). clearbody z.
  set (t := fadd (fneg (fmul (p12 p) v)) (n_z s)). assert (T : isz t) by (apply isz_add; [apply isz_neg; now apply isz_mul|exact q8]). clearbody t.
  set (a7 := t :: n_7 s). assert (A7 : Forall isz a7) by (now constructor). clearbody a7.
  set (d := fadd (ago (l7 D) a7) (fmul (p8 p) (n_d s))). assert (HD : isz d) by (apply isz_add; [now apply isz_ago|now apply isz_mul]). clearbody d.
  pose proof (gain_fin (fadd (p29 p) (fdec 3 20))) as GF. set (g := fminf half _) in *. clearbody g.
  set (w := ago (l8 D - 1) (n_8 s)). assert (W : isz w) by (now apply isz_ago). clearbody w.
  set (v8 := fadd (fmul g w) _). assert (V8 : isz v8) by (apply isz_add; [now apply isz_mul|now apply DM]). clearbody v8.
  unfold quiet. cbn [n_pre n_lp n_hp n_1 n_2 n_3 n_4 n_5 n_z n_7 n_d n_8 n_out n_damp n_diff].
  repeat match goal with |- _ /\ _ => split end; try assumption; constructor; try assumption.
  - apply isz_add; [apply isz_neg; now apply isz_mul|exact W].
  - now apply isz_mul'.
Qed.

(** The part behind the long delay is silent as long as nothing has come through it. *)
Definition tail (m : nat) (s : side) : Prop :=
  length (n_7 s) = m /\ length (n_diff s) = m /\ isz (n_d s) /\ Forall isz (n_8 s) /\ Forall isz (n_out s) /\ Forall isz (n_damp s).
Lemma tail_step p damped D pre md x cross s m : pfin p -> (forall z, isz z -> isz (damped (p29 p) z (fsub one (p8 p)))) -> (Z.of_nat (Datatypes.S m) <= l7 D)%Z ->
  tail m s -> tail (Datatypes.S m) (side_step p damped D pre md x cross s).
Proof.
  intros (f8 & f12 & f15 & f20 & f24 & f25 & f27 & f29 & g8 & g25 & g24) DM M (q0 & q1 & q2 & q3 & q4 & q5).
  unfold side_step, diffuse, diffuse2. unfold tail. cbn [n_pre n_lp n_hp n_1 n_2 n_3 n_4 n_5 n_z n_7 n_d n_8 n_out n_damp n_diff length]. rewrite q0, q1.
  match goal with |- context [ago (l7 D) (?a :: n_7 s)] => set (t := a) in * end. clearbody t.
  rewrite (ago_old (l7 D)) by (cbn [length]; rewrite q0; exact M).
  set (d := fadd zero (fmul (p8 p) (n_d s))). assert (HD : isz d) by (apply isz_add; [apply isz0|now apply isz_mul]). clearbody d.
  pose proof (gain_fin (fadd (p29 p) (fdec 3 20))) as GF. set (g := fminf half _) in *. clearbody g.
  set (w := ago (l8 D - 1) (n_8 s)). assert (W : isz w) by (now apply isz_ago). clearbody w.
  set (v8 := fadd (fmul g w) _). assert (V8 : isz v8) by (apply isz_add; [now apply isz_mul|now apply DM]). clearbody v8.
  repeat match goal with |- _ /\ _ => split end; try assumption; try reflexivity; constructor; try assumption.
  - apply isz_add; [apply isz_neg; now apply isz_mul|exact W].
  - now apply isz_mul'.
Qed.
Lemma damped_ok p : sp_ok p -> (forall z, isz z -> isz (fv_dampR (p29 p) z (fsub one (p8 p)))) /\ (forall z, isz z -> isz (fv_dampL (p29 p) z (fsub one (p8 p)))).
Proof.
  intros SP. pose proof (sp_pfin p SP) as PF. destruct PF as (f8 & f12 & f15 & f20 & f24 & f25 & f27 & f29 & g8 & g25 & g24). split; intros z HZ.
  - now apply dmpR.
  - unfold fv_dampL. apply isz_mul; [|exact HZ]. destruct SP as (a & b & c & d & e & f & g & h & i & j & l). unfold soft in a.
    assert (D2 : dy32 2) by (apply dyZ; lia). assert (Dm : dy32 (-2)) by (apply (dyZ (-2)); lia).
    apply finite_mul_soft; [exact i|exact g8|].
    assert (Dy : dy32 (-1)) by (apply (dyZ (-1)); lia). assert (D1 : dy32 1) by (apply (dyZ 1); lia).
    apply (fsub_b (-1) 1 one (p8 p) Dy D1 one_fin (proj1 a)). rewrite one_R. lra.
Qed.
Lemma fdec35 : fin (fdec 3 5 : f32). Proof. ffin. Qed.

(** ** Silence *)
Lemma silent_step fs c pre xl xr n n' o0 o1 : good_ctl c -> isz xl /\ isz xr -> quiet (nR n) /\ quiet (nL n) ->
  net_step fs (t_par c) pre (t_R c) (t_L c) xl xr n = (n', o0, o1) -> (quiet (nR n') /\ quiet (nL n')) /\ isz o0 /\ isz o1.
Proof.
  intros (SP & MR & ML) [X0 X1] [QR QL] H. pose proof (sp_pfin _ SP) as PF. destruct (damped_ok _ SP) as [DR DL]. unfold net_step in H.
  assert (R : quiet (side_step (t_par c) fv_dampR (lensR fs) pre (t_R c) xr (ago (span fs (flit 1783083 (-24))) (n_out (nL n))) (nR n))).
  { apply quiet_step; auto. apply isz_ago. apply QL. }
  set (r := side_step (t_par c) fv_dampR _ _ _ _ _ _) in *. clearbody r.
  assert (Lq : quiet (side_step (t_par c) fv_dampL (lensL fs) pre (t_L c) xl (ago (span fs (flit 4194163 (-25)) + 1) (n_out r)) (nL n))).
  { apply quiet_step; auto. apply isz_ago. apply R. }
  set (l := side_step (t_par c) fv_dampL _ _ _ _ _ _) in *. clearbody l. injection H as <- <- <-. cbn [nR nL]. split; [now split|].
  assert (a : forall n, isz (ago n (n_diff r))) by (intros; apply isz_ago; apply R). assert (b : forall n, isz (ago n (n_out r))) by (intros; apply isz_ago; apply R). assert (d : forall n, isz (ago n (n_damp r))) by (intros; apply isz_ago; apply R).
  assert (a' : forall n, isz (ago n (n_diff l))) by (intros; apply isz_ago; apply Lq). assert (b' : forall n, isz (ago n (n_out l))) by (intros; apply isz_ago; apply Lq). assert (d' : forall n, isz (ago n (n_damp l))) by (intros; apply isz_ago; apply Lq).
  split; (apply isz_mul; [exact fdec35|]); (apply isz_sub; repeat apply isz_add; auto).
Qed.

(** ** Onset *)
Lemma span_le fs (c c' : f32) : fin fs -> 1 <= B2R fs <= 192000 -> (is_finite c && is_finite c' && fle zero c && fle c c' && fle c' one)%bool = true -> (span fs c <= span fs c')%Z.
Proof.
  intros F B H. apply andb_prop in H. destruct H as [H H5]. apply andb_prop in H. destruct H as [H H4]. apply andb_prop in H. destruct H as [H H3]. apply andb_prop in H. destruct H as [H1 H2].
  apply fle_R in H3; [|reflexivity|exact H1]. apply fle_R in H4; [|exact H1|exact H2]. apply fle_R in H5; [|exact H2|exact one_fin]. rewrite zero_R in H3. rewrite one_R in H5.
  apply span_mono; auto; lra.
Qed.
(** Seconds: the long delays (the shorter one). *)
Definition sLong : f32 := flit 9509025 (-26). (* 0.14169551 *)

Section Onset.
  Variable fs : f32.
  Hypothesis Ff : fin fs.
  Hypothesis Bf : 1 <= B2R fs <= 192000.
  Let le c c' (H : (is_finite c && is_finite c' && fle zero c && fle c c' && fle c' one)%bool = true) : (span fs c <= span fs c')%Z := span_le fs c c' Ff Bf H.

  Lemma tails_step c pre xl xr n m n' o0 o1 : good_ctl c -> (Z.of_nat (Datatypes.S m) <= span fs sLong)%Z -> tail m (nR n) -> tail m (nL n) ->
    net_step fs (t_par c) pre (t_R c) (t_L c) xl xr n = (n', o0, o1) -> tail (Datatypes.S m) (nR n') /\ tail (Datatypes.S m) (nL n').
  Proof using Ff Bf.
    intros (SP & MR & ML) HM TR TL H. pose proof (sp_pfin _ SP) as PF. destruct (damped_ok _ SP) as [DR DL]. unfold net_step in H. injection H as <- _ _. cbn [nR nL].
    split; apply tail_step; auto; cbn [lensR lensL l7].
    etransitivity; [exact HM|]. apply le. vm_compute. reflexivity.
  Qed.
  Lemma outs_zero p pre mR mL xl xr n m n' o0 o1 : tail m (nR n') -> tail m (nL n') ->
    net_step fs p pre mR mL xl xr n = (n', o0, o1) ->
    (((Z.of_nat m <= span fs sL1)%Z \/ Forall isz (n_diff (nR n')) /\ (Z.of_nat m <= span fs sL2)%Z) -> isz o0) /\
    (((Z.of_nat m <= span fs sR1)%Z \/ Forall isz (n_diff (nL n')) /\ (Z.of_nat m <= span fs sR2)%Z) -> isz o1).
  Proof using Ff Bf.
    intros (_ & R1 & _ & _ & R2 & R3) (_ & L1 & _ & _ & L2 & L3) H. unfold net_step in H. 
    set (r := side_step p fv_dampR _ _ _ _ _ _) in *. clearbody r. set (l := side_step p fv_dampL _ _ _ _ _ _) in *. clearbody l. injection H as <- <- <-. cbn [nR nL] in *.
    assert (b : forall n, isz (ago n (n_out r))) by (intros; now apply isz_ago). assert (d : forall n, isz (ago n (n_damp r))) by (intros; now apply isz_ago).
    assert (b' : forall n, isz (ago n (n_out l))) by (intros; now apply isz_ago). assert (d' : forall n, isz (ago n (n_damp l))) by (intros; now apply isz_ago).
    assert (O : forall c c' ln, length ln = m -> (Z.of_nat m <= span fs c)%Z -> (is_finite c && is_finite c' && fle zero c && fle c c' && fle c' one)%bool = true -> isz (ago (span fs c') ln)).
    { intros c c' ln E A B. rewrite ago_old; [apply isz0|]. rewrite E. etransitivity; [exact A|]. now apply le. }
    split; intros C; (apply isz_mul; [exact fdec35|]).
    - destruct C as [C|[C1 C2]]; (apply isz_sub; repeat apply isz_add; auto); first [now apply isz_ago|apply (O sL1); [assumption|assumption|vm_compute; reflexivity]|apply (O sL2); [assumption|assumption|vm_compute; reflexivity]].
    - destruct C as [C|[C1 C2]]; (apply isz_sub; repeat apply isz_add; auto); first [now apply isz_ago|apply (O sR1); [assumption|assumption|vm_compute; reflexivity]|apply (O sR2); [assumption|assumption|vm_compute; reflexivity]].
  Qed.
  Lemma long_gt : (span fs sL1 <= span fs sLong /\ span fs sR1 <= span fs sLong /\ span fs sL2 <= span fs sLong /\ span fs sR2 <= span fs sLong)%Z.
  Proof using Ff Bf. repeat split; apply le; vm_compute; reflexivity. Qed.

  Lemma onset_step c pre xl xr n m n' o0 o1 : good_ctl c -> ((Z.of_nat m <= span fs sLong)%Z -> tail m (nR n) /\ tail m (nL n)) ->
    net_step fs (t_par c) pre (t_R c) (t_L c) xl xr n = (n', o0, o1) ->
    ((Z.of_nat (Datatypes.S m) <= span fs sLong)%Z -> tail (Datatypes.S m) (nR n') /\ tail (Datatypes.S m) (nL n')) /\
    ((Z.of_nat m < span fs sL1)%Z -> isz o0) /\ ((Z.of_nat m < span fs sR1)%Z -> isz o1).
  Proof using Ff Bf.
    intros G T H. destruct long_gt as (G1 & G2 & G3 & G4).
    assert (A : (Z.of_nat (Datatypes.S m) <= span fs sLong)%Z -> tail (Datatypes.S m) (nR n') /\ tail (Datatypes.S m) (nL n')).
    { intros HM. destruct (T ltac:(lia)) as [TR TL]. now apply (tails_step c pre xl xr n m n' o0 o1). }
    split; [exact A|]. split; intros HM; (destruct (A ltac:(lia)) as [TR TL]); destruct (outs_zero _ _ _ _ _ _ _ _ _ _ _ TR TL H) as [Z0 Z1]; [apply Z0|apply Z1]; left; lia.
  Qed.
  (** Nothing on the right input: the left output waits for the other line, and the other way round. *)
  Lemma cross_step (b : bool) c pre xl xr n m n' o0 o1 : good_ctl c -> isz (if b then xr else xl) ->
    ((Z.of_nat m <= span fs sLong)%Z -> quiet (if b then nR n else nL n) /\ tail m (nR n) /\ tail m (nL n)) ->
    net_step fs (t_par c) pre (t_R c) (t_L c) xl xr n = (n', o0, o1) ->
    ((Z.of_nat (Datatypes.S m) <= span fs sLong)%Z -> quiet (if b then nR n' else nL n') /\ tail (Datatypes.S m) (nR n') /\ tail (Datatypes.S m) (nL n')) /\
    ((Z.of_nat m < span fs (if b then sL2 else sR2))%Z -> isz (if b then o0 else o1)).
  Proof using Ff Bf.
    intros G HX T H. destruct long_gt as (G1 & G2 & G3 & G4).
    assert (A : (Z.of_nat (Datatypes.S m) <= span fs sLong)%Z -> quiet (if b then nR n' else nL n') /\ tail (Datatypes.S m) (nR n') /\ tail (Datatypes.S m) (nL n')).
    { intros HM. destruct (T ltac:(lia)) as (QT & TR & TL). pose proof (tails_step c pre xl xr n m n' o0 o1 G HM TR TL H) as T'. split; [|exact T'].
      destruct G as (SP & MR & ML). pose proof (sp_pfin _ SP) as PF. destruct (damped_ok _ SP) as [DR DL]. unfold net_step in H.
      set (r := side_step (t_par c) fv_dampR _ _ _ _ _ _) in H. set (l := side_step (t_par c) fv_dampL _ _ _ _ _ _) in H.
      assert (ER : nR n' = r) by (clear - H; clearbody r l; now injection H as <- _ _). assert (EL : nL n' = l) by (clear - H; clearbody r l; now injection H as <- _ _). clear H.
      destruct b; [rewrite ER; unfold r|rewrite EL; unfold l]; apply quiet_step; auto; apply isz_ago; [apply TL|fold r; rewrite <- ER; apply T']. }
    split; [exact A|]. intros HM. assert (HL : (Z.of_nat (Datatypes.S m) <= span fs sLong)%Z) by (destruct b; lia).
    destruct (A HL) as (QT & TR & TL). destruct (outs_zero _ _ _ _ _ _ _ _ _ _ _ TR TL H) as [Z0 Z1].
    destruct b; [apply Z0|apply Z1]; right; (split; [apply QT|lia]).
  Qed.
End Onset.
