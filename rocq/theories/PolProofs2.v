(** Inverting the input of a ladder filter. *)
From Coq Require Import ZArith Bool List Reals Lra.
From Flocq Require Import Core BinarySingleNaN.
From Verif Require Import Flt FltFacts Libm UtilModel UtilProofs Res PolSpec FltPol MgModel MgSpec StModel MtModel RkModel ImModel MdModel ObModel PolProofs.
Import ListNotations.
Local Open Scope flt_scope.

(** ** Microtracker *)
Record mt_opp (s t : mt) : Prop := MtOpp { mto_sr : mt_sr s = mt_sr t; mto_f : mt_cut s = mt_cut t; mto_r : mt_res s = mt_res t; mto_c : mt_c s = mt_c t;
  mto_0 : opp (mt_p0 s) (mt_p0 t); mto_1 : opp (mt_p1 s) (mt_p1 t); mto_2 : opp (mt_p2 s) (mt_p2 t); mto_3 : opp (mt_p3 s) (mt_p3 t);
  mto_32 : opp (mt_p32 s) (mt_p32 t); mto_33 : opp (mt_p33 s) (mt_p33 t); mto_34 : opp (mt_p34 s) (mt_p34 t) }.
Lemma mt_tanh_opp x y : opp x y -> opp (mt_tanh x) (mt_tanh y).
Proof. intros H. unfold mt_tanh. rewrite (opp_square _ _ H). opps. Qed.
Lemma mt_stage_opp c x y p q : opp x y -> opp p q -> opp (mt_stage c x p) (mt_stage c y q).
Proof. intros H K. unfold mt_stage. pose proof (mt_tanh_opp _ _ H). pose proof (mt_tanh_opp _ _ K). opps. Qed.
Definition mt_rel (o o' : mt_op) : Prop :=
  match o, o' with
  | MtCut x, MtCut x' => x = x'
  | MtRes x, MtRes x' => x = x'
  | MtTick x, MtTick x' => opp x x'
  | MtReset, MtReset => True
  | _, _ => False
  end.
Lemma mt_flip_rel o : mt_rel o (mt_flip o).
Proof. destruct o; cbn; repeat split; apply opp_neg. Qed.
Lemma mt_step_rel s t o o' : mt_rel o o' -> mt_opp s t -> mt_opp (fst (mt_call s o)) (fst (mt_call t o')) /\ oopp (snd (mt_call s o)) (snd (mt_call t o')).
Proof. intros Ho.
  destruct s as [a b c p0 p1 p2 p3 p4 p5 p6 d], t as [a' b' c' q0 q1 q2 q3 q4 q5 q6 d']. intros [E1 E2 E3 E4 H0 H1 H2 H3 H4 H5 H6].
  cbn [mt_sr mt_cut mt_res mt_c mt_p0 mt_p1 mt_p2 mt_p3 mt_p32 mt_p33 mt_p34] in *. subst a' b' c' d'.
  destruct o as [v|v|x|], o' as [v'|v'|x'|]; cbn [mt_rel] in Ho; rel_cases Ho Ho'; cbn [mt_call fst snd].
  - split; [constructor; auto|exact Logic.I].
  - split; [constructor; auto|exact Logic.I].
  - unfold mt_tick, mt_mix. cbn [mt_sr mt_cut mt_res mt_c mt_p0 mt_p1 mt_p2 mt_p3 mt_p32 mt_p33 mt_p34 fst snd].
    match goal with |- context [d2f (?u + ?v)] => set (o := u + v) end. match goal with |- context [oopp (Some (d2f o)) (Some (d2f ?w))] => set (o' := w) end.
    assert (O : opp o o') by (unfold o, o'; opps). clearbody o o'.
    match goal with |- context [mt_stage d (f2d x - ?u) p0] => set (k := u) end. match goal with |- context [mt_stage d (f2d (x') - ?u) q0] => set (k' := u) end.
    assert (K : opp (f2d x - k) (f2d (x') - k')) by (unfold k, k'; opps; first [exact Ho|exact Ho']). clearbody k k'.
    pose proof (mt_stage_opp d _ _ p0 q0 K H0) as A0. set (x0 := mt_stage d _ p0) in *. set (y0 := mt_stage d _ q0) in *. clearbody x0 y0.
    pose proof (mt_stage_opp d _ _ p1 q1 A0 H1) as A1. set (x1 := mt_stage d _ p1) in *. set (y1 := mt_stage d _ q1) in *. clearbody x1 y1.
    pose proof (mt_stage_opp d _ _ p2 q2 A1 H2) as A2. set (x2 := mt_stage d _ p2) in *. set (y2 := mt_stage d _ q2) in *. clearbody x2 y2.
    pose proof (mt_stage_opp d _ _ p3 q3 A2 H3) as A3.
    split; [constructor; auto|]. cbn [oopp]. opps.
  - split; [constructor; auto; exact opp_zero|exact Logic.I].
Qed.
Lemma mt_step_opp s t o : mt_opp s t -> mt_opp (fst (mt_call s o)) (fst (mt_call t (mt_flip o))) /\ oopp (snd (mt_call s o)) (snd (mt_call t (mt_flip o))).
Proof. exact (mt_step_rel s t o _ (mt_flip_rel o)). Qed.
Lemma mt_init_opp sr : mt_opp (mt_init sr) (mt_init sr).
Proof. constructor; try reflexivity; exact opp_zero. Qed.

(** ** MusicDSP *)
Record md_opp (s t : md) : Prop := MdOpp { mdo_sr : md_sr s = md_sr t; mdo_f : md_cut s = md_cut t; mdo_r : md_res s = md_res t; mdo_p : md_p s = md_p t; mdo_k : md_k s = md_k t; mdo_t1 : md_t1 s = md_t1 t; mdo_t2 : md_t2 s = md_t2 t; mdo_rc : md_rc s = md_rc t;
  mdo_0 : opp (md_s0 s) (md_s0 t); mdo_1 : opp (md_s1 s) (md_s1 t); mdo_2 : opp (md_s2 s) (md_s2 t); mdo_3 : opp (md_s3 s) (md_s3 t);
  mdo_y0 : opp (md_y0 s) (md_y0 t); mdo_y1 : opp (md_y1 s) (md_y1 t); mdo_y2 : opp (md_y2 s) (md_y2 t); mdo_y3 : opp (md_y3 s) (md_y3 t) }.
Definition md_rel (o o' : md_op) : Prop :=
  match o, o' with
  | MdCut x, MdCut x' => x = x'
  | MdRes x, MdRes x' => x = x'
  | MdTick x, MdTick x' => opp x x'
  | MdReset, MdReset => True
  | _, _ => False
  end.
Lemma md_flip_rel o : md_rel o (md_flip o).
Proof. destruct o; cbn; repeat split; apply opp_neg. Qed.
Lemma md_step_rel L s t o o' : md_rel o o' -> md_opp s t -> md_opp (fst (md_call L s o)) (fst (md_call L t o')) /\ oopp (snd (md_call L s o)) (snd (md_call L t o')).
Proof. intros Ho.
  destruct s as [a b c p k u v r s0 s1 s2 s3 y0 y1 y2 y3], t as [a' b' c' p' k' u' v' r' t0 t1 t2 t3 z0 z1 z2 z3]. intros [E1 E2 E3 E4 E5 E6 E7 E8 H0 H1 H2 H3 K0 K1 K2 K3].
  cbn [md_sr md_cut md_res md_p md_k md_t1 md_t2 md_rc md_s0 md_s1 md_s2 md_s3 md_y0 md_y1 md_y2 md_y3] in *. subst a' b' c' p' k' u' v' r'.
  destruct o as [w|w|x|], o' as [w'|w'|x'|]; cbn [md_rel] in Ho; rel_cases Ho Ho'; cbn [md_call fst snd].
  - split; [constructor; auto|exact Logic.I].
  - split; [constructor; auto|exact Logic.I].
  - unfold md_tick. cbn [md_sr md_cut md_res md_p md_k md_t1 md_t2 md_rc md_s0 md_s1 md_s2 md_s3 md_y0 md_y1 md_y2 md_y3 fst snd].
    set (X := f2d x - r * s3). set (Y := f2d (x') - r * t3). assert (A : opp X Y) by (unfold X, Y; opps; first [exact Ho|exact Ho']). clearbody X Y.
    set (x0 := X * p + y0 * p - k * s0). set (w0 := Y * p + z0 * p - k * t0). assert (A0 : opp x0 w0) by (unfold x0, w0; opps). clearbody x0 w0.
    set (x1 := x0 * p + y1 * p - k * s1). set (w1 := w0 * p + z1 * p - k * t1). assert (A1 : opp x1 w1) by (unfold x1, w1; opps). clearbody x1 w1.
    set (x2 := x1 * p + y2 * p - k * s2). set (w2 := w1 * p + z2 * p - k * t2). assert (A2 : opp x2 w2) by (unfold x2, w2; opps). clearbody x2 w2.
    set (x3 := x2 * p + y3 * p - k * s3). set (w3 := w2 * p + z3 * p - k * t3). assert (A3 : opp x3 w3) by (unfold x3, w3; opps). clearbody x3 w3.
    assert (A4 : opp (x3 - x3 * x3 * x3 / dz 6) (w3 - w3 * w3 * w3 / dz 6)) by (rewrite (opp_square _ _ A3); opps).
    split; [constructor; auto|]. cbn [oopp]. now apply opp_d2f.
  - split; [constructor; auto; exact opp_zero|exact Logic.I].
Qed.
Lemma md_step_opp L s t o : md_opp s t -> md_opp (fst (md_call L s o)) (fst (md_call L t (md_flip o))) /\ oopp (snd (md_call L s o)) (snd (md_call L t (md_flip o))).
Proof. exact (md_step_rel L s t o _ (md_flip_rel o)). Qed.
Lemma md_init_opp L r0 sr : md_opp (md_init L r0 sr) (md_init L r0 sr).
Proof. constructor; try reflexivity; exact opp_zero. Qed.

(** ** Oberheim *)
Record ob_opp (s t : ob) : Prop := ObOpp { obo_sr : ob_sr s = ob_sr t; obo_f : ob_cut s = ob_cut t; obo_r : ob_res s = ob_res t; obo_a : ob_alpha s = ob_alpha t; obo_K : ob_K s = ob_K t; obo_g : ob_gamma s = ob_gamma t; obo_a0 : ob_alpha0 s = ob_alpha0 t;
  obo_b0 : ob_beta (ob_0 s) = ob_beta (ob_0 t); obo_b1 : ob_beta (ob_1 s) = ob_beta (ob_1 t); obo_b2 : ob_beta (ob_2 s) = ob_beta (ob_2 t); obo_b3 : ob_beta (ob_3 s) = ob_beta (ob_3 t);
  obo_0 : opp (ob_z (ob_0 s)) (ob_z (ob_0 t)); obo_1 : opp (ob_z (ob_1 s)) (ob_z (ob_1 t)); obo_2 : opp (ob_z (ob_2 s)) (ob_z (ob_2 t)); obo_3 : opp (ob_z (ob_3 s)) (ob_z (ob_3 t)) }.
Lemma ob_fb_opp b z w : opp z w -> opp (ob_feedback (ObPole b z)) (ob_feedback (ObPole b w)).
Proof. intros H. unfold ob_feedback. cbn [ob_beta ob_z]. opps. Qed.
Lemma ob_stage_opp al b z w x y : opp z w -> opp x y ->
  ob_beta (fst (ob_stage al (ObPole b z) x)) = b /\ ob_beta (fst (ob_stage al (ObPole b w) y)) = b /\
  opp (ob_z (fst (ob_stage al (ObPole b z) x))) (ob_z (fst (ob_stage al (ObPole b w) y))) /\ opp (snd (ob_stage al (ObPole b z) x)) (snd (ob_stage al (ObPole b w) y)).
Proof.
  intros H K. pose proof (ob_fb_opp b z w H) as Fb. unfold ob_stage. cbn [ob_beta ob_z fst snd]. repeat split; opps.
Qed.
Definition ob_rel (o o' : ob_op) : Prop :=
  match o, o' with
  | ObCut x, ObCut x' => x = x'
  | ObRes x, ObRes x' => x = x'
  | ObTick x, ObTick x' => opp x x'
  | ObReset, ObReset => True
  | _, _ => False
  end.
Lemma ob_flip_rel o : ob_rel o (ob_flip o).
Proof. destruct o; cbn; repeat split; apply opp_neg. Qed.
Lemma ob_step_rel L s t o o' : ob_rel o o' -> odd (d_tanh L) -> ob_opp s t -> ob_opp (fst (ob_call L s o)) (fst (ob_call L t o')) /\ oopp (snd (ob_call L s o)) (snd (ob_call L t o')).
Proof. intros Ho.
  intros HT. destruct s as [a b c al [b0 z0] [b1 z1] [b2 z2] [b3 z3] K g a0], t as [a' b' c' al' [b0' w0] [b1' w1] [b2' w2] [b3' w3] K' g' a0']. intros [E1 E2 E3 E4 E5 E6 E7 E8 E9 E10 E11 H0 H1 H2 H3].
  cbn [ob_sr ob_cut ob_res ob_alpha ob_K ob_gamma ob_alpha0 ob_0 ob_1 ob_2 ob_3 ob_beta ob_z] in *. subst a' b' c' al' b0' b1' b2' b3' K' g' a0'.
  destruct o as [v|v|x|], o' as [v'|v'|x'|]; cbn [ob_rel] in Ho; rel_cases Ho Ho'; cbn [ob_call fst snd].
  - split; [constructor; auto|exact Logic.I].
  - split; [constructor; auto|exact Logic.I].
  - unfold ob_tick. cbn [ob_sr ob_cut ob_res ob_alpha ob_K ob_gamma ob_alpha0 ob_0 ob_1 ob_2 ob_3].
    match goal with |- context [ob_stage al (ObPole b0 z0) ?U] => set (u := U) end. match goal with |- context [ob_stage al (ObPole b0 w0) ?U] => set (u' := U) end.
    assert (A : opp u u').
    { pose proof (ob_fb_opp b0 _ _ H0). pose proof (ob_fb_opp b1 _ _ H1). pose proof (ob_fb_opp b2 _ _ H2). pose proof (ob_fb_opp b3 _ _ H3).
      unfold u, u'. apply HT. opps. }
    clearbody u u'.
    destruct (ob_stage_opp al b0 z0 w0 u u' H0 A) as (B0 & C0 & D0 & O0). destruct (ob_stage al (ObPole b0 z0) u) as [q0 o0], (ob_stage al (ObPole b0 w0) u') as [r0 p0]. cbn [fst snd] in B0, C0, D0, O0.
    destruct (ob_stage_opp al b1 z1 w1 o0 p0 H1 O0) as (B1 & C1 & D1 & O1). destruct (ob_stage al (ObPole b1 z1) o0) as [q1 o1], (ob_stage al (ObPole b1 w1) p0) as [r1 p1]. cbn [fst snd] in B1, C1, D1, O1.
    destruct (ob_stage_opp al b2 z2 w2 o1 p1 H2 O1) as (B2 & C2 & D2 & O2). destruct (ob_stage al (ObPole b2 z2) o1) as [q2 o2], (ob_stage al (ObPole b2 w2) p1) as [r2 p2]. cbn [fst snd] in B2, C2, D2, O2.
    destruct (ob_stage_opp al b3 z3 w3 o2 p2 H3 O2) as (B3 & C3 & D3 & O3). destruct (ob_stage al (ObPole b3 z3) o2) as [q3 o3], (ob_stage al (ObPole b3 w3) p2) as [r3 p3]. cbn [fst snd] in B3, C3, D3, O3.
    cbn [fst snd]. split; [constructor; cbn [ob_sr ob_cut ob_res ob_alpha ob_K ob_gamma ob_alpha0 ob_0 ob_1 ob_2 ob_3]; auto; congruence|]. cbn [oopp]. opps.
  - split; [constructor; auto; exact opp_zero|exact Logic.I].
Qed.
Lemma ob_step_opp L s t o : odd (d_tanh L) -> ob_opp s t -> ob_opp (fst (ob_call L s o)) (fst (ob_call L t (ob_flip o))) /\ oopp (snd (ob_call L s o)) (snd (ob_call L t (ob_flip o))).
Proof. exact (ob_step_rel L s t o _ (ob_flip_rel o)). Qed.
Lemma ob_init_opp L sr : ob_opp (ob_init L sr) (ob_init L sr).
Proof. constructor; try reflexivity; exact opp_zero. Qed.

(** ** Improved *)
Record imc_opp (s t : im_cell) : Prop := ImcOpp { imo_V : opp (im_V s) (im_V t); imo_d : opp (im_dV s) (im_dV t); imo_t : opp (im_tV s) (im_tV t) }.
Record im_opp (s t : im) : Prop := ImOpp { imo_sr : im_sr s = im_sr t; imo_f : im_cut s = im_cut t; imo_r : im_res s = im_res t; imo_m : im_makeup s = im_makeup t; imo_x : im_x s = im_x t; imo_g : im_g s = im_g t; imo_dr : im_drive s = im_drive t;
  imo_0 : imc_opp (im_0 s) (im_0 t); imo_1 : imc_opp (im_1 s) (im_1 t); imo_2 : imc_opp (im_2 s) (im_2 t); imo_3 : imc_opp (im_3 s) (im_3 t) }.
Lemma im_zero_opp : imc_opp im_zero im_zero. Proof. constructor; exact opp_zero. Qed.
Lemma im_move_opp L sr c c' d d' : odd (d_tanh L) -> imc_opp c c' -> opp d d' -> imc_opp (im_move L sr c d) (im_move L sr c' d').
Proof. intros HT [A B C] D. unfold im_move. constructor; cbn [im_V im_dV im_tV]; try (apply HT); opps. Qed.
Definition im_rel (o o' : im_op) : Prop :=
  match o, o' with
  | ImCut x, ImCut x' => x = x'
  | ImRes x, ImRes x' => x = x'
  | ImDrive x, ImDrive x' => x = x'
  | ImTick x, ImTick x' => opp x x'
  | ImReset, ImReset => True
  | _, _ => False
  end.
Lemma im_flip_rel o : im_rel o (im_flip o).
Proof. destruct o; cbn; repeat split; apply opp_neg. Qed.
Lemma im_step_rel L s t o o' : im_rel o o' -> odd (d_tanh L) -> im_opp s t -> im_opp (fst (im_call L s o)) (fst (im_call L t o')) /\ oopp (snd (im_call L s o)) (snd (im_call L t o')).
Proof. intros Ho.
  intros HT. destruct s as [a b c m x g d c0 c1 c2 c3], t as [a' b' c' m' x' g' d' e0 e1 e2 e3]. intros [E1 E2 E3 E4 E5 E6 E7 H0 H1 H2 H3].
  cbn [im_sr im_cut im_res im_makeup im_x im_g im_drive im_0 im_1 im_2 im_3] in *. subst a' b' c' m' x' g' d'. pose proof im_zero_opp as Z.
  destruct o as [v|v|v|y|], o' as [v'|v'|v'|y'|]; cbn [im_rel] in Ho; rel_cases Ho Ho'; cbn [im_call fst snd].
  - split; [constructor; auto|exact Logic.I].
  - split; [constructor; auto|exact Logic.I].
  - split; [constructor; auto|exact Logic.I].
  - unfold im_tick. cbn [im_sr im_cut im_res im_makeup im_x im_g im_drive im_0 im_1 im_2 im_3].
    match goal with |- context [im_move L a c0 ?U] => set (u := U) end. match goal with |- context [im_move L a e0 ?U] => set (u' := U) end.
    assert (A : opp u u') by (destruct H0, H3; unfold u, u'; apply opp_mul_r; [apply same_refl|]; apply opp_add; [apply HT; opps; first [exact Ho|exact Ho']|assumption]). clearbody u u'.
    pose proof (im_move_opp L a _ _ _ _ HT H0 A) as M0. set (x0 := im_move L a c0 u) in *. set (y0 := im_move L a e0 u') in *. clearbody x0 y0.
    assert (A1 : opp (g * (im_tV x0 - im_tV c1)) (g * (im_tV y0 - im_tV e1))) by (destruct M0, H1; opps).
    pose proof (im_move_opp L a _ _ _ _ HT H1 A1) as M1. set (x1 := im_move L a c1 _) in *. set (y1 := im_move L a e1 _) in *. clearbody x1 y1.
    assert (A2 : opp (g * (im_tV x1 - im_tV c2)) (g * (im_tV y1 - im_tV e2))) by (destruct M1, H2; opps).
    pose proof (im_move_opp L a _ _ _ _ HT H2 A2) as M2. set (x2 := im_move L a c2 _) in *. set (y2 := im_move L a e2 _) in *. clearbody x2 y2.
    assert (A3 : opp (g * (im_tV x2 - im_tV c3)) (g * (im_tV y2 - im_tV e3))) by (destruct M2, H3; opps).
    pose proof (im_move_opp L a _ _ _ _ HT H3 A3) as M3. set (x3 := im_move L a c3 _) in *. set (y3 := im_move L a e3 _) in *. clearbody x3 y3.
    cbn [fst snd]. split; [constructor; auto|]. cbn [oopp]. destruct M3. opps.
  - split; [constructor; auto|exact Logic.I].
Qed.
Lemma im_step_opp L s t o : odd (d_tanh L) -> im_opp s t -> im_opp (fst (im_call L s o)) (fst (im_call L t (im_flip o))) /\ oopp (snd (im_call L s o)) (snd (im_call L t (im_flip o))).
Proof. exact (im_step_rel L s t o _ (im_flip_rel o)). Qed.
Lemma im_init_opp sr : im_opp (im_init sr) (im_init sr).
Proof. pose proof im_zero_opp. constructor; try reflexivity; assumption. Qed.

(** ** RKSimulation *)
Record q_opp (s t : quad) : Prop := QOpp { qo_0 : opp (q_0 s) (q_0 t); qo_1 : opp (q_1 s) (q_1 t); qo_2 : opp (q_2 s) (q_2 t); qo_3 : opp (q_3 s) (q_3 t) }.
Lemma q_map2_opp f a a' b b' : (forall x x' y y', opp x x' -> opp y y' -> opp (f x y) (f x' y')) -> q_opp a a' -> q_opp b b' -> q_opp (q_map2 f a b) (q_map2 f a' b').
Proof. intros H [A0 A1 A2 A3] [B0 B1 B2 B3]. constructor; cbn [q_map2 q_0 q_1 q_2 q_3]; auto. Qed.
Lemma one_R64 : B2R (dz 1) = 1%R. Proof. fval (dz 1). lra. Qed.
Lemma rk_clip_opp x y : opp x y -> opp (rk_clip x) (rk_clip y).
Proof.
  intros H. unfold rk_clip. assert (A : opp (x * rk_third) (y * rk_third)) by opps. set (v := x * rk_third) in *. set (w := y * rk_third) in *. clearbody v w.
  set (v2 := if v >? dz 1 then dz 1 else if v <? - dz 1 then - dz 1 else v). set (w2 := if w >? dz 1 then dz 1 else if w <? - dz 1 then - dz 1 else w).
  assert (B : opp v2 w2).
  { assert (N : opp (dz 1) (- dz 1)) by apply opp_neg. pose proof (opp_sym _ _ N) as N'.
    unfold v2, w2. rewrite (opp_flt _ _ _ _ N' A), (opp_flt _ _ _ _ A N).
    destruct (flt v (- dz 1)) eqn:P, (flt (dz 1) v) eqn:Q; auto.
    exfalso. clear - P Q. destruct (is_finite v) eqn:F.
    - apply flt_R in P; [|exact F|reflexivity]. apply flt_R in Q; [|reflexivity|exact F]. rewrite fneg_R in P. pose proof one_R64. lra.
    - destruct (nf_cases v F) as [->|[[] ->]]; vm_compute in P, Q; discriminate. }
  clearbody v2 w2. apply opp_mul_r; [apply same_refl|]. apply opp_sub; [exact B|]. apply opp_mul_r; [|exact B]. apply opp_mul; [|exact B]. opps.
Qed.
Record rk_opp (s t : rk) : Prop := RkOpp { rko_sr : rk_sr s = rk_sr t; rko_f : rk_cut s = rk_cut t; rko_r : rk_res s = rk_res t; rko_d : rk_drive s = rk_drive t; rko_m : rk_makeup s = rk_makeup t; rko_c : rk_coeff s = rk_coeff t; rko_n : rk_over s = rk_over t; rko_h : rk_step s = rk_step t;
  rko_q : q_opp (rk_state s) (rk_state t) }.
Lemma rk_deriv_opp s t x y q r : rk_res s = rk_res t -> rk_drive s = rk_drive t -> rk_coeff s = rk_coeff t -> opp x y -> q_opp q r -> q_opp (rk_deriv s x q) (rk_deriv t y r).
Proof.
  intros E1 E2 E3 X [Q0 Q1 Q2 Q3]. unfold rk_deriv. rewrite E1, E2, E3. pose proof (rk_clip_opp _ _ Q0). pose proof (rk_clip_opp _ _ Q1). pose proof (rk_clip_opp _ _ Q2). pose proof (rk_clip_opp _ _ Q3).
  constructor; cbn [q_0 q_1 q_2 q_3]; opps. apply rk_clip_opp. opps.
Qed.
Lemma rk_solve_opp s t x y q r : rk_res s = rk_res t -> rk_drive s = rk_drive t -> rk_coeff s = rk_coeff t -> rk_step s = rk_step t -> opp x y -> q_opp q r -> q_opp (rk_solve s x q) (rk_solve t y r).
Proof.
  intros E1 E2 E3 E4 X Q. unfold rk_solve. rewrite E4. set (h := rk_step t).
  assert (A : forall c : f64, forall a a' b b', opp a a' -> opp b b' -> opp (a + c * b) (a' + c * b')) by (intros; opps).
  assert (D : forall q r, q_opp q r -> q_opp (rk_deriv s x q) (rk_deriv t y r)) by (intros; now apply rk_deriv_opp).
  assert (W : forall k k', q_opp k k' -> q_opp (q_map2 (fun _ d => dz 2 * d) k k) (q_map2 (fun _ d => dz 2 * d) k' k')) by (intros k k' K; apply q_map2_opp; [intros; opps|exact K|exact K]).
  pose proof (D _ _ Q) as K1. set (k1 := rk_deriv s x q) in *. set (k1' := rk_deriv t y r) in *. clearbody k1 k1'.
  pose proof (D _ _ (q_map2_opp (fun x d => x + ddec 1 2 * h * d) _ _ _ _ (A _) Q K1)) as K2. set (k2 := rk_deriv s x _) in *. set (k2' := rk_deriv t y _) in *. clearbody k2 k2'.
  pose proof (D _ _ (q_map2_opp (fun x d => x + ddec 1 2 * h * d) _ _ _ _ (A _) Q K2)) as K3. set (k3 := rk_deriv s x _) in *. set (k3' := rk_deriv t y _) in *. clearbody k3 k3'.
  pose proof (D _ _ (q_map2_opp (fun x d => x + h * d) _ _ _ _ (A _) Q K3)) as K4. set (k4 := rk_deriv s x _) in *. set (k4' := rk_deriv t y _) in *. clearbody k4 k4'.
  apply q_map2_opp; [apply A|exact Q|]. repeat (apply q_map2_opp; [intros; now apply opp_add| |]); auto.
Qed.
Definition rk_rel (o o' : rk_op) : Prop :=
  match o, o' with
  | RkCut x, RkCut x' => x = x'
  | RkRes x, RkRes x' => x = x'
  | RkDrive x, RkDrive x' => x = x'
  | RkOver x, RkOver x' => x = x'
  | RkTick x, RkTick x' => opp x x'
  | RkReset, RkReset => True
  | _, _ => False
  end.
Lemma rk_flip_rel o : rk_rel o (rk_flip o).
Proof. destruct o; cbn; repeat split; apply opp_neg. Qed.
Lemma rk_step_rel s t o o' : rk_rel o o' -> rk_opp s t -> rk_opp (fst (rk_call s o)) (fst (rk_call t o')) /\ oopp (snd (rk_call s o)) (snd (rk_call t o')).
Proof. intros Ho.
  intros H. destruct o as [v|v|v|v|x|], o' as [v'|v'|v'|v'|x'|]; cbn [rk_rel] in Ho; rel_cases Ho Ho'; cbn [rk_call fst snd].
  - destruct s, t, H; cbn in *; subst. split; [constructor; auto|exact Logic.I].
  - destruct s, t, H; cbn in *; subst. split; [constructor; auto|exact Logic.I].
  - destruct s, t, H; cbn in *; subst. split; [constructor; auto|exact Logic.I].
  - destruct s, t, H; cbn in *; subst. split; [constructor; auto|exact Logic.I].
  - destruct H as [E1 E2 E3 E4 E5 E6 E7 E8 Q]. unfold rk_tick. rewrite E7.
    assert (K : q_opp (Nat.iter (Z.to_nat (rk_over t)) (rk_solve s (f2d x)) (rk_state s)) (Nat.iter (Z.to_nat (rk_over t)) (rk_solve t (f2d (x'))) (rk_state t))).
    { generalize (Z.to_nat (rk_over t)). intros n. induction n as [|n IH]; cbn [Nat.iter]; [exact Q|]. apply rk_solve_opp; auto. apply opp_f2d, Ho. }
    set (u := Nat.iter _ _ (rk_state s)) in *. set (v := Nat.iter _ _ (rk_state t)) in *. clearbody u v. cbn [fst snd].
    split; [constructor; cbn; auto|]. cbn [oopp]. rewrite E5. destruct K. opps.
  - destruct s, t, H; cbn in *; subst. split; [constructor; auto; constructor; exact opp_zero|exact Logic.I].
Qed.
Lemma rk_step_opp s t o : rk_opp s t -> rk_opp (fst (rk_call s o)) (fst (rk_call t (rk_flip o))) /\ oopp (snd (rk_call s o)) (snd (rk_call t (rk_flip o))).
Proof. exact (rk_step_rel s t o _ (rk_flip_rel o)). Qed.
Lemma rk_init_opp sr : rk_opp (rk_init sr) (rk_init sr).
Proof. constructor; try reflexivity. constructor; exact opp_zero. Qed.
