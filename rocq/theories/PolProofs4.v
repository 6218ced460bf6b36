(** Inverting the input of the Krajeski ladder and of FVerb. *)
From Coq Require Import ZArith Bool List Reals Lra Lia.
From Flocq Require Import Core BinarySingleNaN.
From Verif Require Import Flt FltFacts Libm UtilModel UtilProofs Res PolSpec FltPol MgModel MgSpec MgBase LpProofs Dbl FltMore FltKey FltArith KjModel KjProofs FvModel PolProofs.
Import ListNotations.
Local Open Scope flt_scope.

Section RunOk.
  Context {S O : Type} (call : S -> O -> S * option f32) (inv : O -> O) (ok : O -> Prop) (R : S -> S -> Prop).
  Hypothesis step : forall s t o, ok o -> R s t -> R (fst (call s o)) (fst (call t (inv o))) /\ oopp (snd (call s o)) (snd (call t (inv o))).
  Lemma run_ok_opp os : forall s t, Forall ok os -> R s t -> Forall2 opp (snd (mg_run call s os)) (snd (mg_run call t (map inv os))).
  Proof.
    induction os as [|o os IH]; intros s t K H; cbn [mg_run map]; [constructor|]. inversion K as [|? ? K1 K2]; subst.
    destruct (step s t o K1 H) as [A B]. destruct (call s o) as [s1 y], (call t (inv o)) as [t1 z]. cbn [fst snd] in A, B.
    pose proof (IH s1 t1 K2 A) as D. destruct (mg_run call s1 os) as [s2 ys], (mg_run call t1 (map inv os)) as [t2 zs]. cbn [fst snd] in *.
    destruct y, z; try destruct B; auto.
  Qed.
End RunOk.

(** ** Krajeski: within the settings that keep the clamp out of play *)
Record kj_opp (s t : kj) : Prop := KjOpp { kjo_sr : kj_sr s = kj_sr t; kjo_f : kj_cut s = kj_cut t; kjo_r : kj_res s = kj_res t; kjo_w : kj_wc s = kj_wc t; kjo_g : kj_g s = kj_g t; kjo_q : kj_gRes s = kj_gRes t;
  kjo_0 : opp (kj_s0 s) (kj_s0 t); kjo_1 : opp (kj_s1 s) (kj_s1 t); kjo_2 : opp (kj_s2 s) (kj_s2 t); kjo_3 : opp (kj_s3 s) (kj_s3 t); kjo_4 : opp (kj_s4 s) (kj_s4 t);
  kjo_y0 : opp (kj_y0 s) (kj_y0 t); kjo_y1 : opp (kj_y1 s) (kj_y1 t); kjo_y2 : opp (kj_y2 s) (kj_y2 t); kjo_y3 : opp (kj_y3 s) (kj_y3 t) }.
Lemma stage_inner (g x xd y : f64) : fin g -> (0 <= B2R g <= 1)%R -> un x -> un xd -> un y -> kj_stage g x xd y = g * (c_a * x + c_b * xd - y) + y.
Proof.
  intros Fg Bg Hx Hd [Fy By]. destruct (mix_un x xd Hx Hd) as [Fm Bm]. unfold kj_stage. fold c_a c_b.
  destruct (lerp_abs (prec := 53) (emax := 1024) 0 y (fadd (fmul c_a x) (fmul c_b xd)) g eq_refl ltac:(clear; cbn; lia) eq_refl Fy Fm Fg Bg By Bm) as [F B].
  rewrite (dadd_comm y) in F, B. apply clamp_small. split; assumption.
Qed.
Lemma un_opp x y : un x -> opp x y -> un y.
Proof.
  intros [F B] H. destruct (same_inv _ _ H) as [(A & C & E)|(A & _)].
  - split; [exact C|]. rewrite <- E, fneg_R, Rabs_Ropp. exact B.
  - exfalso. apply fneg_fin in F. rewrite F in A. discriminate A.
Qed.
Lemma kj_stage_opp (g x xd y x' xd' y' : f64) : fin g -> (0 <= B2R g <= 1)%R -> un x -> un xd -> un y -> opp x x' -> opp xd xd' -> opp y y' ->
  opp (kj_stage g x xd y) (kj_stage g x' xd' y').
Proof.
  intros Fg Bg U1 U2 U3 O1 O2 O3. rewrite !stage_inner; eauto using un_opp. opps.
Qed.
Definition kj_rel (o o' : kj_op) : Prop :=
  match o, o' with
  | KjCut x, KjCut x' => x = x'
  | KjRes x, KjRes x' => x = x'
  | KjTick x, KjTick x' => opp x x'
  | KjReset, KjReset => True
  | _, _ => False
  end.
Lemma kj_flip_rel o : kj_rel o (kj_flip o).
Proof. destruct o; cbn; repeat split; apply opp_neg. Qed.
Lemma kj_step_rel L sr s t o o' : kj_rel o o' -> dtanh_unit L -> dpow_acc L -> mg_rate sr -> odd (d_tanh L) -> kj_op_ok sr o -> kj_opp s t /\ kj_inv sr s ->
  (kj_opp (fst (kj_call L s o)) (fst (kj_call L t o')) /\ kj_inv sr (fst (kj_call L s o))) /\ oopp (snd (kj_call L s o)) (snd (kj_call L t o')).
Proof. intros Hx.
  intros HT HL Hr HO Ho [H Hi]. rewrite and_comm, <- and_assoc, and_comm. split; [exact (proj1 (kj_step L sr HT HL Hr s o Hi Ho))|]. rewrite and_comm.
  destruct o as [v|v|x|], o' as [v'|v'|x'|]; cbn [kj_rel] in Hx; rel_cases Hx Ho'; cbn [kj_call kj_op_ok] in *.
  - destruct s, t, H; cbn in *; subst. split; [constructor; auto|exact Logic.I].
  - destruct s, t, H; cbn in *; subst. split; [constructor; auto|exact Logic.I].
  - destruct Hi as ([U1 U2 U3 U4 V0 V1 V2 V3 [Fg Bg] [Fr Br]] & _). destruct H as [E1 E2 E3 E4 E5 E6 H0 H1 H2 H3 H4 K0 K1 K2 K3].
    unfold kj_tick. pose proof (arg_nan s x Ho U4 Fr Br) as Nz. rewrite E1, E2, E3, E4, E6. rewrite E6 in Nz. rewrite E5 in *.
    set (z := fmul (dz 1) (f2d x - _)) in *. match goal with |- context [d_tanh L (fmul (dz 1) (f2d (x') - ?a))] => set (z' := fmul (dz 1) (f2d (x') - a)) end.
    assert (Z : opp z z') by (unfold z, z'; opps; exact Hx). destruct (HT z Nz) as [F0 B0]. assert (U0 : un (d_tanh L z)) by (split; [exact F0|apply Rabs_le; lra]).
    apply HO in Z. set (s0 := d_tanh L z) in *. set (t0 := d_tanh L z') in *. clearbody s0 t0. clear z z' Nz F0 B0.
    pose proof (stage_un _ s0 (kj_y0 s) (kj_s1 s) Fg Bg U0 V0 U1) as W1. pose proof (kj_stage_opp _ _ _ _ _ _ _ Fg Bg U0 V0 U1 Z K0 H1) as A1.
    set (s1 := kj_stage (kj_g t) s0 (kj_y0 s) (kj_s1 s)) in *. set (t1 := kj_stage (kj_g t) t0 (kj_y0 t) (kj_s1 t)) in *. clearbody s1 t1.
    pose proof (stage_un _ s1 (kj_y1 s) (kj_s2 s) Fg Bg W1 V1 U2) as W2. pose proof (kj_stage_opp _ _ _ _ _ _ _ Fg Bg W1 V1 U2 A1 K1 H2) as A2.
    set (s2 := kj_stage (kj_g t) s1 (kj_y1 s) (kj_s2 s)) in *. set (t2 := kj_stage (kj_g t) t1 (kj_y1 t) (kj_s2 t)) in *. clearbody s2 t2.
    pose proof (stage_un _ s2 (kj_y2 s) (kj_s3 s) Fg Bg W2 V2 U3) as W3. pose proof (kj_stage_opp _ _ _ _ _ _ _ Fg Bg W2 V2 U3 A2 K2 H3) as A3.
    set (s3 := kj_stage (kj_g t) s2 (kj_y2 s) (kj_s3 s)) in *. set (t3 := kj_stage (kj_g t) t2 (kj_y2 t) (kj_s3 t)) in *. clearbody s3 t3.
    pose proof (kj_stage_opp _ _ _ _ _ _ _ Fg Bg W3 V3 U4 A3 K3 H4) as A4.
    set (s4 := kj_stage (kj_g t) s3 (kj_y3 s) (kj_s4 s)) in *. set (t4 := kj_stage (kj_g t) t3 (kj_y3 t) (kj_s4 t)) in *. clearbody s4 t4.
    cbn [fst snd oopp]. split; [constructor; auto|]. now apply opp_d2f.
  - destruct s, t, H; cbn in *; subst. split; [constructor; auto; exact opp_zero|exact Logic.I].
Qed.
Lemma kj_step_opp L sr s t o : dtanh_unit L -> dpow_acc L -> mg_rate sr -> odd (d_tanh L) -> kj_op_ok sr o -> kj_opp s t /\ kj_inv sr s ->
  (kj_opp (fst (kj_call L s o)) (fst (kj_call L t (kj_flip o))) /\ kj_inv sr (fst (kj_call L s o))) /\ oopp (snd (kj_call L s o)) (snd (kj_call L t (kj_flip o))).
Proof. exact (kj_step_rel L sr s t o _ (kj_flip_rel o)). Qed.
Lemma kj_init_opp L sr : kj_opp (kj_init L sr) (kj_init L sr).
Proof. constructor; try reflexivity; exact opp_zero. Qed.

(** ** FVerb *)
(** Results of two partial computations that are related. *)
Definition orel {A B} (R : A -> B -> Prop) (x : option A) (y : option B) : Prop :=
  match x, y with Some a, Some b => R a b | None, None => True | _, _ => False end.
Lemma orel_bind {A B A' B'} (R : A -> A' -> Prop) (Q : B -> B' -> Prop) x x' (f : A -> option B) (g : A' -> option B') :
  orel R x x' -> (forall a a', R a a' -> orel Q (f a) (g a')) -> orel Q (a <- x ;; f a) (a <- x' ;; g a).
Proof. destruct x, x'; cbn; intros H K; try destruct H; auto. Qed.
Lemma orel_bind0 {A B B'} (Q : B -> B' -> Prop) (x : option A) (f : A -> option B) (g : A -> option B') : (forall a, orel Q (f a) (g a)) -> orel Q (a <- x ;; f a) (a <- x ;; g a).
Proof. destruct x; cbn; auto. Qed.
Record r_opp (r s : ring) : Prop := ROpp { ro_len : r_len r = r_len s; ro_mem : forall i, opp (r_mem r i) (r_mem s i) }.
Lemma ring0_opp n : r_opp (ring0 n) (ring0 n). Proof. constructor; [reflexivity|]. intros; exact opp_zero. Qed.
Lemma rd_opp r s i : r_opp r s -> orel opp (rd r i) (rd s i).
Proof. intros [E H]. unfold rd, r_in. rewrite E. destruct (_ && _); cbn; auto. Qed.
Lemma tap_opp r s i k m : r_opp r s -> orel opp (tap r i k m) (tap s i k m).
Proof. intros H. unfold tap. apply orel_bind0. intros. now apply rd_opp. Qed.
Lemma put_opp r s i m x y : r_opp r s -> opp x y -> orel r_opp (put r i m x) (put s i m y).
Proof.
  intros [E H] X. unfold put, wr, r_in. rewrite E. destruct (_ && _); cbn; auto. constructor; [reflexivity|]. intros j. cbn [r_mem]. destruct (j =? _)%Z; auto.
Qed.
Record in_opp (s t : fvin) : Prop := InOpp { ino_p : r_opp (i_pre s) (i_pre t); ino_l : opp (i_lp s) (i_lp t); ino_h : opp (i_hp s) (i_hp t);
  ino_v1 : r_opp (i_v1 s) (i_v1 t); ino_r1 : opp (i_r1 s) (i_r1 t); ino_v2 : r_opp (i_v2 s) (i_v2 t); ino_r2 : opp (i_r2 s) (i_r2 t);
  ino_v3 : r_opp (i_v3 s) (i_v3 t); ino_r3 : opp (i_r3 s) (i_r3 t); ino_v4 : r_opp (i_v4 s) (i_v4 t); ino_r4 : opp (i_r4 s) (i_r4 t) }.
Lemma in0_opp : in_opp fv_in0 fv_in0.
Proof. constructor; first [exact opp_zero|apply ring0_opp]. Qed.
Definition in3_opp (a b : fvin * f32 * f32) : Prop := in_opp (fst (fst a)) (fst (fst b)) /\ opp (snd (fst a)) (snd (fst b)) /\ opp (snd a) (snd b).
Lemma fv_input_opp p it2 t1 t2 t3 t4 i x y s t : opp x y -> in_opp s t -> orel in3_opp (fv_input p it2 t1 t2 t3 t4 i x s) (fv_input p it2 t1 t2 t3 t4 i y t).
Proof.
  intros X [Hp Hl Hh V1 R1 V2 R2 V3 R3 V4 R4]. unfold fv_input. cbv zeta.
  eapply orel_bind; [apply put_opp; [exact Hp|opps]|]. intros v0 w0 A0. eapply orel_bind; [apply tap_opp; exact A0|]. intros d0 e0 D0.
  set (l := d0 + _ * i_lp s). set (l' := e0 + _ * i_lp t). assert (OL : opp l l') by (unfold l, l'; opps). clearbody l l'.
  set (h := l * _ + _ * i_hp s). set (h' := l' * _ + _ * i_hp t). assert (OH : opp h h') by (unfold h, h'; opps). clearbody h h'.
  set (a := half * _ * (h - _) - _). set (a' := half * _ * (h' - _) - _). assert (OA : opp a a') by (unfold a, a'; opps). clearbody a a'.
  eapply orel_bind; [apply put_opp; [exact V1|exact OA]|]. intros v1 w1 A1. eapply orel_bind; [apply tap_opp; exact A1|]. intros d1 e1 D1.
  set (b := _ * a + i_r1 s - _). set (b' := _ * a' + i_r1 t - _). assert (OB : opp b b') by (unfold b, b'; opps). clearbody b b'.
  eapply orel_bind; [apply put_opp; [exact V2|exact OB]|]. intros v2 w2 A2. eapply orel_bind; [apply tap_opp; exact A2|]. intros d2 e2 D2.
  set (c := _ * b + i_r2 s - _). set (c' := _ * b' + i_r2 t - _). assert (OC : opp c c') by (unfold c, c'; opps). clearbody c c'.
  eapply orel_bind; [apply put_opp; [exact V3|exact OC]|]. intros v3 w3 A3. eapply orel_bind; [apply tap_opp; exact A3|]. intros d3 e3 D3.
  set (d := _ * c + i_r3 s - _). set (d' := _ * c' + i_r3 t - _). assert (OD : opp d d') by (unfold d, d'; opps). clearbody d d'.
  eapply orel_bind; [apply put_opp; [exact V4|exact OD]|]. intros v4 w4 A4. eapply orel_bind; [apply tap_opp; exact A4|]. intros d4 e4 D4.
  cbn [orel]. split; [|split]; cbn [fst snd]; [constructor; auto|exact R4|opps].
Qed.
Record hf_opp (s t : fvhalf) : Prop := HfOpp { hfo_5 : r_opp (h_v5 s) (h_v5 t); hfo_m : h_mod s = h_mod t; hfo_10 : opp (h_r10 s) (h_r10 t); hfo_7 : r_opp (h_v7 s) (h_v7 t); hfo_9 : opp (h_r9 s) (h_r9 t);
  hfo_8 : r_opp (h_v8 s) (h_v8 t); hfo_6 : opp (h_r6 s) (h_r6 t); hfo_o : r_opp (h_out s) (h_out t); hfo_d : r_opp (h_damp s) (h_damp t); hfo_f : r_opp (h_diff s) (h_diff t) }.
Lemma fv_half_opp k p damped t7 t8 m8 md i d a b c a' b' c' s t : (forall u v x y, opp x y -> opp (damped u x v) (damped u y v)) ->
  opp a a' -> opp b b' -> opp c c' -> hf_opp s t -> orel hf_opp (fv_half k p damped t7 t8 m8 md i d a b c s) (fv_half k p damped t7 t8 m8 md i d a' b' c' t).
Proof.
  intros HD Ha Hb Hc [H5 Hm H10 H7 H9 H8 H6 Ho Hd Hf]. unfold fv_half. cbv zeta. rewrite Hm. set (m := fv_modstep k d (h_mod t)).
  set (u := a + _ * c + b + _ * h_r10 s). set (u' := a' + _ * c' + b' + _ * h_r10 t). assert (OU : opp u u') by (unfold u, u'; opps). clearbody u u'.
  eapply orel_bind; [apply put_opp; [exact H5|exact OU]|]. intros v5 w5 A5. eapply orel_bind; [apply tap_opp; exact A5|]. intros d5 e5 D5. eapply orel_bind; [apply tap_opp; exact A5|]. intros d6 e6 D6.
  set (r := - (_ * u) + h_r10 s). set (r' := - (_ * u') + h_r10 t). assert (OR : opp r r') by (unfold r, r'; opps). clearbody r r'.
  eapply orel_bind; [apply put_opp; [exact H7|exact OR]|]. intros v7 w7 A7. eapply orel_bind; [apply tap_opp; exact A7|]. intros d7 e7 D7.
  set (q := d7 + _ * h_r9 s). set (q' := e7 + _ * h_r9 t). assert (OQ : opp q q') by (unfold q, q'; opps). clearbody q q'.
  set (g := fminf half _). set (z := g * h_r6 s + _). set (z' := g * h_r6 t + _). assert (OZ : opp z z') by (unfold z, z'; apply opp_add; [opps|now apply HD]). clearbody z z'.
  eapply orel_bind; [apply put_opp; [exact H8|exact OZ]|]. intros v8 w8 A8. eapply orel_bind; [apply tap_opp; exact A8|]. intros d8 e8 D8.
  eapply orel_bind; [apply put_opp; [exact Ho|opps]|]. intros vo wo Ao. eapply orel_bind; [apply put_opp; [exact Hd|opps]|]. intros vd wd Ad. eapply orel_bind; [apply put_opp; [exact Hf|exact OR]|]. intros vf wf Af.
  cbn [orel]. constructor; auto. cbn [h_r10]. opps.
Qed.
Record d_opp (s t : fvdsp) : Prop := DOpp { do_k : d_k s = d_k t; do_s : d_sl s = d_sl t; do_i : d_iota s = d_iota t; do_p : d_par s = d_par t; do_f : d_ph s = d_ph t;
  do_iR : in_opp (d_inR s) (d_inR t); do_R : hf_opp (d_R s) (d_R t); do_iL : in_opp (d_inL s) (d_inL t); do_L : hf_opp (d_L s) (d_L t) }.
Definition d3_opp (a b : fvdsp * f32 * f32) : Prop := d_opp (fst (fst a)) (fst (fst b)) /\ opp (snd (fst a)) (snd (fst b)) /\ opp (snd a) (snd b).
Lemma dampR_opp u v x y : opp x y -> opp (fv_dampR u x v) (fv_dampR u y v). Proof. intros. unfold fv_dampR. opps. Qed.
Lemma dampL_opp u v x y : opp x y -> opp (fv_dampL u x v) (fv_dampL u y v). Proof. intros. unfold fv_dampL. opps. Qed.
Lemma fv_frame_opp L w s t xl xr yl yr : opp xl yl -> opp xr yr -> d_opp s t -> orel d3_opp (fv_frame L w s xl xr) (fv_frame L w t yl yr).
Proof.
  intros Xl Xr [Ek Es Ei Ep Ef HiR HR HiL HL]. unfold fv_frame. cbv zeta. rewrite Ek, Es, Ei, Ep, Ef.
  set (k := d_k t). set (i := d_iota t). set (p := fv_smooth k w (d_par t)).
  apply orel_bind0. intros n2. eapply orel_bind; [apply fv_input_opp; [exact Xr|exact HiR]|]. intros [[iR r13] r14] [[iR' r13'] r14'] (I1 & I2 & I3). cbn [fst snd] in I1, I2, I3.
  eapply orel_bind; [apply tap_opp, (hfo_o _ _ HL)|]. intros xR xR' X1. apply orel_bind0. intros ph. apply orel_bind0. intros dR.
  eapply orel_bind; [apply fv_half_opp; [exact dampR_opp|exact I2|exact I3|exact X1|exact HR]|]. intros R R' OR.
  eapply orel_bind; [apply fv_input_opp; [exact Xl|exact HiL]|]. intros [[iL r43] r44] [[iL' r43'] r44'] (J1 & J2 & J3). cbn [fst snd] in J1, J2, J3.
  eapply orel_bind; [apply tap_opp, (hfo_o _ _ OR)|]. intros xL xL' X2. apply orel_bind0. intros dL.
  eapply orel_bind; [apply fv_half_opp; [exact dampL_opp|exact J2|exact J3|exact X2|exact HL]|]. intros Lf Lf' OL.
  pose proof (hfo_o _ _ OR) as Ro. pose proof (hfo_d _ _ OR) as Rd. pose proof (hfo_f _ _ OR) as Rf. pose proof (hfo_o _ _ OL) as Lo. pose proof (hfo_d _ _ OL) as Ld. pose proof (hfo_f _ _ OL) as Lff.
  do 14 (eapply orel_bind; [apply tap_opp; eassumption|]; intros ? ? ?).
  apply orel_bind0. intros j. cbn [orel]. split; [|split]; cbn [fst snd]; [constructor; auto|opps|opps].
Qed.
Lemma fv_frames_opp L w xs : forall s t, d_opp s t ->
  orel (fun a b => d_opp (fst a) (fst b) /\ Forall2 opp2 (snd a) (snd b)) (fv_frames L w s xs) (fv_frames L w t (map neg2 xs)).
Proof.
  induction xs as [|[xl xr] xs IH]; intros s t H; cbn [fv_frames map neg2 fst snd]; [cbn; auto|].
  eapply orel_bind; [apply fv_frame_opp; [apply opp_neg|apply opp_neg|exact H]|]. intros [[s1 o0] o1] [[t1 p0] p1] (A & B & C). cbn [fst snd] in A, B, C.
  eapply orel_bind; [apply IH; exact A|]. intros [s2 os] [t2 ps] [D E]. cbn [fst snd] in D, E. cbn [orel fst snd]. split; [exact D|]. constructor; [split; assumption|exact E].
Qed.
Definition f_opp (f g : fverb) : Prop := orel d_opp (fv_dsp f) (fv_dsp g) /\ fv_alloc f = fv_alloc g /\ fv_bufs f = fv_bufs g.
Lemma fv_set_opp p x f g : f_opp f g -> f_opp (fv_set p x f) (fv_set p x g).
Proof.
  intros (A & B & C). unfold fv_set. destruct (fv_dsp f) as [d|] eqn:F, (fv_dsp g) as [e|] eqn:G; cbn [orel] in A; try destruct A as [E1 E2 E3 E4 E5 H1 H2 H3 H4]; try (destruct A).
  - split; [|auto]. cbn [fv_dsp orel]. rewrite E1, E2, E3, E4, E5. constructor; auto.
  - split; [|auto]. now rewrite F, G.
Qed.
Lemma hf0_opp : hf_opp fv_R0 fv_R0 /\ hf_opp fv_L0 fv_L0.
Proof. split; constructor; first [exact opp_zero|reflexivity|apply ring0_opp]. Qed.
Lemma dinit_opp n d : fv_dinit n = Some d -> d_opp d d.
Proof.
  unfold fv_dinit. destruct (fv_consts n) as [k|]; [|discriminate]. intros E. injection E as <-. destruct hf0_opp. pose proof in0_opp. constructor; cbn [d_k d_sl d_iota d_par d_ph d_inR d_R d_inL d_L]; auto.
Qed.
Lemma fv_op_opp L o f g : f_opp f g -> orel (fun a b => f_opp (fst a) (fst b) /\ Forall2 opp2 (snd a) (snd b)) (fv_op L o f) (fv_op L (fv_flip o) g).
Proof.
  intros H. destruct o as [sr|p x| |xs]; cbn [fv_op fv_flip].
  - unfold fv_init. destruct (to_int sr) as [n|]; [|exact Logic.I]. destruct (fv_dinit n) as [d|] eqn:E; [|exact Logic.I]. cbn [orel fst snd]. split; [|constructor].
    destruct H as (_ & B & C). repeat apply fv_set_opp. split; [|cbn; auto]. cbn [fv_dsp orel]. now apply dinit_opp in E.
  - cbn [orel fst snd]. split; [now apply fv_set_opp|constructor].
  - cbn [orel fst snd]. split; [|constructor]. destruct H as (A & B & C). unfold fv_reset. destruct (fv_dsp f) as [d|] eqn:F, (fv_dsp g) as [e|] eqn:G; cbn [orel] in A; try destruct A as [E1 E2 E3 E4 E5 H1 H2 H3 H4]; try (destruct A).
    + split; [|auto]. cbn [fv_dsp orel fv_clear]. unfold fv_clear. rewrite E1, E2. destruct hf0_opp. pose proof in0_opp. constructor; cbn [d_k d_sl d_iota d_par d_ph d_inR d_R d_inL d_L]; auto.
    + split; [|auto]. now rewrite F, G.
  - destruct H as (A & B & C). unfold fv_process. rewrite map_length.
    destruct (fv_dsp f) as [d|] eqn:F, (fv_dsp g) as [e|] eqn:G; cbn [orel] in A; try (destruct A; fail).
    + assert (Q : forall f' g' : fverb, fv_alloc f' = fv_alloc g' -> fv_bufs f' = fv_bufs g' ->
        orel (fun a b => f_opp (fst a) (fst b) /\ Forall2 opp2 (snd a) (snd b))
          (if fv_bufs f' then r <- fv_compute L d xs ;; let '(d', ys) := r in Some (FVerb (Some d') (fv_alloc f') (fv_bufs f'), ys) else None)
          (if fv_bufs g' then r <- fv_compute L e (map neg2 xs) ;; let '(d', ys) := r in Some (FVerb (Some d') (fv_alloc g') (fv_bufs g'), ys) else None)).
      { intros f' g' E1 E2. rewrite E1, E2. destruct (fv_bufs g'); [|exact Logic.I]. unfold fv_compute. rewrite (do_k _ _ A), (do_s _ _ A).
        eapply orel_bind; [apply fv_frames_opp; exact A|]. intros [d1 ys] [e1 zs] [D E]. cbn [fst snd] in D, E. cbn [orel fst snd]. split; [split; [exact D|auto]|exact E]. }
      assert (W : forall n, fv_alloc (fv_allocate n f) = fv_alloc (fv_allocate n g) /\ fv_bufs (fv_allocate n f) = fv_bufs (fv_allocate n g)).
      { intros n. unfold fv_allocate. rewrite B. destruct (fv_alloc g >=? n)%Z; cbn [fv_alloc fv_bufs]; auto. }
      destruct (W (Z.of_nat (length xs))) as [W1 W2]. exact (Q _ _ W1 W2).
    + cbn [orel fst snd]. split; [split; [now rewrite F, G|auto]|]. clear. induction xs as [|x xs IH]; cbn [map]; constructor; auto. split; apply opp_neg.
Qed.
Lemma fv_run_opp L h : forall f g, f_opp f g -> orel (fun a b => f_opp (fst a) (fst b) /\ Forall2 opp2 (snd a) (snd b)) (fv_run L h f) (fv_run L (map fv_flip h) g).
Proof.
  induction h as [|o h IH]; intros f g H; cbn [fv_run map]; [cbn; auto|].
  eapply orel_bind; [apply fv_op_opp; exact H|]. intros [f1 a] [g1 b] [A B]. cbn [fst snd] in A, B. eapply orel_bind; [apply IH; exact A|]. intros [f2 c] [g2 d] [C D]. cbn [fst snd] in C, D.
  cbn [orel fst snd]. split; [exact C|now apply Forall2_app].
Qed.
Lemma fv_new_opp : f_opp fv_new fv_new. Proof. repeat split. Qed.
