(** Inverting the input of LagLinear, CombC, the Stilson and the Krajeski ladder. *)
From Coq Require Import ZArith Bool List Reals Lra.
From Flocq Require Import Core BinarySingleNaN.
From Verif Require Import Flt FltFacts Libm UtilModel UtilProofs Res PolSpec FltPol SmoothModel SmoothSpec CombModel MgModel MgSpec StModel KjModel KjProofs PolProofs.
Import ListNotations.
Local Open Scope flt_scope.

Section RRun.
  Context {S O : Type} (call : S -> O -> res (S * option f32)) (flip : O -> O) (R : S -> S -> Prop).
  Hypothesis step : forall s t o, R s t -> ropp (fun a b => R (fst a) (fst b) /\ oopp (snd a) (snd b)) (call s o) (call t (flip o)).
  Lemma rruns_opp os : forall s t, R s t -> ropp (Forall2 opp) (rruns call s os) (rruns call t (map flip os)).
  Proof.
    induction os as [|o os IH]; intros s t H; cbn [rruns map]; [constructor|]. pose proof (step s t o H) as K.
    destruct (call s o) as [[s1 y]| |], (call t (flip o)) as [[t1 z]| |]; cbn [ropp] in K; try destruct K; try exact Logic.I. cbn [rbind fst snd] in *.
    specialize (IH s1 t1 H0). destruct (rruns call s1 os), (rruns call t1 (map flip os)); cbn [ropp] in IH; try destruct IH; try exact Logic.I; cbn [rbind ropp];
      destruct y, z; try destruct H1; auto.
  Qed.
End RRun.

(** ** LagLinear *)
Record ll_opp (s t : lagl) : Prop := LlOpp { llo_sr : ll_sr s = ll_sr t; llo_t : ll_time s = ll_time t; llo_n : ll_rem s = ll_rem t; llo_c : opp (ll_cur s) (ll_cur t); llo_g : opp (ll_target s) (ll_target t); llo_i : opp (ll_inc s) (ll_inc t) }.
Lemma ll_incof_opp g c g' c' n : opp g g' -> opp c c' -> opp (ll_incof g c n) (ll_incof g' c' n).
Proof. intros. unfold ll_incof. destruct (n <=? 0)%Z; [exact opp_zero|opps]. Qed.
Lemma ll_advance_opp s t : ll_opp s t -> ll_opp (fst (ll_advance s)) (fst (ll_advance t)) /\ opp (snd (ll_advance s)) (snd (ll_advance t)).
Proof.
  destruct s as [a b c d e n], t as [a' b' c' d' e' n']. intros [E1 E2 E3 H1 H2 H3]. cbn [ll_sr ll_time ll_rem ll_cur ll_target ll_inc] in *. subst a' b' n'.
  unfold ll_advance. cbn [ll_sr ll_time ll_rem ll_cur ll_target ll_inc]. destruct (0 <? n)%Z; [destruct (n - 1 =? 0)%Z|]; cbn [fst snd]; (split; [constructor; cbn [ll_sr ll_time ll_rem ll_cur ll_target ll_inc]; auto; try exact opp_zero|]); opps.
Qed.
Definition ll_rel (o o' : ll_op) : Prop :=
  match o, o' with
  | LTick x, LTick x' => opp x x'
  | LTime x, LTime x' => x = x'
  | LSet x, LSet x' => opp x x'
  | LReset, LReset => True
  | _, _ => False
  end.
Lemma ll_flip_rel o : ll_rel o (ll_flip o).
Proof. destruct o; cbn; repeat split; apply opp_neg. Qed.
Lemma ll_step_rel s t o o' : ll_rel o o' -> ll_opp s t -> ropp (fun a b => ll_opp (fst a) (fst b) /\ oopp (snd a) (snd b)) (ll_call s o) (ll_call t o').
Proof. intros Ho.
  destruct s as [a b c d e n], t as [a' b' c' d' e' n']. intros H. pose proof H as [E1 E2 E3 H1 H2 H3]. cbn [ll_sr ll_time ll_rem ll_cur ll_target ll_inc] in *. subst a' b' n'.
  destruct o as [x|v|v|], o' as [x'|v'|v'|]; cbn [ll_rel] in Ho; rel_cases Ho Ho'; cbn [ll_call ll_flip].
  - unfold ll_tick. cbn [ll_sr ll_time ll_rem ll_cur ll_target ll_inc]. rewrite (opp_feq x (x') d d' Ho H2). destruct (x' =? d').
    + cbn [of_opt rbind ropp fst snd oopp]. now apply ll_advance_opp.
    + destruct (b <=? zero); [cbn [of_opt rbind ropp fst snd oopp]; split; [constructor; cbn; auto; try first [exact Ho|exact Ho']; exact opp_zero|first [exact Ho|exact Ho']]|].
      destruct (ll_len b a) as [k|]; [|exact Logic.I]. cbn [of_opt rbind ropp fst snd oopp]. apply ll_advance_opp. constructor; cbn [ll_sr ll_time ll_rem ll_cur ll_target ll_inc]; auto; try first [exact Ho|exact Ho'].
      apply ll_incof_opp; [first [exact Ho|exact Ho']|exact H1].
  - unfold ll_setTime. cbn [ll_sr ll_time ll_rem ll_cur ll_target ll_inc]. rewrite (opp_feq d d' c c' H2 H1). destruct (v <=? zero); [cbn; split; [constructor; cbn; auto; exact opp_zero|exact Logic.I]|].
    destruct (d' =? c'); [cbn; split; [constructor; cbn; auto|exact Logic.I]|]. destruct (ll_len v a) as [k|]; [|exact Logic.I]. cbn [of_opt rbind ropp fst snd oopp]. split; [|exact Logic.I].
    constructor; cbn [ll_sr ll_time ll_rem ll_cur ll_target ll_inc]; auto. now apply ll_incof_opp.
  - cbn. split; [constructor; cbn; auto; try first [exact Ho|exact Ho']; exact opp_zero|exact Logic.I].
  - cbn. split; [constructor; cbn; auto; exact opp_zero|exact Logic.I].
Qed.
Lemma ll_step_opp s t o : ll_opp s t -> ropp (fun a b => ll_opp (fst a) (fst b) /\ oopp (snd a) (snd b)) (ll_call s o) (ll_call t (ll_flip o)).
Proof. exact (ll_step_rel s t o _ (ll_flip_rel o)). Qed.
Lemma ll_init_opp sr v w time : opp v w -> ropp ll_opp (of_opt (ll_init sr v time)) (of_opt (ll_init sr w time)).
Proof.
  intros H. unfold ll_init, ll_setTime. cbn [ll_sr ll_time ll_rem ll_cur ll_target ll_inc]. rewrite (opp_feq v w v w H H). destruct (time <=? zero); [cbn; constructor; cbn; auto; exact opp_zero|].
  destruct (w =? w); [cbn; constructor; cbn; auto; exact opp_zero|]. destruct (ll_len time sr); [|exact Logic.I]. cbn [of_opt ropp]. constructor; cbn [ll_sr ll_time ll_rem ll_cur ll_target ll_inc]; auto. now apply ll_incof_opp.
Qed.

(** ** CombC *)
Record cb_opp (s t : comb) : Prop := CbOpp { cbo_sr : cb_sr s = cb_sr t; cbo_m : cb_max s = cb_max t; cbo_t : cb_dt s = cb_dt t; cbo_d : cb_dc s = cb_dc t; cbo_f : cb_fb s = cb_fb t; cbo_n : cb_size s = cb_size t; cbo_w : cb_wp s = cb_wp t; cbo_b : forall i, opp (cb_buf s i) (cb_buf t i) }.
Lemma cb_at_opp s t i : cb_opp s t -> ropp opp (cb_at s i) (cb_at t i).
Proof. intros H. unfold cb_at. rewrite (cbo_n _ _ H). destruct ((0 <=? i)%Z && (i <? cb_size t)%Z); [exact (cbo_b _ _ H i)|exact Logic.I]. Qed.
Lemma cb_herm_opp a b c d a' b' c' d' f : opp a a' -> opp b b' -> opp c c' -> opp d d' -> opp (cb_herm a b c d f) (cb_herm a' b' c' d' f).
Proof. intros. unfold cb_herm. opps. Qed.
Definition cb_rel (o o' : cb_op) : Prop :=
  match o, o' with
  | CbTick x, CbTick x' => opp x x'
  | CbDelay x, CbDelay x' => x = x'
  | CbDecay x, CbDecay x' => x = x'
  | CbReset, CbReset => True
  | _, _ => False
  end.
Lemma cb_flip_rel o : cb_rel o (cb_flip o).
Proof. destruct o; cbn; repeat split; apply opp_neg. Qed.
Lemma cb_step_rel L fuel s t o o' : cb_rel o o' -> cb_opp s t -> ropp (fun a b => cb_opp (fst a) (fst b) /\ oopp (snd a) (snd b)) (cb_call L fuel s o) (cb_call L fuel t o').
Proof. intros Ho.
  intros H. destruct o as [x|v|v|], o' as [x'|v'|v'|]; cbn [cb_rel] in Ho; rel_cases Ho Ho'; cbn [cb_call cb_flip].
  - unfold cb_tick. rewrite (cbo_n _ _ H), (cbo_t _ _ H), (cbo_sr _ _ H), (cbo_w _ _ H), (cbo_f _ _ H), (cbo_m _ _ H), (cbo_d _ _ H).
    destruct (cb_wrap fuel _ _) as [r| |]; [|exact Logic.I|exact Logic.I]. cbn [rbind]. destruct (to_size r) as [i|]; [|exact Logic.I]. cbn [of_opt rbind].
    assert (Q : forall i, (exists x y, cb_at s i = Val x /\ cb_at t i = Val y /\ opp x y) \/ (cb_at s i = Undef /\ cb_at t i = Undef)).
    { intros j. pose proof (cb_at_opp s t j H) as K. unfold cb_at in *. destruct (_ && _), (_ && _) in K |- *; cbn [ropp] in K; eauto 6; destruct K. }
    destruct (Q (wrap64 (wrap64 (i + cb_size t) - 1) mod cb_size t)%Z) as [(a & a' & A & A' & OA)|[A A']]; rewrite A, A'; cbn [rbind]; [|exact Logic.I].
    destruct (Q (i mod cb_size t)%Z) as [(b & b' & B & B' & OB)|[B B']]; rewrite B, B'; cbn [rbind]; [|exact Logic.I].
    destruct (Q (wrap64 (i + 1) mod cb_size t)%Z) as [(c & c' & C & C' & OC)|[C C']]; rewrite C, C'; cbn [rbind]; [|exact Logic.I].
    destruct (Q (wrap64 (i + 2) mod cb_size t)%Z) as [(d & d' & D & D' & OD)|[D D']]; rewrite D, D'; cbn [rbind]; [|exact Logic.I].
    destruct (Q (cb_wp t)) as [(e & e' & E & E' & OE)|[E E']]; rewrite E, E'; cbn [rbind]; [|exact Logic.I].
    pose proof (cb_herm_opp _ _ _ _ _ _ _ _ (r - fofZ i) OA OB OC OD) as Y. set (y := cb_herm a b c d _) in *. set (y' := cb_herm a' b' c' d' _) in *. clearbody y y'.
    cbn [ropp fst snd oopp]. split; [|exact Y]. constructor; cbn [cb_sr cb_max cb_dt cb_dc cb_fb cb_size cb_wp cb_buf]; auto.
    intros k. destruct (k =? cb_wp t)%Z; [opps; first [exact Ho|exact Ho']|exact (cbo_b _ _ H k)].
  - destruct s, t, H; cbn in *; subst. split; [constructor; auto|exact Logic.I].
  - destruct s, t, H; cbn in *; subst. split; [constructor; auto|exact Logic.I].
  - destruct s, t, H; cbn in *; subst. split; [constructor; auto; intros; exact opp_zero|exact Logic.I].
Qed.
Lemma cb_step_opp L fuel s t o : cb_opp s t -> ropp (fun a b => cb_opp (fst a) (fst b) /\ oopp (snd a) (snd b)) (cb_call L fuel s o) (cb_call L fuel t (cb_flip o)).
Proof. exact (cb_step_rel L fuel s t o _ (cb_flip_rel o)). Qed.
Lemma cb_init_opp L sr m c : cb_init L sr m = Val c -> cb_opp c c.
Proof. unfold cb_init. destruct (to_size _); cbn [of_opt rbind]; [|discriminate]. intros [= <-]. constructor; try reflexivity; intros; exact opp_zero. Qed.

(** ** Stilson *)
Record st_opp (s t : st) : Prop := StOpp { sto_sr : st_sr s = st_sr t; sto_f : st_cut s = st_cut t; sto_r : st_res s = st_res t; sto_p : st_p s = st_p t; sto_q : st_Q s = st_Q t;
  sto_0 : opp (st_s0 s) (st_s0 t); sto_1 : opp (st_s1 s) (st_s1 t); sto_2 : opp (st_s2 s) (st_s2 t); sto_3 : opp (st_s3 s) (st_s3 t); sto_o : opp (st_out s) (st_out t) }.
Lemma st_sat_opp x y : opp x y -> opp (st_sat x) (st_sat y).
Proof.
  intros H. unfold st_sat. apply opp_mul_r; [apply same_refl|].
  assert (A : opp (x + ddec 95 100) (y - ddec 95 100)).
  { pose proof (opp_add x y (ddec 95 100) _ H (opp_neg _)) as K. apply opp_same with (1 := K). clear.
    destruct (is_finite y) eqn:F; [|destruct (nf_cases y F) as [->|[s ->]]; reflexivity].
    apply resf_same with (B2R y - B2R (ddec 95 100))%R; [|now apply sub_res]. replace (B2R y - B2R (ddec 95 100))%R with (B2R y + B2R (fneg (ddec 95 100)))%R by (rewrite fneg_R; ring). now apply add_res. }
  assert (B : opp (x - ddec 95 100) (y + ddec 95 100)).
  { apply opp_sym. apply opp_sym in H. clear A. pose proof (opp_add y x (ddec 95 100) _ H (opp_neg _)) as K. apply opp_same with (1 := K). clear.
    destruct (is_finite x) eqn:F; [|destruct (nf_cases x F) as [->|[s ->]]; reflexivity].
    apply resf_same with (B2R x - B2R (ddec 95 100))%R; [|now apply sub_res]. replace (B2R x - B2R (ddec 95 100))%R with (B2R x + B2R (fneg (ddec 95 100)))%R by (rewrite fneg_R; ring). now apply add_res. }
  rewrite (opp_abs _ _ A), (opp_abs _ _ B). apply neg_swap.
Qed.
Lemma st_snap_opp x y : opp x y -> opp (st_snap x) (st_snap y).
Proof.
  intros H. unfold st_snap. set (q := ddec 1 (10 ^ 8)). assert (N : opp q (- q)) by apply opp_neg. pose proof (opp_sym _ _ N) as N'. clearbody q.
  rewrite (opp_flt x y q (- q) H N), (opp_flt _ _ _ _ N' H), (orb_comm (flt q x)). apply opp_if; [exact opp_zero|exact H].
Qed.
Lemma st_stage_opp p o o' l l' : opp o o' -> opp l l' -> opp (fst (st_stage p o l)) (fst (st_stage p o' l')) /\ opp (snd (st_stage p o l)) (snd (st_stage p o' l')).
Proof.
  intros H K. unfold st_stage. cbn [fst snd]. assert (A : opp (st_sat (o + p * (o - l))) (st_sat (o' + p * (o' - l')))) by (apply st_sat_opp; opps).
  split; [exact A|]. apply st_sat_opp. now apply opp_add.
Qed.
Lemma st_res_opp s t r : st_opp s t -> ropp st_opp (st_setResonance s r) (st_setResonance t r).
Proof.
  intros [E1 E2 E3 E4 E5 H0 H1 H2 H3 H4]. unfold st_setResonance. rewrite E4. destruct (st_gain (unit_clamp r) (st_p t)) as [q| |]; [|exact Logic.I|exact Logic.I].
  cbn [rbind ropp]. constructor; auto.
Qed.
Definition st_rel (o o' : st_op) : Prop :=
  match o, o' with
  | StCut x, StCut x' => x = x'
  | StRes x, StRes x' => x = x'
  | StTick x, StTick x' => opp x x'
  | StReset, StReset => True
  | _, _ => False
  end.
Lemma st_flip_rel o : st_rel o (st_flip o).
Proof. destruct o; cbn; repeat split; apply opp_neg. Qed.
Lemma st_step_rel s t o o' : st_rel o o' -> st_opp s t -> ropp (fun a b => st_opp (fst a) (fst b) /\ oopp (snd a) (snd b)) (st_call s o) (st_call t o').
Proof. intros Ho.
  intros H. destruct o as [v|v|x|], o' as [v'|v'|x'|]; cbn [st_rel] in Ho; rel_cases Ho Ho'; cbn [st_call st_flip].
  - unfold st_setCutoff. pose proof H as [E1 E2 E3 E4 E5 H0 H1 H2 H3 H4]. rewrite E1, E3.
    set (s' := St (st_sr t) v (st_res t) (st_pole (st_sr t) v) (st_Q s) (st_s0 s) (st_s1 s) (st_s2 s) (st_s3 s) (st_out s)). set (t' := St (st_sr t) v (st_res t) (st_pole (st_sr t) v) (st_Q t) (st_s0 t) (st_s1 t) (st_s2 t) (st_s3 t) (st_out t)).
    assert (K : st_opp s' t') by (constructor; auto). clearbody s' t'. pose proof (st_res_opp s' t' (st_res t) K) as Q.
    destruct (st_setResonance s' (st_res t)), (st_setResonance t' (st_res t)); cbn [ropp rbind fst snd oopp] in *; auto.
  - pose proof (st_res_opp s t v H) as Q. destruct (st_setResonance s v), (st_setResonance t v); cbn [ropp rbind fst snd oopp] in *; auto.
  - unfold st_tick. destruct H as [E1 E2 E3 E4 E5 H0 H1 H2 H3 H4]. rewrite E1, E2, E3, E4, E5.
    set (u := ddec 1 4 * (f2d x * ddec 65 100 - st_out s)). set (u' := ddec 1 4 * (f2d (x') * ddec 65 100 - st_out t)).
    assert (A : opp u u') by (unfold u, u'; opps; first [exact Ho|exact Ho']). clearbody u u'.
    destruct (st_stage_opp (st_p t) u u' _ _ A H0) as [M0 O0]. destruct (st_stage (st_p t) u (st_s0 s)) as [m0 o0], (st_stage (st_p t) u' (st_s0 t)) as [n0 p0]. cbn [fst snd] in M0, O0.
    destruct (st_stage_opp (st_p t) _ _ _ _ O0 H1) as [M1 O1]. destruct (st_stage (st_p t) o0 (st_s1 s)) as [m1 o1], (st_stage (st_p t) p0 (st_s1 t)) as [n1 p1]. cbn [fst snd] in M1, O1.
    destruct (st_stage_opp (st_p t) _ _ _ _ O1 H2) as [M2 O2]. destruct (st_stage (st_p t) o1 (st_s2 s)) as [m2 o2], (st_stage (st_p t) p1 (st_s2 t)) as [n2 p2]. cbn [fst snd] in M2, O2.
    destruct (st_stage_opp (st_p t) _ _ _ _ O2 H3) as [M3 O3]. destruct (st_stage (st_p t) o2 (st_s3 s)) as [m3 o3], (st_stage (st_p t) p2 (st_s3 t)) as [n3 p3]. cbn [fst snd] in M3, O3.
    pose proof (st_snap_opp _ _ O3) as S. cbn [ropp fst snd oopp]. split; [|now apply opp_d2f]. constructor; cbn [st_sr st_cut st_res st_p st_Q st_s0 st_s1 st_s2 st_s3 st_out]; auto. opps.
  - destruct s, t, H; cbn in *; subst. split; [constructor; auto; exact opp_zero|exact Logic.I].
Qed.
Lemma st_step_opp s t o : st_opp s t -> ropp (fun a b => st_opp (fst a) (fst b) /\ oopp (snd a) (snd b)) (st_call s o) (st_call t (st_flip o)).
Proof. exact (st_step_rel s t o _ (st_flip_rel o)). Qed.
Lemma st_init_opp r0 sr s : st_init r0 sr = Val s -> st_opp s s.
Proof.
  unfold st_init, st_setCutoff, st_setResonance. intros E.
  destruct (st_gain _ _) as [q| |] in E; cbn [rbind] in E; try discriminate E.
  destruct (st_gain _ _) as [q'| |] in E; cbn [rbind] in E; try discriminate E. injection E as <-. constructor; try reflexivity; exact opp_zero.
Qed.
