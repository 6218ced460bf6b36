(** XPlay: the first pass over a buffer plays its frames in order. *)
From Coq Require Import ZArith Reals Bool List Lra Lia Psatz.
From Flocq Require Import Core BinarySingleNaN.
From Verif Require Import Flt FltFacts FltMore FltKey FltArith FltClose FltScale Libm EnvModel EnvSpec EnvProofs EnvProofs2 Res UtilModel UtilProofs OscSpec OscProofs2 PhasorProofs
  SmoothModel SmoothSpec SmoothProofs2 RdModel RdSpec RdProofs RdProofs2 RdProofs3 PanModel PanSpec PanProofs XpModel XpSpec XpProofs XpProofs2 XpProofs3.
Import ListNotations.
Local Open Scope R_scope.

Lemma wrap_id (p : f32) i n : (0 <= i < n)%Z -> (n <= 2 ^ 22)%Z -> fin p -> B2R p = IZR i -> fin (wrap_direct p zero (fofZ n)) /\ B2R (wrap_direct p zero (fofZ n)) = IZR i.
Proof.
  intros Hi Hn Fp Ep. unfold wrap_direct, wrapValue. cbv zeta. destruct (fofZ_R (prec:=24) (emax:=128) n ltac:(lia)) as [Fh Eh].
  destruct (fsub_exact (fofZ n) zero Fh eq_refl) as [Fr Er]; [rewrite zero_R, Rminus_0_r; apply dy_B2R|]. rewrite zero_R, Rminus_0_r, Eh in Er. set (range := fsub (fofZ n) zero) in *.
  assert (Hb : 1 <= IZR n <= 4194304) by (split; apply IZR_le; lia). assert (Ha : 0 <= IZR i <= IZR n - 1) by (split; [apply IZR_le; lia|rewrite <- minus_IZR; apply IZR_le; lia]).
  replace (fle range zero) with false by (symmetry; apply fle_R_false; [exact Fr|reflexivity|rewrite Er, zero_R; lra]).
  destruct (fsub_exact p zero Fp eq_refl) as [Fd Ed]; [rewrite zero_R, Rminus_0_r; apply dy_B2R|]. rewrite zero_R, Rminus_0_r, Ep in Ed. set (d := fsub p zero) in *.
  assert (Q : 0 <= IZR i / IZR n <= 1).
  { assert (0 < / IZR n) by (apply Rinv_0_lt_compat; lra). assert (IZR n * / IZR n = 1) by (apply Rinv_r; lra). unfold Rdiv. nra. }
  destruct (fdiv_b 0 1 d range dy0 dy1 Fd Fr) as (Fq & Eq & _); [rewrite Er; lra|rewrite Ed, Er; exact Q|]. rewrite Ed, Er in Eq. destruct (ffloor_R _ Fq) as [Ff Ef]. rewrite Eq in Ef.
  rewrite (floor_rnd_quot i n) in Ef by lia. rewrite Z.div_small in Ef by lia.
  destruct (fmul_exact range (ffloor (fdiv d range)) Fr Ff) as [Fm Em]; [rewrite Ef, Rmult_0_r; apply dy0|]. rewrite Ef, Rmult_0_r in Em.
  destruct (fsub_exact p (fmul range (ffloor (fdiv d range))) Fp Fm) as [F E]; [rewrite Em, Rminus_0_r; apply dy_B2R|]. rewrite Em, Rminus_0_r, Ep in E. auto.
Qed.
Lemma plain_heads x : x_bounce x = false -> x_heads x = (wrap_direct (x_ph x) zero (x_frames x), wrap_direct (fsub (x_ph x) (x_size x)) zero (x_frames x)).
Proof. intros H. unfold x_heads. rewrite H. reflexivity. Qed.
(** Frame [i] is next, on the first pass. *)
Definition at_frame (b : rbuf) (i : Z) (x : xplay) : Prop :=
  x_plays x b /\ x_bounce x = false /\ B2R (x_ls x) = 0 /\ B2R (x_size x) = IZR (rb_n b) /\ x_frames x = fofZ (rb_n b) /\ B2R (x_ph x) = IZR i /\ B2R (x_eff x) = 1 /\
  (ll_target (x_lag x) = fneg one /\ ll_rem (x_lag x) = 0%Z).
Lemma gains_left L : trig_zero L -> computeGains L (fneg one) one = (one, fzero).
Proof.
  intros T. unfold computeGains. cbv zeta. assert (A : pan_angle (fneg one) = B754_zero false) by (vm_compute; reflexivity). rewrite A. destruct (T false) as (S & C & _). rewrite S, C, !fmul_one. reflexivity.
Qed.
Lemma left_only (s t v : f32) : fin s -> fin t -> unit_sample v -> Rabs (B2R s) <= bpow radix2 100 ->
  B2R (fmul (fadd (fmul s one) (fmul t fzero)) v) = rnd32 (B2R s * B2R v).
Proof.
  intros Fs Ft [Fv Bv] Bs. rewrite fmul_one. destruct (mul_zero fzero t eq_refl Ft eq_refl) as [Fz Ez]. destruct (add_zero s (fmul t fzero) Fs Fz Ez) as [[Fa Ea] _].
  destruct (bdy 100 ltac:(lia)) as [D1 D2]. destruct (fmul_b (- bpow radix2 100) (bpow radix2 100) (fadd s (fmul t fzero)) v) as (_ & E & _); auto.
  - rewrite Ea. apply Rabs_le_inv. rewrite Rabs_mult, (Rabs_pos_eq (B2R v)) by lra. pose proof (Rabs_pos (B2R s)). apply Rle_trans with (Rabs (B2R s) * 1); [apply Rmult_le_compat_l; lra|lra].
  - rewrite E, Ea. reflexivity.
Qed.
Lemma at_frame_tick f j L b i x : (f <= 3)%Z -> (-100 <= j <= 95)%Z -> exp_unit L -> trig_zero L -> x_inv3 f L x -> (rb_n b <= 2 ^ 22)%Z -> loud j b 0 -> loud j b 1 -> at_frame b i x -> (0 <= i < rb_n b)%Z ->
  exists y x', x_tick L x = Val (y, x') /\ at_frame b (i + 1) x' /\ x_env x' = fst (ad_tick (x_env x)) /\
    B2R (fst y) = rnd32 (B2R (smp b 0 i) * B2R (snd (ad_tick (x_env x)))) /\ B2R (snd y) = rnd32 (B2R (smp b 1 i) * B2R (snd (ad_tick (x_env x)))).
Proof.
  intros Hf Hj HL TZ [I J] Hn L0 L1 (P & Bo & Els & Esz & Efr & Eph & Eef & Elt & Elr) Hi. destruct (tick_ok f L x ltac:(lia) I) as (y & x' & T & _). exists y, x'. split; [exact T|].
  pose proof I as (Hb & Hs & _ & _ & Hr & Hfd & Hd & _ & _ & (FR & LS & SZ & FU) & (Fp & Bp)). pose proof P as (B & V & R & Z0).
  assert (Ok : rb_ok b) by (rewrite B in Hb; now apply Hb).
  destruct (tick_shape _ _ _ _ T) as [(_ & _ & [E|E])|(U & Z & h & lag & fd & s1 & s2 & TL & R1 & R2 & Ey & Ex)]; [rewrite B in E; cbn in E; congruence|congruence|].
  assert (In : 0 <= IZR i <= IZR (rb_n b) - 1) by (split; [apply IZR_le; lia|rewrite <- minus_IZR; apply IZR_le; lia]). assert (Nb : 1 <= IZR (rb_n b) <= 4194304) by (split; apply IZR_le; lia).
  destruct LS as [Fl _]. destruct SZ as [Fz _]. destruct (span_two (x_size x) ltac:(split; [exact Fz|rewrite Esz; bp; lra])) as (Fw & Ew & _).
  assert (Hw : fin (fadd (x_ls x) (fmul (x_size x) two)) /\ B2R (fadd (x_ls x) (fmul (x_size x) two)) = 2 * IZR (rb_n b)).
  { destruct (fadd_exact (x_ls x) (fmul (x_size x) two) Fl Fw) as [A C]; rewrite Els, Ew, Rplus_0_l in *; [rewrite <- Ew; apply dy_B2R|]. rewrite Esz in C. auto. }
  destruct Hw as [Fh Eh].
  assert (Hm : fin (fadd (x_ls x) (x_size x)) /\ B2R (fadd (x_ls x) (x_size x)) = IZR (rb_n b)).
  { destruct (fadd_exact (x_ls x) (x_size x) Fl Fz) as [A C]; rewrite Els, Rplus_0_l in *; [apply dy_B2R|]. rewrite Esz in C. auto. }
  destruct Hm as [Fm Em].
  replace (fle (fadd (x_ls x) (x_size x)) (x_ph x)) with false in TL by (symmetry; apply fle_R_false; [exact Fm|exact Fp|rewrite Em, Eph; lra]).
  assert (TL2 : fd = fneg one /\ ll_target lag = fneg one /\ ll_rem lag = 0%Z).
  { unfold ll_tick in TL. rewrite Elt in TL. assert (Q : feq (fneg one : f32) (fneg one) = true) by (vm_compute; reflexivity). rewrite Q in TL. unfold ll_advance in TL. rewrite Elr in TL. cbn [Z.ltb Z.compare] in TL. injection TL as <- <-. cbn. auto. }
  destruct TL2 as (-> & Et2 & Er2).
  destruct (eff_ok f x I) as [Fe _]. destruct (fadd_exact (x_ph x) (x_eff x) Fp Fe) as [Fc Ec]; [rewrite Eph, Eef, <- plus_IZR; apply dyZ; lia|]. rewrite Eph, Eef, <- plus_IZR in Ec.
  assert (Nx : x_next x h = (fadd (x_ph x) (x_eff x), h)).
  { unfold x_next. cbv zeta. rewrite plus_IZR in Ec. replace (fle _ (fadd (x_ph x) (x_eff x))) with false by (symmetry; apply fle_R_false; [exact Fh|exact Fc|rewrite Eh, Ec; lra]).
    replace (flt (fadd (x_ph x) (x_eff x)) _) with false by (symmetry; apply flt_R_false; [exact Fc|exact Fl|rewrite Ec, Els; lra]). reflexivity. }
  rewrite Nx in Ex. cbn [fst snd] in Ex. rewrite Ex. split; [|split; [reflexivity|]].
  - unfold at_frame, x_plays. cbn [x_buf x_rd x_size x_bounce x_ls x_frames x_ph x_lag]. unfold x_eff in *. cbn [x_buf x_sr x_rate x_rev]. repeat split; auto.
  - rewrite (plain_heads x Bo) in R1, R2. cbn [fst snd] in R1, R2.
    destruct (wrap_id (x_ph x) i (rb_n b) Hi ltac:(lia) Fp Eph) as [F1 E1]. rewrite <- Efr in F1, E1.
    destruct (x_rd x) as [rb lp md] eqn:Er. cbn [rd_buf] in R. subst rb.
    destruct (rd_int j b lp md _ i Ok ltac:(lia) ltac:(lia) L0 L1 F1 E1) as (l & r & _ & Q & Fl1 & Fr1 & El1 & Er1). rewrite R1 in Q. injection Q as ->.
    assert (Fr : frame lp (rb_n b) i = i) by (unfold frame; destruct lp; [apply Z.mod_small; lia|lia]). rewrite Fr in El1, Er1.
    assert (F2 : fin (wrap_direct (fsub (x_ph x) (x_size x)) zero (x_frames x))).
    { destruct (heads_ok f x I U ltac:(rewrite Esz; lra)) as [_ F2]. rewrite (plain_heads x Bo) in F2. exact F2. }
    assert (Hh : heard j (BufRd (Some b) lp md)) by (intros _; auto). destruct (read_any j _ _ Hj Hb Hd Hh _ _ F2 R2) as [[B1 _] [B2 _]].
    destruct J as (_ & J2 & _). destruct (ad_tick_inv _ J2) as [_ Vu]. rewrite Ey. unfold xf_process2. rewrite (gains_left L TZ). cbn [fst snd].
    assert (J100 : bpow radix2 j <= bpow radix2 100) by (apply bpow_le; lia).
    rewrite !left_only; auto; [rewrite El1, Er1; auto| |]; [rewrite Er1; destruct (L1 i Hi)|rewrite El1; destruct (L0 i Hi)]; lra.
Qed.
Lemma at_frame_ticks f j L fuel b k : (f <= 3)%Z -> (-100 <= j <= 95)%Z -> exp_unit L -> trig_zero L -> (rb_n b <= 2 ^ 22)%Z -> loud j b 0 -> loud j b 1 ->
  forall i x, x_inv3 f L x -> at_frame b i x -> (0 <= i)%Z -> (i + Z.of_nat k <= rb_n b)%Z ->
  exists y outs, x_run L fuel x (repeat XTick k) = Val (y, outs) /\ length outs = k /\
    forall m, (m < k)%nat -> let v := nth m (snd (ad_ticks k (x_env x))) zero in
      B2R (fst (nth m outs (zero, zero))) = rnd32 (B2R (smp b 0 (i + Z.of_nat m)) * B2R v) /\ B2R (snd (nth m outs (zero, zero))) = rnd32 (B2R (smp b 1 (i + Z.of_nat m)) * B2R v).
Proof.
  intros Hf Hj HL TZ Hn L0 L1. induction k as [|k IH]; intros i x I A Hi Hk.
  - exists x, []. split; [reflexivity|]. split; [reflexivity|]. intros m Hm. lia.
  - destruct (at_frame_tick f j L b i x Hf Hj HL TZ I Hn L0 L1 A ltac:(lia)) as (y & x' & T & A' & E & O0 & O1).
    assert (I' : x_inv3 f L x') by (apply (call_inv3 f L fuel x XTick x' (Some y) Hf HL I Logic.I); cbn [x_call]; rewrite T; reflexivity).
    destruct (IH (i + 1)%Z x' I' A' ltac:(lia) ltac:(lia)) as (z & outs & R & Ln & O). exists z, (y :: outs). cbn [repeat x_run x_call]. rewrite T. cbn [rbind fst snd]. rewrite R. cbn [rbind fst snd].
    split; [reflexivity|]. split; [cbn; now rewrite Ln|]. intros m Hm. cbn [ad_ticks]. rewrite E in O. destruct (ad_tick (x_env x)) as [e1 v1]. cbn [fst snd] in *. destruct (ad_ticks k e1) as [e2 vs]. cbn [snd] in *.
    destruct m as [|m]; cbn [nth]; [replace (i + Z.of_nat 0)%Z with i by lia; auto|]. specialize (O m ltac:(lia)). replace (i + Z.of_nat (S m))%Z with (i + 1 + Z.of_nat m)%Z by lia. exact O.
Qed.
Lemma div_self (x : f32) : fin x -> 1 <= B2R x -> fin (fdiv x x) /\ B2R (fdiv x x) = 1.
Proof. intros F B. destruct (fdiv_b 1 1 x x dy1 dy1 F F) as (A & _ & C); [lra|unfold Rdiv; rewrite Rinv_r by lra; lra|]. split; [exact A|lra]. Qed.
Lemma reset_fields fuel x y : x_update fuel x true = Val y ->
  let frames := match x_buf x with Some b => if rb_valid b then fofZ (rb_n b) else zero | None => zero end in
  let ls := fmul (smin (x_start x) (x_end x)) frames in
  x_frames y = frames /\ x_ls y = ls /\ x_size y = smax zero (fsub (fmul (smax (x_start x) (x_end x)) frames) ls) /\ x_ph y = ls /\ x_rev y = flt (x_end x) (x_start x) /\
  x_buf y = x_buf x /\ x_start y = x_start x /\ x_end y = x_end x /\ x_rate y = x_rate x /\ x_bounce y = x_bounce x.
Proof. unfold x_update. cbv zeta. cbn [orb]. intros H. injection H as <-. cbn [x_frames x_ls x_size x_ph x_rev x_buf x_start x_end x_rate x_bounce]. repeat split. Qed.
Lemma init_fields L fuel x sr y : x_init L fuel x sr = Val y -> x_start y = x_start x /\ x_end y = x_end x /\ x_rate y = x_rate x /\ x_bounce y = x_bounce x.
Proof.
  unfold x_init. destruct (ll_init _ _ _) as [l|]; cbn [of_opt rbind]; [|discriminate]. cbv zeta. intros H. apply reset_fields in H. cbv zeta in H. cbn [x_start x_end x_rate x_bounce x_buf] in H. tauto.
Qed.
Lemma fresh_lag sr t l : ll_init sr (fneg one) t = Some l -> ll_target l = fneg one /\ ll_rem l = 0%Z.
Proof.
  unfold ll_init, ll_setTime. cbn [ll_target ll_cur ll_sr ll_inc ll_rem]. destruct (fle t zero); [intros H; injection H as <-; auto|].
  assert (Q : feq (fneg one : f32) (fneg one) = true) by (vm_compute; reflexivity). rewrite Q. intros H; injection H as <-. auto.
Qed.
Lemma buffer_at fuel x b y sr : x_setBuffer fuel x (Some b) = Val y -> rb_ok b -> rb_valid b = true -> (rb_n b <= 2 ^ 22)%Z -> xsr_ok sr -> (rb_sr b = sr \/ flt zero (rb_sr b) = false) ->
  x_start x = zero -> x_end x = one -> x_rate x = one -> x_bounce x = false -> x_sr x = sr -> x_rd x = rd_init None -> (ll_target (x_lag x) = fneg one /\ ll_rem (x_lag x) = 0%Z) -> at_frame b 0 y.
Proof.
  intros H Ok V Hn Hs Hsr S0 S1 S2 S3 P4 P3 Lg. unfold x_setBuffer in H. pose proof (update_keeps _ _ _ _ H) as (K1 & K2 & _ & K3 & _). apply reset_fields in H. cbv zeta in H. cbn [x_start x_end x_rate x_bounce x_buf x_rd x_lag x_sr] in *.
  rewrite V, S0, S1, S2, S3 in H. rewrite P3 in K1. rewrite P4 in K3. destruct H as (E1 & E2 & E3 & E4 & E5 & E6 & _ & _ & E7 & E8). pose proof (ok_n b Ok) as N1.
  destruct (fofZ_R (prec:=24) (emax:=128) (rb_n b) ltac:(lia)) as [Fn En]. assert (Nb : 1 <= IZR (rb_n b) <= 4194304) by (split; apply IZR_le; lia).
  assert (M1 : smin zero one = zero) by (vm_compute; reflexivity). assert (M2 : smax zero one = one) by (vm_compute; reflexivity). rewrite M1, M2 in *. assert (M4 : flt (one : f32) zero = false) by (vm_compute; reflexivity). rewrite M4 in E5.
  destruct (zero_mul zero (fofZ (rb_n b)) eq_refl Fn eq_refl) as [Fz Ez].
  destruct (fmul_exact one (fofZ (rb_n b)) one_fin Fn) as [Fo Eo]; [rewrite one_R, Rmult_1_l; apply dy_B2R|]. rewrite one_R, Rmult_1_l, En in Eo.
  destruct (fsub_exact (fmul one (fofZ (rb_n b))) (fmul zero (fofZ (rb_n b))) Fo Fz) as [Fd Ed]; [rewrite Eo, Ez, Rminus_0_r, <- En; apply dy_B2R|]. rewrite Eo, Ez, Rminus_0_r in Ed.
  assert (M3 : forall d : f32, fin d -> B2R d = IZR (rb_n b) -> smax zero d = d) by (intros d F E; unfold smax; replace (flt zero d) with true; [reflexivity|]; symmetry; apply flt_R; [reflexivity|exact F|rewrite zero_R, E; lra]).
  rewrite M3 in E3 by assumption. rewrite <- E3 in Fd, Ed. rewrite <- E2 in Ez. rewrite <- E4 in Fz.
  unfold at_frame, x_plays. rewrite E1, E4, E6, E8, K1, K2, <- E2. split; [split; [reflexivity|]; split; [exact V|]; split; [reflexivity|]; apply fle_R_false; [exact Fd|reflexivity|rewrite zero_R, Ed; lra]|].
  split; [reflexivity|]. split; [exact Ez|]. split; [exact Ed|]. split; [reflexivity|]. split; [exact Ez|]. split; [|exact Lg].
  unfold x_eff. cbv zeta. rewrite E5, E6, E7, K3, fmul_one.
  assert (G : forall g : f32, fin g -> B2R g = 1 -> B2R (fmul one g) = 1). { intros g Fg Eg. destruct (fmul_exact one g one_fin Fg) as [_ Q]; [rewrite one_R, Eg, Rmult_1_l; apply dy1|]. rewrite Q, one_R, Eg. lra. }
  destruct (flt zero (rb_sr b)) eqn:Q; [|apply G; [exact one_fin|exact one_R]]. destruct Hsr as [E | E]; [|congruence]. rewrite E. destruct Hs as [Fs Bs]. destruct (div_self sr Fs ltac:(lra)). now apply G.
Qed.
Lemma run_app L fuel ops1 : forall ops2 x y outs, x_run L fuel x ops1 = Val (y, outs) -> x_run L fuel x (ops1 ++ ops2) = (q <~ x_run L fuel y ops2 ;; Val (fst q, outs ++ snd q)).
Proof.
  induction ops1 as [|o t IH]; intros ops2 x y outs H; cbn [app x_run] in *; [injection H as <- <-; cbn [app]; destruct (x_run L fuel x ops2) as [[z zs]| |]; reflexivity|].
  destruct (x_call L fuel x o) as [[z out]| |]; cbn [rbind fst snd] in *; try discriminate H. destruct (x_run L fuel z t) as [[w os]| |] eqn:E; cbn [rbind fst snd] in H; try discriminate H. injection H as <- <-.
  rewrite (IH ops2 z w os E). destruct (x_run L fuel w ops2) as [[v vs]| |]; cbn [rbind fst snd]; [|reflexivity|reflexivity]. destruct out; reflexivity.
Qed.
Lemma reader_ops f L fuel b ops : (f <= 3)%Z -> exp_unit L -> Forall reader_op ops -> forall x, x_inv3 f L x -> at_frame b 0 x ->
  exists y, x_run L fuel x ops = Val (y, []) /\ x_inv3 f L y /\ at_frame b 0 y /\ x_env y = x_env x.
Proof.
  intros Hf HL. induction ops as [|o ops IH]; intros H x I A; [exists x; auto|]. inversion H as [|? ? H1 H2]; subst.
  assert (S : exists r, x_call L fuel x o = Val (x_setReader x r, None) /\ rd_buf r = rd_buf (x_rd x)) by (destruct o; try contradiction; eexists; split; reflexivity).
  destruct S as (r & C & Er). assert (Oo : x_op_ok f o) by (destruct o; try contradiction; exact Logic.I).
  pose proof (call_inv3 f L fuel x o _ _ Hf HL I Oo C) as I1. destruct (IH H2 (x_setReader x r) I1) as (y & R & Iy & Ay & Ey).
  { unfold at_frame, x_plays, x_eff in *. unfold x_setReader. cbn [x_buf x_rd x_size x_bounce x_ls x_frames x_ph x_lag x_sr x_rate x_rev]. rewrite Er. exact A. }
  exists y. cbn [x_run]. rewrite C. cbn [rbind fst snd]. rewrite R. cbn [rbind fst snd]. auto.
Qed.
Lemma loaded f L fuel junk sr b : (-4 <= f <= 3)%Z -> exp_unit L -> xsr_ok sr -> rb_ok b -> rb_valid b = true -> (rb_n b <= 2 ^ 22)%Z -> (rb_sr b = sr \/ flt zero (rb_sr b) = false) ->
  exists x, x_run L fuel (x_new (fst (fst junk)) (snd (fst junk)) (snd junk)) [XInit sr; XBuffer (Some b)] = Val (x, []) /\ x_inv3 f L x /\ at_frame b 0 x /\ x_env x = init_env L (x_new (fst (fst junk)) (snd (fst junk)) (snd junk)) sr.
Proof.
  intros Hf HL Hs Ok V Hn Hsr.
  assert (Xb : xbuf_ok (Some b)).
  { split; [intros _; split; [exact Ok|lia]|]. intros P. destruct Hsr as [-> | E]; [destruct Hs as [A [_ B]]; auto|congruence]. }
  assert (XO : Forall (x_op_ok f) [XBuffer (Some b)]) by (constructor; [exact Xb|constructor]).
  destruct junk as [[rd lag] env]. cbn [fst snd]. set (x := x_new rd lag env) in *.
  pose proof (new_ok f L fuel (rd, lag, env) sr ltac:(lia) Hs) as N. cbv beta iota in N. fold x in N. destruct N as (x0 & E0 & I0).
  assert (J0 : x_inv2 L x0).
  { eapply (init_inv2 L fuel f); [lia|exact HL|exact Hs| |exact E0]. cbn [x x_new x_fade]. split; [ffin|]. assert (bpow radix2 (-4) <= bpow radix2 f) by (apply bpow_le; lia). fval (fdec 5 100 : f32). split; [lra|]. eapply Rle_trans; [|eassumption]. bp. lra. }
  pose proof (call_ok f L fuel x0 (XBuffer (Some b)) ltac:(lia) I0 Xb) as CO. destruct (x_call L fuel x0 (XBuffer (Some b))) as [[x1 o1]| |] eqn:C; [|contradiction|exfalso; apply CO; exact Logic.I].
  pose proof (call_inv3 f L fuel x0 (XBuffer (Some b)) x1 o1 ltac:(lia) HL (conj I0 J0) Xb C) as I1. pose proof C as C'. cbn [x_call] in C'. destruct (x_setBuffer fuel x0 (Some b)) as [x2| |] eqn:E1; cbn [rbind] in C'; try discriminate C'. injection C' as -> <-.
  exists x1. split; [|split; [exact I1|]].
  - assert (C0 : x_call L fuel x (XInit sr) = Val (x0, None)) by (cbn [x_call]; rewrite E0; reflexivity). cbn [x_run]. rewrite C0. cbn [rbind fst snd]. rewrite C. reflexivity.
  - destruct (init_parts _ _ _ _ _ E0) as (P1 & P2 & P3 & P4 & P5 & P6). destruct (init_fields _ _ _ _ _ E0) as (S0 & S1 & S2 & S3). pose proof (fresh_lag _ _ _ P1) as Lg.
    split; [exact (buffer_at fuel x0 b x1 sr E1 Ok V Hn Hs Hsr S0 S1 S2 S3 P4 P3 Lg)|].
    unfold x_setBuffer in E1. destruct (update_keeps _ _ _ _ E1) as (_ & _ & K & _). rewrite K. exact P2.
Qed.
Lemma first_pass f L fuel junk sr b ops j k : (-4 <= f <= 3)%Z -> (-100 <= j <= 95)%Z -> exp_unit L -> trig_zero L -> xsr_ok sr -> rb_ok b -> rb_valid b = true -> (rb_n b <= 2 ^ 22)%Z -> (rb_sr b = sr \/ flt zero (rb_sr b) = false) ->
  loud j b 0 -> loud j b 1 -> Forall reader_op ops -> (Z.of_nat k <= rb_n b)%Z ->
  exists y outs, x_session L fuel junk sr (XBuffer (Some b) :: ops ++ repeat XTick k) = Val (y, outs) /\ length outs = k /\
    forall m, (m < k)%nat -> let v := nth m (snd (ad_ticks k (init_env L (x_new (fst (fst junk)) (snd (fst junk)) (snd junk)) sr))) zero in
      B2R (fst (nth m outs (zero, zero))) = rnd32 (B2R (smp b 0 (Z.of_nat m)) * B2R v) /\ B2R (snd (nth m outs (zero, zero))) = rnd32 (B2R (smp b 1 (Z.of_nat m)) * B2R v).
Proof.
  intros Hf Hj HL TZ Hs Ok V Hn Hsr L0 L1 Ro Hk. destruct (loaded f L fuel junk sr b Hf HL Hs Ok V Hn Hsr) as (x0 & S0 & I0 & A0 & E0).
  destruct (reader_ops f L fuel b ops ltac:(lia) HL Ro x0 I0 A0) as (x & S & I3 & A & Ee). rewrite E0 in Ee.
  destruct (at_frame_ticks f j L fuel b k ltac:(lia) Hj HL TZ Hn L0 L1 0%Z x I3 A ltac:(lia) ltac:(lia)) as (y & outs & R & Ln & O).
  exists y, outs. split; [|split; [exact Ln|]].
  - destruct junk as [[rd lag] env]. unfold x_session. change (XInit sr :: XBuffer (Some b) :: ops ++ repeat XTick k) with ([XInit sr; XBuffer (Some b)] ++ (ops ++ repeat XTick k)).
    rewrite (run_app L fuel _ _ _ _ _ S0), (run_app L fuel _ _ _ _ _ S), R. reflexivity.
  - rewrite Ee in O. intros m Hm. specialize (O m Hm). rewrite Z.add_0_l in O. exact O.
Qed.
