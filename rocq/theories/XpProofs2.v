(** XPlay: the loop update, undefined cases, the window, bounce mode. *)
From Coq Require Import ZArith Reals Bool List Lra Lia Psatz.
From Flocq Require Import Core BinarySingleNaN.
From Verif Require Import Flt FltFacts FltMore FltKey FltArith FltClose FltScale Libm EnvSpec Res UtilModel UtilProofs OscSpec OscProofs2 PhasorProofs
  SmoothModel SmoothSpec SmoothProofs2 EnvModel RdModel RdSpec RdProofs RdProofs2 RdProofs3 PanModel XpModel XpSpec XpProofs.
Import ListNotations.
Local Open Scope R_scope.

(** ** The loops end *)
Lemma half_step (v w : R) : bpow radix2 (-100) <= w -> Rabs v <= bpow radix2 23 * w * (1 - bpow radix2 (-20)) -> Rabs (rnd32 v - v) <= w / 2.
Proof.
  intros W V. eapply Rle_trans; [apply rrel32|]. assert (T : bpow radix2 (-150) <= bpow radix2 (-50) * w).
  { apply Rle_trans with (bpow radix2 (-50) * bpow radix2 (-100)); [rewrite <- bpow_plus; apply bpow_le; lia|]. apply Rmult_le_compat_l; [apply bpow_ge_0|exact W]. }
  assert (U : bpow radix2 (-24) * Rabs v <= bpow radix2 (-24) * (bpow radix2 23 * w * (1 - bpow radix2 (-20)))) by (apply Rmult_le_compat_l; [apply bpow_ge_0|exact V]).
  assert (P : 0 < w) by (pose proof (bpow_gt_0 radix2 (-100)); lra). assert (B20 : bpow radix2 (-20) = / 1048576) by (bp; lra). assert (B50 : bpow radix2 (-50) <= / 1000000000) by (bp; lra).
  replace (bpow radix2 (-24) * (bpow radix2 23 * w * (1 - bpow radix2 (-20)))) with ((bpow radix2 (-24) * bpow radix2 23) * w * (1 - bpow radix2 (-20))) in U by ring.
  replace (bpow radix2 (-24) * bpow radix2 23) with (/ 2) in U by (rewrite <- bpow_plus; change (-24 + 23)%Z with (-1)%Z; bp; lra). rewrite B20 in U.
  assert (bpow radix2 (-50) * w <= / 1000000000 * w) by (apply Rmult_le_compat_r; lra). nra.
Qed.
Lemma up_ends n : forall fuel p lo w, (n <= fuel)%nat -> fin p -> fin lo -> fin w -> bpow radix2 (-100) <= B2R w <= bpow radix2 35 ->
  Rabs (B2R p) <= bpow radix2 22 * B2R w -> Rabs (B2R lo) <= bpow radix2 22 * B2R w -> Rabs (B2R p) <= bpow radix2 60 -> B2R lo - B2R p <= INR n * (B2R w / 2) ->
  exists q, x_up fuel p lo w = Val q /\ fin q /\ B2R lo <= B2R q /\ Rabs (B2R q) <= bpow radix2 60 /\ (q = p \/ B2R q <= rnd32 (B2R lo + B2R w)).
Proof.
  induction n as [|n IH]; intros fuel p lo w N Fp Fl Fw W P Lo P60 D.
  - assert (T : flt p lo = false) by (apply flt_R_false; [exact Fp|exact Fl|cbn [INR] in D; lra]). exists p. destruct fuel; cbn [x_up]; rewrite T; repeat split; auto; cbn [INR] in D; lra.
  - destruct (flt p lo) eqn:T.
    + destruct fuel as [|fuel]; [lia|]. cbn [x_up]. rewrite T. apply flt_R in T; [|exact Fp|exact Fl].
      assert (Bw : Rabs (B2R w) <= bpow radix2 35) by (rewrite Rabs_pos_eq; [apply W|pose proof (bpow_gt_0 radix2 (-100)); lra]).
      assert (W0 : 0 < B2R w) by (pose proof (bpow_gt_0 radix2 (-100)); lra).
      destruct (add_stall p w Fp Fw P60 Bw) as (A1 & A2 & A3). pose proof (Rabs_le_inv _ _ P) as P'. pose proof (Rabs_le_inv _ _ Lo) as Lo'.
      assert (B22 : bpow radix2 22 = 4194304) by (bp; lra). assert (B23 : bpow radix2 23 = 8388608) by (bp; lra). assert (B20 : bpow radix2 (-20) = / 1048576) by (bp; lra).
      assert (H : Rabs (rnd32 (B2R p + B2R w) - (B2R p + B2R w)) <= B2R w / 2).
      { apply half_step; [apply W|]. rewrite B23, B20. rewrite B22 in *. apply Rabs_le. split; nra. }
      apply Rabs_le_inv in H. rewrite <- A3 in H.
      assert (U : B2R (fadd p w) <= rnd32 (B2R lo + B2R w)) by (rewrite A3; apply rnd_le; lra).
      assert (V : Rabs (B2R (fadd p w)) <= bpow radix2 22 * B2R w \/ B2R lo <= B2R (fadd p w)).
      { destruct (Rle_lt_dec (B2R lo) (B2R (fadd p w))); [now right|left]. apply Rabs_le. lra. }
      destruct V as [V|V].
      * destruct (IH fuel (fadd p w) lo w) as (q & E & Fq & Q1 & Q2 & Q3); auto; [lia|rewrite S_INR in D; lra|]. exists q. repeat split; auto. right. destruct Q3 as [-> | Q3]; assumption.
      * exists (fadd p w). assert (T2 : flt (fadd p w) lo = false) by (apply flt_R_false; auto). split; [|repeat split; auto]. destruct fuel; cbn [x_up]; now rewrite T2.
    + exists p. destruct fuel; cbn [x_up]; rewrite T; apply flt_R_false in T; auto; repeat split; auto.
Qed.
Lemma down_ends n : forall fuel p hi w, (n <= fuel)%nat -> fin p -> fin hi -> fin w -> bpow radix2 (-100) <= B2R w <= bpow radix2 35 ->
  Rabs (B2R p) <= bpow radix2 22 * B2R w * (1 + bpow radix2 (-10)) -> 0 <= B2R hi -> Rabs (B2R p) <= bpow radix2 60 -> B2R p - B2R hi < INR n * (B2R w / 2) ->
  exists q, x_down fuel p hi w = Val q /\ fin q /\ B2R q < B2R hi /\ (q = p \/ rnd32 (B2R hi - B2R w) <= B2R q).
Proof.
  induction n as [|n IH]; intros fuel p hi w N Fp Fl Fw W P Hi P60 D.
  - assert (T : fle hi p = false) by (apply fle_R_false; [exact Fl|exact Fp|cbn [INR] in D; lra]). exists p. destruct fuel; cbn [x_down]; rewrite T; repeat split; auto; cbn [INR] in D; lra.
  - destruct (fle hi p) eqn:T.
    + destruct fuel as [|fuel]; [lia|]. cbn [x_down]. rewrite T. apply fle_R in T; [|exact Fl|exact Fp].
      assert (Bw : Rabs (B2R w) <= bpow radix2 35) by (rewrite Rabs_pos_eq; [apply W|pose proof (bpow_gt_0 radix2 (-100)); lra]).
      assert (W0 : 0 < B2R w) by (pose proof (bpow_gt_0 radix2 (-100)); lra).
      destruct (sub_stall p w Fp Fw P60 Bw) as (A1 & A2 & A3). pose proof (Rabs_le_inv _ _ P) as P'.
      assert (B22 : bpow radix2 22 = 4194304) by (bp; lra). assert (B23 : bpow radix2 23 = 8388608) by (bp; lra). assert (B20 : bpow radix2 (-20) = / 1048576) by (bp; lra). assert (B10 : bpow radix2 (-10) = / 1024) by (bp; lra).
      assert (H : Rabs (rnd32 (B2R p - B2R w) - (B2R p - B2R w)) <= B2R w / 2).
      { apply half_step; [apply W|]. rewrite B23, B20. rewrite B22, B10 in *. apply Rabs_le. split; nra. }
      apply Rabs_le_inv in H. rewrite <- A3 in H.
      assert (U : rnd32 (B2R hi - B2R w) <= B2R (fsub p w)) by (rewrite A3; apply rnd_le; lra).
      destruct (IH fuel (fsub p w) hi w) as (q & E & Fq & Q1 & Q2); auto; [lia| |rewrite S_INR in D; lra|].
      { rewrite B22, B10 in *. apply Rabs_le. nra. }
      exists q. repeat split; auto. right. destruct Q2 as [-> | Q2]; assumption.
    + exists p. destruct fuel; cbn [x_down]; rewrite T; apply fle_R_false in T; auto; repeat split; auto.
Qed.
(** ** The loops do not end *)
Lemma down_spins fuel : forall p hi w, fin p -> fin w -> fle hi p = true -> 0 < B2R w < B2R p * bpow radix2 (-26) -> x_down fuel p hi w = Spin.
Proof.
  induction fuel as [|k IH]; intros p hi w Fp Fw H W; cbn [x_down]; rewrite H; [reflexivity|].
  assert (P0 : 0 < B2R p). { assert (0 < bpow radix2 (-26)) by apply bpow_gt_0. nra. }
  assert (E : rnd32 (B2R p - B2R w) = B2R p). { apply rnd_near; [exact P0|apply (fmt_B2R p)|]. lra. }
  destruct (fsub_b 0 (B2R p) p w) as (A & B & _); auto; [apply dy0|apply dy_B2R| |].
  { assert (bpow radix2 (-26) <= 1) by (bp; lra). nra. }
  fold (rnd32 (B2R p - B2R w)) in B. rewrite E in B. assert (X : fsub p w = p).
  { apply B2R_Bsign_inj; auto. rewrite (pos_sign (fsub p w)), (pos_sign p); auto. now rewrite B. }
  rewrite X. now apply IH.
Qed.
(** ** setStartEnd *)
Definition x_rounds : nat := Z.to_nat (2 ^ 24).
Lemma rounds_INR : INR x_rounds = IZR (2 ^ 24). Proof. unfold x_rounds. rewrite INR_IZR_INZ, Z2Nat.id by lia. reflexivity. Qed.
Lemma rounds_fuel fuel : (2 ^ 24 <= Z.of_nat fuel)%Z -> (x_rounds <= fuel)%nat. Proof. unfold x_rounds. intros H. apply Nat2Z.inj_le. rewrite Z2Nat.id by lia. exact H. Qed.
Global Opaque x_rounds.
Definition x_at (y : xplay) (p : f32) (h : bool) : xplay :=
  XPlay (x_buf y) (x_sr y) (x_start y) (x_end y) (x_rate y) (x_fade y) (x_gate y) (x_bounce y) (x_frames y) (x_ls y) (x_le y) (x_size y) p (x_rev y) h (x_rd y) (x_lag y) (x_env y).
Definition x_refit (fuel : nat) (y : xplay) (p : f32) : res xplay :=
  let w := fmul (x_size y) two in
  p <~ x_up fuel p (x_ls y) w ;; p <~ x_down fuel p (fadd (x_ls y) w) w ;; Val (x_at y p (fle (fadd (x_ls y) (x_size y)) p)).
Lemma update_shape fuel x y : x_update fuel x true = Val y -> x_update fuel x false = if fle (x_size y) zero then Val y else x_refit fuel y (x_ph x).
Proof. unfold x_update. cbv zeta. cbn [orb]. intros H. injection H as <-. cbn [x_size x_ls x_refit]. destruct (fle _ zero); reflexivity. Qed.
Lemma start_end_shape fuel x s e y : x_setStartEnd fuel x s e false = Val y ->
  x_setStartEnd fuel x s e true = Val y \/ (fle (x_size y) zero = false /\ x_ph y = x_ls y /\ x_setStartEnd fuel x s e true = x_refit fuel y (x_ph x)).
Proof.
  unfold x_setStartEnd. cbv zeta. destruct (_ && _); [auto|]. cbn [negb]. intros H. rewrite (update_shape _ _ _ H). cbn [x_ph]. destruct (fle (x_size y) zero) eqn:Z; [auto|right].
  split; [reflexivity|]. split; [|reflexivity]. unfold x_update in H. cbv zeta in H. cbn [orb] in H. injection H as <-. reflexivity.
Qed.
Lemma window_end y f : x_inv f y -> fin (fadd (x_ls y) (fmul (x_size y) two)) /\ B2R (fadd (x_ls y) (fmul (x_size y) two)) = rnd32 (B2R (x_ls y) + 2 * B2R (x_size y)) /\ 0 <= B2R (fadd (x_ls y) (fmul (x_size y) two)) <= bpow radix2 34.
Proof.
  intros (Hb & Hs & H0 & H1 & Hr & Hfd & Hd & L1 & L2 & (FR & LS & SZ & FU) & (Fp & Bp)). destruct (span_two _ SZ) as (Fw & Ew & Bw). destruct LS as [Fl Bl].
  destruct (fadd_b 0 (bpow radix2 34) (x_ls y) (fmul (x_size y) two)) as (A & B & C); auto; [apply dy0|apply bdy; lia|rewrite Ew in *; replace (bpow radix2 34) with (bpow radix2 33 + bpow radix2 32 + bpow radix2 32) by (bp; lra); pose proof (bpow_gt_0 radix2 32); lra|].
  rewrite Ew in B. auto.
Qed.
Lemma refit_ok f fuel y p : x_inv f y -> (x_rounds <= fuel)%nat -> fin p -> Rabs (B2R p) <= bpow radix2 60 -> bpow radix2 (-100) <= B2R (x_size y) ->
  Rabs (B2R p) <= bpow radix2 23 * B2R (x_size y) -> B2R (x_ls y) <= bpow radix2 23 * B2R (x_size y) ->
  exists q, x_refit fuel y p = Val (x_at y q (fle (fadd (x_ls y) (x_size y)) q)) /\ fin q /\ settled y (B2R q) /\ B2R q < B2R (fadd (x_ls y) (fmul (x_size y) two)).
Proof.
  intros I N Fp P60 W P Ls. pose proof I as (Hb & Hs & H0 & H1 & Hr & Hfd & Hd & L1 & L2 & (FR & LS & SZ & FU) & _). destruct (span_two _ SZ) as (Fw & Ew & Bw). destruct LS as [Fl Bl].
  destruct (window_end y f I) as (Fe & Ee & Be). unfold x_refit. cbv zeta. set (w := fmul (x_size y) two) in *. set (hi := fadd (x_ls y) w) in *.
  assert (W' : bpow radix2 (-100) <= B2R w <= bpow radix2 35) by (split; [pose proof (bpow_gt_0 radix2 (-100)); lra|eapply Rle_trans; [apply Bw|apply bpow_le; lia]]).
  assert (B23 : bpow radix2 23 = 2 * bpow radix2 22) by (bp; lra).
  assert (P' : Rabs (B2R p) <= bpow radix2 22 * B2R w) by (rewrite Ew; rewrite B23 in P; lra). assert (Ls' : Rabs (B2R (x_ls y)) <= bpow radix2 22 * B2R w) by (rewrite Rabs_pos_eq by lra; rewrite Ew; rewrite B23 in Ls; lra).
  assert (R24 : INR x_rounds = 4 * bpow radix2 22) by (rewrite rounds_INR; bp; lra).
  destruct (up_ends x_rounds fuel p (x_ls y) w) as (q1 & -> & F1 & Lo1 & Q60 & U1); auto.
  { rewrite R24. apply Rabs_le_inv in P', Ls'. lra. }
  cbn [rbind]. assert (W0 : 0 < B2R w) by (pose proof (bpow_gt_0 radix2 (-100)); lra). assert (B22 : bpow radix2 22 = 4194304) by (bp; lra). assert (B10 : bpow radix2 (-10) = / 1024) by (bp; lra).
  rewrite (Rabs_pos_eq (B2R (x_ls y))) in Ls' by lra. pose proof (rrel32 (B2R (x_ls y) + B2R w)) as E1. rewrite (Rabs_pos_eq (B2R (x_ls y) + B2R w)) in E1 by lra.
  replace (rnd32 (B2R (x_ls y) + B2R w)) with (B2R hi) in * by (rewrite Ee, Ew; reflexivity).
  assert (T : bpow radix2 (-150) <= bpow radix2 (-50) * B2R w).
  { apply Rle_trans with (bpow radix2 (-50) * bpow radix2 (-100)); [rewrite <- bpow_plus; apply bpow_le; lia|]. apply Rmult_le_compat_l; [apply bpow_ge_0|apply W']. }
  assert (T50 : bpow radix2 (-50) <= 0.000000001) by (bp; lra). assert (B24 : bpow radix2 (-24) = / 16777216) by (bp; lra). assert (T' : bpow radix2 (-150) <= 0.000000001 * B2R w) by (eapply Rle_trans; [exact T|apply Rmult_le_compat_r; lra]).
  rewrite B24 in E1. apply Rabs_le_inv in E1. set (t := bpow radix2 (-150)) in *. clearbody t.
  assert (Q1 : Rabs (B2R q1) <= bpow radix2 22 * B2R w * (1 + bpow radix2 (-10))).
  { rewrite B10, B22 in *. destruct U1 as [-> | U1]; [|rewrite Rabs_pos_eq by lra]; lra. }
  assert (H0' : 0 <= B2R hi) by lra.
  destruct (down_ends x_rounds fuel q1 hi w) as (q & -> & Fq & Q2 & U2); auto.
  { rewrite R24. rewrite B10, B22 in *. apply Rabs_le_inv in Q1. lra. }
  cbn [rbind]. exists q. split; [reflexivity|]. split; [exact Fq|]. split; [|exact Q2]. unfold settled. cbv zeta. rewrite <- Ew. assert (B_22 : bpow radix2 (-22) = / 4194304) by (bp; lra). rewrite B_22.
  split; [|lra]. destruct U2 as [-> | U2]; [lra|]. eapply Rle_trans; [|exact U2]. pose proof (rrel32 (B2R hi - B2R w)) as E2. rewrite B24 in E2.
  rewrite B22 in Ls'. assert (AB : Rabs (B2R hi - B2R w) <= B2R (x_ls y) + B2R w) by (apply Rabs_le; split; lra). assert (T2 : bpow radix2 (-150) <= 0.000000001 * B2R w).
  { eapply Rle_trans; [|apply Rmult_le_compat_r; [lra|exact T50]]. apply Rle_trans with (bpow radix2 (-50) * bpow radix2 (-100)); [rewrite <- bpow_plus; apply bpow_le; lia|]. apply Rmult_le_compat_l; [apply bpow_ge_0|apply W']. }
  apply Rabs_le_inv in E2. lra.
Qed.
Lemma refit_spins f fuel y p : x_inv f y -> fin p -> 0 < B2R (x_size y) -> fle (fadd (x_ls y) (fmul (x_size y) two)) p = true -> B2R (x_size y) < B2R p * bpow radix2 (-27) -> x_refit fuel y p = Spin.
Proof.
  intros I Fp P H W. pose proof I as (Hb & Hs & H0 & H1 & Hr & Hfd & Hd & L1 & L2 & (FR & LS & SZ & FU) & _). destruct (span_two _ SZ) as (Fw & Ew & Bw). destruct LS as [Fl Bl]. destruct (window_end y f I) as (Fe & Ee & Be).
  unfold x_refit. cbv zeta. set (w := fmul (x_size y) two) in *. set (hi := fadd (x_ls y) w) in *. pose proof H as H'. apply fle_R in H'; [|exact Fe|exact Fp].
  assert (U : x_up fuel p (x_ls y) w = Val p).
  { assert (T : flt p (x_ls y) = false). { apply flt_R_false; auto. eapply Rle_trans; [|exact H']. rewrite Ee. apply rnd_ge_B2R. lra. } destruct fuel; cbn [x_up]; rewrite T; reflexivity. }
  rewrite U. cbn [rbind]. rewrite (down_spins fuel p hi w); auto. rewrite Ew. change (-27)%Z with (-26 + -1)%Z in W. rewrite bpow_plus in W. change (bpow radix2 (-1)) with (/ 2) in W. lra.
Qed.
(** ** Undefined cases *)
Lemma nf_mul (x y : f32) : is_finite x = false -> is_finite (fmul x y) = false. Proof. destruct x; intros H; try discriminate H; destruct y; reflexivity. Qed.
Lemma nf_add_l (x y : f32) : is_finite x = false -> is_finite (fadd x y) = false. Proof. destruct x as [s|s| |s m e B]; intros H; try discriminate H; destruct y as [t|t| |t n g C]; try reflexivity; destruct s, t; reflexivity. Qed.
Lemma nf_add_r (x y : f32) : is_finite y = false -> is_finite (fadd x y) = false. Proof. destruct y as [s|s| |s m e B]; intros H; try discriminate H; destruct x as [t|t| |t n g C]; try reflexivity; destruct s, t; reflexivity. Qed.
Lemma nf_sub_l (x y : f32) : is_finite x = false -> is_finite (fsub x y) = false. Proof. destruct x as [s|s| |s m e B]; intros H; try discriminate H; destruct y as [t|t| |t n g C]; try reflexivity; destruct s, t; reflexivity. Qed.
Lemma nan_sub_r (x y : f32) : is_nan y = true -> is_nan (fsub x y) = true. Proof. destruct y; intros H; try discriminate H. destruct x; reflexivity. Qed.
Lemma nan_add_r (x y : f32) : is_nan y = true -> is_nan (fadd x y) = true. Proof. destruct y; intros H; try discriminate H. destruct x; reflexivity. Qed.
Lemma nf_fmod (x y : f32) : is_finite x = false -> is_nan (ffmod x y) = true. Proof. destruct x; intros H; try discriminate H; destruct y; reflexivity. Qed.
Lemma nf_wrap p fr : is_finite p = false -> fin fr -> 1 <= B2R fr -> is_nan (wrap_direct p zero fr) = true.
Proof.
  intros N F P. destruct (fsub_exact fr zero F eq_refl) as [A E]; [rewrite zero_R, Rminus_0_r; apply dy_B2R|]. rewrite zero_R, Rminus_0_r in E. unfold wrap_direct. cbv zeta.
  assert (T : fle (fsub fr zero) zero = false) by (apply fle_R_false; [exact A|reflexivity|rewrite zero_R; lra]). rewrite T. unfold wrapValue. cbv zeta.
  set (r := fsub fr zero) in *. clearbody r. pose proof (pos_sign r A ltac:(lra)) as S. destruct r as [b|b| |b m e B]; try discriminate A; [cbn in E; lra|]. cbn [Bsign] in S. subst b.
  destruct p as [s|s| |s mm ee BB]; try discriminate N; [destruct s; reflexivity|reflexivity].
Qed.
Lemma nf_head x : is_finite (x_ph x) = false -> fin (x_frames x) -> 1 <= B2R (x_frames x) -> is_nan (fst (x_heads x)) = true.
Proof.
  intros N F P. unfold x_heads. cbv zeta. destruct (x_bounce x); cbn [negb fst]; [|now apply nf_wrap].
  assert (M : is_nan (ffmod (fsub (x_ph x) (x_ls x)) (fmul (x_size x) two)) = true) by (apply nf_fmod, nf_sub_l, N).
  set (q := ffmod _ _) in *. clearbody q. destruct q; try discriminate M. apply nan_add_r. unfold x_pingpong. change (flt (B754_nan : f32) zero) with false. cbv iota.
  assert (Z : fle (B754_nan : f32) (x_size x) = false) by (destruct (x_size x); reflexivity). rewrite Z. now apply nan_sub_r.
Qed.
Lemma nf_tick L x b : x_buf x = Some b -> rb_ok b -> rb_valid b = true -> rd_buf (x_rd x) = Some b -> fle (x_size x) zero = false -> fin (x_frames x) -> 1 <= B2R (x_frames x) ->
  is_finite (x_ph x) = false -> x_tick L x = Undef.
Proof.
  intros B O V R Z F P N. unfold x_tick. rewrite B, Z. cbn [x_usable]. rewrite V. cbn [negb orb]. cbv zeta. destruct (ll_tick _ _) as [[lag fd]|]; [|reflexivity]. cbn [of_opt rbind].
  pose proof (nf_head x N F P) as H. destruct (x_heads x) as [p1 p2]. cbn [fst] in H. destruct (x_rd x) as [rb lp md]. cbn [rd_buf] in R. subst rb. destruct (rd_undefined b lp md p1 O (or_introl H)) as [_ ->]. reflexivity.
Qed.
Lemma nf_next x h : is_finite (x_eff x) = false -> is_finite (fst (x_next x h)) = false.
Proof.
  intros N. unfold x_next. cbv zeta. pose proof (nf_add_r (x_ph x) _ N) as C. destruct (fle _ _); cbn [fst]; [now apply nf_sub_l|]. destruct (flt _ _); cbn [fst]; [now apply nf_add_l|exact C].
Qed.
(** What a tick changes. *)
Lemma tick_shape L x y x' : x_tick L x = Val (y, x') -> (x' = x /\ y = (zero, zero) /\ (x_usable (x_buf x) = false \/ fle (x_size x) zero = true)) \/
  (x_usable (x_buf x) = true /\ fle (x_size x) zero = false /\ exists h lag fd s1 s2,
    ll_tick (x_lag x) (if fle (fadd (x_ls x) (x_size x)) (x_ph x) then one else fneg one) = Some (lag, fd) /\
    rd_tick2 (x_rd x) (fst (x_heads x)) = Some s1 /\ rd_tick2 (x_rd x) (snd (x_heads x)) = Some s2 /\
    y = (fmul (fst (xf_process2 L s1 s2 fd one)) (snd (ad_tick (x_env x))), fmul (snd (xf_process2 L s1 s2 fd one)) (snd (ad_tick (x_env x)))) /\
    x' = XPlay (x_buf x) (x_sr x) (x_start x) (x_end x) (x_rate x) (x_fade x) (x_gate x) (x_bounce x)
        (x_frames x) (x_ls x) (x_le x) (x_size x) (fst (x_next x h)) (x_rev x) (snd (x_next x h)) (x_rd x) lag (fst (ad_tick (x_env x)))).
Proof.
  intros H. unfold x_tick in H. destruct (negb (x_usable (x_buf x)) || fle (x_size x) zero) eqn:U.
  - injection H as <- <-. left. split; [reflexivity|]. split; [reflexivity|]. apply orb_prop in U. destruct U as [U|U]; [left; now apply negb_true_iff|now right].
  - right. apply orb_false_iff in U. destruct U as [U Z]. apply negb_false_iff in U. split; [exact U|]. split; [exact Z|]. cbv zeta in H. set (h := fle _ (x_ph x)) in *. exists h.
    destruct (ll_tick _ _) as [[lag fd]|]; [|discriminate H]. cbn [of_opt rbind] in H. destruct (x_heads x) as [p1 p2]. cbn [fst snd].
    destruct (rd_tick2 (x_rd x) p1) as [s1|]; [|discriminate H]. cbn [of_opt rbind] in H. destruct (rd_tick2 (x_rd x) p2) as [s2|]; [|discriminate H]. cbn [of_opt rbind] in H.
    destruct (ad_tick (x_env x)) as [env v]. destruct (x_next x h) as [p h2]. injection H as <- <-. exists lag, fd, s1, s2. repeat split; reflexivity.
Qed.
Lemma rate_undef f L fuel x b r : (f <= 12)%Z -> x_inv f x -> x_plays x b -> is_finite r = false -> x_run L fuel x [XRate r; XTick; XTick] = Undef.
Proof.
  intros Hf I (B & V & R & Z) N. pose proof I as (Hb & Hs & H0 & H1 & Hr & Hfd & Hd & L1 & L2 & (FR & LS & SZ & FU) & Hp).
  assert (O : rb_ok b) by (rewrite B in Hb; destruct Hb as [Hb _]; now apply Hb). assert (U : x_usable (x_buf x) = true) by (rewrite B; exact V).
  cbn [x_run x_call rbind fst snd]. destruct (x_tick L (x_setRate x r)) as [[y x']| |] eqn:T; cbn [rbind fst snd].
  - destruct (tick_shape _ _ _ _ T) as [(_ & _ & [E|E])|(_ & _ & h & lag & fd & s1 & s2 & _ & _ & _ & _ & E)]; [unfold x_setRate in E; cbn [x_buf] in E; congruence|unfold x_setRate in E; cbn [x_size] in E; congruence|].
    assert (X : x_tick L x' = Undef).
    { apply (nf_tick L x' b); try rewrite E; unfold x_setRate; cbn [x_buf x_rd x_size x_frames x_ph]; auto; [apply FR|].
      apply nf_next. unfold x_eff. cbn [x_rate x_buf x_sr x_rev]. cbv zeta. apply nf_mul, nf_mul, N. }
    rewrite X. reflexivity.
  - reflexivity.
  - exfalso. unfold x_tick in T. destruct (_ || _); [discriminate T|]. cbv zeta in T. destruct (ll_tick _ _) as [[? ?]|]; [|discriminate T]. cbn [of_opt rbind] in T. destruct (x_heads _) as [? ?].
    destruct (rd_tick2 _ _); [|discriminate T]. cbn [of_opt rbind] in T. destruct (rd_tick2 _ _); [|discriminate T]. cbn [of_opt rbind] in T. destruct (ad_tick _). destruct (x_next _ _). discriminate T.
Qed.
(** A NaN loop point silences; the next preserving change of the loop then plays from a NaN position. *)
Lemma nan_point fuel x s e pr : is_nan s = true -> exists y, x_setStartEnd fuel x s e pr = Val y /\ fle (x_size y) zero = true /\ is_nan (x_ph y) = true /\ x_buf y = x_buf x /\ x_rd y = x_rd x.
Proof.
  intros N. destruct s; try discriminate N. unfold x_setStartEnd. cbv zeta. assert (C : clamp (B754_nan : f32) zero one = B754_nan) by reflexivity. rewrite C.
  assert (T : flt (fabs (fsub (B754_nan : f32) (x_start x))) e9 = false) by (destruct (x_start x); reflexivity). rewrite T. cbn [andb]. unfold x_update. cbv zeta. cbn [x_start x_end x_buf].
  set (fr := match x_buf x with Some b => _ | None => _ end). set (ce := clamp e zero one).
  assert (M1 : smin (B754_nan : f32) ce = B754_nan) by (unfold smin; destruct ce; reflexivity). assert (M2 : smax (B754_nan : f32) ce = B754_nan) by reflexivity. rewrite M1, M2.
  assert (M3 : fmul (B754_nan : f32) fr = B754_nan) by (destruct fr; reflexivity). rewrite M3. assert (M4 : fsub (B754_nan : f32) B754_nan = B754_nan) by reflexivity. rewrite M4.
  assert (M5 : smax zero (B754_nan : f32) = zero) by reflexivity. rewrite M5. assert (M6 : fle (zero : f32) zero = true) by reflexivity. rewrite M6. rewrite orb_true_r.
  eexists. split; [reflexivity|]. cbn [x_size x_ph x_buf x_rd]. auto.
Qed.
Lemma nan_refit fuel y p : is_nan p = true -> x_refit fuel y p = Val (x_at y p (fle (fadd (x_ls y) (x_size y)) p)).
Proof.
  intros N. destruct p; try discriminate N. unfold x_refit. cbv zeta. assert (A : forall lo w, x_up fuel (B754_nan : f32) lo w = Val B754_nan) by (intros; destruct fuel; reflexivity). rewrite A. cbn [rbind].
  assert (B : forall hi w, x_down fuel (B754_nan : f32) hi w = Val B754_nan) by (intros hi w; destruct fuel; cbn [x_down]; replace (fle hi B754_nan) with false by (destruct hi; reflexivity); reflexivity). rewrite B. reflexivity.
Qed.
Lemma update_fields fuel x y : x_update fuel x true = Val y -> x_buf y = x_buf x /\ x_rd y = x_rd x /\
  x_frames y = match x_buf x with Some b => if rb_valid b then fofZ (rb_n b) else zero | None => zero end.
Proof. unfold x_update. cbv zeta. cbn [orb]. intros H. injection H as <-. auto. Qed.
Lemma nan_point_undef f L fuel x b s e pr s' e' y : x_inv f x -> x_plays x b -> is_nan s = true ->
  x_run L fuel x [XStartEnd s e pr; XStartEnd s' e' false] = Val (y, []) -> fle (x_size y) zero = false ->
  x_run L fuel x [XStartEnd s e pr; XTick] = Val (fst (match x_call L fuel x (XStartEnd s e pr) with Val q => q | _ => (x, None) end), [(zero, zero)]) /\
  x_run L fuel x [XStartEnd s e pr; XStartEnd s' e' true; XTick] = Undef.
Proof.
  intros I (B & V & R & Z) N RUN P. pose proof I as (Hb & _). assert (O : rb_ok b /\ (rb_n b <= 2 ^ 32)%Z) by (rewrite B in Hb; destruct Hb as [Hb _]; now apply Hb).
  destruct (nan_point fuel x s e pr N) as (z & E & Z1 & Z2 & Z3 & Z4). cbn [x_run x_call] in RUN |- *. rewrite E in RUN |- *. cbn [rbind fst snd] in RUN |- *.
  destruct (x_setStartEnd fuel z s' e' false) as [y1| |] eqn:S; cbn [rbind fst snd] in RUN; try discriminate RUN. injection RUN as ->. split.
  - unfold x_tick. rewrite Z1, orb_true_r. reflexivity.
  - destruct (start_end_shape _ _ _ _ _ S) as [S1|(_ & _ & S1)]; rewrite S1.
    + exfalso. unfold x_setStartEnd in S, S1. cbv zeta in S, S1. destruct (_ && _); [injection S as ->; congruence|]. cbn [negb] in S, S1. rewrite (update_shape _ _ _ S) in S1. rewrite P in S1. cbn [x_ph] in S1.
      rewrite (nan_refit _ _ _ Z2) in S1. cbn [rbind] in S1. injection S1 as S1. assert (X : x_ph y = x_ls y) by (unfold x_update in S; cbv zeta in S; cbn [orb] in S; injection S as <-; reflexivity).
      assert (Y : x_ph y = x_ph z) by (rewrite <- S1; reflexivity).
      assert (NL : is_nan (x_ls y) = true) by congruence. unfold x_update in S; cbv zeta in S; cbn [orb] in S. injection S as S. rewrite <- S in NL, P. cbn [x_ls x_size] in NL, P.
      match type of P with fle (smax zero (fsub ?le ?ls)) zero = false => assert (NS : is_nan (fsub le ls) = true) by (now apply nan_sub_r); set (d := fsub le ls) in * end. clearbody d. destruct d; try discriminate NS. discriminate P.
    + rewrite (nan_refit _ _ _ Z2). cbn [rbind fst snd].
      assert (FY : x_buf y = x_buf x /\ x_rd y = x_rd x /\ x_frames y = fofZ (rb_n b)).
      { unfold x_setStartEnd in S. cbv zeta in S. destruct (_ && _); [injection S as ->; congruence|]. destruct (update_fields _ _ _ S) as (U1 & U2 & U3). cbn [x_buf x_rd] in U1, U2, U3. rewrite Z3 in *. rewrite Z4 in U2.
        rewrite B in U3. rewrite V in U3. auto. }
      destruct FY as (Y1 & Y2 & Y3). destruct O as [O On]. destruct O as (d & O1 & O2 & O3 & O4). destruct (fofZ_32 (rb_n b) ltac:(lia)) as [F32 B32].
      rewrite (nf_tick L _ b); [reflexivity| | | | | | | |]; unfold x_at; cbn [x_buf x_rd x_size x_frames x_ph].
      * now rewrite Y1.
      * exists d. auto.
      * exact V.
      * now rewrite Y2.
      * exact P.
      * now rewrite Y3.
      * rewrite Y3. apply B32.
      * destruct (x_ph z); try discriminate Z2. reflexivity.
Qed.
(** ** The phasor stays in its window *)
Lemma next_window f k x h : x_inv f x -> tame k x -> in_window k x -> 
  B2R (x_ls x) - bpow radix2 (k - 22) <= B2R (fst (x_next x h)) <= B2R (fadd (x_ls x) (fmul (x_size x) two)).
Proof.
  intros I (K & T1 & T2 & T3) W. destruct (eff_ok f x I) as [Fe Be]. destruct (window_end x f I) as (Fh & Eh & Bh). pose proof I as (Hb & Hs & H0 & H1 & Hr & Hf & Hd & L1 & L2 & (FR & LS & SZ & FU) & (Fp & Bp)).
  destruct (span_two _ SZ) as (Fw & Ew & Bw). destruct LS as [Fl Bl]. destruct SZ as [Fz Bz]. unfold in_window in W. unfold x_next. cbv zeta. set (w := fmul (x_size x) two) in *. set (hi := fadd (x_ls x) w) in *.
  assert (Bw' : Rabs (B2R w) <= bpow radix2 35) by (rewrite Rabs_pos_eq by lra; eapply Rle_trans; [apply Bw|apply bpow_le; lia]).
  assert (Be' : Rabs (B2R (x_eff x)) <= bpow radix2 35) by (eapply Rle_trans; [apply Be|apply bpow_le; lia]).
  destruct (add_stall _ _ Fp Fe Bp Be') as (F1 & B1 & E1). set (c := fadd (x_ph x) (x_eff x)) in *.
  assert (D : 0 < bpow radix2 (k - 22)) by apply bpow_gt_0. assert (D20 : bpow radix2 (k - 20) = 4 * bpow radix2 (k - 22)).
  { replace (k - 20)%Z with (2 + (k - 22))%Z by lia. rewrite bpow_plus. change (bpow radix2 2) with 4. reflexivity. }
  assert (Dk : bpow radix2 (k - 22) <= bpow radix2 k / 4194304).
  { replace (k - 22)%Z with (-22 + k)%Z by lia. rewrite bpow_plus. right. bp. lra. }
  assert (Hk : Rabs (B2R hi - (B2R (x_ls x) + B2R w)) <= bpow radix2 (k - 25)).
  { rewrite Eh, <- Ew. apply rnd_err1; [lia|]. rewrite Rabs_pos_eq by lra. lra. }
  assert (D25 : bpow radix2 (k - 25) = bpow radix2 (k - 22) / 8).
  { replace (k - 25)%Z with (-3 + (k - 22))%Z by lia. rewrite bpow_plus. change (bpow radix2 (-3)) with (/ 8). lra. }
  assert (D23 : bpow radix2 (k + 2 - 25) = bpow radix2 (k - 22) / 2).
  { replace (k + 2 - 25)%Z with (-1 + (k - 22))%Z by lia. rewrite bpow_plus. change (bpow radix2 (-1)) with (/ 2). lra. }
  assert (K2 : bpow radix2 (k + 2) = 4 * bpow radix2 k) by (rewrite Z.add_comm, bpow_plus; change (bpow radix2 2) with 4; reflexivity).
  rewrite D25 in Hk. apply Rabs_le_inv in Hk, T3.
  assert (C : Rabs (B2R c - (B2R (x_ph x) + B2R (x_eff x))) <= bpow radix2 (k - 22) / 2).
  { rewrite E1, <- D23. apply rnd_err1; [lia|]. rewrite K2. apply Rabs_le. lra. }
  apply Rabs_le_inv in C. destruct (fle hi c) eqn:Q1; cbn [fst].
  - apply fle_R in Q1; auto. destruct (sub_stall c w F1 Fw B1 Bw') as (A1 & A2 & A3).
    assert (C2 : Rabs (B2R (fsub c w) - (B2R c - B2R w)) <= bpow radix2 (k - 22) / 2).
    { rewrite A3, <- D23. apply rnd_err1; [lia|]. rewrite K2. apply Rabs_le. lra. } apply Rabs_le_inv in C2. lra.
  - apply fle_R_false in Q1; auto. destruct (flt c (x_ls x)) eqn:Q2; cbn [fst].
    + apply flt_R in Q2; auto. destruct (add_stall c w F1 Fw B1 Bw') as (A1 & A2 & A3).
      assert (C2 : Rabs (B2R (fadd c w) - (B2R c + B2R w)) <= bpow radix2 (k - 22) / 2).
      { rewrite A3, <- D23. apply rnd_err1; [lia|]. rewrite K2. apply Rabs_le. lra. } apply Rabs_le_inv in C2. split; [lra|]. rewrite A3, Eh, <- Ew. apply rnd_le. lra.
    + apply flt_R_false in Q2; auto. lra.
Qed.
Lemma ticks_window f k L fuel n : (f <= 12)%Z -> forall x, x_inv f x -> tame k x -> in_window k x ->
  exists x' ys, x_run L fuel x (repeat XTick n) = Val (x', ys) /\ x_inv f x' /\ in_window k x' /\ x_ls x' = x_ls x /\ x_size x' = x_size x.
Proof.
  intros Hf. induction n as [|n IH]; intros x I T W; cbn [repeat x_run]; [exists x, []; auto|].
  cbn [x_call]. destruct (tick_ok f L x Hf I) as (y & x1 & E & I1). rewrite E. cbn [rbind fst snd].
  assert (G : tame k x1 /\ in_window k x1 /\ x_ls x1 = x_ls x /\ x_size x1 = x_size x).
  { destruct (tick_shape _ _ _ _ E) as [(-> & _)|(_ & _ & h & lag & fd & s1 & s2 & _ & _ & _ & _ & ->)]; [auto|].
    pose proof (next_window f k x h I T W) as NW. unfold tame, in_window, x_eff in *. cbn [x_ls x_size x_ph x_rate x_buf x_sr x_rev] in *. auto. }
  destruct G as (T1 & W1 & E1 & E2). destruct (IH x1 I1 T1 W1) as (x' & ys & R & I' & W' & E3 & E4). rewrite R. cbn [rbind fst snd]. exists x', (y :: ys). rewrite <- E1, <- E2. auto.
Qed.
(** ** Bounce mode *)
Lemma bounce_inside f x : x_inv f x -> x_bounce x = true -> 0 < B2R (x_size x) ->
  (B2R (x_ls x) <= B2R (fst (x_heads x)) <= B2R (fadd (x_ls x) (x_size x))) /\ (B2R (x_ls x) <= B2R (snd (x_heads x)) <= B2R (fadd (x_ls x) (x_size x))).
Proof.
  intros I M P. pose proof I as (Hb & Hs & H0 & H1 & Hr & Hf & Hd & L1 & L2 & (FR & LS & SZ & FU) & (Fp & Bp)).
  rewrite (bounce_heads x M). cbn [fst snd]. destruct (phase_in f x I P) as [Fq Bq]. destruct (span_two _ SZ) as (Fw & Ew & Bw).
  destruct (pong_ok _ _ SZ Fq Bq) as [[S1 S2] S2']. destruct (fsub_b 0 (B2R (fmul (x_size x) two)) (fmul (x_size x) two) (x_phase x)) as (A & _ & B); auto; [apply dy0|apply dy_B2R|lra|].
  rewrite Ew in B. destruct (pong_ok _ _ SZ A B) as [[S3 S4] S4']. destruct LS as [Fl Bl]. destruct SZ as [Fz Bz].
  assert (G : forall q, fin q -> 0 <= B2R q <= B2R (x_size x) -> B2R (x_ls x) <= B2R (fadd (x_ls x) q) <= B2R (fadd (x_ls x) (x_size x))).
  { intros q F Q. assert (E33 : bpow radix2 33 = bpow radix2 32 + bpow radix2 32) by (bp; lra).
    destruct (fadd_b 0 (bpow radix2 33) (x_ls x) q) as (_ & E1 & _); auto; [apply dy0|apply bdy; lia|lra|]. destruct (fadd_b 0 (bpow radix2 33) (x_ls x) (x_size x)) as (_ & E2 & _); auto; [apply dy0|apply bdy; lia|lra|].
    rewrite E1, E2. split; [apply rnd_ge_B2R; lra|apply rnd_le; lra]. }
  split; apply G; auto; lra.
Qed.
