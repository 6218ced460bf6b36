(** BufRd: what the reads return. *)
From Coq Require Import ZArith Reals Bool List Lra Lia Psatz.
From Flocq Require Import Core BinarySingleNaN.
From Verif Require Import Flt FltFacts FltMore FltKey FltArith FltClose FltScale UtilModel UtilProofs OscSpec OscProofs2 PhasorProofs RdModel RdSpec RdProofs RdProofs2.
Import ListNotations.
Local Open Scope R_scope.

(** ** Where a phase is read *)
Lemma rd_at lp n p : (1 <= n <= 2 ^ 24)%Z -> fin p ->
  exists q f, rd_split (rd_phase lp n p) = Some (Zfloor q, f) /\ fin f /\ B2R f = q - IZR (Zfloor q) /\ 0 <= B2R f < 1 /\ 0 <= q <= IZR n /\
    (lp = false -> q <= IZR n - 1) /\ q = rnd32 (rd_pos lp n (B2R p)) /\ (lp = false \/ 0 <= B2R p -> q = rd_pos lp n (B2R p)).
Proof.
  intros H Fp. assert (N1 : 1 <= IZR n <= IZR (2 ^ 24)) by (split; apply IZR_le; lia).
  destruct (pos_bnd lp n (B2R p) ltac:(lia)) as (PB & PL & PN).
  assert (X : fin (rd_phase lp n p) /\ B2R (rd_phase lp n p) = rnd32 (rd_pos lp n (B2R p)) /\ (lp = false \/ 0 <= B2R p -> B2R (rd_phase lp n p) = rd_pos lp n (B2R p))).
  { destruct (Rlt_le_dec (B2R p) 0) as [S|S].
    - destruct lp.
      + destruct (phase_neg n p H Fp S) as [A B]. split; [exact A|]. split; [exact B|]. intros [K|K]; [discriminate K|lra].
      + destruct (phase_exact false n p H Fp ltac:(discriminate)) as [A B]. split; [exact A|]. split; [rewrite <- B; symmetry; apply rnd_B2R|intros _; exact B].
    - destruct (phase_exact lp n p H Fp ltac:(auto)) as [A B]. split; [exact A|]. split; [rewrite <- B; symmetry; apply rnd_B2R|intros _; exact B]. }
  destruct X as (F & E & EX). set (a := rd_phase lp n p) in *.
  assert (QB : 0 <= B2R a <= IZR n).
  { destruct (fofZ_R (prec:=24) (emax:=128) n ltac:(lia)) as [Fn En]. rewrite E. split; [apply rnd_nonneg, PB|]. rewrite <- En. apply rnd_le_B2R. rewrite En. apply PB. }
  destruct (split_exact a F ltac:(lra)) as (f & S & Ff & Ef & Bf).
  exists (B2R a), f. repeat (split; [assumption || lra|]). split; [|split; [exact E|exact EX]]. intros L. rewrite EX by (now left). now apply PN.
Qed.
Lemma pos_int lp n k : (0 < n)%Z -> rd_pos lp n (IZR k) = IZR (frame lp n k).
Proof.
  intros H. unfold rd_pos, frame. destruct lp.
  - replace (Zfloor (IZR k / IZR n)) with (k / n)%Z by (symmetry; apply Zfloor_div; lia). rewrite <- mult_IZR, <- minus_IZR. f_equal. pose proof (Z.div_mod k n). lia.
  - rewrite <- minus_IZR. unfold Rmax, Rmin. destruct (Rle_dec (IZR (n - 1)) (IZR k)) as [A|A].
    + apply le_IZR in A. destruct (Rle_dec 0 _) as [B|B]; [f_equal; lia|]. exfalso. apply B. apply IZR_le. lia.
    + assert (k < n - 1)%Z by (apply lt_IZR; lra). destruct (Rle_dec 0 _) as [B|B]; [apply le_IZR in B; f_equal; lia|]. change 0 with (IZR 0). f_equal. assert (k < 0)%Z by (apply lt_IZR; lra). lia.
Qed.
Lemma frame_in lp n k : (0 < n)%Z -> (0 <= frame lp n k < n)%Z.
Proof. intros. unfold frame. destruct lp; [apply Z.mod_pos_bound; lia|lia]. Qed.
(** ** Exact reads at integer phases *)
Lemma fadd_inv (x y : f32) : fin (fadd x y) -> fin x /\ fin y.
Proof. destruct x as [s|s| |s m e B], y as [s'|s'| |s' m' e' B']; try (intros; split; reflexivity); try discriminate. destruct s, s'; discriminate. Qed.
Lemma fmul_inv (x y : f32) : fin (fmul x y) -> fin x /\ fin y.
Proof. destruct x as [s|s| |s m e B], y as [s'|s'| |s' m' e' B']; try (intros; split; reflexivity); discriminate. Qed.
Lemma mul0 (x y : f32) : fin x -> fin y -> B2R x = 0 \/ B2R y = 0 -> fin (fmul x y) /\ B2R (fmul x y) = 0.
Proof. intros Fx Fy H. assert (E : B2R x * B2R y = 0) by (destruct H as [-> | ->]; ring). destruct (fmul_exact x y Fx Fy) as [A B]; [rewrite E; apply dy0|]. split; [exact A|lra]. Qed.
Lemma add0 (x y : f32) : fin x -> fin y -> B2R x = 0 -> fin (fadd x y) /\ B2R (fadd x y) = B2R y.
Proof. intros Fx Fy H. assert (E : B2R x + B2R y = B2R y) by lra. destruct (fadd_exact x y Fx Fy) as [A B]; [rewrite E; apply dy_B2R|]. split; [exact A|lra]. Qed.
Lemma lerp_at0 (a b t : f32) : fin (lerp a b t) -> fin t -> B2R t = 0 -> B2R (lerp a b t) = B2R a.
Proof.
  unfold lerp. intros F Ft T. destruct (fadd_inv _ _ F) as [Fa Fm]. destruct (fmul_inv _ _ Fm) as [F1 F2].
  destruct (mul0 _ _ F1 F2 ltac:(auto)) as [A B].
  destruct (fadd_exact a _ Fa A) as [_ E]; [rewrite B, Rplus_0_r; apply dy_B2R|]. rewrite E, B. ring.
Qed.
Lemma cubic_at0 (y0 y1 y2 y3 t : f32) : fin (rd_cubic y0 y1 y2 y3 t) -> fin t -> B2R t = 0 -> B2R (rd_cubic y0 y1 y2 y3 t) = B2R y1.
Proof.
  unfold rd_cubic. cbv zeta. intros F Ft T. destruct (fadd_inv _ _ F) as [Fs F1]. destruct (fadd_inv _ _ Fs) as [Fu Fv]. destruct (fadd_inv _ _ Fu) as [Fw Fx].
  destruct (fmul_inv _ _ Fv) as [C2 _]. destruct (fmul_inv _ _ Fx) as [C1 _]. destruct (fmul_inv _ _ Fw) as [C0 _].
  destruct (mul0 t t Ft Ft ltac:(auto)) as [G2 H2]. destruct (mul0 _ t G2 Ft ltac:(auto)) as [G3 H3].
  destruct (mul0 _ _ C0 G3 ltac:(auto)) as [_ K0]. destruct (mul0 _ _ C1 G2 ltac:(auto)) as [_ K1]. destruct (mul0 _ _ C2 Ft ltac:(auto)) as [_ K2].
  destruct (add0 _ _ Fw Fx K0) as [_ L1]. destruct (add0 _ _ Fu Fv ltac:(lra)) as [_ L2]. destruct (add0 _ _ Fs F1 ltac:(lra)) as [_ L3]. exact L3.
Qed.
Lemma tap_loud j b c i : loud j b c -> (0 <= i)%Z -> bnd j (tapv b c i).
Proof.
  intros L I. unfold tapv. destruct (Z.ltb_spec i (rb_n b)); [apply L; lia|]. split; [reflexivity|]. rewrite zero_R, Rabs_R0. apply bpow_ge_0.
Qed.
Lemma interp_at0 j mode lp b c i f : (-100 <= j <= 96)%Z -> loud j b c -> (0 < rb_n b)%Z -> (0 <= i)%Z -> fin f -> B2R f = 0 ->
  fin (interp mode lp b c i f) /\ B2R (interp mode lp b c i f) = B2R (tapv b c i).
Proof.
  intros J L N I Ff E. assert (T : 0 <= B2R f <= 1) by lra. unfold interp.
  destruct (mode =? 2)%Z.
  - destruct (lerp_acc j (tapv b c i) (tapv b c (rd_wrap lp (i + 1) (rb_n b))) f J) as [F _]; auto; [apply tap_loud; auto..|apply tap_loud; auto; apply wrap_nn; lia|]. split; [exact F|now apply lerp_at0].
  - destruct (mode =? 4)%Z.
    + destruct (cubic_acc j (tapv b c (rd_prev lp i (rb_n b))) (tapv b c i) (tapv b c (rd_wrap lp (i + 1) (rb_n b))) (tapv b c (rd_wrap lp (i + 2) (rb_n b))) f J) as [F _]; auto;
        try (apply tap_loud; auto; try apply wrap_nn; try apply prev_nn; lia). split; [exact F|now apply cubic_at0].
    + split; [|reflexivity]. now apply (tap_loud j).
Qed.
Lemma rd_int j b lp mode p k : rb_ok b -> (rb_n b <= 2 ^ 24)%Z -> (-100 <= j <= 96)%Z -> loud j b 0 -> loud j b 1 -> fin p -> B2R p = IZR k ->
  exists l r, rd_tick (BufRd (Some b) lp mode) p = Some l /\ rd_tick2 (BufRd (Some b) lp mode) p = Some (l, r) /\ fin l /\ fin r /\
    B2R l = B2R (smp b 0 (frame lp (rb_n b) k)) /\ B2R r = B2R (smp b 1 (frame lp (rb_n b) k)).
Proof.
  intros O N J L0 L1 Fp E. pose proof (ok_n b O) as N1. destruct (rd_at lp (rb_n b) p ltac:(lia) Fp) as (q & f & S & Ff & Ef & _ & _ & _ & Q & _).
  rewrite E, pos_int in Q by lia. pose proof (frame_in lp (rb_n b) k ltac:(lia)) as FI. set (i := frame lp (rb_n b) k) in *.
  assert (Q' : q = IZR i) by (rewrite Q; apply rnd_fmt; apply (dyZ i); lia). clear Q. subst q. rewrite Zfloor_IZR in *.
  destruct (tick_form b lp mode p i f O S ltac:(lia)) as [A B].
  exists (interp mode lp b 0 i f), (interp mode lp b 1 i f). split; [exact A|]. split; [exact B|].
  destruct (interp_at0 j mode lp b 0 i f) as [C0 D0]; auto; try lia; try lra. destruct (interp_at0 j mode lp b 1 i f) as [C1 D1]; auto; try lia; try lra.
  split; [exact C0|]. split; [exact C1|]. rewrite D0, D1. unfold tapv. replace (i <? rb_n b)%Z with true by (symmetry; apply Z.ltb_lt; lia). split; reflexivity.
Qed.
(** ** Silence just below a multiple of the length *)
Lemma pred_rel (u : R) : 0 < u -> generic_format radix2 (FLT_exp (-149) 24) u -> 0 <= pred radix2 (FLT_exp (-149) 24) u <= u * (1 - bpow radix2 (-25)).
Proof.
  intros U F. assert (P0 : 0 <= pred radix2 (FLT_exp (-149) 24) u) by (apply pred_ge_0; auto; typeclasses eauto).
  split; [exact P0|]. set (v := pred radix2 (FLT_exp (-149) 24) u) in *.
  assert (V : u = v + ulp radix2 (FLT_exp (-149) 24) v).
  { rewrite <- succ_eq_pos by exact P0. unfold v. rewrite succ_pred; auto; typeclasses eauto. }
  assert (W : v * bpow radix2 (-24) <= ulp radix2 (FLT_exp (-149) 24) v).
  { destruct P0 as [P0|P0]; [|rewrite <- P0, Rmult_0_l; apply ulp_ge_0].
    rewrite ulp_neq_0 by lra. unfold cexp. pose proof (bpow_mag_gt radix2 v) as G. rewrite Rabs_pos_eq in G by lra.
    eapply Rle_trans; [apply Rmult_le_compat_r; [apply bpow_ge_0|left; exact G]|]. rewrite <- bpow_plus. apply bpow_le. unfold FLT_exp. lia. }
  rewrite V. set (s := ulp radix2 (FLT_exp (-149) 24) v) in *. clearbody s. clear V F U. clearbody v. bp. lra.
Qed.
Lemma rnd_near (u v : R) : 0 < u -> generic_format radix2 (FLT_exp (-149) 24) u -> u * (1 - bpow radix2 (-26)) < v <= u -> rnd32 v = u.
Proof.
  intros U F V. apply Rle_antisym.
  - rewrite <- (rnd_fmt (prec:=24) (emax:=128) u F). apply rnd_le, V.
  - destruct (pred_rel u U F) as [_ P]. unfold rnd32, rnd. apply round_N_ge_midp; [typeclasses eauto|exact F|].
    set (w := pred radix2 _ u) in *. change (SpecFloat.fexp 24 128) with (FLT_exp (-149) 24) in *. fold w. eapply Rle_lt_trans; [|apply V]. clearbody w. clear F. bp. lra.
Qed.
Lemma rd_silent j b mode p : rb_ok b -> (rb_n b <= 2 ^ 24)%Z -> (-100 <= j <= 96)%Z -> loud j b 0 -> loud j b 1 -> fin p -> B2R p < 0 ->
  IZR (rb_n b) * (1 - bpow radix2 (-26)) < rd_pos true (rb_n b) (B2R p) ->
  exists l r, rd_tick (BufRd (Some b) true mode) p = Some l /\ rd_tick2 (BufRd (Some b) true mode) p = Some (l, r) /\ fin l /\ fin r /\ B2R l = 0 /\ B2R r = 0.
Proof.
  intros O N J L0 L1 Fp P0 NR. pose proof (ok_n b O) as N1. destruct (rd_at true (rb_n b) p ltac:(lia) Fp) as (q & f & S & Ff & Ef & _ & _ & _ & Q & _).
  destruct (pos_bnd true (rb_n b) (B2R p) ltac:(lia)) as (PB & _ & _).
  rewrite (rnd_near (IZR (rb_n b))) in Q; [|apply (IZR_lt 0); lia|apply (dyZ (rb_n b)); lia|split; [exact NR|apply PB]]. subst q. rewrite Zfloor_IZR in *.
  destruct (tick_form b true mode p _ f O S ltac:(lia)) as [A B]. eexists _, _. split; [exact A|]. split; [exact B|].
  destruct (interp_at0 j mode true b 0 (rb_n b) f) as [C0 D0]; auto; try lia; try lra. destruct (interp_at0 j mode true b 1 (rb_n b) f) as [C1 D1]; auto; try lia; try lra.
  split; [exact C0|]. split; [exact C1|]. rewrite D0, D1. unfold tapv. rewrite Z.ltb_irrefl. split; reflexivity.
Qed.
(** ** Accuracy *)
(** Frame before [i]: the last one when clamping at frame 0. *)
Definition before (lp : bool) (n i : Z) : Z := if negb lp && (i =? 0)%Z then (n - 1)%Z else frame lp n (i - 1).
Lemma wrap_frame lp n i : (0 < n)%Z -> (0 <= i)%Z -> rd_wrap lp i n = frame lp n i.
Proof. intros. unfold rd_wrap, frame. destruct lp; [reflexivity|]. destruct (Z.ltb_spec i n); lia. Qed.
Lemma prev_before lp n i : (0 < n)%Z -> (0 <= i < n)%Z -> rd_prev lp i n = before lp n i.
Proof.
  intros. unfold rd_prev, before. destruct (Z.eqb_spec i 0) as [-> |K].
  - rewrite wrap_frame by lia. destruct lp; cbn [negb andb]; unfold frame; [|lia]. rewrite (Z.mod_small (n - 1)) by lia.
    replace (0 - 1)%Z with (n - 1 + (-1) * n)%Z by lia. rewrite Z.mod_add by lia. now rewrite Z.mod_small by lia.
  - rewrite andb_false_r. apply wrap_frame; lia.
Qed.
Lemma tap_smp b c i : (i < rb_n b)%Z -> tapv b c i = smp b c i.
Proof. intros. unfold tapv. now replace (i <? rb_n b)%Z with true by (symmetry; apply Z.ltb_lt; lia). Qed.
Lemma tap_frame b c lp i : (0 < rb_n b)%Z -> tapv b c (frame lp (rb_n b) i) = smp b c (frame lp (rb_n b) i).
Proof. intros. apply tap_smp. apply frame_in; lia. Qed.
Lemma rd_hold b lp mode p : rb_ok b -> (rb_n b <= 2 ^ 24)%Z -> mode <> 2%Z -> mode <> 4%Z -> fin p ->
  forall q, q = rnd32 (rd_pos lp (rb_n b) (B2R p)) -> q < IZR (rb_n b) ->
  rd_tick (BufRd (Some b) lp mode) p = Some (smp b 0 (Zfloor q)) /\ rd_tick2 (BufRd (Some b) lp mode) p = Some (smp b 0 (Zfloor q), smp b 1 (Zfloor q)).
Proof.
  intros O N M2 M4 Fp q Hq QN. pose proof (ok_n b O) as N1. destruct (rd_at lp (rb_n b) p ltac:(lia) Fp) as (q' & f & S & Ff & Ef & Bf & QB & _ & Q & _).
  rewrite <- Hq in Q. clear Hq. subst q'.
  assert (Z0 : (0 <= Zfloor q < rb_n b)%Z) by (split; [apply Zfloor_lub, QB|apply lt_IZR; eapply Rle_lt_trans; [apply Zfloor_lb|exact QN]]).
  destruct (tick_form b lp mode p _ f O S ltac:(lia)) as [A B]. rewrite A, B. unfold interp. apply Z.eqb_neq in M2, M4. rewrite M2, M4, !tap_smp by lia. split; reflexivity.
Qed.
Lemma rd_linear j b lp p : rb_ok b -> (rb_n b <= 2 ^ 24)%Z -> (-100 <= j <= 96)%Z -> loud j b 0 -> loud j b 1 -> fin p ->
  forall q, q = rnd32 (rd_pos lp (rb_n b) (B2R p)) -> q < IZR (rb_n b) ->
  let i := Zfloor q in let t := q - IZR i in let n := rb_n b in
  let y c := linear t (B2R (smp b c i)) (B2R (smp b c (frame lp n (i + 1)))) in
  exists l r, rd_tick (BufRd (Some b) lp 2) p = Some l /\ rd_tick2 (BufRd (Some b) lp 2) p = Some (l, r) /\ fin l /\ fin r /\
    Rabs (B2R l - y 0%Z) <= bpow radix2 (j - 22) /\ Rabs (B2R r - y 1%Z) <= bpow radix2 (j - 22) /\
    Rabs (B2R l) <= bpow radix2 j /\ Rabs (B2R r) <= bpow radix2 j.
Proof.
  intros O N J L0 L1 Fp q Hq QN i t n y. pose proof (ok_n b O) as N1. destruct (rd_at lp (rb_n b) p ltac:(lia) Fp) as (q' & f & S & Ff & Ef & Bf & QB & _ & Q & _).
  rewrite <- Hq in Q. clear Hq. subst q'. fold i t in Ef. fold i in S.
  assert (Z0 : (0 <= i < rb_n b)%Z) by (split; [apply Zfloor_lub, QB|apply lt_IZR; eapply Rle_lt_trans; [apply Zfloor_lb|exact QN]]).
  destruct (tick_form b lp 2 p i f O S ltac:(lia)) as [A B]. eexists _, _. split; [exact A|]. split; [exact B|].
  unfold interp. cbn [Z.eqb Pos.eqb]. rewrite wrap_frame, !tap_frame, !tap_smp by lia. fold n.
  pose proof (frame_in lp n (i + 1) ltac:(lia)) as FI.
  destruct (lerp_acc j (smp b 0 i) (smp b 0 (frame lp n (i + 1))) f J) as [C0 D0]; auto; [apply L0; lia..|lra|].
  destruct (lerp_acc j (smp b 1 i) (smp b 1 (frame lp n (i + 1))) f J) as [C1 D1]; auto; [apply L1; lia..|lra|].
  rewrite Ef in D0, D1. split; [exact C0|]. split; [exact C1|]. split; [exact D0|]. split; [exact D1|].
  destruct (L0 i ltac:(lia)) as [X0 Y0]. destruct (L0 (frame lp n (i + 1)) ltac:(lia)) as [X1 Y1]. destruct (L1 i ltac:(lia)) as [X2 Y2]. destruct (L1 (frame lp n (i + 1)) ltac:(lia)) as [X3 Y3].
  split; (eapply lerp_bound; [lia|assumption..|lra|assumption|assumption]).
Qed.
Lemma rd_spline j b lp p : rb_ok b -> (rb_n b <= 2 ^ 24)%Z -> (-100 <= j <= 96)%Z -> loud j b 0 -> loud j b 1 -> fin p ->
  forall q, q = rnd32 (rd_pos lp (rb_n b) (B2R p)) -> q < IZR (rb_n b) ->
  let i := Zfloor q in let t := q - IZR i in let n := rb_n b in
  let y c := spline t (B2R (smp b c (before lp n i))) (B2R (smp b c i)) (B2R (smp b c (frame lp n (i + 1)))) (B2R (smp b c (frame lp n (i + 2)))) in
  exists l r, rd_tick (BufRd (Some b) lp 4) p = Some l /\ rd_tick2 (BufRd (Some b) lp 4) p = Some (l, r) /\ fin l /\ fin r /\
    Rabs (B2R l - y 0%Z) <= bpow radix2 (j - 17) /\ Rabs (B2R r - y 1%Z) <= bpow radix2 (j - 17).
Proof.
  intros O N J L0 L1 Fp q Hq QN i t n y. pose proof (ok_n b O) as N1. destruct (rd_at lp (rb_n b) p ltac:(lia) Fp) as (q' & f & S & Ff & Ef & Bf & QB & _ & Q & _).
  rewrite <- Hq in Q. clear Hq. subst q'. fold i t in Ef. fold i in S.
  assert (Z0 : (0 <= i < rb_n b)%Z) by (split; [apply Zfloor_lub, QB|apply lt_IZR; eapply Rle_lt_trans; [apply Zfloor_lb|exact QN]]).
  destruct (tick_form b lp 4 p i f O S ltac:(lia)) as [A B]. eexists _, _. split; [exact A|]. split; [exact B|].
  unfold interp. cbn [Z.eqb Pos.eqb]. assert (PN : (0 <= before lp n i < n)%Z).
  { rewrite <- prev_before by lia. apply prev_nn; lia. }
  rewrite !wrap_frame, prev_before, !tap_frame, !(tap_smp b _ i), !(tap_smp b _ (before _ _ _)) by (unfold n in *; lia). fold n.
  pose proof (frame_in lp n (i + 1) ltac:(lia)) as F1. pose proof (frame_in lp n (i + 2) ltac:(lia)) as F2.
  destruct (cubic_acc j (smp b 0 (before lp n i)) (smp b 0 i) (smp b 0 (frame lp n (i + 1))) (smp b 0 (frame lp n (i + 2))) f J) as [C0 D0]; auto; [apply L0; unfold n in *; lia..|lra|].
  destruct (cubic_acc j (smp b 1 (before lp n i)) (smp b 1 i) (smp b 1 (frame lp n (i + 1))) (smp b 1 (frame lp n (i + 2))) f J) as [C1 D1]; auto; [apply L1; unfold n in *; lia..|lra|].
  rewrite Ef in D0, D1. repeat (split; [assumption|]). exact D1.
Qed.
(** ** Linear reads of buffers of any length stay within the samples *)
Lemma big_int (x : f32) : bpow radix2 24 <= B2R x -> B2R x = IZR (Zfloor (B2R x)).
Proof.
  intros H. pose proof (fmt_B2R x) as G. apply FLT_format_generic in G; [|reflexivity]. destruct G as [[m e] E M _]. cbn [Defs.Fnum Defs.Fexp] in *.
  assert (e >= 0)%Z.
  { destruct (Z_lt_le_dec e 0) as [N|N]; [exfalso|lia]. rewrite E in H. unfold F2R in H. cbn [Defs.Fnum Defs.Fexp] in H.
    assert (A : IZR m < bpow radix2 24) by (change (bpow radix2 24) with (IZR (2 ^ 24)); apply IZR_lt; cbn in M; lia).
    assert (B : 0 < bpow radix2 e <= 1) by (split; [apply bpow_gt_0|apply (bpow_le radix2 e 0); lia]).
    pose proof (bpow_gt_0 radix2 24). nra. }
  rewrite E. unfold F2R. cbn [Defs.Fnum Defs.Fexp]. rewrite <- (IZR_Zpower radix2) by lia. rewrite <- mult_IZR, Zfloor_IZR. reflexivity.
Qed.
Lemma split_frac a : fin a -> 0 <= B2R a <= bpow radix2 62 -> exists i f, rd_split a = Some (i, f) /\ (0 <= i <= 2 ^ 62)%Z /\ fin f /\ 0 <= B2R f < 1.
Proof.
  intros F B. destruct (split_ok a F B) as (f & S & Z). destruct (Rle_lt_dec (B2R a) (IZR (2 ^ 24))) as [L|L].
  - destruct (split_exact a F ltac:(lra)) as (g & S' & Fg & _ & Bg). exists (Zfloor (B2R a)), g. auto.
  - exists (Zfloor (B2R a)), f. split; [exact S|]. split; [exact Z|]. unfold rd_split in S. destruct (to_size a) as [i|]; [|discriminate S]. cbn [bind] in S. injection S as -> <-.
    assert (I : B2R a = IZR (Zfloor (B2R a))) by (apply big_int; left; exact L).
    assert (R : fin (fofZ (Zfloor (B2R a)) : f32) /\ B2R (fofZ (Zfloor (B2R a)) : f32) = B2R a).
    { unfold fofZ. destruct (flit_R (prec:=24) (emax:=128) (Zfloor (B2R a)) 0) as [X Y]; change (bpow radix2 0) with 1 in *; rewrite Rmult_1_r in *; rewrite <- I in *.
      - rewrite rnd_B2R. apply B2R_lt_emax.
      - split; [exact X|]. rewrite Y. apply rnd_B2R. }
    destruct R as [Fi Ei]. assert (E0 : B2R a - B2R (fofZ (Zfloor (B2R a)) : f32) = 0) by lra.
    destruct (fsub_exact a (fofZ (Zfloor (B2R a))) F Fi) as [P Q]; [rewrite E0; apply dy0|]. split; [exact P|]. rewrite Q, E0. lra.
Qed.
Lemma rd_bounded k b lp mode p : rb_ok b -> (-125 <= k <= 126)%Z -> loud k b 0 -> loud k b 1 -> mode <> 4%Z -> fin p \/ (lp = false /\ is_nan p = false) ->
  exists l r, rd_tick (BufRd (Some b) lp mode) p = Some l /\ rd_tick2 (BufRd (Some b) lp mode) p = Some (l, r) /\ bnd k l /\ bnd k r.
Proof.
  intros O K L0 L1 M P. destruct (phase_ok lp (rb_n b) p (ok_n b O) P) as [F B]. destruct (split_frac _ F B) as (i & f & S & I & Ff & Bf).
  destruct (tick_form b lp mode p i f O S I) as [A0 A1]. eexists _, _. split; [exact A0|]. split; [exact A1|]. pose proof (ok_n b O).
  assert (T : forall c, loud k b c -> bnd k (interp mode lp b c i f)).
  { intros c L. pose proof (tap_loud k b c i L ltac:(lia)) as [X0 Y0]. destruct (tap_loud k b c (rd_wrap lp (i + 1) (rb_n b)) L) as [X1 Y1]; [apply wrap_nn; lia|].
    unfold interp. apply Z.eqb_neq in M. rewrite M. destruct (mode =? 2)%Z; [|split; assumption]. apply lerp_bound; auto; lra. }
  split; now apply T.
Qed.
