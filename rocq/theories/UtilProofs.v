From Coq Require Import ZArith Reals Lra Lia Bool Psatz.
From Flocq Require Import Core BinarySingleNaN.
From Verif Require Import Flt FltFacts FltMore FltKey FltArith UtilModel.
Local Open Scope R_scope.

Notation dy32 := (dy (prec:=24) (emax:=128)).
Notation rnd32 := (@rnd 24 128).

(** Turn a closed float into a rational the real solvers understand. *)
Ltac fval x := let H := fresh "V" in pose proof (fq_R x) as H;
  let p := eval vm_compute in (fq x) in change (fq x) with p in H; cbn [fst snd] in H.
(** Replace closed powers of two by rationals. *)
Ltac bp := repeat match goal with
  | |- context [bpow radix2 (Zneg ?k)] => let z := eval vm_compute in (2 ^ Zpos k)%Z in change (bpow radix2 (Zneg k)) with (/ IZR z)
  | |- context [bpow radix2 (Zpos ?k)] => let z := eval vm_compute in (2 ^ Zpos k)%Z in change (bpow radix2 (Zpos k)) with (IZR z)
  | |- context [bpow radix2 Z0] => change (bpow radix2 Z0) with 1
  | H : context [bpow radix2 (Zneg ?k)] |- _ => let z := eval vm_compute in (2 ^ Zpos k)%Z in change (bpow radix2 (Zneg k)) with (/ IZR z) in H
  | H : context [bpow radix2 (Zpos ?k)] |- _ => let z := eval vm_compute in (2 ^ Zpos k)%Z in change (bpow radix2 (Zpos k)) with (IZR z) in H
  end.
Ltac ffin := vm_compute; reflexivity.

Lemma one_fin : fin one. Proof. ffin. Qed.
Lemma one_R : B2R one = 1. Proof. fval one. lra. Qed.
Lemma zero_R : B2R zero = 0. Proof. reflexivity. Qed.
Lemma half_R : B2R half = / 2. Proof. fval half. lra. Qed.
Lemma two_R : B2R two = 2. Proof. fval two. lra. Qed.
Lemma dy1 : dy32 1. Proof. rewrite <- one_R. apply dy_B2R. Qed.
Lemma dyn1 : dy32 (-1). Proof. replace (-1) with (- 1) by lra. apply dy_opp, dy1. Qed.
Lemma dy0 : dy32 0. Proof. apply dy_0. Qed.
Lemma dyZ n : (Z.abs n <= 2 ^ 24)%Z -> dy32 (IZR n).
Proof. intros; apply dy_IZR; assumption. Qed.

(** ** clamp *)
Lemma clamp_spec (v lo hi : f32) : is_nan v = false -> is_nan lo = false -> is_nan hi = false ->
  fle lo hi = true ->
  fle lo (clamp v lo hi) = true /\ fle (clamp v lo hi) hi = true /\
  (fle lo v = true -> fle v hi = true -> clamp v lo hi = v) /\
  (flt v lo = true -> clamp v lo hi = lo) /\ (flt hi v = true -> clamp v lo hi = hi).
Proof.
  intros Nv Nl Nh L. apply (fle_true lo hi Nl Nh) in L. unfold clamp.
  rewrite !flt_key by assumption.
  destruct (Rlt_bool_spec (key v) (key lo)) as [A|A].
  - rewrite !fle_key by assumption.
    repeat split; try (apply Rle_bool_true; lra); intros; try reflexivity; exfalso.
    + destruct (Rle_bool_spec (key lo) (key v)); [lra|discriminate].
    + destruct (Rlt_bool_spec (key hi) (key v)); [lra|discriminate].
  - destruct (Rlt_bool_spec (key hi) (key v)) as [B|B].
    + rewrite !fle_key by assumption.
      repeat split; try (apply Rle_bool_true; lra); intros; try reflexivity; exfalso.
      * destruct (Rle_bool_spec (key v) (key hi)); [lra|discriminate].
      * discriminate.
    + rewrite !fle_key by assumption.
      repeat split; try (apply Rle_bool_true; lra); intros; try reflexivity; discriminate.
Qed.

Lemma clamp_nan (v lo hi : f32) : is_nan v = true -> is_nan (clamp v lo hi) = true.
Proof. destruct v; try discriminate. intros _. unfold clamp, flt. cbn. destruct hi as [[]|[]| |[]]; reflexivity. Qed.

(** Finite version used by the other files. *)
Lemma clamp_fin (v lo hi : f32) : is_nan v = false -> fin lo -> fin hi -> B2R lo <= B2R hi ->
  fin (clamp v lo hi) /\ B2R lo <= B2R (clamp v lo hi) <= B2R hi.
Proof.
  intros Nv Fl Fh L.
  destruct (clamp_spec v lo hi Nv (fin_nan _ Fl) (fin_nan _ Fh)) as (A & B & _).
  { apply fle_R; assumption. }
  destruct (fle_nan _ _ A) as [_ N]. apply fle_true in A; [|now apply fin_nan|exact N].
  apply fle_true in B; [|exact N|now apply fin_nan].
  rewrite (key_fin lo Fl) in A. rewrite (key_fin hi Fh) in B.
  assert (F0 : fin (clamp v lo hi)).
  { apply fin_key_lt; [exact N|]. pose proof (B2R_lt_emax lo) as X. pose proof (B2R_lt_emax hi) as Y.
    apply Rabs_def2 in X. apply Rabs_def2 in Y. apply Rabs_def1; lra. }
  rewrite (key_fin _ F0) in A, B. auto.
Qed.

(** ** lerp *)
Lemma lerp_bound k (a b t : f32) : (-125 <= k <= 126)%Z -> fin a -> fin b -> fin t ->
  0 <= B2R t <= 1 -> Rabs (B2R a) <= bpow radix2 k -> Rabs (B2R b) <= bpow radix2 k ->
  fin (lerp a b t) /\ Rabs (B2R (lerp a b t)) <= bpow radix2 k.
Proof. intros Hk Fa Fb Ft Ht Ha Hb. apply lerp_abs; auto; cbn; lia. Qed.

Lemma lerp_0 (a b : f32) : fin a -> fin (fsub b a) -> feq (lerp a b zero) a = true.
Proof.
  intros Fa Fd. unfold lerp.
  destruct (fmul_exact zero (fsub b a)) as [Fp Ep]; [reflexivity|exact Fd|rewrite zero_R, Rmult_0_l; apply dy0|].
  rewrite zero_R, Rmult_0_l in Ep.
  destruct (fadd_exact a (fmul zero (fsub b a))) as [F E]; [exact Fa|exact Fp|rewrite Ep, Rplus_0_r; apply dy_B2R|].
  apply feq_R; [exact F|exact Fa|]. rewrite E, Ep. ring.
Qed.

(** Monotone in t when b >= a. *)
Lemma lerp_mono (a b t u : f32) : fin a -> fin (fsub b a) -> 0 < B2R (fsub b a) -> fle t u = true ->
  fle (lerp a b t) (lerp a b u) = true.
Proof. intros Fa Fd Pd H. unfold lerp. apply fadd_mono_r; [exact Fa|]. now apply fmul_mono_l. Qed.

(** ** LinLin *)
Lemma feq0_false (d : f32) : fin d -> 0 < B2R d -> feq d zero = false.
Proof.
  intros F P. destruct (feq d zero) eqn:E; [|reflexivity].
  apply feq_R in E; [|exact F|reflexivity]. rewrite zero_R in E. lra.
Qed.

Lemma linlin_mono (sl sh dl dh x y : f32) :
  fin sl -> fin dl -> fin (fsub sh sl) -> 0 < B2R (fsub sh sl) -> fin (fsub dh dl) -> 0 < B2R (fsub dh dl) ->
  fle x y = true -> fle (LinLin x sl sh dl dh) (LinLin y sl sh dl dh) = true.
Proof.
  intros Fs Fd F1 P1 F2 P2 H. unfold LinLin. rewrite feq0_false by assumption.
  apply fadd_mono_r; [exact Fd|]. apply fmul_mono_l; [assumption..|].
  apply fdiv_mono_l; [assumption..|]. now apply fsub_mono_l.
Qed.

Lemma sub_self (x : f32) : fin x -> fin (fsub x x) /\ B2R (fsub x x) = 0.
Proof.
  intros F. destruct (fsub_exact x x F F) as [A B]; [rewrite Rminus_diag_eq by reflexivity; apply dy0|].
  split; [exact A|]. rewrite B. ring.
Qed.

Lemma linlin_low (sl sh dl dh : f32) :
  fin sl -> fin dl -> fin (fsub sh sl) -> 0 < B2R (fsub sh sl) -> fin (fsub dh dl) ->
  feq (LinLin sl sl sh dl dh) dl = true.
Proof.
  intros Fs Fd F1 P1 F2. unfold LinLin. rewrite feq0_false by assumption.
  destruct (sub_self sl Fs) as [F0 E0].
  destruct (fdiv_exact (fsub sl sl) (fsub sh sl)) as [Fn En]; [assumption..|lra|rewrite E0; unfold Rdiv; rewrite Rmult_0_l; apply dy0|].
  rewrite E0 in En. unfold Rdiv in En. rewrite Rmult_0_l in En.
  destruct (fmul_exact (fdiv (fsub sl sl) (fsub sh sl)) (fsub dh dl)) as [Fm Em]; [assumption..|rewrite En, Rmult_0_l; apply dy0|].
  rewrite En, Rmult_0_l in Em.
  destruct (fadd_exact dl (fmul (fdiv (fsub sl sl) (fsub sh sl)) (fsub dh dl))) as [F E]; [assumption..|rewrite Em, Rplus_0_r; apply dy_B2R|].
  apply feq_R; [exact F|exact Fd|]. rewrite E, Em. ring.
Qed.

(** Normalised position of an in-range input is in [0,1]. *)
Lemma linlin_norm (sl sh x : f32) : fin sl -> fin sh -> fin x -> fin (fsub sh sl) -> 0 < B2R (fsub sh sl) ->
  B2R sl <= B2R x <= B2R sh ->
  fin (fdiv (fsub x sl) (fsub sh sl)) /\ 0 <= B2R (fdiv (fsub x sl) (fsub sh sl)) <= 1.
Proof.
  intros Fs Fh Fx F1 P1 Hx.
  destruct (fsub_key x sl Fx Fs) as [N1 K1]. destruct (fsub_key sh sl Fh Fs) as [N2 K2].
  rewrite (key_fin _ F1) in K2.
  assert (L1 : key (fsub x sl) <= B2R (fsub sh sl)).
  { rewrite K1, K2. apply sat_le, rnd_le. lra. }
  assert (L0 : 0 <= key (fsub x sl)).
  { rewrite K1. replace 0 with (@sat 128 (rnd32 0)); [apply sat_le, rnd_le; lra|].
    rewrite rnd_0. apply sat_in. rewrite Rabs_R0. apply bpow_gt_0. }
  assert (F2 : fin (fsub x sl)).
  { apply fin_key_lt; [exact N1|]. pose proof (B2R_lt_emax (fsub sh sl)) as X. apply Rabs_def2 in X. apply Rabs_def1; lra. }
  rewrite (key_fin _ F2) in L1, L0.
  destruct (fdiv_b 0 1 (fsub x sl) (fsub sh sl) dy0 dy1 F2 F1) as (A & _ & B); [lra| |auto].
  split.
  - apply Rmult_le_pos; [lra|]. left. now apply Rinv_0_lt_compat.
  - apply Rmult_le_reg_r with (B2R (fsub sh sl)); [lra|]. unfold Rdiv. rewrite Rmult_assoc, Rinv_l by lra. lra.
Qed.

Lemma linlin_bound k (sl sh dl dh x : f32) : (-125 <= k <= 126)%Z ->
  fin sl -> fin sh -> fin x -> fin (fsub sh sl) -> 0 < B2R (fsub sh sl) ->
  B2R sl <= B2R x <= B2R sh -> fin dl -> fin dh ->
  Rabs (B2R dl) <= bpow radix2 k -> Rabs (B2R dh) <= bpow radix2 k ->
  fin (LinLin x sl sh dl dh) /\ Rabs (B2R (LinLin x sl sh dl dh)) <= bpow radix2 k.
Proof.
  intros Hk Fs Fh Fx F1 P1 Hx Fd Fe Bd Be. unfold LinLin. rewrite feq0_false by assumption.
  destruct (linlin_norm sl sh x) as [A B]; [assumption..|].
  apply lerp_abs; auto; cbn; lia.
Qed.

(** ** Wrap *)
Lemma wrap_cached (x lo hi : f32) : wrap_tick (wrap_setRange lo hi) x = wrap_direct x lo hi.
Proof.
  unfold wrap_tick, wrap_setRange, wrap_direct. cbn [cachedLow cachedRange].
  destruct (fle (fsub hi lo) zero) eqn:E; [|now rewrite E]. reflexivity.
Qed.

Lemma wrap_degenerate (x lo hi : f32) : fle (fsub hi lo) zero = true -> wrap_direct x lo hi = lo.
Proof. intros E. unfold wrap_direct. now rewrite E. Qed.

Lemma wrap_unit (x : f32) : fin x ->
  fin (wrap_direct x zero one) /\ 0 <= B2R (wrap_direct x zero one) <= 1 /\
  (B2R (wrap_direct x zero one) = 1 -> - bpow radix2 (-25) <= B2R x < 0) /\
  B2R (wrap_direct x zero one) = rnd32 (B2R x - IZR (Zfloor (B2R x))).
Proof.
  intros Fx. unfold wrap_direct, wrapValue.
  assert (Er : fsub one zero = one) by (vm_compute; reflexivity). rewrite Er.
  replace (fle one zero) with false by (vm_compute; reflexivity).
  destruct (fsub_exact x zero Fx eq_refl) as [F1 E1]; [rewrite zero_R, Rminus_0_r; apply dy_B2R|].
  rewrite zero_R, Rminus_0_r in E1.
  destruct (fdiv_exact (fsub x zero) one F1 one_fin) as [F2 E2]; [rewrite one_R; lra|rewrite E1, one_R; unfold Rdiv; rewrite Rinv_1, Rmult_1_r; apply dy_B2R|].
  rewrite E1, one_R in E2. unfold Rdiv in E2. rewrite Rinv_1, Rmult_1_r in E2.
  destruct (ffloor_R _ F2) as [F3 E3]. rewrite E2 in E3.
  destruct (fmul_exact one (ffloor (fdiv (fsub x zero) one)) one_fin F3) as [F4 E4]; [rewrite one_R, Rmult_1_l; apply dy_B2R|].
  rewrite one_R, Rmult_1_l, E3 in E4.
  set (p := fmul one (ffloor (fdiv (fsub x zero) one))) in *.
  pose proof (Zfloor_lb (B2R x)) as H1. pose proof (Zfloor_ub (B2R x)) as H2.
  destruct (fsub_b 0 1 x p dy0 dy1 Fx F4) as (A & B & C); [lra|].
  split; [exact A|]. split; [exact C|]. split; [|rewrite B, E4; reflexivity].
  intros E. rewrite B, E4 in E.
  assert (Hneg : B2R x < 0).
  { destruct (Rlt_le_dec (B2R x) 0) as [L|L]; [exact L|exfalso].
    (* the fractional part of a non-negative float is a float below one *)
    assert (G : generic_format radix2 (SpecFloat.fexp 24 128) (B2R x - IZR (Zfloor (B2R x)))).
    { assert (X : B2R x - IZR (Zfloor (B2R x)) = B2R (ffmod x one)).
      { destruct (ffmod_R x one Fx one_fin) as [_ Y]; [rewrite one_R; lra|].
        rewrite Y, one_R. unfold Rdiv. rewrite Rinv_1, Rmult_1_r, Rmult_1_l, Ztrunc_floor by exact L. reflexivity. }
      rewrite X. apply fmt_B2R. }
    rewrite (rnd_fmt _ G) in E. lra. }
  split; [|exact Hneg].
  destruct (Rle_lt_dec (- bpow radix2 (-25)) (B2R x)) as [L|L]; [exact L|exfalso].
  assert (Hlt : rnd32 (B2R x - IZR (Zfloor (B2R x))) <= 1 - bpow radix2 (-24)).
  { set (fr := B2R x - IZR (Zfloor (B2R x))) in *.
    assert (Hfr : fr < 1 - bpow radix2 (-25)).
    { destruct (Rle_lt_dec (-1) (B2R x)) as [M|M].
      - assert (Z1 : Zfloor (B2R x) = (-1)%Z).
        { apply Zfloor_imp. change (-1 + 1)%Z with 0%Z. bp. lra. }
        unfold fr. rewrite Z1. lra.
      - (* x < -1: x is a multiple of 2^-23, so is the fractional part *)
        assert (Gx : exists n : Z, B2R x = IZR n * bpow radix2 (-23)).
        { pose proof (fmt_B2R x) as G. apply FLT_format_generic in G; [|reflexivity].
          destruct (Rle_lt_dec 0 (B2R x)); [lra|].
          pose proof (fmt_B2R x) as G2. unfold generic_format in G2.
          set (e := cexp radix2 (SpecFloat.fexp 24 128) (B2R x)) in *.
          assert (He : (-23 <= e)%Z).
          { unfold e, cexp. assert (0 < mag radix2 (B2R x))%Z.
            { apply mag_gt_bpow. simpl. rewrite Rabs_left by lra. lra. }
            unfold SpecFloat.fexp. lia. }
          exists (Ztrunc (scaled_mantissa radix2 (SpecFloat.fexp 24 128) (B2R x)) * 2 ^ (e + 23))%Z.
          rewrite G2 at 1. unfold F2R. cbn [Defs.Fnum Defs.Fexp]. rewrite mult_IZR.
          change 2%Z with (radix2 : Z) at 1. rewrite IZR_Zpower by lia.
          rewrite Rmult_assoc, <- bpow_plus. fold e. f_equal. f_equal. lia. }
        destruct Gx as [n Hn].
        assert (Hf : fr = IZR (n - Zfloor (B2R x) * 2 ^ 23) * bpow radix2 (-23)).
        { unfold fr. rewrite minus_IZR, mult_IZR. rewrite Rmult_minus_distr_r, <- Hn. f_equal.
          change (2 ^ 23)%Z with (radix2 ^ 23)%Z. rewrite IZR_Zpower by lia.
          rewrite Rmult_assoc, <- bpow_plus. change (bpow radix2 (23 + -23)) with 1. ring. }
        assert (Hz : (n - Zfloor (B2R x) * 2 ^ 23 < 2 ^ 23)%Z).
        { apply lt_IZR. apply Rmult_lt_reg_r with (bpow radix2 (-23)); [apply bpow_gt_0|].
          rewrite <- Hf. change (2 ^ 23)%Z with (radix2 ^ 23)%Z. rewrite IZR_Zpower by lia.
          rewrite <- bpow_plus. change (bpow radix2 (23 + -23)) with 1. unfold fr. lra. }
        assert (Hz' : (n - Zfloor (B2R x) * 2 ^ 23 <= 2 ^ 23 - 1)%Z) by lia.
        apply IZR_le in Hz'. rewrite Hf.
        apply Rle_lt_trans with (IZR (2 ^ 23 - 1) * bpow radix2 (-23)).
        { apply Rmult_le_compat_r; [apply bpow_ge_0|exact Hz']. }
        change (2 ^ 23 - 1)%Z with 8388607%Z. bp. lra. }
    (* midpoint argument *)
    assert (Gp : generic_format radix2 (SpecFloat.fexp 24 128) (1 - bpow radix2 (-24))).
    { replace (1 - bpow radix2 (-24)) with (IZR (2 ^ 24 - 1) * bpow radix2 (-24)) by (change (2 ^ 24 - 1)%Z with 16777215%Z; bp; lra).
      apply dy_F2R; cbn; lia. }
    apply round_N_le_midp; [apply fexp_correct; reflexivity|exact Gp|].
    assert (S1 : succ radix2 (SpecFloat.fexp 24 128) (1 - bpow radix2 (-24)) = 1).
    { replace (1 - bpow radix2 (-24)) with (pred radix2 (SpecFloat.fexp 24 128) (bpow radix2 0)).
      - apply succ_pred; [apply fexp_correct; reflexivity|apply (fmt_bpow (prec:=24) (emax:=128) 0); cbn; lia].
      - rewrite pred_bpow. reflexivity. }
    rewrite S1. apply Rlt_le_trans with (1 - bpow radix2 (-25)); [exact Hfr|]. bp. lra. }
  rewrite E in Hlt. pose proof (bpow_gt_0 radix2 (-24)). lra.
Qed.

(** Integer-valued wrap is the mathematical modulus. *)
Lemma floor_rnd_quot (a b : Z) : (0 < b <= 2 ^ 23)%Z -> (Z.abs a <= 2 ^ 23)%Z ->
  Zfloor (rnd32 (IZR a / IZR b)) = (a / b)%Z.
Proof.
  intros Hb Ha. assert (Hb' : 0 < IZR b) by (apply IZR_lt; lia).
  assert (Hq : Zfloor (IZR a / IZR b) = (a / b)%Z) by (apply Zfloor_div; lia).
  set (q := IZR a / IZR b) in *. set (k := (a / b)%Z) in *.
  assert (Hk : (Z.abs k <= 2 ^ 23)%Z).
  { unfold k. destruct (Z.le_gt_cases 0 a).
    - assert (0 <= a / b)%Z by (apply Z.div_pos; lia). assert (a / b <= a)%Z by (apply Z.div_le_upper_bound; nia). lia.
    - assert (a / b < 0)%Z by (apply Z.div_lt_upper_bound; lia). assert (a <= a / b)%Z by (apply Z.div_le_lower_bound; nia). lia. }
  assert (Lo : IZR k <= rnd32 q).
  { rewrite <- (rnd_fmt (prec:=24) (emax:=128) (IZR k)) by (apply fmt_IZR; lia). apply rnd_le. rewrite <- Hq. apply Zfloor_lb. }
  apply Zfloor_imp. split; [exact Lo|]. rewrite plus_IZR.
  (* distance of q to the next integer is at least 1/b *)
  assert (D : q + / IZR b <= IZR k + 1).
  { assert (a < (k + 1) * b)%Z.
    { unfold k. pose proof (Z.mul_succ_div_gt a b). lia. }
    assert (IZR a + 1 <= (IZR k + 1) * IZR b).
    { replace (IZR k + 1) with (IZR (k + 1)) by (rewrite plus_IZR; reflexivity).
      rewrite <- mult_IZR. rewrite <- plus_IZR. apply IZR_le. lia. }
    apply Rmult_le_reg_r with (IZR b); [exact Hb'|]. unfold q, Rdiv.
    rewrite Rmult_plus_distr_r, Rmult_assoc, Rinv_l, Rmult_1_r by lra. lra. }
  pose proof (rnd_rel (prec:=24) (emax:=128) q) as E. apply Rabs_le_inv in E.
  assert (Eq : Rabs q = IZR (Z.abs a) * / IZR b).
  { unfold q, Rdiv. rewrite Rabs_mult, <- abs_IZR, (Rabs_pos_eq (/ IZR b)); [reflexivity|]. left. now apply Rinv_0_lt_compat. }
  rewrite Eq in E.
  assert (Hab : IZR (Z.abs a) <= 8388608) by (apply IZR_le; lia).
  assert (Hbb : IZR b <= 8388608) by (apply IZR_le; lia).
  assert (Hib : / 8388608 <= / IZR b) by (apply Rinv_le; lra).
  assert (bpow radix2 (- (24)) = / 16777216) by reflexivity.
  assert (bpow radix2 (SpecFloat.emin 24 128 - 1) < / 33554432).
  { apply Rlt_le_trans with (bpow radix2 (-25)); [apply bpow_lt; cbn; lia|]. bp. lra. }
  nra.
Qed.

Lemma wrap_int (x lo hi : Z) : (Z.abs x <= 2 ^ 22)%Z -> (Z.abs lo <= 2 ^ 22)%Z -> (Z.abs hi <= 2 ^ 22)%Z -> (lo < hi)%Z ->
  B2R (wrap_direct (fofZ x) (fofZ lo) (fofZ hi)) = IZR (lo + (x - lo) mod (hi - lo)) /\
  fin (wrap_direct (fofZ x) (fofZ lo) (fofZ hi)).
Proof.
  intros Hx Hl Hh L. unfold wrap_direct, wrapValue.
  destruct (fofZ_R (prec:=24) (emax:=128) x) as [Fx Ex]; [lia|].
  destruct (fofZ_R (prec:=24) (emax:=128) lo) as [Fl El]; [lia|].
  destruct (fofZ_R (prec:=24) (emax:=128) hi) as [Fh Eh]; [lia|].
  destruct (fsub_exact (fofZ hi) (fofZ lo) Fh Fl) as [Fr Er]; [rewrite Eh, El, <- minus_IZR; apply dyZ; lia|].
  rewrite Eh, El, <- minus_IZR in Er.
  set (range := fsub (fofZ hi) (fofZ lo)) in *. set (b := (hi - lo)%Z) in *.
  assert (Hb : 0 < IZR b) by (apply IZR_lt; lia).
  assert (Ef : fle range zero = false) by (apply fle_R_false; [exact Fr|reflexivity|rewrite Er, zero_R; exact Hb]).
  rewrite Ef.
  destruct (fsub_exact (fofZ x) (fofZ lo) Fx Fl) as [Fd Ed]; [rewrite Ex, El, <- minus_IZR; apply dyZ; lia|].
  rewrite Ex, El, <- minus_IZR in Ed. set (a := (x - lo)%Z) in *.
  set (d := fsub (fofZ x) (fofZ lo)) in *.
  assert (Hq : - 8388608 <= IZR a / IZR b <= 8388608).
  { assert (1 <= IZR b) by (apply IZR_le; lia). assert (- 8388608 <= IZR a <= 8388608) by (split; apply IZR_le; lia).
    split; apply Rmult_le_reg_r with (IZR b); try lra; unfold Rdiv; rewrite Rmult_assoc, Rinv_l, Rmult_1_r by lra; nra. }
  destruct (fdiv_b (- 8388608) 8388608 d range) as (Fn & En & _);
    [apply (dyZ (-8388608)); lia|apply (dyZ 8388608); lia|assumption..|lra|rewrite Ed, Er; exact Hq|].
  rewrite Ed, Er in En.
  destruct (ffloor_R _ Fn) as [Ff Eff]. rewrite En in Eff.
  rewrite (floor_rnd_quot a b) in Eff by lia.
  pose proof (Z.mod_pos_bound a b ltac:(lia)) as Hmod. pose proof (Z.div_mod a b ltac:(lia)) as Hdm.
  destruct (fmul_exact range (ffloor (fdiv d range)) Fr Ff) as [Fm Em]; [rewrite Er, Eff, <- mult_IZR; apply dyZ; lia|].
  rewrite Er, Eff, <- mult_IZR in Em.
  destruct (fsub_exact (fofZ x) (fmul range (ffloor (fdiv d range))) Fx Fm) as [F E]; [rewrite Ex, Em, <- minus_IZR; apply dyZ; lia|].
  split; [|exact F]. rewrite E, Ex, Em, <- minus_IZR. f_equal. lia.
Qed.

(** Error bound for arbitrary bounds. *)
Lemma wrap_error (x lo hi : f32) : fin x -> fin lo -> fin hi -> fin (fsub hi lo) ->
  Rabs (B2R x) <= bpow radix2 60 -> Rabs (B2R lo) <= bpow radix2 60 ->
  bpow radix2 (-60) <= B2R (fsub hi lo) <= bpow radix2 60 ->
  fin (wrap_direct x lo hi) /\
  exists k : Z,
    Rabs (B2R (wrap_direct x lo hi) - (B2R x - IZR k * B2R (fsub hi lo)))
      <= bpow radix2 (-20) * (Rabs (B2R x) + Rabs (B2R lo) + B2R (fsub hi lo)) /\
    B2R lo - bpow radix2 (-20) * (Rabs (B2R x) + Rabs (B2R lo) + B2R (fsub hi lo))
      <= B2R (wrap_direct x lo hi) <=
    B2R lo + B2R (fsub hi lo) + bpow radix2 (-20) * (Rabs (B2R x) + Rabs (B2R lo) + B2R (fsub hi lo)).
Proof.
  intros Fx Fl Fh Fr Bx Bl Br. unfold wrap_direct, wrapValue.
  set (range := fsub hi lo) in *. set (r := B2R range) in *. set (X := B2R x) in *. set (L := B2R lo) in *.
  assert (Hr : 0 < r) by (pose proof (bpow_gt_0 radix2 (-60)); lra).
  assert (Ef : fle range zero = false) by (apply fle_R_false; [exact Fr|reflexivity|rewrite zero_R; exact Hr]).
  rewrite Ef.
  assert (D61 : dy32 (bpow radix2 61)) by (apply dy_bpow; cbn; lia).
  assert (E61 : bpow radix2 61 = 2 * bpow radix2 60) by (replace 61%Z with (1 + 60)%Z by lia; rewrite bpow_plus; reflexivity).
  pose proof (Rabs_le_inv _ _ Bx) as Bx'. pose proof (Rabs_le_inv _ _ Bl) as Bl'.
  destruct (fsub_b (- bpow radix2 61) (bpow radix2 61) x lo (dy_opp _ D61) D61 Fx Fl) as (Fd & Ed & Bd); [fold X L; lra|].
  fold X L in Ed. set (d := fsub x lo) in *. set (D := B2R d) in *.
  (* quotient *)
  assert (Hir : 0 < / r) by now apply Rinv_0_lt_compat.
  assert (Hir2 : / r <= bpow radix2 60).
  { replace (bpow radix2 60) with (/ bpow radix2 (-60)) by (rewrite <- bpow_opp; reflexivity).
    apply Rinv_le; [apply bpow_gt_0|apply Br]. }
  assert (E121 : bpow radix2 121 = bpow radix2 61 * bpow radix2 60) by (rewrite <- bpow_plus; reflexivity).
  assert (P60 : 0 < bpow radix2 60) by apply bpow_gt_0.
  assert (Hq : - bpow radix2 121 <= D / r <= bpow radix2 121).
  { unfold Rdiv. rewrite E121. clear - Bd Hir Hir2 P60 E61. split; nra. }
  assert (D121 : dy32 (bpow radix2 121)) by (apply dy_bpow; cbn; lia).
  destruct (fdiv_b _ _ d range (dy_opp _ D121) D121 Fd Fr) as (Fn & En & Bn); [fold r; lra|exact Hq|].
  fold D r in En. set (n := fdiv d range) in *.
  destruct (ffloor_R n Fn) as [Ff Eff]. set (k := Zfloor (B2R n)) in *.
  (* errors *)
  set (u := bpow radix2 (-24)). assert (Hu : u = / 16777216) by (unfold u; bp; lra).
  set (eta := bpow radix2 (-150)).
  assert (Heta : 0 < eta) by apply bpow_gt_0.
  assert (Hre : eta <= bpow radix2 (-90) * r).
  { replace eta with (bpow radix2 (-90) * bpow radix2 (-60)) by (rewrite <- bpow_plus; reflexivity).
    apply Rmult_le_compat_l; [apply bpow_ge_0|apply Br]. }
  assert (H90 : bpow radix2 (-90) <= / 1000000000).
  { apply Rle_trans with (bpow radix2 (-30)); [apply bpow_le; lia|]. bp. lra. }
  assert (He9 : eta <= r / 1000000000) by nra.
  assert (Her : eta * r <= r / 1000000000).
  { assert (eta <= / 1000000000).
    { apply Rle_trans with (bpow radix2 (-30)); [apply bpow_le; lia|]. bp. lra. }
    nra. }
  pose proof (rnd_rel (prec:=24) (emax:=128) (X - L)) as R1. rewrite <- Ed in R1. fold D in R1.
  change (bpow radix2 (- (24))) with u in R1. change (bpow radix2 (SpecFloat.emin 24 128 - 1)) with eta in R1.
  pose proof (rnd_rel (prec:=24) (emax:=128) (D / r)) as R2. rewrite <- En in R2.
  change (bpow radix2 (- (24))) with u in R2. change (bpow radix2 (SpecFloat.emin 24 128 - 1)) with eta in R2.
  set (S := Rabs X + Rabs L + r).
  assert (HS : Rabs X <= S /\ Rabs L <= S /\ r <= S /\ 0 < S) by (unfold S; pose proof (Rabs_pos X); pose proof (Rabs_pos L); lra).
  assert (HS2 : Rabs X + Rabs L + r = S) by reflexivity.
  assert (HXL : Rabs (X - L) <= Rabs X + Rabs L) by (unfold Rminus; eapply Rle_trans; [apply Rabs_triang|]; rewrite Rabs_Ropp; lra).
  assert (R1' : Rabs (D - (X - L)) <= 2 * u * S).
  { eapply Rle_trans; [exact R1|]. unfold S. pose proof (Rabs_pos X). pose proof (Rabs_pos L). rewrite Hu in *. nra. }
  assert (HD : Rabs D <= (1 + 2 * u) * S).
  { replace D with ((X - L) + (D - (X - L))) by ring. eapply Rle_trans; [apply Rabs_triang|]. unfold S in *. lra. }
  (* n * r vs D *)
  assert (R2' : Rabs (B2R n * r - D) <= 3 * u * S).
  { replace (B2R n * r - D) with ((B2R n - D / r) * r) by (field; lra).
    rewrite Rabs_mult, (Rabs_pos_eq r) by lra.
    assert (Q1 : Rabs (D / r) * r = Rabs D) by (unfold Rdiv; rewrite Rabs_mult, (Rabs_pos_eq (/ r)), Rmult_assoc, Rinv_l by lra; ring).
    apply Rle_trans with ((u * Rabs (D / r) + eta) * r); [apply Rmult_le_compat_r; [lra|exact R2]|].
    rewrite Rmult_plus_distr_r, Rmult_assoc, Q1. rewrite Hu in *. nra. }
  pose proof (Zfloor_lb (B2R n)) as K1. pose proof (Zfloor_ub (B2R n)) as K2. fold k in K1, K2.
  apply Rabs_le_inv in R1'. apply Rabs_le_inv in R2'.
  assert (Kr1 : IZR k * r <= B2R n * r) by (apply Rmult_le_compat_r; lra).
  assert (Kr2 : B2R n * r <= IZR k * r + r) by nra.
  (* exact remainder *)
  assert (Rem : L - 5 * u * S <= X - IZR k * r <= L + r + 5 * u * S) by lra.
  assert (HkS : Rabs (r * IZR k) <= 3 * S).
  { apply Rabs_le. rewrite (Rmult_comm r). pose proof (Rabs_le_inv _ _ (Rle_refl (Rabs X))). pose proof (Rabs_le_inv _ _ (Rle_refl (Rabs L))).
    rewrite Hu in *. lra. }
  assert (HSb : S <= bpow radix2 62).
  { unfold S. replace (bpow radix2 62) with (4 * bpow radix2 60) by (change 4 with (bpow radix2 2); rewrite <- bpow_plus; reflexivity). lra. }
  assert (D66 : dy32 (bpow radix2 66)) by (apply dy_bpow; cbn; lia).
  assert (E66 : bpow radix2 66 = 16 * bpow radix2 62) by (change 16 with (bpow radix2 4); rewrite <- bpow_plus; reflexivity).
  pose proof (Rabs_le_inv _ _ HkS) as HkS'.
  destruct (fmul_b _ _ range (ffloor n) (dy_opp _ D66) D66 Fr Ff) as (Fp & Ep & Bp); [fold r; rewrite Eff; lra|].
  fold r in Ep. rewrite Eff in Ep. set (p := fmul range (ffloor n)) in *.
  pose proof (rnd_rel (prec:=24) (emax:=128) (r * IZR k)) as R3. rewrite <- Ep in R3.
  change (bpow radix2 (- (24))) with u in R3. change (bpow radix2 (SpecFloat.emin 24 128 - 1)) with eta in R3.
  assert (R3' : Rabs (B2R p - r * IZR k) <= 4 * u * S) by (rewrite Hu in *; nra).
  apply Rabs_le_inv in R3'.
  assert (Hw : Rabs (X - B2R p) <= 3 * S).
  { apply Rabs_le. pose proof (Rabs_le_inv _ _ (Rle_refl (Rabs L))). rewrite Hu in *. lra. }
  pose proof (Rabs_le_inv _ _ Hw) as Hw'.
  destruct (fsub_b _ _ x p (dy_opp _ D66) D66 Fx Fp) as (Fw & Ew & Bw); [fold X; lra|].
  fold X in Ew. pose proof (rnd_rel (prec:=24) (emax:=128) (X - B2R p)) as R4. rewrite <- Ew in R4.
  change (bpow radix2 (- (24))) with u in R4. change (bpow radix2 (SpecFloat.emin 24 128 - 1)) with eta in R4.
  assert (R4' : Rabs (B2R (fsub x p) - (X - B2R p)) <= 4 * u * S) by (rewrite Hu in *; nra).
  apply Rabs_le_inv in R4'.
  split; [exact Fw|]. exists k.
  assert (H20 : bpow radix2 (-20) = 16 * u) by (rewrite Hu; bp; lra). rewrite H20.
  assert (0 < u * S) by (rewrite Hu in *; lra).
  split; [apply Rabs_le; lra|lra].
Qed.

(** LinLin with an empty source range. *)
Lemma linlin_degenerate (x s s' dl dh : f32) : fin s -> fin s' -> B2R s = B2R s' -> LinLin x s s' dl dh = dl.
Proof.
  intros F F' E. unfold LinLin. cbv zeta. destruct (fsub_exact s' s F' F) as [A B]; [rewrite E, Rminus_diag_eq by reflexivity; apply dy_0|].
  replace (feq (fsub s' s) zero) with true; [reflexivity|]. symmetry. apply feq_R; [exact A|reflexivity|]. rewrite B, E, zero_R. ring.
Qed.
