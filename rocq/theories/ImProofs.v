(** Improved ladder: its gains and its bound. *)
From Coq Require Import ZArith Reals Lra Lia Bool Psatz List.
From Flocq Require Import Core BinarySingleNaN.
From Verif Require Import Flt FltFacts FltMore FltKey FltArith Libm UtilModel UtilProofs Dbl LpProofs MgModel MgSpec MgBase ImModel LaSpec.
Import ListNotations.
Local Open Scope R_scope.

(** Multiples of a float with few bits are doubles. *)
Lemma dy_mul32 (x : f32) n k : (Z.abs n < 2 ^ 29)%Z -> (-900 <= k <= 0)%Z -> dy64 (IZR n * bpow radix2 k * B2R x).
Proof.
  intros N K. pose proof (fmt_B2R x) as G. apply FLT_format_generic in G; [|reflexivity]. destruct G as [[m e] E Hm He]. cbn [Defs.Fnum Defs.Fexp] in *.
  assert (E2 : IZR n * bpow radix2 k * B2R x = IZR (n * m) * bpow radix2 (k + e)). { rewrite E. unfold Defs.F2R. cbn [Defs.Fnum Defs.Fexp]. rewrite bpow_plus, mult_IZR. ring. }
  split.
  - rewrite E2. change (SpecFloat.emin 24 128) with (-149)%Z in He. apply dy_F2R; [|cbn; lia].
    rewrite Z.abs_mul. change (2 ^ 53)%Z with (2 ^ 29 * 2 ^ 24)%Z. change (radix2 ^ 24)%Z with (2 ^ 24)%Z in Hm. apply Z.mul_lt_mono_nonneg; lia.
  - rewrite Rabs_mult, Rabs_mult. pose proof (B2R_lt_emax x) as B. change (bpow radix2 128) with (bpow radix2 128) in B.
    assert (A1 : Rabs (IZR n) <= bpow radix2 29) by (rewrite <- abs_IZR; change (bpow radix2 29) with (IZR (2 ^ 29)); apply IZR_le; lia).
    assert (A2 : Rabs (bpow radix2 k) <= 1) by (rewrite Rabs_pos_eq by apply bpow_ge_0; change 1 with (bpow radix2 0); apply bpow_le; lia).
    apply Rle_lt_trans with (bpow radix2 29 * 1 * bpow radix2 128).
    + apply Rmult_le_compat; [apply Rmult_le_pos; apply Rabs_pos|apply Rabs_pos|apply Rmult_le_compat; auto using Rabs_pos|now left].
    + rewrite Rmult_1_r, <- bpow_plus. apply bpow_lt. cbn. lia.
Qed.
Lemma dyn n k : (Z.abs n < 2 ^ 53)%Z -> (-900 <= k <= 0)%Z -> dy64 (IZR n * bpow radix2 k).
Proof.
  intros N K. split; [apply dy_F2R; [exact N|cbn; lia]|]. rewrite Rabs_mult. apply Rle_lt_trans with (bpow radix2 53 * 1).
  - apply Rmult_le_compat; try apply Rabs_pos.
    + rewrite <- abs_IZR. change (bpow radix2 53) with (IZR (2 ^ 53)). apply IZR_le. lia.
    + rewrite Rabs_pos_eq by apply bpow_ge_0. change 1 with (bpow radix2 0). apply bpow_le. lia.
  - rewrite Rmult_1_r. apply bpow_lt. lia.
Qed.
Ltac dynum n k := match goal with |- dy64 ?r => replace r with (IZR n * bpow radix2 k) by (bp; lra); apply dyn; lia end.

(** ** The make-up gain *)
Lemma makeup_R sr cut : mg_rate sr -> fin cut -> fin (makeup sr cut) /\ 0 <= B2R (makeup sr cut) <= 5121 / 1024.
Proof.
  intros [Fs Hs] Fc. unfold makeup. destruct (f2d_R sr Fs) as [Sd Es]. destruct (f2d_R cut Fc) as [Cd Ec].
  assert (H12 : B2R (ddec 1 2) = / 2) by (fval (ddec 1 2); lra).
  assert (NY : B2R (fmul (f2d sr) (ddec 1 2)) = B2R sr / 2 /\ fin (fmul (f2d sr) (ddec 1 2))).
  { destruct (fmul_b (1 * bpow radix2 (-1) * B2R sr) (1 * bpow radix2 (-1) * B2R sr) (f2d sr) (ddec 1 2)) as (F & _ & B); try apply dy_mul32; try lia; try assumption; [ffin|rewrite Es, H12; bp; lra|].
    split; [|exact F]. revert B. bp. lra. }
  destruct NY as [NY FN]. set (ny := fmul (f2d sr) (ddec 1 2)) in *. clearbody ny.
  rewrite (proj2 (flt_R fzero ny (eq_refl : fin (fzero : f64)) FN)) by (rewrite NY; change (B2R (fzero : f64)) with 0; lra). cbv iota.
  assert (Q : fin (fdiv (f2d cut) ny)).
  { destruct (bd_f2d_any cut Fc) as [_ B]. rewrite Ec in B. apply Rabs_le_inv in B.
    destruct (fdiv_b (- bpow radix2 128) (bpow radix2 128) (f2d cut) ny) as (F & _); [apply dy_opp, dyp; lia|apply dyp; lia|exact Cd|exact FN|rewrite NY; lra| |exact F].
    rewrite Ec, NY. assert (I : 0 < / (B2R sr / 2) <= 1) by (split; [apply Rinv_0_lt_compat; lra|rewrite <- Rinv_1; apply Rinv_le_contravar; lra]). unfold Rdiv at 1 2. pose proof (bpow_gt_0 radix2 128). split; nra. }
  set (q := fdiv (f2d cut) ny) in *. clearbody q.
  set (nm := if flt q fzero then fzero else if flt (dz 1) q then dz 1 else q).
  assert (NM : fin nm /\ 0 <= B2R nm <= 1).
  { assert (O : B2R (dz 1) = 1) by (fval (dz 1); lra). unfold nm. destruct (flt q fzero) eqn:A; [split; [reflexivity|]; change (B2R (fzero : f64)) with 0; lra|]. destruct (flt (dz 1) q) eqn:B; [split; [reflexivity|]; lra|].
    split; [exact Q|]. apply (proj1 (flt_R_false _ _ Q (eq_refl : fin (fzero : f64)))) in A. apply (proj1 (flt_R_false (dz 1) q (eq_refl : fin (dz 1)) Q)) in B. change (B2R (fzero : f64)) with 0 in A. lra. }
  clearbody nm. destruct NM as [Fn Bn]. assert (FD : fin (ddec 2 10)) by ffin. assert (BD : 19999 / 100000 <= B2R (ddec 2 10) <= 1) by (fval (ddec 2 10); lra).
  destruct (fadd_b (B2R (ddec 2 10)) 2 (ddec 2 10) nm) as (Fd & _ & Bd); [apply dy_B2R|dynum 2%Z 0%Z|exact FD|exact Fn|lra|].
  set (d := fadd (ddec 2 10) nm) in *. clearbody d.
  assert (O : B2R (dz 1) = 1) by (fval (dz 1); lra). assert (I : 0 < / B2R d <= 5121 / 1024) by (split; [apply Rinv_0_lt_compat; lra|apply Rle_trans with (/ (19999 / 100000)); [apply Rinv_le_contravar; lra|lra]]).
  destruct (fdiv_b 0 (5121 / 1024) (dz 1) d) as (Fm & _ & Bm); [apply dy_0; lia|dynum 5121%Z (-10)%Z|ffin|exact Fd|lra|rewrite O; unfold Rdiv at 1 2; lra|].
  set (m := fdiv (dz 1) d) in *. clearbody m. rewrite (proj2 (flt_R_false (dz 8) m (eq_refl : fin (dz 8)) Fm)) by (fval (dz 8); lra). auto.
Qed.

(** ** Cutoff and gain *)
Lemma rel32 (r : R) : Rabs (rnd (prec:=24) (emax:=128) r - r) <= bpow radix2 (-24) * Rabs r + bpow radix2 (-150).
Proof. exact (rnd_rel (prec:=24) (emax:=128) r). Qed.
Lemma im_limit_R sr c : mg_rate sr -> is_nan c = false -> fin (im_limit sr c) /\ 0 <= B2R (im_limit sr c) /\ B2R PIf * B2R (im_limit sr c) <= 991 / 1000 * B2R sr.
Proof.
  intros [Fs Hs] N. pose proof PIf_R as P. assert (FP : fin PIf) by ffin. unfold im_limit.
  assert (U : bpow radix2 (-24) <= / 16000000 /\ 0 < bpow radix2 (-24)) by (split; [bp; lra|apply bpow_gt_0]). assert (W : bpow radix2 (-150) <= / 1000000) by (apply Rle_trans with (bpow radix2 (-20)); [apply bpow_le; lia|bp; lra]).
  assert (Q : 0 < B2R sr / B2R PIf <= 100000) by (rewrite P; lra).
  destruct (fdiv_b 0 (bpow radix2 20) sr PIf) as (Fa & Ea & Ba); [apply dy_0; lia|apply dy_bpow; cbn; lia|exact Fs|exact FP|lra|bp; lra|].
  pose proof (rel32 (B2R sr / B2R PIf)) as Ra. rewrite <- Ea in Ra. rewrite (Rabs_pos_eq (B2R sr / B2R PIf)) in Ra by lra. apply Rabs_le_inv in Ra.
  set (a := fdiv sr PIf) in *. clearbody a. assert (F9 : fin (fdec 99 100 : f32)) by ffin. assert (V9 : 98 / 100 <= B2R (fdec 99 100 : f32) <= 9900001 / 10000000) by (fval (fdec 99 100 : f32); lra).
  assert (A1 : B2R a <= B2R sr / B2R PIf * (10001 / 10000)) by (set (t := B2R sr / B2R PIf) in *; assert (100 <= t) by (unfold t; rewrite P; lra); nra).
  set (k := fdec 99 100 : f32) in *. clearbody k. revert Ba. change (bpow radix2 20) with 1048576. intros Ba.
  destruct (fmul_b 0 (bpow radix2 20) a k) as (Fl & El & Bl); [apply dy_0; lia|apply dy_bpow; cbn; lia|exact Fa|exact F9|change (bpow radix2 20) with 1048576; nra|].
  pose proof (rel32 (B2R a * B2R k)) as Rl. rewrite <- El in Rl. rewrite (Rabs_pos_eq (B2R a * B2R k)) in Rl by nra. apply Rabs_le_inv in Rl.
  set (l := fmul a k) in *. clearbody l.
  assert (L1 : B2R l <= B2R sr / B2R PIf * (9908 / 10000)). { set (t := B2R sr / B2R PIf) in *. assert (100 <= t) by (unfold t; rewrite P; lra). assert (B2R a * B2R k <= t * (10001 / 10000) * (9900001 / 10000000)) by nra. nra. }
  destruct (clamp_fin c fzero l N (eq_refl : fin (fzero : f32)) Fl ltac:(change (B2R (fzero : f32)) with 0; lra)) as [F B]. change (B2R (fzero : f32)) with 0 in B. split; [exact F|]. split; [lra|].
  apply Rle_trans with (B2R PIf * B2R l); [apply Rmult_le_compat_l; lra|]. rewrite P in *. apply Rle_trans with (13176795 / 4194304 * (B2R sr / (13176795 / 4194304) * (9908 / 10000))); [apply Rmult_le_compat_l; lra|]. lra.
Qed.
Lemma im_warp_R sr cut : mg_rate sr -> fin cut -> 0 <= B2R cut -> B2R PIf * B2R cut <= 991 / 1000 * B2R sr -> fin (im_warp sr cut) /\ 0 <= B2R (im_warp sr cut) <= 1.
Proof.
  intros [Fs Hs] Fc Hc Q. pose proof PIf_R as P. assert (FP : fin PIf) by ffin. unfold im_warp.
  destruct (fmul_b 0 (B2R sr) PIf cut) as (Fa & _ & Ba); [apply dy_0; lia|apply dy_B2R|exact FP|exact Fc|rewrite P in *; nra|]. set (a := fmul PIf cut) in *. clearbody a.
  destruct (fdiv_b 0 1 a sr) as (Fd & _ & Bd); [apply dy_0; lia|change 1 with (bpow radix2 0); apply dy_bpow; cbn; lia|exact Fa|exact Fs|lra| |].
  { assert (I : 0 < / B2R sr) by (apply Rinv_0_lt_compat; lra). split; [unfold Rdiv; nra|]. apply Rmult_le_reg_r with (B2R sr); [lra|]. unfold Rdiv. rewrite Rmult_assoc, Rinv_l by lra. lra. }
  destruct (f2d_R _ Fd) as [F E]. split; [exact F|]. rewrite E. exact Bd.
Qed.
Lemma im_gain_R sr cut : mg_rate sr -> fin cut -> 0 <= B2R cut -> B2R PIf * B2R cut <= 991 / 1000 * B2R sr -> fin (im_gain sr cut) /\ 0 <= B2R (im_gain sr cut) <= 5 / 4 * B2R sr.
Proof.
  intros Hr Fc Hc Q. destruct (im_warp_R sr cut Hr Fc Hc Q) as [Fx Bx]. destruct Hr as [Fs Hs]. unfold im_gain. set (x := im_warp sr cut) in *. clearbody x. pose proof PIf_R as P.
  assert (D : dy64 (5 / 4 * B2R sr)) by (replace (5 / 4 * B2R sr) with (5 * bpow radix2 (-2) * B2R sr) by (bp; lra); apply dy_mul32; lia).
  assert (FK : fin (fmul (fmul (dz 4) dPI) im_VT)) by ffin. assert (VK : 39 / 10 <= B2R (fmul (fmul (dz 4) dPI) im_VT) <= 39208 / 10000) by (fval (fmul (fmul (dz 4) dPI) im_VT); lra).
  set (K := fmul (fmul (dz 4) dPI) im_VT) in *. clearbody K. destruct (f2d_R cut Fc) as [Cd Ec]. assert (O : B2R (dz 1) = 1) by (fval (dz 1); lra). assert (FO : fin (dz 1)) by ffin.
  destruct (fmul_b 0 (5 / 4 * B2R sr) K (f2d cut)) as (F1 & _ & B1); [apply dy_0; lia|exact D|exact FK|exact Cd|rewrite Ec; rewrite P in Q; split; nra|]. set (p := fmul K (f2d cut)) in *. clearbody p.
  destruct (fsub_b 0 1 (dz 1) x) as (F2 & _ & B2); [apply dy_0; lia|change 1 with (bpow radix2 0); apply dyp; lia|exact FO|exact Fx|lra|]. set (u := fsub (dz 1) x) in *. clearbody u.
  destruct (fmul_b 0 (5 / 4 * B2R sr) p u) as (F3 & _ & B3); [apply dy_0; lia|exact D|exact F1|exact F2|split; nra|]. set (v := fmul p u) in *. clearbody v.
  destruct (fadd_b 1 2 (dz 1) x) as (F4 & _ & B4); [change 1 with (bpow radix2 0); apply dyp; lia|change 2 with (bpow radix2 1); apply dyp; lia|exact FO|exact Fx|lra|]. set (w := fadd (dz 1) x) in *. clearbody w.
  destruct (fdiv_b 0 (5 / 4 * B2R sr) v w) as (F5 & _ & B5); [apply dy_0; lia|exact D|exact F3|exact F4|lra| |auto].
  assert (I : 0 < / B2R w <= 1) by (split; [apply Rinv_0_lt_compat; lra|rewrite <- Rinv_1; apply Rinv_le_contravar; lra]). unfold Rdiv at 1 2. nra.
Qed.

(** ** A cell *)
Record cell_ok (S : R) (c : im_cell) : Prop := {
  ok_V : bd (65 / 4) (im_V c);
  ok_d : bd (5 / 2 * S) (im_dV c);
  ok_t : bd 1 (im_tV c);
  ok_up : 25 / 2 <= B2R (im_V c) -> B2R (im_tV c) = 1;
  ok_dn : B2R (im_V c) <= - (25 / 2) -> B2R (im_tV c) = -1;
  ok_hi : B2R (im_V c) <= 15 \/ B2R (im_dV c) <= 0;
  ok_lo : -15 <= B2R (im_V c) \/ 0 <= B2R (im_dV c) }.
Lemma cell_zero S : 0 < S -> cell_ok S im_zero.
Proof. intros H. assert (Z : B2R (fzero : f64) = 0) by reflexivity. split; cbn [im_zero im_V im_dV im_tV]; try (split; [reflexivity|]); rewrite ?Z, ?Rabs_R0; lra. Qed.

Section Bounded.
  Context (L : libm) (HU : dtanh_unit L) (HS : dtanh_sat L) (sr : f32) (Hr : mg_rate sr).
  Let S := B2R sr.
  Lemma VT2 : fin (fmul (dz 2) im_VT) /\ 6239 / 10000 <= B2R (fmul (dz 2) im_VT) <= 62401 / 100000.
  Proof. split; [ffin|]. fval (fmul (dz 2) im_VT). lra. Qed.
  Lemma dyS n k : (Z.abs n < 2 ^ 29)%Z -> (-900 <= k <= 0)%Z -> dy64 (IZR n * bpow radix2 k * S).
  Proof. apply dy_mul32. Qed.
  Lemma sr2 : fin (fmul (dz 2) (f2d sr)) /\ B2R (fmul (dz 2) (f2d sr)) = 2 * S.
  Proof.
    destruct Hr as [Fs Hs]. destruct (f2d_R sr Fs) as [Sd Es]. assert (T : B2R (dz 2) = 2) by (fval (dz 2); lra).
    destruct (fmul_b (2 * bpow radix2 0 * S) (2 * bpow radix2 0 * S) (dz 2) (f2d sr)) as (F & _ & B); [apply dyS; lia|apply dyS; lia|ffin|exact Sd|rewrite T, Es; fold S; bp; lra|]. split; [exact F|]. revert B. bp. lra.
  Qed.
  Lemma move_ok c d : cell_ok S c -> bd (5 / 2 * S) d -> (25 / 2 <= B2R (im_V c) -> B2R d <= 0) -> (B2R (im_V c) <= - (25 / 2) -> 0 <= B2R d) -> cell_ok S (im_move L sr c d).
  Proof.
    intros [[FV BV] [Fo Bo] [Ft Bt] Up Dn Hi Lo] [Fd Bd] D1 D2. destruct Hr as [Fs Hs]. fold S in Hs. destruct sr2 as [F2 E2]. destruct VT2 as [FT BT].
    unfold im_move. cbv zeta. set (w := fmul (dz 2) (f2d sr)) in *. clearbody w. set (V := im_V c) in *. set (o := im_dV c) in *. clearbody V o. clear Up Dn Ft Bt.
    apply Rabs_le_inv in BV, Bo, Bd.
    assert (D5 : dy64 (5 * S)) by (replace (5 * S) with (5 * bpow radix2 0 * S) by (bp; lra); apply dyS; lia).
    assert (D25 : dy64 (5 / 2 * S)) by (replace (5 / 2 * S) with (5 * bpow radix2 (-1) * S) by (bp; lra); apply dyS; lia).
    destruct (fadd_b (- (5 * S)) (5 * S) d o (dy_opp _ D5) D5 Fd Fo ltac:(lra)) as (Fs1 & Es1 & Bs1).
    (* the upper end of the sum *)
    assert (S1 : B2R d <= 0 -> B2R (fadd d o) <= 5 / 2 * S). { intros N. destruct (fadd_b (- (5 * S)) (5 / 2 * S) d o (dy_opp _ D5) D25 Fd Fo ltac:(lra)) as (_ & _ & B). lra. }
    assert (S2 : B2R d <= 0 -> B2R o <= 0 -> B2R (fadd d o) <= 0). { intros N N2. destruct (fadd_b (- (5 * S)) 0 d o (dy_opp _ D5) ltac:(apply dy_0; lia) Fd Fo ltac:(lra)) as (_ & _ & B). lra. }
    assert (S3 : 0 <= B2R d -> - (5 / 2 * S) <= B2R (fadd d o)). { intros N. destruct (fadd_b (- (5 / 2 * S)) (5 * S) d o (dy_opp _ D25) D5 Fd Fo ltac:(lra)) as (_ & _ & B). lra. }
    assert (S4 : 0 <= B2R d -> 0 <= B2R o -> 0 <= B2R (fadd d o)). { intros N N2. destruct (fadd_b 0 (5 * S) d o ltac:(apply dy_0; lia) D5 Fd Fo ltac:(lra)) as (_ & _ & B). lra. }
    set (s := fadd d o) in *. clearbody s. clear Es1.
    assert (I : 0 < / (2 * S)) by (apply Rinv_0_lt_compat; lra).
    assert (DD : forall l h, dy64 l -> dy64 h -> l * (2 * S) <= B2R s <= h * (2 * S) -> fin (fdiv s w) /\ l <= B2R (fdiv s w) <= h).
    { intros l h Dl Dh B. destruct (fdiv_b l h s w Dl Dh Fs1 F2 ltac:(lra)) as (F & _ & R); [|auto]. rewrite E2. split; (apply Rmult_le_reg_r with (2 * S); [lra|]); unfold Rdiv; rewrite Rmult_assoc, Rinv_l by lra; lra. }
    assert (d52 : dy64 (5 / 2)) by dynum 5%Z (-1)%Z. assert (d54 : dy64 (5 / 4)) by dynum 5%Z (-2)%Z. assert (d0 : dy64 0) by (apply dy_0; lia).
    destruct (DD (- (5 / 2)) (5 / 2) (dy_opp _ d52) d52 ltac:(lra)) as [Fq Bq].
    assert (Q1 : B2R s <= 5 / 2 * S -> B2R (fdiv s w) <= 5 / 4) by (intros K; destruct (DD (- (5 / 2)) (5 / 4) (dy_opp _ d52) d54 ltac:(lra)); lra).
    assert (Q2 : B2R s <= 0 -> B2R (fdiv s w) <= 0) by (intros K; destruct (DD (- (5 / 2)) 0 (dy_opp _ d52) d0 ltac:(lra)); lra).
    assert (Q3 : - (5 / 2 * S) <= B2R s -> - (5 / 4) <= B2R (fdiv s w)) by (intros K; destruct (DD (- (5 / 4)) (5 / 2) (dy_opp _ d54) d52 ltac:(lra)); lra).
    assert (Q4 : 0 <= B2R s -> 0 <= B2R (fdiv s w)) by (intros K; destruct (DD 0 (5 / 2) d0 d52 ltac:(lra)); lra).
    clear DD. set (q := fdiv s w) in *. clearbody q.
    assert (d20 : dy64 20) by dynum 20%Z 0%Z. assert (d65 : dy64 (65 / 4)) by dynum 65%Z (-2)%Z. assert (d15 : dy64 15) by dynum 15%Z 0%Z.
    destruct (fadd_b (- 20) 20 V q (dy_opp _ d20) d20 FV Fq ltac:(lra)) as (Fv & _ & Bv).
    assert (AD : forall l h, dy64 l -> dy64 h -> l <= B2R V + B2R q <= h -> l <= B2R (fadd V q) <= h) by (intros l h Dl Dh B; destruct (fadd_b l h V q Dl Dh FV Fq B) as (_ & _ & R); exact R).
    assert (U : B2R (fadd V q) <= 65 / 4 /\ (B2R (fadd V q) <= 15 \/ B2R d <= 0)).
    { destruct (Rle_lt_dec (25 / 2) (B2R V)) as [K|K].
      - specialize (D1 K). split; [|now right]. destruct Hi as [Hi|Hi].
        + assert (B2R q <= 5 / 4) by auto. destruct (AD (- 20) (65 / 4) (dy_opp _ d20) d65 ltac:(lra)). lra.
        + assert (B2R q <= 0) by auto. destruct (AD (- 20) (65 / 4) (dy_opp _ d20) d65 ltac:(lra)). lra.
      - destruct (AD (- 20) 15 (dy_opp _ d20) d15 ltac:(lra)). split; [lra|left; lra]. }
    assert (W : - (65 / 4) <= B2R (fadd V q) /\ (-15 <= B2R (fadd V q) \/ 0 <= B2R d)).
    { destruct (Rle_lt_dec (B2R V) (- (25 / 2))) as [K|K].
      - specialize (D2 K). split; [|now right]. destruct Lo as [Lo|Lo].
        + assert (- (5 / 4) <= B2R q) by auto. destruct (AD (- (65 / 4)) 20 (dy_opp _ d65) d20 ltac:(lra)). lra.
        + assert (0 <= B2R q) by auto. destruct (AD (- (65 / 4)) 20 (dy_opp _ d65) d20 ltac:(lra)). lra.
      - destruct (AD (- 15) 20 (dy_opp _ d15) d20 ltac:(lra)). split; [lra|left; lra]. }
    clear AD. set (v := fadd V q) in *. clearbody v.
    set (z := fmul (dz 2) im_VT) in *. clearbody z. assert (IZ : 1602 / 1000 <= / B2R z <= 1603 / 1000) by (split; [replace (1602 / 1000) with (/ (1000 / 1602)) by lra|replace (1603 / 1000) with (/ (1000 / 1603)) by lra]; apply Rinv_le_contravar; lra).
    assert (d64 : dy64 64) by dynum 64%Z 0%Z.
    assert (TZ : forall l h, dy64 l -> dy64 h -> l <= B2R v * / B2R z <= h -> fin (fdiv v z) /\ l <= B2R (fdiv v z) <= h).
    { intros l h Dl Dh B. destruct (fdiv_b l h v z Dl Dh Fv FT ltac:(lra)) as (F & _ & R); [exact B|auto]. }
    destruct (TZ (- 64) 64 (dy_opp _ d64) d64 ltac:(nra)) as [Fz _].
    destruct (HU (fdiv v z) (fin_nan _ Fz)) as [Fth Bth]. destruct (HS (fdiv v z) Fz) as [T1 T2].
    split; cbn [im_V im_dV im_tV].
    - split; [exact Fv|apply Rabs_le; lra].
    - split; [exact Fd|apply Rabs_le; lra].
    - split; [exact Fth|apply Rabs_le; lra].
    - intros K. apply T1. assert (X : 25 / 2 * (1602 / 1000) <= B2R v * / B2R z) by (apply Rmult_le_compat; lra).
      assert (Y : B2R v * / B2R z <= 65 / 4 * (1603 / 1000)) by (apply Rmult_le_compat; lra). destruct (TZ 20 64 d20 d64 ltac:(lra)). lra.
    - intros K. apply T2. assert (X : 25 / 2 * (1602 / 1000) <= - B2R v * / B2R z) by (apply Rmult_le_compat; lra).
      assert (Y : - B2R v * / B2R z <= 65 / 4 * (1603 / 1000)) by (apply Rmult_le_compat; lra). destruct (TZ (- 64) (- 20) (dy_opp _ d64) (dy_opp _ d20) ltac:(lra)). lra.
    - apply U.
    - apply W.
  Qed.
  (** A later cell: its slope points the right way once it saturates. *)
  Lemma later_ok g c t : fin g -> 0 <= B2R g <= 5 / 4 * S -> cell_ok S c -> bd 1 t -> cell_ok S (im_move L sr c (fmul g (fsub t (im_tV c)))).
  Proof.
    intros Fg Bg C [Ft Bt]. pose proof C as [_ _ [Fo Bo] Up Dn _ _]. destruct Hr as [_ Hs]. fold S in Hs. apply Rabs_le_inv in Bt, Bo. set (o := im_tV c) in *.
    assert (d2 : dy64 2) by dynum 2%Z 0%Z. assert (d0 : dy64 0) by (apply dy_0; lia). assert (D25 : dy64 (5 / 2 * S)) by (replace (5 / 2 * S) with (5 * bpow radix2 (-1) * S) by (bp; lra); apply dyS; lia).
    assert (SB : forall l h, dy64 l -> dy64 h -> l <= B2R t - B2R o <= h -> fin (fsub t o) /\ l <= B2R (fsub t o) <= h) by (intros l h Dl Dh B; destruct (fsub_b l h t o Dl Dh Ft Fo B) as (F & _ & R); auto).
    destruct (SB (- 2) 2 (dy_opp _ d2) d2 ltac:(lra)) as [Fs Bs].
    assert (MB : forall l h, dy64 l -> dy64 h -> l <= B2R g * B2R (fsub t o) <= h -> fin (fmul g (fsub t o)) /\ l <= B2R (fmul g (fsub t o)) <= h) by (intros l h Dl Dh B; destruct (fmul_b l h g (fsub t o) Dl Dh Fg Fs B) as (F & _ & R); auto).
    destruct (MB (- (5 / 2 * S)) (5 / 2 * S) (dy_opp _ D25) D25 ltac:(nra)) as [Fm Bm].
    apply move_ok; [exact C|split; [exact Fm|apply Rabs_le; lra]| |].
    - intros K. specialize (Up K). destruct (SB (- 2) 0 (dy_opp _ d2) d0 ltac:(lra)) as [_ N]. destruct (MB (- (5 / 2 * S)) 0 (dy_opp _ D25) d0 ltac:(nra)). lra.
    - intros K. specialize (Dn K). destruct (SB 0 2 d0 d2 ltac:(lra)) as [_ N]. destruct (MB 0 (5 / 2 * S) d0 D25 ltac:(nra)). lra.
  Qed.
  (** The first cell, driven by [- g * (T + tV0)]. *)
  Lemma first_ok g c t : fin g -> 0 <= B2R g <= 5 / 4 * S -> cell_ok S c -> bd 1 t -> cell_ok S (im_move L sr c (fmul (fneg g) (fadd t (im_tV c)))).
  Proof.
    intros Fg Bg C [Ft Bt]. pose proof C as [_ _ [Fo Bo] Up Dn _ _]. destruct Hr as [_ Hs]. fold S in Hs. apply Rabs_le_inv in Bt, Bo. set (o := im_tV c) in *.
    pose proof (fneg_fin g Fg) as Fn. pose proof (fneg_R g) as En. set (n := fneg g) in *. clearbody n.
    assert (d2 : dy64 2) by dynum 2%Z 0%Z. assert (d0 : dy64 0) by (apply dy_0; lia). assert (D25 : dy64 (5 / 2 * S)) by (replace (5 / 2 * S) with (5 * bpow radix2 (-1) * S) by (bp; lra); apply dyS; lia).
    assert (SB : forall l h, dy64 l -> dy64 h -> l <= B2R t + B2R o <= h -> fin (fadd t o) /\ l <= B2R (fadd t o) <= h) by (intros l h Dl Dh B; destruct (fadd_b l h t o Dl Dh Ft Fo B) as (F & _ & R); auto).
    destruct (SB (- 2) 2 (dy_opp _ d2) d2 ltac:(lra)) as [Fs Bs].
    assert (MB : forall l h, dy64 l -> dy64 h -> l <= B2R n * B2R (fadd t o) <= h -> fin (fmul n (fadd t o)) /\ l <= B2R (fmul n (fadd t o)) <= h) by (intros l h Dl Dh B; destruct (fmul_b l h n (fadd t o) Dl Dh Fn Fs B) as (F & _ & R); auto).
    destruct (MB (- (5 / 2 * S)) (5 / 2 * S) (dy_opp _ D25) D25 ltac:(nra)) as [Fm Bm].
    apply move_ok; [exact C|split; [exact Fm|apply Rabs_le; lra]| |].
    - intros K. specialize (Up K). destruct (SB 0 2 d0 d2 ltac:(lra)) as [_ N]. destruct (MB (- (5 / 2 * S)) 0 (dy_opp _ D25) d0 ltac:(nra)). lra.
    - intros K. specialize (Dn K). destruct (SB (- 2) 0 (dy_opp _ d2) d0 ltac:(lra)) as [_ N]. destruct (MB 0 (5 / 2 * S) d0 D25 ltac:(nra)). lra.
  Qed.

  (** ** Every reachable state *)
  Record im_inv (s : im) : Prop := {
    iv_sr : im_sr s = sr;
    iv_g : fin (im_g s) /\ 0 <= B2R (im_g s) <= 5 / 4 * S;
    iv_res : fin (im_res s) /\ 0 <= B2R (im_res s) <= 1;
    iv_mk : bd (5121 / 1024) (im_makeup s);
    iv_drive : bd (bpow radix2 128) (im_drive s);
    iv_0 : cell_ok S (im_0 s); iv_1 : cell_ok S (im_1 s); iv_2 : cell_ok S (im_2 s); iv_3 : cell_ok S (im_3 s) }.
  Lemma cut_keep s c : is_nan c = false -> im_inv s \/ (im_sr s = sr /\ (fin (im_res s) /\ 0 <= B2R (im_res s) <= 1) /\ bd (bpow radix2 128) (im_drive s) /\ cell_ok S (im_0 s) /\ cell_ok S (im_1 s) /\ cell_ok S (im_2 s) /\ cell_ok S (im_3 s)) -> im_inv (im_setCutoff s c).
  Proof.
    intros N H. assert (X : im_sr s = sr /\ (fin (im_res s) /\ 0 <= B2R (im_res s) <= 1) /\ bd (bpow radix2 128) (im_drive s) /\ cell_ok S (im_0 s) /\ cell_ok S (im_1 s) /\ cell_ok S (im_2 s) /\ cell_ok S (im_3 s)).
    { destruct H as [[A B C D E F G I J]|H]; [tauto|exact H]. } clear H. destruct X as (E & R & D & C0 & C1 & C2 & C3).
    unfold im_setCutoff. cbv zeta. rewrite E. destruct (im_limit_R sr c Hr N) as (F & P & Q). set (cut := im_limit sr c) in *. clearbody cut.
    destruct (makeup_R sr cut Hr F) as [Fm Bm]. pose proof (im_gain_R sr cut Hr F P Q) as G.
    split; cbn [im_sr im_g im_res im_makeup im_drive im_0 im_1 im_2 im_3]; try assumption; [reflexivity|]. split; [exact Fm|apply Rabs_le; lra].
  Qed.
  Lemma im_init_inv : im_inv (im_init sr).
  Proof.
    assert (P : 0 < S) by (destruct Hr as [_ Hs]; unfold S; lra).
    unfold im_init. match goal with |- im_inv (im_setResonance ?s ?r) => assert (A : im_inv s) end.
    { apply cut_keep; [reflexivity|]. right. cbn [im_sr im_g im_res im_makeup im_drive im_0 im_1 im_2 im_3]. split; [reflexivity|]. split; [split; [reflexivity|change (B2R (fzero : f32)) with 0; lra]|].
      split; [|split; [now apply cell_zero|split; [now apply cell_zero|split; now apply cell_zero]]]. split; [reflexivity|]. apply Rabs_le. fval (dz 1). pose proof (bpow_ge_0 radix2 128) as Y. assert (1 <= bpow radix2 128) by (change 1 with (bpow radix2 0); apply bpow_le; lia). lra. }
    destruct A as [A B C D E F G I J]. split; cbn [im_setResonance im_sr im_g im_res im_makeup im_drive im_0 im_1 im_2 im_3]; try assumption. apply unit_clamp_R. reflexivity.
  Qed.
  Lemma im_tick_ok s x : im_inv s -> fin x -> im_inv (fst (im_tick L s x)) /\ fin (snd (im_tick L s x)) /\ Rabs (B2R (snd (im_tick L s x))) <= 82.
  Proof.
    intros [E G R M D C0 C1 C2 C3] Fx. unfold im_tick. cbv zeta. cbn [fst snd]. rewrite E. destruct G as [Fg Bg]. destruct R as [Fr Br].
    match goal with |- context [d_tanh L ?a] => match a with fdiv (fadd _ _) _ => assert (TN : is_nan a = false) end end.
    { apply fin_nan. destruct VT2 as [FT BT]. assert (R4 : bd 4 (fmul (f2d (im_res s)) (dz 4))) by (apply (bd_mul 1 4 4); [apply bd_f2d; [exact Fr|apply Rabs_le; lra]|bdc (dz 4)|lra|dynum 4%Z 0%Z]).
      assert (P1 : bd (bpow radix2 256) (fmul (im_drive s) (f2d x))) by (eapply bd_mul; [exact D|apply bd_f2d_any; exact Fx|rewrite <- bpow_plus; apply bpow_le; lia|apply dyp; lia]).
      assert (P2 : bd 65 (fmul (fmul (f2d (im_res s)) (dz 4)) (im_V (im_3 s)))) by (eapply bd_mul; [exact R4|apply (ok_V _ _ C3)|lra|dynum 65%Z 0%Z]).
      assert (P3 : bd (bpow radix2 257) (fadd (fmul (im_drive s) (f2d x)) (fmul (fmul (f2d (im_res s)) (dz 4)) (im_V (im_3 s))))).
      { eapply bd_add; [exact P1|exact P2| |apply dyp; lia]. replace (bpow radix2 257) with (bpow radix2 256 + bpow radix2 256) by (change 257%Z with (1 + 256)%Z; rewrite bpow_plus; change (bpow radix2 1) with 2; ring). apply Rplus_le_compat_l. apply Rle_trans with (bpow radix2 7); [bp; lra|apply bpow_le; lia]. }
      set (n := fadd _ _) in *. set (z := fmul (dz 2) im_VT) in *. clearbody n z. destruct P3 as [Fn Bn]. apply Rabs_le_inv in Bn.
      destruct (fdiv_b (- bpow radix2 258) (bpow radix2 258) n z) as (F & _); [apply dy_opp, dyp; lia|apply dyp; lia|exact Fn|exact FT|lra| |exact F].
      replace (bpow radix2 258) with (2 * bpow radix2 257) by (change 258%Z with (1 + 257)%Z; rewrite bpow_plus; reflexivity). pose proof (bpow_gt_0 radix2 257).
      assert (I : 0 < / B2R z <= 2) by (split; [apply Rinv_0_lt_compat; lra|replace 2 with (/ (/ 2)) by lra; apply Rinv_le_contravar; lra]). unfold Rdiv. nra. }
    destruct (HU _ TN) as [FT BT]. match goal with |- context [d_tanh L ?a] => match a with fdiv (fadd _ _) _ => set (T := d_tanh L a) in * end end. clearbody T. clear TN.
    assert (BT1 : bd 1 T) by (split; [exact FT|apply Rabs_le; lra]).
    pose proof (first_ok (im_g s) (im_0 s) T Fg Bg C0 BT1) as K0. match type of K0 with cell_ok _ ?t => set (c0 := t) in * end. clearbody c0.
    pose proof (later_ok (im_g s) (im_1 s) (im_tV c0) Fg Bg C1 (ok_t _ _ K0)) as K1. match type of K1 with cell_ok _ ?t => set (c1 := t) in * end. clearbody c1.
    pose proof (later_ok (im_g s) (im_2 s) (im_tV c1) Fg Bg C2 (ok_t _ _ K1)) as K2. match type of K2 with cell_ok _ ?t => set (c2 := t) in * end. clearbody c2.
    pose proof (later_ok (im_g s) (im_3 s) (im_tV c2) Fg Bg C3 (ok_t _ _ K2)) as K3. match type of K3 with cell_ok _ ?t => set (c3 := t) in * end. clearbody c3.
    split; [split; cbn [im_sr im_g im_res im_makeup im_drive im_0 im_1 im_2 im_3]; auto|].
    assert (Y : bd 82 (fmul (im_V c3) (im_makeup s))) by (eapply bd_mul; [apply (ok_V _ _ K3)|exact M|lra|dynum 82%Z 0%Z]). destruct Y as [Fy By]. apply Rabs_le_inv in By.
    assert (D82 : dy32 82) by (apply dy_IZR; cbn; lia). destruct (d2f_b (- 82) 82 _ Fy (dy_opp _ D82) D82 By) as (F & _ & B). split; [exact F|]. now apply Rabs_le.
  Qed.
  Lemma im_step s o : im_inv s -> im_good o -> im_inv (fst (im_call L s o)) /\ forall v, snd (im_call L s o) = Some v -> fin v /\ Rabs (B2R v) <= 82.
  Proof.
    intros H G. destruct o as [c|r|d|x|]; cbn [im_call im_good] in *.
    - split; [apply cut_keep; auto|intros v E; discriminate E].
    - split; [|intros v E; discriminate E]. destruct H as [A B C D E F I J K]. split; cbn [fst im_setResonance im_sr im_g im_res im_makeup im_drive im_0 im_1 im_2 im_3]; try assumption. now apply unit_clamp_R.
    - split; [|intros v E; discriminate E]. destruct H as [A B C D E F I J K]. split; cbn [fst im_setDrive im_sr im_g im_res im_makeup im_drive im_0 im_1 im_2 im_3]; try assumption.
      destruct (flt (f2d d) fzero); [|now apply bd_f2d_any]. split; [reflexivity|]. change (B2R (fzero : f64)) with 0. rewrite Rabs_R0. apply bpow_ge_0.
    - pose proof (im_tick_ok s x H G) as (A & B). destruct (im_tick L s x) as [s' y]. cbn [fst snd] in *. split; [exact A|]. intros v E. injection E as <-. exact B.
    - split; [|intros v E; discriminate E]. assert (P : 0 < S) by (destruct Hr as [_ Hs]; unfold S; lra). destruct H as [A B C D E F I J K]. split; cbn [fst im_reset im_sr im_g im_res im_makeup im_drive im_0 im_1 im_2 im_3]; try assumption; now apply cell_zero.
  Qed.
End Bounded.
Lemma im_bounded L sr os : dtanh_unit L -> dtanh_sat L -> mg_rate sr -> Forall im_good os -> Forall (fun y => fin y /\ Rabs (B2R y) <= 82) (snd (mg_run (im_call L) (im_init sr) os)).
Proof.
  intros HU HS Hr Ho. apply (run_inv (im_call L) (im_inv sr) im_good (fun y => fin y /\ Rabs (B2R y) <= 82)); [|now apply im_init_inv|exact Ho].
  intros s o H G. now apply im_step.
Qed.
