(** Ladders: the order of the setters. *)
From Coq Require Import ZArith Reals Lra Lia Bool Psatz List.
From Flocq Require Import Core BinarySingleNaN.
From Verif Require Import Flt FltFacts FltMore FltKey FltArith Libm Res UtilModel UtilProofs Dbl MgModel MgSpec MgBase KjModel KjProofs StModel StProofs MtModel MdModel ImModel ObModel RkModel.
Import ListNotations.
Local Open Scope R_scope.

Lemma st_order sr s c r : mg_rate sr -> st_par sr s -> st_cut_ok sr c -> exists s', st_run s [StCut c; StRes r] = Val (s', []) /\ st_run s [StRes r; StCut c] = Val (s', []).
Proof.
  intros Hr Hp Hc. destruct (setCut_val sr s c Hr (proj1 Hp) Hc) as (s1 & E1 & P1). destruct (setRes_val sr s1 r P1) as (s2 & E2 & P2). destruct (setRes_val sr s r Hp) as (s3 & E3 & P3).
  exists s2. cbn [st_run st_call]. rewrite E1, E3. cbn [rbind fst snd]. rewrite E2. cbn [rbind fst snd]. split; [reflexivity|].
  assert (X : st_setCutoff s3 c = Val s2); [|rewrite X; reflexivity].
  unfold st_setCutoff, st_setResonance in *. cbn [st_res st_p st_sr st_cut st_Q st_s0 st_s1 st_s2 st_s3 st_out] in *.
  destruct (st_gain (unit_clamp r) (st_p s)) as [q| |] eqn:G3; cbn [rbind] in E3; try discriminate. injection E3 as <-. cbn [st_res st_p st_sr st_cut st_Q st_s0 st_s1 st_s2 st_s3 st_out].
  destruct (st_gain (unit_clamp (st_res s)) (st_pole (st_sr s) c)) as [q1| |] eqn:G1; cbn [rbind] in E1; try discriminate. injection E1 as <-. cbn [st_res st_p st_sr st_cut st_Q st_s0 st_s1 st_s2 st_s3 st_out] in E2.
  rewrite unit_clamp_twice. destruct (st_gain (unit_clamp r) (st_pole (st_sr s) c)) as [q2| |]; cbn [rbind] in E2 |- *; try discriminate. exact E2.
Qed.
Lemma md_order L s c r : md_setResonance (md_setCutoff L s c) r = md_setCutoff L (md_setResonance s r) c.
Proof. unfold md_setCutoff, md_setResonance. cbn [md_sr md_cut md_res md_p md_k md_t1 md_t2 md_rc md_s0 md_s1 md_s2 md_s3 md_y0 md_y1 md_y2 md_y3]. rewrite unit_clamp_twice. reflexivity. Qed.

(** Krajeski: the feedback keeps the value of the cutoff before. *)
Lemma q_high w : 628 / 1000 <= w <= 189 / 100 -> 10029 / 10000 + 526 / 10000 * w - 926 / 1000 * w ^ 2 + 218 / 10000 * w ^ 3 <= 69 / 100.
Proof.
  intros H. assert (A : w ^ 3 <= 189 / 100 * w ^ 2). { cbn [pow]. rewrite !Rmult_1_r. assert (0 <= w * w) by nra. nra. }
  assert (B : 628 / 1000 * w <= w ^ 2) by (cbn [pow]; nra). lra.
Qed.
Lemma q_low w : 0 <= w <= 16 / 100 -> 97 / 100 <= 10029 / 10000 + 526 / 10000 * w - 926 / 1000 * w ^ 2 + 218 / 10000 * w ^ 3.
Proof. intros H. assert (0 <= w ^ 3) by (apply pow_le; lra). assert (w ^ 2 <= 256 / 10000) by (cbn [pow]; nra). lra. Qed.
Lemma kj_gres L sr c r : dpow_acc L -> mg_rate sr -> 40000 <= B2R sr -> mg_cut (3 / 10) sr c -> B2R sr / 10 <= B2R c -> fin r -> / 100 <= B2R r <= 1 ->
  kj_gRes (fst (mg_run (kj_call L) (kj_init L sr) [KjCut c; KjRes r])) <> kj_gRes (fst (mg_run (kj_call L) (kj_init L sr) [KjRes r; KjCut c])).
Proof.
  intros HL Hr H4 Hc Lc Fr Br E. cbn [mg_run kj_call fst snd] in E.
  assert (E' : kj_fb L (unit_clamp r) (kj_omega sr c) = kj_fb L (unit_clamp r) (kj_omega sr (fofZ 1000))) by exact E. clear E.
  rewrite unit_clamp_in in E' by (auto; lra). destruct (wc_R sr c Hr Hc) as [Fw Bw]. destruct (wc_R sr (fofZ 1000) Hr) as [Fv Bv]; [apply init_cut; [exact Hr|lra]|].
  destruct (fb_R L r _ HL Fr ltac:(lra) Fw Bw) as [X _]. destruct (fb_R L r _ HL Fr ltac:(lra) Fv Bv) as [Y _]. rewrite E' in X. apply ex_R in X. apply ex_R in Y.
  destruct (omega_R sr c Hr) as (_ & Q1 & W1). { destruct Hc as [Fc Hc]. split; [exact Fc|lra]. } fold (kj_omega sr c) in W1.
  destruct (omega_R sr (fofZ 1000) Hr (init_cut sr (/ 2) Hr ltac:(lra))) as (_ & Q2 & W2). fold (kj_omega sr (fofZ 1000)) in W2.
  assert (R1 : / 10 <= B2R c / B2R sr). { apply Rmult_le_reg_r with (B2R sr); [lra|]. unfold Rdiv at 1. rewrite Rmult_assoc, Rinv_l by lra. lra. }
  set (k1 := fofZ 1000 : f32) in *. assert (V : B2R k1 = 1000) by (unfold k1; fval (fofZ 1000 : f32); lra). assert (R2 : B2R k1 / B2R sr <= / 40). { rewrite V. apply Rmult_le_reg_r with (B2R sr); [lra|]. unfold Rdiv. rewrite Rmult_assoc, Rinv_l by lra. lra. }
  pose proof (q_high (B2R (kj_omega sr c)) ltac:(lra)) as K1. pose proof (q_low (B2R (kj_omega sr k1)) ltac:(lra)) as K2.
  set (g := B2R (kj_fb L r (kj_omega sr k1))) in *. set (u := 10029 / 10000 + _ - _ + _) in K1, X. set (v := 10029 / 10000 + _ - _ + _) in K2, Y. clearbody g u v.
  unfold eps in X, Y. nra.
Qed.
