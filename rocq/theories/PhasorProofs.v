(** Phasor: range, exactness on a grid, trigger. *)
From Coq Require Import ZArith Reals Bool List Lra Lia Psatz.
From Flocq Require Import Core BinarySingleNaN.
From Verif Require Import Flt FltFacts FltMore FltKey FltArith UtilModel UtilProofs OscSpec OscProofs OscProofs2 SmoothProofs3 LineModel LineSpec.
Import ListNotations.
Local Open Scope R_scope.

Lemma bdy k : (-149 <= k < 128)%Z -> dy32 (bpow radix2 k) /\ dy32 (- bpow radix2 k).
Proof. intros H. split; [|apply dy_opp]; apply dy_bpow; cbn; lia. Qed.
Lemma bp2 k : bpow radix2 (k + 1) = 2 * bpow radix2 k.
Proof. rewrite bpow_plus. change (bpow radix2 1) with 2. ring. Qed.
(** A difference of floats never rounds to zero. *)
Lemma rnd_diff_pos (x y : f32) : B2R y < B2R x -> 0 < rnd32 (B2R x - B2R y).
Proof.
  intros H. apply Rlt_le_trans with (bpow radix2 (-149)); [apply bpow_gt_0|].
  assert (G : bpow radix2 (-149) <= B2R x - B2R y).
  { destruct (B2R_grid x) as [a A]. destruct (B2R_grid y) as [b B]. change (SpecFloat.emin 24 128) with (-149)%Z in A, B. rewrite A, B in *.
    pose proof (bpow_gt_0 radix2 (-149)) as P. assert ((b < a)%Z) by (apply lt_IZR; apply Rmult_lt_reg_r with (bpow radix2 (-149)); assumption).
    assert (1 <= IZR a - IZR b) by (rewrite <- minus_IZR; apply IZR_le; lia). nra. }
  assert (D : dy32 (bpow radix2 (-149))) by (apply bdy; lia).
  rewrite <- (rnd_fmt (prec:=24) (emax:=128) _ (proj1 D)). now apply rnd_le.
Qed.
Lemma rnd_sum_pos (x y : f32) : 0 < B2R x + B2R y -> 0 < rnd32 (B2R x + B2R y).
Proof. intros H. pose proof (rnd_diff_pos x (fneg y)) as Q. rewrite fneg_R in Q. replace (B2R x - - B2R y) with (B2R x + B2R y) in Q by ring. apply Q. lra. Qed.

Definition big (x : f32) : Prop := fin x /\ Rabs (B2R x) <= bpow radix2 125.
Lemma par_sub x y : ph_par x -> ph_par y -> fin (fsub x y) /\ B2R (fsub x y) = rnd32 (B2R x - B2R y) /\ Rabs (B2R (fsub x y)) <= bpow radix2 101.
Proof.
  intros [Fx Bx] [Fy By]. destruct (bdy 101 ltac:(lia)) as [D1 D2].
  destruct (fsub_b _ _ x y D2 D1 Fx Fy) as (A & B & C).
  - apply Rabs_le_inv in Bx, By. change 101%Z with (100 + 1)%Z. rewrite bp2. lra.
  - split; [exact A|]. split; [exact B|]. now apply Rabs_le.
Qed.
Lemma big_sub v x : big v -> ph_par x -> fin (fsub v x) /\ B2R (fsub v x) = rnd32 (B2R v - B2R x) /\ Rabs (B2R (fsub v x)) <= bpow radix2 126.
Proof.
  intros [Fv Bv] [Fx Bx]. destruct (bdy 126 ltac:(lia)) as [D1 D2].
  destruct (fsub_b _ _ v x D2 D1 Fv Fx) as (A & B & C).
  - apply Rabs_le_inv in Bv, Bx. change 126%Z with (125 + 1)%Z. rewrite bp2. pose proof (bpow_le radix2 100 125 ltac:(lia)). lra.
  - split; [exact A|]. split; [exact B|]. now apply Rabs_le.
Qed.
Lemma big_adv v r : big v -> ph_par r -> big (fadd v r).
Proof.
  intros [Fv Bv] [Fr Br]. destruct (bdy 126 ltac:(lia)) as [D1 D2].
  assert (S : Rabs (B2R v + B2R r) <= bpow radix2 125 + bpow radix2 100) by (eapply Rle_trans; [apply Rabs_triang|lra]).
  destruct (fadd_b _ _ v r D2 D1 Fv Fr) as (A & B & C).
  - apply Rabs_le_inv in S. change 126%Z with (125 + 1)%Z. rewrite bp2. pose proof (bpow_le radix2 100 125 ltac:(lia)). lra.
  - split; [exact A|]. rewrite B. apply (rnd_tie_pow_abs (prec:=24) (emax:=128) 125); [lia|cbn; lia|].
    eapply Rle_trans; [exact S|]. pose proof (bpow_le radix2 100 (125 - 24) ltac:(lia)). lra.
Qed.

(** One wrapped value, forward. *)
Definition slop (a b : f32) : R := bpow radix2 (-22) * (Rabs (B2R a) + Rabs (B2R b)) + bpow radix2 (-148).
Lemma wrap_fwd s e v : ph_par s -> ph_par e -> big v -> B2R s < B2R e ->
  let y := ph_wrap s e v in
  fin y /\ B2R s <= B2R y <= B2R e + slop s e /\
  (B2R s <= B2R v -> B2R y <= B2R e) /\ (B2R s = 0 -> B2R y <= B2R e) /\ (B2R s = 0 -> 0 <= B2R v -> B2R y < B2R e).
Proof.
  intros Ps Pe Bv H. destruct (par_sub e s Pe Ps) as (Fr & Er & Br). pose proof (rnd_diff_pos e s H) as Pr. rewrite <- Er in Pr.
  destruct Ps as [Fs Ss]. destruct Pe as [Fe Se]. unfold ph_wrap. set (r := fsub e s) in *.
  replace (flt zero r) with true by (symmetry; apply flt_R; [reflexivity|exact Fr|exact Pr]).
  assert (SL : 0 <= slop s e).
  { unfold slop. pose proof (Rabs_pos (B2R s)). pose proof (Rabs_pos (B2R e)). pose proof (bpow_gt_0 radix2 (-22)). pose proof (bpow_gt_0 radix2 (-148)). nra. }
  destruct (fle e v || flt v s) eqn:C.
  - destruct (big_sub v s Bv (conj Fs Ss)) as (Fw & Ew & Bw). set (w := fsub v s) in *.
    destruct (ffmod_R w r Fw Fr ltac:(lra)) as [Fm _]. destruct (ffmod_bound w r Fw Fr ltac:(lra)) as (Bm & _ & Sm). set (m := ffmod w r) in *.
    rewrite (Rabs_pos_eq (B2R r)) in Bm by lra.
    assert (R0 : B2R s = 0 -> B2R r = B2R e) by (intros Z; rewrite Er, Z, Rminus_0_r; apply rnd_B2R).
    assert (Top : forall q : f32, fin q -> 0 <= B2R q <= B2R r -> fin (fadd q s) /\ B2R s <= B2R (fadd q s) <= B2R e + slop s e /\
              (B2R q < B2R r -> B2R (fadd q s) <= B2R e) /\ (B2R s = 0 -> B2R (fadd q s) = B2R q)).
    { intros q Fq Bq. destruct (bdy 102 ltac:(lia)) as [D1 D2].
      destruct (fadd_b _ _ q s D2 D1 Fq Fs) as (A & B & _).
      { apply Rabs_le_inv in Ss, Br. change 102%Z with (101 + 1)%Z. rewrite bp2. pose proof (bpow_le radix2 100 101 ltac:(lia)). lra. }
      split; [exact A|]. rewrite B. split; [split|].
      - apply rnd_ge_B2R. lra.
      - pose proof (rrel32 (B2R e - B2R s)) as Q1. rewrite <- Er in Q1. pose proof (rrel32 (B2R q + B2R s)) as Q2.
        assert (X : Rabs (B2R e - B2R s) <= Rabs (B2R s) + Rabs (B2R e)).
        { unfold Rminus. eapply Rle_trans; [apply Rabs_triang|]. rewrite Rabs_Ropp. lra. }
        apply Rabs_le_inv in Q1, Q2. unfold slop.
        assert (Y : B2R q + B2R s <= B2R e + bpow radix2 (-24) * (Rabs (B2R s) + Rabs (B2R e)) + bpow radix2 (-150)).
        { assert (bpow radix2 (-24) * Rabs (B2R e - B2R s) <= bpow radix2 (-24) * (Rabs (B2R s) + Rabs (B2R e))) by (apply Rmult_le_compat_l; [apply bpow_ge_0|exact X]). lra. }
        assert (Zb : Rabs (B2R q + B2R s) <= 2 * (Rabs (B2R s) + Rabs (B2R e)) + bpow radix2 (-150)).
        { pose proof (Rle_abs (B2R e)). pose proof (Rle_abs (- B2R s)) as K. rewrite Rabs_Ropp in K. pose proof (Rabs_pos (B2R e)). pose proof (Rabs_pos (B2R s)).
          pose proof (bpow_gt_0 radix2 (-150)). apply Rabs_le. split; [lra|]. eapply Rle_trans; [exact Y|].
          assert (bpow radix2 (-24) * (Rabs (B2R s) + Rabs (B2R e)) <= 1 * (Rabs (B2R s) + Rabs (B2R e))) by (apply Rmult_le_compat_r; [lra|bp; lra]). lra. }
        assert (T : bpow radix2 (-148) = 4 * bpow radix2 (-150)) by (change (-148)%Z with (-150 + 1 + 1)%Z; rewrite !bp2; ring).
        pose proof (bpow_gt_0 radix2 (-150)). rewrite T. revert Y Zb Q2 H0. generalize (bpow radix2 (-150)). bp. intros t Y Zb Q2 T0.
        pose proof (Rabs_pos (B2R s)). pose proof (Rabs_pos (B2R e)). lra.
      - split.
        + intros Lq. apply rnd_le_B2R. destruct (Rle_lt_dec (B2R q) (B2R e - B2R s)) as [K|K]; [lra|].
          exfalso. assert (B2R r <= B2R q) by (rewrite Er; apply rnd_le_B2R; lra). lra.
        + intros Z. rewrite Z, Rplus_0_r. apply rnd_B2R. }
    destruct (flt m zero) eqn:M.
    + apply flt_R in M; [|exact Fm|reflexivity]. rewrite zero_R in M. apply Rabs_def2 in Bm.
      destruct (fadd_b 0 (B2R r) m r) as (Fa & Ea & Ba); auto; [apply dy0|apply dy_B2R|lra|].
      destruct (Top (fadd m r) Fa Ba) as (T1 & T2 & T3 & T4). split; [exact T1|]. split; [exact T2|].
      assert (Neg : B2R w < 0).
      { destruct (Rle_lt_dec 0 (B2R w)) as [K|K]; [|exact K]. exfalso. destruct K as [K|K]; [nra|].
        destruct (ffmod_R w r Fw Fr ltac:(lra)) as [_ Em]. fold m in Em. rewrite <- K in Em. unfold Rdiv in Em. rewrite Rmult_0_l, (Ztrunc_IZR 0) in Em. lra. }
      assert (NV : B2R v < B2R s).
      { destruct (Rlt_le_dec (B2R v) (B2R s)) as [K|K]; [exact K|]. exfalso. assert (0 <= B2R w) by (rewrite Ew; apply rnd_nonneg; lra). lra. }
      split; [lra|]. split.
      * intros Z. rewrite (T4 Z). rewrite <- (R0 Z). apply Ba.
      * intros Z. rewrite Z in NV. lra.
    + apply flt_R_false in M; [|exact Fm|reflexivity]. rewrite zero_R in M. apply Rabs_def2 in Bm.
      destruct (Top m Fm ltac:(lra)) as (T1 & T2 & T3 & T4). split; [exact T1|]. split; [exact T2|].
      split; [intros _; apply T3; lra|]. split; [intros _; apply T3; lra|]. intros Z _. rewrite (T4 Z), <- (R0 Z). lra.
  - apply orb_false_iff in C. destruct C as [C1 C2]. destruct Bv as [Fv Bv].
    apply fle_R_false in C1; [|exact Fe|exact Fv]. apply flt_R_false in C2; [|exact Fv|exact Fs].
    split; [exact Fv|]. repeat split; lra.
Qed.
(** Backward. *)
Lemma wrap_bwd s e v : ph_par s -> ph_par e -> big v -> B2R e < B2R s ->
  let y := ph_wrap s e v in
  fin y /\ B2R e <= B2R y <= B2R s + slop s e /\ (B2R e = 0 -> 0 < B2R y <= B2R s).
Proof.
  intros Ps Pe Bv H. destruct (par_sub e s Pe Ps) as (Fr & Er & Br). pose proof (rnd_diff_pos s e H) as Pr.
  replace (B2R s - B2R e) with (- (B2R e - B2R s)) in Pr by ring. rewrite rnd_opp, <- Er in Pr.
  destruct Ps as [Fs Ss]. destruct Pe as [Fe Se]. unfold ph_wrap. set (r := fsub e s) in *.
  replace (flt zero r) with false by (symmetry; apply flt_R_false; [reflexivity|exact Fr|rewrite zero_R; lra]).
  replace (flt r zero) with true by (symmetry; apply flt_R; [exact Fr|reflexivity|rewrite zero_R; lra]).
  assert (SL : 0 <= slop s e).
  { unfold slop. pose proof (Rabs_pos (B2R s)). pose proof (Rabs_pos (B2R e)). pose proof (bpow_gt_0 radix2 (-22)). pose proof (bpow_gt_0 radix2 (-148)). nra. }
  destruct (fle v e || flt s v) eqn:C.
  - destruct (big_sub v e Bv (conj Fe Se)) as (Fw & Ew & Bw). set (w := fsub v e) in *.
    assert (Fn : fin (fneg r)) by (now apply fneg_fin). assert (En : B2R (fneg r) = rnd32 (B2R s - B2R e)).
    { rewrite fneg_R, Er, <- rnd_opp. f_equal. ring. }
    assert (Pn : 0 < B2R (fneg r)) by (rewrite fneg_R; lra).
    set (n := fneg r) in *.
    destruct (ffmod_R w n Fw Fn ltac:(lra)) as [Fm _]. destruct (ffmod_bound w n Fw Fn ltac:(lra)) as (Bm & _ & _). set (m := ffmod w n) in *.
    rewrite (Rabs_pos_eq (B2R n)) in Bm by lra.
    assert (R0 : B2R e = 0 -> B2R n = B2R s) by (intros Z; rewrite En, Z, Rminus_0_r; apply rnd_B2R).
    assert (Br' : Rabs (B2R n) <= bpow radix2 101) by (unfold n; rewrite fneg_R, Rabs_Ropp; exact Br).
    assert (Top : forall q : f32, fin q -> 0 < B2R q <= B2R n -> fin (fadd e q) /\ B2R e <= B2R (fadd e q) <= B2R s + slop s e /\
              (B2R e = 0 -> B2R (fadd e q) = B2R q)).
    { intros q Fq Bq. destruct (bdy 102 ltac:(lia)) as [D1 D2].
      destruct (fadd_b _ _ e q D2 D1 Fe Fq) as (A & B & _).
      { apply Rabs_le_inv in Se, Br'. change 102%Z with (101 + 1)%Z. rewrite bp2. pose proof (bpow_le radix2 100 101 ltac:(lia)). lra. }
      split; [exact A|]. rewrite B. split; [split|].
      - apply rnd_ge_B2R. lra.
      - pose proof (rrel32 (B2R s - B2R e)) as Q1. rewrite <- En in Q1. pose proof (rrel32 (B2R e + B2R q)) as Q2.
        assert (X : Rabs (B2R s - B2R e) <= Rabs (B2R s) + Rabs (B2R e)).
        { unfold Rminus. eapply Rle_trans; [apply Rabs_triang|]. rewrite Rabs_Ropp. lra. }
        apply Rabs_le_inv in Q1, Q2. unfold slop.
        assert (Y : B2R e + B2R q <= B2R s + bpow radix2 (-24) * (Rabs (B2R s) + Rabs (B2R e)) + bpow radix2 (-150)).
        { assert (bpow radix2 (-24) * Rabs (B2R s - B2R e) <= bpow radix2 (-24) * (Rabs (B2R s) + Rabs (B2R e))) by (apply Rmult_le_compat_l; [apply bpow_ge_0|exact X]). lra. }
        assert (Zb : Rabs (B2R e + B2R q) <= 2 * (Rabs (B2R s) + Rabs (B2R e)) + bpow radix2 (-150)).
        { pose proof (Rle_abs (B2R s)). pose proof (Rle_abs (- B2R e)) as K. rewrite Rabs_Ropp in K. pose proof (Rabs_pos (B2R e)). pose proof (Rabs_pos (B2R s)).
          pose proof (bpow_gt_0 radix2 (-150)). apply Rabs_le. split; [lra|]. eapply Rle_trans; [exact Y|].
          assert (bpow radix2 (-24) * (Rabs (B2R s) + Rabs (B2R e)) <= 1 * (Rabs (B2R s) + Rabs (B2R e))) by (apply Rmult_le_compat_r; [lra|bp; lra]). lra. }
        assert (T : bpow radix2 (-148) = 4 * bpow radix2 (-150)) by (change (-148)%Z with (-150 + 1 + 1)%Z; rewrite !bp2; ring).
        pose proof (bpow_gt_0 radix2 (-150)). rewrite T. revert Y Zb Q2 H0. generalize (bpow radix2 (-150)). bp. intros t Y Zb Q2 T0.
        pose proof (Rabs_pos (B2R s)). pose proof (Rabs_pos (B2R e)). lra.
      - intros Z. rewrite Z, Rplus_0_l. apply rnd_B2R. }
    apply Rabs_def2 in Bm.
    destruct (fle m zero) eqn:M.
    + apply fle_R in M; [|exact Fm|reflexivity]. rewrite zero_R in M.
      destruct (fadd_b 0 (B2R n) m n) as (Fa & Ea & Ba); auto; [apply dy0|apply dy_B2R|lra|].
      assert (Pa : 0 < B2R (fadd m n)) by (rewrite Ea; apply rnd_sum_pos; lra).
      destruct (Top (fadd m n) Fa ltac:(lra)) as (T1 & T2 & T4). split; [exact T1|]. split; [exact T2|].
      intros Z. rewrite (T4 Z), <- (R0 Z). lra.
    + apply fle_R_false in M; [|exact Fm|reflexivity]. rewrite zero_R in M.
      destruct (Top m Fm ltac:(lra)) as (T1 & T2 & T4). split; [exact T1|]. split; [exact T2|].
      intros Z. rewrite (T4 Z), <- (R0 Z). lra.
  - apply orb_false_iff in C. destruct C as [C1 C2]. destruct Bv as [Fv Bv].
    apply fle_R_false in C1; [|exact Fv|exact Fe]. apply flt_R_false in C2; [|exact Fs|exact Fv].
    split; [exact Fv|]. repeat split; lra.
Qed.
Lemma wrap_same s e v : fin s -> fin e -> B2R s = B2R e -> ph_wrap s e v = v.
Proof.
  intros Fs Fe H. destruct (fsub_exact e s Fe Fs) as [A B]; [rewrite H, Rminus_diag_eq by reflexivity; apply dy0|].
  rewrite H, Rminus_diag_eq in B by reflexivity. unfold ph_wrap.
  replace (flt zero (fsub e s)) with false by (symmetry; apply flt_R_false; [reflexivity|exact A|rewrite zero_R; lra]).
  replace (flt (fsub e s) zero) with false by (symmetry; apply flt_R_false; [exact A|reflexivity|rewrite zero_R; lra]). reflexivity.
Qed.
