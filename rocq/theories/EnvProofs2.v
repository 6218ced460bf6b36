From Coq Require Import ZArith Reals Lra Lia Bool List Psatz.
From Flocq Require Import Core BinarySingleNaN Sterbenz.
From Verif Require Import Flt FltFacts FltMore FltKey FltArith Libm UtilModel UtilProofs EnvModel EnvSpec EnvProofs.
Import ListNotations.
Local Open Scope R_scope.

(** ** The attack recurrence either stalls or gains at least 2^-24 per sample *)
Definition vstar : f32 := flit 16760438 (-24).
Definition cstar : f32 := flit 16776716 (-24).
Lemma vstar_unit : unit_sample vstar.
Proof. split; [ffin|]. fval vstar. lra. Qed.
Lemma cstar_unit : unit_sample cstar.
Proof. split; [ffin|]. fval cstar. lra. Qed.
Lemma vstar_R : B2R vstar = 16760438 / 16777216.
Proof. fval vstar. lra. Qed.
Lemma cstar_R : B2R cstar = 16776716 / 16777216.
Proof. fval cstar. lra. Qed.
Lemma vstar_fix : att cstar vstar = vstar.
Proof. vm_compute. reflexivity. Qed.

Lemma below_c999 (v : f32) : B2R v < B2R c999 -> B2R v <= B2R vstar.
Proof.
  intros H. assert (E : B2R vstar = pred radix2 (SpecFloat.fexp 24 128) (B2R c999)).
  { rewrite pred_upper, vstar_R, c999_R; [bp; change (2 ^ 24)%Z with 16777216%Z; lra|].
    rewrite c999_R. change (2 ^ 24)%Z with 16777216%Z. lra. }
  rewrite E. apply pred_ge_gt; [apply fexp32_valid|apply fmt_B2R..|exact H].
Qed.

Lemma att_stall c v : unit_sample c -> unit_sample v -> B2R cstar <= B2R c -> B2R v <= B2R vstar ->
  B2R (att c v) <= B2R vstar.
Proof.
  intros Hc Hv Lc Lv. rewrite <- vstar_fix at 1. apply att_mono; auto using vstar_unit, cstar_unit.
Qed.

Lemma att_step c v : unit_sample c -> unit_sample v -> B2R c <= 1 - 501 / 16777216 -> B2R v < B2R c999 ->
  B2R v + bpow radix2 (-24) <= B2R (att c v).
Proof.
  intros Hc Hv C1 Lv. apply below_c999 in Lv. rewrite vstar_R in Lv.
  destruct (att_parts c v Hc Hv) as (U & W & A & Eu & Ew & Ea & Lw).
  destruct Hv as [Fv Hv]. destruct U as [Fu Hu]. destruct Hc as [Fc Hc].
  set (u := fsub one v) in *. set (w := fmul c u) in *.
  assert (Ul : 16778 / 16777216 <= B2R u).
  { rewrite Eu. assert (E : B2R (flit 16778 (-24) : f32) = 16778 / 16777216) by (fval (flit 16778 (-24) : f32); lra).
    rewrite <- E. apply rnd_ge_B2R. rewrite E. lra. }
  assert (Gap : B2R w <= B2R u - 500 / 16777216 * B2R u).
  { pose proof (@rnd_rel 24 128 _ (B2R c * B2R u)) as R. rewrite <- Ew in R. apply Rabs_le_inv in R.
    rewrite Rabs_pos_eq in R by nra. revert R.
    change (- (24))%Z with (-24)%Z. change (SpecFloat.emin 24 128 - 1)%Z with (-150)%Z.
    assert (bpow radix2 (-150) <= / 1000000000000000000000).
    { apply Rle_trans with (bpow radix2 (-80)); [apply bpow_le; lia|]. bp. lra. }
    bp. intros R. nra. }
  destruct (Rle_lt_dec (/ 2) (B2R v)) as [H|H].
  - rewrite upper_half_exact in Eu by lra.
    assert (M : mag radix2 (B2R v) = 0%Z :> Z) by (apply mag_unique_pos; bp; change (bpow radix2 (0 - 1)) with (/ 2); lra).
    assert (Sv : succ radix2 (SpecFloat.fexp 24 128) (B2R v) = B2R v + bpow radix2 (-24)).
    { rewrite succ_eq_pos by lra. rewrite ulp_neq_0 by lra. unfold cexp. rewrite M. reflexivity. }
    rewrite <- Sv, Ea.
    apply round_N_ge_midp; [apply fexp32_valid|apply generic_format_succ; [apply fexp32_valid|apply fmt_B2R]|].
    rewrite pred_succ by (first [apply fexp32_valid|apply fmt_B2R]). rewrite Sv. bp. lra.
  - assert (Er : Rabs (rnd32 (1 - B2R v) - (1 - B2R v)) <= bpow radix2 (0 - 24 - 1)).
    { apply rnd_err_le; [cbn; lia|]. apply Rabs_le. bp. lra. }
    rewrite <- Eu in Er. change (0 - 24 - 1)%Z with (-25)%Z in Er. apply Rabs_le_inv in Er.
    assert (Er2 : Rabs (rnd32 (1 - B2R w) - (1 - B2R w)) <= bpow radix2 (0 - 24 - 1)).
    { destruct W. apply rnd_err_le; [cbn; lia|]. apply Rabs_le. bp. lra. }
    rewrite <- Ea in Er2. change (0 - 24 - 1)%Z with (-25)%Z in Er2. apply Rabs_le_inv in Er2.
    revert Er Er2. bp. intros Er Er2. lra.
Qed.

Lemma att_top c v : unit_sample c -> unit_sample v -> B2R v = 1 -> fle c999 (att c v) = true.
Proof.
  intros Hc Hv E. destruct (att_parts c v Hc Hv) as (U & W & [A _] & Eu & Ew & Ea & Lw).
  apply fle_R; [exact c999_fin|exact A|]. rewrite Ea.
  rewrite E, Rminus_diag_eq, rnd_0 in Eu by reflexivity. rewrite Eu, Rmult_0_r, rnd_0 in Ew. rewrite Ew, Rminus_0_r.
  rewrite <- one_R, rnd_B2R, one_R, c999_R. change (2 ^ 24)%Z with 16777216%Z. lra.
Qed.

Lemma ar_complete_aux m : forall e, ar_inv e -> ar_state e = ArAttack -> B2R (ar_ac e) <= 1 - 501 / 16777216 ->
  1 - B2R (ar_value e) <= INR m * bpow radix2 (-24) ->
  exists n, (n <= m)%nat /\ ar_value (fst (ar_ticks (S n) e)) = one.
Proof.
  induction m as [|m IH]; intros e I S C D; pose proof (ar_tick_inv e I) as [I' _]; pose proof I as (Hv & Ha & Hr & Hs & Hg);
    destruct (fle c999 (att (ar_ac e) (ar_value e))) eqn:T.
  - exists 0%nat. split; [lia|]. rewrite ar_ticks_S. unfold ar_tick. rewrite S. fold (att (ar_ac e) (ar_value e)). now rewrite T.
  - exfalso. rewrite att_top in T; [discriminate| | |]; auto. destruct Hv. cbn in D. lra.
  - exists 0%nat. split; [lia|]. rewrite ar_ticks_S. unfold ar_tick. rewrite S. fold (att (ar_ac e) (ar_value e)). now rewrite T.
  - assert (Tk : fst (ar_tick e) = ar_with e (att (ar_ac e) (ar_value e)) ArAttack (ar_gate e)).
    { unfold ar_tick. rewrite S. fold (att (ar_ac e) (ar_value e)). now rewrite T. }
    rewrite Tk in I'.
    destruct (att_parts _ _ Ha Hv) as (_ & _ & [A _] & _).
    apply fle_R_false in T; [|exact c999_fin|exact A].
    pose proof (att_ge _ _ Ha Hv ltac:(lra)) as G.
    pose proof (att_step _ _ Ha Hv C ltac:(lra)) as G2.
    destruct (IH _ I') as (n & Hn & E); [reflexivity|exact C| |].
    + cbn [ar_with ar_value]. rewrite S_INR in D. lra.
    + exists (Datatypes.S n). split; [lia|]. rewrite ar_ticks_S, Tk. exact E.
Qed.

Lemma units_of_unit (v : f32) : unit_sample v -> 1 - B2R v <= INR (Z.to_nat (2 ^ 24)) * bpow radix2 (-24).
Proof.
  intros [_ H]. rewrite INR_IZR_INZ, Z2Nat.id by lia. change (2 ^ 24)%Z with 16777216%Z. bp. lra.
Qed.
Lemma ar_complete L e : exp_unit L -> ar_reach L e -> ar_state e = ArAttack ->
  B2R (ar_ac e) <= 1 - 501 / 16777216 ->
  exists n, (Z.of_nat n <= 2 ^ 24 + 1)%Z /\ ar_value (fst (ar_ticks n e)) = one.
Proof.
  intros HL R S C. pose proof (ar_reach_inv L e HL R) as I. pose proof I as (Hv & _).
  destruct (ar_complete_aux (Z.to_nat (2 ^ 24)) e I S C (units_of_unit _ Hv)) as (n & Hn & E).
  exists (Datatypes.S n). split; [lia|exact E].
Qed.

Lemma ar_stall_aux n : forall e, ar_inv e -> ar_state e = ArAttack -> B2R cstar <= B2R (ar_ac e) ->
  B2R (ar_value e) <= B2R vstar ->
  ar_state (fst (ar_ticks n e)) = ArAttack /\ B2R (ar_value (fst (ar_ticks n e))) <= B2R vstar.
Proof.
  induction n as [|n IH]; intros e I S C D; [auto|].
  pose proof (ar_tick_inv e I) as [I' _]; pose proof I as (Hv & Ha & Hr & Hs & Hg).
  pose proof (att_stall _ _ Ha Hv C D) as G. destruct (att_parts _ _ Ha Hv) as (_ & _ & [A _] & _).
  assert (Tk : fst (ar_tick e) = ar_with e (att (ar_ac e) (ar_value e)) ArAttack (ar_gate e)).
  { unfold ar_tick. rewrite S. fold (att (ar_ac e) (ar_value e)).
    replace (fle c999 (att (ar_ac e) (ar_value e))) with false; [reflexivity|].
    symmetry. apply fle_R_false; [exact c999_fin|exact A|]. rewrite vstar_R in G. rewrite c999_R.
    change (2 ^ 24)%Z with 16777216%Z. lra. }
  rewrite ar_ticks_S, Tk in *. apply IH; auto.
Qed.
Lemma ar_stall L e : exp_unit L -> ar_reach L e -> ar_state e = ArAttack ->
  1 - 500 / 16777216 <= B2R (ar_ac e) -> B2R (ar_value e) < B2R c999 ->
  forall n, ar_state (fst (ar_ticks n e)) = ArAttack /\ B2R (ar_value (fst (ar_ticks n e))) < 0.99900001.
Proof.
  intros HL R S C D n. apply below_c999 in D.
  destruct (ar_stall_aux n e (ar_reach_inv L e HL R) S) as [A B]; [rewrite cstar_R; lra|exact D|].
  split; [exact A|]. rewrite vstar_R in B. lra.
Qed.

(** Between the two thresholds there is no float. *)
Lemma no_gap (c : f32) : unit_sample c -> B2R c <= 1 - 501 / 16777216 \/ 1 - 500 / 16777216 <= B2R c.
Proof.
  intros [F H]. destruct (Rle_lt_dec (1 - 500 / 16777216) (B2R c)) as [G|G]; [now right|left].
  assert (E : pred radix2 (SpecFloat.fexp 24 128) (B2R cstar) = 1 - 501 / 16777216).
  { rewrite pred_upper by (rewrite cstar_R; lra). rewrite cstar_R. bp. lra. }
  rewrite <- E. apply pred_ge_gt; [apply fexp32_valid|apply fmt_B2R..|]. rewrite cstar_R. lra.
Qed.

(** ** In terms of the attack time *)
Lemma coeff_arg (p : f32) : fin p -> 1 <= B2R p ->
  fin (fdiv (fneg one) p) /\ B2R (fdiv (fneg one) p) <= 0 /\
  Rabs (B2R (fdiv (fneg one) p) + / B2R p) <= / B2R p * / 1048576.
Proof.
  intros F P. assert (Pi : 0 < / B2R p <= 1).
  { split; [apply Rinv_0_lt_compat; lra|]. rewrite <- Rinv_1. apply Rinv_le_contravar; lra. }
  assert (Fo : fin (fneg one)) by ffin.
  destruct (fdiv_b (-1) 0 (fneg one) p dyn1 dy0 Fo F) as (Fd & E & B).
  { lra. } { rewrite fneg_R, one_R. unfold Rdiv. lra. }
  split; [exact Fd|]. split; [lra|]. rewrite E, fneg_R, one_R.
  replace (rnd32 (- (1) / B2R p) + / B2R p) with (rnd32 (- (1) / B2R p) - (- (1) / B2R p)) by (unfold Rdiv; ring).
  eapply Rle_trans; [apply rnd_rel|].
  unfold Rdiv. rewrite Rabs_mult, Rabs_Ropp, Rabs_R1, Rmult_1_l, Rabs_pos_eq by lra.
  change (- (24))%Z with (-24)%Z. change (SpecFloat.emin 24 128 - 1)%Z with (-150)%Z.
  assert (L : bpow radix2 (-150) <= bpow radix2 (-21) * / B2R p).
  { apply Rle_trans with (bpow radix2 (-21) * bpow radix2 (-128)); [rewrite <- bpow_plus; apply bpow_le; lia|].
    apply Rmult_le_compat_l; [apply bpow_ge_0|].
    replace (bpow radix2 (-128)) with (/ bpow radix2 128) by (rewrite <- bpow_opp; reflexivity).
    apply Rinv_le_contravar; [lra|]. pose proof (abs_B2R_lt_emax 24 128 p) as Q. rewrite Rabs_pos_eq in Q by lra. lra. }
  revert L. bp. intros. lra.
Qed.

Lemma coeff_short L t sr : exp_acc L -> fin (fmul t sr) -> 1 <= B2R (fmul t sr) <= 33300 ->
  B2R (coeff L t sr) <= 1 - 501 / 16777216.
Proof.
  intros HL F P. unfold coeff. set (p := fmul t sr) in *.
  destruct (coeff_arg p F ltac:(lra)) as (Fx & Nx & Ex). set (x := fdiv (fneg one) p) in *.
  destruct (HL x Fx Nx) as [Fc Ec]. apply Rabs_le_inv in Ec, Ex. revert Ec. bp. intros Ec.
  assert (Y : / 33300 <= / B2R p) by (apply Rinv_le_contravar; lra).
  set (y0 := 503.7 / 16777216). assert (Hy0 : y0 = 503.7 / 16777216) by reflexivity.
  assert (X : B2R x <= - y0) by lra.
  assert (Ee : exp (B2R x) <= / (1 + y0)).
  { rewrite <- (Ropp_involutive (B2R x)), exp_Ropp. apply Rinv_le_contravar; [lra|].
    pose proof (exp_ineq1_le (- B2R x)). lra. }
  assert (/ (1 + y0) <= 1 - 503.6 / 16777216).
  { apply Rmult_le_reg_l with (1 + y0); [lra|]. rewrite Rinv_r by lra. rewrite Hy0. lra. }
  lra.
Qed.
Lemma coeff_long L t sr : exp_acc L -> fin (fmul t sr) -> 33700 <= B2R (fmul t sr) ->
  1 - 500 / 16777216 <= B2R (coeff L t sr).
Proof.
  intros HL F P. unfold coeff. set (p := fmul t sr) in *.
  destruct (coeff_arg p F ltac:(lra)) as (Fx & Nx & Ex). set (x := fdiv (fneg one) p) in *.
  destruct (HL x Fx Nx) as [Fc Ec]. apply Rabs_le_inv in Ec, Ex. revert Ec. bp. intros Ec.
  assert (Y : / B2R p <= / 33700) by (apply Rinv_le_contravar; lra).
  pose proof (exp_ineq1_le (B2R x)). lra.
Qed.

Lemma ar_start_reach L sr t : sr_ok sr -> ar_reach L (ar_start L sr t).
Proof.
  intros H. exists sr, [ArOAttack t; ArOTrigger]. repeat split; [exact H|repeat constructor].
Qed.

Lemma clamp_time_id t : flt c0001 t = true -> clamp_time t = t.
Proof. intros H. unfold clamp_time. now rewrite H. Qed.
Lemma ar_time_short L sr t : exp_unit L -> exp_acc L -> sr_ok sr -> fin (fmul t sr) -> flt c0001 t = true ->
  1 <= B2R (fmul t sr) <= 33300 ->
  exists n, (Z.of_nat n <= 2 ^ 24 + 1)%Z /\ ar_value (fst (ar_ticks n (ar_start L sr t))) = one.
Proof.
  intros HL HA Hs F T P. apply (ar_complete L); [exact HL|now apply ar_start_reach|reflexivity|].
  unfold ar_start. cbn [ar_trigger ar_setAttack ar_with ar_ac ar_init ar_sr].
  rewrite clamp_time_id by exact T. now apply coeff_short.
Qed.
Lemma ar_time_long L sr t : exp_unit L -> exp_acc L -> sr_ok sr -> fin (fmul t sr) -> flt c0001 t = true ->
  33700 <= B2R (fmul t sr) ->
  forall n, ar_state (fst (ar_ticks n (ar_start L sr t))) = ArAttack /\
            B2R (ar_value (fst (ar_ticks n (ar_start L sr t)))) < 0.99900001.
Proof.
  intros HL HA Hs F T P. apply (ar_stall L); [exact HL|now apply ar_start_reach|reflexivity| |].
  - unfold ar_start. cbn [ar_trigger ar_setAttack ar_with ar_ac ar_init ar_sr].
    rewrite clamp_time_id by exact T. now apply coeff_long.
  - unfold ar_start. cbn [ar_trigger ar_setAttack ar_with ar_value ar_init]. rewrite fzero_R, c999_R.
    change (2 ^ 24)%Z with 16777216%Z. lra.
Qed.

(** ** EnvelopeADSR *)
Definition ad_inv (e : adsr) : Prop :=
  unit_sample (ad_value e) /\ unit_sample (ad_ac e) /\ unit_sample (ad_dc e) /\ unit_sample (ad_rc e) /\
  unit_sample (ad_sus e) /\ sr_ok (ad_sr e).
Ltac six := unfold ad_inv; refine (conj _ (conj _ (conj _ (conj _ (conj _ _)))));
  cbn [ad_value ad_ac ad_dc ad_rc ad_sus ad_sr ad_init ad_with ad_setAttack ad_setDecay ad_setRelease ad_setSustain ad_setDoneAction ad_reset fst].

Definition dcy (s c v : f32) : f32 := fadd s (fmul c (fsub v s)).
Lemma dcy_lerp s c v : dcy s c v = lerp s v c.
Proof. reflexivity. Qed.

Lemma dcy_parts s c v : unit_sample s -> unit_sample c -> unit_sample v ->
  let d := fsub v s in let w := fmul c d in
  fin d /\ fin w /\ B2R d = rnd32 (B2R v - B2R s) /\ B2R w = rnd32 (B2R c * B2R d) /\
  B2R (dcy s c v) = rnd32 (B2R s + B2R w) /\ - B2R s <= B2R d <= B2R v /\ Rabs (B2R w) <= Rabs (B2R d) /\
  (0 <= B2R d -> 0 <= B2R w) /\ (B2R d <= 0 -> B2R w <= 0) /\ unit_sample (dcy s c v).
Proof.
  intros [Fs Hs] [Fc Hc] [Fv Hv] d w.
  assert (dn : dy32 (- B2R s)) by (apply dy_opp, dy_B2R).
  destruct (fsub_b (- B2R s) (B2R v) v s dn (dy_B2R v) Fv Fs) as (Fd & Ed & Bd); [lra|]. fold d in Fd, Ed, Bd.
  assert (W : fin w /\ B2R w = rnd32 (B2R c * B2R d) /\ (0 <= B2R d -> 0 <= B2R w <= B2R d) /\ (B2R d <= 0 -> B2R d <= B2R w <= 0)).
  { destruct (Rle_lt_dec 0 (B2R d)) as [G|G].
    - destruct (fmul_b 0 (B2R d) c d dy0 (dy_B2R d) Fc Fd) as (Fw & Ew & Bw); [nra|]. fold w in Fw, Ew, Bw.
      repeat split; auto; try lra; intros; assert (Z : B2R d = 0) by lra; lra.
    - destruct (fmul_b (B2R d) 0 c d (dy_B2R d) dy0 Fc Fd) as (Fw & Ew & Bw); [nra|]. fold w in Fw, Ew, Bw.
      repeat split; auto; try lra. }
  destruct W as (Fw & Ew & W1 & W2).
  assert (Bl : Rabs (B2R w) <= Rabs (B2R d)).
  { destruct (Rle_lt_dec 0 (B2R d)) as [G|G]; [rewrite !Rabs_pos_eq by lra; apply W1; lra|].
    rewrite !Rabs_left1 by lra. specialize (W2 ltac:(lra)). lra. }
  assert (U : unit_sample (dcy s c v) /\ B2R (dcy s c v) = rnd32 (B2R s + B2R w)).
  { destruct (lerp_bound 0 s v c) as [Fl Bl2]; auto; try lia; try (rewrite Rabs_pos_eq by lra; bp; lra).
    change (lerp s v c) with (dcy s c v) in *. change (bpow radix2 0) with 1 in Bl2. apply Rabs_le_inv in Bl2.
    assert (E : B2R (dcy s c v) = rnd32 (B2R s + B2R w)).
    { assert (Hd : Rabs (B2R d) <= 1) by (apply Rabs_le; lra). apply (Rle_trans _ _ _ Bl) in Hd. apply Rabs_le_inv in Hd.
      apply (fadd_b (-2) 2 s w (dyZ (-2) ltac:(lia)) (dyZ 2 ltac:(lia)) Fs Fw). lra. }
    split; [|exact E]. split; [exact Fl|]. split; [|lra]. rewrite E.
    rewrite <- (rnd_0 (prec:=24) (emax:=128)). apply rnd_le.
    destruct (Rle_lt_dec 0 (B2R d)) as [G|G]; [specialize (W1 G); lra|]. specialize (W2 ltac:(lra)). lra. }
  destruct U as [U E]. repeat split; auto; try lra; try apply U.
Qed.

Lemma sus7_unit : unit_sample (fdec 7 10).
Proof. split; [ffin|]. fval (fdec 7 10 : f32). lra. Qed.
Lemma ad_init_inv L sr : exp_unit L -> sr_ok sr -> ad_inv (ad_init L sr).
Proof.
  intros HL Hs. six; auto using unit_zero, sus7_unit; try (apply coeff_unit; auto; vm_compute; reflexivity).
Qed.

Lemma ad_tick_inv e : ad_inv e -> ad_inv (fst (ad_tick e)) /\ unit_sample (snd (ad_tick e)).
Proof.
  intros (Hv & Ha & Hd & Hr & Hu & Hs).
  assert (I : ad_inv (fst (ad_tick e))).
  { unfold ad_tick, ad_with. destruct (ad_state e) eqn:S.
    - six; auto using unit_zero.
    - destruct (att_parts (ad_ac e) (ad_value e) Ha Hv) as (_ & _ & A & _). unfold att in A.
      destruct (fle c999 _); six; auto using unit_one.
    - destruct (dcy_parts (ad_sus e) (ad_dc e) (ad_value e) Hu Hd Hv) as (_ & _ & _ & _ & _ & _ & _ & _ & _ & A).
      unfold dcy in A. destruct (flt _ c001); six; auto.
    - six; auto.
    - destruct (rel_unit (ad_rc e) (ad_value e) Hr Hv) as [A _].
      destruct (fle _ c0001); six; auto using unit_zero. }
  split; [exact I|]. destruct I as [I _]. exact I.
Qed.

Lemma ad_step_inv L e o : exp_unit L -> ad_op_ok o -> ad_inv e ->
  ad_inv (fst (ad_step L e o)) /\ forall x, snd (ad_step L e o) = Some x -> unit_sample x.
Proof.
  intros HL Ho I. pose proof I as (Hv & Ha & Hd & Hr & Hu & Hs).
  destruct o; cbn [ad_step fst snd].
  - split; [now apply ad_init_inv|discriminate].
  - split; [|discriminate]. six; auto. apply coeff_unit; auto using clamp_time_pos.
  - split; [|discriminate]. six; auto. apply coeff_unit; auto using clamp_time_pos.
  - split; [|discriminate]. cbn in Ho.
    destruct (clamp_fin l fzero one Ho) as [A B]; [reflexivity|exact one_fin|rewrite fzero_R, one_R; lra|].
    rewrite fzero_R, one_R in B. six; auto. split; assumption.
  - split; [|discriminate]. six; auto. apply coeff_unit; auto using clamp_time_pos.
  - split; [|discriminate]. six; auto.
  - split; [|discriminate]. unfold ad_setgate, ad_with. destruct (_ && _); [|destruct (_ && _)]; six; auto.
  - destruct (ad_tick_inv e I) as [A B]. destruct (ad_tick e) as [e' x]. cbn in *. split; [exact A|].
    intros y E. injection E as <-. exact B.
  - split; [|discriminate]. six; auto using unit_zero.
Qed.

Lemma ad_run_inv L : exp_unit L -> forall ops e, Forall ad_op_ok ops -> ad_inv e ->
  ad_inv (fst (ad_run L e ops)) /\ forall x, In (Some x) (snd (ad_run L e ops)) -> unit_sample x.
Proof.
  intros HL. induction ops as [|o t IH]; intros e Ho I; cbn.
  - split; [exact I|contradiction].
  - inversion Ho as [|? ? H1 H2]; subst.
    destruct (ad_step_inv L e o HL H1 I) as [A B]. destruct (ad_step L e o) as [e1 r]. cbn in A, B.
    destruct (IH e1 H2 A) as [C D]. destruct (ad_run L e1 t) as [e2 rs]. cbn in *.
    split; [exact C|]. intros x [E|E]; [now apply B|now apply D].
Qed.
Lemma ad_bounds L sr ops x : exp_unit L -> sr_ok sr -> Forall ad_op_ok ops ->
  In (Some x) (snd (ad_run L (ad_init L sr) ops)) -> fin x /\ 0 <= B2R x <= 1.
Proof. intros HL Hs Ho. apply (ad_run_inv L HL ops _ Ho (ad_init_inv L sr HL Hs)). Qed.
Lemma ad_reach_inv L e : exp_unit L -> ad_reach L e -> ad_inv e.
Proof.
  intros HL (sr & ops & Hs & Ho & ->). apply (ad_run_inv L HL ops _ Ho (ad_init_inv L sr HL Hs)).
Qed.

(** ** Gate semantics: the phase is a function of the gate history and the time since. *)
Definition on_phase (p : ad_phase) : bool := match p with Attack | Decay | Sustain => true | _ => false end.
Definition gate_inv (e : adsr) (g : f32) (snd_ : bool) : Prop :=
  ad_gate e = g /\ is_nan g = false /\ on_phase (ad_state e) = flt fzero g /\
  ad_done e = snd_ && negb (ad_isActive e) /\ (ad_isActive e = true -> snd_ = true) /\ (flt fzero g = true -> snd_ = true).

Lemma le0_neg (g : f32) : is_nan g = false -> fle g fzero = negb (flt fzero g).
Proof. destruct g as [b|b| |b m e B]; try destruct b; cbn; try reflexivity; discriminate. Qed.

Ltac gd := repeat (split; [solve [auto|congruence|rewrite ?orb_true_r, ?orb_false_r; auto; congruence]|]);
  solve [auto|congruence|rewrite ?orb_true_r, ?orb_false_r; auto; congruence].
Lemma gate_tick e g s : gate_inv e g s -> gate_inv (fst (ad_tick e)) g s.
Proof.
  intros (G & N & P & D & A & O). unfold ad_tick. rewrite G. rewrite (le0_neg g N).
  destruct (ad_state e) eqn:S; cbn in P; rewrite <- P in *; cbn [negb].
  - unfold gate_inv. cbn. unfold ad_isActive in *. rewrite S in *. cbn in *. gd.
  - destruct (fle c999 _); unfold gate_inv; cbn; unfold ad_isActive in *; rewrite S in *; cbn in *; gd.
  - destruct (flt _ c001); unfold gate_inv; cbn; unfold ad_isActive in *; rewrite S in *; cbn in *; gd.
  - unfold gate_inv; cbn; unfold ad_isActive in *; rewrite S in *; cbn in *; gd.
  - destruct (fle _ c0001); unfold gate_inv; cbn; unfold ad_isActive in *; rewrite S in *; cbn in *;
      specialize (A eq_refl); subst s; gd.
Qed.

Lemma gate_step L e o g s : ad_gate_ok o -> gate_inv e g s ->
  gate_inv (fst (ad_step L e o)) (match o with AdInit _ | AdReset => fzero | AdGate h => h | _ => g end)
           (match o with AdInit _ | AdReset => false | AdGate h => s || flt fzero h | _ => s end).
Proof.
  intros K I. pose proof I as (G & N & P & D & A & O).
  destruct o; cbn [ad_step fst]; try exact I.
  - unfold gate_inv. cbn. gd.
  - cbn in K. unfold ad_setgate. rewrite G. rewrite (le0_neg g N), (le0_neg g0 K).
    destruct (flt fzero g) eqn:E1; destruct (flt fzero g0) eqn:E2; cbn [negb andb];
      unfold gate_inv; cbn; unfold ad_isActive in *; rewrite ?E2; destruct (ad_state e); cbn in *; try discriminate; try (rewrite (O eq_refl) in * ); rewrite ?orb_true_r, ?orb_false_r; try gd.
    all: cbn. all: gd.
  - destruct (ad_tick e) as [e' x] eqn:T. cbn. pose proof (gate_tick e g s I) as J. now rewrite T in J.
  - unfold gate_inv. cbn. gd.
Qed.

Lemma gate_run L ops : forall e g s, Forall ad_gate_ok ops -> gate_inv e g s ->
  gate_inv (fst (ad_run L e ops))
    (fold_left (fun g o => match o with AdInit _ | AdReset => fzero | AdGate h => h | _ => g end) ops g)
    (fold_left (fun s o => match o with AdInit _ | AdReset => false | AdGate h => s || flt fzero h | _ => s end) ops s).
Proof.
  induction ops as [|o t IH]; intros e g s K I; [exact I|].
  inversion K as [|? ? K1 K2]; subst. pose proof (gate_step L e o g s K1 I) as J.
  cbn [ad_run fold_left]. destruct (ad_step L e o) as [e1 r]. cbn [fst] in J.
  specialize (IH e1 _ _ K2 J). destruct (ad_run L e1 t) as [e2 rs]. exact IH.
Qed.

Lemma ad_gate_spec L sr ops e : Forall ad_gate_ok ops -> e = fst (ad_run L (ad_init L sr) ops) ->
  sounding_phase (ad_state e) = flt fzero (last_gate ops) /\
  ad_isDone e = sounded ops && negb (ad_isActive e) /\
  forall g, is_nan g = false ->
    ad_value (ad_setgate e g) = ad_value e /\
    ad_state (ad_setgate e g) =
      (if flt fzero g then (if flt fzero (last_gate ops) then ad_state e else Attack)
       else if ad_isActive e then Release else Idle).
Proof.
  intros K ->.
  assert (I0 : gate_inv (ad_init L sr) fzero false) by (unfold gate_inv; cbn; auto 10).
  destruct (gate_run L ops _ _ _ K I0) as (G & N & P & D & A & O).
  fold (last_gate ops) in G, N, P, O. fold (sounded ops) in D, A, O. set (e := fst (ad_run L (ad_init L sr) ops)) in *.
  split; [exact P|]. split; [exact D|]. intros g Ng. unfold ad_setgate. rewrite G, (le0_neg _ N), (le0_neg _ Ng).
  unfold ad_isActive in *.
  destruct (flt fzero (last_gate ops)) eqn:E1; destruct (flt fzero g) eqn:E2; cbn [negb andb]; split; try reflexivity;
    cbn; destruct (ad_state e); try discriminate P; reflexivity.
Qed.

Lemma ad_ticks_S n e : fst (ad_ticks (S n) e) = fst (ad_ticks n (fst (ad_tick e))).
Proof. cbn [ad_ticks]. destruct (ad_tick e) as [e1 x]. cbn [fst]. now destruct (ad_ticks n e1). Qed.

Lemma ad_release_ends_aux m : forall e, ad_inv e -> ad_state e = Release -> B2R (ad_rc e) < 1 ->
  B2R (ad_value e) = INR m * bpow radix2 (-149) ->
  exists n, (n <= m)%nat /\ ad_state (fst (ad_ticks (S n) e)) = Idle /\ ad_done (fst (ad_ticks (S n) e)) = true.
Proof.
  induction m as [m IH] using lt_wf_ind. intros e I S C E.
  pose proof (ad_tick_inv e I) as [I' _]. pose proof I as (Hv & Ha & Hd & Hr & Hu & Hs).
  destruct (fle (fmul (ad_rc e) (ad_value e)) c0001) eqn:L.
  - exists 0%nat. split; [lia|]. rewrite ad_ticks_S. unfold ad_tick. rewrite S, L. auto.
  - assert (T : fst (ad_tick e) = ad_with e (fmul (ad_rc e) (ad_value e)) Release (ad_gate e) (ad_done e)).
    { unfold ad_tick. now rewrite S, L. }
    rewrite T in I'.
    destruct (rel_unit _ _ Hr Hv) as [[F B] M].
    apply fle_R_false in L; [|exact F|exact c0001_fin].
    assert (D : B2R (fmul (ad_rc e) (ad_value e)) < B2R (ad_value e)) by (apply rel_lt; auto; lra).
    destruct (grid_nat (fmul (ad_rc e) (ad_value e))) as [m' E']; [lra|].
    assert (Lt : (m' < m)%nat) by (apply grid_lt; lra).
    destruct (IH m' Lt _ I') as (n & Hn & Hi); [reflexivity|exact C|exact E'|].
    exists (Datatypes.S n). split; [lia|]. rewrite ad_ticks_S, T. exact Hi.
Qed.
Lemma ad_release_ends L e : exp_unit L -> ad_reach L e -> ad_state e = Release -> B2R (ad_rc e) < 1 ->
  exists n, ad_isActive (fst (ad_ticks n e)) = false /\ ad_isDone (fst (ad_ticks n e)) = true.
Proof.
  intros HL R S C. pose proof (ad_reach_inv L e HL R) as I. pose proof I as ((Fv & Hv) & _).
  destruct (grid_nat (ad_value e)) as [m E]; [lra|].
  destruct (ad_release_ends_aux m e I S C E) as (n & _ & H1 & H2). exists (Datatypes.S n).
  unfold ad_isActive, ad_isDone. now rewrite H1, H2.
Qed.

Lemma ad_idle_ticks n : forall e, ad_state e = Idle ->
  ad_state (fst (ad_ticks n e)) = Idle /\ Forall (fun x => x = fzero) (snd (ad_ticks n e)).
Proof.
  induction n as [|n IH]; intros e S; [cbn; auto|].
  assert (T : ad_tick e = (ad_with e fzero Idle (ad_gate e) (ad_done e), fzero)) by (unfold ad_tick; now rewrite S).
  cbn [ad_ticks]. rewrite T. destruct (IH (ad_with e fzero Idle (ad_gate e) (ad_done e)) eq_refl) as [A B].
  destruct (ad_ticks n _) as [e2 xs]. cbn [fst snd] in *. auto.
Qed.
Lemma ad_sustain_ticks n : forall e, ad_state e = Sustain -> flt fzero (ad_gate e) = true ->
  ad_state (fst (ad_ticks n e)) = Sustain /\ Forall (fun x => x = ad_sus e) (snd (ad_ticks n e)).
Proof.
  induction n as [|n IH]; intros e S G; [cbn; auto|].
  assert (T : ad_tick e = (ad_with e (ad_sus e) Sustain (ad_gate e) (ad_done e), ad_sus e)).
  { unfold ad_tick. rewrite S. assert (N : is_nan (ad_gate e) = false) by (apply flt_nan in G; tauto).
    rewrite (le0_neg _ N), G. reflexivity. }
  cbn [ad_ticks]. rewrite T. destruct (IH (ad_with e (ad_sus e) Sustain (ad_gate e) (ad_done e)) eq_refl G) as [A B].
  destruct (ad_ticks n _) as [e2 xs]. cbn [fst snd] in *. auto.
Qed.

(** Attack of the ADSR. *)
Lemma pos_not_le (g : f32) : flt fzero g = true -> fle g fzero = false.
Proof. intros G. assert (N : is_nan g = false) by (apply flt_nan in G; tauto). now rewrite (le0_neg _ N), G. Qed.

Lemma ad_complete_aux m : forall e, ad_inv e -> ad_state e = Attack -> flt fzero (ad_gate e) = true ->
  B2R (ad_ac e) <= 1 - 501 / 16777216 -> 1 - B2R (ad_value e) <= INR m * bpow radix2 (-24) ->
  exists n, (n <= m)%nat /\ ad_value (fst (ad_ticks (S n) e)) = one /\ ad_state (fst (ad_ticks (S n) e)) = Decay.
Proof.
  induction m as [|m IH]; intros e I S G0 C D; pose proof (ad_tick_inv e I) as [I' _]; pose proof I as (Hv & Ha & _);
    destruct (fle c999 (att (ad_ac e) (ad_value e))) eqn:T.
  - exists 0%nat. split; [lia|]. rewrite ad_ticks_S. unfold ad_tick. rewrite S. fold (att (ad_ac e) (ad_value e)).
    rewrite T, (pos_not_le _ G0). auto.
  - exfalso. rewrite att_top in T; [discriminate| | |]; auto. destruct Hv. cbn in D. lra.
  - exists 0%nat. split; [lia|]. rewrite ad_ticks_S. unfold ad_tick. rewrite S. fold (att (ad_ac e) (ad_value e)).
    rewrite T, (pos_not_le _ G0). auto.
  - assert (Tk : fst (ad_tick e) = ad_with e (att (ad_ac e) (ad_value e)) Attack (ad_gate e) (ad_done e)).
    { unfold ad_tick. rewrite S. fold (att (ad_ac e) (ad_value e)). now rewrite T, (pos_not_le _ G0). }
    rewrite Tk in I'.
    destruct (att_parts _ _ Ha Hv) as (_ & _ & [A _] & _).
    apply fle_R_false in T; [|exact c999_fin|exact A].
    pose proof (att_ge _ _ Ha Hv ltac:(lra)) as G.
    pose proof (att_step _ _ Ha Hv C ltac:(lra)) as G2.
    destruct (IH _ I') as (n & Hn & E); [reflexivity|exact G0|exact C| |].
    + cbn [ad_with ad_value]. rewrite S_INR in D. lra.
    + exists (Datatypes.S n). split; [lia|]. rewrite ad_ticks_S, Tk. exact E.
Qed.
Lemma ad_complete L e : exp_unit L -> ad_reach L e -> ad_state e = Attack -> flt fzero (ad_gate e) = true ->
  B2R (ad_ac e) <= 1 - 501 / 16777216 ->
  exists n, (Z.of_nat n <= 2 ^ 24 + 1)%Z /\ ad_value (fst (ad_ticks n e)) = one /\ ad_state (fst (ad_ticks n e)) = Decay.
Proof.
  intros HL R S G C. pose proof (ad_reach_inv L e HL R) as I. pose proof I as (Hv & _).
  destruct (ad_complete_aux (Z.to_nat (2 ^ 24)) e I S G C (units_of_unit _ Hv)) as (n & Hn & E).
  exists (Datatypes.S n). split; [lia|exact E].
Qed.
Lemma ad_stall_aux n : forall e, ad_inv e -> ad_state e = Attack -> flt fzero (ad_gate e) = true ->
  B2R cstar <= B2R (ad_ac e) -> B2R (ad_value e) <= B2R vstar ->
  ad_state (fst (ad_ticks n e)) = Attack /\ B2R (ad_value (fst (ad_ticks n e))) <= B2R vstar.
Proof.
  induction n as [|n IH]; intros e I S G0 C D; [auto|].
  pose proof (ad_tick_inv e I) as [I' _]; pose proof I as (Hv & Ha & _).
  pose proof (att_stall _ _ Ha Hv C D) as G. destruct (att_parts _ _ Ha Hv) as (_ & _ & [A _] & _).
  assert (Tk : fst (ad_tick e) = ad_with e (att (ad_ac e) (ad_value e)) Attack (ad_gate e) (ad_done e)).
  { unfold ad_tick. rewrite S. fold (att (ad_ac e) (ad_value e)).
    replace (fle c999 (att (ad_ac e) (ad_value e))) with false; [now rewrite (pos_not_le _ G0)|].
    symmetry. apply fle_R_false; [exact c999_fin|exact A|]. rewrite vstar_R in G. rewrite c999_R.
    change (2 ^ 24)%Z with 16777216%Z. lra. }
  rewrite ad_ticks_S, Tk in *. apply IH; auto.
Qed.
Lemma ad_stall L e : exp_unit L -> ad_reach L e -> ad_state e = Attack -> flt fzero (ad_gate e) = true ->
  1 - 500 / 16777216 <= B2R (ad_ac e) -> B2R (ad_value e) < B2R c999 ->
  forall n, ad_state (fst (ad_ticks n e)) = Attack /\ B2R (ad_value (fst (ad_ticks n e))) < 0.99900001.
Proof.
  intros HL R S G C D n. apply below_c999 in D.
  destruct (ad_stall_aux n e (ad_reach_inv L e HL R) S G) as [A B]; [rewrite cstar_R; lra|exact D|].
  split; [exact A|]. rewrite vstar_R in B. lra.
Qed.

(** ** Decay settles for short decays, stalls for long ones *)
Lemma c001_R : B2R c001 = IZR 8589935 / IZR (2 ^ 33). Proof. fval c001. exact V. Qed.

Lemma dcy_near s c v : unit_sample s -> unit_sample c -> unit_sample v -> Rabs (B2R v - B2R s) <= 0.0009 ->
  flt (fabs (fsub (dcy s c v) s)) c001 = true.
Proof.
  intros Hs Hc Hv Hd. destruct (dcy_parts s c v Hs Hc Hv) as (Fd & Fw & Ed & Ew & Ey & Bd & Bw & _ & _ & [Fy By]).
  set (d := fsub v s) in *. set (w := fmul c d) in *. set (y := dcy s c v) in *.
  destruct Hs as [Fs Hs], Hv as [Fv Hv].
  assert (E1 : Rabs (rnd32 (B2R v - B2R s) - (B2R v - B2R s)) <= bpow radix2 (0 - 24 - 1)).
  { apply rnd_err_le; [cbn; lia|]. bp. lra. }
  rewrite <- Ed in E1.
  assert (D1 : Rabs (B2R d) <= 0.00091).
  { replace (B2R d) with ((B2R d - (B2R v - B2R s)) + (B2R v - B2R s)) by ring.
    eapply Rle_trans; [apply Rabs_triang|]. change (bpow radix2 (0 - 24 - 1)) with (/ 33554432) in *. change (bpow radix2 (1 - 24 - 1)) with (/ 16777216) in *. lra. }
  assert (D2 : Rabs (B2R w) <= 0.00091) by lra.
  assert (E2 : Rabs (rnd32 (B2R s + B2R w) - (B2R s + B2R w)) <= bpow radix2 (1 - 24 - 1)).
  { apply rnd_err_le; [cbn; lia|]. apply Rabs_le. apply Rabs_le_inv in D2. bp. lra. }
  rewrite <- Ey in E2.
  assert (D3 : Rabs (B2R y - B2R s) <= 0.00092).
  { replace (B2R y - B2R s) with ((B2R y - (B2R s + B2R w)) + B2R w) by ring.
    eapply Rle_trans; [apply Rabs_triang|]. change (bpow radix2 (0 - 24 - 1)) with (/ 33554432) in *. change (bpow radix2 (1 - 24 - 1)) with (/ 16777216) in *. lra. }
  assert (E3 : Rabs (rnd32 (B2R y - B2R s) - (B2R y - B2R s)) <= bpow radix2 (0 - 24 - 1)).
  { apply rnd_err_le; [cbn; lia|]. bp. lra. }
  destruct (fsub_b (-1) 1 y s dyn1 dy1 Fy Fs) as (Fz & Ez & _); [lra|]. rewrite <- Ez in E3.
  apply flt_R; [now apply fabs_fin|exact c001_fin|]. rewrite fabs_R, c001_R.
  apply Rle_lt_trans with (0.00093).
  - replace (B2R (fsub y s)) with ((B2R (fsub y s) - (B2R y - B2R s)) + (B2R y - B2R s)) by ring.
    eapply Rle_trans; [apply Rabs_triang|]. change (bpow radix2 (0 - 24 - 1)) with (/ 33554432) in *. lra.
  - change (2 ^ 33)%Z with 8589934592%Z. lra.
Qed.

Lemma dcy_step s c v : unit_sample s -> unit_sample c -> unit_sample v -> 0.0009 <= Rabs (B2R v - B2R s) ->
  B2R c <= 1 - bpow radix2 (-13) ->
  Rabs (B2R (dcy s c v) - B2R s) <= Rabs (B2R v - B2R s) - bpow radix2 (-25).
Proof.
  intros Hs Hc Hv Hd C. destruct (dcy_parts s c v Hs Hc Hv) as (Fd & Fw & Ed & Ew & Ey & Bd & Bw & P1 & P2 & [Fy By]).
  set (d := fsub v s) in *. set (w := fmul c d) in *. set (y := dcy s c v) in *.
  destruct Hs as [Fs Hs], Hv as [Fv Hv], Hc as [Fc Hc].
  assert (Dl : Rabs (B2R v - B2R s) <= 1) by (apply Rabs_le; lra).
  assert (E1 : Rabs (rnd32 (B2R v - B2R s) - (B2R v - B2R s)) <= bpow radix2 (0 - 24 - 1)).
  { apply rnd_err_le; [cbn; lia|]. bp. lra. }
  rewrite <- Ed in E1.
  assert (D1 : Rabs (B2R d) <= Rabs (B2R v - B2R s) + / 33554432).
  { replace (B2R d) with ((B2R d - (B2R v - B2R s)) + (B2R v - B2R s)) by ring.
    eapply Rle_trans; [apply Rabs_triang|]. change (bpow radix2 (0 - 24 - 1)) with (/ 33554432) in *. lra. }
  assert (D2 : Rabs (B2R w) <= Rabs (B2R v - B2R s) - 1.2 / 16777216).
  { pose proof (@rnd_rel 24 128 _ (B2R c * B2R d)) as R. rewrite <- Ew in R.
    change (- (24))%Z with (-24)%Z in R. change (SpecFloat.emin 24 128 - 1)%Z with (-150)%Z in R.
    assert (bpow radix2 (-150) <= / 1000000000000000000000).
    { apply Rle_trans with (bpow radix2 (-80)); [apply bpow_le; lia|]. bp. lra. }
    assert (W : Rabs (B2R w) <= Rabs (B2R c * B2R d) * (1 + / 16777216) + / 1000000000000000000000).
    { replace (B2R w) with ((B2R w - B2R c * B2R d) + B2R c * B2R d) by ring.
      eapply Rle_trans; [apply Rabs_triang|]. revert R. bp. intros. lra. }
    rewrite Rabs_mult, (Rabs_pos_eq (B2R c)) in W by lra. revert C. bp. intros C.
    assert (B2R c * Rabs (B2R d) <= (1 - / 8192) * (Rabs (B2R v - B2R s) + / 33554432)).
    { apply Rmult_le_compat; try lra. apply Rabs_pos. }
    lra. }
  assert (Sw : Rabs (B2R s + B2R w) <= 1).
  { destruct (Rle_lt_dec (B2R w) 0) as [G|G].
    - assert (Rabs (B2R w) <= 1) by lra. apply Rabs_le. split; [|lra]. apply Rabs_le_inv in H. lra.
    - assert (Pd : 0 < B2R d) by (destruct (Rle_lt_dec (B2R d) 0) as [Q|Q]; [specialize (P2 Q); lra|exact Q]).
      assert (Pv : 0 < B2R v - B2R s).
      { destruct (Rle_lt_dec (B2R v - B2R s) 0) as [Q|Q]; [|exact Q].
        apply (rnd_le (prec:=24) (emax:=128)) in Q. rewrite rnd_0, <- Ed in Q. lra. }
      rewrite Rabs_pos_eq in D2 by lra. rewrite (Rabs_pos_eq (B2R v - B2R s)) in D2 by lra.
      apply Rabs_le. lra. }
  assert (E2 : Rabs (rnd32 (B2R s + B2R w) - (B2R s + B2R w)) <= bpow radix2 (0 - 24 - 1)).
  { apply rnd_err_le; [cbn; lia|]. bp. lra. }
  rewrite <- Ey in E2. change (bpow radix2 (0 - 24 - 1)) with (/ 33554432) in E2.
  replace (B2R y - B2R s) with ((B2R y - (B2R s + B2R w)) + B2R w) by ring.
  eapply Rle_trans; [apply Rabs_triang|]. bp. lra.
Qed.

Lemma ad_settle_aux m : forall e, ad_inv e -> ad_state e = Decay -> flt fzero (ad_gate e) = true ->
  B2R (ad_dc e) <= 1 - bpow radix2 (-13) -> Rabs (B2R (ad_value e) - B2R (ad_sus e)) <= INR m * bpow radix2 (-25) ->
  exists n, (n <= m)%nat /\ ad_value (fst (ad_ticks (S n) e)) = ad_sus e /\ ad_state (fst (ad_ticks (S n) e)) = Sustain.
Proof.
  induction m as [|m IH]; intros e I S G0 C D; pose proof (ad_tick_inv e I) as [I' _]; pose proof I as (Hv & Ha & Hd & Hr & Hu & Hs);
    destruct (flt (fabs (fsub (dcy (ad_sus e) (ad_dc e) (ad_value e)) (ad_sus e))) c001) eqn:T.
  - exists 0%nat. split; [lia|]. rewrite ad_ticks_S. unfold ad_tick. rewrite S.
    fold (dcy (ad_sus e) (ad_dc e) (ad_value e)). rewrite T, (pos_not_le _ G0). auto.
  - exfalso. rewrite dcy_near in T; auto; [discriminate|]. cbn in D. lra.
  - exists 0%nat. split; [lia|]. rewrite ad_ticks_S. unfold ad_tick. rewrite S.
    fold (dcy (ad_sus e) (ad_dc e) (ad_value e)). rewrite T, (pos_not_le _ G0). auto.
  - assert (Tk : fst (ad_tick e) = ad_with e (dcy (ad_sus e) (ad_dc e) (ad_value e)) Decay (ad_gate e) (ad_done e)).
    { unfold ad_tick. rewrite S. fold (dcy (ad_sus e) (ad_dc e) (ad_value e)). now rewrite T, (pos_not_le _ G0). }
    rewrite Tk in I'.
    destruct (Rle_lt_dec (Rabs (B2R (ad_value e) - B2R (ad_sus e))) 0.0009) as [N|N].
    { rewrite dcy_near in T; auto; discriminate. }
    pose proof (dcy_step _ _ _ Hu Hd Hv ltac:(lra) C) as G2.
    destruct (IH _ I') as (n & Hn & E); [reflexivity|exact G0|exact C| |].
    + cbn [ad_with ad_value ad_sus]. rewrite S_INR in D. lra.
    + exists (Datatypes.S n). split; [lia|]. rewrite ad_ticks_S, Tk. exact E.
Qed.
Lemma ad_settle L e : exp_unit L -> ad_reach L e -> ad_state e = Decay -> flt fzero (ad_gate e) = true ->
  B2R (ad_dc e) <= 1 - bpow radix2 (-13) ->
  exists n, (Z.of_nat n <= 2 ^ 25 + 1)%Z /\ ad_value (fst (ad_ticks n e)) = ad_sus e /\ ad_state (fst (ad_ticks n e)) = Sustain.
Proof.
  intros HL R S G C. pose proof (ad_reach_inv L e HL R) as I. pose proof I as ([_ Hv] & _ & _ & _ & [_ Hu] & _).
  destruct (ad_settle_aux (Z.to_nat (2 ^ 25)) e I S G C) as (n & Hn & E).
  { rewrite INR_IZR_INZ, Z2Nat.id by lia. change (2 ^ 25)%Z with 33554432%Z. bp. apply Rabs_le. lra. }
  exists (Datatypes.S n). split; [lia|exact E].
Qed.

Definition vdec : f32 := flit 11760829 (-24).
Definition cdec : f32 := flit 16776717 (-24).
Lemma vdec_R : B2R vdec = 11760829 / 16777216. Proof. fval vdec. lra. Qed.
Lemma cdec_R : B2R cdec = 16776717 / 16777216. Proof. fval cdec. lra. Qed.
Lemma s7_R : B2R (fdec 7 10 : f32) = 11744051 / 16777216. Proof. fval (fdec 7 10 : f32). lra. Qed.
Lemma vdec_unit : unit_sample vdec. Proof. split; [ffin|]. rewrite vdec_R. lra. Qed.
Lemma cdec_unit : unit_sample cdec. Proof. split; [ffin|]. rewrite cdec_R. lra. Qed.
Lemma vdec_fix : dcy (fdec 7 10) cdec vdec = vdec. Proof. vm_compute. reflexivity. Qed.

Lemma dcy_mono s c c' v v' : unit_sample s -> unit_sample c -> unit_sample c' -> unit_sample v -> unit_sample v' ->
  B2R s <= B2R v -> B2R v <= B2R v' -> B2R c <= B2R c' -> B2R (dcy s c v) <= B2R (dcy s c' v').
Proof.
  intros Hs Hc Hc' Hv Hv' L1 L2 L3.
  destruct (dcy_parts s c v Hs Hc Hv) as (_ & _ & E1 & E2 & -> & _).
  destruct (dcy_parts s c' v' Hs Hc' Hv') as (_ & _ & E3 & E4 & -> & _).
  apply rnd_le. apply Rplus_le_compat_l. rewrite E2, E4. apply rnd_le.
  assert (0 <= B2R (fsub v s)) by (rewrite E1; apply rnd_nonneg; lra).
  assert (B2R (fsub v s) <= B2R (fsub v' s)) by (rewrite E1, E3; apply rnd_le; lra).
  destruct Hc, Hc'. apply Rmult_le_compat; lra.
Qed.

Lemma far_from_sus (v : f32) : unit_sample v -> B2R vdec <= B2R v -> flt (fabs (fsub v (fdec 7 10))) c001 = false.
Proof.
  intros [F B] L. destruct sus7_unit as [Fs Bs].
  destruct (fsub_b (-1) 1 v (fdec 7 10) dyn1 dy1 F Fs) as (Fz & Ez & _); [lra|].
  apply flt_R_false; [now apply fabs_fin|exact c001_fin|]. rewrite fabs_R, Ez.
  eapply Rle_trans; [|apply Rle_abs].
  assert (E : B2R (fsub vdec (fdec 7 10)) = rnd32 (B2R vdec - B2R (fdec 7 10 : f32))).
  { destruct vdec_unit as [Fv _]. apply (fsub_b (-1) 1 vdec (fdec 7 10) dyn1 dy1 Fv Fs). rewrite vdec_R. lra. }
  apply Rle_trans with (B2R (fsub vdec (fdec 7 10))); [|rewrite E; apply rnd_le; lra].
  apply fle_R; [exact c001_fin|ffin|]. vm_compute. reflexivity.
Qed.

Lemma ad_decay_stall_aux n : forall e, ad_inv e -> ad_state e = Decay -> flt fzero (ad_gate e) = true ->
  ad_sus e = fdec 7 10 -> B2R cdec <= B2R (ad_dc e) -> B2R vdec <= B2R (ad_value e) ->
  ad_state (fst (ad_ticks n e)) = Decay /\ B2R vdec <= B2R (ad_value (fst (ad_ticks n e))).
Proof.
  induction n as [|n IH]; intros e I S G0 U C D; [auto|].
  pose proof (ad_tick_inv e I) as [I' _]; pose proof I as (Hv & Ha & Hd & Hr & Hu & Hs).
  assert (G : B2R vdec <= B2R (dcy (ad_sus e) (ad_dc e) (ad_value e))).
  { rewrite <- vdec_fix at 1. rewrite U in *. apply dcy_mono; auto using vdec_unit, cdec_unit.
    rewrite s7_R, vdec_R. lra. }
  destruct (dcy_parts _ _ _ Hu Hd Hv) as (_ & _ & _ & _ & _ & _ & _ & _ & _ & A).
  assert (Tk : fst (ad_tick e) = ad_with e (dcy (ad_sus e) (ad_dc e) (ad_value e)) Decay (ad_gate e) (ad_done e)).
  { unfold ad_tick. rewrite S. fold (dcy (ad_sus e) (ad_dc e) (ad_value e)).
    replace (flt (fabs (fsub (dcy (ad_sus e) (ad_dc e) (ad_value e)) (ad_sus e))) c001) with false;
      [now rewrite (pos_not_le _ G0)|]. symmetry. rewrite U at 2. now apply far_from_sus. }
  rewrite ad_ticks_S, Tk in *. apply IH; auto.
Qed.
Lemma ad_decay_stall L e : exp_unit L -> ad_reach L e -> ad_state e = Decay -> flt fzero (ad_gate e) = true ->
  ad_sus e = fdec 7 10 -> 1 - 499 / 16777216 <= B2R (ad_dc e) -> 0.70101 <= B2R (ad_value e) ->
  forall n, ad_state (fst (ad_ticks n e)) = Decay /\ 0.701 <= B2R (ad_value (fst (ad_ticks n e))).
Proof.
  intros HL R S G U C D n.
  destruct (ad_decay_stall_aux n e (ad_reach_inv L e HL R) S G U) as [A B]; [rewrite cdec_R; lra|rewrite vdec_R; lra|].
  split; [exact A|]. rewrite vdec_R in B. lra.
Qed.

Lemma coeff_long2 L t sr : exp_acc L -> fin (fmul t sr) -> 33800 <= B2R (fmul t sr) ->
  1 - 499 / 16777216 <= B2R (coeff L t sr).
Proof.
  intros HL F P. unfold coeff. set (p := fmul t sr) in *.
  destruct (coeff_arg p F ltac:(lra)) as (Fx & Nx & Ex). set (x := fdiv (fneg one) p) in *.
  destruct (HL x Fx Nx) as [Fc Ec]. apply Rabs_le_inv in Ec, Ex. revert Ec. bp. intros Ec.
  assert (Y : / B2R p <= / 33800) by (apply Rinv_le_contravar; lra).
  pose proof (exp_ineq1_le (B2R x)). lra.
Qed.
Lemma coeff_short2 L t sr : exp_acc L -> fin (fmul t sr) -> 1 <= B2R (fmul t sr) <= 8000 ->
  B2R (coeff L t sr) <= 1 - bpow radix2 (-13).
Proof.
  intros HL F P. unfold coeff. set (p := fmul t sr) in *.
  destruct (coeff_arg p F ltac:(lra)) as (Fx & Nx & Ex). set (x := fdiv (fneg one) p) in *.
  destruct (HL x Fx Nx) as [Fc Ec]. apply Rabs_le_inv in Ec, Ex. revert Ec. bp. intros Ec.
  assert (Y : / 8000 <= / B2R p) by (apply Rinv_le_contravar; lra).
  set (y0 := 0.000124). assert (Hy0 : y0 = 0.000124) by reflexivity.
  assert (X : B2R x <= - y0) by lra.
  assert (Ee : exp (B2R x) <= / (1 + y0)).
  { rewrite <- (Ropp_involutive (B2R x)), exp_Ropp. apply Rinv_le_contravar; [lra|].
    pose proof (exp_ineq1_le (- B2R x)). lra. }
  assert (/ (1 + y0) <= 1 - 0.0001239).
  { apply Rmult_le_reg_l with (1 + y0); [lra|]. rewrite Rinv_r by lra. rewrite Hy0. lra. }
  lra.
Qed.

(** The whole note with a short attack and decay, gate held: peak, then the sustain level for ever. *)
Lemma ad_ticks_add m n e : fst (ad_ticks (m + n) e) = fst (ad_ticks n (fst (ad_ticks m e))).
Proof. revert e. induction m as [|m IH]; intros e; [reflexivity|]. cbn [Nat.add]. now rewrite !ad_ticks_S, IH. Qed.
Lemma ad_tick_frame e : ad_ac (fst (ad_tick e)) = ad_ac e /\ ad_dc (fst (ad_tick e)) = ad_dc e /\ ad_rc (fst (ad_tick e)) = ad_rc e /\
  ad_sus (fst (ad_tick e)) = ad_sus e /\ ad_gate (fst (ad_tick e)) = ad_gate e.
Proof.
  unfold ad_tick. destruct (ad_state e); cbn [fst]; [| | | |]; try (destruct (fle c999 _)); try (destruct (flt _ c001)); try (destruct (fle _ c0001)); auto.
Qed.
Lemma ad_ticks_frame n : forall e, ad_dc (fst (ad_ticks n e)) = ad_dc e /\ ad_sus (fst (ad_ticks n e)) = ad_sus e /\
  ad_gate (fst (ad_ticks n e)) = ad_gate e.
Proof.
  induction n as [|n IH]; intros e; [auto|]. rewrite ad_ticks_S. destruct (IH (fst (ad_tick e))) as (A & B & C).
  destruct (ad_tick_frame e) as (_ & D & _ & E & F). rewrite A, B, C. auto.
Qed.
Lemma ad_ticks_inv n : forall e, ad_inv e -> ad_inv (fst (ad_ticks n e)).
Proof. induction n as [|n IH]; intros e I; [exact I|]. rewrite ad_ticks_S. apply IH, ad_tick_inv, I. Qed.

Lemma ad_note L e : exp_unit L -> ad_reach L e -> ad_state e = Attack -> flt fzero (ad_gate e) = true ->
  B2R (ad_ac e) <= 1 - 501 / 16777216 -> B2R (ad_dc e) <= 1 - bpow radix2 (-13) ->
  exists m n, ad_value (fst (ad_ticks m e)) = one /\
    forall k, ad_value (fst (ad_ticks (m + n + k) e)) = ad_sus e /\ ad_state (fst (ad_ticks (m + n + k) e)) = Sustain.
Proof.
  intros HL R S G C1 C2. pose proof (ad_reach_inv L e HL R) as I.
  destruct (ad_complete L e HL R S G C1) as (m & _ & Em & Sm).
  destruct (ad_ticks_frame m e) as (F1 & F2 & F3).
  destruct (ad_settle_aux (Z.to_nat (2 ^ 25)) (fst (ad_ticks m e))) as (n & _ & En & Sn);
    [now apply ad_ticks_inv|exact Sm|now rewrite F3|now rewrite F1| |].
  { pose proof (ad_ticks_inv m e I) as ([_ Hv] & _ & _ & _ & [_ Hu] & _).
    rewrite INR_IZR_INZ, Z2Nat.id by lia. change (2 ^ 25)%Z with 33554432%Z. bp. apply Rabs_le. lra. }
  exists m, (Datatypes.S n). split; [exact Em|]. intros k. rewrite !ad_ticks_add.
  set (e2 := fst (ad_ticks (Datatypes.S n) (fst (ad_ticks m e)))) in *.
  destruct (ad_ticks_frame (Datatypes.S n) (fst (ad_ticks m e))) as (_ & F4 & F5). fold e2 in F4, F5.
  assert (G2 : flt fzero (ad_gate e2) = true) by (rewrite F5, F3; exact G).
  rewrite F2 in En, F4. clearbody e2. revert e2 En Sn F4 F5 G2.
  induction k as [|k IH]; intros e2 En Sn F4 F5 G2; [auto|].
  rewrite ad_ticks_S.
  assert (T : fst (ad_tick e2) = ad_with e2 (ad_sus e2) Sustain (ad_gate e2) (ad_done e2)).
  { unfold ad_tick. now rewrite Sn, (pos_not_le _ G2). }
  rewrite T. apply IH; auto.
Qed.
