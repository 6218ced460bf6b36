From Coq Require Import ZArith Reals Lra Lia Bool List Psatz.
From Flocq Require Import Core BinarySingleNaN Sterbenz.
From Verif Require Import Flt FltFacts FltMore FltKey FltArith Libm UtilModel UtilProofs EnvModel EnvSpec.
Import ListNotations.
Local Open Scope R_scope.

Lemma c0001_fin : fin c0001. Proof. ffin. Qed.
Lemma c999_fin : fin c999. Proof. ffin. Qed.
Lemma c001_fin : fin c001. Proof. ffin. Qed.
Lemma c0001_R : B2R c0001 = IZR 13743895 / IZR (2 ^ 37). Proof. fval c0001. exact V. Qed.
Lemma c0001_bnd : 0.00009 < B2R c0001 < 0.00011. Proof. fval c0001. lra. Qed.
Lemma c999_R : B2R c999 = IZR 16760439 / IZR (2 ^ 24). Proof. fval c999. exact V. Qed.
Lemma fzero_R : B2R (fzero : f32) = 0. Proof. reflexivity. Qed.

(** ** Coefficients *)
Lemma mul_pos_sign (t s : f32) : flt fzero t = true -> flt fzero s = true ->
  is_nan (fmul t s) = false /\ Bsign (fmul t s) = false.
Proof.
  intros Ht Hs. unfold fmul. rewrite erase_correct.
  assert (X : forall z : f32, flt fzero z = true -> fin z /\ Bsign z = false \/ z = B754_infinity false).
  { intros z. destruct z as [b|b| |b m e B]; try destruct b; cbn; intros H; try discriminate H; auto. }
  destruct (X t Ht) as [[Ft St]| ->]; destruct (X s Hs) as [[Fs Ss]| ->].
  - assert (N : is_nan (Bmult mode_NE t s) = false).
    { destruct (fmul_key t s Ft Fs) as [A _]. unfold fmul in A. now rewrite erase_correct in A. }
    split; [exact N|].
    pose proof (Bmult_correct _ _ _ _ mode_NE t s) as C.
    destruct (Rlt_bool _ _) in C.
    + destruct C as (_ & _ & C). rewrite C by exact N. now rewrite St, Ss.
    + rewrite St, Ss in C. change (binary_overflow 24 128 mode_NE (xorb false false)) with (SpecFloat.S754_infinity false) in C.
      apply of_inf in C. now rewrite C.
  - destruct t as [b|b| |b m e B]; try destruct b; cbn in *; try discriminate; auto.
  - destruct s as [b|b| |b m e B]; try destruct b; cbn in *; try discriminate; auto.
  - auto.
Qed.

Lemma neg_recip (p : f32) : is_nan p = false -> Bsign p = false -> fle (fdiv (fneg one) p) fzero = true.
Proof.
  intros N S. destruct p as [b|b| |b m e B]; try destruct b; try discriminate; try (vm_compute; reflexivity).
  set (p := B754_finite false m e B : f32) in *.
  assert (Fp : fin p) by reflexivity.
  assert (Pp : 0 < B2R p) by (apply F2R_gt_0; cbn; lia).
  assert (Fo : fin (fneg one)) by ffin.
  destruct (fdiv_key (fneg one) p Fo Fp) as [N1 K1]; [lra|].
  apply fle_true; [exact N1|reflexivity|]. rewrite K1. change (key (fzero : f32)) with 0.
  rewrite fneg_R, one_R.
  apply Rle_trans with (@sat 128 (rnd32 0)).
  - apply sat_le, rnd_le. unfold Rdiv. assert (0 < / B2R p) by now apply Rinv_0_lt_compat. lra.
  - rewrite rnd_0, sat_in; [lra|]. rewrite Rabs_R0. apply bpow_gt_0.
Qed.

Lemma coeff_unit L t sr : exp_unit L -> sr_ok sr -> flt fzero t = true -> unit_sample (coeff L t sr).
Proof.
  intros HL Hs Ht. unfold coeff. destruct (mul_pos_sign t sr Ht Hs) as [N S].
  apply HL. now apply neg_recip.
Qed.

Lemma clamp_time_pos t : flt fzero (clamp_time t) = true.
Proof.
  unfold clamp_time. destruct (flt c0001 t) eqn:E; [|vm_compute; reflexivity].
  destruct (flt_nan _ _ E) as [_ N]. apply flt_true in E; [|reflexivity|exact N].
  apply flt_true; [reflexivity|exact N|]. rewrite (key_fin c0001 c0001_fin) in E.
  pose proof c0001_bnd. change (key (fzero : f32)) with 0. lra.
Qed.

(** ** The attack step 1 - c*(1-v) *)
Definition att (c v : f32) : f32 := fsub one (fmul c (fsub one v)).

Lemma att_parts c v : unit_sample c -> unit_sample v ->
  let u := fsub one v in let w := fmul c u in
  unit_sample u /\ unit_sample w /\ unit_sample (att c v) /\
  B2R u = rnd32 (1 - B2R v) /\ B2R w = rnd32 (B2R c * B2R u) /\ B2R (att c v) = rnd32 (1 - B2R w) /\ B2R w <= B2R u.
Proof.
  intros [Fc Hc] [Fv Hv] u w.
  destruct (fsub_b 0 1 one v dy0 dy1 one_fin Fv) as (Fu & Eu & Bu); [rewrite one_R; lra|]. fold u in Fu, Eu, Bu.
  rewrite one_R in Eu.
  destruct (fmul_b 0 (B2R u) c u dy0 (dy_B2R u) Fc Fu) as (Fw & Ew & Bw); [nra|]. fold w in Fw, Ew, Bw.
  destruct (fsub_b 0 1 one w dy0 dy1 one_fin Fw) as (Fa & Ea & Ba); [rewrite one_R; lra|].
  rewrite one_R in Ea. unfold unit_sample, att. fold u w. repeat split; auto; try lra.
Qed.

(** Monotone in v, antitone in c. *)
Lemma att_mono c c' v v' : unit_sample c -> unit_sample c' -> unit_sample v -> unit_sample v' ->
  B2R c' <= B2R c -> B2R v <= B2R v' -> B2R (att c v) <= B2R (att c' v').
Proof.
  intros Hc Hc' Hv Hv' Lc Lv.
  destruct (att_parts c v Hc Hv) as (U1 & W1 & _ & E1 & E2 & -> & _).
  destruct (att_parts c' v' Hc' Hv') as (U2 & W2 & _ & E3 & E4 & -> & _).
  apply rnd_le.
  assert (B2R (fsub one v') <= B2R (fsub one v)) by (rewrite E1, E3; apply rnd_le; lra).
  assert (B2R (fmul c' (fsub one v')) <= B2R (fmul c (fsub one v))).
  { rewrite E2, E4. apply rnd_le. destruct Hc, Hc', U1, U2. nra. }
  lra.
Qed.

(** Numbers in [1/2,1] are multiples of 2^-24. *)
Lemma upper_half_exact (v : f32) : / 2 <= B2R v <= 1 -> rnd32 (1 - B2R v) = 1 - B2R v.
Proof.
  intros H. apply rnd_fmt. 
  replace (1 - B2R v) with (- (B2R v - 1)) by ring. apply generic_format_opp.
  apply sterbenz; auto with typeclass_instances; [apply fexp_correct; reflexivity|apply fexp_monotone|apply fmt_B2R|apply dy1|].
  lra.
Qed.

Lemma pred_upper (u : f32) : / 2 < B2R u <= 1 -> pred radix2 (SpecFloat.fexp 24 128) (B2R u) = B2R u - bpow radix2 (-24).
Proof.
  intros H. destruct (Req_dec (B2R u) 1) as [->|N].
  - change 1 with (bpow radix2 0) at 1. rewrite pred_bpow. reflexivity.
  - rewrite pred_eq_pos by lra. unfold pred_pos.
    assert (M : mag radix2 (B2R u) = 0%Z :> Z) by (apply mag_unique_pos; bp; change (bpow radix2 (0 - 1)) with (/ 2); lra).
    rewrite M, Req_bool_false by (change (bpow radix2 (0 - 1)) with (/ 2); lra).
    rewrite ulp_neq_0 by lra. unfold cexp. rewrite M. reflexivity.
Qed.

Lemma fexp32_valid : Valid_exp (SpecFloat.fexp 24 128).
Proof. apply fexp_correct. reflexivity. Qed.

Lemma att_ge c v : unit_sample c -> unit_sample v -> B2R c < 1 -> B2R v <= B2R (att c v).
Proof.
  intros Hc Hv C1.
  destruct (att_parts c v Hc Hv) as (U & W & A & Eu & Ew & Ea & Lw).
  rewrite Ea. apply rnd_ge_B2R. destruct Hv as [Fv Hv]. destruct U as [Fu Hu]. destruct Hc as [Fc Hc].
  destruct (Rle_lt_dec (/ 2) (B2R v)) as [H|H].
  - rewrite upper_half_exact in Eu by lra. lra.
  - assert (Er : Rabs (rnd32 (1 - B2R v) - (1 - B2R v)) <= bpow radix2 (0 - 24 - 1)).
    { apply rnd_err_le; [cbn; lia|]. apply Rabs_le. bp. lra. }
    rewrite <- Eu in Er. change (0 - 24 - 1)%Z with (-25)%Z in Er. apply Rabs_le_inv in Er.
    assert (Hlt : B2R (fmul c (fsub one v)) < B2R (fsub one v)).
    { rewrite Ew. apply rnd_mul_lt; [lia|lra| |cbn; lia]. bp.
      apply Rle_trans with (bpow radix2 (-2)); [apply bpow_le; cbn; lia|]. bp. lra. }
    assert (Hu2 : / 2 <= B2R (fsub one v)).
    { rewrite Eu. rewrite <- half_R. apply rnd_ge_B2R. rewrite half_R. lra. }
    destruct (Req_dec (B2R (fsub one v)) (/ 2)) as [E|NE]; [bp; lra|].
    assert (P : B2R (fmul c (fsub one v)) <= B2R (fsub one v) - bpow radix2 (-24)).
    { rewrite <- pred_upper by lra. apply pred_ge_gt; [apply fexp32_valid|apply fmt_B2R..|exact Hlt]. }
    bp. lra.
Qed.

(** ** Release step *)
Lemma rel_unit c v : unit_sample c -> unit_sample v -> unit_sample (fmul c v) /\ B2R (fmul c v) <= B2R v.
Proof.
  intros [Fc Hc] [Fv Hv].
  destruct (fmul_b 0 (B2R v) c v dy0 (dy_B2R v) Fc Fv) as (F & _ & B); [nra|].
  split; [split; [exact F|lra]|lra].
Qed.

Lemma c0001_pow : bpow radix2 (-20) <= B2R c0001.
Proof. pose proof c0001_bnd. bp. lra. Qed.

Lemma rel_lt c v : unit_sample c -> unit_sample v -> B2R c < 1 -> B2R c0001 < B2R v ->
  B2R (fmul c v) < B2R v.
Proof.
  intros Hc Hv C1 G. destruct (rel_unit c v Hc Hv) as [[F _] _]. destruct Hc as [Fc Hc], Hv as [Fv Hv].
  destruct (fmul_b 0 (B2R v) c v dy0 (dy_B2R v) Fc Fv) as (_ & E & _); [nra|].
  rewrite E. apply rnd_mul_lt; [lia|lra| |cbn; lia].
  apply Rle_trans with (bpow radix2 (-20)); [apply bpow_le; cbn; lia|]. pose proof c0001_pow. lra.
Qed.

(** ** EnvelopeAR *)
Definition ar_inv (e : ar) : Prop :=
  unit_sample (ar_value e) /\ unit_sample (ar_ac e) /\ unit_sample (ar_rc e) /\ sr_ok (ar_sr e) /\
  (ar_state e = ArAttack -> ar_gate e = true).

Lemma unit_zero : unit_sample fzero. Proof. split; [reflexivity|]. cbn. lra. Qed.
Lemma unit_one : unit_sample one. Proof. split; [ffin|]. rewrite one_R. lra. Qed.

Ltac five := unfold ar_inv; refine (conj _ (conj _ (conj _ (conj _ _)))); cbn.

Lemma ar_init_inv L sr : exp_unit L -> sr_ok sr -> ar_inv (ar_init L sr).
Proof.
  intros HL Hs. five; auto using unit_zero; try (apply coeff_unit; auto; vm_compute; reflexivity). discriminate.
Qed.

Lemma ar_tick_inv e : ar_inv e -> ar_inv (fst (ar_tick e)) /\ unit_sample (snd (ar_tick e)).
Proof.
  intros (Hv & Ha & Hr & Hs & Hg).
  assert (I : ar_inv (fst (ar_tick e))).
  { unfold ar_tick, ar_with. destruct (ar_state e) eqn:S.
    - five; auto using unit_zero; discriminate.
    - destruct (att_parts (ar_ac e) (ar_value e) Ha Hv) as (_ & _ & A & _).
      unfold att in A. rewrite (Hg eq_refl).
      destruct (fle c999 _); five; auto using unit_one.
    - destruct (rel_unit (ar_rc e) (ar_value e) Hr Hv) as [A _].
      destruct (fle _ c0001); five; auto using unit_zero; discriminate. }
  split; [exact I|]. destruct I as [I _]. exact I.
Qed.

Lemma ar_step_inv L e o : exp_unit L -> ar_op_ok o -> ar_inv e ->
  ar_inv (fst (ar_step L e o)) /\ forall x, snd (ar_step L e o) = Some x -> unit_sample x.
Proof.
  intros HL Ho I. pose proof I as (Hv & Ha & Hr & Hs & Hg).
  destruct o; cbn [ar_step fst snd].
  - split; [now apply ar_init_inv|discriminate].
  - split; [|discriminate]. five; auto. apply coeff_unit; auto using clamp_time_pos.
  - split; [|discriminate]. five; auto. apply coeff_unit; auto using clamp_time_pos.
  - split; [|discriminate]. five; auto.
  - split; [|discriminate]. five; auto. destruct (ar_state e); discriminate.
  - split; [|discriminate]. unfold ar_setGate.
    destruct (b && negb (ar_gate e)); [|destruct (negb b && ar_gate e)]; [five; auto|five; auto|exact I].
    destruct (ar_state e); discriminate.
  - destruct (ar_tick_inv e I) as [A B]. destruct (ar_tick e) as [e' x]. cbn in *. split; [exact A|].
    intros y E. injection E as <-. exact B.
  - split; [|discriminate]. five; auto using unit_zero. discriminate.
Qed.

Lemma ar_run_inv L : exp_unit L -> forall ops e, Forall ar_op_ok ops -> ar_inv e ->
  ar_inv (fst (ar_run L e ops)) /\ forall x, In (Some x) (snd (ar_run L e ops)) -> unit_sample x.
Proof.
  intros HL. induction ops as [|o t IH]; intros e Ho I; cbn.
  - split; [exact I|contradiction].
  - inversion Ho as [|? ? H1 H2]; subst.
    destruct (ar_step_inv L e o HL H1 I) as [A B]. destruct (ar_step L e o) as [e1 r]. cbn in A, B.
    destruct (IH e1 H2 A) as [C D]. destruct (ar_run L e1 t) as [e2 rs]. cbn in *.
    split; [exact C|]. intros x [E|E]; [now apply B|now apply D].
Qed.

Lemma ar_bounds L sr ops x : exp_unit L -> sr_ok sr -> Forall ar_op_ok ops ->
  In (Some x) (snd (ar_run L (ar_init L sr) ops)) -> fin x /\ 0 <= B2R x <= 1.
Proof.
  intros HL Hs Ho. apply (ar_run_inv L HL ops _ Ho (ar_init_inv L sr HL Hs)).
Qed.

Lemma ar_reach_inv L e : exp_unit L -> ar_reach L e -> ar_inv e.
Proof.
  intros HL (sr & ops & Hs & Ho & ->). apply (ar_run_inv L HL ops _ Ho (ar_init_inv L sr HL Hs)).
Qed.

(** Phase monotonicity. *)
Lemma ar_attack_mono L e : exp_unit L -> ar_reach L e -> ar_state e = ArAttack -> B2R (ar_ac e) < 1 ->
  B2R (ar_value e) <= B2R (snd (ar_tick e)).
Proof.
  intros HL R S C. destruct (ar_reach_inv L e HL R) as (Hv & Ha & Hr & Hs & Hg).
  unfold ar_tick. rewrite S. fold (att (ar_ac e) (ar_value e)).
  destruct (fle c999 _); cbn [ar_with ar_value snd]; [rewrite one_R; destruct Hv; lra|]. now apply att_ge.
Qed.
Lemma ar_attack_near L e : exp_unit L -> ar_reach L e -> ar_state e = ArAttack ->
  B2R (ar_value e) - bpow radix2 (-24) <= B2R (snd (ar_tick e)).
Proof.
  intros HL R S. destruct (ar_reach_inv L e HL R) as (Hv & Ha & Hr & Hs & Hg).
  unfold ar_tick. rewrite S. fold (att (ar_ac e) (ar_value e)).
  pose proof (bpow_gt_0 radix2 (-24)).
  destruct (fle c999 _); cbn [ar_with ar_value snd]; [rewrite one_R; destruct Hv; lra|].
  apply Rle_trans with (B2R (att one (ar_value e))).
  - destruct (att_parts one (ar_value e) unit_one Hv) as ((Fu & Hu) & W & A & Eu & Ew & Ea & Lw).
    rewrite one_R, Rmult_1_l in Ew.
    assert (Ew' : B2R (fmul one (fsub one (ar_value e))) = B2R (fsub one (ar_value e))) by (rewrite Ew; apply rnd_B2R).
    rewrite Ea, Ew'. destruct Hv as [Fv Hv].
    destruct (Rle_lt_dec (/ 2) (B2R (ar_value e))) as [G|G].
    + rewrite Eu, upper_half_exact by lra. replace (1 - (1 - B2R (ar_value e))) with (B2R (ar_value e)) by ring.
      rewrite rnd_B2R. lra.
    + assert (Er : Rabs (rnd32 (1 - B2R (ar_value e)) - (1 - B2R (ar_value e))) <= bpow radix2 (0 - 24 - 1)).
      { apply rnd_err_le; [cbn; lia|]. apply Rabs_le. bp. lra. }
      rewrite <- Eu in Er. change (0 - 24 - 1)%Z with (-25)%Z in Er. apply Rabs_le_inv in Er.
      assert (Hu2 : / 2 <= B2R (fsub one (ar_value e))).
      { rewrite Eu. rewrite <- half_R. apply rnd_ge_B2R. rewrite half_R. lra. }
      rewrite upper_half_exact by lra. bp. lra.
  - apply att_mono; auto using unit_one; [|lra]. rewrite one_R. destruct Ha. lra.
Qed.
Lemma ar_release_mono L e : exp_unit L -> ar_reach L e -> ar_state e = ArRelease ->
  B2R (snd (ar_tick e)) <= B2R (ar_value e).
Proof.
  intros HL R S. destruct (ar_reach_inv L e HL R) as (Hv & Ha & Hr & Hs & Hg).
  unfold ar_tick. rewrite S. destruct (rel_unit (ar_rc e) (ar_value e) Hr Hv) as [A B].
  destruct (fle _ c0001); cbn [ar_with ar_value snd]; [rewrite fzero_R; destruct Hv; lra|exact B].
Qed.

(** Idle stays idle, silent, under everything but trigger / gate on. *)
Lemma ar_idle e : ar_state e = ArIdle -> snd (ar_tick e) = fzero /\ ar_state (fst (ar_tick e)) = ArIdle.
Proof. intros S. unfold ar_tick. rewrite S. auto. Qed.
Lemma ar_idle_run L ops : forall e, ar_state e = ArIdle -> Forall ar_quiet ops ->
  ar_state (fst (ar_run L e ops)) = ArIdle /\ forall x, In (Some x) (snd (ar_run L e ops)) -> x = fzero.
Proof.
  induction ops as [|o t IH]; intros e S Q; cbn; [split; [exact S|contradiction]|].
  inversion Q as [|? ? Q1 Q2]; subst.
  assert (X : ar_state (fst (ar_step L e o)) = ArIdle /\ forall x, snd (ar_step L e o) = Some x -> x = fzero).
  { destruct o; cbn in Q1 |- *; try contradiction; try (split; [first [reflexivity|exact S|cbn; now rewrite S]|discriminate]).
    - destruct b; [contradiction|]. split; [|discriminate]. unfold ar_setGate. cbn. destruct (ar_gate e); cbn; [now rewrite S|exact S].
    - unfold ar_tick. rewrite S. cbn. split; [reflexivity|]. intros x E. now injection E. }
  destruct (ar_step L e o) as [e1 r]. destruct X as [X Y]. cbn in X, Y.
  destruct (IH e1 X Q2) as [A B]. destruct (ar_run L e1 t) as [e2 rs]. cbn in *.
  split; [exact A|]. intros x [E|E]; auto.
Qed.

(** Release reaches idle. *)
Lemma grid_nat (v : f32) : 0 <= B2R v -> exists m : nat, B2R v = INR m * bpow radix2 (-149).
Proof.
  intros H. destruct (B2R_grid v) as [n E]. change (SpecFloat.emin 24 128) with (-149)%Z in E.
  assert (Hn : (0 <= n)%Z).
  { apply le_IZR. apply Rmult_le_reg_r with (bpow radix2 (-149)); [apply bpow_gt_0|]. rewrite <- E. lra. }
  exists (Z.to_nat n). rewrite INR_IZR_INZ, Z2Nat.id by exact Hn. exact E.
Qed.
Lemma grid_lt (a b : nat) : INR a * bpow radix2 (-149) < INR b * bpow radix2 (-149) -> (a < b)%nat.
Proof. intros H. apply INR_lt. apply Rmult_lt_reg_r with (bpow radix2 (-149)); [apply bpow_gt_0|exact H]. Qed.

Lemma ar_ticks_S n e : fst (ar_ticks (S n) e) = fst (ar_ticks n (fst (ar_tick e))).
Proof. cbn [ar_ticks]. destruct (ar_tick e) as [e1 x]. cbn [fst]. now destruct (ar_ticks n e1). Qed.

Lemma ar_release_ends_aux m : forall e, ar_inv e -> ar_state e = ArRelease -> B2R (ar_rc e) < 1 ->
  B2R (ar_value e) = INR m * bpow radix2 (-149) ->
  exists n, (n <= m)%nat /\ ar_state (fst (ar_ticks (S n) e)) = ArIdle.
Proof.
  induction m as [m IH] using lt_wf_ind. intros e I S C E.
  pose proof (ar_tick_inv e I) as [I' _]. pose proof I as (Hv & Ha & Hr & Hs & Hg).
  destruct (fle (fmul (ar_rc e) (ar_value e)) c0001) eqn:L.
  - exists 0%nat. split; [lia|]. rewrite ar_ticks_S. unfold ar_tick. rewrite S, L. reflexivity.
  - assert (T : fst (ar_tick e) = ar_with e (fmul (ar_rc e) (ar_value e)) ArRelease (ar_gate e)).
    { unfold ar_tick. now rewrite S, L. }
    rewrite T in I'.
    destruct (rel_unit _ _ Hr Hv) as [[F B] M].
    apply fle_R_false in L; [|exact F|exact c0001_fin].
    assert (D : B2R (fmul (ar_rc e) (ar_value e)) < B2R (ar_value e)) by (apply rel_lt; auto; lra).
    destruct (grid_nat (fmul (ar_rc e) (ar_value e))) as [m' E']; [lra|].
    assert (Lt : (m' < m)%nat) by (apply grid_lt; lra).
    destruct (IH m' Lt _ I') as (n & Hn & Hi); [reflexivity|exact C|exact E'|].
    exists (Datatypes.S n). split; [lia|]. rewrite ar_ticks_S, T. exact Hi.
Qed.
Lemma ar_release_ends L e : exp_unit L -> ar_reach L e -> ar_state e = ArRelease -> B2R (ar_rc e) < 1 ->
  exists n, ar_state (fst (ar_ticks n e)) = ArIdle.
Proof.
  intros HL R S C. pose proof (ar_reach_inv L e HL R) as I. pose proof I as ((Fv & Hv) & _).
  destruct (grid_nat (ar_value e)) as [m E]; [lra|].
  destruct (ar_release_ends_aux m e I S C E) as (n & _ & H). now exists (Datatypes.S n).
Qed.
