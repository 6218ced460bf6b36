(** Phasor: how far a rate can carry it. *)
From Coq Require Import ZArith Reals Bool List Lra Lia Psatz.
From Flocq Require Import Core BinarySingleNaN.
From Verif Require Import Flt FltFacts FltMore FltKey FltArith UtilModel UtilProofs OscSpec OscProofs OscProofs2 SmoothProofs3 LineModel LineSpec PhasorProofs PhasorProofs2.
Import ListNotations.
Local Open Scope R_scope.

(** Outputs when the rate is set before every tick. *)
Fixpoint ph_play (p : phasor) (rs : list f32) : list f32 :=
  match rs with [] => [] | r :: rs => let (p', x) := ph_tick (ph_setRate p r) in x :: ph_play p' rs end.

(** A wrapped non-negative value over [0,e). *)
Lemma wrap_low e v : ph_par e -> 0 < B2R e -> fin v -> 0 <= B2R v < B2R e -> ph_wrap zero e v = v.
Proof.
  intros Pe E Fv V. destruct par_01 as [P0 _]. destruct (par_sub e zero Pe P0) as (Fr & Er & _). rewrite zero_R, Rminus_0_r, rnd_B2R in Er.
  unfold ph_wrap. replace (flt zero (fsub e zero)) with true by (symmetry; apply flt_R; [reflexivity|exact Fr|rewrite zero_R; lra]).
  replace (fle e v) with false by (symmetry; apply fle_R_false; [apply Pe|exact Fv|lra]).
  replace (flt v zero) with false by (symmetry; apply flt_R_false; [exact Fv|reflexivity|rewrite zero_R; lra]). reflexivity.
Qed.
Lemma wrap_once e v : ph_par e -> 0 < B2R e -> fin v -> B2R e <= B2R v < 2 * B2R e -> fin (ph_wrap zero e v) /\ B2R (ph_wrap zero e v) = B2R v - B2R e.
Proof.
  intros Pe E Fv V. destruct par_01 as [P0 _]. destruct (par_sub e zero Pe P0) as (Fr & Er & _). rewrite zero_R, Rminus_0_r, rnd_B2R in Er.
  unfold ph_wrap. replace (flt zero (fsub e zero)) with true by (symmetry; apply flt_R; [reflexivity|exact Fr|rewrite zero_R; lra]).
  replace (fle e v) with true by (symmetry; apply fle_R; [apply Pe|exact Fv|lra]). cbn [orb].
  set (r := fsub e zero) in *. clearbody r.
  assert (B0 : B2R zero = 0) by apply zero_R.
  assert (Fz : fin zero) by reflexivity.
  destruct (fsub_exact v zero Fv Fz) as [Fw Ew]; [rewrite B0, Rminus_0_r; apply dy_B2R|]. rewrite B0, Rminus_0_r in Ew. set (w := fsub v zero) in *. clearbody w.
  destruct (ffmod_R w r Fw Fr ltac:(lra)) as [Fm Em]. set (m := ffmod w r) in *. clearbody m.
  assert (T : Ztrunc (B2R w / B2R r) = 1%Z).
  { rewrite Ztrunc_floor. 2: { rewrite Er, Ew. apply Rlt_le. apply Rdiv_lt_0_compat; lra. }
    apply Zfloor_imp. rewrite Er, Ew. split; [apply Rmult_le_reg_r with (B2R e)|apply Rmult_lt_reg_r with (B2R e)]; try lra; unfold Rdiv; rewrite Rmult_assoc, Rinv_l by lra; cbn; lra. }
  rewrite T, Ew, Er, Rmult_1_r in Em.
  replace (flt m zero) with false by (symmetry; apply flt_R_false; [exact Fm|reflexivity|rewrite B0; lra]).
  destruct (fadd_exact m zero Fm Fz) as [Fa Ea]; [rewrite B0, Rplus_0_r; apply dy_B2R|]. rewrite B0, Rplus_0_r in Ea. split; [exact Fa|lra].
Qed.

(** ** Rates up to 2^k never get past 2^(k+24) *)
Lemma step_cap k (v r : f32) : (-100 <= k <= 70)%Z -> fin v -> fin r -> 0 <= B2R v <= bpow radix2 (k + 24) -> 0 <= B2R r <= bpow radix2 k ->
  fin (fadd v r) /\ B2R v <= B2R (fadd v r) <= bpow radix2 (k + 24).
Proof.
  intros K Fv Fr V R. assert (T : bpow radix2 (k + 24 + 1) = 2 * bpow radix2 (k + 24)) by apply bp2.
  assert (L : bpow radix2 k <= bpow radix2 (k + 24)) by (apply bpow_le; lia).
  destruct (fadd_b 0 (bpow radix2 (k + 24 + 1)) v r) as (A & B & _); auto; [apply dy0|apply bdy; lia|lra|].
  split; [exact A|]. rewrite B. split; [apply rnd_ge_B2R; lra|].
  apply rnd_tie_pow; [lia|unfold SpecFloat.emin; lia|]. replace (k + 24 - 24)%Z with k by lia. lra.
Qed.
Definition cap_inv (k : Z) (e : f32) (p : phasor) : Prop :=
  ph_start p = zero /\ ph_end p = e /\ fin (ph_rate p) /\ 0 <= B2R (ph_rate p) <= bpow radix2 k /\ fin (ph_pos p) /\ 0 <= B2R (ph_pos p) <= bpow radix2 (k + 24) /\
  fin (ph_value p) /\ 0 <= B2R (ph_value p) <= bpow radix2 (k + 24).
Definition slow_ok (k : Z) (o : ph_call) : Prop :=
  match o with
  | HTick | HTrig _ | HReset => True
  | HRate x => fin x /\ 0 <= B2R x <= bpow radix2 k
  | HPos x | HResetTo x => fin x /\ 0 <= B2R x <= bpow radix2 (k + 24)
  | _ => False
  end.
Lemma cap_tick k e p : (-100 <= k <= 70)%Z -> ph_par e -> bpow radix2 (k + 24) < B2R e -> cap_inv k e p ->
  cap_inv k e (fst (ph_tick p)) /\ snd (ph_tick p) = ph_value p /\ B2R (ph_value p) <= B2R (ph_value (fst (ph_tick p))).
Proof.
  intros K Pe E (A & B & C & D & F & G & H & I). unfold ph_tick. cbn [fst snd]. rewrite A, B. pose proof (bpow_gt_0 radix2 (k + 24)).
  rewrite wrap_low by (auto; lra). destruct (step_cap k _ _ K H C I D) as [X Y]. unfold cap_inv, ph_at. cbn [ph_rate ph_start ph_end ph_pos ph_value].
  repeat split; auto; lra.
Qed.
Lemma cap_op k e p o : (-100 <= k <= 70)%Z -> ph_par e -> bpow radix2 (k + 24) < B2R e -> cap_inv k e p -> slow_ok k o ->
  cap_inv k e (fst (ph_op p o)) /\ forall x, snd (ph_op p o) = Some x -> fin x /\ 0 <= B2R x <= bpow radix2 (k + 24).
Proof.
  intros K Pe E U O. pose proof U as (A & B & C & D & F & G & H & I). destruct o; cbn [ph_op slow_ok] in *; try contradiction.
  - pose proof (cap_tick k e p K Pe E U) as (T1 & T2 & _). destruct (ph_tick p). cbn [fst snd] in *. subst. split; [exact T1|]. intros x X. injection X as <-. auto.
  - unfold ph_tickTrig. set (q := Phasor _ _ _ _ _ _ _). assert (Q : cap_inv k e q).
    { unfold cap_inv, q. cbn [ph_rate ph_start ph_end ph_pos ph_value]. destruct (_ && _); tauto. }
    pose proof (cap_tick k e q K Pe E Q) as (T1 & T2 & _). destruct Q as (_ & _ & _ & _ & _ & _ & Q1 & Q2). destruct (ph_tick q). cbn [fst snd] in *. subst. split; [exact T1|]. intros x X. injection X as <-. auto.
  - split; [|discriminate]. unfold cap_inv. cbn. tauto.
  - split; [|discriminate]. unfold cap_inv. cbn. tauto.
  - split; [|discriminate]. unfold cap_inv. cbn [fst ph_reset ph_resetTo ph_rate ph_start ph_end ph_pos ph_value]. rewrite A, zero_R. pose proof (bpow_gt_0 radix2 (k + 24)). assert (FZ : fin zero) by reflexivity. intuition lra.
  - split; [|discriminate]. unfold cap_inv. cbn. tauto.
Qed.
Lemma cap_run k e rate pos p l : (-100 <= k <= 70)%Z -> ph_par e -> bpow radix2 (k + 24) < B2R e -> fin rate -> 0 <= B2R rate <= bpow radix2 k ->
  fin pos -> 0 <= B2R pos <= bpow radix2 (k + 24) -> Forall (slow_ok k) l ->
  forall x, In (Some x) (snd (run ph_op (ph_set p rate zero e pos) l)) -> fin x /\ 0 <= B2R x <= bpow radix2 (k + 24).
Proof.
  intros K Pe E Fr Br Fp Bp H. apply (run_inv ph_op (cap_inv k e) (slow_ok k) (fun x => fin x /\ 0 <= B2R x <= bpow radix2 (k + 24))); auto.
  - intros s o I O. now apply cap_op.
  - intros s o x I O X. now apply (cap_op k e s o).
  - unfold cap_inv, ph_set. cbn [ph_rate ph_start ph_end ph_pos ph_value]. rewrite zero_R. pose proof (bpow_gt_0 radix2 (k + 24)). repeat split; auto; lra.
Qed.
(** At rate 2^k it counts to 2^24 steps and stays there. *)
Lemma cap_count k e rate pos p i : (-100 <= k <= 70)%Z -> ph_par e -> bpow radix2 (k + 24) < B2R e -> fin rate -> B2R rate = bpow radix2 k ->
  isq k (nth_sample ph_tick i (ph_set p rate zero e pos)) (Z.min (Z.of_nat i) (2 ^ 24)).
Proof.
  intros K Pe E Fr Br. assert (E0 : 0 < B2R e) by (pose proof (bpow_gt_0 radix2 (k + 24)); lra).
  assert (T24 : bpow radix2 (k + 24) = IZR (2 ^ 24) * bpow radix2 k) by (rewrite Z.add_comm, bpow_plus; reflexivity).
  assert (P0 : 0 < bpow radix2 k) by apply bpow_gt_0.
  assert (G : let q := after ph_tick i (ph_set p rate zero e pos) in
    ph_start q = zero /\ ph_end q = e /\ ph_rate q = rate /\ isq k (ph_value q) (Z.min (Z.of_nat i) (2 ^ 24))).
  { induction i as [|i IH]; cbv zeta.
    - cbn [after ph_set ph_start ph_end ph_rate ph_value]. do 3 (split; [reflexivity|]). split; [reflexivity|]. rewrite zero_R. cbn. lra.
    - rewrite after_S. destruct IH as (A & B & C & [D1 D2]). set (q := after ph_tick i _) in *. clearbody q. unfold ph_tick. cbn [fst]. unfold ph_at. cbn [ph_start ph_end ph_rate ph_value].
      do 3 (split; [assumption|]). rewrite A, B, C. set (m := Z.min (Z.of_nat i) (2 ^ 24)) in *.
      assert (M : (0 <= m <= 2 ^ 24)%Z) by (unfold m; lia).
      assert (MV : 0 <= B2R (ph_value q) <= bpow radix2 (k + 24)).
      { rewrite D2, T24. split; [apply Rmult_le_pos; [apply IZR_le; lia|lra]|apply Rmult_le_compat_r; [lra|apply IZR_le; lia]]. }
      rewrite wrap_low by (auto; lra).
      destruct (step_cap k (ph_value q) rate K D1 Fr MV ltac:(lra)) as [X Y]. split; [exact X|].
      destruct (Z.eq_dec m (2 ^ 24)) as [Q|Q].
      + replace (Z.min (Z.of_nat (S i)) (2 ^ 24)) with (2 ^ 24)%Z by lia. rewrite Q in D2. rewrite <- T24 in *. lra.
      + replace (Z.min (Z.of_nat (S i)) (2 ^ 24)) with (m + 1)%Z by lia.
        destruct (fadd_exact (ph_value q) rate D1 Fr) as [_ S].
        { rewrite D2, Br. replace (IZR m * bpow radix2 k + bpow radix2 k) with (IZR (m + 1) * bpow radix2 k) by (rewrite plus_IZR; ring).
          destruct (Z.eq_dec (m + 1) (2 ^ 24)) as [W|W]; [rewrite W, <- T24; apply bdy; lia|apply dyz; lia]. }
        rewrite S, D2, Br, plus_IZR. ring. }
  cbv zeta in G. destruct G as (A & B & _ & [D1 D2]). unfold nth_sample. set (q := after ph_tick i _) in *. clearbody q. unfold ph_tick. cbn [snd]. rewrite A, B.
  assert (MV : 0 <= B2R (ph_value q) <= bpow radix2 (k + 24)).
  { rewrite D2, T24. split; [apply Rmult_le_pos; [apply IZR_le; lia|lra]|apply Rmult_le_compat_r; [lra|apply IZR_le; lia]]. }
  rewrite wrap_low by (auto; lra). split; assumption.
Qed.

(** ** Rates of at least 2^k get round when the end is at most 2^(k+24) *)
Lemma step_on k (e v r : f32) : (-100 <= k <= 70)%Z -> fin e -> bpow radix2 k <= B2R e / 2 -> B2R e <= bpow radix2 (k + 24) -> fin v -> fin r -> 0 <= B2R v < B2R e ->
  bpow radix2 k <= B2R r <= B2R e / 2 ->
  fin (fadd v r) /\ B2R (fadd v r) < B2R v + B2R e /\ (B2R v + bpow radix2 (k - 1) <= B2R (fadd v r) \/ B2R e <= B2R (fadd v r)).
Proof.
  intros K Fe E1 E2 Fv Fr V R. assert (T : bpow radix2 (k + 24 + 1) = 2 * bpow radix2 (k + 24)) by apply bp2.
  assert (T1 : bpow radix2 k = 2 * bpow radix2 (k - 1)) by (replace k with (k - 1 + 1)%Z at 1 by lia; apply bp2).
  assert (P0 : 0 < bpow radix2 (k - 1)) by apply bpow_gt_0.
  destruct (fadd_b 0 (bpow radix2 (k + 24 + 1)) v r) as (A & B & _); auto; [apply dy0|apply bdy; lia|lra|].
  split; [exact A|]. rewrite B. split.
  - pose proof (rrel32 (B2R v + B2R r)) as Q. apply Rabs_le_inv in Q. rewrite Rabs_pos_eq in Q by lra.
    assert (bpow radix2 (-150) <= bpow radix2 (k - 1)) by (apply bpow_le; lia). assert (N24 : bpow radix2 (-24) = / 16777216) by (cbn; lra). rewrite N24 in Q.
    assert (bpow radix2 (-150) <= bpow radix2 (-24) * bpow radix2 (k - 1)) by (rewrite <- bpow_plus; apply bpow_le; lia). rewrite N24 in *. lra.
  - destruct (Rle_lt_dec (B2R v + bpow radix2 k) (bpow radix2 (k + 24))) as [C|C].
    + left. apply Rle_trans with (rnd32 (B2R v + bpow radix2 k)); [|apply rnd_le; lra].
      pose proof (rnd_err_le (prec:=24) (emax:=128) (k + 24)%Z (B2R v + bpow radix2 k) ltac:(unfold SpecFloat.emin; lia) ltac:(rewrite Rabs_pos_eq by lra; exact C)) as Q.
      replace (k + 24 - 24 - 1)%Z with (k - 1)%Z in Q by lia. apply Rabs_le_inv in Q. unfold rnd32 in *. lra.
    + right. apply Rle_trans with (bpow radix2 (k + 24)); [exact E2|]. rewrite <- (rnd_fmt (prec:=24) (emax:=128) (bpow radix2 (k + 24))) by (apply fmt_bpow; unfold SpecFloat.emin; lia).
      apply rnd_le. lra.
Qed.
(** If no output is below the one before it, there are at most 2e/2^k + 1 of them. *)
Definition climbs (ys : list f32) : Prop := forall i a b, nth_error ys i = Some a -> nth_error ys (S i) = Some b -> B2R a <= B2R b.
Lemma climb_short k (e : f32) : (-100 <= k <= 70)%Z -> ph_par e -> bpow radix2 k <= B2R e / 2 -> B2R e <= bpow radix2 (k + 24) -> forall rs p,
  ph_start p = zero -> ph_end p = e -> fin (ph_value p) -> 0 <= B2R (ph_value p) < B2R e ->
  Forall (fun r => fin r /\ bpow radix2 k <= B2R r <= B2R e / 2) rs -> climbs (ph_play p rs) ->
  INR (length rs) * bpow radix2 (k - 1) <= B2R e - B2R (ph_value p) + bpow radix2 (k - 1).
Proof.
  intros K Pe E1 E2. assert (P0 : 0 < bpow radix2 (k - 1)) by apply bpow_gt_0. assert (Pk : 0 < bpow radix2 k) by apply bpow_gt_0.
  induction rs as [|r rs IH]; intros p S1 S2 Fv V R C; [cbn [length INR]; lra|].
  inversion R as [|? ? [Fr Br] Rs]; subst. cbn [ph_play] in C. unfold ph_tick, ph_setRate, ph_at in C. cbn [ph_value ph_rate ph_start ph_end ph_pos ph_trig ph_sr] in C.
  rewrite S1 in C. rewrite wrap_low in C by (auto; lra). set (v := ph_value p) in *.
  destruct rs as [|r2 rs]; [cbn [length INR]; lra|].
  destruct (step_on k (ph_end p) v r K (proj1 Pe) E1 E2 Fv Fr V Br) as (Fw & W1 & W2). set (w := fadd v r) in *.
  set (p2 := Phasor w r zero (ph_end p) (ph_pos p) (ph_trig p) (ph_sr p)) in *.
  set (y2 := ph_wrap zero (ph_end p) w).
  assert (H0 : exists t, ph_play p2 (r2 :: rs) = y2 :: t).
  { cbn [ph_play]. unfold ph_tick, ph_setRate, ph_at. cbn [ph_value ph_rate ph_start ph_end ph_pos ph_trig ph_sr]. eexists. reflexivity. }
  destruct H0 as [t Ht]. assert (CL : B2R v <= B2R y2) by (apply (C 0%nat); cbn [nth_error]; [reflexivity|rewrite Ht; reflexivity]).
  assert (LT : B2R w < B2R (ph_end p)).
  { destruct (Rlt_le_dec (B2R w) (B2R (ph_end p))) as [X|X]; [exact X|]. exfalso.
    destruct (wrap_once (ph_end p) w Pe ltac:(lra) Fw ltac:(lra)) as [_ Y]. fold y2 in Y. lra. }
  destruct W2 as [W2|W2]; [|lra].
  specialize (IH p2 eq_refl eq_refl Fw ltac:(cbn [ph_value p2]; lra) Rs).
  assert (C2 : climbs (ph_play p2 (r2 :: rs))) by (intros i a b Ha Hb; apply (C (S i) a b); cbn [nth_error]; assumption).
  specialize (IH C2). cbn [ph_value p2] in IH. change (length (r :: r2 :: rs)) with (S (length (r2 :: rs))). rewrite S_INR. lra.
Qed.
