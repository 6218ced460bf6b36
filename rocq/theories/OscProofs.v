From Coq Require Import ZArith Reals Lra Lia Bool List Psatz.
From Flocq Require Import Core Sterbenz BinarySingleNaN.
From Verif Require Import Flt FltFacts FltMore FltKey FltArith Libm UtilModel UtilProofs FltClose OscModel OscSpec.
Import ListNotations.
Local Open Scope R_scope.

(** ** SinOsc *)
Lemma TP_R : B2R TWO_PI = 13176795 / 2097152. Proof. fval TWO_PI. lra. Qed.
Lemma TP_fin : fin TWO_PI. Proof. ffin. Qed.

Lemma so_step_b sr f : rate_ok sr -> freq_ok sr f -> fin (so_step f sr) /\ 0 <= B2R (so_step f sr) <= 4.
Proof.
  intros [Fs Bs] [Ff Bf]. unfold so_step. pose proof TP_R as T.
  assert (D4 : dy32 (B2R sr * bpow radix2 2)).
  { split; [apply fmt_scale; lia|]. rewrite Rabs_pos_eq by (pose proof (bpow_gt_0 radix2 2); nra).
    apply Rle_lt_trans with (bpow radix2 100 * bpow radix2 2); [apply Rmult_le_compat_r; [apply bpow_ge_0|lra]|].
    rewrite <- bpow_plus. apply bpow_lt. lia. }
  destruct (fmul_b 0 _ TWO_PI f dy0 D4 TP_fin Ff) as (Fm & Em & Bm); [rewrite T; bp; lra|].
  assert (H : 0 <= B2R (fmul TWO_PI f) / B2R sr <= 4).
  { split; [apply Rmult_le_pos; [lra|left; apply Rinv_0_lt_compat; lra]|].
    apply Rmult_le_reg_r with (B2R sr); [lra|]. unfold Rdiv. rewrite Rmult_assoc, Rinv_l by lra. revert Bm. bp. lra. }
  destruct (fdiv_b 0 4 (fmul TWO_PI f) sr dy0 (dyZ 4 ltac:(lia)) Fm Fs) as (Fd & _ & Bd); [lra|exact H|]. auto.
Qed.

Definition so_inv (sr : f32) (s : sinosc) : Prop :=
  fin (so_phase s) /\ 0 <= B2R (so_phase s) <= B2R TWO_PI /\ fin (so_inc s) /\ 0 <= B2R (so_inc s) <= 4 /\ so_sr s = sr.

Lemma so_adv (p i : f32) : fin p -> 0 <= B2R p <= B2R TWO_PI -> fin i -> 0 <= B2R i <= 4 ->
  let q := fadd p i in let r := if fle TWO_PI q then fsub q TWO_PI else q in
  fin r /\ 0 <= B2R r < B2R TWO_PI /\
  (Rabs (B2R r - (B2R p + B2R i)) <= bpow radix2 (-21) \/ Rabs (B2R r - (B2R p + B2R i - B2R TWO_PI)) <= bpow radix2 (-21)).
Proof.
  intros Fp Bp Fi Bi q r. pose proof TP_R as T.
  destruct (fadd_b 0 (21 * bpow radix2 (-1)) p i dy0) as (Fq & Eq & Bq); [apply dyq; lia|exact Fp|exact Fi|bp; lra|].
  fold q in Fq, Eq, Bq.
  assert (E1 : Rabs (B2R q - (B2R p + B2R i)) <= bpow radix2 (-21)).
  { rewrite Eq. apply (rnd_err1 4); [lia|]. apply Rabs_le. bp. lra. }
  unfold r. destruct (fle TWO_PI q) eqn:C.
  - apply fle_R in C; [|exact TP_fin|exact Fq].
    assert (DD : dy32 (B2R q - B2R TWO_PI)).
    { split.
      - apply sterbenz; auto with typeclass_instances; [apply fexp_correct; reflexivity|apply fexp_monotone|apply fmt_B2R|apply fmt_B2R|].
        revert Bq. bp. intros. lra.
      - rewrite Rabs_pos_eq by lra. apply Rlt_trans with (bpow radix2 4); [revert Bq; bp; intros; lra|apply bpow_lt; lia]. }
    destruct (fsub_exact q TWO_PI Fq TP_fin DD) as [Fr Er]. split; [exact Fr|]. rewrite Er. revert Bq. bp. intros Bq.
    split; [lra|]. right. revert E1. bp. intros E1. replace (B2R q - B2R TWO_PI - (B2R p + B2R i - B2R TWO_PI)) with (B2R q - (B2R p + B2R i)) by ring. exact E1.
  - apply fle_R_false in C; [|exact TP_fin|exact Fq]. split; [exact Fq|]. split; [lra|]. left. exact E1.
Qed.
Lemma so_tick_inv L sr s : so_inv sr s -> so_inv sr (fst (so_tick L s)) /\ B2R (so_phase (fst (so_tick L s))) < B2R TWO_PI.
Proof.
  intros (Fp & Bp & Fi & Bi & Es). destruct (so_adv _ _ Fp Bp Fi Bi) as (F & B & _).
  split; [|apply B]. refine (conj F (conj (conj (proj1 B) _) (conj Fi (conj Bi Es)))). left. apply B.
Qed.
Lemma so_init_inv sr : rate_ok sr -> freq_ok sr (fofZ 440) -> so_inv sr (so_init sr).
Proof.
  intros R Q. destruct (so_step_b sr _ R Q) as [F B]. unfold so_inv, so_init, so_phase, so_inc, so_sr.
  pose proof TP_R. change (B2R zero) with 0. split; [reflexivity|]. split; [lra|]. auto.
Qed.
Lemma so_op_inv L sr s o : rate_ok sr -> so_inv sr s -> osc_ok sr (B2R TWO_PI) o -> so_inv sr (fst (so_op L s o)).
Proof.
  intros R I O. destruct o as [|f|p]; unfold so_op.
  - pose proof (so_tick_inv L sr s I) as [H _]. destruct (so_tick L s). exact H.
  - destruct I as (Fp & Bp & Fi & Bi & Es). destruct (so_step_b sr f R O) as [F B]. rewrite <- Es in F, B.
    refine (conj Fp (conj Bp (conj F (conj B Es)))).
  - destruct I as (Fp & Bp & Fi & Bi & Es). destruct O as [Fo Bo]. refine (conj Fo (conj Bo (conj Fi (conj Bi Es)))).
Qed.

Lemma run_inv {S O} (step : S -> O -> S * option f32) (I : S -> Prop) (ok : O -> Prop) (P : f32 -> Prop) :
  (forall s o, I s -> ok o -> I (fst (step s o))) -> (forall s o x, I s -> ok o -> snd (step s o) = Some x -> P x) ->
  forall l s, I s -> Forall ok l -> I (fst (run step s l)) /\ forall x, In (Some x) (snd (run step s l)) -> P x.
Proof.
  intros H1 H2. induction l as [|o l IH]; intros s Hs Hl; [split; [exact Hs|intros x []]|].
  inversion Hl as [|? ? Ho Hl']; subst. cbn [run]. specialize (H1 s o Hs Ho). specialize (H2 s o).
  destruct (step s o) as [s' x]. cbn [fst snd] in *. specialize (IH s' H1 Hl'). destruct (run step s' l) as [s'' xs]. cbn [fst snd] in *.
  split; [apply IH|]. intros y [E|E]; [apply H2; auto|now apply IH].
Qed.

Lemma so_bounded L sr ops : sin_unit L -> rate_ok sr -> freq_ok sr (fofZ 440) -> Forall (osc_ok sr (B2R TWO_PI)) ops ->
  let r := run (so_op L) (so_init sr) ops in
  (fin (so_phase (fst r)) /\ 0 <= B2R (so_phase (fst r)) <= B2R TWO_PI) /\
  forall x, In (Some x) (snd r) -> audio x.
Proof.
  intros S R Q Ho r.
  destruct (run_inv (so_op L) (so_inv sr) (osc_ok sr (B2R TWO_PI)) audio) with (l := ops) (s := so_init sr) as [I X]; auto.
  - intros s o Hs Hok. now apply so_op_inv.
  - intros s o x (Fp & _) _. destruct o; cbn; try discriminate. intros E. injection E as <-. now apply S.
  - now apply so_init_inv.
  - split; [|exact X]. destruct I as (Fp & Bp & _). auto.
Qed.

(** Phase error grows by at most 2^-21 per sample. *)
Lemma so_track L sr n : forall s, so_inv sr s ->
  exists m : Z, Rabs (B2R (so_phase (after (so_tick L) n s)) - (B2R (so_phase s) + INR n * B2R (so_inc s) - IZR m * B2R TWO_PI)) <= INR n * bpow radix2 (-21).
Proof.
  induction n as [|n IH]; intros s I.
  - exists 0%Z. cbn [after INR]. replace (B2R (so_phase s) - _) with 0 by ring. rewrite Rabs_R0. lra.
  - cbn [after]. destruct (so_tick_inv L sr s I) as [I' _]. destruct (IH _ I') as [m E].
    destruct I as (Fp & Bp & Fi & Bi & Es). destruct (so_adv _ _ Fp Bp Fi Bi) as (_ & _ & C).
    assert (E1 : so_inc (fst (so_tick L s)) = so_inc s) by reflexivity. rewrite E1 in E.
    set (p' := B2R (so_phase (fst (so_tick L s)))) in *. set (q := B2R (so_phase (after (so_tick L) n (fst (so_tick L s))))) in *.
    rewrite S_INR. set (N := INR n) in *.
    assert (exists j : Z, Rabs (p' - (B2R (so_phase s) + B2R (so_inc s) - IZR j * B2R TWO_PI)) <= bpow radix2 (-21)) as [j J].
    { destruct C as [C|C]; [exists 0%Z|exists 1%Z]; [rewrite Rmult_0_l, Rminus_0_r|rewrite Rmult_1_l]; exact C. }
    exists (m + j)%Z. rewrite plus_IZR.
    replace (q - (B2R (so_phase s) + (N + 1) * B2R (so_inc s) - (IZR m + IZR j) * B2R TWO_PI)) with
      ((q - (p' + N * B2R (so_inc s) - IZR m * B2R TWO_PI)) + (p' - (B2R (so_phase s) + B2R (so_inc s) - IZR j * B2R TWO_PI))) by ring.
    eapply Rle_trans; [apply Rabs_triang|]. lra.
Qed.

(** ** LFTri, SawDPW, LFNoise2: unit phase *)
Lemma inc_b sr f : rate_ok sr -> freq_ok sr f -> fin (fdiv f sr) /\ 0 <= B2R (fdiv f sr) <= / 2.
Proof.
  intros [Fs Bs] [Ff Bf].
  destruct (fdiv_b 0 (1 * bpow radix2 (-1)) f sr dy0) as (F & _ & B); [apply (dyq 1); lia|exact Ff|exact Fs|lra| |revert B; bp; intros; split; [exact F|lra]].
  bp. split; [apply Rmult_le_pos; [lra|left; apply Rinv_0_lt_compat; lra]|].
  apply Rmult_le_reg_r with (B2R sr); [lra|]. unfold Rdiv. rewrite Rmult_assoc, Rinv_l by lra. lra.
Qed.
Lemma unit_adv (p i : f32) : fin p -> 0 <= B2R p <= 1 -> fin i -> 0 <= B2R i <= 1 ->
  let q := fadd p i in let r := if fle one q then fsub q one else q in
  fin r /\ 0 <= B2R r <= 1 /\ (B2R i <= / 2 -> B2R r < 1) /\
  (if fle one q then Rabs (B2R r - (B2R p + B2R i - 1)) <= bpow radix2 (-24) else Rabs (B2R r - (B2R p + B2R i)) <= bpow radix2 (-24)).
Proof.
  intros Fp Bp Fi Bi q r.
  destruct (fadd_b 0 2 p i dy0 (dyZ 2 ltac:(lia)) Fp Fi) as (Fq & Eq & Bq); [lra|]. fold q in Fq, Eq, Bq.
  assert (E1 : Rabs (B2R q - (B2R p + B2R i)) <= bpow radix2 (-24)).
  { rewrite Eq. apply (rnd_err1 1); [lia|]. apply Rabs_le. bp. lra. }
  unfold r. destruct (fle one q) eqn:C.
  - apply fle_R in C; [|exact one_fin|exact Fq]. rewrite one_R in C.
    assert (DD : dy32 (B2R q - B2R one)).
    { split.
      - apply sterbenz; auto with typeclass_instances; [apply fexp_correct; reflexivity|apply fexp_monotone|apply fmt_B2R|apply fmt_B2R|]. rewrite one_R. lra.
      - rewrite one_R, Rabs_pos_eq by lra. apply Rlt_trans with (bpow radix2 2); [bp; lra|apply bpow_lt; lia]. }
    destruct (fsub_exact q one Fq one_fin DD) as [Fr Er]. rewrite one_R in Er. split; [exact Fr|]. rewrite Er.
    split; [lra|]. split.
    + intros Hi. assert (B2R q <= 3 / 2). { rewrite Eq. replace (3 / 2) with (IZR 3 * bpow radix2 (-1)) by (bp; lra).
        rewrite <- (rnd_fmt (IZR 3 * bpow radix2 (-1))) by (apply dyq; lia). apply rnd_le. bp. lra. } lra.
    + replace (B2R q - 1 - (B2R p + B2R i - 1)) with (B2R q - (B2R p + B2R i)) by ring. exact E1.
  - apply fle_R_false in C; [|exact one_fin|exact Fq]. rewrite one_R in C. split; [exact Fq|]. split; [lra|]. split; [lra|exact E1].
Qed.

Definition lt_inv (sr : f32) (s : lftri) : Prop :=
  fin (lt_phase s) /\ 0 <= B2R (lt_phase s) <= 1 /\ fin (lt_inc s) /\ 0 <= B2R (lt_inc s) <= / 2 /\ lt_sr s = sr.
Lemma lt_tick_inv sr s : lt_inv sr s -> lt_inv sr (fst (lt_tick s)) /\ B2R (lt_phase (fst (lt_tick s))) < 1.
Proof.
  intros (Fp & Bp & Fi & Bi & Es). destruct (unit_adv _ _ Fp Bp Fi ltac:(lra)) as (F & B & C & _).
  split; [|now apply C]. refine (conj F (conj B (conj Fi (conj Bi Es)))).
Qed.
(** The triangle value, and that it is computed without rounding on the rising half. *)
Lemma four_R : B2R (fofZ 4 : f32) = 4. Proof. apply fofZ_R. lia. Qed.
Lemma three_R : B2R (fofZ 3 : f32) = 3. Proof. apply fofZ_R. lia. Qed.
Lemma lt_out sr s : lt_inv sr s -> audio (snd (lt_tick s)) /\
  Rabs (B2R (snd (lt_tick s)) - (1 - Rabs (4 * B2R (lt_phase s) - 2))) <= bpow radix2 (-25).
Proof.
  intros (Fp & Bp & Fi & Bi & Es). unfold lt_tick, snd. cbv zeta.
  assert (D4 : dy32 (B2R (fofZ 4 : f32) * B2R (lt_phase s))).
  { rewrite four_R, Rmult_comm. change 4 with (bpow radix2 2). split; [apply fmt_scale; lia|].
    rewrite Rabs_pos_eq by (bp; lra). apply Rle_lt_trans with (bpow radix2 2); [bp; lra|apply bpow_lt; lia]. }
  destruct (fmul_exact (fofZ 4) (lt_phase s) ltac:(ffin) Fp D4) as [Fm Em]. rewrite four_R in Em.
  destruct (flt (lt_phase s) half) eqn:C.
  - apply flt_R in C; [|exact Fp|ffin]. rewrite half_R in C.
    destruct (fsub_b (-1) 1 (fmul (fofZ 4) (lt_phase s)) one dyn1 dy1 Fm one_fin) as (F & E & B); [rewrite Em, one_R; lra|].
    split; [split; assumption|]. rewrite E, Em, one_R. rewrite (Rabs_left (4 * B2R (lt_phase s) - 2)) by lra.
    replace (rnd32 (4 * B2R (lt_phase s) - 1) - (1 - - (4 * B2R (lt_phase s) - 2))) with (rnd32 (4 * B2R (lt_phase s) - 1) - (4 * B2R (lt_phase s) - 1)) by ring.
    apply (rnd_err1 0); [lia|]. apply Rabs_le. bp. lra.
  - apply flt_R_false in C; [|exact Fp|ffin]. rewrite half_R in C.
    destruct (fsub_b (-1) 1 (fofZ 3) (fmul (fofZ 4) (lt_phase s)) dyn1 dy1 ltac:(ffin) Fm) as (F & E & B); [rewrite Em, three_R; lra|].
    split; [split; assumption|]. rewrite E, Em, three_R. rewrite (Rabs_pos_eq (4 * B2R (lt_phase s) - 2)) by lra.
    replace (rnd32 (3 - 4 * B2R (lt_phase s)) - (1 - (4 * B2R (lt_phase s) - 2))) with (rnd32 (3 - 4 * B2R (lt_phase s)) - (3 - 4 * B2R (lt_phase s))) by ring.
    apply (rnd_err1 0); [lia|]. apply Rabs_le. bp. lra.
Qed.
Lemma quarter_b (x : f32) : fin x -> fin (fmul x (flit 1 (-2))).
Proof.
  intros F. assert (Q : B2R (flit 1 (-2) : f32) = / 4) by (fval (flit 1 (-2) : f32); lra).
  destruct (fmul_b (- Rabs (B2R x)) (Rabs (B2R x)) x (flit 1 (-2))) as (A & _); auto.
  - apply dy_opp. rewrite <- fabs_R. apply dy_B2R.
  - rewrite <- fabs_R. apply dy_B2R.
  - ffin.
  - rewrite Q. apply Rabs_le_inv. rewrite Rabs_mult, (Rabs_pos_eq (/ 4)) by lra. pose proof (Rabs_pos (B2R x)). lra.
Qed.
Lemma lt_init_inv sr ip : rate_ok sr -> freq_ok sr (fofZ 440) -> fin ip -> lt_inv sr (lt_init sr ip).
Proof.
  intros R Q F. destruct (inc_b sr _ R Q) as [Fi Bi]. unfold lt_init. cbv zeta.
  pose proof (quarter_b ip F) as Fm. set (m := fmul ip (flit 1 (-2))) in *. destruct (ffloor_R m Fm) as [Ff Ef].
  pose proof (Zfloor_lb (B2R m)). pose proof (Zfloor_ub (B2R m)).
  destruct (fsub_b 0 1 m (ffloor m) dy0 dy1 Fm Ff) as (Fs & _ & Bs); [rewrite Ef; lra|].
  refine (conj Fs (conj Bs (conj Fi (conj Bi eq_refl)))).
Qed.
Lemma lt_op_inv sr s o : rate_ok sr -> lt_inv sr s -> osc_ok sr 1 o -> lt_inv sr (fst (lt_op s o)).
Proof.
  intros R I O. destruct o as [|f|p]; unfold lt_op.
  - pose proof (lt_tick_inv sr s I) as [H _]. destruct (lt_tick s). exact H.
  - destruct I as (Fp & Bp & Fi & Bi & Es). destruct (inc_b sr f R O) as [F B]. rewrite <- Es in F, B.
    refine (conj Fp (conj Bp (conj F (conj B Es)))).
  - destruct I as (Fp & Bp & Fi & Bi & Es). destruct O as [Fo Bo]. refine (conj Fo (conj Bo (conj Fi (conj Bi Es)))).
Qed.
Lemma lt_bounded sr ip ops : rate_ok sr -> freq_ok sr (fofZ 440) -> fin ip -> Forall (osc_ok sr 1) ops ->
  let r := run lt_op (lt_init sr ip) ops in
  (fin (lt_phase (fst r)) /\ 0 <= B2R (lt_phase (fst r)) <= 1) /\ forall x, In (Some x) (snd r) -> audio x.
Proof.
  intros R Q F Ho r.
  destruct (run_inv lt_op (lt_inv sr) (osc_ok sr 1) audio) with (l := ops) (s := lt_init sr ip) as [I X]; auto.
  - intros s o Hs Hok. now apply lt_op_inv.
  - intros s o x Hs _. destruct o; cbn [lt_op snd]; try discriminate. destruct (lt_tick s) as [s' y] eqn:E. cbn [snd]. intros Y. injection Y as <-.
    pose proof (lt_out sr s Hs) as [H _]. rewrite E in H. exact H.
  - now apply lt_init_inv.
  - split; [|exact X]. destruct I as (Fp & Bp & _). auto.
Qed.
