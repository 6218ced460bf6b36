(** Phasor: trigger and drift. *)
From Coq Require Import ZArith Reals Bool List Lra Lia Psatz.
From Flocq Require Import Core BinarySingleNaN.
From Verif Require Import Flt FltFacts FltMore FltKey FltArith UtilModel UtilProofs OscSpec OscProofs OscProofs2 SmoothProofs3 LineModel LineSpec PhasorProofs PhasorProofs2.
Import ListNotations.
Local Open Scope R_scope.

(** ** Trigger *)
Definition same_ramp (p q : phasor) : Prop := ph_value p = ph_value q /\ ph_rate p = ph_rate q /\ ph_start p = ph_start q /\ ph_end p = ph_end q.
Lemma same_samples k : forall p q, same_ramp p q -> nth_sample ph_tick k p = nth_sample ph_tick k q.
Proof.
  induction k as [|k IH]; intros p q (A & B & C & D).
  - unfold nth_sample, after, ph_tick. cbn [snd]. now rewrite A, C, D.
  - unfold nth_sample. cbn [after]. apply (IH (fst (ph_tick p)) (fst (ph_tick q))). unfold same_ramp, ph_tick. cbn. now rewrite A, B, C, D.
Qed.
Lemma nth_next k p : nth_sample ph_tick (S k) p = nth_sample ph_tick k (fst (ph_tick p)). Proof. reflexivity. Qed.
Lemma trig_spec ts : forall p i, (i < length ts)%nat ->
  nth i (trig_run p ts) zero = match since_edge (ph_trig p) ts i with
                               | Some k => nth_sample ph_tick k (ph_resetTo p (ph_pos p))
                               | None => nth_sample ph_tick i p
                               end.
Proof.
  induction ts as [|t ts IH]; intros p i L; [inversion L|]. cbn [trig_run since_edge]. unfold ph_tickTrig. fold (rising (ph_trig p) t).
  set (v := if rising (ph_trig p) t then ph_pos p else ph_value p). set (p' := Phasor v (ph_rate p) (ph_start p) (ph_end p) (ph_pos p) t (ph_sr p)).
  destruct (ph_tick p') as [p1 x] eqn:T.
  assert (X0 : x = nth_sample ph_tick 0 p') by (unfold nth_sample, after; rewrite T; reflexivity).
  assert (P1 : p1 = fst (ph_tick p')) by (rewrite T; reflexivity).
  destruct i as [|i].
  - cbn [nth]. rewrite X0. destruct (rising (ph_trig p) t) eqn:R; apply same_samples; unfold p', same_ramp, ph_resetTo, v; cbn; auto.
  - cbn [nth length] in *. assert (L' : (i < length ts)%nat) by lia. specialize (IH p1 i L').
    assert (T1 : ph_trig p1 = t) by (rewrite P1; reflexivity). rewrite T1 in IH. rewrite IH.
    assert (Pos : ph_pos p1 = ph_pos p) by (rewrite P1; reflexivity).
    destruct (since_edge t ts i) as [k|] eqn:SE.
    + apply same_samples. rewrite Pos. unfold same_ramp, ph_resetTo. cbn. rewrite P1. cbn. auto.
    + rewrite P1, <- nth_next. destruct (rising (ph_trig p) t) eqn:R; apply same_samples; unfold p', same_ramp, ph_resetTo, v; cbn; auto.
Qed.

(** ** Drift, range [0,end) *)
Definition dr_inv (e rate : f32) (i : nat) (p : phasor) : Prop :=
  ph_start p = zero /\ ph_end p = e /\ ph_rate p = rate /\ fin (ph_value p) /\ Rabs (B2R (ph_value p)) <= 3 * B2R e /\
  exists k, Rabs (B2R (ph_value p) + IZR k * B2R e - INR i * B2R rate) <= INR i * (bpow radix2 (-22) * B2R e).
Lemma wrap0_acc e v : ph_par e -> bpow radix2 (-100) <= B2R e -> big v ->
  exists k, Rabs (B2R (ph_wrap zero e v) + IZR k * B2R e - B2R v) <= bpow radix2 (-24) * B2R e + bpow radix2 (-150).
Proof.
  intros Pe Le Bv. destruct par_01 as [P0 _]. pose proof (bpow_gt_0 radix2 (-100)) as P100. assert (E0 : 0 < B2R e) by lra.
  assert (SM : 0 <= bpow radix2 (-24) * B2R e + bpow radix2 (-150)) by (pose proof (bpow_gt_0 radix2 (-24)); pose proof (bpow_gt_0 radix2 (-150)); nra).
  destruct (par_sub e zero Pe P0) as (Fr & Er & _). rewrite zero_R, Rminus_0_r, rnd_B2R in Er.
  unfold ph_wrap. set (r := fsub e zero) in *.
  replace (flt zero r) with true by (symmetry; apply flt_R; [reflexivity|exact Fr|rewrite zero_R; lra]).
  destruct (fle e v || flt v zero).
  - destruct (big_sub v zero Bv P0) as (Fw & Ew & _). rewrite zero_R, Rminus_0_r, rnd_B2R in Ew. set (w := fsub v zero) in *.
    destruct (ffmod_R w r Fw Fr ltac:(lra)) as [Fm Em]. destruct (ffmod_bound w r Fw Fr ltac:(lra)) as (Bm & _ & _). set (m := ffmod w r) in *.
    rewrite Ew, Er in Em. set (k := Ztrunc (B2R v / B2R e)) in *. rewrite Er, (Rabs_pos_eq (B2R e)) in Bm by lra. apply Rabs_def2 in Bm.
    destruct (flt m zero) eqn:M.
    + apply flt_R in M; [|exact Fm|reflexivity]. rewrite zero_R in M.
      destruct (fadd_b 0 (B2R e) m r) as (Fa & Ea & Ba); auto; [apply dy0|apply dy_B2R|rewrite Er; lra|].
      destruct (fadd_exact (fadd m r) zero Fa eq_refl) as [_ X]; [rewrite zero_R, Rplus_0_r; apply dy_B2R|]. rewrite X, zero_R, Rplus_0_r, Ea, Er.
      exists (k - 1)%Z. rewrite minus_IZR. pose proof (rrel32 (B2R m + B2R e)) as Q.
      replace (rnd32 (B2R m + B2R e) + (IZR k - 1) * B2R e - B2R v) with (rnd32 (B2R m + B2R e) - (B2R m + B2R e)) by (rewrite Em; ring).
      eapply Rle_trans; [exact Q|]. apply Rplus_le_compat_r, Rmult_le_compat_l; [apply bpow_ge_0|]. rewrite Rabs_pos_eq; lra.
    + destruct (fadd_exact m zero Fm eq_refl) as [_ X]; [rewrite zero_R, Rplus_0_r; apply dy_B2R|]. rewrite X, zero_R, Rplus_0_r.
      exists k. replace (B2R m + IZR k * B2R e - B2R v) with 0 by (rewrite Em; ring). rewrite Rabs_R0. exact SM.
  - exists 0%Z. replace (B2R v + 0 * B2R e - B2R v) with 0 by ring. rewrite Rabs_R0. exact SM.
Qed.
Lemma small_e E : bpow radix2 (-100) <= E -> bpow radix2 (-150) <= bpow radix2 (-26) * E.
Proof. intros H. apply Rle_trans with (bpow radix2 (-26) * bpow radix2 (-100)); [rewrite <- bpow_plus; apply bpow_le; lia|apply Rmult_le_compat_l; [apply bpow_ge_0|exact H]]. Qed.
Lemma e_big e v : ph_par e -> fin v -> Rabs (B2R v) <= 3 * B2R e -> big v.
Proof.
  intros [Fe Be] Fv B. split; [exact Fv|]. eapply Rle_trans; [exact B|]. pose proof (Rle_abs (B2R e)).
  apply Rle_trans with (bpow radix2 (100 + 1 + 1)); [rewrite !bp2; pose proof (bpow_ge_0 radix2 100); lra|apply bpow_le; lia].
Qed.
Lemma err_sum (y E ik iv r v w : R) : 
  Rabs (y + ik * E - v) <= bpow radix2 (-24) * E + bpow radix2 (-26) * E -> Rabs (w - (y + r)) <= bpow radix2 (-23) * E + bpow radix2 (-26) * E ->
  forall J X, Rabs (v + iv * E - X) <= J * (bpow radix2 (-22) * E) -> 0 < E -> Rabs (w + (ik + iv) * E - (X + r)) <= (J + 1) * (bpow radix2 (-22) * E).
Proof.
  intros A B J X C PE. replace (w + (ik + iv) * E - (X + r)) with ((w - (y + r)) + ((y + ik * E - v) + (v + iv * E - X))) by ring.
  eapply Rle_trans; [apply Rabs_triang|]. eapply Rle_trans; [apply Rplus_le_compat_l, Rabs_triang|].
  rewrite Rmult_plus_distr_r. revert A B C. generalize (J * (bpow radix2 (-22) * E)). bp. intros. lra.
Qed.
Lemma dr_step e rate i p : ph_par e -> bpow radix2 (-100) <= B2R e -> fin rate -> Rabs (B2R rate) <= B2R e -> dr_inv e rate i p ->
  dr_inv e rate (S i) (fst (ph_tick p)).
Proof.
  intros Pe Le Fr Br (S1 & S2 & S3 & Fv & Bv & k & Ek). destruct par_01 as [P0 _]. pose proof (bpow_gt_0 radix2 (-100)) as P100. assert (E0 : 0 < B2R e) by lra.
  pose proof (e_big e _ Pe Fv Bv) as BB. unfold ph_tick. cbn [fst]. rewrite S1, S2, S3.
  destruct (wrap_fwd zero e (ph_value p) P0 Pe BB ltac:(rewrite zero_R; exact E0)) as (Fy & By & _ & By2 & _). rewrite zero_R in *. specialize (By2 eq_refl).
  destruct (wrap0_acc e _ Pe Le BB) as [j Ej]. set (y := ph_wrap zero e (ph_value p)) in *. set (v := ph_value p) in *. clearbody y v.
  apply Rabs_le_inv in Br. pose proof (small_e _ Le) as SM.
  assert (D : dy32 (bpow radix2 102) /\ dy32 (- bpow radix2 102)) by (apply bdy; lia).
  assert (E102 : 4 * B2R e <= bpow radix2 102).
  { destruct Pe as [_ Pe]. pose proof (Rle_abs (B2R e)). change 102%Z with (100 + 1 + 1)%Z. rewrite !bp2. lra. }
  destruct (fadd_b (- bpow radix2 102) (bpow radix2 102) y rate) as (Fa & Ea & _); auto; [apply D|apply D|lra|].
  pose proof (rrel32 (B2R y + B2R rate)) as Q. rewrite <- Ea in Q. assert (A2 : Rabs (B2R y + B2R rate) <= 2 * B2R e) by (apply Rabs_le; lra).
  assert (Q' : Rabs (B2R (fadd y rate) - (B2R y + B2R rate)) <= bpow radix2 (-23) * B2R e + bpow radix2 (-26) * B2R e).
  { eapply Rle_trans; [exact Q|]. apply Rplus_le_compat; [|exact SM]. change (-23)%Z with (-24 + 1)%Z. rewrite bp2.
    apply Rle_trans with (bpow radix2 (-24) * (2 * B2R e)); [apply Rmult_le_compat_l; [apply bpow_ge_0|exact A2]|lra]. }
  unfold dr_inv, ph_at. cbn [ph_start ph_end ph_rate ph_value]. do 3 (split; [assumption|]). split; [exact Fa|]. split.
  - pose proof (Rabs_triang_inv (B2R (fadd y rate)) (B2R y + B2R rate)) as T. revert Q'. bp. intros Q'. lra.
  - exists (j + k)%Z. rewrite plus_IZR, S_INR. replace ((INR i + 1) * B2R rate) with (INR i * B2R rate + B2R rate) by ring. apply err_sum with (y := B2R y) (v := B2R v); auto.
    eapply Rle_trans; [exact Ej|]. apply Rplus_le_compat_l. exact SM.
Qed.
Lemma drift e rate pos p i : ph_par e -> bpow radix2 (-100) <= B2R e -> fin rate -> Rabs (B2R rate) <= B2R e ->
  exists k, Rabs (B2R (nth_sample ph_tick i (ph_set p rate zero e pos)) + IZR k * B2R e - INR i * B2R rate) <= INR (S i) * (bpow radix2 (-22) * B2R e).
Proof.
  intros Pe Le Fr Br. pose proof (bpow_gt_0 radix2 (-100)) as P100. assert (E0 : 0 < B2R e) by lra.
  assert (I : dr_inv e rate i (after ph_tick i (ph_set p rate zero e pos))).
  { induction i as [|i IH].
    - cbn [after]. unfold dr_inv, ph_set. cbn [ph_start ph_end ph_rate ph_value]. do 3 (split; [reflexivity|]). split; [reflexivity|]. rewrite zero_R.
      split; [rewrite Rabs_R0; lra|]. exists 0%Z. cbn [INR]. replace (0 + 0 * B2R e - 0 * B2R rate) with 0 by ring. rewrite Rabs_R0. lra.
    - rewrite after_S. now apply dr_step. }
  unfold nth_sample. set (q := after ph_tick i (ph_set p rate zero e pos)) in *. clearbody q. destruct I as (S1 & S2 & S3 & Fv & Bv & k & Ek).
  unfold ph_tick. cbn [snd]. rewrite S1, S2. destruct (wrap0_acc e _ Pe Le (e_big e _ Pe Fv Bv)) as [j Ej].
  exists (j + k)%Z. rewrite plus_IZR, S_INR. pose proof (small_e _ Le) as SM.
  pose proof (err_sum (B2R (ph_wrap zero e (ph_value q))) (B2R e) (IZR j) (IZR k) 0 (B2R (ph_value q)) (B2R (ph_wrap zero e (ph_value q)))) as X.
  rewrite <- (Rplus_0_r (INR i * B2R rate)). apply X; auto.
  - eapply Rle_trans; [exact Ej|]. apply Rplus_le_compat_l. exact SM.
  - replace (B2R (ph_wrap zero e (ph_value q)) - (B2R (ph_wrap zero e (ph_value q)) + 0)) with 0 by ring. rewrite Rabs_R0. revert E0. bp. intros. lra.
Qed.

(** setFrequency on the range [0,end). *)
Lemma freq_rate e sr f p : ph_par e -> bpow radix2 (-50) <= B2R e -> rate_ok sr -> fin f -> Rabs (B2R f) <= B2R sr / 2 ->
  B2R e * (B2R sr / 2) <= bpow radix2 126 ->
  ph_start p = zero -> ph_end p = e -> ph_sr p = sr ->
  let r := ph_rate (ph_setFrequency p f) in
  fin r /\ Rabs (B2R r) <= B2R e /\ Rabs (B2R r - B2R e * B2R f / B2R sr) <= bpow radix2 (-22) * B2R e.
Proof.
  intros Pe Le [Fsr Bsr] Ff Bf Big S1 S2 S3. cbn zeta. unfold ph_setFrequency, ph_setRate. cbn [ph_rate]. rewrite S1, S2, S3.
  destruct par_01 as [P0 _]. pose proof (bpow_gt_0 radix2 (-50)) as P50. assert (E0 : 0 < B2R e) by lra.
  destruct (par_sub e zero Pe P0) as (Fr & Er & _). rewrite zero_R, Rminus_0_r, rnd_B2R in Er. set (g := fsub e zero) in *.
  set (E := B2R e) in *. set (F := B2R f) in *. set (S := B2R sr) in *.
  assert (AEF : Rabs (E * F) <= E * (S / 2)) by (rewrite Rabs_mult, (Rabs_pos_eq E) by lra; apply Rmult_le_compat_l; [lra|exact Bf]).
  destruct (fmul_b (- bpow radix2 126) (bpow radix2 126) g f) as (Fm & Em & _); auto; [apply bdy; lia|apply bdy; lia|rewrite Er; fold F; apply Rabs_le_inv; lra|].
  rewrite Er in Em. fold F in Em.
  pose proof (rrel32 (E * F)) as Q1. rewrite <- Em in Q1. set (mu := B2R (fmul g f)) in *.
  pose proof (small_e E ltac:(eapply Rle_trans; [|exact Le]; apply bpow_le; lia)) as T150.
  assert (ES : E <= E * S) by nra.
  assert (Q1' : Rabs (mu - E * F) <= bpow radix2 (-24) * (3 / 4) * (E * S)).
  { eapply Rle_trans; [exact Q1|]. assert (H : bpow radix2 (-24) = 4 * bpow radix2 (-26)) by (change (-24)%Z with (-26 + 1 + 1)%Z; rewrite !bp2; ring). rewrite H in *.
    pose proof (bpow_gt_0 radix2 (-26)) as P26. assert (bpow radix2 (-26) * E <= bpow radix2 (-26) * (E * S)) by (apply Rmult_le_compat_l; lra).
    assert (bpow radix2 (-26) * Rabs (E * F) <= bpow radix2 (-26) * (E * (S / 2))) by (apply Rmult_le_compat_l; lra). lra. }
  assert (AM : Rabs mu <= E * S).
  { pose proof (Rabs_triang_inv mu (E * F)) as T. revert Q1'. bp. intros Q1'. lra. }
  assert (S0 : 0 < S) by lra.
  assert (AQ : Rabs (mu / S) <= E * (9 / 16)).
  { unfold Rdiv. rewrite Rabs_mult, (Rabs_pos_eq (/ S)) by (left; now apply Rinv_0_lt_compat).
    assert (AM2 : Rabs mu <= E * (9 / 16) * S). { pose proof (Rabs_triang_inv mu (E * F)) as T. revert Q1'. bp. intros Q1'. lra. }
    apply Rle_trans with (E * (9 / 16) * S * / S); [apply Rmult_le_compat_r; [left; now apply Rinv_0_lt_compat|exact AM2]|].
    rewrite Rmult_assoc, Rinv_r by lra. lra. }
  destruct (fdiv_b (- E) E (fmul g f) sr) as (Fd & Ed & Bd); auto; [apply dy_opp, dy_B2R|apply dy_B2R|fold S; lra|fold mu S; apply Rabs_le_inv; lra|].
  split; [exact Fd|]. split; [now apply Rabs_le|]. fold mu S in Ed. rewrite Ed. pose proof (rrel32 (mu / S)) as Q2.
  assert (Q3 : Rabs (mu / S - E * F / S) <= bpow radix2 (-24) * (3 / 4) * E).
  { replace (mu / S - E * F / S) with ((mu - E * F) / S) by (field; lra). unfold Rdiv at 1. rewrite Rabs_mult, (Rabs_pos_eq (/ S)) by (left; now apply Rinv_0_lt_compat).
    apply Rle_trans with ((bpow radix2 (-24) * (3 / 4) * (E * S)) * / S).
    - apply Rmult_le_compat_r; [left; now apply Rinv_0_lt_compat|]. exact Q1'.
    - right. field. lra. }
  replace (rnd32 (mu / S) - E * F / S) with ((rnd32 (mu / S) - mu / S) + (mu / S - E * F / S)) by ring.
  eapply Rle_trans; [apply Rabs_triang|]. rename T150 into T.
  revert Q2 Q3 T. generalize (bpow radix2 (-150)). bp. intros t Q2 Q3 T. lra.
Qed.
