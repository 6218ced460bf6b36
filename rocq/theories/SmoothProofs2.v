From Coq Require Import ZArith Reals Lra Lia Bool List Psatz.
From Flocq Require Import Core BinarySingleNaN.
From Verif Require Import Flt FltFacts FltMore FltKey FltArith Libm UtilModel UtilProofs EnvSpec EnvProofs FltClose OscSpec OscProofs OscProofs2 SmoothModel SmoothSpec SmoothProofs.
Import ListNotations.
Local Open Scope R_scope.

(** ** LagLinear *)
Lemma feq_self (x : f32) : is_nan x = false -> feq x x = true.
Proof.
  intros N. destruct (nan_cases x N) as [F|[s ->]]; [now apply feq_R|destruct s; reflexivity].
Qed.
Lemma ll_advance_target s : ll_target (fst (ll_advance s)) = ll_target s.
Proof. unfold ll_advance. destruct (0 <? _)%Z; [destruct (_ =? 0)%Z|]; reflexivity. Qed.
Lemma ll_advance_rem s : ll_rem (fst (ll_advance s)) = if (0 <? ll_rem s)%Z then (ll_rem s - 1)%Z else ll_rem s.
Proof. unfold ll_advance. destruct (0 <? _)%Z; [destruct (_ =? 0)%Z|]; reflexivity. Qed.
Lemma ll_advance_out s : (ll_rem s <= 1)%Z -> snd (ll_advance s) = ll_target s.
Proof.
  intros H. unfold ll_advance. destruct (Z.ltb_spec 0 (ll_rem s)); [|reflexivity].
  destruct (Z.eqb_spec (ll_rem s - 1) 0); [reflexivity|lia].
Qed.
(** While the input equals the target, the target is output from tick number [max 1 rem] on. *)
Lemma ll_hold x n : forall s, feq x (ll_target s) = true ->
  exists s' ys, ll_ticks s (repeat x n) = Some (s', ys) /\ length ys = n /\
    forall i, (i < n)%nat -> (ll_rem s <= Z.of_nat i + 1)%Z -> nth_error ys i = Some (ll_target s).
Proof.
  induction n as [|n IH]; intros s E.
  - exists s, []. split; [reflexivity|]. split; [reflexivity|]. intros; lia.
  - cbn [repeat ll_ticks]. unfold ll_tick. rewrite E. destruct (ll_advance s) as [s1 y] eqn:A.
    pose proof (ll_advance_target s) as T. pose proof (ll_advance_rem s) as M. pose proof (ll_advance_out s) as O.
    rewrite A in T, M, O. cbn [fst snd] in T, M, O.
    destruct (IH s1) as (s' & ys & E2 & L & H); [now rewrite T|]. rewrite E2.
    exists s', (y :: ys). split; [reflexivity|]. split; [cbn; now rewrite L|].
    intros [|i] Hi Hr; cbn [nth_error]; [f_equal; apply O; lia|]. rewrite <- T. apply H; [lia|].
    rewrite M. destruct (Z.ltb_spec 0 (ll_rem s)); lia.
Qed.
Lemma ramp_len_ok t sr : ramp_ok t sr -> ll_len t sr = Some (ramp_len t sr) /\ (1 <= ramp_len t sr <= 2 ^ 30)%Z.
Proof.
  intros (Ft & Pt & Fs & Ps & B). unfold ll_len, ramp_len.
  destruct (fmul_b 0 (bpow radix2 30) t sr dy0 ltac:(apply dy_bpow; cbn; lia) Ft Fs) as (Fm & Em & Bm).
  { split; [nra|]. exact B. }
  set (p := fmul t sr) in *. destruct (fround_R p Fm) as [Fr Er].
  assert (Z1 : (0 <= ZnearestA (B2R p) <= 2 ^ 30)%Z).
  { split.
    - apply Z.le_trans with (ZnearestA (IZR 0)); [rewrite (Zrnd_IZR ZnearestA 0); lia|]. apply Zrnd_le; [apply valid_rnd_NA|]. apply Bm.
    - apply Z.le_trans with (ZnearestA (IZR (2 ^ 30))); [|rewrite (Zrnd_IZR ZnearestA (2 ^ 30)); lia]. apply Zrnd_le; [apply valid_rnd_NA|]. apply Bm. }
  assert (E : ftoZ (- 2 ^ 31) (2 ^ 31 - 1) (fround p) = Some (ZnearestA (B2R p))).
  { apply ftoZ_some. split; [exact Fr|]. rewrite Er, Ztrunc_IZR. split; [reflexivity|lia]. }
  rewrite E. split; [reflexivity|]. lia.
Qed.
Lemma pos_fle (t : f32) : fin t -> 0 < B2R t -> fle t zero = false.
Proof.
  intros F P. destruct (fle t zero) eqn:E; [|reflexivity]. apply fle_R in E; [|exact F|reflexivity]. rewrite zero_R in E. lra.
Qed.
Definition ll_started (s : lagl) (x : f32) : lagl :=
  LagL (ll_sr s) (ll_time s) (ll_cur s) x (ll_incof x (ll_cur s) (ramp_len (ll_time s) (ll_sr s))) (ramp_len (ll_time s) (ll_sr s)).
Lemma ll_start s x : ramp_ok (ll_time s) (ll_sr s) -> is_nan x = false -> feq x (ll_target s) = false ->
  ll_tick s x = ll_tick (ll_started s x) x.
Proof.
  intros R N E. destruct (ramp_len_ok _ _ R) as [L _]. destruct R as (Ft & Pt & _).
  unfold ll_tick. rewrite E, (pos_fle _ Ft Pt), L. cbn [ll_started ll_target]. rewrite feq_self by exact N. reflexivity.
Qed.
Lemma ll_on_time s x n : ramp_ok (ll_time s) (ll_sr s) -> is_nan x = false -> feq x (ll_target s) = false ->
  exists s' ys, ll_ticks s (repeat x n) = Some (s', ys) /\ length ys = n /\
    forall i, (i < n)%nat -> (ramp_len (ll_time s) (ll_sr s) <= Z.of_nat i + 1)%Z -> nth_error ys i = Some x.
Proof.
  intros R N E. destruct n as [|n].
  - exists s, []. split; [reflexivity|]. split; [reflexivity|]. intros; lia.
  - destruct (ll_hold x (S n) (ll_started s x)) as (s' & ys & E2 & L & H); [now apply feq_self|].
    exists s', ys. split; [|auto]. rewrite <- E2. cbn [repeat ll_ticks]. now rewrite (ll_start s x R N E).
Qed.
(** The same after [setTime] in mid-ramp. *)
Lemma ll_retime s t x n : ramp_ok t (ll_sr s) -> feq (ll_target s) (ll_cur s) = false -> is_nan x = false -> feq x (ll_target s) = true ->
  exists s0 s' ys, ll_setTime s t = Some s0 /\ ll_ticks s0 (repeat x n) = Some (s', ys) /\ length ys = n /\
    forall i, (i < n)%nat -> (ramp_len t (ll_sr s) <= Z.of_nat i + 1)%Z -> nth_error ys i = Some (ll_target s).
Proof.
  intros R D N E. destruct (ramp_len_ok _ _ R) as [L _]. destruct R as (Ft & Pt & _).
  unfold ll_setTime. rewrite (pos_fle _ Ft Pt), D, L.
  set (s0 := LagL _ _ _ _ _ _). destruct (ll_hold x n s0 E) as (s' & ys & E2 & Ln & H). exists s0, s', ys. auto.
Qed.
(** Instant changes. *)
Lemma ll_instant_aux t xs : fle t zero = true -> Forall (fun x => is_nan x = false) xs -> forall s, ll_time s = t -> (ll_rem s <= 0)%Z ->
  exists s' ys, ll_ticks s xs = Some (s', ys) /\ Forall2 (fun x y => feq x y = true) xs ys.
Proof.
  intros Ht H. induction H as [|x xs Nx H IH]; intros s Et Hr.
  - exists s, []. split; [reflexivity|constructor].
  - cbn [ll_ticks]. unfold ll_tick. destruct (feq x (ll_target s)) eqn:E.
    + destruct (ll_advance s) as [s1 y] eqn:A.
      pose proof (ll_advance_rem s) as M. pose proof (ll_advance_out s ltac:(lia)) as O. rewrite A in M, O. cbn [fst snd] in *.
      destruct (IH s1) as (s' & ys & E2 & F).
      * unfold ll_advance in A. destruct (Z.ltb_spec 0 (ll_rem s)); [lia|]. injection A as <- _. exact Et.
      * destruct (Z.ltb_spec 0 (ll_rem s)); lia.
      * rewrite E2. exists s', (y :: ys). split; [reflexivity|]. constructor; [now rewrite O|exact F].
    + rewrite Et, Ht. destruct (IH (LagL (ll_sr s) t x x zero 0) eq_refl ltac:(cbn; lia)) as (s' & ys & E2 & F).
      rewrite E2. exists s', (x :: ys). split; [reflexivity|]. constructor; [now apply feq_self|exact F].
Qed.
Lemma ll_instant s t xs : fle t zero = true -> Forall (fun x => is_nan x = false) xs ->
  exists s0 s' ys, ll_setTime s t = Some s0 /\ ll_ticks s0 xs = Some (s', ys) /\ Forall2 (fun x y => feq x y = true) xs ys.
Proof.
  intros Ht H. unfold ll_setTime. rewrite Ht.
  set (s0 := LagL _ _ _ _ _ _). destruct (ll_instant_aux t xs Ht H s0 eq_refl ltac:(cbn; lia)) as (s' & ys & A & B). exists s0, s', ys. auto.
Qed.
(** Ramps of 2^31 samples or more: undefined behaviour. *)
Lemma ll_too_long s x : feq x (ll_target s) = false -> fin (ll_time s) -> 0 < B2R (ll_time s) -> fin (ll_sr s) ->
  IZR (2 ^ 31) <= B2R (ll_time s) * B2R (ll_sr s) -> ll_tick s x = None.
Proof.
  intros E Ft Pt Fs B. unfold ll_tick. rewrite E, (pos_fle _ Ft Pt). unfold ll_len.
  destruct (ftoZ _ _ _) as [n|] eqn:Z; [exfalso|reflexivity].
  apply ftoZ_some in Z. destruct Z as (F & En & Hn).
  set (p := fmul (ll_time s) (ll_sr s)) in *.
  assert (Fp : fin p).
  { unfold fround, fin in F. rewrite erase_correct in F. unfold fin. destruct p as [?|?| |? ? ? ?]; auto. }
  destruct (fround_R p Fp) as [_ Er]. rewrite Er, Ztrunc_IZR in En.
  destruct (fmul_key _ _ Ft Fs) as [_ K]. fold p in K. rewrite key_fin in K by exact Fp.
  assert (G : bpow radix2 31 <= B2R p).
  { rewrite K. rewrite <- (sat_in (emax:=128) (bpow radix2 31)).
    - apply sat_le. rewrite <- (rnd_fmt (prec:=24) (emax:=128) (bpow radix2 31)) by (apply fmt_bpow; cbn; lia). apply rnd_le. exact B.
    - rewrite Rabs_pos_eq by apply bpow_ge_0. apply bpow_lt. lia. }
  assert ((2 ^ 31 <= ZnearestA (B2R p))%Z).
  { apply Z.le_trans with (ZnearestA (IZR (2 ^ 31))); [rewrite (Zrnd_IZR ZnearestA (2 ^ 31)); lia|]. apply Zrnd_le; [apply valid_rnd_NA|]. exact G. }
  lia.
Qed.

(** *** Accuracy of the ramp *)
Lemma ll_inc_acc k (c x : f32) N : (-100 <= k <= 100)%Z -> within (bpow radix2 k) c -> within (bpow radix2 k) x -> (1 <= N <= 2 ^ 23)%Z ->
  fin (ll_incof x c N) /\ Rabs (B2R (ll_incof x c N) - (B2R x - B2R c) / IZR N) <= 3 * bpow radix2 (k - 24) / IZR N + bpow radix2 (-150) /\
  Rabs (B2R (ll_incof x c N)) <= bpow radix2 (k + 1).
Proof.
  intros K [Fc Bc] [Fx Bx] HN. unfold ll_incof. destruct (Z.leb_spec N 0); [lia|].
  assert (E1 : bpow radix2 (k + 1) = 2 * bpow radix2 k) by (rewrite bpow_plus; change (bpow radix2 1) with 2; ring).
  destruct (bp_dy (k + 1) ltac:(lia)) as [D1 D2].
  apply Rabs_le_inv in Bc. apply Rabs_le_inv in Bx.
  destruct (fsub_b _ _ x c D2 D1 Fx Fc ltac:(lra)) as (Fd & Ed & Bd). set (d := fsub x c) in *.
  assert (X1 : Rabs (B2R d - (B2R x - B2R c)) <= bpow radix2 (k - 24)).
  { rewrite Ed. replace (k - 24)%Z with (k + 1 - 25)%Z by lia. apply rnd_err1; [lia|]. apply Rabs_le. lra. }
  destruct (fofZ_R (prec:=24) (emax:=128) N ltac:(lia)) as [FN EN].
  assert (N1 : 1 <= IZR N) by (apply (IZR_le 1); lia).
  assert (Iv : 0 < / IZR N <= 1) by (split; [apply Rinv_0_lt_compat; lra|rewrite <- Rinv_1; apply Rinv_le; lra]).
  assert (Bd' : Rabs (B2R d) <= bpow radix2 (k + 1)) by (apply Rabs_le; lra).
  assert (Bq : - bpow radix2 (k + 1) <= B2R d / B2R (fofZ N : f32) <= bpow radix2 (k + 1)).
  { rewrite EN. apply Rabs_le_inv. unfold Rdiv. rewrite Rabs_mult, (Rabs_pos_eq (/ IZR N)) by lra.
    pose proof (Rabs_pos (B2R d)). nra. }
  destruct (fdiv_b _ _ d (fofZ N) D2 D1 Fd FN) as (Fq & Eq & Bq2); [rewrite EN; lra|exact Bq|].
  split; [exact Fq|]. split; [|apply Rabs_le; exact Bq2].
  assert (X2 : Rabs (B2R (fdiv d (fofZ N : f32)) - B2R d / IZR N) <= bpow radix2 (-24) * (bpow radix2 (k + 1) / IZR N) + bpow radix2 (-150)).
  { rewrite Eq, EN. eapply Rle_trans; [apply rrel32|]. apply Rplus_le_compat_r. apply Rmult_le_compat_l; [apply bpow_ge_0|].
    unfold Rdiv. rewrite Rabs_mult, (Rabs_pos_eq (/ IZR N)) by lra. apply Rmult_le_compat_r; lra. }
  assert (X3 : Rabs (B2R d / IZR N - (B2R x - B2R c) / IZR N) <= bpow radix2 (k - 24) / IZR N).
  { replace (B2R d / IZR N - (B2R x - B2R c) / IZR N) with ((B2R d - (B2R x - B2R c)) / IZR N) by (field; lra).
    unfold Rdiv. rewrite Rabs_mult, (Rabs_pos_eq (/ IZR N)) by lra. apply Rmult_le_compat_r; lra. }
  assert (E2 : bpow radix2 (-24) * (bpow radix2 (k + 1) / IZR N) = 2 * bpow radix2 (k - 24) / IZR N).
  { rewrite E1. replace (k - 24)%Z with (-24 + k)%Z by lia. rewrite bpow_plus. field. lra. }
  replace (B2R (fdiv d (fofZ N : f32)) - (B2R x - B2R c) / IZR N) with ((B2R (fdiv d (fofZ N : f32)) - B2R d / IZR N) + (B2R d / IZR N - (B2R x - B2R c) / IZR N)) by ring.
  eapply Rle_trans; [apply Rabs_triang|]. rewrite E2 in X2. unfold Rdiv in *. lra.
Qed.
(** A ramp in progress. *)
Lemma ramp_aux (u N i D b c x v q : R) : 0 < u -> 1 <= N -> 0 <= i -> i + 1 <= N -> N * b <= u ->
  Rabs (q - (x - c) / N) <= 3 * u / N + b -> Rabs (v - (c + i * ((x - c) / N))) <= i * (u + 3 * u / N + b) ->
  Rabs D <= u -> Rabs (v + q + D - (c + (i + 1) * ((x - c) / N))) <= (i + 1) * (u + 3 * u / N + b) /\
  (i + 1) * (u + 3 * u / N + b) <= (i + 5) * u.
Proof.
  intros U HN I0 I1 HB Q V HD. split.
  - replace (v + q + D - (c + (i + 1) * ((x - c) / N))) with ((v - (c + i * ((x - c) / N))) + (q - (x - c) / N) + D) by (unfold Rdiv; ring).
    eapply Rle_trans; [apply Rabs_triang|]. eapply Rle_trans; [apply Rplus_le_compat_r, Rabs_triang|]. lra.
  - assert (Iv : 0 < / N <= 1) by (split; [apply Rinv_0_lt_compat; lra|rewrite <- Rinv_1; apply Rinv_le; lra]).
    assert (A : (i + 1) * / N <= 1) by (apply Rmult_le_reg_r with N; [lra|]; rewrite Rmult_assoc, Rinv_l by lra; lra).
    assert (B : 0 <= b \/ b < 0) by lra. unfold Rdiv.
    assert ((i + 1) * b <= u) by (destruct B; nra).
    assert ((i + 1) * (3 * u * / N) <= 3 * u) by nra. nra.
Qed.
Lemma ll_ramp_aux k (c x : f32) N : (-100 <= k <= 100)%Z -> within (bpow radix2 k) c -> within (bpow radix2 k) x -> (1 <= N <= 2 ^ 23)%Z ->
  forall n s (j : Z), feq x (ll_target s) = true -> ll_inc s = ll_incof x c N -> (0 <= j)%Z -> (ll_rem s = N - j)%Z -> (j + Z.of_nat n < N)%Z ->
  fin (ll_cur s) -> Rabs (B2R (ll_cur s) - (B2R c + IZR j * ((B2R x - B2R c) / IZR N))) <= IZR j * (bpow radix2 (k - 24) + 3 * bpow radix2 (k - 24) / IZR N + bpow radix2 (-150)) ->
  exists s' ys, ll_ticks s (repeat x n) = Some (s', ys) /\ length ys = n /\
    forall i y, nth_error ys i = Some y -> fin y /\
      Rabs (B2R y - (B2R c + IZR (j + Z.of_nat i + 1) * ((B2R x - B2R c) / IZR N))) <= (IZR (j + Z.of_nat i + 1) + 4) * bpow radix2 (k - 24).
Proof.
  intros K Wc Wx HN. destruct (ll_inc_acc k c x N K Wc Wx HN) as (Fq & Aq & Bq).
  induction n as [|n IH]; intros s j E Ei Hj Er Hlt Fc Ac.
  - exists s, []. split; [reflexivity|]. split; [reflexivity|]. intros [|i] y Hy; discriminate Hy.
  - cbn [repeat ll_ticks]. unfold ll_tick. rewrite E.
    unfold ll_advance. destruct (Z.ltb_spec 0 (ll_rem s)); [|lia]. destruct (Z.eqb_spec (ll_rem s - 1) 0); [lia|].
    rewrite Ei. set (q := ll_incof x c N) in *. set (v := ll_cur s) in *.
    set (u := bpow radix2 (k - 24)) in *. assert (U : 0 < u) by apply bpow_gt_0.
    assert (NR : 1 <= IZR N) by (apply (IZR_le 1); lia).
    assert (J0 : 0 <= IZR j) by (apply (IZR_le 0); lia).
    assert (J1 : IZR j + 1 <= IZR N) by (rewrite <- plus_IZR; apply IZR_le; lia).
    assert (HB : IZR N * bpow radix2 (-150) <= u).
    { apply Rle_trans with (bpow radix2 23 * bpow radix2 (-150)).
      - apply Rmult_le_compat_r; [apply bpow_ge_0|]. apply (IZR_le N (2 ^ 23)). lia.
      - rewrite <- bpow_plus. apply bpow_le. lia. }
    (* magnitude of the sum *)
    destruct Wc as [Fc0 Bc0]. destruct Wx as [Fx0 Bx0].
    assert (Pk : 0 < bpow radix2 k) by apply bpow_gt_0.
    assert (Ek1 : bpow radix2 (k + 1) = 2 * bpow radix2 k) by (rewrite bpow_plus; change (bpow radix2 1) with 2; ring).
    assert (Ek : bpow radix2 k = bpow radix2 24 * u) by (unfold u; rewrite <- bpow_plus; f_equal; lia).
    assert (D0 : Rabs 0 <= u) by (rewrite Rabs_R0; lra).
    destruct (ramp_aux u (IZR N) (IZR j) 0 (bpow radix2 (-150)) (B2R c) (B2R x) (B2R v) (B2R q) U NR J0 J1 HB Aq Ac D0) as [Z1 Z2].
    rewrite Rplus_0_r in Z1.
    assert (Id : Rabs (B2R c + (IZR j + 1) * ((B2R x - B2R c) / IZR N)) <= bpow radix2 k).
    { set (t := (IZR j + 1) * / IZR N). assert (T : 0 <= t <= 1).
      { unfold t. split; [apply Rmult_le_pos; [lra|left; apply Rinv_0_lt_compat; lra]|].
        apply Rmult_le_reg_r with (IZR N); [lra|]. rewrite Rmult_assoc, Rinv_l by lra. lra. }
      replace (B2R c + (IZR j + 1) * ((B2R x - B2R c) / IZR N)) with ((1 - t) * B2R c + t * B2R x) by (unfold t; field; lra).
      apply Rabs_le_inv in Bc0. apply Rabs_le_inv in Bx0. apply Rabs_le. nra. }
    assert (Sm : Rabs (B2R v + B2R q) <= bpow radix2 (k + 1)).
    { replace (B2R v + B2R q) with ((B2R v + B2R q - (B2R c + (IZR j + 1) * ((B2R x - B2R c) / IZR N))) + (B2R c + (IZR j + 1) * ((B2R x - B2R c) / IZR N))) by ring.
      eapply Rle_trans; [apply Rabs_triang|].
      assert ((IZR j + 5) * u <= bpow radix2 k).
      { rewrite Ek. apply Rmult_le_compat_r; [lra|]. assert (IZR j <= IZR (2 ^ 23)) by (apply IZR_le; lia).
        change (bpow radix2 24) with (IZR (2 ^ 24)). lra. }
      lra. }
    destruct (bp_dy (k + 1) ltac:(lia)) as [D1 D2].
    destruct (fadd_b _ _ v q D2 D1 Fc Fq) as (Fw & Ew & _); [apply Rabs_le_inv in Sm; lra|].
    set (w := fadd v q) in *.
    assert (Xw : Rabs (B2R w - (B2R v + B2R q)) <= u).
    { rewrite Ew. unfold u. replace (k - 24)%Z with (k + 1 - 25)%Z by lia. apply rnd_err1; [lia|exact Sm]. }
    destruct (ramp_aux u (IZR N) (IZR j) (B2R w - (B2R v + B2R q)) (bpow radix2 (-150)) (B2R c) (B2R x) (B2R v) (B2R q) U NR J0 J1 HB Aq Ac Xw) as [Z3 _].
    replace (B2R v + B2R q + (B2R w - (B2R v + B2R q))) with (B2R w) in Z3 by ring.
    destruct (IH (LagL (ll_sr s) (ll_time s) w (ll_target s) q (ll_rem s - 1)) (j + 1)%Z E eq_refl) as (s' & ys & E2 & Ln & H2);
      [lia|cbn [ll_rem]; lia|lia|exact Fw|cbn [ll_cur]; rewrite plus_IZR; exact Z3|].
    rewrite E2. exists s', (w :: ys). split; [reflexivity|]. split; [cbn; now rewrite Ln|].
    intros [|i] y Hy; cbn [nth_error] in Hy.
    + injection Hy as <-. split; [exact Fw|]. replace (j + Z.of_nat 0 + 1)%Z with (j + 1)%Z by lia. rewrite plus_IZR. lra.
    + replace (j + Z.of_nat (S i) + 1)%Z with (j + 1 + Z.of_nat i + 1)%Z by lia. apply H2. exact Hy.
Qed.
Lemma ll_ramp k s x n : (-100 <= k <= 100)%Z -> ramp_ok (ll_time s) (ll_sr s) -> feq x (ll_target s) = false ->
  within (bpow radix2 k) (ll_cur s) -> within (bpow radix2 k) x ->
  (Z.of_nat n < ramp_len (ll_time s) (ll_sr s) <= 2 ^ 23)%Z ->
  exists s' ys, ll_ticks s (repeat x n) = Some (s', ys) /\ length ys = n /\
    forall i y, nth_error ys i = Some y -> fin y /\
      Rabs (B2R y - (B2R (ll_cur s) + INR (i + 1) * ((B2R x - B2R (ll_cur s)) / IZR (ramp_len (ll_time s) (ll_sr s))))) <= (INR (i + 1) + 4) * bpow radix2 (k - 24).
Proof.
  intros K R E Wc Wx Hn. destruct n as [|n].
  - exists s, []. split; [reflexivity|]. split; [reflexivity|]. intros [|i] y Hy; discriminate Hy.
  - assert (Nx : is_nan x = false) by (apply fin_nan, Wx). destruct (ramp_len_ok _ _ R) as [_ L].
    destruct (ll_ramp_aux k (ll_cur s) x (ramp_len (ll_time s) (ll_sr s)) K Wc Wx ltac:(lia) (S n) (ll_started s x) 0%Z) as (s' & ys & E2 & Ln & H).
    + now apply feq_self.
    + reflexivity.
    + lia.
    + cbn [ll_started ll_rem]. lia.
    + lia.
    + apply Wc.
    + cbn [ll_started ll_cur]. rewrite Rmult_0_l, Rmult_0_l, Rplus_0_r, Rminus_diag_eq, Rabs_R0 by reflexivity. lra.
    + exists s', ys. split; [rewrite <- E2; cbn [repeat ll_ticks]; now rewrite (ll_start s x R Nx E)|]. split; [exact Ln|].
      intros i y Hy. specialize (H i y Hy). rewrite INR_IZR_INZ. replace (Z.of_nat (i + 1)) with (0 + Z.of_nat i + 1)%Z by lia. exact H.
Qed.
Lemma ll_retime_ramp k s t n : (-100 <= k <= 100)%Z -> ramp_ok t (ll_sr s) -> feq (ll_target s) (ll_cur s) = false ->
  within (bpow radix2 k) (ll_cur s) -> within (bpow radix2 k) (ll_target s) ->
  (Z.of_nat n < ramp_len t (ll_sr s) <= 2 ^ 23)%Z ->
  exists s0 s' ys, ll_setTime s t = Some s0 /\ ll_ticks s0 (repeat (ll_target s) n) = Some (s', ys) /\ length ys = n /\
    forall i y, nth_error ys i = Some y -> fin y /\
      Rabs (B2R y - (B2R (ll_cur s) + INR (i + 1) * ((B2R (ll_target s) - B2R (ll_cur s)) / IZR (ramp_len t (ll_sr s))))) <= (INR (i + 1) + 4) * bpow radix2 (k - 24).
Proof.
  intros K R D Wc Wx Hn. assert (Nx : is_nan (ll_target s) = false) by (apply fin_nan, Wx).
  destruct (ramp_len_ok _ _ R) as [L L1]. destruct R as (Ft & Pt & _). unfold ll_setTime. rewrite (pos_fle _ Ft Pt), D, L.
  set (s0 := LagL _ _ _ _ _ _).
  destruct (ll_ramp_aux k (ll_cur s) (ll_target s) (ramp_len t (ll_sr s)) K Wc Wx ltac:(lia) n s0 0%Z) as (s' & ys & E2 & Ln & H).
  - now apply feq_self.
  - reflexivity.
  - lia.
  - unfold s0. cbn [ll_rem]. lia.
  - lia.
  - apply Wc.
  - unfold s0. cbn [ll_cur]. rewrite Rmult_0_l, Rmult_0_l, Rplus_0_r, Rminus_diag_eq, Rabs_R0 by reflexivity. lra.
  - exists s0, s', ys. split; [reflexivity|]. split; [exact E2|]. split; [exact Ln|].
    intros i y Hy. specialize (H i y Hy). rewrite INR_IZR_INZ. replace (Z.of_nat (i + 1)) with (0 + Z.of_nat i + 1)%Z by lia. exact H.
Qed.
