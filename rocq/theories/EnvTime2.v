(** The segment lengths of EnvelopeAR and EnvelopeADSR. *)
From Coq Require Import ZArith Reals Lra Lia Bool List Psatz.
From Flocq Require Import Core BinarySingleNaN.
From Verif Require Import Flt FltFacts FltMore FltKey FltArith Libm UtilModel UtilProofs EnvModel EnvSpec EnvProofs EnvProofs2 FltClose OscProofs OscProofs2 ExpBounds ExpBounds2 EnvTime.
Import ListNotations.
Local Open Scope R_scope.

Definition near (c : f32) (N : R) : Prop := Rabs (B2R c - exp (- / N)) <= 2.5 * bpow radix2 (-24).

Lemma ar_ticks_E n : forall e, fst (ar_ticks (S n) e) = fst (ar_tick (fst (ar_ticks n e))).
Proof. induction n as [|n IH]; intros e; rewrite ar_ticks_S; [reflexivity|]. now rewrite IH, ar_ticks_S. Qed.
Lemma ad_ticks_E n : forall e, fst (ad_ticks (S n) e) = fst (ad_tick (fst (ad_ticks n e))).
Proof. induction n as [|n IH]; intros e; rewrite ad_ticks_S; [reflexivity|]. now rewrite IH, ad_ticks_S. Qed.

Lemma iterS {A} (f : A -> A) n x : Nat.iter (S n) f x = f (Nat.iter n f x). Proof. reflexivity. Qed.
Lemma c999_b : 0.9989999 < B2R c999 < 0.9990001. Proof. rewrite c999_R. lra. Qed.
Lemma att_one c : unit_sample c -> fle c999 (att c one) = true.
Proof.
  intros Hc. destruct (att_parts c one Hc unit_one) as ([Fu Bu] & [Fw Bw] & [Fa Ba] & Eu & Ew & Ea & Lw).
  rewrite one_R in Eu. replace (1 - 1) with 0 in Eu by ring. rewrite rnd_0 in Eu.
  assert (Zw : B2R (fmul c (fsub one one)) = 0) by lra. rewrite Zw in Ea.
  replace (1 - 0) with 1 in Ea by ring. rewrite <- one_R, rnd_fmt in Ea by apply fmt_B2R.
  apply fle_R; [exact c999_fin|exact Fa|]. rewrite Ea, one_R. pose proof c999_b. lra.
Qed.

(** ** EnvelopeAR, attack *)
Lemma ar_att_run n a : ar_inv a -> ar_state a = ArAttack ->
  let e := fst (ar_ticks n a) in let f k := Nat.iter k (att (ar_ac a)) (ar_value a) in
  ar_inv e /\ ar_state e = ArAttack /\ ar_ac e = ar_ac a /\
  ((ar_value e = f n /\ (n = 0%nat \/ fle c999 (f n) = false)) \/ ar_value e = one) /\
  ((forall k, (1 <= k <= n)%nat -> fle c999 (f k) = false) -> ar_value e = f n).
Proof.
  intros I S. cbn zeta. induction n as [|n IH].
  - cbn [ar_ticks fst]. split; [exact I|]. split; [exact S|]. split; [reflexivity|]. split; [left; split; [reflexivity|now left]|reflexivity].
  - rewrite ar_ticks_E. set (e := fst (ar_ticks n a)) in *. destruct IH as (Ie & Se & Ce & D & V).
    rewrite iterS. set (u := Nat.iter n (att (ar_ac a)) (ar_value a)) in *.
    pose proof (proj1 (ar_tick_inv e Ie)) as I'. split; [exact I'|]. clear I'.
    pose proof Ie as (_ & Ha & _ & _ & Hg). specialize (Hg Se). rewrite Ce in Ha.
    unfold ar_tick. rewrite Se. fold (att (ar_ac e) (ar_value e)). rewrite Hg, Ce.
    assert (X : forall b (x y : ar), ar_state x = ArAttack -> ar_state y = ArAttack -> ar_state (if b : bool then x else y) = ArAttack) by (intros []; auto).
    cbn [fst]. split; [apply X; reflexivity|]. split; [destruct (fle c999 (att (ar_ac a) (ar_value e))); exact Ce|].
    split.
    + destruct D as [[-> _]| ->].
      * destruct (fle c999 (att (ar_ac a) u)) eqn:Q; [now right|]. left. split; [reflexivity|now right].
      * rewrite att_one by exact Ha. now right.
    + intros H. rewrite V by (intros; apply H; lia). specialize (H (Datatypes.S n) ltac:(lia)). rewrite iterS in H. fold u in H.
      rewrite H. reflexivity.
Qed.

Lemma ar_attack_env L e t N : exp_unit L -> exp_acc L -> ar_reach L e -> fin t -> fin (ar_sr e) -> flt c0001 t = true ->
  N = B2R t * B2R (ar_sr e) -> 32 <= N <= 65536 ->
  let a := ar_trigger (ar_setAttack L e t) in ar_inv a /\ ar_state a = ArAttack /\ ar_value a = ar_value e /\ near (ar_ac a) N.
Proof.
  intros HL HA R Ft Fs Ct -> B a. pose proof (ar_reach_inv L e HL R) as I.
  assert (I2 : ar_inv a).
  { apply (ar_step_inv L (ar_setAttack L e t) ArOTrigger HL Logic.I). apply (ar_step_inv L e (ArOAttack t) HL Logic.I I). }
  split; [exact I2|]. split; [reflexivity|]. split; [reflexivity|].
  unfold near, a. cbn [ar_trigger ar_setAttack ar_with ar_ac]. rewrite clamp_time_id by exact Ct. now apply coeff_near.
Qed.
Lemma att_below c v N k n : unit_sample c -> unit_sample v -> 32 <= N <= 65536 -> near c N -> (k <= n)%nat ->
  1 - (1 - B2R v) * exp (- (INR n / N)) + N / 4000000 < 0.9989999 ->
  fle c999 (Nat.iter k (att c) v) = false.
Proof.
  intros Hc Hv B He K G. destruct (att_iter c v N k Hc Hv B He) as [[Fy By] A]. apply Rabs_le_inv in A.
  set (y := Nat.iter k (att c) v) in *.
  assert (P : exp (- (INR n / N)) <= exp (- (INR k / N))).
  { apply exp_le_mono. apply Ropp_le_contravar. apply Rmult_le_compat_r; [left; apply Rinv_0_lt_compat; lra|]. apply le_INR. lia. }
  destruct (fle c999 y) eqn:Q; [|reflexivity]. apply fle_R in Q; [|exact c999_fin|exact Fy]. pose proof c999_b. destruct Hv as [_ Hv]. nra.
Qed.

Lemma ar_attack_curve L e t n N : exp_unit L -> exp_acc L -> ar_reach L e -> fin t -> fin (ar_sr e) -> flt c0001 t = true ->
  N = B2R t * B2R (ar_sr e) -> 32 <= N <= 65536 ->
  let y := ar_value (fst (ar_ticks n (ar_trigger (ar_setAttack L e t)))) in
  (y = one \/ Rabs (B2R y - (1 - (1 - B2R (ar_value e)) * exp (- (INR n / N)))) <= N / 4000000) /\
  (1 - (1 - B2R (ar_value e)) * exp (- (INR n / N)) + N / 4000000 < 0.9989999 ->
   Rabs (B2R y - (1 - (1 - B2R (ar_value e)) * exp (- (INR n / N)))) <= N / 4000000) /\
  (0.9990001 <= 1 - (1 - B2R (ar_value e)) * exp (- (INR n / N)) - N / 4000000 -> (1 <= n)%nat -> y = one).
Proof.
  intros HL HA R Ft Fs Ct EN B. destruct (ar_attack_env L e t N HL HA R Ft Fs Ct EN B) as (I & S & Ev & Ne).
  set (a := ar_trigger (ar_setAttack L e t)) in *. cbn zeta. rewrite <- Ev.
  destruct (ar_att_run n a I S) as (_ & _ & _ & D & V). pose proof I as (Hv & Ha & _).
  destruct (att_iter (ar_ac a) (ar_value a) N n Ha Hv B Ne) as [[Fy By] A].
  split; [|split].
  - destruct D as [[-> _]| ->]; [right; exact A|now left].
  - intros G. rewrite V; [exact A|]. intros k K. apply att_below with (N := N) (n := n); auto; lia.
  - intros G K. destruct D as [[E [Z|Q]]|D]; [lia| |exact D].
    exfalso. apply fle_R_false in Q; [|exact c999_fin|exact Fy]. pose proof c999_b. apply Rabs_le_inv in A. lra.
Qed.
Lemma le_exp a b : a <= b -> exp (- b) <= exp (- a).
Proof. intros. apply exp_le_mono. lra. Qed.
Lemma ratio_le n N x : 0 < N -> INR n <= x * N -> INR n / N <= x.
Proof. intros P H. apply Rmult_le_reg_r with N; [exact P|]. unfold Rdiv. rewrite Rmult_assoc, Rinv_l by lra. lra. Qed.
Lemma ratio_ge n N x : 0 < N -> x * N <= INR n -> x <= INR n / N.
Proof. intros P H. apply Rmult_le_reg_r with N; [exact P|]. unfold Rdiv. rewrite Rmult_assoc, Rinv_l by lra. lra. Qed.
Lemma pos_n n x : 0 < x -> x <= INR n -> (1 <= n)%nat.
Proof. intros H G. destruct n; [cbn in G; lra|lia]. Qed.
Lemma ar_attack_time L e t n N : exp_unit L -> exp_acc L -> ar_reach L e -> fin t -> fin (ar_sr e) -> flt c0001 t = true ->
  N = B2R t * B2R (ar_sr e) -> 32 <= N <= 2048 ->
  let y := ar_value (fst (ar_ticks n (ar_trigger (ar_setAttack L e t)))) in
  (B2R (ar_value e) = 0 -> INR n <= 6.4 * N -> B2R y < 0.999) /\ (7.7 * N <= INR n -> y = one).
Proof.
  intros HL HA R Ft Fs Ct EN B. destruct (ar_attack_curve L e t n N HL HA R Ft Fs Ct EN ltac:(lra)) as (_ & C1 & C2).
  cbn zeta in *. set (y := ar_value (fst _)) in *. clearbody y. split.
  - intros V H. rewrite V in *. pose proof (le_exp _ _ (ratio_le n N 6.4 ltac:(lra) H)) as X. pose proof exp_m64.
    pose proof (C1 ltac:(lra)) as D. apply Rabs_le_inv in D. lra.
  - intros H. pose proof (le_exp _ _ (ratio_ge n N 7.7 ltac:(lra) H)) as X. pose proof exp_m77.
    apply C2; [|apply pos_n with (7.7 * N); lra]. destruct (ar_reach_inv L e HL R) as ([_ Hv] & _). pose proof (exp_pos (- (INR n / N))). nra.
Qed.
Lemma ar_attack_comment L e t n N : exp_unit L -> exp_acc L -> ar_reach L e -> fin t -> fin (ar_sr e) -> flt c0001 t = true ->
  N = B2R t * B2R (ar_sr e) -> 32 <= N <= 65536 -> B2R (ar_value e) = 0 -> INR n <= N ->
  B2R (ar_value (fst (ar_ticks n (ar_trigger (ar_setAttack L e t))))) <= 0.65.
Proof.
  intros HL HA R Ft Fs Ct EN B V H. destruct (ar_attack_curve L e t n N HL HA R Ft Fs Ct EN B) as (_ & C1 & _).
  cbn zeta in C1. rewrite V in C1. pose proof (le_exp _ _ (ratio_le n N 1.0 ltac:(lra) ltac:(lra))) as X. pose proof exp_m1.
  pose proof (C1 ltac:(lra)) as D. apply Rabs_le_inv in D. lra.
Qed.

(** ** EnvelopeAR, release *)
Lemma ar_rel_run n a : ar_inv a -> ar_state a = ArRelease ->
  let e := fst (ar_ticks n a) in let f k := Nat.iter k (fmul (ar_rc a)) (ar_value a) in
  ar_rc e = ar_rc a /\
  ((ar_state e = ArRelease /\ ar_value e = f n /\ (n = 0%nat \/ fle (f n) c0001 = false)) \/ (ar_state e = ArIdle /\ ar_value e = fzero)) /\
  ((forall k, (1 <= k <= n)%nat -> fle (f k) c0001 = false) -> ar_state e = ArRelease).
Proof.
  intros I S. cbn zeta. induction n as [|n IH].
  - cbn [ar_ticks fst]. split; [reflexivity|]. split; [left; repeat split; auto|auto].
  - rewrite ar_ticks_E. set (e := fst (ar_ticks n a)) in *. destruct IH as (Ce & D & V).
    rewrite iterS. set (u := Nat.iter n (fmul (ar_rc a)) (ar_value a)) in *.
    destruct D as [(Se & Ev & _)|[Se Ev]].
    + unfold ar_tick. rewrite Se, Ce, Ev. cbn [fst]. split; [destruct (fle (fmul (ar_rc a) u) c0001); exact Ce|].
      destruct (fle (fmul (ar_rc a) u) c0001) eqn:Q.
      * split; [right; split; reflexivity|]. intros H. specialize (H (Datatypes.S n) ltac:(lia)). rewrite iterS in H. fold u in H. congruence.
      * split; [left; repeat split; now right|reflexivity].
    + unfold ar_tick. rewrite Se. split; [exact Ce|]. split; [right; split; reflexivity|].
      intros H. rewrite V in Se by (intros; apply H; lia). discriminate.
Qed.
Lemma ar_release_env L e t N : exp_unit L -> exp_acc L -> ar_reach L e -> fin t -> fin (ar_sr e) -> flt c0001 t = true ->
  N = B2R t * B2R (ar_sr e) -> 32 <= N <= 65536 -> ar_state e <> ArIdle ->
  let a := ar_release (ar_setRelease L e t) in ar_inv a /\ ar_state a = ArRelease /\ ar_value a = ar_value e /\ near (ar_rc a) N.
Proof.
  intros HL HA R Ft Fs Ct -> B NI a. pose proof (ar_reach_inv L e HL R) as I.
  assert (I2 : ar_inv a).
  { apply (ar_step_inv L (ar_setRelease L e t) ArORel HL Logic.I). apply (ar_step_inv L e (ArORelease t) HL Logic.I I). }
  split; [exact I2|]. split; [unfold a, ar_release; cbn [ar_with ar_state ar_setRelease]; destruct (ar_state e); congruence|]. split; [reflexivity|].
  unfold near, a. cbn [ar_release ar_setRelease ar_with ar_rc]. rewrite clamp_time_id by exact Ct. now apply coeff_near.
Qed.
(** The exponential bounds with the slack of [slack]. *)
Lemma rel_bounds c v N n : unit_sample c -> unit_sample v -> 32 <= N <= 65536 -> near c N ->
  let y := Nat.iter n (fmul c) v in
  fin y /\ (0.00011 <= B2R v * exp (- (INR n / N * (65 / 64))) ->
    (forall k, (k <= n)%nat -> fle (Nat.iter k (fmul c) v) c0001 = false) /\ B2R v * exp (- (INR n / N * (65 / 64))) <= B2R y) /\
  (n = 0%nat \/ fle y c0001 = false -> B2R y <= B2R v * exp (- (INR n / N * (63 / 64)))) /\
  (n = 0%nat \/ fle y c0001 = false -> B2R v * exp (- (INR n / N * (65 / 64))) <= B2R y).
Proof.
  intros Hc Hv B He y. pose proof c0001_bnd as Bt. destruct (slack N n B) as [K1 K2].
  destruct (rel_iter c v N n Hc Hv B He) as ([Fy By] & I1 & I2). fold y in Fy, By, I1, I2.
  pose proof (le_exp _ _ K1) as X1. pose proof (le_exp _ _ K2) as X2. destruct Hv as [Fv Hv].
  assert (Y1 : B2R v * exp (- (INR n / N * (65 / 64))) <= B2R v * exp (- (INR n * (/ N + bpow radix2 (-22))))) by (apply Rmult_le_compat_l; lra).
  assert (Y2 : B2R v * exp (- (INR n * (/ N - bpow radix2 (-22)))) <= B2R v * exp (- (INR n / N * (63 / 64)))) by (apply Rmult_le_compat_l; lra).
  split; [exact Fy|]. split; [|split].
  - intros H. split; [|specialize (I1 ltac:(lra)); lra].
    intros k K. destruct (rel_iter c v N k Hc (conj Fv Hv) B He) as ([Fk Bk] & J1 & _).
    destruct (fle (Nat.iter k (fmul c) v) c0001) eqn:Q; [|reflexivity]. exfalso. apply fle_R in Q; [|exact Fk|exact c0001_fin].
    assert (Z : exp (- (INR n * (/ N + bpow radix2 (-22)))) <= exp (- (INR k * (/ N + bpow radix2 (-22))))).
    { apply le_exp, Rmult_le_compat_r; [|apply le_INR; lia]. pose proof (bpow_ge_0 radix2 (-22)). assert (0 < / N) by (apply Rinv_0_lt_compat; lra). lra. }
    assert (B2R v * exp (- (INR n * (/ N + bpow radix2 (-22)))) <= B2R v * exp (- (INR k * (/ N + bpow radix2 (-22))))) by (apply Rmult_le_compat_l; lra).
    specialize (J1 ltac:(lra)). lra.
  - intros [->|Q].
    + cbn [INR]. unfold Rdiv. rewrite !Rmult_0_l, Ropp_0, exp_0. unfold y. cbn. lra.
    + apply fle_R_false in Q; [|exact Fy|exact c0001_fin]. specialize (I2 Q). lra.
  - intros [->|Q].
    + cbn [INR]. unfold Rdiv. rewrite !Rmult_0_l, Ropp_0, exp_0. unfold y. cbn. lra.
    + apply fle_R_false in Q; [|exact Fy|exact c0001_fin]. specialize (I2 Q). lra.
Qed.
Lemma ar_release_curve L e t n N : exp_unit L -> exp_acc L -> ar_reach L e -> fin t -> fin (ar_sr e) -> flt c0001 t = true ->
  N = B2R t * B2R (ar_sr e) -> 32 <= N <= 65536 -> ar_state e <> ArIdle ->
  let r := fst (ar_ticks n (ar_release (ar_setRelease L e t))) in
  (ar_state r = ArRelease ->
   B2R (ar_value e) * exp (- (INR n / N * (65 / 64))) <= B2R (ar_value r) <= B2R (ar_value e) * exp (- (INR n / N * (63 / 64)))) /\
  (0.00011 <= B2R (ar_value e) * exp (- (INR n / N * (65 / 64))) -> ar_state r = ArRelease) /\
  (B2R (ar_value e) * exp (- (INR n / N * (63 / 64))) <= 0.00009 -> (1 <= n)%nat -> ar_state r = ArIdle /\ ar_value r = fzero).
Proof.
  intros HL HA R Ft Fs Ct EN B NI. destruct (ar_release_env L e t N HL HA R Ft Fs Ct EN B NI) as (I & S & Ev & Ne).
  set (a := ar_release (ar_setRelease L e t)) in *. cbn zeta. rewrite <- Ev.
  destruct (ar_rel_run n a I S) as (_ & D & V). pose proof I as (Hv & _ & Hr & _).
  destruct (rel_bounds (ar_rc a) (ar_value a) N n Hr Hv B Ne) as (Fy & B1 & B2 & B3). pose proof c0001_bnd as Bt.
  split; [|split].
  - intros Q. destruct D as [(_ & -> & H)|[X _]]; [auto|congruence].
  - intros H. apply V. intros k K. apply B1; [exact H|lia].
  - intros H K. destruct D as [(Q & _ & [Z|G])|D]; [lia| |exact D]. exfalso.
    specialize (B2 (or_intror G)). apply fle_R_false in G; [|exact Fy|exact c0001_fin]. lra.
Qed.
Lemma ar_release_time L e t n N : exp_unit L -> exp_acc L -> ar_reach L e -> fin t -> fin (ar_sr e) -> flt c0001 t = true ->
  N = B2R t * B2R (ar_sr e) -> 32 <= N <= 65536 -> ar_state e <> ArIdle ->
  let r := fst (ar_ticks n (ar_release (ar_setRelease L e t))) in
  (B2R (ar_value e) = 1 -> INR n <= 8.9 * N -> ar_isActive r = true) /\ (9.5 * N <= INR n -> ar_isActive r = false /\ ar_value r = fzero).
Proof.
  intros HL HA R Ft Fs Ct EN B NI. destruct (ar_release_curve L e t n N HL HA R Ft Fs Ct EN B NI) as (_ & C1 & C2).
  cbn zeta in *. set (r := fst (ar_ticks n _)) in *. clearbody r. split.
  - intros V H. rewrite V in *. pose proof (ratio_le n N 8.9 ltac:(lra) H) as Q.
    assert (X : exp (- (9.04)) <= exp (- (INR n / N * (65 / 64)))) by (apply le_exp; lra). pose proof exp_m904.
    unfold ar_isActive. now rewrite C1 by lra.
  - intros H. pose proof (ratio_ge n N 9.5 ltac:(lra) H) as Q.
    assert (X : exp (- (INR n / N * (63 / 64))) <= exp (- (9.35))) by (apply le_exp; lra). pose proof exp_m935.
    destruct (ar_reach_inv L e HL R) as ([_ Hv] & _). pose proof (exp_pos (- (INR n / N * (63 / 64)))).
    destruct C2 as [C2 C3]; [nra|apply pos_n with (9.5 * N); lra|]. unfold ar_isActive. now rewrite C2.
Qed.
Lemma ar_release_comment L e t n N : exp_unit L -> exp_acc L -> ar_reach L e -> fin t -> fin (ar_sr e) -> flt c0001 t = true ->
  N = B2R t * B2R (ar_sr e) -> 32 <= N <= 65536 -> ar_state e <> ArIdle -> 0.001 <= B2R (ar_value e) -> INR n <= N ->
  let r := fst (ar_ticks n (ar_release (ar_setRelease L e t))) in
  ar_isActive r = true /\ 0.36 * B2R (ar_value e) <= B2R (ar_value r).
Proof.
  intros HL HA R Ft Fs Ct EN B NI V H. destruct (ar_release_curve L e t n N HL HA R Ft Fs Ct EN B NI) as (C0 & C1 & _).
  cbn zeta in *. set (r := fst (ar_ticks n _)) in *. clearbody r.
  pose proof (ratio_le n N 1.0 ltac:(lra) ltac:(lra)) as Q.
  assert (X : exp (- (1.016)) <= exp (- (INR n / N * (65 / 64)))) by (apply le_exp; lra). pose proof exp_m1016.
  assert (P : B2R (ar_value e) * 0.36 <= B2R (ar_value e) * exp (- (INR n / N * (65 / 64)))) by (apply Rmult_le_compat_l; lra).
  assert (S : ar_state r = ArRelease) by (apply C1; lra). unfold ar_isActive. rewrite S. split; [reflexivity|].
  specialize (C0 S). lra.
Qed.

(** ** EnvelopeADSR, attack under a held gate *)
Lemma ad_att_run n a : ad_inv a -> ad_state a = Attack -> flt fzero (ad_gate a) = true ->
  let e := fst (ad_ticks n a) in let f k := Nat.iter k (att (ad_ac a)) (ad_value a) in
  ((ad_state e = Attack /\ ad_gate e = ad_gate a /\ ad_ac e = ad_ac a /\ ad_value e = f n /\ (n = 0%nat \/ fle c999 (f n) = false)) \/
   exists k, (1 <= k <= n)%nat /\ ad_value (fst (ad_ticks k a)) = one /\ ad_state (fst (ad_ticks k a)) = Decay) /\
  ((forall k, (1 <= k <= n)%nat -> fle c999 (f k) = false) ->
   ad_state e = Attack /\ ad_gate e = ad_gate a /\ ad_ac e = ad_ac a /\ ad_value e = f n).
Proof.
  intros I S G. cbn zeta. induction n as [|n [D V]].
  - cbn [ad_ticks fst]. split; [left|intros _]; auto 6.
  - assert (T : forall e u, ad_state e = Attack -> ad_gate e = ad_gate a -> ad_ac e = ad_ac a -> ad_value e = u ->
      fst (ad_tick e) = if fle c999 (att (ad_ac a) u) then ad_with e one Decay (ad_gate a) (ad_done e) else ad_with e (att (ad_ac a) u) Attack (ad_gate a) (ad_done e)).
    { intros e u Se Ge Ce Ev. unfold ad_tick. rewrite Se, Ge, Ce, Ev, (pos_not_le _ G). reflexivity. }
    split.
    + destruct D as [(Se & Ge & Ce & Ev & _)|(k & K & E)].
      * pose proof (T _ _ Se Ge Ce Ev) as Q. rewrite <- ad_ticks_E in Q. rewrite iterS.
        destruct (fle c999 (att (ad_ac a) (Nat.iter n (att (ad_ac a)) (ad_value a)))) eqn:X.
        -- right. exists (Datatypes.S n). split; [lia|]. rewrite Q. split; reflexivity.
        -- left. rewrite Q. cbn [ad_with ad_state ad_gate ad_ac ad_value]. auto 6.
      * right. exists k. split; [lia|exact E].
    + intros H. destruct V as (Se & Ge & Ce & Ev); [intros; apply H; lia|].
      pose proof (T _ _ Se Ge Ce Ev) as Q. rewrite <- ad_ticks_E in Q. specialize (H (Datatypes.S n) ltac:(lia)). rewrite iterS in *. rewrite H in Q.
      rewrite Q. cbn [ad_with ad_state ad_gate ad_ac ad_value]. auto.
Qed.
Lemma ad_attack_env L e t g N : exp_unit L -> exp_acc L -> ad_reach L e -> fin t -> fin (ad_sr e) -> flt c0001 t = true ->
  N = B2R t * B2R (ad_sr e) -> 32 <= N <= 65536 -> fle (ad_gate e) fzero = true -> flt fzero g = true ->
  let a := ad_setgate (ad_setAttack L e t) g in
  ad_inv a /\ ad_state a = Attack /\ ad_value a = ad_value e /\ near (ad_ac a) N /\ flt fzero (ad_gate a) = true.
Proof.
  intros HL HA R Ft Fs Ct -> B G0 G1 a. pose proof (ad_reach_inv L e HL R) as I.
  assert (I2 : ad_inv a).
  { apply (ad_step_inv L (ad_setAttack L e t) (AdGate g) HL Logic.I). apply (ad_step_inv L e (AdAttack t) HL Logic.I I). }
  split; [exact I2|]. unfold near, a, ad_setgate. cbn [ad_setAttack ad_gate]. rewrite G0, G1. cbn [andb ad_with ad_setAttack ad_state ad_value ad_ac ad_gate].
  split; [reflexivity|]. split; [reflexivity|]. split; [|exact G1]. rewrite clamp_time_id by exact Ct. now apply coeff_near.
Qed.
Lemma ad_attack_curve L e t g n N : exp_unit L -> exp_acc L -> ad_reach L e -> fin t -> fin (ad_sr e) -> flt c0001 t = true ->
  N = B2R t * B2R (ad_sr e) -> 32 <= N <= 65536 -> fle (ad_gate e) fzero = true -> flt fzero g = true ->
  let a := ad_setgate (ad_setAttack L e t) g in let r := fst (ad_ticks n a) in
  let ideal := 1 - (1 - B2R (ad_value e)) * exp (- (INR n / N)) in
  (ideal + N / 4000000 < 0.9989999 -> ad_state r = Attack /\ Rabs (B2R (ad_value r) - ideal) <= N / 4000000) /\
  (0.9990001 <= ideal - N / 4000000 -> (1 <= n)%nat ->
   exists k, (1 <= k <= n)%nat /\ ad_value (fst (ad_ticks k a)) = one /\ ad_state (fst (ad_ticks k a)) = Decay).
Proof.
  intros HL HA R Ft Fs Ct EN B G0 G1. destruct (ad_attack_env L e t g N HL HA R Ft Fs Ct EN B G0 G1) as (I & S & Ev & Ne & G).
  set (a := ad_setgate (ad_setAttack L e t) g) in *. cbn zeta. rewrite <- Ev.
  destruct (ad_att_run n a I S G) as (D & V). pose proof I as (Hv & Ha & _).
  destruct (att_iter (ad_ac a) (ad_value a) N n Ha Hv B Ne) as [[Fy By] A].
  split.
  - intros Q. destruct V as (X1 & _ & _ & ->); [|now split]. intros k K. apply att_below with (N := N) (n := n); auto; lia.
  - intros Q K. destruct D as [(_ & _ & _ & _ & [Z|X])|D]; [lia| |exact D].
    exfalso. apply fle_R_false in X; [|exact c999_fin|exact Fy]. pose proof c999_b. apply Rabs_le_inv in A. lra.
Qed.
Lemma ad_attack_time L e t g n N : exp_unit L -> exp_acc L -> ad_reach L e -> fin t -> fin (ad_sr e) -> flt c0001 t = true ->
  N = B2R t * B2R (ad_sr e) -> 32 <= N <= 2048 -> fle (ad_gate e) fzero = true -> flt fzero g = true ->
  let a := ad_setgate (ad_setAttack L e t) g in let r := fst (ad_ticks n a) in
  (B2R (ad_value e) = 0 -> INR n <= 6.4 * N -> ad_state r = Attack /\ B2R (ad_value r) < 0.999) /\
  (7.7 * N <= INR n -> exists k, (1 <= k <= n)%nat /\ ad_value (fst (ad_ticks k a)) = one /\ ad_state (fst (ad_ticks k a)) = Decay).
Proof.
  intros HL HA R Ft Fs Ct EN B G0 G1. destruct (ad_attack_curve L e t g n N HL HA R Ft Fs Ct EN ltac:(lra) G0 G1) as (C1 & C2).
  cbn zeta in *. split.
  - intros V H. rewrite V in *. pose proof (le_exp _ _ (ratio_le n N 6.4 ltac:(lra) H)) as X. pose proof exp_m64.
    destruct (C1 ltac:(lra)) as [S D]. apply Rabs_le_inv in D. split; [exact S|lra].
  - intros H. pose proof (le_exp _ _ (ratio_ge n N 7.7 ltac:(lra) H)) as X. pose proof exp_m77.
    apply C2; [|apply pos_n with (7.7 * N); lra]. destruct (ad_reach_inv L e HL R) as ([_ Hv] & _). pose proof (exp_pos (- (INR n / N))). nra.
Qed.

(** ** EnvelopeADSR, release *)
Lemma ad_rel_run n a : ad_inv a -> ad_state a = Release ->
  let e := fst (ad_ticks n a) in let f k := Nat.iter k (fmul (ad_rc a)) (ad_value a) in
  ad_rc e = ad_rc a /\
  ((ad_state e = Release /\ ad_value e = f n /\ (n = 0%nat \/ fle (f n) c0001 = false)) \/ (ad_state e = Idle /\ ad_value e = fzero)) /\
  ((forall k, (1 <= k <= n)%nat -> fle (f k) c0001 = false) -> ad_state e = Release).
Proof.
  intros I S. cbn zeta. induction n as [|n IH].
  - cbn [ad_ticks fst]. split; [reflexivity|]. split; [left; repeat split; auto|auto].
  - rewrite ad_ticks_E. set (e := fst (ad_ticks n a)) in *. destruct IH as (Ce & D & V).
    rewrite iterS. set (u := Nat.iter n (fmul (ad_rc a)) (ad_value a)) in *.
    destruct D as [(Se & Ev & _)|[Se Ev]].
    + unfold ad_tick. rewrite Se, Ce, Ev. cbn [fst]. split; [destruct (fle (fmul (ad_rc a) u) c0001); exact Ce|].
      destruct (fle (fmul (ad_rc a) u) c0001) eqn:Q.
      * split; [right; split; reflexivity|]. intros H. specialize (H (Datatypes.S n) ltac:(lia)). rewrite iterS in H. fold u in H. congruence.
      * split; [left; repeat split; now right|reflexivity].
    + unfold ad_tick. rewrite Se. split; [exact Ce|]. split; [right; split; reflexivity|].
      intros H. rewrite V in Se by (intros; apply H; lia). discriminate.
Qed.
Lemma ad_release_env L e t g N : exp_unit L -> exp_acc L -> ad_reach L e -> fin t -> fin (ad_sr e) -> flt c0001 t = true ->
  N = B2R t * B2R (ad_sr e) -> 32 <= N <= 65536 -> ad_state e <> Idle -> flt fzero (ad_gate e) = true -> fle g fzero = true ->
  let a := ad_setgate (ad_setRelease L e t) g in ad_inv a /\ ad_state a = Release /\ ad_value a = ad_value e /\ near (ad_rc a) N.
Proof.
  intros HL HA R Ft Fs Ct -> B NI G0 G1 a. pose proof (ad_reach_inv L e HL R) as I.
  assert (I2 : ad_inv a).
  { apply (ad_step_inv L (ad_setRelease L e t) (AdGate g) HL Logic.I). apply (ad_step_inv L e (AdRelease t) HL Logic.I I). }
  split; [exact I2|]. unfold near, a, ad_setgate. cbn [ad_setRelease ad_gate].
  rewrite (pos_not_le _ G0), G0, G1. cbn [andb ad_with ad_setRelease ad_state ad_value ad_rc].
  split; [destruct (ad_state e); congruence|]. split; [reflexivity|]. rewrite clamp_time_id by exact Ct. now apply coeff_near.
Qed.
Lemma ad_release_curve L e t g n N : exp_unit L -> exp_acc L -> ad_reach L e -> fin t -> fin (ad_sr e) -> flt c0001 t = true ->
  N = B2R t * B2R (ad_sr e) -> 32 <= N <= 65536 -> ad_state e <> Idle -> flt fzero (ad_gate e) = true -> fle g fzero = true ->
  let r := fst (ad_ticks n (ad_setgate (ad_setRelease L e t) g)) in
  (ad_state r = Release ->
   B2R (ad_value e) * exp (- (INR n / N * (65 / 64))) <= B2R (ad_value r) <= B2R (ad_value e) * exp (- (INR n / N * (63 / 64)))) /\
  (0.00011 <= B2R (ad_value e) * exp (- (INR n / N * (65 / 64))) -> ad_state r = Release) /\
  (B2R (ad_value e) * exp (- (INR n / N * (63 / 64))) <= 0.00009 -> (1 <= n)%nat -> ad_state r = Idle /\ ad_value r = fzero).
Proof.
  intros HL HA R Ft Fs Ct EN B NI G0 G1. destruct (ad_release_env L e t g N HL HA R Ft Fs Ct EN B NI G0 G1) as (I & S & Ev & Ne).
  set (a := ad_setgate (ad_setRelease L e t) g) in *. cbn zeta. rewrite <- Ev.
  destruct (ad_rel_run n a I S) as (_ & D & V). pose proof I as (Hv & _ & _ & Hr & _).
  destruct (rel_bounds (ad_rc a) (ad_value a) N n Hr Hv B Ne) as (Fy & B1 & B2 & B3). pose proof c0001_bnd as Bt.
  split; [|split].
  - intros Q. destruct D as [(_ & -> & H)|[X _]]; [auto|congruence].
  - intros H. apply V. intros k K. apply B1; [exact H|lia].
  - intros H K. destruct D as [(Q & _ & [Z|G])|D]; [lia| |exact D]. exfalso.
    specialize (B2 (or_intror G)). apply fle_R_false in G; [|exact Fy|exact c0001_fin]. lra.
Qed.
Lemma ad_release_time L e t g n N : exp_unit L -> exp_acc L -> ad_reach L e -> fin t -> fin (ad_sr e) -> flt c0001 t = true ->
  N = B2R t * B2R (ad_sr e) -> 32 <= N <= 65536 -> ad_state e <> Idle -> flt fzero (ad_gate e) = true -> fle g fzero = true ->
  let r := fst (ad_ticks n (ad_setgate (ad_setRelease L e t) g)) in
  (0.001 <= B2R (ad_value e) -> INR n <= N -> ad_isActive r = true /\ 0.36 * B2R (ad_value e) <= B2R (ad_value r)) /\
  (9.5 * N <= INR n -> ad_isActive r = false /\ ad_value r = fzero).
Proof.
  intros HL HA R Ft Fs Ct EN B NI G0 G1. destruct (ad_release_curve L e t g n N HL HA R Ft Fs Ct EN B NI G0 G1) as (C0 & C1 & C2).
  cbn zeta in *. set (r := fst (ad_ticks n _)) in *. clearbody r. split.
  - intros V H. pose proof (ratio_le n N 1.0 ltac:(lra) ltac:(lra)) as Q.
    assert (X : exp (- (1.016)) <= exp (- (INR n / N * (65 / 64)))) by (apply le_exp; lra). pose proof exp_m1016.
    assert (P : B2R (ad_value e) * 0.36 <= B2R (ad_value e) * exp (- (INR n / N * (65 / 64)))) by (apply Rmult_le_compat_l; lra).
    assert (S : ad_state r = Release) by (apply C1; lra). unfold ad_isActive. rewrite S. split; [reflexivity|].
    specialize (C0 S). lra.
  - intros H. pose proof (ratio_ge n N 9.5 ltac:(lra) H) as Q.
    assert (X : exp (- (INR n / N * (63 / 64))) <= exp (- (9.35))) by (apply le_exp; lra). pose proof exp_m935.
    destruct (ad_reach_inv L e HL R) as ([_ Hv] & _). pose proof (exp_pos (- (INR n / N * (63 / 64)))).
    destruct C2 as [C2 C3]; [nra|apply pos_n with (9.5 * N); lra|]. unfold ad_isActive. now rewrite C2.
Qed.

(** ** EnvelopeADSR, decay under a held gate *)
Definition settled (s y : f32) : bool := flt (fabs (fsub y s)) c001.
Lemma settled_R s y : unit_sample s -> unit_sample y ->
  (Rabs (B2R y - B2R s) <= 0.00098 -> settled s y = true) /\ (0.00102 <= Rabs (B2R y - B2R s) -> settled s y = false).
Proof.
  intros [Fs Hs] [Fy Hy]. unfold settled.
  destruct (fsub_b (-1) 1 y s dyn1 dy1 Fy Fs) as (Fd & Ed & _); [lra|].
  assert (X : Rabs (B2R (fsub y s) - (B2R y - B2R s)) <= bpow radix2 (-25)).
  { rewrite Ed. change (-25)%Z with (0 - 25)%Z. apply rnd_err1; [lia|]. change (bpow radix2 0) with 1. apply Rabs_le. lra. }
  assert (C : 0.00099 < B2R c001 < 0.00101) by (fval c001; lra).
  set (d := fsub y s) in *. clearbody d. clear Ed. pose proof (Rabs_triang_inv (B2R d) (B2R y - B2R s)) as T1.
  pose proof (Rabs_triang_inv (B2R y - B2R s) (B2R d)) as T2. rewrite Rabs_minus_sym in X.
  pose proof X as X'. rewrite Rabs_minus_sym in X'. revert X X'. bp. intros X X'.
  assert (Fa : fin (fabs d)) by now apply fabs_fin. split; intros H.
  - apply flt_R; [exact Fa|exact c001_fin|]. rewrite fabs_R. lra.
  - apply flt_R_false; [exact Fa|exact c001_fin|]. rewrite fabs_R. lra.
Qed.

Lemma ad_dec_run n a : ad_inv a -> ad_state a = Decay -> flt fzero (ad_gate a) = true ->
  let e := fst (ad_ticks n a) in let f k := Nat.iter k (dcy (ad_sus a) (ad_dc a)) (ad_value a) in
  (ad_gate e = ad_gate a /\ ad_dc e = ad_dc a /\ ad_sus e = ad_sus a) /\
  ((ad_state e = Decay /\ ad_value e = f n /\ (n = 0%nat \/ settled (ad_sus a) (f n) = false)) \/
   (ad_state e = Sustain /\ ad_value e = ad_sus a)) /\
  ((forall k, (1 <= k <= n)%nat -> settled (ad_sus a) (f k) = false) -> ad_state e = Decay).
Proof.
  intros I S G. cbn zeta. induction n as [|n IH].
  - cbn [ad_ticks fst]. split; [auto|]. split; [left; auto|auto].
  - rewrite ad_ticks_E. set (e := fst (ad_ticks n a)) in *. destruct IH as ((Ge & Ce & Ss) & D & V).
    rewrite iterS. set (u := Nat.iter n (dcy (ad_sus a) (ad_dc a)) (ad_value a)) in *.
    destruct D as [(Se & Ev & _)|[Se Ev]].
    + assert (T : fst (ad_tick e) = if settled (ad_sus a) (dcy (ad_sus a) (ad_dc a) u)
        then ad_with e (ad_sus a) Sustain (ad_gate e) (ad_done e) else ad_with e (dcy (ad_sus a) (ad_dc a) u) Decay (ad_gate e) (ad_done e)).
      { unfold ad_tick. rewrite Se, Ge, Ce, Ss, Ev, (pos_not_le _ G). reflexivity. }
      rewrite T. destruct (settled (ad_sus a) (dcy (ad_sus a) (ad_dc a) u)) eqn:Q.
      * split; [cbn [ad_with ad_gate ad_dc ad_sus]; auto|]. split; [right; split; reflexivity|].
        intros H. specialize (H (Datatypes.S n) ltac:(lia)). rewrite iterS in H. fold u in H. congruence.
      * split; [cbn [ad_with ad_gate ad_dc ad_sus]; auto|]. split; [left; auto|reflexivity].
    + assert (T : fst (ad_tick e) = ad_with e (ad_sus a) Sustain (ad_gate e) (ad_done e)).
      { unfold ad_tick. rewrite Se, Ge, Ss, (pos_not_le _ G). reflexivity. }
      rewrite T. split; [cbn [ad_with ad_gate ad_dc ad_sus]; auto|]. split; [right; split; reflexivity|].
      intros H. rewrite V in Se by (intros; apply H; lia). discriminate.
Qed.
Lemma ad_decay_curve L e t n N : exp_unit L -> exp_acc L -> ad_reach L e -> fin t -> fin (ad_sr e) -> flt c0001 t = true ->
  N = B2R t * B2R (ad_sr e) -> 32 <= N <= 65536 -> ad_state e = Decay -> flt fzero (ad_gate e) = true ->
  let r := fst (ad_ticks n (ad_setDecay L e t)) in
  let s := B2R (ad_sus e) in let gap := (B2R (ad_value e) - s) * exp (- (INR n / N)) in
  (ad_state r = Decay -> Rabs (B2R (ad_value r) - (s + gap)) <= N / 3600000) /\
  (0.00102 <= Rabs gap - N / 3600000 -> ad_state r = Decay) /\
  (Rabs gap + N / 3600000 <= 0.00098 -> (1 <= n)%nat -> ad_state r = Sustain /\ ad_value r = ad_sus e).
Proof.
  intros HL HA R Ft Fs Ct EN B S G. pose proof (ad_reach_inv L e HL R) as I0.
  set (a := ad_setDecay L e t) in *.
  assert (I : ad_inv a) by (apply (ad_step_inv L e (AdDecay t) HL Logic.I I0)).
  assert (Ne : near (ad_dc a) N).
  { unfold near, a. cbn [ad_setDecay ad_dc]. rewrite clamp_time_id by exact Ct. rewrite EN in *. now apply coeff_near. }
  cbn zeta. change (ad_value e) with (ad_value a). change (ad_sus e) with (ad_sus a).
  destruct (ad_dec_run n a I S G) as (_ & D & V). pose proof I as (Hv & _ & Hd & _ & Hs & _).
  assert (K : forall k, unit_sample (Nat.iter k (dcy (ad_sus a) (ad_dc a)) (ad_value a)) /\
    Rabs (B2R (Nat.iter k (dcy (ad_sus a) (ad_dc a)) (ad_value a)) - (B2R (ad_sus a) + (B2R (ad_value a) - B2R (ad_sus a)) * exp (- (INR k / N)))) <= N / 3600000).
  { intros k. now apply dcy_iter. }
  split; [|split].
  - intros Q. destruct D as [(_ & -> & _)|[X _]]; [apply K|congruence].
  - intros H. apply V. intros k Hk. destruct (K k) as [Uk Ak].
    apply settled_R; [exact Hs|exact Uk|]. eapply Rle_trans; [exact H|].
    set (y := Nat.iter k (dcy (ad_sus a) (ad_dc a)) (ad_value a)) in *.
    assert (P : exp (- (INR n / N)) <= exp (- (INR k / N))).
    { apply le_exp. apply Rmult_le_compat_r; [left; apply Rinv_0_lt_compat; lra|]. apply le_INR. lia. }
    set (w := B2R (ad_value a) - B2R (ad_sus a)) in *.
    assert (Q : Rabs (w * exp (- (INR n / N))) <= Rabs (w * exp (- (INR k / N)))).
    { rewrite !Rabs_mult, !(Rabs_pos_eq (exp _)) by (left; apply exp_pos). apply Rmult_le_compat_l; [apply Rabs_pos|exact P]. }
    pose proof (Rabs_triang_inv (w * exp (- (INR k / N))) (w * exp (- (INR k / N)) - (B2R y - B2R (ad_sus a)))) as T.
    replace (w * exp (- (INR k / N)) - (w * exp (- (INR k / N)) - (B2R y - B2R (ad_sus a)))) with (B2R y - B2R (ad_sus a)) in T by ring.
    replace (w * exp (- (INR k / N)) - (B2R y - B2R (ad_sus a))) with (- (B2R y - (B2R (ad_sus a) + w * exp (- (INR k / N))))) in T by ring.
    rewrite Rabs_Ropp in T. lra.
  - intros H Hn. destruct D as [(_ & _ & [Z|X])|D]; [lia| |exact D]. exfalso. destruct (K n) as [Uk Ak].
    set (y := Nat.iter n (dcy (ad_sus a) (ad_dc a)) (ad_value a)) in *.
    rewrite (proj1 (settled_R _ y Hs Uk)) in X; [discriminate|].
    set (w := (B2R (ad_value a) - B2R (ad_sus a)) * exp (- (INR n / N))) in *.
    replace (B2R y - B2R (ad_sus a)) with ((B2R y - (B2R (ad_sus a) + w)) + w) by ring.
    eapply Rle_trans; [apply Rabs_triang|]. lra.
Qed.
Lemma ad_decay_time L e t n N : exp_unit L -> exp_acc L -> ad_reach L e -> fin t -> fin (ad_sr e) -> flt c0001 t = true ->
  N = B2R t * B2R (ad_sr e) -> 32 <= N <= 2048 -> ad_state e = Decay -> flt fzero (ad_gate e) = true ->
  let r := fst (ad_ticks n (ad_setDecay L e t)) in
  (0.3 <= Rabs (B2R (ad_value e) - B2R (ad_sus e)) -> INR n <= 5.2 * N -> ad_state r = Decay) /\
  (7.8 * N <= INR n -> ad_state r = Sustain /\ ad_value r = ad_sus e).
Proof.
  intros HL HA R Ft Fs Ct EN B S G. destruct (ad_decay_curve L e t n N HL HA R Ft Fs Ct EN ltac:(lra) S G) as (_ & C1 & C2).
  pose proof (ad_reach_inv L e HL R) as ([_ Hv] & _ & _ & _ & [_ Hs] & _).
  cbn zeta in *. rewrite Rabs_mult, (Rabs_pos_eq (exp _)) in C1, C2 by (left; apply exp_pos).
  set (w := Rabs (B2R (ad_value e) - B2R (ad_sus e))) in *.
  assert (W : 0 <= w <= 1) by (split; [apply Rabs_pos|apply Rabs_le; lra]). clearbody w.
  pose proof (exp_pos (- (INR n / N))) as P. split; intros.
  - pose proof (le_exp _ _ (ratio_le n N 5.2 ltac:(lra) ltac:(lra))) as X. pose proof exp_m52. apply C1. nra.
  - pose proof (le_exp _ _ (ratio_ge n N 7.8 ltac:(lra) ltac:(lra))) as X. pose proof exp_m78.
    apply C2; [nra|apply pos_n with (7.8 * N); lra].
Qed.
