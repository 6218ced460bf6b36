(** FVerb: parameters stay in range, the smoothed ones too; every conversion to [int] is defined. *)
From Coq Require Import ZArith Reals Bool List Lra Lia Psatz.
From Flocq Require Import Core BinarySingleNaN.
From Verif Require Import Flt FltFacts FltMore FltKey FltArith FltClose Libm UtilModel UtilProofs PhasorProofs EnvSpec OscSpec FvModel FvSpec FvSpec2 FvProofs FvProofs2 FvProofs3.
Import ListNotations.
Local Open Scope R_scope.

(** ** Sliders *)
Definition in_range (p : fvparam) (x : f32) : Prop := fin x /\ B2R (fv_lo p) <= B2R x <= B2R (fv_hi p).
Definition sl_ok (s : fvsl) : Prop := forall p, in_range p (slider p s).

Lemma slider_set p v s q : slider q (fv_setp p v s) = if match p, q with
  | PREDELAY, PREDELAY | INPUT_AMOUNT, INPUT_AMOUNT | INPUT_LOW_PASS_CUTOFF, INPUT_LOW_PASS_CUTOFF | INPUT_HIGH_PASS_CUTOFF, INPUT_HIGH_PASS_CUTOFF
  | INPUT_DIFFUSION_1, INPUT_DIFFUSION_1 | INPUT_DIFFUSION_2, INPUT_DIFFUSION_2 | TAIL_DENSITY, TAIL_DENSITY | DECAY, DECAY | DAMPING, DAMPING
  | MODULATOR_FREQUENCY, MODULATOR_FREQUENCY | MODULATOR_DEPTH, MODULATOR_DEPTH => true | _, _ => false end then v else slider q s.
Proof. destruct s. destruct p, q; reflexivity. Qed.

Lemma lo_hi p : fin (fv_lo p) /\ fin (fv_hi p) /\ B2R (fv_lo p) <= B2R (fv_hi p).
Proof.
  split; [destruct p; ffin|]. split; [destruct p; ffin|].
  apply fle_R; [destruct p; ffin|destruct p; ffin|]. destruct p; vm_compute; reflexivity.
Qed.
Lemma clamp_range p x : is_nan x = false -> in_range p (fv_clamp p x).
Proof.
  intros N. destruct (lo_hi p) as (A & B & C). unfold fv_clamp. change (in_range p (clamp x (fv_lo p) (fv_hi p))).
  exact (clamp_fin x (fv_lo p) (fv_hi p) N A B C).
Qed.
Lemma sl_set p x s : sl_ok s -> is_nan x = false -> sl_ok (fv_setp p (fv_clamp p x) s).
Proof.
  intros H N q. rewrite slider_set. pose proof (clamp_range p x N) as C. pose proof (H q) as Q. destruct p, q; assumption.
Qed.
Definition sl_start : fvsl := FvSl (fofZ 5500) (fofZ 80) (fofZ 75) (fofZ 70) (fofZ 100) (fofZ 10000) (fofZ 100) (fofZ 150) (fofZ 82) one half.
Lemma sl_start_ok : sl_ok sl_start.
Proof.
  intros p. assert (F : fin (slider p sl_start)) by (destruct p; ffin). destruct (lo_hi p) as (A & B & _).
  split; [exact F|]. split; apply fle_R; auto; destruct p; vm_compute; reflexivity.
Qed.

(** ** Constants at a rate of at least 45 Hz *)
Definition u24 : R := 1 / 10000000.
Definition tiny : R := 1 / 10 ^ 30.
Lemma rnd_up v : 0 <= v -> 0 <= rnd32 v /\ v * (1 - u24) - tiny <= rnd32 v <= v * (1 + u24) + tiny.
Proof.
  intros H. split; [now apply rnd_nonneg|]. pose proof (rnd_rel (prec:=24) (emax:=128) v) as E.
  rewrite (Rabs_pos_eq v H) in E. apply Rabs_le_inv in E.
  change (bpow radix2 (- (24))) with (/ 16777216) in E.
  change (bpow radix2 (SpecFloat.emin 24 128 - 1)) with (/ IZR (2 ^ 150)) in E.
  assert (T : / IZR (2 ^ 150) <= tiny).
  { unfold tiny. rewrite pow_IZR. unfold Rdiv. rewrite Rmult_1_l. apply Rinv_le; [apply (IZR_lt 0); reflexivity|]. apply IZR_le. vm_compute. discriminate. }
  unfold u24. nra.
Qed.
Lemma tiny_b : 0 < tiny <= 1 / 10 ^ 20.
Proof. unfold tiny. split; [|]; lra. Qed.

Definition good_rate (fs : f32) : Prop := fin fs /\ 45 <= B2R fs <= 192000.
Lemma inv_rate fs : good_rate fs -> / 192000 <= / B2R fs <= / 45 /\ B2R fs * / B2R fs = 1.
Proof.
  intros [_ B]. split; [|field; lra]. split; apply Rinv_le; lra.
Qed.

(** A positive constant over the rate. *)
Lemma over_rate (c fs : f32) : good_rate fs -> fin c -> 0 <= B2R c <= 45 ->
  fin (fdiv c fs) /\ 0 <= B2R (fdiv c fs) <= 1 /\
  B2R c * / B2R fs * (1 - u24) - tiny <= B2R (fdiv c fs) <= B2R c * / B2R fs * (1 + u24) + tiny.
Proof.
  intros G Fc Bc. destruct (inv_rate fs G) as (I & E). destruct G as [Ff Bf].
  assert (P : 0 <= B2R c / B2R fs <= 1).
  { unfold Rdiv. split; [nra|]. assert (B2R c * / B2R fs <= 45 * / B2R fs) by nra. lra. }
  destruct (fdiv_b 0 1 c fs dy0 dy1 Fc Ff ltac:(lra) P) as (F & EQ & B). split; [exact F|]. split; [exact B|].
  rewrite EQ. apply (rnd_up (B2R c / B2R fs) (proj1 P)).
Qed.

Record kgood (fs : f32) (k : fvk) : Prop := {
  kg0 : k0 k = fs;
  kg1 : fin (k1 k) /\ 0 <= B2R (k1 k) <= 1 /\ 44.0999 * / B2R fs <= B2R (k1 k) <= 44.1001 * / B2R fs;
  kg2 : fin (k2 k) /\ 0 <= B2R (k2 k) <= 1 - 44.08 * / B2R fs;
  kg3 : fin (k3 k) /\ 0 <= B2R (k3 k) <= 1;
  kg3l : 6.283 * / B2R fs <= B2R (k3 k);
  kg4 : fin (k4 k) /\ 0 <= B2R (k4 k) <= 0.441001 * / B2R fs;
  kg5 : fin (k5 k) /\ 0 <= B2R (k5 k) <= 0.0441001 * / B2R fs;
  kg11 : fin (k11 k) /\ 0 <= B2R (k11 k) <= / 44 }.

Lemma consts_good sr k : (45 <= sr <= 2 ^ 31)%Z -> fv_consts sr = Some k -> good_rate (rate sr) /\ kgood (rate sr) k.
Proof.
  intros H EK. destruct (consts_ok sr ltac:(lia)) as (k' & EK' & E0 & _ & E1 & E2 & E3 & E4 & E5 & E11 & _).
  rewrite EK in EK'. injection EK' as <-.
  destruct (rate_bounds sr) as (F & B & E).
  assert (G : good_rate (rate sr)). { split; [exact F|]. split; [rewrite E; apply (IZR_le 45); lia|apply B]. }
  split; [exact G|]. set (fs := rate sr) in *. clearbody fs. destruct (inv_rate fs G) as (I & EI). pose proof tiny_b as T. unfold u24 in *.
  assert (K1 : fin (k1 k) /\ 0 <= B2R (k1 k) <= 1 /\ 44.0999 * / B2R fs <= B2R (k1 k) <= 44.1001 * / B2R fs).
  { rewrite E1. set (c := flit 5780275 (-17) : f32) in *. assert (Fc : fin c) by ffin. fval c. clearbody c.
    destruct (over_rate c fs G Fc ltac:(lra)) as (A1 & A2 & A3). unfold u24 in A3. rewrite V in A3. split; [exact A1|]. split; [exact A2|]. lra. }
  constructor; try assumption.
  - rewrite E2. destruct K1 as (A1 & A2 & A3).
    destruct (fsub_b 0 1 one (k1 k) dy0 dy1 one_fin A1 ltac:(rewrite one_R; lra)) as (C1 & C2 & C3).
    split; [exact C1|]. split; [apply C3|]. rewrite C2, one_R.
    pose proof (rnd_err1 0 (1 - B2R (k1 k)) ltac:(lia)) as ER. change (bpow radix2 0) with 1 in ER.
    assert (AB : Rabs (1 - B2R (k1 k)) <= 1) by (apply Rabs_le; lra). specialize (ER AB). apply Rabs_le_inv in ER.
    change (bpow radix2 (0 - 25)) with (/ 33554432) in ER. lra.
  - rewrite E3. set (c := flit 13176795 (-21) : f32) in *. assert (Fc : fin c) by ffin. fval c. clearbody c.
    destruct (over_rate c fs G Fc ltac:(lra)) as (A1 & A2 & A3). now split.
  - rewrite E3. set (c := flit 13176795 (-21) : f32) in *. assert (Fc : fin c) by ffin. fval c. clearbody c.
    destruct (over_rate c fs G Fc ltac:(lra)) as (A1 & A2 & A3). unfold u24 in A3. rewrite V in A3. lra.
  - rewrite E4. set (c := flit 14797505 (-25) : f32) in *. assert (Fc : fin c) by ffin. fval c. clearbody c.
    destruct (over_rate c fs G Fc ltac:(lra)) as (A1 & A2 & A3). unfold u24 in A3. rewrite V in A3. split; [exact A1|]. lra.
  - rewrite E5. set (c := flit 2959501 (-26) : f32) in *. assert (Fc : fin c) by ffin. fval c. clearbody c.
    destruct (over_rate c fs G Fc ltac:(lra)) as (A1 & A2 & A3). unfold u24 in A3. rewrite V in A3. split; [exact A1|]. lra.
  - rewrite E11. destruct (over_rate one fs G one_fin ltac:(rewrite one_R; lra)) as (A1 & A2 & A3). unfold u24 in A3. rewrite one_R in A3. split; [exact A1|]. lra.
Qed.

(** ** Smoothing: the value stays below 1.002 times its target's limit [V] *)
Definition soft (V : R) (x : f32) : Prop := fin x /\ 0 <= B2R x <= 1.002 * V.
Definition aim (fs : f32) (V : R) (w : f32) : Prop := fin w /\ 0 <= B2R w <= 44.11 * / B2R fs * V.
Lemma smooth_soft fs k V w x : good_rate fs -> kgood fs k -> / 200 <= V <= 8 -> aim fs V w -> soft V x -> soft V (fadd w (fmul (k2 k) x)).
Proof.
  intros G K BV (Fw & Bw) (Fx & Bx). destruct (inv_rate fs G) as (I & EI). destruct (kg2 _ _ K) as (F2 & B2). pose proof tiny_b as T.
  set (q := / B2R fs) in *.
  assert (M : 0 <= B2R (k2 k) * B2R x <= 1.002 * V * (1 - 44.08 * q)) by (split; [nra|]; assert (B2R (k2 k) * B2R x <= (1 - 44.08 * q) * (1.002 * V)) by nra; lra).
  assert (Q0 : 0 <= V * q <= V * / 45) by nra. assert (Q1 : V * / 192000 <= V * q) by nra.
  assert (D16 : dy32 16) by (apply dyZ; lia).
  destruct (fmul_b 0 16 (k2 k) x dy0 D16 F2 Fx ltac:(split; lra)) as (F1 & E1 & B1).
  destruct (rnd_up _ (proj1 M)) as (U0 & _ & U1). rewrite <- E1 in U1. unfold u24 in U1.
  assert (S : 0 <= B2R w + B2R (fmul (k2 k) x) <= 1.002 * V - 0.05 * (V * q) + 2 * tiny + 1.1 / 10000000 * V) by (split; [lra|]; nra).
  destruct (fadd_b 0 16 w (fmul (k2 k) x) dy0 D16 Fw F1 ltac:(split; lra)) as (F3 & E3 & B3).
  split; [exact F3|]. split; [apply B3|]. destruct (rnd_up _ (proj1 S)) as (_ & _ & U2). rewrite <- E3 in U2. unfold u24 in U2. nra.
Qed.
Lemma soft0 V : 0 <= V -> soft V zero. Proof. intros H. split; [reflexivity|]. rewrite zero_R. lra. Qed.

(** ** Targets *)
Definition sp_ok (p : fvpar) : Prop :=
  soft 1 (p8 p) /\ soft 1 (p12 p) /\ soft 1 (p15 p) /\ soft 1 (p20 p) /\ soft 1 (p24 p) /\ soft 1 (p25 p) /\ soft 1 (p27 p) /\
  soft 0.3 (p28 p) /\ soft 1 (p29 p) /\ soft 4 (p36 p) /\ soft 0.01 (p37 p).
(** Without assumptions on [exp]: what the conversions to [int] depend on. *)
Definition sp_int (p : fvpar) : Prop := soft 0.3 (p28 p) /\ soft 4 (p36 p) /\ soft 0.01 (p37 p).

Lemma aim_mul fs (c s : f32) (a b V : R) : good_rate fs -> fin c -> 0 <= B2R c <= a * / B2R fs -> fin s -> 0 <= B2R s <= b -> 0 <= a -> 0 <= b ->
  / 200 <= V <= 8 -> a * b <= 44.1002 * V -> aim fs V (fmul c s).
Proof.
  intros G Fc Bc Fs Bs A B BV AB. destruct (inv_rate fs G) as (I & EI). set (q := / B2R fs) in *. pose proof tiny_b as T.
  assert (Q : 0 <= V * q <= V * / 45) by nra. assert (Q1 : V * / 192000 <= V * q) by nra.
  assert (M : 0 <= B2R c * B2R s <= 44.1002 * (V * q)).
  { split; [nra|]. assert (B2R c * B2R s <= a * q * b) by (apply Rmult_le_compat; lra). assert (a * q * b <= 44.1002 * V * q) by nra. lra. }
  assert (D16 : dy32 16) by (apply dyZ; lia).
  destruct (fmul_b 0 16 c s dy0 D16 Fc Fs ltac:(lra)) as (F & E & Bd). split; [exact F|]. split; [apply Bd|].
  destruct (rnd_up _ (proj1 M)) as (_ & _ & U). rewrite <- E in U. unfold u24 in U. fold q. nra.
Qed.
Lemma lohi_R p : (B2R (fv_lo p), B2R (fv_hi p)) = match p with
  | PREDELAY => (0, 300) | INPUT_AMOUNT | INPUT_DIFFUSION_1 | INPUT_DIFFUSION_2 | TAIL_DENSITY | DECAY => (0, 100)
  | INPUT_LOW_PASS_CUTOFF => (1, 20000) | INPUT_HIGH_PASS_CUTOFF => (1, 1000) | DAMPING => (10, 20000)
  | MODULATOR_FREQUENCY => (B2R (fdec 1 100), 4) | MODULATOR_DEPTH => (0, 10) end.
Proof.
  assert (Z : forall n, (Z.abs n <= 2 ^ 24)%Z -> B2R (fofZ n : f32) = IZR n) by (intros n Hn; apply (fofZ_R (prec:=24) (emax:=128) n Hn)).
  destruct p; cbn [fv_lo fv_hi]; unfold one; rewrite ?zero_R, ?Z by lia; reflexivity.
Qed.
Lemma range_R p x lo hi : in_range p x -> (B2R (fv_lo p), B2R (fv_hi p)) = (lo, hi) -> fin x /\ lo <= B2R x <= hi.
Proof. intros [F B] E. injection E as <- <-. now split. Qed.

Lemma aims_int L fs k s : good_rate fs -> kgood fs k -> sl_ok s ->
  aim fs 0.3 (p28 (fv_slow L k s)) /\ aim fs 4 (p36 (fv_slow L k s)) /\ aim fs 0.01 (p37 (fv_slow L k s)).
Proof.
  intros G K S. unfold fv_slow. cbn [p28 p36 p37].
  destruct (kg5 _ _ K) as (F5 & B5). destruct (kg1 _ _ K) as (F1 & B1 & B1').
  destruct (range_R _ _ _ _ (S PREDELAY) (lohi_R PREDELAY)) as (FP & BP). destruct (range_R _ _ _ _ (S MODULATOR_DEPTH) (lohi_R MODULATOR_DEPTH)) as (FD & BD).
  destruct (range_R _ _ _ _ (S MODULATOR_FREQUENCY) (lohi_R MODULATOR_FREQUENCY)) as (FM & BM). cbn [slider] in *.
  assert (L0 : 0 <= B2R (fdec 1 100)) by (fval (fdec 1 100); lra).
  split; [|split].
  - apply (aim_mul fs _ _ 0.0441001 300); auto; lra.
  - apply (aim_mul fs _ _ 44.1001 4); auto; lra.
  - apply (aim_mul fs _ _ 0.0441001 10); auto; lra.
Qed.

(** ** Conversions to [int] *)
Lemma to_int_in (x : f32) (b : R) : fin x -> Rabs (B2R x) <= b -> b <= 2000000000 -> to_int x = Some (Ztrunc (B2R x)).
Proof.
  intros F B H. apply ftoZ_some. split; [exact F|]. split; [reflexivity|]. apply Rabs_le_inv in B. unfold INT_MIN, INT_MAX.
  replace (- 2 ^ 31)%Z with (Ztrunc (IZR (- 2 ^ 31))) by apply Ztrunc_IZR. replace (2 ^ 31 - 1)%Z with (Ztrunc (IZR (2 ^ 31 - 1))) by apply Ztrunc_IZR.
  split; apply Ztrunc_le; [change (IZR (- 2 ^ 31)) with (-2147483648)|change (IZR (2 ^ 31 - 1)) with 2147483647]; lra.
Qed.
Lemma trunc01 v : 0 <= v < 2 -> Ztrunc v = 0%Z /\ v < 1 \/ Ztrunc v = 1%Z /\ 1 <= v.
Proof.
  intros H. rewrite Ztrunc_floor by lra. destruct (Rlt_le_dec v 1) as [A|A]; [left|right]; (split; [|lra]); apply Zfloor_imp; cbn; lra.
Qed.

Lemma pre_int fs k p : good_rate fs -> kgood fs k -> soft 0.3 (p28 p) -> exists n, to_int (fmul (k0 k) (p28 p)) = Some n /\ (0 <= n <= 57716)%Z.
Proof.
  intros [Ff Bf] K (F & B). rewrite (kg0 _ _ K).
  assert (D : dy32 57716) by (apply dyZ; lia).
  destruct (fmul_b 0 57716 fs (p28 p) dy0 D Ff F ltac:(nra)) as (F1 & E1 & B1).
  exists (Ztrunc (B2R (fmul fs (p28 p)))). split; [apply (to_int_in _ 57716); [exact F1|rewrite Rabs_pos_eq by lra; lra|lra]|].
  replace 0%Z with (Ztrunc (IZR 0)) by apply Ztrunc_IZR. replace 57716%Z with (Ztrunc (IZR 57716)) by apply Ztrunc_IZR. split; apply Ztrunc_le; lra.
Qed.
Definition phase_ok (x : f32) : Prop := fin x /\ 0 <= B2R x <= 1.
Lemma quarter_R : B2R (flit 1 (-2) : f32) = / 4. Proof. fval (flit 1 (-2) : f32). lra. Qed.
Lemma quarter_fin : fin (flit 1 (-2) : f32). Proof. ffin. Qed.
Lemma fofZ01 n : n = 0%Z \/ n = 1%Z -> fin (fofZ n : f32) /\ B2R (fofZ n : f32) = IZR n.
Proof. intros H. apply fofZ_R. destruct H as [->| ->]; cbn; lia. Qed.
Lemma phase_step fs k p x : good_rate fs -> kgood fs k -> soft 4 (p36 p) -> phase_ok x -> exists y, fv_phase k p x = Some y /\ phase_ok y.
Proof.
  intros G K (F & B) (Fx & Bx). destruct (kg11 _ _ K) as (FK & BK). unfold fv_phase.
  assert (D2 : dy32 2) by (apply dyZ; lia). assert (Dh : dy32 (/ 2)) by (replace (/ 2) with (bpow radix2 (-1)) by (bp; lra); apply bp_dy; lia).
  destruct (fmul_b 0 (/ 2) (k11 k) (p36 p) dy0 Dh FK F ltac:(nra)) as (F1 & E1 & B1).
  assert (D15 : dy32 (3 * / 2)) by (replace (3 * / 2) with (IZR 3 * bpow radix2 (-1)) by (bp; lra); apply dyq; lia).
  destruct (fadd_b 0 (3 * / 2) x (fmul (k11 k) (p36 p)) dy0 D15 Fx F1 ltac:(lra)) as (F2 & E2 & B2).
  set (t := fadd x (fmul (k11 k) (p36 p))) in *. clearbody t.
  rewrite (to_int_in t 2); [|exact F2|rewrite Rabs_pos_eq by lra; lra|lra].
  eexists. split; [reflexivity|].
  assert (C : Ztrunc (B2R t) = 0%Z /\ B2R t < 1 \/ Ztrunc (B2R t) = 1%Z /\ 1 <= B2R t) by (apply trunc01; lra).
  destruct (fofZ01 (Ztrunc (B2R t)) ltac:(destruct C as [[C _]|[C _]]; auto)) as [FN EN].
  destruct (fsub_b 0 1 t (fofZ (Ztrunc (B2R t))) dy0 dy1 F2 FN) as (F3 & E3 & B3).
  { rewrite EN. destruct C as [[C1 C2]|[C1 C2]]; rewrite C1; cbn [IZR IPR]; lra. }
  split; assumption.
Qed.
Lemma tix_range n : (0 <= fv_tix n <= 65535)%Z. Proof. unfold fv_tix. lia. Qed.
Lemma table_ok L n : sin_unit L -> (0 <= n <= 65535)%Z -> fin (fv_sin L n) /\ -1 <= B2R (fv_sin L n) <= 1.
Proof.
  intros S H. unfold fv_sin. apply S.
  destruct (fofZ_R (prec:=24) (emax:=128) n ltac:(cbn; lia)) as [F E]. set (c := flit 13176795 (-37) : f32) in *. assert (Fc : fin c) by ffin. fval c. clearbody c.
  assert (0 <= IZR n <= 65535) by (split; [apply (IZR_le 0)|apply (IZR_le _ 65535)]; lia).
  apply (fmul_b 0 8 c (fofZ n)); auto; [apply dy0|apply dyZ; lia|]. rewrite E. nra.
Qed.
(** The length of the modulated delay: [c] seconds plus or minus the depth. *)
Lemma depth_int L fs k p n (c : f32) : good_rate fs -> kgood fs k -> sin_unit L -> soft 0.01 (p37 p) -> (0 <= n <= 65535)%Z -> fin c -> / 50 <= B2R c <= / 32 ->
  exists m, to_int (fmul (k0 k) (fadd (fmul (p37 p) (fv_sin L n)) c)) = Some m /\ (0 <= m <= 8000)%Z /\ i32 (m + -1) = Some (m + -1)%Z.
Proof.
  intros [Ff Bf] K S (F & B) N Fc Bc. destruct (table_ok L n S N) as (FS & BS). rewrite (kg0 _ _ K). set (sn := fv_sin L n) in *. clearbody sn.
  assert (Dq : dy32 (/ 64)) by (replace (/ 64) with (bpow radix2 (-6)) by (bp; lra); apply bp_dy; lia).
  destruct (fmul_b (- / 64) (/ 64) (p37 p) sn) as (F1 & E1 & B1); auto; [apply dy_opp; exact Dq|nra|].
  assert (PB : Rabs (B2R (fmul (p37 p) sn)) <= 0.0101).
  { rewrite E1. pose proof (rnd_rel (prec:=24) (emax:=128) (B2R (p37 p) * B2R sn)) as R. change (bpow radix2 (- (24))) with (/ 16777216) in R.
    change (bpow radix2 (SpecFloat.emin 24 128 - 1)) with (/ IZR (2 ^ 150)) in R.
    assert (T : / IZR (2 ^ 150) <= / 1000000000) by (apply Rinv_le; [lra|]; apply IZR_le; vm_compute; discriminate).
    assert (A : Rabs (B2R (p37 p) * B2R sn) <= 0.01002) by (apply Rabs_le; nra).
    apply Rabs_le_inv in R. apply Rabs_le_inv in A. pose proof (Rabs_pos (B2R (p37 p) * B2R sn)).
    assert (A2 : Rabs (B2R (p37 p) * B2R sn) <= 0.01002) by (apply Rabs_le; lra). apply Rabs_le. lra. }
  apply Rabs_le_inv in PB.
  assert (D5 : dy32 (85 / 2048)) by (replace (85 / 2048) with (IZR 85 * bpow radix2 (-11)) by (bp; lra); apply dyq; lia).
  destruct (fadd_b 0 (85 / 2048) (fmul (p37 p) sn) c dy0 D5 F1 Fc ltac:(lra)) as (F2 & E2 & B2).
  assert (D8 : dy32 8000) by (apply dyZ; lia).
  destruct (fmul_b 0 8000 fs (fadd (fmul (p37 p) sn) c) dy0 D8 Ff F2 ltac:(nra)) as (F3 & E3 & B3).
  eexists. split; [apply (to_int_in _ 8000); [exact F3|rewrite Rabs_pos_eq by lra; lra|lra]|].
  assert (M : (0 <= Ztrunc (B2R (fmul fs (fadd (fmul (p37 p) sn) c))) <= 8000)%Z).
  { replace 0%Z with (Ztrunc (IZR 0)) by apply Ztrunc_IZR. replace 8000%Z with (Ztrunc (IZR 8000)) by apply Ztrunc_IZR. split; apply Ztrunc_le; lra. }
  split; [exact M|]. set (m := Ztrunc (B2R (fmul fs (fadd (fmul (p37 p) sn) c)))) in *. unfold i32, INT_MIN, INT_MAX.
  destruct (Z.leb_spec (- 2 ^ 31) (m + -1)); [|lia]. destruct (Z.leb_spec (m + -1) (2 ^ 31 - 1)); [reflexivity|lia].
Qed.
Lemma scale16 (x : f32) : fin x -> -1 <= B2R x <= 2 -> exists n, to_int (fmul (fofZ 65536) x) = Some n.
Proof.
  intros F B. destruct (fofZ_R (prec:=24) (emax:=128) 65536 ltac:(cbn; lia)) as [F6 E6].
  destruct (fmul_b (-65536) 131072 (fofZ 65536) x) as (F1 & E1 & B1); auto; [apply (dyZ (-65536)); lia|apply dyZ; lia|rewrite E6; lra|].
  eexists. apply (to_int_in _ 131072); [exact F1|apply Rabs_le; lra|lra].
Qed.
Lemma dR_int L fs k p x : good_rate fs -> kgood fs k -> sin_unit L -> soft 0.01 (p37 p) -> phase_ok x -> exists m, fv_dR L k p x = Some m /\ (-1 <= m <= 7999)%Z.
Proof.
  intros G K S P (Fx & Bx). unfold fv_dR.
  assert (D2 : dy32 2) by (apply dyZ; lia).
  destruct (fadd_b 0 2 x (flit 1 (-2)) dy0 D2 Fx quarter_fin ltac:(rewrite quarter_R; lra)) as (F1 & E1 & B1).
  match type of F1 with fin ?v => set (t := v) in * end.
  assert (B1' : B2R t <= 3 * / 2).
  { rewrite E1, quarter_R. assert (D15 : dy32 (3 * / 2)) by (replace (3 * / 2) with (IZR 3 * bpow radix2 (-1)) by (bp; lra); apply dyq; lia).
    destruct (dy_rnd_bnd (prec:=24) (emax:=128) 0 (3 * / 2) (B2R x + / 4) dy0 D15 ltac:(lra)) as [_ Q]. apply Q. }
  rewrite (to_int_in t 2); [|exact F1|rewrite Rabs_pos_eq by lra; lra|lra].
  clearbody t. set (q := Ztrunc (B2R t)).
  assert (Q : q = 0%Z \/ q = 1%Z).
  { pose proof (trunc01 (B2R t) ltac:(lra)) as TT. fold q in TT. clearbody q. intuition. }
  clearbody q. destruct (fofZ01 q Q) as [FN EN].
  destruct (fsub_b (-1) 1 (flit 1 (-2)) (fofZ q) dyn1 dy1 quarter_fin FN) as (F2 & E2 & B2).
  { rewrite quarter_R, EN. destruct Q as [-> | ->]; cbn [IZR IPR]; lra. }
  destruct (fadd_b (-1) 2 x (fsub (flit 1 (-2)) (fofZ q)) dyn1 D2 Fx F2 ltac:(lra)) as (F3 & E3 & B3).
  destruct (scale16 _ F3 B3) as (n & En). rewrite En.
  set (c := flit 16379785 (-29) : f32) in *. assert (Fc : fin c) by ffin. fval c. clearbody c.
  destruct (depth_int L fs k p (fv_tix n) c G K S P (tix_range n) Fc ltac:(lra)) as (m & Em & Bm & Im). rewrite Em, Im. eexists. split; [reflexivity|]. lia.
Qed.
Lemma dL_int L fs k p x : good_rate fs -> kgood fs k -> sin_unit L -> soft 0.01 (p37 p) -> phase_ok x -> exists m, fv_dL L k p x = Some m /\ (-1 <= m <= 7999)%Z.
Proof.
  intros G K S P (Fx & Bx). unfold fv_dL.
  destruct (scale16 x Fx ltac:(lra)) as (n & En). rewrite En.
  set (c := flit 13746031 (-29) : f32) in *. assert (Fc : fin c) by ffin. fval c. clearbody c.
  destruct (depth_int L fs k p (fv_tix n) c G K S P (tix_range n) Fc ltac:(lra)) as (m & Em & Bm & Im). rewrite Em, Im. eexists. split; [reflexivity|]. lia.
Qed.

(** ** Control *)
Definition ctl_int (c : ctl) : Prop := sp_int (t_par c) /\ phase_ok (t_ph c).
Lemma smooth_int L fs k s p : good_rate fs -> kgood fs k -> sl_ok s -> sp_int p -> sp_int (fv_smooth k (fv_slow L k s) p).
Proof.
  intros G K S (A & B & C). destruct (aims_int L fs k s G K S) as (X & Y & Z).
  split; [|split]; cbn [fv_smooth p28 p36 p37]; apply (smooth_soft fs); auto; lra.
Qed.
Lemma ctl_defined L fs k s c : good_rate fs -> kgood fs k -> sin_unit L -> sl_ok s -> ctl_int c ->
  exists c' pre, ctl_step L k (fv_slow L k s) c = Some (c', pre) /\ ctl_int c' /\ t_par c' = fv_smooth k (fv_slow L k s) (t_par c) /\ (0 <= pre <= 57716)%Z.
Proof.
  intros G K S SL (P & H). pose proof (smooth_int L fs k s (t_par c) G K SL P) as P'. unfold ctl_step.
  destruct P' as (A & B & C). destruct (pre_int fs k _ G K A) as (n & -> & Bn).
  destruct (phase_step fs k _ _ G K B H) as (ph & -> & H'). destruct (dR_int L fs k _ ph G K S C H') as (dR & -> & _). destruct (dL_int L fs k _ ph G K S C H') as (dL & -> & _).
  eexists _, _. split; [reflexivity|]. split; [split; [exact (conj A (conj B C))|exact H']|]. split; [reflexivity|]. lia.
Qed.
