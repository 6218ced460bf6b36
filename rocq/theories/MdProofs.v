(** MusicDSP ladder: coefficients and levels. *)
From Coq Require Import ZArith Reals Lra Lia Bool Psatz List.
From Flocq Require Import Core BinarySingleNaN.
From Verif Require Import Flt FltFacts FltMore FltKey FltArith Libm UtilModel UtilProofs Dbl RealBounds LpSpec MgModel MgSpec MgBase MdModel.
Import ListNotations.
Local Open Scope R_scope.

(** ** Real analysis *)
Lemma sin_band w : 0 <= w -> w * (1 - w * w / 2) <= sin w <= w.
Proof.
  intros H. destruct (Req_dec w 0) as [->|N]; [rewrite sin_0; lra|]. destruct (MVT_cor2 sin cos 0 w) as (c & E & Hc); [lra|intros; apply derivable_pt_lim_sin|].
  rewrite sin_0, !Rminus_0_r in E. rewrite E. pose proof (cos_lower c) as C. pose proof (COS_bound c) as D. rewrite (Rmult_comm (cos c) w). split; [apply Rmult_le_compat_l; [lra|]; nra|].
  rewrite <- (Rmult_1_r w) at 2. apply Rmult_le_compat_l; lra.
Qed.
(** The gain of a stage at the relative cutoff [F], [w] near pi F / 2 and [s] near sin w. *)
Lemma stage_gain F w s : / 131072 <= F <= 3 / 10 -> 15707 / 10000 * F <= w <= 15709 / 10000 * F -> w * (1 - w * w / 2) <= s -> F * (18 / 10 - 8 / 10 * F) <= 5731 / 10000 * (2 * s).
Proof.
  intros HF Hw Hs. assert (W2 : w * w <= 2468 / 1000 * (F * F)). { apply Rle_trans with (15709 / 10000 * F * (15709 / 10000 * F)); [apply Rmult_le_compat; lra|nra]. }
  assert (A : 15707 / 10000 * F * (1 - 1234 / 1000 * (F * F)) <= w * (1 - w * w / 2)). { apply Rmult_le_compat; [lra| |lra|lra]. nra. }
  assert (B : F * (18 / 10 - 8 / 10 * F) <= F * (2 * (5731 / 10000) * (15707 / 10000) * (1 - 1234 / 1000 * (F * F)))). { apply Rmult_le_compat_l; [lra|]. nra. }
  lra.
Qed.

(** ** The coefficients *)
Lemma fc_R sr c q : mg_rate sr -> q <= 15 / 100 -> mg_cut q sr c -> ex 10 (md_fc sr c) (2 * (B2R c / B2R sr)) /\ / 131072 <= 2 * (B2R c / B2R sr) <= 2 * q.
Proof.
  intros [Fs Hs] Hq [Ff Hf]. unfold md_fc. assert (A1 : ap 0 (dz 2) 2). { split; [ffin|]. fval (dz 2). apply Rabs_le. lra. }
  destruct (f2d_R c Ff) as [Fd Ed]. destruct (f2d_R sr Fs) as [Sd Es].
  pose proof (ap_self _ Fd) as A2. rewrite Ed in A2. pose proof (ap_self _ Sd) as A3. rewrite Es in A3.
  set (F := B2R c) in *. set (S := B2R sr) in *. assert (Qb : q * S <= 15 / 100 * S) by (apply Rmult_le_compat_r; lra). assert (F1 : Rabs F <= 132000) by (rewrite Rabs_pos_eq; lra).
  assert (T : mid64 1000000). { split; [apply Rle_trans with (bpow radix2 0); [apply bpow_le; lia|change (bpow radix2 0) with 1; lra]|]. apply Rle_trans with (bpow radix2 20); [change (bpow radix2 20) with 1048576; lra|apply bpow_le; lia]. }
  assert (P2 : Rabs 2 <= 2) by (rewrite Rabs_pos_eq; lra).
  pose proof (ap_mul 0 0 2 132000 1000000 _ _ _ _ A1 A2 P2 F1 T ltac:(lra)) as A4.
  assert (U : du = 1025 / 9223372036854775808) by (unfold du; change (bpow radix2 (-53)) with (/ 9007199254740992); lra).
  assert (Q : / 262144 <= F / S <= q).
  { split; apply Rmult_le_reg_r with S; try lra; unfold Rdiv; rewrite Rmult_assoc, Rinv_l by lra; lra. }
  assert (E : 2 * F / S = 2 * (F / S)) by (unfold Rdiv; ring).
  pose proof (ap_div _ 0 1 4000 16 _ _ _ _ A4 A3) as A5. rewrite E in A5.
  specialize (A5 ltac:(rewrite Rabs_pos_eq; lra) ltac:(rewrite Rabs_pos_eq; lra) ltac:(lra) mid16 ltac:(rewrite U; lra)).
  split; [|lra]. split; [lra|]. eapply ap_weak; [exact A5|]. rewrite eps_bp, U. unfold eps. lra.
Qed.
Definition md_pof (fc : f64) : f64 := fmul fc (fsub (ddec 18 10) (fmul (ddec 8 10) fc)).
Definition md_kof (L : libm) (fc : f64) : f64 := fsub (fmul (dz 2) (d_sin L (fmul (fmul fc dPI) (ddec 1 2)))) (dz 1).
Definition md_t1of (p : f64) : f64 := fmul (fsub (dz 1) p) (ddec 1386249 1000000).
Definition md_t2of (t1 : f64) : f64 := fadd (dz 12) (fmul t1 t1).
Definition md_rcof (res : f32) (t1 t2 : f64) : f64 := fdiv (fmul (f2d res) (fadd t2 (fmul (dz 6) t1))) (fsub t2 (fmul (dz 6) t1)).

Lemma p_R fc F : ex 10 fc F -> / 131072 <= F <= 3 / 10 -> ex 40 (md_pof fc) (F * (18 / 10 - 8 / 10 * F)).
Proof.
  intros E H. assert (A : ex 1 (ddec 18 10) (18 / 10)) by exc (ddec 18 10). assert (B : ex 1 (ddec 8 10) (8 / 10)) by exc (ddec 8 10). unfold md_pof.
  assert (C : ex 10 (fmul (ddec 8 10) fc) (8 / 10 * F)). { eapply ex_weak; [apply (ex_mul 1 10 (8 / 10) (3 / 10)); [exact B|exact E|rewrite Rabs_pos_eq; lra|rewrite Rabs_pos_eq; lra|lra|lra]|lra]. }
  assert (D : ex 12 (fsub (ddec 18 10) (fmul (ddec 8 10) fc)) (18 / 10 - 8 / 10 * F)). { eapply ex_weak; [apply (ex_sub 1 10); [exact A|exact C|rewrite Rabs_pos_eq; lra|lra]|lra]. }
  eapply ex_weak; [apply (ex_mul 10 12 (3 / 10) 2); [exact E|exact D|rewrite Rabs_pos_eq; lra|rewrite Rabs_pos_eq; lra|lra|lra]|lra].
Qed.
Lemma k_R L fc F : sincos_acc L -> ex 10 fc F -> / 131072 <= F <= 3 / 10 -> let k := md_kof L fc in
  fin k /\ - 1 + / 100000 <= B2R k <= - / 100 /\ F * (18 / 10 - 8 / 10 * F) <= 57312 / 100000 * (1 + B2R k).
Proof.
  intros HL E H k. assert (A : ex 1 dPI (13176795 / 4194304)) by exc dPI. assert (B : ex 0 (ddec 1 2) (/ 2)) by exc (ddec 1 2). unfold md_kof in k.
  assert (C : ex 33 (fmul fc dPI) (F * (13176795 / 4194304))). { eapply ex_weak; [apply (ex_mul 10 1 (3 / 10) (315 / 100)); [exact E|exact A|rewrite Rabs_pos_eq; lra|rewrite Rabs_pos_eq; lra|lra|lra]|lra]. }
  assert (D : ex 18 (fmul (fmul fc dPI) (ddec 1 2)) (F * (13176795 / 4194304) * / 2)). { eapply ex_weak; [apply (ex_mul 33 0 1 (/ 2)); [exact C|exact B|rewrite Rabs_pos_eq; lra|rewrite Rabs_pos_eq; lra|lra|lra]|lra]. }
  set (w := fmul (fmul fc dPI) (ddec 1 2)) in *. pose proof (ex_R _ _ _ D) as W. unfold eps in W. assert (Fw : fin w) by exact (ex_fin _ _ _ D). clearbody w.
  assert (W1 : 15707 / 10000 * F <= B2R w <= 15709 / 10000 * F) by lra. destruct (HL w Fw ltac:(lra)) as [[Fn Sn] _]. set (n := d_sin L w) in *. clearbody n.
  destruct (sin_band (B2R w) ltac:(lra)) as [S1 S2]. pose proof (stage_gain F (B2R w) _ H W1 S1) as G.
  assert (N : ex 1 n (sin (B2R w))). { split; [lra|split; [exact Fn|]]. eapply Rle_trans; [exact Sn|]. rewrite eps_bp. unfold eps. change (bpow radix2 (-53)) with (/ 9007199254740992). lra. }
  assert (S4 : 15 / 1000000 < 2 * sin (B2R w)). { assert (F * (18 / 10 - 8 / 10 * F) >= F * (15 / 10)) by nra. lra. }
  assert (M : ex 3 (fmul (dz 2) n) (2 * sin (B2R w))). { assert (Z : ex 0 (dz 2) 2) by exc (dz 2). eapply ex_weak; [apply (ex_mul 0 1 2 1); [exact Z|exact N|rewrite Rabs_pos_eq; lra|rewrite Rabs_pos_eq; lra|lra|lra]|lra]. }
  assert (K : ex 5 k (2 * sin (B2R w) - 1)). { assert (Z : ex 0 (dz 1) 1) by exc (dz 1). eapply ex_weak; [apply (ex_sub 3 0); [exact M|exact Z|apply Rabs_le; lra|lra]|lra]. }
  pose proof (ex_R _ _ _ K) as R. unfold eps in R. split; [exact (ex_fin _ _ _ K)|]. split; [split|]; lra.
Qed.
Lemma t_R p P : ex 40 p P -> 0 <= P <= 47 / 100 -> let t1 := md_t1of p in let t2 := md_t2of t1 in
  exists T, 7 / 10 <= T <= 138625 / 100000 /\ ex 100 t1 T /\ ex 400 t2 (12 + T * T).
Proof.
  intros E H t1 t2. assert (A : ex 1 (ddec 1386249 1000000) (1386249 / 1000000)) by exc (ddec 1386249 1000000). assert (Z : ex 0 (dz 1) 1) by exc (dz 1). assert (Z2 : ex 0 (dz 12) 12) by exc (dz 12).
  assert (B : ex 41 (fsub (dz 1) p) (1 - P)). { eapply ex_weak; [apply (ex_sub 0 40); [exact Z|exact E|rewrite Rabs_pos_eq; lra|lra]|lra]. }
  exists ((1 - P) * (1386249 / 1000000)). set (T := (1 - P) * (1386249 / 1000000)). assert (HT : 7 / 10 <= T <= 138625 / 100000) by (unfold T; lra).
  assert (C : ex 100 t1 T). { eapply ex_weak; [apply (ex_mul 41 1 1 (14 / 10)); [exact B|exact A|rewrite Rabs_pos_eq; lra|rewrite Rabs_pos_eq; lra|lra|lra]|lra]. }
  split; [exact HT|]. split; [exact C|]. clearbody T t1. assert (D : ex 290 (fmul t1 t1) (T * T)). { eapply ex_weak; [apply (ex_mul 100 100 (14 / 10) (14 / 10)); [exact C|exact C|rewrite Rabs_pos_eq; lra|rewrite Rabs_pos_eq; lra|lra|lra]|lra]. }
  eapply ex_weak; [apply (ex_add 0 290); [exact Z2|exact D|rewrite Rabs_pos_eq; nra|lra]|lra].
Qed.
Lemma rc_R res t1 t2 T rho : 7 / 10 <= T <= 138625 / 100000 -> ex 100 t1 T -> ex 400 t2 (12 + T * T) -> fin res -> 0 <= B2R res <= rho -> rho <= 1 ->
  let rc := md_rcof res t1 t2 in fin rc /\ Rabs (B2R rc) <= 397 / 100 * rho + / 1000000.
Proof.
  intros HT E1 E2 Fr Hr H1 rc. assert (Z : ex 0 (dz 6) 6) by exc (dz 6).
  assert (A : ex 620 (fmul (dz 6) t1) (6 * T)). { eapply ex_weak; [apply (ex_mul 0 100 6 2); [exact Z|exact E1|rewrite Rabs_pos_eq; lra|rewrite Rabs_pos_eq; lra|lra|lra]|lra]. }
  assert (T2 : 49 / 100 <= T * T <= 193 / 100) by nra. assert (M : mid64 32) by (change 32 with (bpow radix2 5); split; apply bpow_le; lia).
  assert (U : du = 1025 / 9223372036854775808) by (unfold du; change (bpow radix2 (-53)) with (/ 9007199254740992); lra).
  assert (D : ex 1100 (fsub t2 (fmul (dz 6) t1)) (12 + T * T - 6 * T)). { eapply ex_weak; [apply (ex_sub 400 620); [exact E2|exact A|rewrite Rabs_pos_eq; lra|lra]|lra]. }
  destruct E2 as [_ E2], A as [_ A], D as [_ D]. rewrite eps_bp in *. pose proof (ap_add _ _ 32 _ _ _ _ E2 A M ltac:(rewrite Rabs_pos_eq; unfold eps; lra)) as N.
  destruct (f2d_R res Fr) as [Fd Ed]. pose proof (ap_self _ Fd) as R1. rewrite Ed in R1.
  assert (B1 : Rabs (B2R res) <= 1) by (rewrite Rabs_pos_eq; lra). assert (B2 : Rabs (12 + T * T + 6 * T) <= 30) by (rewrite Rabs_pos_eq; lra).
  pose proof (ap_mul _ _ 1 30 32 _ _ _ _ R1 N B1 B2 M ltac:(rewrite U; unfold eps; lra)) as N2.
  set (n := 12 + T * T + 6 * T) in *. set (d := 12 + T * T - 6 * T) in *. assert (Hn : 0 <= n <= 3969 / 1000 * d) by (unfold n, d; nra). assert (Hd : 56 / 10 <= d) by (unfold d; nra).
  assert (Q1 : 0 <= n / d <= 3969 / 1000). { split; [apply Rmult_le_pos; [lra|left; apply Rinv_0_lt_compat; lra]|]. apply Rmult_le_reg_r with d; [lra|]. unfold Rdiv. rewrite Rmult_assoc, Rinv_l by lra. lra. }
  assert (Q2 : B2R res * n / d = B2R res * (n / d)) by (unfold Rdiv; ring). assert (Q3 : 0 <= B2R res * (n / d) <= 3969 / 1000 * rho) by nra.
  pose proof (ap_div _ _ 4 5 16 _ _ _ _ N2 D) as V. rewrite Q2 in V. specialize (V ltac:(rewrite Rabs_pos_eq; lra) ltac:(rewrite Rabs_pos_eq; unfold eps; lra) ltac:(lra) mid16 ltac:(rewrite U; unfold eps; lra)).
  destruct V as [Fv Ev]. split; [exact Fv|]. fold (md_rcof res t1 t2) in Ev. fold rc in Ev. rewrite U in Ev. apply Rabs_le_inv in Ev. apply Rabs_le. unfold eps in Ev. lra.
Qed.

(** ** One tick *)
(** Coefficients; [P0] bounds the gain, [R0] the feedback. *)
Record md_coef (P0 R0 : R) (s : md) : Prop := {
  cp : fin (md_p s) /\ 0 <= B2R (md_p s) <= P0;
  ck : fin (md_k s) /\ - 1 + / 100000 <= B2R (md_k s) <= 0;
  cpk : B2R (md_p s) <= 5732 / 10000 * (1 + B2R (md_k s));
  crc : fin (md_rc s) /\ Rabs (B2R (md_rc s)) <= R0 }.
(** Levels; [X] bounds what enters the first stage. *)
Record md_lev (X : R) (s : md) : Prop := {
  l0 : bd (115 / 100 * X) (md_s0 s); l1 : bd (115 / 100 * (115 / 100 * X)) (md_s1 s); l2 : bd (115 / 100 * (115 / 100 * (115 / 100 * X))) (md_s2 s); l3 : bd (95 / 100) (md_s3 s);
  m0 : bd X (md_y0 s); m1 : bd (115 / 100 * X) (md_y1 s); m2 : bd (115 / 100 * (115 / 100 * X)) (md_y2 s); m3 : bd (115 / 100 * (115 / 100 * (115 / 100 * X))) (md_y3 s) }.
Definition md_stage (p k x y v : f64) : f64 := fsub (fadd (fmul x p) (fmul y p)) (fmul k v).

Lemma stage_ex p k x y v X V : fin p -> 0 <= B2R p <= 6 / 10 -> fin k -> -1 <= B2R k <= 0 -> bd X x -> bd X y -> bd V v -> X <= 9 -> V <= 9 ->
  let r := B2R x * B2R p + B2R y * B2R p - B2R k * B2R v in Rabs r <= 15 -> ex 100 (md_stage p k x y v) r.
Proof.
  intros Fp Hp Fk Hk [Fx Bx] [Fy By] [Fv Bv] HX HV r Hr. unfold md_stage.
  assert (X0 : 0 <= X) by (pose proof (Rabs_pos (B2R x)); lra).
  assert (P1 : Rabs (B2R p) <= 6 / 10) by (rewrite Rabs_pos_eq; lra). assert (K1 : Rabs (B2R k) <= 1) by (apply Rabs_le; lra).
  assert (A : ex 1 (fmul x p) (B2R x * B2R p)). { eapply ex_weak; [apply (ex_mul 0 0 9 (6 / 10)); [now apply ex_self|now apply ex_self|lra|lra|lra|lra]|lra]. }
  assert (B : ex 1 (fmul y p) (B2R y * B2R p)). { eapply ex_weak; [apply (ex_mul 0 0 9 (6 / 10)); [now apply ex_self|now apply ex_self|lra|lra|lra|lra]|lra]. }
  assert (C : ex 1 (fmul k v) (B2R k * B2R v)). { eapply ex_weak; [apply (ex_mul 0 0 1 9); [now apply ex_self|now apply ex_self|lra|lra|lra|lra]|lra]. }
  assert (D : ex 3 (fadd (fmul x p) (fmul y p)) (B2R x * B2R p + B2R y * B2R p)).
  { eapply ex_weak; [apply (ex_add 1 1); [exact A|exact B| |lra]|lra]. apply Rabs_le_inv in Bx. apply Rabs_le_inv in By. apply Rabs_le. nra. }
  eapply ex_weak; [apply (ex_sub 3 1); [exact D|exact C|exact Hr|lra]|lra].
Qed.
Lemma stage_sum p k x y v X V : 0 <= p -> -1 <= k <= 0 -> Rabs x <= X -> Rabs y <= X -> Rabs v <= V -> Rabs (x * p + y * p - k * v) <= 2 * p * X + - k * V.
Proof.
  intros Hp Hk Hx Hy Hv. replace (x * p + y * p - k * v) with (p * (x + y) + (- k) * v) by ring. eapply Rle_trans; [apply Rabs_triang|]. rewrite !Rabs_mult, (Rabs_pos_eq p), (Rabs_pos_eq (- k)) by lra.
  assert (Rabs (x + y) <= 2 * X) by (eapply Rle_trans; [apply Rabs_triang|lra]). assert (p * Rabs (x + y) <= p * (2 * X)) by (apply Rmult_le_compat_l; lra). assert (- k * Rabs v <= - k * V) by (apply Rmult_le_compat_l; lra). lra.
Qed.
Lemma stage_lev p k x y v X : fin p -> 0 <= B2R p -> fin k -> - 1 + / 100000 <= B2R k <= 0 -> B2R p <= 5732 / 10000 * (1 + B2R k) -> bd X x -> bd X y -> bd (115 / 100 * X) v -> 1 <= X <= 7 ->
  bd (115 / 100 * X) (md_stage p k x y v).
Proof.
  intros Fp Hp Fk Hk Hpk Bx By Bv HX. pose proof (stage_sum (B2R p) (B2R k) (B2R x) (B2R y) (B2R v) X (115 / 100 * X) Hp ltac:(lra) (proj2 Bx) (proj2 By) (proj2 Bv)) as S.
  assert (Q : 2 * B2R p * X + - B2R k * (115 / 100 * X) <= 115 / 100 * X - 36 / 10000 * / 100000).
  { set (u := 1 + B2R k) in *. replace (B2R k) with (u - 1) by (unfold u; ring). assert (U : / 100000 <= u) by (unfold u; lra). assert (2 * B2R p * X <= 2 * (5732 / 10000 * u) * X) by (apply Rmult_le_compat_r; lra).
    assert (/ 100000 * 1 <= u * X) by (apply Rmult_le_compat; lra). lra. }
  assert (E := stage_ex p k x y v X (115 / 100 * X) Fp ltac:(lra) Fk ltac:(lra) Bx By Bv ltac:(lra) ltac:(lra)). cbv zeta in E. specialize (E ltac:(lra)).
  split; [exact (ex_fin _ _ _ E)|]. apply ex_R in E. apply Rabs_le_inv in S. apply Rabs_le. unfold eps in E. lra.
Qed.
Lemma cubic_pos v : 0 <= v <= 281 / 100 -> Rabs (v - v * v * v / 6) <= 944 / 1000.
Proof.
  intros H. assert (A : 0 <= (v - 1414 / 1000) * (v - 1414 / 1000) * (v + 2828 / 1000)) by (apply Rmult_le_pos; [apply Rle_0_sqr|lra]).
  assert (B : v * v <= 281 / 100 * (281 / 100)) by (apply Rmult_le_compat; lra). assert (C : v * (v * v) <= v * (281 / 100 * (281 / 100))) by (apply Rmult_le_compat_l; lra).
  apply Rabs_le. split; lra.
Qed.
Lemma cubic v : Rabs v <= 281 / 100 -> Rabs (v - v * v * v / 6) <= 944 / 1000.
Proof.
  intros H. destruct (Rle_lt_dec 0 v) as [P|P]; [apply cubic_pos; rewrite Rabs_pos_eq in H; lra|]. rewrite Rabs_left in H by exact P.
  replace (v - v * v * v / 6) with (- (- v - - v * - v * - v / 6)) by field. rewrite Rabs_Ropp. apply cubic_pos. lra.
Qed.
(** The level arithmetic: what enters the first stage, and the last stage before the cubic. *)
Definition md_fits (P0 R0 X : R) : Prop := 0 <= P0 <= 6 / 10 /\ 0 <= R0 <= 4 /\ 1 + R0 * (95 / 100) + / 1000 <= X <= 51 / 10 /\ 95 / 100 + P0 * (2 * (115 / 100 * (115 / 100 * (115 / 100 * X))) - 165 / 100) <= 28 / 10.
Definition md_cubic (v : f64) : f64 := fsub v (fdiv (fmul (fmul v v) v) (dz 6)).
Definition md_enter (x : f32) (rc v : f64) : f64 := fsub (f2d x) (fmul rc v).
Lemma enter_bd x rc v R0 X : 0 <= R0 <= 4 -> 1 + R0 * (95 / 100) + / 1000 <= X <= 51 / 10 -> fin rc -> Rabs (B2R rc) <= R0 -> bd (95 / 100) v -> fin x -> Rabs (B2R x) <= 1 -> bd X (md_enter x rc v).
Proof.
  intros HR HX Fr Br L3 Fx Bx. unfold md_enter. destruct (f2d_R x Fx) as [Fd Ed]. set (d := f2d x) in *. clearbody d.
  assert (L31 : Rabs (B2R v) <= 1) by (pose proof (proj2 L3); lra).
  assert (A : ex 1 (fmul rc v) (B2R rc * B2R v)). { eapply ex_weak; [apply (ex_mul 0 0 4 1); [now apply ex_self|apply ex_self; exact (proj1 L3)|lra|exact L31|lra|lra]|lra]. }
  assert (Q : Rabs (B2R rc * B2R v) <= R0 * (95 / 100)) by (rewrite Rabs_mult; apply Rmult_le_compat; try apply Rabs_pos; [exact Br|exact (proj2 L3)]).
  apply Rabs_le_inv in Q. apply Rabs_le_inv in Bx. assert (B : ex 3 (fsub d (fmul rc v)) (B2R x - B2R rc * B2R v)). { rewrite <- Ed. eapply ex_weak; [apply (ex_sub 0 1); [now apply ex_self|exact A|rewrite Ed; apply Rabs_le; lra|lra]|lra]. }
  split; [exact (ex_fin _ _ _ B)|]. apply ex_R in B. unfold eps in B. apply Rabs_le. lra.
Qed.
Lemma cubic_bd v : fin v -> Rabs (B2R v) <= 2801 / 1000 -> bd (95 / 100) (md_cubic v).
Proof.
  intros Fv Bv. unfold md_cubic.
  assert (V2 : Rabs (B2R v * B2R v) <= 8) by (rewrite Rabs_mult; apply Rle_trans with (2801 / 1000 * (2801 / 1000)); [apply Rmult_le_compat; try apply Rabs_pos; lra|lra]).
  assert (A1 : ex 1 (fmul v v) (B2R v * B2R v)). { eapply ex_weak; [apply (ex_mul 0 0 3 3); [now apply ex_self|now apply ex_self|lra|lra|lra|lra]|lra]. }
  set (u := fmul v v) in *. clearbody u.
  assert (M : mid64 32) by (change 32 with (bpow radix2 5); split; apply bpow_le; lia).
  assert (U : du = 1025 / 9223372036854775808) by (unfold du; change (bpow radix2 (-53)) with (/ 9007199254740992); lra).
  destruct A1 as [_ A1]. rewrite eps_bp in A1. pose proof (ap_mul _ _ 8 3 32 _ _ _ _ A1 (ap_self v Fv) V2 ltac:(lra) M ltac:(unfold eps; lra)) as A2.
  assert (A3 : ap 0 (dz 6) 6) by (split; [ffin|fval (dz 6); apply Rabs_le; lra]).
  assert (V3 : Rabs (B2R v * B2R v * B2R v / 6) <= 4). { unfold Rdiv. rewrite !Rabs_mult, (Rabs_pos_eq (/ 6)) by lra. rewrite Rabs_mult in V2. assert (Rabs (B2R v) * Rabs (B2R v) * Rabs (B2R v) <= 8 * 3) by (apply Rmult_le_compat; try lra; [apply Rmult_le_pos; apply Rabs_pos|apply Rabs_pos]). lra. }
  set (six := dz 6) in *. clearbody six.
  pose proof (ap_div _ 0 4 6 16 _ _ _ _ A2 A3 V3 ltac:(rewrite Rabs_pos_eq; lra) ltac:(lra) mid16 ltac:(rewrite U; unfold eps; lra)) as A4.
  pose proof (cubic (B2R v) ltac:(lra)) as C.
  pose proof (ap_sub _ _ 16 _ _ _ _ (ap_self v Fv) A4 mid16 ltac:(rewrite U; unfold eps; lra)) as [A5 A6]. split; [exact A5|]. rewrite U in A6. unfold eps in A6. apply Rabs_le_inv in A6. apply Rabs_le_inv in C. apply Rabs_le. lra.
Qed.
Lemma out_bd z : bd (95 / 100) z -> fin (d2f z) /\ Rabs (B2R (d2f z)) <= 61 / 64.
Proof.
  intros [Fz Bz]. apply Rabs_le_inv in Bz. assert (D : dy32 (61 / 64)) by (replace (61 / 64) with (B2R (flit 61 (-6) : f32)) by (fval (flit 61 (-6) : f32); lra); apply dy_B2R).
  destruct (d2f_b (- (61 / 64)) (61 / 64) z Fz (dy_opp _ D) D ltac:(lra)) as (G & _ & B). split; [exact G|]. now apply Rabs_le.
Qed.
Lemma last_bd p k x y v P0 X : fin p -> 0 <= B2R p <= P0 -> P0 <= 6 / 10 -> fin k -> -1 + / 100000 <= B2R k <= 0 -> B2R p <= 5732 / 10000 * (1 + B2R k) -> bd X x -> bd X y -> bd (95 / 100) v -> 0 <= X <= 8 -> 95 / 100 + P0 * (2 * X - 165 / 100) <= 28 / 10 ->
  fin (md_stage p k x y v) /\ Rabs (B2R (md_stage p k x y v)) <= 2801 / 1000.
Proof.
  intros Fp Bp HP Fk Bk Cpk E3 M3 L3 H3 H28. pose proof (stage_sum (B2R p) (B2R k) (B2R x) (B2R y) (B2R v) X (95 / 100) (proj1 Bp) ltac:(lra) (proj2 E3) (proj2 M3) (proj2 L3)) as S.
  assert (Q : 2 * B2R p * X + - B2R k * (95 / 100) <= 28 / 10).
  { assert (- B2R k * (95 / 100) <= 95 / 100 - 165 / 100 * B2R p) by lra. destruct (Rle_lt_dec (2 * X - 165 / 100) 0) as [N|N].
    - assert (B2R p * (2 * X - 165 / 100) <= 0) by nra. lra.
    - assert (B2R p * (2 * X - 165 / 100) <= P0 * (2 * X - 165 / 100)) by (apply Rmult_le_compat_r; lra). lra. }
  assert (E4 := stage_ex p k x y v X (95 / 100) Fp ltac:(lra) Fk ltac:(lra) E3 M3 L3 ltac:(lra) ltac:(lra)). cbv zeta in E4. specialize (E4 ltac:(lra)).
  split; [exact (ex_fin _ _ _ E4)|]. apply ex_R in E4. unfold eps in E4. apply Rabs_le_inv in S. apply Rabs_le. lra.
Qed.
Lemma md_tick_eq s x : let p := md_p s in let k := md_k s in let e := md_enter x (md_rc s) (md_s3 s) in let a := md_stage p k e (md_y0 s) (md_s0 s) in let b := md_stage p k a (md_y1 s) (md_s1 s) in
  let c := md_stage p k b (md_y2 s) (md_s2 s) in let z := md_cubic (md_stage p k c (md_y3 s) (md_s3 s)) in
  md_tick s x = (Md (md_sr s) (md_cut s) (md_res s) p k (md_t1 s) (md_t2 s) (md_rc s) a b c z e a b c, d2f z).
Proof. cbv beta zeta delta [md_tick md_enter md_stage md_cubic]. reflexivity. Qed.
Lemma md_tick_lev P0 R0 X s x : md_fits P0 R0 X -> md_coef P0 R0 s -> md_lev X s -> fin x -> Rabs (B2R x) <= 1 -> md_lev X (fst (md_tick s x)) /\ fin (snd (md_tick s x)) /\ Rabs (B2R (snd (md_tick s x))) <= 61 / 64.
Proof.
  intros (HP & HR & HX & H28) [[Fp Bp] [Fk Bk] Cpk [Fr Br]] [L0 L1 L2 L3 M0 M1 M2 M3] Fx Bx. rewrite md_tick_eq. cbv zeta. cbn [fst snd].
  pose proof (enter_bd x (md_rc s) (md_s3 s) R0 X HR HX Fr Br L3 Fx Bx) as E0. set (xx := md_enter x (md_rc s) (md_s3 s)) in *. clearbody xx. set (p := md_p s) in *. set (k := md_k s) in *. clearbody p k.
  pose proof (stage_lev p k xx (md_y0 s) (md_s0 s) X Fp (proj1 Bp) Fk Bk Cpk E0 M0 L0 ltac:(lra)) as E1. set (s0 := md_stage p k xx _ _) in *. clearbody s0.
  set (X1 := 115 / 100 * X) in *. pose proof (stage_lev p k s0 (md_y1 s) (md_s1 s) X1 Fp (proj1 Bp) Fk Bk Cpk E1 M1 L1 ltac:(unfold X1; lra)) as E2. set (s1 := md_stage p k s0 _ _) in *. clearbody s1.
  set (X2 := 115 / 100 * X1) in *. pose proof (stage_lev p k s1 (md_y2 s) (md_s2 s) X2 Fp (proj1 Bp) Fk Bk Cpk E2 M2 L2 ltac:(unfold X2, X1; lra)) as E3. set (s2 := md_stage p k s1 _ _) in *. clearbody s2.
  set (X3 := 115 / 100 * X2) in *. assert (H3 : 0 <= X3 <= 8) by (unfold X3, X2, X1; lra).
  destruct (last_bd p k s2 (md_y3 s) (md_s3 s) P0 X3 Fp Bp ltac:(lra) Fk Bk Cpk E3 M3 L3 H3 H28) as [Fv Bv]. set (v := md_stage p k s2 _ _) in *. clearbody v.
  pose proof (cubic_bd v Fv Bv) as E5. set (z := md_cubic v) in *. clearbody z. split; [constructor; cbn [md_s0 md_s1 md_s2 md_s3 md_y0 md_y1 md_y2 md_y3]; assumption|]. now apply out_bd.
Qed.

(** ** All calls *)
Definition md_ok (q rho : R) (sr : f32) (o : md_op) : Prop :=
  match o with MdCut c => mg_cut q sr c | MdRes r => is_nan r = false /\ B2R (unit_clamp r) <= rho | MdTick x => fin x /\ Rabs (B2R x) <= 1 | MdReset => True end.
Record md_inv (P0 rho R0 X : R) (sr : f32) (s : md) : Prop := {
  ir : md_sr s = sr; ires : fin (md_res s) /\ 0 <= B2R (md_res s) <= rho;
  it : exists T, 7 / 10 <= T <= 138625 / 100000 /\ ex 100 (md_t1 s) T /\ ex 400 (md_t2 s) (12 + T * T);
  ic : md_coef P0 R0 s; il : md_lev X s }.
Section All.
  Context (L : libm) (HL : sincos_acc L) (sr : f32) (Hr : mg_rate sr) (q rho P0 R0 X : R).
  Hypothesis Hq : 0 < q <= 15 / 100.
  Hypothesis Hrho : 0 <= rho <= 1.
  Hypothesis HP : 2 * q * (18 / 10 - 16 / 10 * q) + / 1000000 <= P0.
  Hypothesis HR : 397 / 100 * rho + / 1000000 <= R0.
  Hypothesis Hfit : md_fits P0 R0 X.
  (** What [setCutoff] stores, whatever was there before. *)
  Lemma cut_ok s c : mg_cut q sr c -> md_sr s = sr -> let s' := md_setCutoff L s c in
    md_sr s' = sr /\ (fin (md_p s') /\ 0 <= B2R (md_p s') <= P0) /\ (fin (md_k s') /\ - 1 + / 100000 <= B2R (md_k s') <= 0) /\ B2R (md_p s') <= 5732 / 10000 * (1 + B2R (md_k s')) /\
    (exists T, 7 / 10 <= T <= 138625 / 100000 /\ ex 100 (md_t1 s') T /\ ex 400 (md_t2 s') (12 + T * T)).
  Proof.
    intros Hc E s'. destruct (fc_R sr c q Hr ltac:(lra) Hc) as [A B]. unfold s', md_setCutoff. cbv zeta. rewrite E. cbn [md_setResonance md_sr md_p md_k md_t1 md_t2].
    set (f := md_fc sr c) in *. set (F := 2 * (B2R c / B2R sr)) in *. clearbody f F. assert (BF : / 131072 <= F <= 3 / 10) by lra.
    pose proof (p_R f F A BF) as PE. pose proof (k_R L f F HL A BF) as KE. cbv zeta in KE. fold (md_pof f). fold (md_kof L f). set (p := md_pof f) in *. set (k := md_kof L f) in *. clearbody p k.
    assert (PB : 1 / 100000 <= F * (18 / 10 - 8 / 10 * F) <= 2 * q * (18 / 10 - 16 / 10 * q)).
    { split; [nra|]. assert (0 <= (2 * q - F) * (18 / 10 - 8 / 10 * (2 * q + F))) by (apply Rmult_le_pos; lra). lra. }
    assert (PC : 2 * q * (18 / 10 - 16 / 10 * q) <= 468 / 1000). { assert (0 <= (3 / 10 - 2 * q) * (18 / 10 - 8 / 10 * (3 / 10 + 2 * q))) by (apply Rmult_le_pos; lra). lra. }
    destruct KE as (Fk & Bk & G). pose proof (ex_R _ _ _ PE) as PR. unfold eps in PR.
    split; [reflexivity|]. split; [split; [exact (ex_fin _ _ _ PE)|lra]|]. split; [split; [exact Fk|lra]|]. split; [lra|].
    exact (t_R p _ PE ltac:(lra)).
  Qed.
  Lemma res_ok s r : is_nan r = false -> B2R (unit_clamp r) <= rho -> (exists T, 7 / 10 <= T <= 138625 / 100000 /\ ex 100 (md_t1 s) T /\ ex 400 (md_t2 s) (12 + T * T)) -> let s' := md_setResonance s r in
    (fin (md_res s') /\ 0 <= B2R (md_res s') <= rho) /\ fin (md_rc s') /\ Rabs (B2R (md_rc s')) <= R0.
  Proof.
    intros N B (T & HT & T1 & T2) s'. destruct (unit_clamp_R r N) as [F [C _]]. unfold s', md_setResonance. cbv zeta. cbn [md_res md_rc]. split; [auto|].
    destruct (rc_R (unit_clamp r) (md_t1 s) (md_t2 s) T rho HT T1 T2 F (conj C B) (proj2 Hrho)) as [G H]. split; [exact G|]. unfold md_rcof in H. lra.
  Qed.
  Lemma md_step s o : md_inv P0 rho R0 X sr s -> md_ok q rho sr o -> md_inv P0 rho R0 X sr (fst (md_call L s o)) /\ (forall y, snd (md_call L s o) = Some y -> fin y /\ Rabs (B2R y) <= 61 / 64).
  Proof.
    intros [Ir Ires It Ic Il] Ho. destruct o as [c|r|x|]; cbn [md_call md_ok] in *.
    - split; [|discriminate]. cbn [fst]. destruct (cut_ok s c Ho Ir) as (A & B & C & D & E). pose proof (res_ok (md_setCutoff L s c) (md_res s)) as R.
      assert (U : unit_clamp (md_res s) = md_res s) by (apply unit_clamp_in; [exact (proj1 Ires)|lra]). rewrite U in R. specialize (R (fin_nan _ (proj1 Ires)) (proj2 (proj2 Ires)) E). destruct R as [R1 R2].
      split; [exact A| | |constructor; [exact B|exact C|exact D|exact R2]|].
      + revert R1. unfold md_setCutoff, md_setResonance. cbv zeta. cbn [md_res]. rewrite U. auto.
      + exact E.
      + destruct Il. constructor; assumption.
    - split; [|discriminate]. cbn [fst]. destruct Ho as [N B]. destruct (res_ok s r N B It) as [R1 R2]. destruct Ic as [A1 A2 A3 A4]. split; [exact Ir|exact R1|exact It|constructor; [exact A1|exact A2|exact A3|exact R2]|]. destruct Il. constructor; assumption.
    - destruct Ho as [F B]. pose proof (md_tick_lev P0 R0 X s x Hfit Ic Il F B) as (A & C & D). change (md_inv P0 rho R0 X sr (fst (let (s', y) := md_tick s x in (s', Some y))) /\ (forall y, snd (let (s', y0) := md_tick s x in (s', Some y0)) = Some y -> fin y /\ Rabs (B2R y) <= 61 / 64)).
      assert (Z : md_sr (fst (md_tick s x)) = md_sr s /\ md_res (fst (md_tick s x)) = md_res s /\ md_t1 (fst (md_tick s x)) = md_t1 s /\ md_t2 (fst (md_tick s x)) = md_t2 s /\ md_p (fst (md_tick s x)) = md_p s /\ md_k (fst (md_tick s x)) = md_k s /\ md_rc (fst (md_tick s x)) = md_rc s) by (repeat split).
      destruct (md_tick s x) as [s' y]. cbn [fst snd] in *. destruct Z as (Z1 & Z2 & Z3 & Z4 & Z5 & Z6 & Z7). split; [|intros v [= <-]; auto].
      split; [now rewrite Z1|now rewrite Z2|rewrite Z3, Z4; exact It| |exact A]. destruct Ic as [A1 A2 A3 A4]. constructor; rewrite ?Z5, ?Z6, ?Z7; assumption.
    - split; [|discriminate]. cbn [fst]. destruct Ic as [A1 A2 A3 A4]. split; [exact Ir|exact Ires|exact It|constructor; assumption|].
      destruct Hfit as (_ & _ & HX & _). assert (Z : forall v, 0 <= v -> bd v (fzero : f64)) by (intros v Hv; split; [reflexivity|]; change (B2R (fzero : f64)) with 0; rewrite Rabs_R0; exact Hv).
      unfold md_fits in Hfit. constructor; cbn [md_reset md_s0 md_s1 md_s2 md_s3 md_y0 md_y1 md_y2 md_y3]; apply Z; lra.
  Qed.
End All.
Lemma md_bound L sr q rho P0 R0 X r0 os : sincos_acc L -> mg_rate sr -> 0 < q <= 15 / 100 -> / 9 <= rho <= 1 -> 2 * q * (18 / 10 - 16 / 10 * q) + / 1000000 <= P0 -> 397 / 100 * rho + / 1000000 <= R0 -> md_fits P0 R0 X ->
  1000 <= q * B2R sr -> Forall (md_ok q rho sr) os -> Forall (fun y => fin y /\ Rabs (B2R y) <= 61 / 64) (snd (mg_run (md_call L) (md_init L r0 sr) os)).
Proof.
  intros HL Hr Hq Hrho HP HR Hfit H1 Ho. apply (run_inv (md_call L) (md_inv P0 rho R0 X sr) (md_ok q rho sr)); [|clear Ho|exact Ho].
  - intros s o. apply (md_step L HL sr Hr q rho P0 R0 X Hq ltac:(lra) HP HR Hfit).
  - unfold md_init. set (i := Md sr fzero r0 _ _ _ _ _ _ _ _ _ _ _ _ _). assert (C : mg_cut q sr (fofZ 1000)) by (fval (fofZ 1000 : f32); split; [ffin|lra]).
    destruct (cut_ok L HL sr Hr q P0 Hq HP i (fofZ 1000) C eq_refl) as (A & B & D & E & F). set (s := md_setCutoff L i (fofZ 1000)) in *.
    assert (U : B2R (unit_clamp (fdec 1 10)) <= rho) by (fval (unit_clamp (fdec 1 10)); lra).
    destruct (res_ok rho R0 ltac:(lra) HR s (fdec 1 10) eq_refl U F) as [R1 R2]. 
    assert (Z : forall v, 0 <= v -> bd v (fzero : f64)) by (intros v Hv; split; [reflexivity|]; change (B2R (fzero : f64)) with 0; rewrite Rabs_R0; exact Hv).
    destruct Hfit as (_ & HR0 & HX & _). split; [exact A|exact R1|exact F|constructor; [exact B|exact D|exact E|exact R2]|constructor; apply Z; lra].
Qed.
(** Full resonance up to sr/25, and resonance up to 0.2 up to 0.15 sr. *)
Lemma md_full L sr r0 os : sincos_acc L -> mg_rate sr -> 25000 <= B2R sr -> Forall (md_ok (/ 25) 1 sr) os -> Forall (fun y => fin y /\ Rabs (B2R y) <= 61 / 64) (snd (mg_run (md_call L) (md_init L r0 sr) os)).
Proof. intros HL Hr H1 Ho. apply (md_bound L sr (/ 25) 1 (139 / 1000) (3971 / 1000) (4774 / 1000) r0 os HL Hr); try lra; [|exact Ho]. unfold md_fits. lra. Qed.
Lemma md_half L sr r0 os : sincos_acc L -> mg_rate sr -> 13334 <= B2R sr -> Forall (md_ok (75 / 1000) (/ 2) sr) os -> Forall (fun y => fin y /\ Rabs (B2R y) <= 61 / 64) (snd (mg_run (md_call L) (md_init L r0 sr) os)).
Proof. intros HL Hr H1 Ho. apply (md_bound L sr (75 / 1000) (/ 2) (2521 / 10000) (1986 / 1000) (2888 / 1000) r0 os HL Hr); try lra; [|exact Ho]. unfold md_fits. lra. Qed.
Lemma md_low L sr r0 os : sincos_acc L -> mg_rate sr -> 6667 <= B2R sr -> Forall (md_ok (15 / 100) (22 / 100) sr) os -> Forall (fun y => fin y /\ Rabs (B2R y) <= 61 / 64) (snd (mg_run (md_call L) (md_init L r0 sr) os)).
Proof. intros HL Hr H1 Ho. apply (md_bound L sr (15 / 100) (22 / 100) (4681 / 10000) (874 / 1000) (1832 / 1000) r0 os HL Hr); try lra; [|exact Ho]. unfold md_fits. lra. Qed.
