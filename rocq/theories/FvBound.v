(** FVerb: level of the output for moderate settings.  The network in the supremum norm. *)
From Coq Require Import ZArith Reals Bool List Lra Lia Psatz.
From Flocq Require Import Core BinarySingleNaN.
From Verif Require Import Flt FltFacts FltMore FltKey FltArith FltClose Libm UtilModel UtilProofs EnvSpec OscSpec FvModel FvSpec FvSpec2 FvProofs FvProofs2 FvProofs3 FvProofs4 FvProofs5 FvProofs6 FvProofs7 FvProofs8.
Import ListNotations.
Local Open Scope R_scope.

(** ** Operations with an absolute error of 10^-7 times a bound *)
Definition mag (B : R) (x : f32) : Prop := fin x /\ Rabs (B2R x) <= B.
Definition ok (B : R) : Prop := 1 / 10 ^ 20 <= B <= bpow radix2 100.
Lemma mag_up B B' x : mag B x -> B <= B' -> mag B' x.
Proof. intros [F A] H. split; [exact F|lra]. Qed.
Lemma mag_in B x : mag B x -> - B <= B2R x <= B.
Proof. intros [_ A]. now apply Rabs_le_inv in A. Qed.
Lemma mag0 B : 0 <= B -> mag B zero.
Proof. intros H. split; [reflexivity|]. rewrite zero_R, Rabs_R0. exact H. Qed.
Lemma rnd_abs B z : ok B -> Rabs z <= B -> Rabs (rnd32 z - z) <= u24 * B.
Proof.
  intros O A. pose proof (rnd_rel (prec:=24) (emax:=128) z) as E. change (bpow radix2 (- (24))) with (/ 16777216) in E.
  change (bpow radix2 (SpecFloat.emin 24 128 - 1)) with (/ IZR (2 ^ 150)) in E.
  assert (T : / IZR (2 ^ 150) <= tiny).
  { unfold tiny. rewrite pow_IZR. unfold Rdiv. rewrite Rmult_1_l. apply Rinv_le; [apply (IZR_lt 0); reflexivity|]. apply IZR_le. vm_compute. discriminate. }
  unfold u24, tiny, ok in *. lra.
Qed.
Lemma big : dy32 (bpow radix2 101) /\ dy32 (- bpow radix2 101).
Proof. apply bp_dy. lia. Qed.
Lemma big_b B z : ok B -> Rabs z <= B -> - bpow radix2 101 <= z <= bpow radix2 101.
Proof. intros [_ O] A. apply Rabs_le_inv in A. pose proof (bpow_le radix2 100 101 ltac:(lia)). lra. Qed.
Lemma add_e B (x y : f32) : fin x -> fin y -> Rabs (B2R x + B2R y) <= B -> ok B -> fin (fadd x y) /\ Rabs (B2R (fadd x y) - (B2R x + B2R y)) <= u24 * B.
Proof.
  intros Fx Fy A O. destruct (fadd_b _ _ x y (proj2 big) (proj1 big) Fx Fy (big_b _ _ O A)) as (F & -> & _). split; [exact F|]. now apply rnd_abs.
Qed.
Lemma sub_e B (x y : f32) : fin x -> fin y -> Rabs (B2R x - B2R y) <= B -> ok B -> fin (fsub x y) /\ Rabs (B2R (fsub x y) - (B2R x - B2R y)) <= u24 * B.
Proof.
  intros Fx Fy A O. destruct (fsub_b _ _ x y (proj2 big) (proj1 big) Fx Fy (big_b _ _ O A)) as (F & -> & _). split; [exact F|]. now apply rnd_abs.
Qed.
Lemma mul_e B (x y : f32) : fin x -> fin y -> Rabs (B2R x * B2R y) <= B -> ok B -> fin (fmul x y) /\ Rabs (B2R (fmul x y) - (B2R x * B2R y)) <= u24 * B.
Proof.
  intros Fx Fy A O. destruct (fmul_b _ _ x y (proj2 big) (proj1 big) Fx Fy (big_b _ _ O A)) as (F & -> & _). split; [exact F|]. now apply rnd_abs.
Qed.
Lemma mul_abs a b x y : Rabs x <= a -> Rabs y <= b -> Rabs (x * y) <= a * b.
Proof. intros A B. rewrite Rabs_mult. apply Rmult_le_compat; auto using Rabs_pos. Qed.
Lemma near_abs x z a e : Rabs (x - z) <= e -> Rabs z <= a -> Rabs x <= a + e.
Proof. intros A B. apply Rabs_le_inv in A. apply Rabs_le_inv in B. apply Rabs_le. lra. Qed.
Lemma add_m a b c x y : mag a x -> mag b y -> ok (a + b) -> (a + b) * (1 + u24) <= c -> mag c (fadd x y).
Proof.
  intros X Y O H. pose proof (mag_in _ _ X). pose proof (mag_in _ _ Y). assert (A : Rabs (B2R x + B2R y) <= a + b) by (apply Rabs_le; lra).
  destruct (add_e (a + b) x y (proj1 X) (proj1 Y) A O) as [F E]. split; [exact F|]. pose proof (near_abs _ _ _ _ E A). lra.
Qed.
Lemma sub_m a b c x y : mag a x -> mag b y -> ok (a + b) -> (a + b) * (1 + u24) <= c -> mag c (fsub x y).
Proof.
  intros X Y O H. pose proof (mag_in _ _ X). pose proof (mag_in _ _ Y). assert (A : Rabs (B2R x - B2R y) <= a + b) by (apply Rabs_le; lra).
  destruct (sub_e (a + b) x y (proj1 X) (proj1 Y) A O) as [F E]. split; [exact F|]. pose proof (near_abs _ _ _ _ E A). lra.
Qed.
Lemma mul_m a b c x y : mag a x -> mag b y -> ok (a * b) -> a * b * (1 + u24) <= c -> mag c (fmul x y).
Proof.
  intros X Y O H. pose proof (mul_abs _ _ _ _ (proj2 X) (proj2 Y)) as A. destruct (mul_e (a * b) x y (proj1 X) (proj1 Y) A O) as [F E]. split; [exact F|]. pose proof (near_abs _ _ _ _ E A). lra.
Qed.

(** ** An allpass with feedback [g]: with an input of level [U] its line stays at level [W], [(1 - g) W = U (1 + 1/50000)]. *)
Definition lvl (k U g : R) : R := U * (1 + k) / (1 - g).
Lemma lvl_eq k U g : g < 1 -> (1 - g) * lvl k U g = U * (1 + k).
Proof. intros H. unfold lvl. field. lra. Qed.
Lemma lvl_mono k U g g' : 0 <= U -> 0 <= k -> g <= g' -> g' < 1 -> lvl k U g <= lvl k U g'.
Proof.
  intros HU Hk H1 H2. unfold lvl, Rdiv. apply Rmult_le_compat_l; [apply Rmult_le_pos; lra|]. apply Rinv_le; lra.
Qed.
Lemma lvl_pos k U g : 0 <= U -> 0 <= k -> 0 <= g < 1 -> U <= lvl k U g.
Proof. intros HU Hk H. pose proof (lvl_eq k U g ltac:(lra)) as E. pose proof (Rmult_le_pos _ _ HU Hk). set (l := lvl k U g) in *. destruct (Rle_lt_dec U l); [assumption|]. exfalso. assert ((1 - g) * l <= (1 - g) * U) by (apply Rmult_le_compat_l; lra). nra. Qed.
Definition kA : R := 2 / 100000.
Section Allpass.
  Variables (U g : R).
  Hypothesis HU : 1 / 10 ^ 15 <= U <= bpow radix2 90.
  Hypothesis Hg : 0 <= g <= 91 / 100.
  Let W := lvl kA U g.
  Lemma W_b : U <= W /\ W <= 11.2 * U /\ (1 - g) * W = U * (1 + kA).
  Proof using HU Hg.
    pose proof (lvl_eq kA U g ltac:(lra)) as E. fold W in E. unfold kA in *. split; [apply lvl_pos; lra|]. split; [|exact E]. 
    assert (0.09 * W <= (1 - g) * W); [|lra]. apply Rmult_le_compat_r; [|lra]. pose proof (lvl_pos (2 / 100000) U g ltac:(lra) ltac:(lra) ltac:(lra)) as P. fold W in P. lra.
  Qed.
  Lemma W_ok a : 1 / 10 <= a <= 10 -> ok (a * W).
  Proof using HU Hg.
    intros A. destruct W_b as (B & C & _). assert (BP : bpow radix2 100 = 1024 * bpow radix2 90) by (change 100%Z with (10 + 90)%Z; rewrite bpow_plus; reflexivity).
    unfold ok. rewrite BP. pose proof (bpow_gt_0 radix2 90). split; [|nra]. assert (1 / 10 * U <= a * W) by (apply Rmult_le_compat; lra). lra.
  Qed.
  (** [s] is the sign of the feedback. *)
  Lemma pass_R s u w v : s = 1 \/ s = -1 -> Rabs u <= U -> Rabs w <= W * (1 + 6 * u24) -> Rabs (v - (u + s * (g * w))) <= 3 * u24 * W ->
    Rabs v <= W /\ Rabs (w - s * (g * v)) <= (1 + 2 * g) * U * (1 + 1 / 20000).
  Proof using HU Hg.
    intros Hs A B C. destruct W_b as (W1 & W2 & W3). apply Rabs_le_inv in A. apply Rabs_le_inv in B. apply Rabs_le_inv in C. unfold kA, u24 in *.
    assert (GW : 0 <= g * W <= 0.91 * W) by (split; [apply Rmult_le_pos; lra|apply Rmult_le_compat_r; lra]).
    assert (Bw : - (g * (W * (1 + 6 * (1 / 10000000)))) <= g * w <= g * (W * (1 + 6 * (1 / 10000000)))) by (split; [replace (- (g * (W * (1 + 6 * (1 / 10000000))))) with (g * - (W * (1 + 6 * (1 / 10000000)))) by ring|]; apply Rmult_le_compat_l; lra).
    assert (V : Rabs v <= W) by (apply Rabs_le; destruct Hs as [-> | ->]; lra). split; [exact V|].
    set (d := v - (u + s * (g * w))) in *. assert (Ev : v = u + s * (g * w) + d) by (unfold d; ring).
    assert (Sq : s * s = 1) by (destruct Hs as [-> | ->]; ring).
    replace (w - s * (g * v)) with ((1 - g * g) * w - s * (g * u) - s * (g * d)) by (rewrite Ev; replace (s * (g * (u + s * (g * w) + d))) with (s * (g * u) + s * s * (g * g * w) + s * (g * d)) by ring; rewrite Sq; ring).
    assert (Gu : - (g * U) <= g * u <= g * U) by (split; [replace (- (g * U)) with (g * - U) by ring|]; apply Rmult_le_compat_l; lra).
    assert (Gd : - (3 * (1 / 10000000) * W) <= g * d <= 3 * (1 / 10000000) * W).
    { assert (Rabs (g * d) <= 1 * (3 * (1 / 10000000) * W)) by (apply mul_abs; apply Rabs_le; lra). assert (H' := Rabs_le_inv _ _ H). lra. }
    assert (GG : 0 <= 1 - g * g) by nra.
    assert (Gw : Rabs ((1 - g * g) * w) <= (1 - g * g) * (W * (1 + 6 * (1 / 10000000)))) by (rewrite Rabs_mult, (Rabs_pos_eq (1 - g * g)) by exact GG; apply Rmult_le_compat_l; [exact GG|apply Rabs_le; lra]).
    apply Rabs_le_inv in Gw.
    assert (EW : (1 - g * g) * (W * (1 + 6 * (1 / 10000000))) = (1 + g) * (U * (1 + 2 / 100000)) * (1 + 6 * (1 / 10000000))) by (rewrite <- W3; ring). rewrite EW in Gw.
    assert (UG : 0 <= U * g <= 0.91 * U) by nra. apply Rabs_le. destruct Hs as [-> | ->]; lra.
  Qed.
  Definition outl : R := (1 + 2 * g) * U * (1 + 1 / 10000).
  Lemma out_ok : ok outl.
  Proof using HU Hg.
    assert (BP : bpow radix2 100 = 1024 * bpow radix2 90) by (change 100%Z with (10 + 90)%Z; rewrite bpow_plus; reflexivity). unfold ok, outl. rewrite BP. pose proof (bpow_gt_0 radix2 90). assert (0 <= U * g <= 0.91 * U) by nra. split; lra.
  Qed.
  Variable gf : f32.
  Hypothesis Fg : fin gf.
  Hypothesis Eg : B2R gf = g.
  (** The line of an input diffuser: [v = u - g w], and [g v], [w]. *)
  Lemma diff_f u w : mag U u -> mag W w -> let v := fsub u (fmul gf w) in
    mag W v /\ Rabs (B2R w + B2R (fmul gf v)) <= outl /\ mag W (fmul gf v) /\ mag outl (fadd (fmul gf v) w).
  Proof using HU Hg Fg Eg.
    intros [Fu Bu] [Fw Bw] v. destruct W_b as (W1 & W2 & W3).
    assert (M : Rabs (B2R gf * B2R w) <= 0.91 * W) by (rewrite Eg; apply mul_abs; [rewrite Rabs_pos_eq; lra|exact Bw]).
    destruct (mul_e _ gf w Fg Fw M (W_ok 0.91 ltac:(lra))) as [F1 E1]. pose proof (near_abs _ _ _ _ E1 M) as B1. unfold u24 in *.
    assert (S : Rabs (B2R u - B2R (fmul gf w)) <= 2 * W). { apply Rabs_le_inv in Bu. apply Rabs_le_inv in B1. apply Rabs_le. lra. }
    pose proof (W_ok 2 ltac:(lra)) as O3.
    destruct (sub_e _ u _ Fu F1 S O3) as [F2 E2]. fold v in F2, E2. unfold u24 in *. rewrite Eg in *.
    assert (C : Rabs (B2R v - (B2R u + -1 * (g * B2R w))) <= 3 * (1 / 10000000) * W).
    { assert (T := Rabs_le_inv _ _ E1). assert (T2 := Rabs_le_inv _ _ E2). apply Rabs_le. lra. }
    destruct (pass_R (-1) (B2R u) (B2R w) (B2R v) ltac:(now right) Bu ltac:(unfold u24; lra) ltac:(unfold u24; exact C)) as [Bv Y].
    split; [now split|]. assert (M2 : Rabs (B2R gf * B2R v) <= 0.91 * W) by (rewrite Eg; apply mul_abs; [rewrite Rabs_pos_eq; lra|exact Bv]).
    destruct (mul_e _ gf v Fg F2 M2 (W_ok 0.91 ltac:(lra))) as [F3 E3]. unfold u24 in E3. rewrite Eg in E3, M2.
    assert (Q : Rabs (B2R w + B2R (fmul gf v)) <= (1 + 2 * g) * U * (1 + 1 / 15000)).
    { assert (T := Rabs_le_inv _ _ E3). assert (T2 := Rabs_le_inv _ _ Y). assert (0 <= U * g) by nra. apply Rabs_le. lra. }
    assert (L : (1 + 2 * g) * U * (1 + 1 / 15000) <= outl) by (unfold outl; assert (0 <= U * g) by nra; lra).
    split; [lra|]. split; [split; [exact F3|]; pose proof (near_abs _ _ _ _ E3 M2); lra|].
    assert (Q' : Rabs (B2R (fmul gf v) + B2R w) <= outl) by (rewrite Rplus_comm; lra).
    destruct (add_e outl _ w F3 Fw Q' out_ok) as [F4 E4]. split; [exact F4|]. rewrite Rplus_comm in E4. pose proof (near_abs _ _ _ _ E4 Q) as R. unfold u24, outl in *. assert (0 <= U * g <= 0.91 * U) by nra. lra.
  Qed.
  (** The tank's allpasses: [v = u + g w], [y = w - g v]. *)
  Lemma tank_f u w v : mag U u -> mag (W * (1 + 6 * u24)) w -> v = fadd u (fmul gf w) \/ v = fadd (fmul gf w) u -> mag W v /\ mag outl (fadd (fneg (fmul gf v)) w).
  Proof using HU Hg Fg Eg.
    intros [Fu Bu] [Fw Bw] Hv. destruct W_b as (W1 & W2 & W3). unfold u24 in *.
    assert (M : Rabs (B2R gf * B2R w) <= 0.92 * W) by (rewrite Eg; apply Rle_trans with (0.91 * (W * (1 + 6 * (1 / 10000000)))); [apply mul_abs; [rewrite Rabs_pos_eq; lra|exact Bw]|lra]).
    destruct (mul_e _ gf w Fg Fw M (W_ok 0.92 ltac:(lra))) as [F1 E1]. pose proof (near_abs _ _ _ _ E1 M) as B1. unfold u24 in *.
    assert (S : Rabs (B2R u + B2R (fmul gf w)) <= 2 * W). { apply Rabs_le_inv in Bu. apply Rabs_le_inv in B1. apply Rabs_le. lra. }
    assert (FE : fin v /\ Rabs (B2R v - (B2R u + B2R (fmul gf w))) <= u24 * (2 * W)).
    { destruct Hv as [-> | ->]; [exact (add_e _ u _ Fu F1 S (W_ok 2 ltac:(lra)))|]. rewrite Rplus_comm in S. rewrite (Rplus_comm (B2R u)). exact (add_e _ _ u F1 Fu S (W_ok 2 ltac:(lra))). }
    destruct FE as [F2 E2]. clear Hv. unfold u24 in *. rewrite Eg in *.
    assert (C : Rabs (B2R v - (B2R u + 1 * (g * B2R w))) <= 3 * (1 / 10000000) * W).
    { assert (T := Rabs_le_inv _ _ E1). assert (T2 := Rabs_le_inv _ _ E2). apply Rabs_le. lra. }
    destruct (pass_R 1 (B2R u) (B2R w) (B2R v) ltac:(now left) Bu ltac:(unfold u24; lra) ltac:(unfold u24; exact C)) as [Bv Y].
    split; [now split|]. assert (M2 : Rabs (B2R gf * B2R v) <= 0.91 * W) by (rewrite Eg; apply mul_abs; [rewrite Rabs_pos_eq; lra|exact Bv]).
    destruct (mul_e _ gf v Fg F2 M2 (W_ok 0.91 ltac:(lra))) as [F3 E3]. unfold u24 in E3. rewrite Eg in E3, M2.
    assert (Q : Rabs (B2R (fneg (fmul gf v)) + B2R w) <= (1 + 2 * g) * U * (1 + 1 / 15000)).
    { rewrite fneg_R. assert (T := Rabs_le_inv _ _ E3). assert (T2 := Rabs_le_inv _ _ Y). assert (0 <= U * g) by nra. apply Rabs_le. lra. }
    assert (L : (1 + 2 * g) * U * (1 + 1 / 15000) <= outl) by (unfold outl; assert (0 <= U * g) by nra; lra).
    destruct (add_e outl _ w (fneg_fin _ F3) Fw ltac:(lra) out_ok) as [F4 E4]. split; [exact F4|]. pose proof (near_abs _ _ _ _ E4 Q) as R. unfold u24, outl in *. assert (0 <= U * g <= 0.91 * U) by nra. lra.
  Qed.
End Allpass.

(** ** A one-pole filter *)
Definition kB : R := 5 / 10000.
Section Pole.
  Variables (U p : R).
  Hypothesis HU : 1 / 10 ^ 15 <= U <= bpow radix2 80.
  Hypothesis Hp : 0 <= p <= 9988 / 10000.
  Let W := lvl kB U p.
  Lemma P_b : U <= W /\ W <= 834 * U /\ (1 - p) * W = U * (1 + kB).
  Proof using HU Hp.
    pose proof (lvl_eq kB U p ltac:(lra)) as E. fold W in E. unfold kB in *. pose proof (lvl_pos (5 / 10000) U p ltac:(lra) ltac:(lra) ltac:(lra)) as P. fold W in P. split; [exact P|]. split; [|exact E].
    assert (12 / 10000 * W <= (1 - p) * W); [|lra]. apply Rmult_le_compat_r; lra.
  Qed.
  Lemma P_ok a : 1 / 1000 <= a <= 10 -> ok (a * W) /\ ok (a * U).
  Proof using HU Hp.
    intros A. destruct P_b as (B & C & _). assert (BP : bpow radix2 100 = 1048576 * bpow radix2 80) by (change 100%Z with (20 + 80)%Z; rewrite bpow_plus; reflexivity).
    unfold ok. rewrite BP. pose proof (bpow_gt_0 radix2 80). assert (1 / 1000 * U <= a * U <= 10 * U) by (split; apply Rmult_le_compat_r; lra). assert (a * U <= a * W) by (apply Rmult_le_compat_l; lra).
    assert (a * W <= 10 * W) by (apply Rmult_le_compat_r; lra). repeat split; lra.
  Qed.
  Variable pf : f32.
  Hypothesis Fp : fin pf.
  Hypothesis Ep : B2R pf = p.
  Lemma pole_f a l : mag U a -> mag W l -> mag W (fadd a (fmul pf l)) /\ Rabs (B2R (fadd a (fmul pf l)) - B2R l) <= U * (2 + 8 / 10000).
  Proof using HU Hp Fp Ep.
    intros [Fa Ba] [Fl Bl]. destruct P_b as (W1 & W2 & W3). unfold kB in *.
    assert (M : Rabs (B2R pf * B2R l) <= 1 * W) by (rewrite Ep; apply mul_abs; [rewrite Rabs_pos_eq; lra|exact Bl]).
    destruct (mul_e _ pf l Fp Fl M (proj1 (P_ok 1 ltac:(lra)))) as [F1 E1]. pose proof (near_abs _ _ _ _ E1 M) as B1. unfold u24 in *.
    assert (S : Rabs (B2R a + B2R (fmul pf l)) <= 2.1 * W). { apply Rabs_le_inv in Ba. apply Rabs_le_inv in B1. apply Rabs_le. lra. }
    destruct (add_e _ a _ Fa F1 S (proj1 (P_ok 2.1 ltac:(lra)))) as [F2 E2]. unfold u24 in *. rewrite Ep in *.
    assert (T1 := Rabs_le_inv _ _ E1). assert (T2 := Rabs_le_inv _ _ E2). assert (Ta := Rabs_le_inv _ _ Ba). assert (Tl := Rabs_le_inv _ _ Bl). 
    assert (PL : - (p * W) <= p * B2R l <= p * W) by (split; [replace (- (p * W)) with (p * - W) by ring|]; apply Rmult_le_compat_l; lra).
    assert (QL : - ((1 - p) * W) <= (1 - p) * B2R l <= (1 - p) * W) by (split; [replace (- ((1 - p) * W)) with ((1 - p) * - W) by ring|]; apply Rmult_le_compat_l; lra).
    split; [split; [exact F2|]|]; apply Rabs_le; lra.
  Qed.
  (** [1 - p], and the filter's output [l (1 - p)]. *)
  Lemma rest_f : fin (fsub one pf) /\ 0 <= B2R (fsub one pf) <= (1 - p) * (1 + u24).
  Proof using HU Hp Fp Ep.
    assert (A : Rabs (B2R (one : f32) - B2R pf) <= 1 - p) by (rewrite one_R, Ep, Rabs_pos_eq; lra).
    assert (O : ok (1 - p)) by (pose proof (bpow_le radix2 0 100 ltac:(lia)) as B; change (bpow radix2 0) with 1 in B; split; lra).
    destruct (sub_e _ one pf one_fin Fp A O) as [F E]. split; [exact F|]. rewrite one_R, Ep in E. apply Rabs_le_inv in E. unfold u24 in *. lra.
  Qed.
  Lemma pole_out l : mag W l -> mag (1.0006 * U) (fmul l (fsub one pf)).
  Proof using HU Hp Fp Ep.
    intros [Fl Bl]. destruct P_b as (W1 & W2 & W3). destruct rest_f as [Fr Br]. unfold kB, u24 in *.
    assert (M : Rabs (B2R l * B2R (fsub one pf)) <= 1.0005002 * U).
    { apply Rle_trans with (W * ((1 - p) * (1 + 1 / 10000000))); [apply mul_abs; [exact Bl|rewrite Rabs_pos_eq; lra]|]. replace (W * ((1 - p) * (1 + 1 / 10000000))) with ((1 - p) * W * (1 + 1 / 10000000)) by ring. rewrite W3. lra. }
    destruct (mul_e _ l _ Fl Fr M (proj2 (P_ok 1.0005002 ltac:(lra)))) as [F E]. split; [exact F|]. pose proof (near_abs _ _ _ _ E M) as B. unfold u24 in B. lra.
  Qed.
  (** The damped signal times the decay, in either order. *)
  Lemma damp_out r l : mag W l -> fin r -> 0 <= B2R r <= 0.4008 -> mag (0.4012 * U) (fv_dampR r l (fsub one pf)) /\ mag (0.4012 * U) (fv_dampL r l (fsub one pf)).
  Proof using HU Hp Fp Ep.
    intros [Fl Bl] Fr Br. destruct P_b as (W1 & W2 & W3). destruct rest_f as [Ft Bt]. unfold kB, u24, fv_dampR, fv_dampL in *. pose proof (Rabs_pos (B2R l)) as Al. set (t := fsub one pf) in *. clearbody t.
    split.
    - assert (M : Rabs (B2R r * B2R l) <= 0.4008 * W) by (apply mul_abs; [rewrite Rabs_pos_eq; lra|exact Bl]).
      destruct (mul_e _ r l Fr Fl M (proj1 (P_ok 0.4008 ltac:(lra)))) as [F1 E1]. pose proof (near_abs _ _ _ _ E1 M) as B1. unfold u24 in B1.
      assert (M2 : Rabs (B2R (fmul r l) * B2R t) <= 0.40115 * U).
      { apply Rle_trans with (0.40080005 * W * ((1 - p) * (1 + 1 / 10000000))); [apply mul_abs; [lra|rewrite Rabs_pos_eq; lra]|]. replace (0.40080005 * W * ((1 - p) * (1 + 1 / 10000000))) with ((1 - p) * W * (0.40080005 * (1 + 1 / 10000000))) by ring. rewrite W3. lra. }
      destruct (mul_e _ _ t F1 Ft M2 (proj2 (P_ok 0.40115 ltac:(lra)))) as [F E]. split; [exact F|]. pose proof (near_abs _ _ _ _ E M2) as B. unfold u24 in B. lra.
    - assert (Q0 : ok (0.4008 * (1 - p))) by (pose proof (bpow_le radix2 0 100 ltac:(lia)) as B; change (bpow radix2 0) with 1 in B; split; lra).
      assert (M : Rabs (B2R r * B2R t) <= 0.4008 * ((1 - p) * (1 + 1 / 10000000))) by (apply mul_abs; rewrite Rabs_pos_eq; lra).
      assert (Q1 : ok (0.4008 * ((1 - p) * (1 + 1 / 10000000)))) by (destruct Q0; split; pose proof (bpow_le radix2 0 100 ltac:(lia)) as B; change (bpow radix2 0) with 1 in B; lra).
      destruct (mul_e _ r t Fr Ft M Q1) as [F1 E1]. pose proof (near_abs _ _ _ _ E1 M) as B1. unfold u24 in B1.
      assert (M2 : Rabs (B2R (fmul r t) * B2R l) <= 0.40115 * U).
      { apply Rle_trans with (0.40080015 * (1 - p) * W); [apply mul_abs; lra|]. replace (0.40080015 * (1 - p) * W) with ((1 - p) * W * 0.40080015) by ring. rewrite W3. lra. }
      destruct (mul_e _ _ l F1 Fl M2 (proj2 (P_ok 0.40115 ltac:(lra)))) as [F E]. split; [exact F|]. pose proof (near_abs _ _ _ _ E M2) as B. unfold u24 in B. lra.
  Qed.
End Pole.

(** ** The crossfade of the modulated line *)
Lemma fade_f V m a b : 1 / 10 ^ 15 <= V <= bpow radix2 90 -> unit32 m -> mag V a -> mag V b -> mag (V * (1 + 6 * u24)) (fadd a (fmul m (fsub b a))).
Proof.
  intros HV [Fm Bm] [Fa Ba] [Fb Bb].
  assert (O : forall c, 1 / 10 <= c <= 10 -> ok (c * V)).
  { intros c C. assert (BP : bpow radix2 100 = 1024 * bpow radix2 90) by (change 100%Z with (10 + 90)%Z; rewrite bpow_plus; reflexivity). pose proof (bpow_gt_0 radix2 90). assert (1 / 10 * V <= c * V <= 10 * V) by (split; apply Rmult_le_compat_r; lra). unfold ok. rewrite BP. lra. }
  assert (Ta := Rabs_le_inv _ _ Ba). assert (Tb := Rabs_le_inv _ _ Bb).
  assert (S : Rabs (B2R b - B2R a) <= 2 * V) by (apply Rabs_le; lra). destruct (sub_e _ b a Fb Fa S (O 2 ltac:(lra))) as [F1 E1]. pose proof (near_abs _ _ _ _ E1 S) as B1. unfold u24 in *.
  assert (M : Rabs (B2R m * B2R (fsub b a)) <= 2.1 * V) by (apply Rle_trans with (1 * (2 * V + 1 / 10000000 * (2 * V))); [apply mul_abs; [rewrite Rabs_pos_eq; lra|exact B1]|lra]).
  destruct (mul_e _ m _ Fm F1 M (O 2.1 ltac:(lra))) as [F2 E2]. unfold u24 in *. apply Rabs_le_inv in E1. apply Rabs_le_inv in E2.
  set (d := B2R (fsub b a) - (B2R b - B2R a)) in *. assert (Ed : B2R (fsub b a) = B2R b - B2R a + d) by (unfold d; ring). rewrite Ed in E2.
  assert (X : - V <= (1 - B2R m) * B2R a + B2R m * B2R b <= V).
  { assert (- ((1 - B2R m) * V) <= (1 - B2R m) * B2R a <= (1 - B2R m) * V) by (split; [replace (- ((1 - B2R m) * V)) with ((1 - B2R m) * - V) by ring|]; apply Rmult_le_compat_l; lra).
    assert (- (B2R m * V) <= B2R m * B2R b <= B2R m * V) by (split; [replace (- (B2R m * V)) with (B2R m * - V) by ring|]; apply Rmult_le_compat_l; lra). lra. }
  assert (D : - (2 * (1 / 10000000) * V) <= B2R m * d <= 2 * (1 / 10000000) * V).
  { assert (Q : Rabs (B2R m * d) <= 1 * (1 / 10000000 * (2 * V))) by (apply mul_abs; apply Rabs_le; lra). apply Rabs_le_inv in Q. lra. }
  assert (A : Rabs (B2R a + B2R (fmul m (fsub b a))) <= V * (1 + 4.2 * (1 / 10000000))) by (apply Rabs_le; lra).
  assert (OA : ok (V * (1 + 4.2 * (1 / 10000000)))) by (destruct (O (1 + 4.2 * (1 / 10000000)) ltac:(lra)); split; lra).
  destruct (add_e _ a _ Fa F2 A OA) as [F3 E3]. split; [exact F3|]. pose proof (near_abs _ _ _ _ E3 A) as B3. unfold u24 in B3. lra.
Qed.
