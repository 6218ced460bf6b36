(** FVerb: one frame of the network in the supremum norm. *)
From Coq Require Import ZArith Reals Bool List Lra Lia Psatz.
From Flocq Require Import Core BinarySingleNaN.
From Verif Require Import Flt FltFacts FltMore FltKey FltArith FltClose Libm UtilModel UtilProofs EnvSpec OscSpec FvModel FvSpec FvSpec2 FvProofs FvProofs2 FvProofs3 FvProofs4 FvProofs5 FvProofs6 FvProofs7 FvProofs8 FvBound FvBound2.
Import ListNotations.
Local Open Scope R_scope.

Lemma mag_ago B n l : 0 <= B -> Forall (mag B) l -> mag B (ago n l).
Proof. intros H F. unfold ago. destruct (nth_in_or_default (Z.to_nat n) l zero) as [I|E]; [rewrite Forall_forall in F; now apply F|rewrite E; now apply mag0]. Qed.
Lemma mags_up B B' l : Forall (mag B) l -> B <= B' -> Forall (mag B') l.
Proof. intros F H. eapply Forall_impl; [|exact F]. intros x X. exact (mag_up _ _ _ X H). Qed.

Section Level.
  Variable X : R.
  Hypothesis HX : 1 / 10 ^ 10 <= X <= bpow radix2 64.
  Lemma X_ok a : 1 / 100 <= a <= 16000 -> 1 / 10 ^ 15 <= a * X <= bpow radix2 80 /\ 1 / 10 ^ 15 <= a * X <= bpow radix2 90 /\ ok (a * X).
  Proof using HX.
    intros A. assert (BP : bpow radix2 80 = 65536 * bpow radix2 64) by (change 80%Z with (16 + 64)%Z; rewrite bpow_plus; reflexivity).
    pose proof (bpow_le radix2 80 90 ltac:(lia)). pose proof (bpow_le radix2 80 100 ltac:(lia)). pose proof (bpow_gt_0 radix2 64).
    assert (1 / 100 * X <= a * X <= 16000 * X) by (split; apply Rmult_le_compat_r; lra). unfold ok. lra.
  Qed.
  (** Levels of all the lines of one side; [p]: the parameters of the last frame. *)
  Record lev (p : fvpar) (s : side) : Prop := {
    v_pre : Forall (mag (1.0021 * X)) (n_pre s);
    v_lp : mag (lvl kB (1.0021 * X) (B2R (p25 p))) (n_lp s);
    v_hp : mag (lvl kB (1.003 * X) (B2R (p24 p))) (n_hp s);
    v_1 : Forall (mag (lvl kA (2.009 * X) (B2R (p20 p)))) (n_1 s);
    v_2 : Forall (mag (lvl kA (5.634 * X) (B2R (p20 p)))) (n_2 s);
    v_3 : Forall (mag (lvl kA (15.8 * X) (B2R (p15 p)))) (n_3 s);
    v_4 : Forall (mag (lvl kA (44.31 * X) (B2R (p15 p)))) (n_4 s);
    v_5 : Forall (mag (lvl kA (1290 * X) (B2R (p12 p)))) (n_5 s);
    v_z : mag (lvl kA (1290 * X) (B2R (p12 p)) * (1 + 6 * u24)) (n_z s);
    v_7 : Forall (mag (3618 * X)) (n_7 s);
    v_d : mag (lvl kB (3618 * X) (B2R (p8 p))) (n_d s);
    v_8 : Forall (mag (lvl kA (1452 * X) (B2R (gain p)))) (n_8 s);
    v_out : Forall (mag (2905 * X)) (n_out s);
    v_damp : Forall (mag (3621 * X)) (n_damp s);
    v_diff : Forall (mag (3618 * X)) (n_diff s) }.
  Lemma k_nn : 0 <= kA /\ 0 <= kB. Proof. unfold kA, kB. lra. Qed.
  Lemma lev_up p q s : mild p -> mild q -> below p q -> lev p s -> lev q s.
  Proof using HX.
    intros Mp Mq Bl [a b c d e f g h i j k l m n o]. destruct k_nn as [KA KB].
    pose proof Bl as (x1 & x2 & x3 & x4 & x5 & x6 & x7). destruct (gain_b p q Mp Mq x7) as (_ & _ & GG). destruct (gain_b q q Mq Mq ltac:(lra)) as (_ & GQ & _).
    destruct Mq as ((_ & a') & (_ & b') & (_ & c') & (_ & d') & (_ & e') & (_ & f') & _).
    assert (LM : forall kk U g g', 0 <= kk -> 0 <= U -> g <= g' -> g' < 1 -> lvl kk U g <= lvl kk U g') by (intros; apply lvl_mono; assumption).
    constructor; try assumption; try (eapply mag_up; [eassumption|]); try (eapply mags_up; [eassumption|]); try (apply LM; lra).
    apply Rmult_le_compat_r; [unfold u24; lra|]. apply LM; lra.
  Qed.
  Lemma lvl_nn kk U g : 0 <= kk -> 0 <= U -> 0 <= g < 1 -> 0 <= lvl kk U g.
  Proof. intros A B C. pose proof (lvl_pos kk U g B A C). lra. Qed.
  (** An input diffuser. *)
  Lemma diff_lev U V gf D l u : 1 / 10 ^ 15 <= U <= bpow radix2 90 -> fin gf -> 0 <= B2R gf <= 0.9018 -> 2.804 * U <= V ->
    Forall (mag (lvl kA U (B2R gf))) l -> mag U u -> Forall (mag (lvl kA U (B2R gf))) (fst (diffuse gf D l u)) /\ mag V (snd (diffuse gf D l u)).
  Proof.
    intros HU Fg Bg HV FL MU. unfold diffuse. cbn [fst snd]. destruct k_nn as [KA _].
    pose proof (mag_ago _ (D - 1) l (lvl_nn kA U (B2R gf) KA ltac:(lra) ltac:(lra)) FL) as MW.
    destruct (diff_f U (B2R gf) HU ltac:(lra) gf Fg eq_refl u _ MU MW) as (A & _ & _ & Y). split; [constructor; assumption|].
    eapply mag_up; [exact Y|]. unfold outl. assert (0 <= U * B2R gf <= 0.9018 * U) by nra. lra.
  Qed.
  Lemma side_lev p D pre m x cross s (damped : f32 -> f32 -> f32 -> f32) : damped = fv_dampR \/ damped = fv_dampL -> mild p -> unit32 (x_mix m) ->
    mag X x -> mag (2905 * X) cross -> lev p s -> lev p (side_step p damped D pre m x cross s).
  Proof using HX.
    intros HD Mp MM Mx Mc [a b c d e f g h i j k l o q r]. destruct k_nn as [KA KB].
    destruct (gain_b p p Mp Mp ltac:(lra)) as (FG & BG & _).
    destruct Mp as ((f8 & b8) & (f24 & b24) & (f25 & b25) & (f12 & b12) & (f15 & b15) & (f20 & b20) & (f27 & b27) & (f29 & b29)).
    assert (XP : 0 <= X) by lra.
    unfold side_step.
    set (pl := fmul x (p27 p) :: n_pre s).
    assert (PL : Forall (mag (1.0021 * X)) pl).
    { constructor; [|exact a]. apply (mul_m X 1.002); [exact Mx|split; [exact f27|rewrite Rabs_pos_eq; lra]| |unfold u24; lra]. rewrite Rmult_comm. apply X_ok. lra. }
    clearbody pl.
    set (lp := fadd (ago pre pl) (fmul (p25 p) (n_lp s))).
    assert (LP : mag (lvl kB (1.0021 * X) (B2R (p25 p))) lp).
    { apply (pole_f (1.0021 * X) (B2R (p25 p)) (proj1 (X_ok 1.0021 ltac:(lra))) ltac:(lra) (p25 p) f25 eq_refl); [apply mag_ago; [lra|exact PL]|exact b]. }
    clearbody lp.
    set (hp := fadd (fmul lp (fsub one (p25 p))) (fmul (p24 p) (n_hp s))).
    assert (HP : mag (lvl kB (1.003 * X) (B2R (p24 p))) hp /\ Rabs (B2R hp - B2R (n_hp s)) <= 2.007 * X).
    { pose proof (pole_out (1.0021 * X) (B2R (p25 p)) (proj1 (X_ok 1.0021 ltac:(lra))) ltac:(lra) (p25 p) f25 eq_refl lp LP) as Q.
      destruct (pole_f (1.003 * X) (B2R (p24 p)) (proj1 (X_ok 1.003 ltac:(lra))) ltac:(lra) (p24 p) f24 eq_refl _ (n_hp s) (mag_up _ (1.003 * X) _ Q ltac:(lra)) c) as [Q1 Q2].
      split; [exact Q1|]. fold hp in Q2. lra. }
    destruct HP as [HP HQ]. clearbody hp.
    set (u := fmul (fmul half (fadd (p24 p) one)) (fsub hp (n_hp s))).
    assert (U : mag (2.009 * X) u).
    { destruct (sub_e _ hp (n_hp s) (proj1 HP) (proj1 c) HQ (proj2 (proj2 (X_ok 2.007 ltac:(lra))))) as [F1 E1]. pose proof (near_abs _ _ _ _ E1 HQ) as B1. unfold u24 in B1.
      assert (O1 : forall z, 1 <= z <= 10 -> ok z) by (intros z Z; split; [lra|]; pose proof (bpow_le radix2 4 100 ltac:(lia)) as Q; change (bpow radix2 4) with 16 in Q; lra).
      assert (A1 : mag 2 (fadd (p24 p) one)).
      { apply (add_m 0.9988 1); [split; [exact f24|rewrite Rabs_pos_eq; lra]|split; [exact one_fin|rewrite one_R, Rabs_pos_eq; lra]|apply O1; lra|unfold u24; lra]. }
      assert (Hh : mag (/ 2) half) by (split; [ffin|fval (half : f32); rewrite Rabs_pos_eq; lra]).
      assert (A2 : mag 1.0000002 (fmul half (fadd (p24 p) one))) by (apply (mul_m (/ 2) 2); [exact Hh|exact A1|apply O1; lra|unfold u24; lra]).
      apply (mul_m 1.0000002 (2.0071 * X)); [exact A2|split; [exact F1|lra]| |unfold u24; lra]. replace (1.0000002 * (2.0071 * X)) with ((1.0000002 * 2.0071) * X) by ring. apply X_ok. lra. }
    clearbody u.
    destruct (diff_lev (2.009 * X) (5.634 * X) (p20 p) (l1 D) (n_1 s) u (proj1 (proj2 (X_ok 2.009 ltac:(lra)))) f20 ltac:(lra) ltac:(lra) d U) as (A1 & Y1). destruct (diffuse (p20 p) (l1 D) (n_1 s) u) as [a1 y1]. cbn [fst snd] in *.
    destruct (diff_lev (5.634 * X) (15.8 * X) (p20 p) (l2 D) (n_2 s) y1 (proj1 (proj2 (X_ok 5.634 ltac:(lra)))) f20 ltac:(lra) ltac:(lra) e Y1) as (A2 & Y2). destruct (diffuse (p20 p) (l2 D) (n_2 s) y1) as [a2 y2]. cbn [fst snd] in *.
    destruct (diff_lev (15.8 * X) (44.31 * X) (p15 p) (l3 D) (n_3 s) y2 (proj1 (proj2 (X_ok 15.8 ltac:(lra)))) f15 ltac:(lra) ltac:(lra) f Y2) as (A3 & Y3). destruct (diffuse (p15 p) (l3 D) (n_3 s) y2) as [a3 y3]. cbn [fst snd] in *.
    unfold diffuse2.
    assert (L4 : lvl kA (44.31 * X) (B2R (p15 p)) <= 500 * X).
    { pose proof (W_b (44.31 * X) (B2R (p15 p)) (proj1 (proj2 (X_ok 44.31 ltac:(lra)))) ltac:(lra)) as (_ & Q & _). lra. }
    pose proof (mag_ago _ (l4 D - 1) (n_4 s) (lvl_nn kA (44.31 * X) (B2R (p15 p)) KA ltac:(lra) ltac:(lra)) g) as W4.
    destruct (diff_f (44.31 * X) (B2R (p15 p)) (proj1 (proj2 (X_ok 44.31 ltac:(lra)))) ltac:(lra) (p15 p) f15 eq_refl y3 _ Y3 W4) as (A4 & S4 & G4 & _).
    set (w4 := ago (l4 D - 1) (n_4 s)) in *. set (v4 := fsub y3 (fmul (p15 p) w4)) in *. clearbody w4 v4. set (g4 := fmul (p15 p) v4) in *. clearbody g4.
    assert (S5 : Rabs (B2R w4 + B2R g4) <= 124.25 * X) by (unfold outl in S4; assert (0 <= X * B2R (p15 p) <= 0.9018 * X) by nra; lra).
    pose proof (mag_up _ _ _ W4 L4) as W4'. pose proof (mag_up _ _ _ G4 L4) as G4'.
    set (pc := fmul (p29 p) cross).
    assert (PC : mag (1164.33 * X) pc).
    { apply (mul_m 0.4008 (2905 * X)); [split; [exact f29|rewrite Rabs_pos_eq; lra]|exact Mc| |unfold u24; lra]. replace (0.4008 * (2905 * X)) with ((0.4008 * 2905) * X) by ring. apply X_ok. lra. }
    clearbody pc.
    assert (Q1 : fin (fadd (fadd w4 pc) g4) /\ Rabs (B2R (fadd (fadd w4 pc) g4)) <= 1290 * X).
    { pose proof (mag_in _ _ W4') as I1. pose proof (mag_in _ _ PC) as I2. pose proof (mag_in _ _ G4') as I3.
      destruct (add_e (1700 * X) w4 pc (proj1 W4') (proj1 PC) ltac:(apply Rabs_le; lra) (proj2 (proj2 (X_ok 1700 ltac:(lra))))) as [F1 E1]. assert (T1 := Rabs_le_inv _ _ E1). unfold u24 in T1.
      destruct (add_e (2300 * X) (fadd w4 pc) g4 F1 (proj1 G4') ltac:(apply Rabs_le; lra) (proj2 (proj2 (X_ok 2300 ltac:(lra))))) as [F2 E2]. assert (T2 := Rabs_le_inv _ _ E2). unfold u24 in T2.
      split; [exact F2|]. assert (T3 := Rabs_le_inv _ _ S5). apply Rabs_le. lra. }
    set (t4 := fadd (fadd w4 pc) g4) in *. clearbody t4.
    destruct (tank_f (1290 * X) (B2R (p12 p)) (proj1 (proj2 (X_ok 1290 ltac:(lra)))) ltac:(lra) (p12 p) f12 eq_refl t4 (n_z s) _ Q1 i (or_introl eq_refl)) as [MV MT].
    set (v := fadd t4 (fmul (p12 p) (n_z s))) in *. clearbody v.
    assert (A5 : Forall (mag (lvl kA (1290 * X) (B2R (p12 p)))) (v :: n_5 s)) by (constructor; assumption). set (a5 := v :: n_5 s) in *. clearbody a5.
    assert (B5 : lvl kA (1290 * X) (B2R (p12 p)) <= 14500 * X /\ 1290 * X <= lvl kA (1290 * X) (B2R (p12 p))).
    { pose proof (W_b (1290 * X) (B2R (p12 p)) (proj1 (proj2 (X_ok 1290 ltac:(lra)))) ltac:(lra)) as (Q & Q' & _). lra. }
    set (z := fadd (ago (lim (x_a m)) a5) _).
    assert (Z : mag (lvl kA (1290 * X) (B2R (p12 p)) * (1 + 6 * u24)) z).
    { apply fade_f; [|exact MM|apply mag_ago; [lra|exact A5]|apply mag_ago; [lra|exact A5]]. pose proof (X_ok 14500 ltac:(lra)) as (_ & Q1' & _). pose proof (X_ok 1290 ltac:(lra)) as (_ & Q2' & _). lra. }
    clearbody z.
    set (t := fadd (fneg (fmul (p12 p) v)) (n_z s)) in *.
    assert (T : mag (3618 * X) t) by (eapply mag_up; [exact MT|]; unfold outl; assert (0 <= X * B2R (p12 p) <= 0.9018 * X) by nra; lra). clear MT. clearbody t.
    assert (A7 : Forall (mag (3618 * X)) (t :: n_7 s)) by (constructor; assumption). set (a7 := t :: n_7 s) in *. clearbody a7.
    destruct (X_ok 3618 ltac:(lra)) as (O3 & _).
    set (dd := fadd (ago (l7 D) a7) (fmul (p8 p) (n_d s))).
    assert (HDD : mag (lvl kB (3618 * X) (B2R (p8 p))) dd).
    { apply (pole_f (3618 * X) (B2R (p8 p)) O3 ltac:(lra) (p8 p) f8 eq_refl); [apply mag_ago; [lra|exact A7]|exact k]. }
    clearbody dd.
    pose proof (pole_out (3618 * X) (B2R (p8 p)) O3 ltac:(lra) (p8 p) f8 eq_refl dd HDD) as DM.
    assert (DD : mag (1452 * X) (damped (p29 p) dd (fsub one (p8 p)))).
    { destruct (damp_out (3618 * X) (B2R (p8 p)) O3 ltac:(lra) (p8 p) f8 eq_refl (p29 p) dd HDD f29 ltac:(lra)) as [DR DL]. destruct HD as [-> | ->]; [eapply mag_up; [exact DR|lra]|eapply mag_up; [exact DL|lra]]. }
    fold (gain p). set (gg := gain p) in *. assert (EG : gain p = gg) by reflexivity.
    set (w := ago (l8 D - 1) (n_8 s)). assert (W : mag (lvl kA (1452 * X) (B2R gg)) w) by (apply mag_ago; [apply lvl_nn; lra|exact l]). clearbody w.
    assert (W' : mag (lvl kA (1452 * X) (B2R gg) * (1 + 6 * u24)) w). { eapply mag_up; [exact W|]. pose proof (lvl_nn kA (1452 * X) (B2R gg) KA ltac:(lra) ltac:(lra)). unfold u24. lra. }
    set (da := damped (p29 p) dd (fsub one (p8 p))) in *. clearbody da. clearbody gg.
    destruct (tank_f (1452 * X) (B2R gg) (proj1 (proj2 (X_ok 1452 ltac:(lra)))) ltac:(lra) gg FG eq_refl da w _ DD W' (or_intror eq_refl)) as [M8 MO].
    set (v8 := fadd (fmul gg w) da) in *. clearbody v8.
    constructor; cbn [n_pre n_lp n_hp n_1 n_2 n_3 n_4 n_5 n_z n_7 n_d n_8 n_out n_damp n_diff]; try assumption; rewrite ?EG; constructor; try assumption.
    - eapply mag_up; [exact MO|]. unfold outl. assert (0 <= X * B2R gg <= 0.5 * X) by nra. lra.
    - eapply mag_up; [exact DM|]. lra.
  Qed.

  (** ** Both sides *)
  Lemma sum_lev (a b c d e f g : f32) : mag (3618 * X) a -> mag (3618 * X) b -> mag (2905 * X) c -> mag (3621 * X) d -> mag (3618 * X) e -> mag (3621 * X) f -> mag (2905 * X) g ->
    mag (15000 * X) (fmul (fdec 3 5) (fsub (fadd (fadd a b) c) (fadd (fadd (fadd d e) f) g))).
  Proof using HX.
    intros A B C D E F G. assert (XP : 0 <= X) by lra.
    assert (O : forall a b, 1 / 100 <= a + b <= 16000 -> ok (a * X + b * X)) by (intros v w H; rewrite <- Rmult_plus_distr_r; apply X_ok; exact H).
    assert (S1 : mag (7236.001 * X) (fadd a b)) by (apply (add_m (3618 * X) (3618 * X)); [exact A|exact B|apply O; lra|unfold u24; lra]).
    assert (S2 : mag (10141.01 * X) (fadd (fadd a b) c)) by (apply (add_m (7236.001 * X) (2905 * X)); [exact S1|exact C|apply O; lra|unfold u24; lra]).
    assert (S3 : mag (7239.001 * X) (fadd d e)) by (apply (add_m (3621 * X) (3618 * X)); [exact D|exact E|apply O; lra|unfold u24; lra]).
    assert (S4 : mag (10860.01 * X) (fadd (fadd d e) f)) by (apply (add_m (7239.001 * X) (3621 * X)); [exact S3|exact F|apply O; lra|unfold u24; lra]).
    assert (S5 : mag (13765.02 * X) (fadd (fadd (fadd d e) f) g)) by (apply (add_m (10860.01 * X) (2905 * X)); [exact S4|exact G|apply O; lra|unfold u24; lra]).
    assert (BO : ok (23906.03 * X)).
    { destruct (X_ok 16000 ltac:(lra)) as (Q & _). pose proof (bpow_le radix2 81 100 ltac:(lia)) as Q2. change 81%Z with (1 + 80)%Z in Q2. rewrite bpow_plus in Q2. change (bpow radix2 1) with 2 in Q2. split; lra. }
    assert (S6 : mag (23907 * X) (fsub (fadd (fadd a b) c) (fadd (fadd (fadd d e) f) g))).
    { apply (sub_m (10141.01 * X) (13765.02 * X)); [exact S2|exact S5| |unfold u24; lra]. replace (10141.01 * X + 13765.02 * X) with (23906.03 * X) by lra. exact BO. }
    assert (F35 : mag 0.60001 (fdec 3 5 : f32)) by (split; [ffin|fval (fdec 3 5 : f32); rewrite Rabs_pos_eq; lra]).
    apply (mul_m 0.60001 (23907 * X)); [exact F35|exact S6| |unfold u24; lra]. replace (0.60001 * (23907 * X)) with ((0.60001 * 23907) * X) by ring. apply X_ok. lra.
  Qed.
  Lemma net_lev fs p pre mR mL xl xr n n' o0 o1 : mild p -> unit32 (x_mix mR) -> unit32 (x_mix mL) -> mag X xl -> mag X xr -> lev p (nR n) -> lev p (nL n) ->
    net_step fs p pre mR mL xl xr n = (n', o0, o1) -> lev p (nR n') /\ lev p (nL n') /\ mag (15000 * X) o0 /\ mag (15000 * X) o1.
  Proof using HX.
    intros Mp UR UL Xl Xr LR LL H. assert (XP : 0 <= X) by lra. unfold net_step in H.
    assert (R : lev p (side_step p fv_dampR (lensR fs) pre mR xr (ago (span fs (flit 1783083 (-24))) (n_out (nL n))) (nR n))).
    { apply side_lev; auto. apply mag_ago; [lra|apply LL]. }
    set (r := side_step p fv_dampR _ _ _ _ _ _) in *. clearbody r.
    assert (Lq : lev p (side_step p fv_dampL (lensL fs) pre mL xl (ago (span fs (flit 4194163 (-25)) + 1) (n_out r)) (nL n))).
    { apply side_lev; auto. apply mag_ago; [lra|apply R]. }
    set (l := side_step p fv_dampL _ _ _ _ _ _) in *. clearbody l. injection H as <- <- <-. cbn [nR nL]. split; [exact R|]. split; [exact Lq|].
    split; apply sum_lev; apply mag_ago; try lra; first [apply R|apply Lq].
  Qed.
  Lemma lev0 : lev fv_par0 side0.
  Proof using HX.
    assert (XP : 0 <= X) by lra. destruct k_nn as [KA KB]. destruct (gain_b fv_par0 fv_par0 mild0 mild0 ltac:(lra)) as (_ & G & _).
    constructor; cbn [side0 n_pre n_lp n_hp n_1 n_2 n_3 n_4 n_5 n_z n_7 n_d n_8 n_out n_damp n_diff fv_par0 p8 p12 p24 p25]; try constructor; try reflexivity; rewrite zero_R, Rabs_R0.
    1-2: apply lvl_nn; lra.
    - apply Rmult_le_pos; [apply lvl_nn; lra|unfold u24; lra].
    - apply lvl_nn; lra.
  Qed.

  (** ** Runs *)
  Variable L : libm.
  Hypothesis HS : sin_unit L.
  Hypothesis HE : exp_unit L.
  Hypothesis HA : exp_acc L.
  Definition quietly (y : f32 * f32) : Prop := mag (15000 * X) (fst y) /\ mag (15000 * X) (snd y).
  Definition elev (e : ideal) : Prop :=
    egood e /\ mild_sl (e_sl e) /\ mild (t_par (e_c e)) /\ below (t_par (e_c e)) (fv_smooth (e_k e) (fv_slow L (e_k e) (e_sl e)) (t_par (e_c e))) /\
    lev (t_par (e_c e)) (nR (e_n e)) /\ lev (t_par (e_c e)) (nL (e_n e)).
  Lemma frames_lev xs : Forall (fun x => mag X (fst x) /\ mag X (snd x)) xs -> forall e e' ys, elev e ->
    ideal_frames L (fv_slow L (e_k e) (e_sl e)) e xs = Some (e', ys) -> elev e' /\ Forall quietly ys.
  Proof using HX HS HE HA.
    induction 1 as [|[xl xr] t [Xl Xr] HT IH]; intros e e' ys G H.
    - injection H as <- <-. split; [exact G|constructor].
    - cbn [ideal_frames] in H. destruct G as (((Gr & K & SL & C) & SP) & MS & MP & BL & LR & LL).
      destruct (ctl_good L _ _ _ _ Gr K HS HE SL C SP) as (c' & pre & EC & C' & GC). rewrite EC in H.
      assert (EP : t_par c' = fv_smooth (e_k e) (fv_slow L (e_k e) (e_sl e)) (t_par (e_c e)) /\ unit32 (x_mix (t_R c')) /\ unit32 (x_mix (t_L c'))).
      { revert EC. clear. unfold ctl_step. destruct (to_int _); [|discriminate]. destruct (fv_phase _ _ _); [|discriminate]. destruct (fv_dR _ _ _ _); [|discriminate]. destruct (fv_dL _ _ _ _); [|discriminate].
        intros H. injection H as <- _. split; [reflexivity|]. cbn [t_R t_L]. unfold fv_modstep. cbn [x_mix]. split; apply mix_unit. }
      destruct EP as (EP & U1 & U2).
      pose proof (smooth_mild L _ _ _ _ Gr K HE HA SL MS MP) as MP'.
      pose proof (smooth_below L _ _ _ _ _ Gr K HE HA SL MS MP MP' BL) as BL'.
      pose proof (lev_up _ _ _ MP MP' BL LR) as LR'. pose proof (lev_up _ _ _ MP MP' BL LL) as LL'. rewrite <- EP in *.
      destruct (net_step (rate (e_sr e)) (t_par c') pre (t_R c') (t_L c') xl xr (e_n e)) as [[n o0] o1] eqn:EN.
      destruct (net_lev _ _ _ _ _ _ _ _ _ _ _ MP' U1 U2 Xl Xr LR' LL' EN) as (R1 & R2 & O0 & O1).
      destruct (ideal_frames L _ (Ideal (e_sr e) (e_k e) (e_sl e) c' n) t) as [[e2 os]|] eqn:EF; [|discriminate]. injection H as <- <-.
      destruct (IH (Ideal (e_sr e) (e_k e) (e_sl e) c' n) e2 os) as (G2 & Q2); [|exact EF|].
      + unfold elev. cbn [e_sl e_c e_k e_n]. split; [split; [split; [exact Gr|split; [exact K|split; [exact SL|exact C']]]|apply GC]|]. repeat (split; [assumption|]). exact R2.
      + split; [exact G2|]. constructor; [split; [exact O0|exact O1]|exact Q2].
  Qed.
  Lemma run_lev t : Forall (fun o => match o with FvProc xs => Forall (fun x => mag X (fst x) /\ mag X (snd x)) xs | _ => False end) t ->
    forall e e' ys, elev e -> ideal_run L t (Some e) = Some (e', ys) -> Forall quietly ys.
  Proof using HX HS HE HA.
    induction 1 as [|o t HO HT IH]; intros e e' ys G H.
    - injection H as _ <-. constructor.
    - cbn [ideal_run] in H. destruct o as [sr|p x| |xs]; try contradiction. cbn [ideal_op] in H.
      destruct (ideal_frames L _ e xs) as [[e1 a]|] eqn:EF; [|discriminate]. destruct (ideal_run L t (Some e1)) as [[e2 b]|] eqn:ER; [|discriminate]. injection H as <- <-.
      destruct (frames_lev xs HO e e1 a G EF) as (G1 & Q1). apply Forall_app. split; [exact Q1|]. exact (IH _ _ _ G1 ER).
  Qed.
  (** Settings after [init] or [reset] leave the network empty. *)
  Definition still (e : option ideal) : Prop := match e with Some i => e_n i = net0 /\ e_c i = ctl0 | None => True end.
  Lemma sets_still s : Forall (fun o => match o with FvSet _ _ => True | _ => False end) s -> forall e e' ys, still e -> ideal_run L s e = Some (e', ys) -> still e'.
  Proof.
    clear. induction 1 as [|o s HO HS IH]; intros e e' ys S H; [injection H as <- _; exact S|]. destruct o as [sr|p x| |xs]; try contradiction. cbn [ideal_run ideal_op] in H.
    destruct (ideal_run L s _) as [[e2 b]|] eqn:ER in H; [|discriminate]. injection H as <- _. refine (IH _ _ _ _ ER). destruct e as [i|]; exact S.
  Qed.
  Lemma restart_still h o e e' ys : restarts o -> ideal_run L (h ++ [o]) e = Some (e', ys) -> still e'.
  Proof.
    clear. intros R H. rewrite ideal_app in H. destruct (ideal_run L h e) as [[e1 b]|]; [|discriminate]. cbn [ideal_run] in H. destruct o as [sr|p x| |xs]; try contradiction; cbn [ideal_op] in H.
    - destruct (to_int sr) as [z|]; [|discriminate]. destruct (fv_consts z); [|discriminate]. injection H as <- _. now split.
    - injection H as <- _. destruct e1 as [i|]; [now split|exact I].
  Qed.
  Lemma setting_b p h (i : ideal) ys : Forall op_good h -> ideal_run L h None = Some (Some i, ys) -> B2R (slider p (e_sl i)) = in_force p h.
  Proof.
    clear. intros G H. pose proof (sets_run L p h None _ _ [] H eq_refl) as S. cbv beta iota in S.
    unfold in_force. destruct (last_set p None (tuning [] h)) as [x|] eqn:EL; cbn [shows] in S; [|apply S].
    assert (N : is_nan x = false).
    { assert (LS : forall l (r : option f32), Forall (fun o => match o with FvSet _ y => is_nan y = false | _ => True end) l -> match r with Some y => is_nan y = false | None => True end -> match last_set p r l with Some y => is_nan y = false | None => True end).
      { induction l as [|o l IH]; intros r F R; [exact R|]. pose proof (Forall_inv F) as F1. pose proof (Forall_inv_tail F) as F2. destruct o as [sr|q y| |xs]; cbn [last_set]; apply IH; auto. destruct (fvparam_eq_dec q p); assumption. }
      assert (LT : forall l acc, Forall op_good l -> Forall (fun o => match o with FvSet _ y => is_nan y = false | _ => True end) acc -> Forall (fun o => match o with FvSet _ y => is_nan y = false | _ => True end) (tuning acc l)).
      { clear. induction l as [|o l IH]; intros acc F A; [exact A|]. pose proof (Forall_inv F) as F1. pose proof (Forall_inv_tail F) as F2. destruct o as [sr|q y| |xs]; cbn [tuning]; apply IH; auto.
        destruct acc as [|a acc]; [constructor|]. apply Forall_app. split; [exact A|]. constructor; [exact F1|constructor]. }
      pose proof (LS (tuning [] h) None (LT h [] G (Forall_nil _)) Logic.I) as Q. rewrite EL in Q. exact Q. }
    rewrite N in S. apply S.
  Qed.
End Level.

Lemma level_run L h o s t f a f' b X : sin_unit L -> exp_unit L -> exp_acc L -> 1 / 10 ^ 10 <= X <= bpow radix2 64 ->
  Forall op_good (h ++ o :: s) -> restarts o -> Forall (fun q => match q with FvSet _ _ => True | _ => False end) s ->
  rate_in_force None (h ++ o :: s) <> None ->
  in_force DECAY (h ++ o :: s) <= 40 -> in_force TAIL_DENSITY (h ++ o :: s) <= 90 -> in_force INPUT_DIFFUSION_1 (h ++ o :: s) <= 90 -> in_force INPUT_DIFFUSION_2 (h ++ o :: s) <= 90 ->
  100 <= in_force DAMPING (h ++ o :: s) -> 100 <= in_force INPUT_LOW_PASS_CUTOFF (h ++ o :: s) -> 100 <= in_force INPUT_HIGH_PASS_CUTOFF (h ++ o :: s) ->
  fv_run L (h ++ o :: s) fv_new = Some (f, a) ->
  Forall (fun q => match q with FvProc xs => Forall (fun x => mag X (fst x) /\ mag X (snd x)) xs | _ => False end) t -> fv_run L t f = Some (f', b) ->
  Forall (quietly X) b.
Proof.
  intros S E EA HX G R ST RT I1 I2 I3 I4 I5 I6 I7 H1 HT H2.
  destruct (run_ideal L _ _ _ _ _ _ _ _ frel_new H1) as (e & on & buf & n & EI & F).
  pose proof (rate_run L _ _ _ _ EI) as ER. cbn [rate_of] in ER. destruct e as [i|]; [|cbn [rate_of] in ER; congruence].
  destruct (run_ideal L t _ _ _ _ _ _ _ F H2) as (e' & _ & _ & _ & EI2 & _).
  destruct (ideal_defined L _ S G None I) as (e1 & ys & EI' & OI). rewrite EI in EI'. injection EI' as <- _. cbn [oinv] in OI.
  assert (SB : forall p, B2R (slider p (e_sl i)) = in_force p (h ++ o :: s)) by (intros p; exact (setting_b L p _ i a G EI)).
  assert (STL : e_n i = net0 /\ e_c i = ctl0).
  { assert (Q : ideal_run L ((h ++ [o]) ++ s) None = Some (Some i, a)) by (rewrite <- app_assoc; exact EI). rewrite ideal_app in Q. destruct (ideal_run L (h ++ [o]) None) as [[e2 b2]|] eqn:Q1; [|discriminate].
    destruct (ideal_run L s e2) as [[e3 b3]|] eqn:Q2; [|discriminate]. injection Q as -> _. exact (sets_still L s ST e2 (Some i) b3 (restart_still L h o None e2 b2 R Q1) Q2). }
  destruct STL as [EN EC]. destruct OI as (Gr & K & SL & C).
  assert (MS : mild_sl (e_sl i)).
  { unfold mild_sl. rewrite <- (SB DECAY) in I1. rewrite <- (SB TAIL_DENSITY) in I2. rewrite <- (SB INPUT_DIFFUSION_1) in I3. rewrite <- (SB INPUT_DIFFUSION_2) in I4. rewrite <- (SB DAMPING) in I5. rewrite <- (SB INPUT_LOW_PASS_CUTOFF) in I6. rewrite <- (SB INPUT_HIGH_PASS_CUTOFF) in I7.
    cbn [slider] in *. repeat (split; [assumption|]). exact I7. }
  refine (run_lev X HX L S E EA t HT i e' b _ EI2). unfold elev, egood, einv. rewrite EN, EC. cbn [ctl0 t_par net0 nR nL].
  pose proof (smooth_mild L _ _ _ _ Gr K E EA SL MS mild0) as MP.
  split; [split; [split; [exact Gr|split; [exact K|split; [exact SL|apply ctl0_int]]]|apply sp_ok0]|]. split; [exact MS|]. split; [exact mild0|]. split; [exact (below0 _ MP)|]. split; apply lev0; exact HX.
Qed.
