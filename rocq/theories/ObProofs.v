(** Oberheim ladder: its coefficients, its one-pole stage in binary64, bounded outputs. *)
From Coq Require Import ZArith Reals Lra Lia Bool Psatz List.
From Flocq Require Import Core BinarySingleNaN.
From Verif Require Import Flt FltFacts FltMore FltKey FltArith Libm UtilModel UtilProofs Dbl DblRel RealBounds LpProofs2 MgModel MgSpec MgBase MgInst ObModel LdSpec.
Import ListNotations.
Local Open Scope R_scope.

Definition pi32 : R := 13176795 / 4194304.
Lemma rp_const (x : f64) r : fin x -> B2R x = r -> rmid r -> rp 0 x r.
Proof. intros F E M. rewrite <- E in *. now apply rp_self. Qed.
(** ** The prewarped frequency *)
Lemma ob_w sr c : mg_rate sr -> mg_cut (475 / 1000) sr c -> let w := fdiv (fmul (fmul (fmul (dz 2) dPI) (f2d c)) (fdiv (dz 1) (f2d sr))) (dz 2) in
  rp 4 w (pi32 * (B2R c / B2R sr)) /\ / 262144 <= B2R c / B2R sr <= 475 / 1000.
Proof.
  intros [Fs Hs] [Fc Hc] w. destruct (f2d_R c Fc) as [Fd Ed]. destruct (f2d_R sr Fs) as [Sd Es]. set (C := B2R c) in *. set (S := B2R sr) in *.
  assert (Q : / 262144 <= C / S <= 475 / 1000). { split; apply Rmult_le_reg_r with S; try lra; unfold Rdiv; rewrite Rmult_assoc, Rinv_l by lra; lra. } split; [|exact Q].
  assert (I : / 262144 <= / S <= / 4000) by (split; apply Rinv_le_contravar; lra).
  assert (A1 : rp 0 (fmul (dz 2) dPI) (2 * pi32)) by (apply rp_const; [ffin|fval (fmul (dz 2) dPI); unfold pi32; lra|apply rmid_in; unfold pi32; lra]).
  assert (A2 : rp 0 (f2d c) C) by (apply rp_const; [exact Fd|exact Ed|apply rmid_in; lra]).
  assert (A3 : rp 0 (f2d sr) S) by (apply rp_const; [exact Sd|exact Es|apply rmid_in; lra]).
  assert (A4 : rp 0 (dz 1) 1) by (apply rp_const; [ffin|fval (dz 1); lra|apply rmid_in; lra]).
  assert (A5 : rp 0 (dz 2) 2) by (apply rp_const; [ffin|fval (dz 2); lra|apply rmid_in; lra]).
  assert (A6 : rp 1 (fmul (fmul (dz 2) dPI) (f2d c)) (2 * pi32 * C)) by (apply (rp_mul 0 0 1 _ _ _ _ A1 A2); [apply rmid_in; unfold pi32; lra|lra]).
  assert (A7 : rp 1 (fdiv (dz 1) (f2d sr)) (1 / S)) by (apply (rp_div 0 0 1 _ _ _ _ A4 A3); [apply rmid_in; unfold Rdiv; lra|lra]).
  assert (E : 2 * pi32 * C * (1 / S) = 2 * pi32 * (C / S)) by (field; lra).
  assert (A8 : rp 3 (fmul (fmul (fmul (dz 2) dPI) (f2d c)) (fdiv (dz 1) (f2d sr))) (2 * pi32 * (C / S))). { rewrite <- E. apply (rp_mul 1 1 3 _ _ _ _ A6 A7); [rewrite E; apply rmid_in; unfold pi32; lra|lra]. }
  assert (E2 : 2 * pi32 * (C / S) / 2 = pi32 * (C / S)) by (field; lra). rewrite <- E2.
  apply (rp_div 3 0 4 _ _ _ _ A8 A5); [rewrite E2; apply rmid_in; unfold pi32; lra|lra].
Qed.
Lemma ob_g_R L sr c : dtan_acc L -> mg_rate sr -> mg_cut (475 / 1000) sr c ->
  exists w, pi32 * (B2R c / B2R sr) * (1 - 4 * rv) <= w <= pi32 * (B2R c / B2R sr) * (1 + 4 * rv) /\ 119 / 10000000 <= w <= 3 / 2 /\ rp 8 (ob_g L sr c) (tan w) /\ w <= tan w <= 32.
Proof.
  intros HL Hs Hc. destruct (ob_w sr c Hs Hc) as [W Q]. cbv zeta in W. unfold ob_g. cbv zeta. set (T := fdiv (dz 1) (f2d sr)) in *.
  set (w := fdiv (fmul (fmul (fmul (dz 2) dPI) (f2d c)) T) (dz 2)) in *. exists (B2R w). pose proof (rp_R _ _ _ W) as WR. pose proof rv_pos as U.
  split; [exact WR|]. assert (WB : 119 / 10000000 <= B2R w <= 3 / 2). { set (f := B2R c / B2R sr) in *. unfold pi32 in *. split; nra. } split; [exact WB|].
  destruct (tan_range (B2R w) ltac:(lra)) as [T1 T2]. split; [|split; assumption].
  destruct (HL w (rp_fin _ _ _ W)) as [Ft Et]. { split; [|lra]. bp. lra. }
  destruct Hs as [Fs Hs]. destruct (f2d_R sr Fs) as [Sd Es]. set (S := B2R sr) in *. assert (I : / 262144 <= / S <= / 4000) by (split; apply Rinv_le_contravar; lra).
  assert (A3 : rp 0 (f2d sr) S) by (apply rp_const; [exact Sd|exact Es|apply rmid_in; lra]).
  assert (A4 : rp 0 (dz 1) 1) by (apply rp_const; [ffin|fval (dz 1); lra|apply rmid_in; lra]).
  assert (A5 : rp 0 (dz 2) 2) by (apply rp_const; [ffin|fval (dz 2); lra|apply rmid_in; lra]).
  assert (A7 : rp 1 T (1 / S)) by (apply (rp_div 0 0 1 _ _ _ _ A4 A3); [apply rmid_in; unfold Rdiv; lra|lra]).
  set (t := tan (B2R w)) in *. clearbody t.
  assert (At : rp 2 (d_tan L w) t). { split; [exact Ft|]. split; [apply rmid_in; lra|]. split; [lra|]. eapply Rle_trans; [exact Et|]. apply Rmult_le_compat_r; [lra|]. unfold rv. bp. lra. }
  assert (E1 : 2 / (1 / S) = 2 * S) by (field; lra).
  assert (B1 : rp 2 (fdiv (dz 2) T) (2 * S)). { rewrite <- E1. apply (rp_div 0 1 2 _ _ _ _ A5 A7); [rewrite E1; apply rmid_in; lra|lra]. }
  assert (B2 : rp 5 (fmul (fdiv (dz 2) T) (d_tan L w)) (2 * S * t)). { apply (rp_mul 2 2 5 _ _ _ _ B1 At); [apply rmid_in; nra|lra]. }
  assert (E2 : 2 * S * t * (1 / S) = 2 * t) by (field; lra).
  assert (B3 : rp 7 (fmul (fmul (fdiv (dz 2) T) (d_tan L w)) T) (2 * t)). { rewrite <- E2. apply (rp_mul 5 1 7 _ _ _ _ B2 A7); [rewrite E2; apply rmid_in; lra|lra]. }
  assert (E3 : 2 * t / 2 = t) by field. rewrite <- E3. apply (rp_div 7 0 8 _ _ _ _ B3 A5); [rewrite E3; apply rmid_in; lra|lra].
Qed.
(** ** Coefficients *)
Lemma bd_pos lo hi l h (x y : f64) : dy64 l -> dy64 h -> fin x -> fin y -> lo <= B2R x <= hi -> 1 <= B2R y -> 0 <= lo -> l <= 0 -> hi <= h -> fin (fdiv x y) /\ l <= B2R (fdiv x y) <= h.
Proof.
  intros Dl Dh Fx Fy Bx By Lo Ll Hh. destruct (fdiv_b l h x y Dl Dh Fx Fy ltac:(lra)) as (F & _ & B); [|auto].
  assert (I : 0 < / B2R y <= 1) by (split; [apply Rinv_0_lt_compat; lra|rewrite <- Rinv_1; apply Rinv_le_contravar; lra]). unfold Rdiv. nra.
Qed.
Definition beta_ok (b : f64) : Prop := fin b /\ 0 <= B2R b <= 1.
Lemma dy1 : dy64 1. Proof. apply dyu. Qed.
Record ob_coef (a b : R) (s : ob) : Prop := {
  oc_a : fin (ob_alpha s) /\ a <= B2R (ob_alpha s) <= b;
  oc_0 : beta_ok (ob_beta (ob_0 s)); oc_1 : beta_ok (ob_beta (ob_1 s)); oc_2 : beta_ok (ob_beta (ob_2 s)); oc_3 : beta_ok (ob_beta (ob_3 s));
  oc_g : beta_ok (ob_gamma s) }.
Record ob_fb (s : ob) : Prop := { of_K : fin (ob_K s) /\ 0 <= B2R (ob_K s) <= 4; of_a0 : fin (ob_alpha0 s) /\ / 8 <= B2R (ob_alpha0 s) <= 1 }.
Lemma unit_mul (x y : f64) : beta_ok x -> beta_ok y -> beta_ok (fmul x y).
Proof. intros [F1 B1] [F2 B2]. destruct (fmul_b 0 1 x y dy_0 dy1 F1 F2 ltac:(nra)) as (F & _ & B). now split. Qed.
Lemma alpha0_ok (K g : f64) : fin K -> 0 <= B2R K <= 4 -> beta_ok g -> let a := fdiv (dz 1) (fadd (dz 1) (fmul K g)) in fin a /\ / 8 <= B2R a <= 1.
Proof.
  intros FK BK [Fg Bg] a. fval (dz 1). assert (D8 : dy64 8) by (change 8 with (bpow radix2 3); apply dyp; lia). assert (DI : dy64 (/ 8)) by (change (/ 8) with (bpow radix2 (-3)); apply dyp; lia).
  destruct (fmul_b 0 7 K g dy_0 ltac:(apply dy_IZR; lia) FK Fg ltac:(nra)) as (F1 & _ & B1).
  destruct (fadd_b 1 8 (dz 1) (fmul K g) dy1 D8 ltac:(ffin) F1 ltac:(lra)) as (F2 & _ & B2).
  set (d := fadd (dz 1) (fmul K g)) in *. destruct (fdiv_b (/ 8) 1 (dz 1) d DI dy1 ltac:(ffin) F2 ltac:(lra)) as (F3 & _ & B3); [|now split].
  replace (B2R (dz 1)) with 1 by lra. unfold Rdiv. rewrite Rmult_1_l. split; [apply Rinv_le_contravar; lra|rewrite <- Rinv_1; apply Rinv_le_contravar; lra].
Qed.
Definition alo : R := 118 / 10000000.
Lemma setCutoff_ok L s c hi : dtan_acc L -> mg_rate (ob_sr s) -> mg_cut (475 / 1000) (ob_sr s) c -> ob_fb s ->
  (forall w, 119 / 10000000 <= w <= pi32 * (B2R c / B2R (ob_sr s)) * (1 + 4 * rv) -> w <= 3 / 2 -> tan w <= hi) -> hi <= 32 ->
  let s' := ob_setCutoff L s c in ob_coef alo (hi / (1 + hi) * (1 + 18 * rv)) s' /\ ob_fb s'.
Proof.
  intros HL Hs Hc HF HT Hh s'. destruct (ob_g_R L _ _ HL Hs Hc) as (w & W1 & W2 & G & T1 & T2). set (t := tan w) in *. assert (T3 : t <= hi) by (apply HT; lra). clearbody t. clear HT.
  assert (A4 : rp 0 (dz 1) 1) by (apply rp_const; [ffin|fval (dz 1); lra|apply rmid_in; lra]). pose proof rv_pos as U.
  assert (GR := rp_R _ _ _ G). set (g := ob_g L (ob_sr s) c) in *. assert (Fg := rp_fin _ _ _ G).
  assert (D : rp 9 (fadd (dz 1) g) (1 + t)) by (apply (rp_add 0 8 9 _ _ _ _ A4 G); [apply rmid_in; lra|lra|lra|lra]).
  assert (J : 0 < / (1 + t)) by (apply Rinv_0_lt_compat; lra). assert (JE : (1 + t) * / (1 + t) = 1) by (apply Rinv_r; lra).
  assert (LB : 119 / 10000000 / (1 + 119 / 10000000) <= t / (1 + t)). { unfold Rdiv at 2. replace (t * / (1 + t)) with (1 - / (1 + t)) by (field; lra). assert (/ (1 + t) <= / (1 + 119 / 10000000)) by (apply Rinv_le_contravar; lra). lra. }
  assert (UB : t / (1 + t) <= hi / (1 + hi)). { replace (t / (1 + t)) with (1 - / (1 + t)) by (field; lra). replace (hi / (1 + hi)) with (1 - / (1 + hi)) by (field; lra). assert (/ (1 + hi) <= / (1 + t)) by (apply Rinv_le_contravar; lra). lra. }
  assert (UB1 : t / (1 + t) <= 1) by (replace (t / (1 + t)) with (1 - / (1 + t)) by (field; lra); lra).
  assert (A : rp 18 (fdiv g (fadd (dz 1) g)) (t / (1 + t))) by (apply (rp_div 8 9 18 _ _ _ _ G D); [apply rmid_in; lra|lra]).
  assert (AR := rp_R _ _ _ A). assert (Fa := rp_fin _ _ _ A). assert (Fd := rp_fin _ _ _ D).
  assert (D1 : 1 <= B2R (fadd (dz 1) g)). { fval (dz 1). assert (D8 : dy64 64) by (change 64 with (bpow radix2 6); apply dyp; lia). destruct (fadd_b 1 64 (dz 1) g dy1 D8 ltac:(ffin) Fg) as (_ & _ & B); [|lra]. split; nra. }
  assert (Ga : beta_ok (fdiv g (fadd (dz 1) g))).
  { split; [exact Fa|]. fval (dz 1). assert (D8 : dy64 64) by (change 64 with (bpow radix2 6); apply dyp; lia).
    assert (GP : 0 <= B2R g <= 63) by nra. destruct (fadd_b (B2R g) 64 (dz 1) g (dy_B2R g) D8 ltac:(ffin) Fg ltac:(lra)) as (_ & _ & B).
    destruct (fdiv_b 0 1 g (fadd (dz 1) g) dy_0 dy1 Fg Fd ltac:(lra)) as (_ & _ & B'); [|exact B'].
    set (d := B2R (fadd (dz 1) g)) in *. split; [apply Rmult_le_pos; [lra|left; apply Rinv_0_lt_compat; lra]|]. apply Rmult_le_reg_r with d; [lra|]. unfold Rdiv. rewrite Rmult_assoc, Rinv_l by lra. lra. }
  set (G0 := fdiv g (fadd (dz 1) g)) in *. set (d := fadd (dz 1) g) in *.
  assert (BD : forall x, beta_ok x -> beta_ok (fdiv x d)). { intros x [Fx Bx]. destruct (bd_pos 0 1 0 1 x d dy_0 dy1 Fx Fd Bx D1 ltac:(lra) ltac:(lra) ltac:(lra)) as [F B]. now split. }
  assert (G2 := unit_mul _ _ Ga Ga). assert (G3 := unit_mul _ _ G2 Ga). assert (G4 := unit_mul _ _ G3 Ga).
  split.
  - constructor; cbn [s' ob_setCutoff ob_alpha ob_0 ob_1 ob_2 ob_3 ob_beta ob_gamma]; fold g; fold d; fold G0.
    + split; [exact Fa|]. split.
      * eapply Rle_trans; [|exact (proj1 AR)]. unfold alo. nra.
      * eapply Rle_trans; [exact (proj2 AR)|]. apply Rmult_le_compat_r; lra.
    + apply BD, G3.
    + apply BD, G2.
    + apply BD, Ga.
    + apply BD. split; [ffin|fval (dz 1); lra].
    + exact G4.
  - destruct HF as [HK _]. constructor; cbn [s' ob_setCutoff ob_K ob_alpha0]; [exact HK|]. fold g. fold d. fold G0. apply alpha0_ok; [apply HK|apply HK|exact G4].
Qed.
Lemma setRes_ok a b s r : is_nan r = false -> ob_coef a b s -> let s' := ob_setResonance s r in ob_coef a b s' /\ ob_fb s'.
Proof.
  intros N [A0 A1 A2 A3 A4 A5] s'. destruct (unit_clamp_R r N) as [F B]. destruct (f2d_R _ F) as [Fd Ed].
  assert (D4 : dy64 4) by (change 4 with (bpow radix2 2); apply dyp; lia). fval (dz 4).
  destruct (fmul_b 0 4 (dz 4) (f2d (unit_clamp r)) dy_0 D4 ltac:(ffin) Fd ltac:(rewrite Ed; nra)) as (F1 & _ & B1).
  split; constructor; cbn [s' ob_setResonance ob_alpha ob_0 ob_1 ob_2 ob_3 ob_gamma ob_K ob_alpha0]; auto. apply alpha0_ok; assumption.
Qed.

(** ** One stage *)
Lemma dmul_one (x : f64) : fin x -> fin (fmul x (dz 1)) /\ B2R (fmul x (dz 1)) = B2R x.
Proof. intros F. fval (dz 1). assert (E : B2R x * B2R (dz 1) = B2R x) by (replace (B2R (dz 1)) with 1 by lra; ring). destruct (fmul_exact x (dz 1) F ltac:(ffin)) as [A B]; [rewrite E; apply dy_B2R|]. rewrite B, E. auto. Qed.
Lemma done_mul (x : f64) : fin x -> fin (fmul (dz 1) x) /\ B2R (fmul (dz 1) x) = B2R x.
Proof. intros F. fval (dz 1). assert (E : B2R (dz 1) * B2R x = B2R x) by (replace (B2R (dz 1)) with 1 by lra; ring). destruct (fmul_exact (dz 1) x ltac:(ffin) F) as [A B]; [rewrite E; apply dy_B2R|]. rewrite B, E. auto. Qed.
Lemma zero_mul (x : f64) : fin x -> fin (fmul fzero x) /\ B2R (fmul fzero x) = 0.
Proof. intros F. assert (E : B2R (fzero : f64) * B2R x = 0) by (change (B2R (fzero : f64)) with 0; ring). destruct (fmul_exact fzero x (eq_refl : fin (fzero : f64)) F) as [A B]; [rewrite E; apply dy_0|]. rewrite B, E. auto. Qed.
Lemma add_zero (x z : f64) : fin x -> fin z -> B2R z = 0 -> fin (fadd x z) /\ B2R (fadd x z) = B2R x.
Proof. intros F Fz Z. assert (E : B2R x + B2R z = B2R x) by lra. destruct (fadd_exact x z F Fz) as [A B]; [rewrite E; apply dy_B2R|]. rewrite B, E. auto. Qed.
Lemma feedback_ok (q : ob_pole) Z : beta_ok (ob_beta q) -> bd Z (ob_z q) -> bd Z (ob_feedback q).
Proof.
  intros [Fb Bb] [Fz Bz]. unfold ob_feedback. destruct (zero_mul (fzero : f64) (eq_refl : fin (fzero : f64))) as [F0 R0]. destruct (add_zero _ _ Fz F0 R0) as [F1 R1].
  assert (A : Rabs (B2R (ob_beta q) * B2R (fadd (ob_z q) (fmul fzero fzero))) <= Rabs (B2R (ob_z q))). { rewrite R1, Rabs_mult, (Rabs_pos_eq (B2R (ob_beta q))) by lra. pose proof (Rabs_pos (B2R (ob_z q))). nra. }
  assert (D : dy64 (Rabs (B2R (ob_z q)))). { unfold Rabs. destruct (Rcase_abs _); [apply dy_opp|]; apply dy_B2R. }
  apply Rabs_le_inv in A. destruct (fmul_b _ _ (ob_beta q) _ (dy_opp _ D) D Fb F1 A) as (F & _ & B). split; [exact F|]. eapply Rle_trans; [apply Rabs_le, B|exact Bz].
Qed.
Definition eE : R := bpow radix2 (-48).
Lemma stage_R alpha q s U Z : fin alpha -> 0 <= B2R alpha <= 1 -> beta_ok (ob_beta q) -> bd Z (ob_z q) -> bd U s -> 1 <= U -> 1 <= Z -> U + Z <= 1000000000 ->
  let a := B2R alpha in let (q', o) := ob_stage alpha q s in
  ob_beta q' = ob_beta q /\ ap ((U + Z) * eE) o ((1 - a) * B2R (ob_z q) + a * B2R s) /\ ap ((U + Z) * eE) (ob_z q') ((1 - 2 * a) * B2R (ob_z q) + 2 * a * B2R s).
Proof.
  intros Fa Ba Hb Hz [Fs Bs] HU HZ HM a. destruct (feedback_ok q Z Hb Hz) as [Ff _]. destruct Hz as [Fz Bz]. unfold ob_stage. cbv zeta.
  destruct (dmul_one s Fs) as [F1 E1]. destruct (add_zero _ fzero F1 (eq_refl : fin (fzero : f64)) eq_refl) as [F2 E2]. destruct (zero_mul _ Ff) as [F3 E3]. destruct (add_zero _ _ F2 F3 E3) as [F4 E4].
  destruct (done_mul _ F4) as [F5 E5]. set (u := fmul (dz 1) (fadd (fadd (fmul s (dz 1)) fzero) (fmul fzero (ob_feedback q)))) in *. assert (Eu : B2R u = B2R s) by (rewrite E5, E4, E2; exact E1). clearbody u. clear - Fa Ba Fz Bz Fs Bs HU HZ HM F5 Eu.
  cbn [ob_beta ob_z]. split; [reflexivity|]. set (z := ob_z q) in *.
  pose proof (ap_self _ F5) as Au. rewrite Eu in Au. pose proof (ap_self _ Fz) as Az. pose proof (ap_self _ Fa) as Aa. fold a in Aa. fold a in Ba. clearbody a. set (x := B2R s) in *. set (y := B2R z) in *.
  set (N := U + Z) in *. assert (DU : 0 < du < / 8000000000000000) by (unfold du; change (bpow radix2 (-53)) with (/ 9007199254740992); lra). assert (NM : mid64 (2 * N)).
  { split; [apply Rle_trans with (bpow radix2 0); [apply bpow_le; lia|change (bpow radix2 0) with 1; unfold N; lra]|]. apply Rle_trans with (bpow radix2 40); [bp; lra|apply bpow_le; lia]. }
  assert (Q1 : Rabs (x - y) <= N). { unfold Rminus, N. eapply Rle_trans; [apply Rabs_triang|]. rewrite Rabs_Ropp. lra. }
  assert (NP : 2 <= N) by (unfold N; lra).
  pose proof (ap_sub 0 0 (2 * N) _ _ _ _ Au Az NM ltac:(lra)) as D. replace (0 + 0 + 2 * N * du) with (2 * N * du) in D by ring.
  assert (ND : N * du <= N * / 8000000000000000) by nra. assert (ND0 : 0 <= N * du) by nra. 
  pose proof (ap_mul (2 * N * du) 0 N 1 (2 * N) _ _ _ _ D Aa Q1 ltac:(rewrite Rabs_pos_eq; lra) NM ltac:(lra)) as V.
  assert (V' : ap (5 * (N * du)) (fmul (fsub u z) alpha) ((x - y) * a)) by (eapply ap_weak; [exact V|]; lra). clear V.
  assert (Q2 : Rabs ((x - y) * a) <= N) by (rewrite Rabs_mult, (Rabs_pos_eq a) by lra; pose proof (Rabs_pos (x - y)); nra).
  assert (CV : Rabs ((1 - a) * y + a * x) <= N). { eapply Rle_trans; [apply Rabs_triang|]. rewrite 2!Rabs_mult, (Rabs_pos_eq a), (Rabs_pos_eq (1 - a)) by lra. unfold N. pose proof (Rabs_pos x). pose proof (Rabs_pos y). nra. }
  assert (O : ap (7 * (N * du)) (fadd (fmul (fsub u z) alpha) z) ((1 - a) * y + a * x)).
  { eapply ap_eq; [eapply ap_weak; [apply (ap_add _ 0 (2 * N) _ _ _ _ V' Az NM)|]|]; [| |ring]. - replace ((x - y) * a + y) with ((1 - a) * y + a * x) by ring. lra. - lra. }
  assert (CV2 : Rabs ((1 - 2 * a) * y + 2 * a * x) <= 2 * N).
  { eapply Rle_trans; [apply Rabs_triang|]. rewrite 3!Rabs_mult, (Rabs_pos_eq a), (Rabs_pos_eq 2) by lra. assert (Rabs (1 - 2 * a) <= 1) by (apply Rabs_le; lra). unfold N in *. pose proof (Rabs_pos x). pose proof (Rabs_pos y). pose proof (Rabs_pos (1 - 2 * a)).
    assert (Rabs (1 - 2 * a) * Rabs y <= 1 * Z) by (apply Rmult_le_compat; lra). assert (a * Rabs x <= 1 * U) by (apply Rmult_le_compat; lra). lra. }
  assert (NM4 : mid64 (4 * N)).
  { split; [apply Rle_trans with (bpow radix2 0); [apply bpow_le; lia|change (bpow radix2 0) with 1; unfold N; lra]|]. apply Rle_trans with (bpow radix2 40); [bp; lra|apply bpow_le; lia]. }
  assert (DE : 16 * (N * du) <= N * eE). { unfold eE. replace (16 * (N * du)) with (N * (16 * du)) by ring. apply Rmult_le_compat_l; [lra|]. unfold du. change (bpow radix2 (-53)) with (/ 9007199254740992). change (bpow radix2 (-48)) with (/ 281474976710656). lra. }
  split; [eapply ap_weak; [exact O|lra]|].
  eapply ap_eq; [eapply ap_weak; [apply (ap_add _ _ (4 * N) _ _ _ _ V' O NM4)|]|]; [| |ring].
  - replace ((x - y) * a + ((1 - a) * y + a * x)) with ((1 - 2 * a) * y + 2 * a * x) by ring. lra.
  - lra.
Qed.
(** [fits a b U Z V]: with a coefficient from [a] to [b], inputs up to U keep a memory of at most Z there, and outputs stay up to V. *)
Definition fits (a b U Z V : R) : Prop := 1 <= U /\ 1 <= Z /\ U + Z <= 1000000000 /\
  forall t, a <= t <= b -> Rabs (1 - 2 * t) * Z + 2 * t * U + (U + Z) * eE <= Z /\ (1 - t) * Z + t * U + (U + Z) * eE <= V.
Lemma stage_fits a b alpha q s U Z V : fits a b U Z V -> 0 <= a -> b <= 1 -> fin alpha -> a <= B2R alpha <= b -> beta_ok (ob_beta q) -> bd Z (ob_z q) -> bd U s ->
  let (q', o) := ob_stage alpha q s in beta_ok (ob_beta q') /\ ob_beta q' = ob_beta q /\ bd Z (ob_z q') /\ bd V o.
Proof.
  intros (H1 & H2 & H3 & H4) A0 B1 Fa Ba Hb Hz Hs. pose proof (stage_R alpha q s U Z Fa ltac:(lra) Hb Hz Hs H1 H2 H3) as T. cbv zeta in T. destruct (ob_stage alpha q s) as [q' o]. destruct T as (Eb & O & Z').
  rewrite Eb. split; [exact Hb|]. split; [reflexivity|]. destruct (H4 _ Ba) as [P Q]. set (t := B2R alpha) in *. destruct Hz as [_ Bz]. destruct Hs as [_ Bs].
  split; (split; [first [apply Z'|apply O]|]).
  - pose proof (ap_abs _ _ _ Z') as T. eapply Rle_trans; [exact T|]. eapply Rle_trans; [|exact P]. apply Rplus_le_compat_r. eapply Rle_trans; [apply Rabs_triang|]. rewrite 3!Rabs_mult, (Rabs_pos_eq t), (Rabs_pos_eq 2) by lra.
    apply Rplus_le_compat; apply Rmult_le_compat_l; try lra; apply Rabs_pos.
  - pose proof (ap_abs _ _ _ O) as T. eapply Rle_trans; [exact T|]. eapply Rle_trans; [|exact Q]. apply Rplus_le_compat_r. eapply Rle_trans; [apply Rabs_triang|]. rewrite 2!Rabs_mult, (Rabs_pos_eq t), (Rabs_pos_eq (1 - t)) by lra.
    apply Rplus_le_compat; apply Rmult_le_compat_l; lra.
Qed.
(** ** The drive into the first stage is never a NaN *)
Lemma inf_sub (s : bool) (y : f64) : fin y -> fsub (B754_infinity s) y = B754_infinity s.
Proof. intros F. destruct y as [t|t| |t m e H]; try discriminate F; reflexivity. Qed.
Lemma inf_mul (s : bool) (y : f64) : fin y -> 0 < B2R y -> fmul (B754_infinity s) y = B754_infinity s.
Proof.
  intros F P. destruct y as [t|t| |t m e H]; try discriminate F; [cbn in P; lra|]. assert (E : t = false). { destruct t; [|reflexivity]. exfalso. cbn in P. assert (F2R (Float radix2 (Zneg m) e) < 0) by (apply F2R_lt_0; reflexivity). lra. }
  subst t. destruct s; reflexivity.
Qed.
Lemma drive_ok L s x Z0 Z1 Z2 Z3 B : dtanh_unit L -> ob_fb s -> is_nan x = false -> bd Z0 (ob_feedback (ob_0 s)) -> bd Z1 (ob_feedback (ob_1 s)) -> bd Z2 (ob_feedback (ob_2 s)) -> bd Z3 (ob_feedback (ob_3 s)) ->
  Z0 <= B -> Z1 <= B -> Z2 <= B -> Z3 <= B -> B <= bpow radix2 30 ->
  let sigma := fadd (fadd (fadd (ob_feedback (ob_0 s)) (ob_feedback (ob_1 s))) (ob_feedback (ob_2 s))) (ob_feedback (ob_3 s)) in
  bd 1 (d_tanh L (fmul (dz 1) (fmul (fsub (fmul (f2d x) (fadd (dz 1) (ob_K s))) (fmul (ob_K s) sigma)) (ob_alpha0 s)))).
Proof.
  intros HL [[FK BK] [Fa Ba]] N H0 H1 H2 H3 L0 L1 L2 L3 LB sigma.
  assert (T : forall y : f64, is_nan y = false -> bd 1 (d_tanh L y)). { intros y Ny. destruct (HL y Ny) as [F Bt]. split; [exact F|]. apply Rabs_le. lra. }
  apply T. clear T HL.
  assert (W : forall Z q, bd Z q -> Z <= B -> bd (bpow radix2 30) q) by (intros Z q Hq Hl; eapply bd_weak; [exact Hq|lra]).
  pose proof (bd_add _ _ (bpow radix2 31) _ _ (W _ _ H0 L0) (W _ _ H1 L1) ltac:(bp; lra) (dyp 31 ltac:(lia))) as S1.
  pose proof (bd_add _ _ (bpow radix2 32) _ _ S1 (W _ _ H2 L2) ltac:(bp; lra) (dyp 32 ltac:(lia))) as S2.
  pose proof (bd_add _ _ (bpow radix2 33) _ _ S2 (W _ _ H3 L3) ltac:(bp; lra) (dyp 33 ltac:(lia))) as S3. fold sigma in S3.
  assert (BK4 : bd 4 (ob_K s)) by (split; [exact FK|rewrite Rabs_pos_eq; lra]).
  pose proof (bd_mul _ _ (bpow radix2 35) _ _ BK4 S3 ltac:(bp; lra) (dyp 35 ltac:(lia))) as KS.
  fval (dz 1). assert (D8 : dy64 8) by (change 8 with (bpow radix2 3); apply dyp; lia).
  destruct (fadd_b 1 8 (dz 1) (ob_K s) dy1 D8 ltac:(ffin) FK ltac:(lra)) as (F1 & _ & B1).
  destruct (nan_cases x N) as [Fx|[sx ->]].
  - assert (X1 : bd (bpow radix2 131) (fmul (f2d x) (fadd (dz 1) (ob_K s)))). { apply (bd_mul (bpow radix2 128) 8); [apply bd_f2d_any, Fx|split; [exact F1|rewrite Rabs_pos_eq; lra]| |apply dyp; lia]. change 8 with (bpow radix2 3). rewrite <- bpow_plus. apply bpow_le. lia. }
    assert (X2 : bd (bpow radix2 132) (fsub (fmul (f2d x) (fadd (dz 1) (ob_K s))) (fmul (ob_K s) sigma))). { apply (bd_sub _ _ _ _ _ X1 KS); [|apply dyp; lia]. change 132%Z with (1 + 131)%Z. rewrite bpow_plus. change (bpow radix2 1) with 2. assert (bpow radix2 35 <= bpow radix2 131) by (apply bpow_le; lia). lra. }
    assert (A1 : bd 1 (ob_alpha0 s)) by (split; [exact Fa|rewrite Rabs_pos_eq; lra]).
    assert (X3 : bd (bpow radix2 132) (fmul (fsub (fmul (f2d x) (fadd (dz 1) (ob_K s))) (fmul (ob_K s) sigma)) (ob_alpha0 s))) by (apply (bd_mul _ _ _ _ _ X2 A1); [lra|apply dyp; lia]).
    apply fin_nan. apply done_mul, X3.
  - change (f2d (B754_infinity sx)) with (B754_infinity sx : f64). rewrite (inf_mul sx _ F1 ltac:(lra)), (inf_sub sx _ (proj1 KS)), (inf_mul sx _ Fa ltac:(lra)).
    destruct sx; reflexivity.
Qed.

(** ** The whole tick *)
Record levels := Lev { l_z0 : R; l_1 : R; l_z1 : R; l_2 : R; l_z2 : R; l_3 : R; l_z3 : R; l_4 : R }.
Definition lev_ok (a b : R) (l : levels) : Prop :=
  fits a b 1 (l_z0 l) (l_1 l) /\ fits a b (l_1 l) (l_z1 l) (l_2 l) /\ fits a b (l_2 l) (l_z2 l) (l_3 l) /\ fits a b (l_3 l) (l_z3 l) (l_4 l) /\ 0 <= a /\ b <= 1.
Definition ob_mem (l : levels) (s : ob) : Prop := bd (l_z0 l) (ob_z (ob_0 s)) /\ bd (l_z1 l) (ob_z (ob_1 s)) /\ bd (l_z2 l) (ob_z (ob_2 s)) /\ bd (l_z3 l) (ob_z (ob_3 s)).
Lemma tick_ok L a b l s x : dtanh_unit L -> lev_ok a b l -> ob_coef a b s -> ob_fb s -> ob_mem l s -> is_nan x = false ->
  exists o, bd (l_4 l) o /\ snd (ob_tick L s x) = d2f o /\ let s' := fst (ob_tick L s x) in ob_coef a b s' /\ ob_fb s' /\ ob_mem l s' /\ ob_sr s' = ob_sr s.
Proof.
  intros HL (L0 & L1 & L2 & L3 & A0 & B1) [C0 Cb0 Cb1 Cb2 Cb3 Cg] Hf (M0 & M1 & M2 & M3) N.
  assert (Z0 : l_z0 l <= 1000000000) by (destruct L0 as (? & ? & ? & _); lra). assert (Z1 : l_z1 l <= 1000000000) by (destruct L1 as (? & ? & ? & _); lra).
  assert (Z2 : l_z2 l <= 1000000000) by (destruct L2 as (? & ? & ? & _); lra). assert (Z3 : l_z3 l <= 1000000000) by (destruct L3 as (? & ? & ? & _); lra).
  pose proof (drive_ok L s x _ _ _ _ 1000000000 HL Hf N (feedback_ok _ _ Cb0 M0) (feedback_ok _ _ Cb1 M1) (feedback_ok _ _ Cb2 M2) (feedback_ok _ _ Cb3 M3) Z0 Z1 Z2 Z3 ltac:(bp; lra)) as D. cbv zeta in D.
  unfold ob_tick. cbv zeta. set (u := d_tanh L _) in *. clearbody u. destruct C0 as [Fa Ba].
  pose proof (stage_fits a b _ _ u _ _ _ L0 A0 B1 Fa Ba Cb0 M0 D) as S0. destruct (ob_stage (ob_alpha s) (ob_0 s) u) as [q0 o0]. destruct S0 as (K0 & E0 & N0 & O0).
  pose proof (stage_fits a b _ _ o0 _ _ _ L1 A0 B1 Fa Ba Cb1 M1 O0) as S1. destruct (ob_stage (ob_alpha s) (ob_1 s) o0) as [q1 o1]. destruct S1 as (K1 & E1 & N1 & O1).
  pose proof (stage_fits a b _ _ o1 _ _ _ L2 A0 B1 Fa Ba Cb2 M2 O1) as S2. destruct (ob_stage (ob_alpha s) (ob_2 s) o1) as [q2 o2]. destruct S2 as (K2 & E2 & N2 & O2).
  pose proof (stage_fits a b _ _ o2 _ _ _ L3 A0 B1 Fa Ba Cb3 M3 O2) as S3. destruct (ob_stage (ob_alpha s) (ob_3 s) o2) as [q3 o3]. destruct S3 as (K3 & E3 & N3 & O3).
  destruct (zero_mul u (proj1 D)) as [F0 R0]. destruct (zero_mul o0 (proj1 O0)) as [F1 R1]. destruct (zero_mul o1 (proj1 O1)) as [F2 R2]. destruct (zero_mul o2 (proj1 O2)) as [F3 R3]. destruct (done_mul o3 (proj1 O3)) as [F4 R4].
  destruct (add_zero _ _ F0 F1 R1) as [G1 Q1]. destruct (add_zero _ _ G1 F2 R2) as [G2 Q2]. destruct (add_zero _ _ G2 F3 R3) as [G3 Q3].
  eexists. split; [|split; [reflexivity|]].
  - rewrite dadd_comm. assert (ZZ : B2R (fadd (fadd (fadd (fmul fzero u) (fmul fzero o0)) (fmul fzero o1)) (fmul fzero o2)) = 0) by (rewrite Q3, Q2, Q1; exact R0).
    destruct (add_zero _ _ F4 G3 ZZ) as [F5 R5]. split; [exact F5|]. rewrite R5, R4. apply O3.
  - cbn [fst]. repeat split; cbn [ob_alpha ob_0 ob_1 ob_2 ob_3 ob_beta ob_gamma ob_K ob_alpha0 ob_z]; try assumption; try (rewrite ?E0, ?E1, ?E2, ?E3; assumption); try tauto; try apply Hf; try apply Cg; try apply K0; try apply K1; try apply K2; try apply K3; try apply N0; try apply N1; try apply N2; try apply N3.
Qed.
(** d2f of a number that exceeds 1 by less than 2^-25 is at most 1. *)
Definition one_up : f64 := fadd (dz 1) (fdiv (dz 1) (fofZ 33554432)).
Lemma d2f_unit (x : f64) : bd (1 + / 33554432) x -> fin (d2f x) /\ -1 <= B2R (d2f x) <= 1.
Proof.
  intros [F B]. apply Rabs_le_inv in B. assert (D : @dy 24 128 2) by (apply dy_IZR; lia). destruct (d2f_b (-2) 2 x F (dy_opp _ D) D ltac:(lra)) as (G & E & _). split; [exact G|]. rewrite E.
  assert (U : @rnd 24 128 (1 + / 33554432) = 1).
  { fval one_up. assert (Fo : fin one_up) by ffin. replace (1 + / 33554432) with (B2R one_up) by lra. destruct (d2f_b (-2) 2 one_up Fo (dy_opp _ D) D ltac:(lra)) as (_ & E1 & _). rewrite <- E1. fval (d2f one_up). lra. }
  split.
  - assert (O : @rnd 24 128 (- (1 + / 33554432)) = - @rnd 24 128 (1 + / 33554432)) by apply round_NE_opp. rewrite U in O. change (-1) with (- (1)). rewrite <- O. apply rnd_le. lra.
  - rewrite <- U. apply rnd_le. lra.
Qed.
Lemma d2f_le k (x : f64) : (0 <= k <= 100)%Z -> bd (bpow radix2 k) x -> fin (d2f x) /\ Rabs (B2R (d2f x)) <= bpow radix2 k.
Proof.
  intros K [F B]. assert (D : @dy 24 128 (bpow radix2 k)) by (apply dy_bpow; cbn; lia). apply Rabs_le_inv in B. destruct (d2f_b _ _ x F (dy_opp _ D) D B) as (G & _ & C). split; [exact G|]. now apply Rabs_le.
Qed.

(** ** The three sets of levels *)
Definition dl (n : R) : R := n * / 1073741824.
Definition lev_low : levels := Lev (1 + dl 1) (1 + dl 2) (1 + dl 3) (1 + dl 4) (1 + dl 5) (1 + dl 6) (1 + dl 7) (1 + dl 8).
Definition hi1 : R := / 2 * (1 + 18 * rv).
Lemma fits_low n : 0 <= n <= 10 -> fits alo hi1 (1 + dl n) (1 + dl (n + 1)) (1 + dl (n + 2)).
Proof.
  intros H. unfold fits, dl, alo, hi1, rv, eE. change (bpow radix2 (-48)) with (/ 281474976710656). split; [lra|]. split; [lra|]. split; [lra|]. intros t Ht.
  set (U := 1 + n * / 1073741824). set (Z := 1 + (n + 1) * / 1073741824). assert (EZ : Z = U + / 1073741824) by (unfold Z, U; lra). assert (BU : 1 <= U <= 1 + / 1000000) by (unfold U; lra).
  replace (1 + (n + 2) * / 1073741824) with (U + 2 * / 1073741824) by (unfold U; lra). clearbody Z U. subst Z. split; [|nra].
  destruct (Rle_dec t (/ 2)) as [G|G].
  - rewrite Rabs_pos_eq by lra. assert (2 * t * / 1073741824 >= 2 * (118 / 10000000) * / 1073741824) by nra. nra.
  - rewrite Rabs_left1 by lra. nra.
Qed.
Lemma lev_low_ok : lev_ok alo hi1 lev_low.
Proof.
  unfold lev_ok, lev_low. cbn [l_z0 l_1 l_z1 l_2 l_z2 l_3 l_z3 l_4].
  pose proof (fits_low 0 ltac:(lra)) as A. pose proof (fits_low 2 ltac:(lra)) as B. pose proof (fits_low 4 ltac:(lra)) as C. pose proof (fits_low 6 ltac:(lra)) as D.
  replace (1 + dl 0) with 1 in A by (unfold dl; lra). replace (0 + 1) with 1 in A by lra. replace (0 + 2) with 2 in A by lra. replace (2 + 1) with 3 in B by lra. replace (2 + 2) with 4 in B by lra.
  replace (4 + 1) with 5 in C by lra. replace (4 + 2) with 6 in C by lra. replace (6 + 1) with 7 in D by lra. replace (6 + 2) with 8 in D by lra.
  split; [exact A|]. split; [exact B|]. split; [exact C|]. split; [exact D|]. unfold alo, hi1, rv. lra.
Qed.
Definition hi32 : R := 33 / 34.
Definition lev_mod : levels := Lev 34 35 (34 * 35) (35 * 35) (34 * (35 * 35)) (35 * 35 * 35) (34 * (35 * 35 * 35)) (35 * 35 * 35 * 35).
Lemma fits_mod U : 1 <= U <= 100000 -> fits alo hi32 U (34 * U) (35 * U).
Proof.
  intros H. unfold fits, alo, hi32, eE. change (bpow radix2 (-48)) with (/ 281474976710656). split; [lra|]. split; [lra|]. split; [lra|]. intros t Ht. split; [|nra].
  destruct (Rle_dec t (/ 2)) as [G|G]; [rewrite Rabs_pos_eq by lra|rewrite Rabs_left1 by lra]; nra.
Qed.
Lemma lev_mod_ok : lev_ok alo hi32 lev_mod.
Proof.
  unfold lev_ok, lev_mod. cbn [l_z0 l_1 l_z1 l_2 l_z2 l_3 l_z3 l_4].
  pose proof (fits_mod 1 ltac:(lra)) as A. pose proof (fits_mod 35 ltac:(lra)) as B. pose proof (fits_mod (35 * 35) ltac:(lra)) as C. pose proof (fits_mod (35 * 35 * 35) ltac:(lra)) as D.
  replace (34 * 1) with 34 in A by lra. replace (35 * 1) with 35 in A by lra. replace (35 * (35 * 35)) with (35 * 35 * 35) in C by lra. replace (35 * (35 * 35 * 35)) with (35 * 35 * 35 * 35) in D by lra.
  split; [exact A|]. split; [exact B|]. split; [exact C|]. split; [exact D|]. unfold alo, hi32. lra.
Qed.
(** A fixed coefficient: the memory reaches max(1, a/(1-a)) times the input, the output less than twice it. *)
Definition zf (a : R) : R := Rmax 1 (a / (1 - a)) + / 1048576.
Definition lev_fix (a : R) : levels := Lev (zf a) 2 (2 * zf a) 4 (4 * zf a) 8 (8 * zf a) 16.
Lemma fits_fix a U : alo <= a <= hi32 -> 1 <= U <= 8 -> fits a a U (U * zf a) (2 * U).
Proof.
  intros Ha HU. unfold alo, hi32 in Ha. set (z := zf a). assert (J : 0 < / (1 - a) <= 34). { split; [apply Rinv_0_lt_compat; lra|]. replace 34 with (/ (/ 34)) by field. apply Rinv_le_contravar; lra. }
  assert (Z1 : 1 + / 1048576 <= z) by (unfold z, zf; pose proof (Rmax_l 1 (a / (1 - a))); lra). assert (Z2 : a / (1 - a) + / 1048576 <= z) by (unfold z, zf; pose proof (Rmax_r 1 (a / (1 - a))); lra).
  assert (Z3 : z <= 35). { unfold z, zf. assert (Rmax 1 (a / (1 - a)) <= 34); [|lra]. apply Rmax_lub; [lra|]. unfold Rdiv. nra. }
  assert (Z4 : (1 - a) * z <= Rmax (1 - a) a + / 1048576). { unfold z, zf. rewrite Rmult_plus_distr_l. apply Rplus_le_compat; [|lra]. unfold Rmax at 1. destruct (Rle_dec 1 (a / (1 - a))) as [_|_].
    - replace ((1 - a) * (a / (1 - a))) with a by (field; lra). apply Rmax_r.
    - rewrite Rmult_1_r. apply Rmax_l. }
  assert (Z5 : a + (1 - a) * / 1048576 <= (1 - a) * z). { apply Rle_trans with ((1 - a) * (a / (1 - a) + / 1048576)); [|apply Rmult_le_compat_l; lra]. right. field. lra. }
  assert (Z6 : Rmax (1 - a) a <= 33 / 34 + (1 - a)) by (apply Rmax_lub; lra).
  assert (Z7 : a + Rmax (1 - a) a <= 66 / 34). { unfold Rmax. destruct (Rle_dec (1 - a) a); lra. }
  clearbody z. unfold fits, eE. change (bpow radix2 (-48)) with (/ 281474976710656). split; [lra|]. split; [nra|]. split; [nra|]. intros t Ht. assert (Et : t = a) by lra. subst t. clear Ht.
  split.
  - apply Rle_trans with (U * (Rabs (1 - 2 * a) * z + 2 * a + (1 + z) * / 281474976710656)); [right; ring|]. apply Rmult_le_compat_l; [lra|].
    destruct (Rle_dec a (/ 2)) as [G|G]; [rewrite Rabs_pos_eq by lra|rewrite Rabs_left1 by lra]; nra.
  - apply Rle_trans with (U * ((1 - a) * z + a + (1 + z) * / 281474976710656)); [right; ring|]. rewrite (Rmult_comm 2 U). apply Rmult_le_compat_l; [lra|]. lra.
Qed.
Lemma lev_fix_ok a : alo <= a <= hi32 -> lev_ok a a (lev_fix a).
Proof.
  intros H. unfold lev_ok, lev_fix. cbn [l_z0 l_1 l_z1 l_2 l_z2 l_3 l_z3 l_4].
  pose proof (fits_fix a 1 H ltac:(lra)) as A. pose proof (fits_fix a 2 H ltac:(lra)) as B. pose proof (fits_fix a 4 H ltac:(lra)) as C. pose proof (fits_fix a 8 H ltac:(lra)) as D.
  rewrite Rmult_1_l in A. rewrite Rmult_1_r in A. replace (2 * 2) with 4 in B by lra. replace (2 * 4) with 8 in C by lra. replace (2 * 8) with 16 in D by lra.
  unfold alo, hi32 in H. split; [exact A|]. split; [exact B|]. split; [exact C|]. split; [exact D|]. lra.
Qed.

(** ** Histories *)
Lemma coef_weak a b b' s : ob_coef a b s -> b <= b' -> ob_coef a b' s.
Proof. intros [[F B] C0 C1 C2 C3 C4] H. constructor; auto. split; [exact F|lra]. Qed.
Lemma cut_weak q q' sr c : fin sr -> 0 <= B2R sr -> q <= q' -> mg_cut q sr c -> mg_cut q' sr c.
Proof. intros F P H [Fc B]. split; [exact Fc|]. nra. Qed.
Lemma cut_low L s c : dtan_acc L -> mg_rate (ob_sr s) -> mg_cut (2499 / 10000) (ob_sr s) c -> ob_fb s -> let s' := ob_setCutoff L s c in ob_coef alo hi1 s' /\ ob_fb s'.
Proof.
  intros HL Hs Hc Hf s'. assert (Hc' := cut_weak (2499 / 10000) (475 / 1000) (ob_sr s) c (proj1 Hs) ltac:(destruct Hs; lra) ltac:(lra) Hc).
  replace hi1 with (1 / (1 + 1) * (1 + 18 * rv)) by (unfold hi1; field). apply setCutoff_ok; auto; [|lra]. intros w Hw _. rewrite <- tan_PI4. pose proof PI_bounds as P. pose proof rv_pos as U.
  assert (Q : B2R c / B2R (ob_sr s) <= 2499 / 10000). { destruct Hs as [_ Hs]. destruct Hc as [_ Hc]. apply Rmult_le_reg_r with (B2R (ob_sr s)); [lra|]. unfold Rdiv at 1. rewrite Rmult_assoc, Rinv_l by lra. lra. }
  assert (W : w <= PI / 4). { eapply Rle_trans; [apply Hw|]. apply Rle_trans with (pi32 * (2499 / 10000) * (1 + 4 * rv)); [apply Rmult_le_compat_r; [lra|]; apply Rmult_le_compat_l; unfold pi32; lra|]. unfold pi32, rv. lra. } apply tan_incr_1; lra.
Qed.
Lemma cut_mod L s c : dtan_acc L -> mg_rate (ob_sr s) -> mg_cut (475 / 1000) (ob_sr s) c -> ob_fb s -> let s' := ob_setCutoff L s c in ob_coef alo hi32 s' /\ ob_fb s'.
Proof.
  intros HL Hs Hc Hf s'. destruct (setCutoff_ok L s c 32 HL Hs Hc Hf) as [A B]; [|lra|]. - intros w Hw Hw2. apply tan_range. lra. - split; [|exact B]. eapply coef_weak; [exact A|]. unfold hi32, rv. lra.
Qed.
Lemma stage_beta al q u : ob_beta (fst (ob_stage al q u)) = ob_beta q. Proof. reflexivity. Qed.
Lemma tick_coef L a b s x : ob_coef a b s -> ob_fb s -> let s' := fst (ob_tick L s x) in ob_coef a b s' /\ ob_fb s' /\ ob_sr s' = ob_sr s.
Proof.
  intros [A0 A1 A2 A3 A4 A5] [B0 B1]. unfold ob_tick. cbv zeta.
  set (u := d_tanh L _). pose proof (stage_beta (ob_alpha s) (ob_0 s) u) as E0. destruct (ob_stage (ob_alpha s) (ob_0 s) u) as [q0 o0]. pose proof (stage_beta (ob_alpha s) (ob_1 s) o0) as E1. destruct (ob_stage (ob_alpha s) (ob_1 s) o0) as [q1 o1].
  pose proof (stage_beta (ob_alpha s) (ob_2 s) o1) as E2. destruct (ob_stage (ob_alpha s) (ob_2 s) o1) as [q2 o2]. pose proof (stage_beta (ob_alpha s) (ob_3 s) o2) as E3. destruct (ob_stage (ob_alpha s) (ob_3 s) o2) as [q3 o3].
  cbn [fst] in *. split; [|split; [constructor; assumption|reflexivity]]. constructor; cbn [ob_alpha ob_0 ob_1 ob_2 ob_3 ob_beta ob_gamma]; rewrite ?E0, ?E1, ?E2, ?E3; assumption.
Qed.
Section Hist.
  Variables (L : libm) (sr : f32) (q a b : R) (l : levels).
  Hypothesis Htan : dtanh_unit L.
  Hypothesis Hl : lev_ok a b l.
  (** What a cutoff change admitted by the history does. *)
  Variable ok : ob_op -> Prop.
  Hypothesis Hok : forall o, ok o -> ob_sane q sr o.
  Hypothesis Hcut : forall c, ok (ObCut c) -> forall s, ob_sr s = sr -> ob_coef a b s -> ob_fb s -> ob_coef a b (ob_setCutoff L s c) /\ ob_fb (ob_setCutoff L s c).
  Definition hinv (s : ob) : Prop := ob_sr s = sr /\ ob_coef a b s /\ ob_fb s.
  Definition hmem (s : ob) : Prop := hinv s /\ ob_mem l s.
  Lemma bd_zero Z : 0 <= Z -> bd Z fzero. Proof. intros H. split; [reflexivity|]. change (B2R (fzero : f64)) with 0. now rewrite Rabs_R0. Qed.
  Lemma reset_mem s : hinv s -> hmem (ob_reset s).
  Proof.
    intros (A & [C0 C1 C2 C3 C4 C5] & [F0 F1]). destruct Hl as ((_ & Z0 & _) & (_ & Z1 & _) & (_ & Z2 & _) & (_ & Z3 & _) & _). split; [split; [exact A|split; constructor; assumption]|].
    split; [|split; [|split]]; apply bd_zero; lra.
  Qed.
  Lemma call_inv s o : hinv s -> ok o -> hinv (fst (ob_call L s o)).
  Proof.
    intros (A & C & F) K. pose proof (Hok o K) as G. destruct o as [c|r|x|]; cbn [ob_call].
    - destruct (Hcut c K s A C F). split; [exact A|split; assumption].
    - destruct (setRes_ok a b s r G C). split; [exact A|split; assumption].
    - pose proof (tick_coef L a b s x C F) as T. destruct (ob_tick L s x) as [s' y]. cbn [fst] in *. destruct T as (T1 & T2 & T3). split; [congruence|split; assumption].
    - apply reset_mem. split; [exact A|split; assumption].
  Qed.
  Lemma call_mem s o : hmem s -> ok o -> (forall x, o = ObTick x -> is_nan x = false) -> hmem (fst (ob_call L s o)) /\ forall y, snd (ob_call L s o) = Some y -> exists v, bd (l_4 l) v /\ y = d2f v.
  Proof.
    intros [I M] K NX. pose proof (call_inv s o I K) as I'. destruct o as [c|r|x|]; cbn [ob_call fst snd] in *.
    - split; [split; [exact I'|exact M]|discriminate].
    - split; [split; [exact I'|exact M]|discriminate].
    - destruct I as (A & C & F). destruct (tick_ok L a b l s x Htan Hl C F M (NX x eq_refl)) as (o & B & E & _ & _ & M' & _). destruct (ob_tick L s x) as [s' y]. cbn [fst snd] in *. split; [split; [exact I'|exact M']|].
      intros v Hv. injection Hv as <-. exists o. auto.
    - split; [apply reset_mem, I|discriminate].
  Qed.
  Lemma run_hinv os s : hinv s -> Forall ok os -> hinv (fst (mg_run (ob_call L) s os)).
  Proof. intros H K. apply (run_inv (ob_call L) hinv ok (fun _ => True)); auto. intros s' o' H' K'. split; [now apply call_inv|trivial]. Qed.
  Lemma run_mem os s : hmem s -> Forall (fun o => ok o /\ forall x, o = ObTick x -> is_nan x = false) os -> Forall (fun y => exists v, bd (l_4 l) v /\ y = d2f v) (snd (mg_run (ob_call L) s os)).
  Proof. intros H K. apply (run_inv (ob_call L) hmem (fun o => ok o /\ forall x, o = ObTick x -> is_nan x = false)); auto. intros s' o' H' [K1 K2]. now apply call_mem. Qed.
End Hist.
Lemma init_low L sr : dtan_acc L -> mg_rate sr -> 8000 <= B2R sr -> hinv sr alo hi1 (ob_init L sr).
Proof.
  intros HL Hs H8. unfold ob_init. cbv zeta. set (s0 := Ob sr fzero fzero _ _ _ _ _ _ _ _). assert (F0 : ob_fb s0) by (constructor; cbn [s0 ob_K ob_alpha0]; [split; [reflexivity|change (B2R (fzero : f64)) with 0; lra]|split; [ffin|fval (dz 1); lra]]).
  assert (C0 : mg_cut (2499 / 10000) (ob_sr s0) (fofZ 1000)). { cbn [s0 ob_sr]. fval (fofZ 1000 : f32). split; [ffin|]. set (k := fofZ 1000 : f32) in *. lra. }
  destruct (cut_low L s0 _ HL Hs C0 F0) as [A B]. destruct (setRes_ok _ _ _ (fdec 1 10) ltac:(ffin) A) as [A' B']. split; [reflexivity|split; assumption].
Qed.
Lemma init_mod L sr : dtan_acc L -> mg_rate sr -> hinv sr alo hi32 (ob_init L sr).
Proof.
  intros HL Hs. unfold ob_init. cbv zeta. set (s0 := Ob sr fzero fzero _ _ _ _ _ _ _ _). assert (F0 : ob_fb s0) by (constructor; cbn [s0 ob_K ob_alpha0]; [split; [reflexivity|change (B2R (fzero : f64)) with 0; lra]|split; [ffin|fval (dz 1); lra]]).
  assert (C0 : mg_cut (475 / 1000) (ob_sr s0) (fofZ 1000)). { cbn [s0 ob_sr]. fval (fofZ 1000 : f32). destruct Hs as [Fs Bs]. split; [ffin|]. set (k := fofZ 1000 : f32) in *. lra. }
  destruct (cut_mod L s0 _ HL Hs C0 F0) as [A B]. destruct (setRes_ok _ _ _ (fdec 1 10) ltac:(ffin) A) as [A' B']. split; [reflexivity|split; assumption].
Qed.
Lemma good_sane q sr o : ob_good q sr o -> ob_sane q sr o. Proof. destruct o; cbn; auto. Qed.
Lemma good_both q sr os : Forall (ob_good q sr) os -> Forall (fun o => ob_sane q sr o /\ forall x, o = ObTick x -> is_nan x = false) os.
Proof. apply Forall_impl. intros o H. split; [now apply good_sane|]. intros x ->. exact H. Qed.
Lemma init_zero L sr a b l : hinv sr a b (ob_init L sr) -> lev_ok a b l -> hmem sr a b l (ob_init L sr).
Proof. intros H K. split; [exact H|]. destruct K as ((_ & Z0 & _) & (_ & Z1 & _) & (_ & Z2 & _) & (_ & Z3 & _) & _). split; [|split; [|split]]; apply bd_zero; lra. Qed.
Lemma cut_low_sr L sr c s : dtan_acc L -> mg_rate sr -> mg_cut (2499 / 10000) sr c -> ob_sr s = sr -> ob_fb s -> ob_coef alo hi1 (ob_setCutoff L s c) /\ ob_fb (ob_setCutoff L s c).
Proof. intros HL Hs Hc <- F. now apply cut_low. Qed.
Lemma cut_mod_sr L sr c s : dtan_acc L -> mg_rate sr -> mg_cut (475 / 1000) sr c -> ob_sr s = sr -> ob_fb s -> ob_coef alo hi32 (ob_setCutoff L s c) /\ ob_fb (ob_setCutoff L s c).
Proof. intros HL Hs Hc <- F. now apply cut_mod. Qed.
(** Anything, then a reset, then good calls. *)
Lemma ob_low L sr pre os : dtanh_unit L -> dtan_acc L -> mg_rate sr -> 8000 <= B2R sr -> Forall (ob_sane (2499 / 10000) sr) pre -> Forall (ob_good (2499 / 10000) sr) os ->
  let s := fst (mg_run (ob_call L) (ob_init L sr) pre) in Forall (fun y => fin y /\ -1 <= B2R y <= 1) (snd (mg_run (ob_call L) (ob_reset s) os)).
Proof.
  intros H1 H2 Hs H8 Kp Ko s. assert (I : hinv sr alo hi1 s).
  { apply (run_hinv L sr (2499 / 10000) alo hi1 lev_low lev_low_ok (ob_sane (2499 / 10000) sr)); auto; [|now apply init_low]. intros c K t E _ F. now apply (cut_low_sr L sr). }
  assert (M := reset_mem sr alo hi1 lev_low lev_low_ok s I).
  pose proof (run_mem L sr (2499 / 10000) alo hi1 lev_low H1 lev_low_ok (ob_sane (2499 / 10000) sr) ltac:(auto) ltac:(intros c K t E _ F; now apply (cut_low_sr L sr)) os _ M (good_both _ _ _ Ko)) as T.
  eapply Forall_impl; [|exact T]. intros y (v & B & ->). apply d2f_unit. eapply bd_weak; [exact B|]. cbn [lev_low l_4]. unfold dl. lra.
Qed.
Lemma ob_mod L sr pre os : dtanh_unit L -> dtan_acc L -> mg_rate sr -> Forall (ob_sane (475 / 1000) sr) pre -> Forall (ob_good (475 / 1000) sr) os ->
  let s := fst (mg_run (ob_call L) (ob_init L sr) pre) in Forall (fun y => fin y /\ Rabs (B2R y) <= bpow radix2 21) (snd (mg_run (ob_call L) (ob_reset s) os)).
Proof.
  intros H1 H2 Hs Kp Ko s. assert (I : hinv sr alo hi32 s).
  { apply (run_hinv L sr (475 / 1000) alo hi32 lev_mod lev_mod_ok (ob_sane (475 / 1000) sr)); auto; [|now apply init_mod]. intros c K t E _ F. now apply (cut_mod_sr L sr). }
  assert (M := reset_mem sr alo hi32 lev_mod lev_mod_ok s I).
  pose proof (run_mem L sr (475 / 1000) alo hi32 lev_mod H1 lev_mod_ok (ob_sane (475 / 1000) sr) ltac:(auto) ltac:(intros c K t E _ F; now apply (cut_mod_sr L sr)) os _ M (good_both _ _ _ Ko)) as T.
  eapply Forall_impl; [|exact T]. intros y (v & B & ->). apply d2f_le; [lia|]. eapply bd_weak; [exact B|]. cbn [lev_mod l_4]. bp. lra.
Qed.
Lemma ob_fixed L sr pre c os : dtanh_unit L -> dtan_acc L -> mg_rate sr -> Forall (ob_sane (475 / 1000) sr) pre -> mg_cut (475 / 1000) sr c -> Forall (fun o => ob_good (475 / 1000) sr o /\ ob_no_cut o) os ->
  let s := fst (mg_run (ob_call L) (ob_init L sr) (pre ++ [ObCut c])) in Forall (fun y => fin y /\ Rabs (B2R y) <= 16) (snd (mg_run (ob_call L) (ob_reset s) os)).
Proof.
  intros H1 H2 Hs Kp Kc Ko s. assert (I : hinv sr alo hi32 s).
  { apply (run_hinv L sr (475 / 1000) alo hi32 lev_mod lev_mod_ok (ob_sane (475 / 1000) sr)); auto; [|now apply init_mod|]. - intros c' K t E _ F. now apply (cut_mod_sr L sr). - apply Forall_app. split; [exact Kp|]. constructor; [exact Kc|constructor]. }
  clearbody s. destruct I as (Es & C & F). set (a := B2R (ob_alpha s)). assert (Ha : alo <= a <= hi32) by apply C.
  assert (I : hinv sr a a s). { split; [exact Es|]. split; [|exact F]. destruct C as [[A0 A0'] ? ? ? ? ?]. constructor; auto. split; [exact A0|unfold a; lra]. }
  assert (M := reset_mem sr a a (lev_fix a) (lev_fix_ok a Ha) s I).
  pose proof (run_mem L sr (475 / 1000) a a (lev_fix a) H1 (lev_fix_ok a Ha) (fun o => ob_sane (475 / 1000) sr o /\ ob_no_cut o) ltac:(intros o Ho; apply Ho) ltac:(intros c' [_ K]; destruct K) os _ M) as T.
  assert (K' : Forall (fun o => (ob_sane (475 / 1000) sr o /\ ob_no_cut o) /\ forall x, o = ObTick x -> is_nan x = false) os).
  { eapply Forall_impl; [|exact Ko]. intros o [G N]. split; [split; [now apply good_sane|exact N]|]. intros x ->. exact G. }
  eapply Forall_impl; [|exact (T K')]. intros y (v & B & ->). change 16 with (bpow radix2 4). apply d2f_le; [lia|]. exact B.
Qed.
(** The first ticks after [init] are those after [init] and a reset. *)
Lemma init_reset L sr : ob_reset (ob_init L sr) = ob_init L sr. Proof. reflexivity. Qed.

(** ** NaN *)
Definition dead (s : ob) : Prop := is_nan (ob_z (ob_0 s)) = true.
Lemma stage_dead al q u : is_nan u = true -> is_nan (ob_z (fst (ob_stage al q u))) = true /\ is_nan (snd (ob_stage al q u)) = true.
Proof.
  intros N. unfold ob_stage. cbv zeta. cbn [fst snd ob_z]. assert (V : is_nan (fmul (fsub (fmul (dz 1) (fadd (fadd (fmul u (dz 1)) fzero) (fmul fzero (ob_feedback q)))) (ob_z q)) al) = true) by (apply dmul_l, dsub_l, dmul_r, dadd_l, dadd_l, dmul_l, N).
  split; apply dadd_l, V.
Qed.
Lemma tick_dead L s x : dtanh_nan L -> dead s \/ is_nan x = true -> dead (fst (ob_tick L s x)) /\ is_nan (snd (ob_tick L s x)) = true.
Proof.
  intros HL H. unfold ob_tick. cbv zeta. set (u := d_tanh L _). assert (U : is_nan u = true).
  { apply HL, dmul_r, dmul_l. destruct H as [H|H]; [|apply dsub_l, dmul_l, f2d_nan, H]. apply dsub_r, dmul_r, dadd_l, dadd_l, dadd_l. unfold ob_feedback. apply dmul_r, dadd_l, H. }
  clearbody u. destruct (stage_dead (ob_alpha s) (ob_0 s) u U) as [Z0 O0]. destruct (ob_stage (ob_alpha s) (ob_0 s) u) as [q0 o0]. cbn [fst snd] in *.
  destruct (stage_dead (ob_alpha s) (ob_1 s) o0 O0) as [_ O1]. destruct (ob_stage (ob_alpha s) (ob_1 s) o0) as [q1 o1]. cbn [fst snd] in *.
  destruct (stage_dead (ob_alpha s) (ob_2 s) o1 O1) as [_ O2]. destruct (ob_stage (ob_alpha s) (ob_2 s) o1) as [q2 o2]. cbn [fst snd] in *.
  destruct (stage_dead (ob_alpha s) (ob_3 s) o2 O2) as [_ O3]. destruct (ob_stage (ob_alpha s) (ob_3 s) o2) as [q3 o3]. cbn [fst snd] in *.
  split; [exact Z0|]. apply d2f_nan, dadd_r, dmul_r, O3.
Qed.
Lemma ob_nan L s x os : dtanh_nan L -> is_nan x = true -> Forall ob_no_reset os -> Forall (fun y => is_nan y = true) (snd (mg_run (ob_call L) s (ObTick x :: os))).
Proof.
  intros HL N K. pose proof (tick_dead L s x HL (or_intror N)) as T. cbn [mg_run ob_call]. destruct (ob_tick L s x) as [s' y]. cbn [fst snd] in T. destruct T as [D Y].
  assert (R : Forall (fun y => is_nan y = true) (snd (mg_run (ob_call L) s' os))).
  { apply (run_inv (ob_call L) dead ob_no_reset (fun y => is_nan y = true)); auto. intros t o Dt Ko. destruct o as [c|r|z|]; cbn [ob_call]; [split; [exact Dt|discriminate]|split; [exact Dt|discriminate]| |destruct Ko].
    pose proof (tick_dead L t z HL (or_introl Dt)) as Q. destruct (ob_tick L t z) as [t' v]. cbn [fst snd] in *. split; [apply Q|]. intros w Hw. injection Hw as <-. apply Q. }
  destruct (mg_run (ob_call L) s' os) as [t ys]. cbn [snd] in *. now constructor.
Qed.
