(** Oberheim ladder with cutoffs below 1 Hz. *)
From Coq Require Import ZArith Reals Lra Lia Bool Psatz List.
From Flocq Require Import Core BinarySingleNaN.
From Verif Require Import Flt FltFacts FltMore FltKey FltArith Libm UtilModel UtilProofs Dbl DblRel RealBounds LpProofs2 MgModel MgSpec MgBase MgInst ObModel LdSpec ObProofs.
Import ListNotations.
Local Open Scope R_scope.

(** A cutoff from the share [lo] to the share [q] of the sample rate. *)
Definition cut_in (lo q : R) (sr c : f32) : Prop := fin c /\ lo * B2R sr <= B2R c <= q * B2R sr.
Lemma slow_w lo sr c : / 1000000000 <= lo -> mg_rate sr -> cut_in lo (475 / 1000) sr c -> let w := fdiv (fmul (fmul (fmul (dz 2) dPI) (f2d c)) (fdiv (dz 1) (f2d sr))) (dz 2) in
  rp 4 w (pi32 * (B2R c / B2R sr)) /\ lo <= B2R c / B2R sr <= 475 / 1000.
Proof.
  intros Hlo [Fs Hs] [Fc Hc] w. destruct (f2d_R c Fc) as [Fd Ed]. destruct (f2d_R sr Fs) as [Sd Es]. set (C := B2R c) in *. set (S := B2R sr) in *.
  assert (Q : lo <= C / S <= 475 / 1000). { split; apply Rmult_le_reg_r with S; try lra; unfold Rdiv; rewrite Rmult_assoc, Rinv_l by lra; lra. } split; [|exact Q].
  assert (I : / 262144 <= / S <= / 4000) by (split; apply Rinv_le_contravar; lra). assert (PC : / 1000000000 <= C) by nra.
  assert (A1 : rp 0 (fmul (dz 2) dPI) (2 * pi32)) by (apply rp_const; [ffin|fval (fmul (dz 2) dPI); unfold pi32; lra|apply rmid_in; unfold pi32; lra]).
  assert (A2 : rp 0 (f2d c) C) by (apply rp_const; [exact Fd|exact Ed|apply rmid_in; lra]).
  assert (A3 : rp 0 (f2d sr) S) by (apply rp_const; [exact Sd|exact Es|apply rmid_in; lra]).
  assert (A4 : rp 0 (dz 1) 1) by (apply rp_const; [ffin|fval (dz 1); lra|apply rmid_in; lra]).
  assert (A5 : rp 0 (dz 2) 2) by (apply rp_const; [ffin|fval (dz 2); lra|apply rmid_in; lra]).
  assert (A6 : rp 1 (fmul (fmul (dz 2) dPI) (f2d c)) (2 * pi32 * C)) by (apply (rp_mul 0 0 1 _ _ _ _ A1 A2); [apply rmid_in; unfold pi32; lra|lra]).
  assert (A7 : rp 1 (fdiv (dz 1) (f2d sr)) (1 / S)) by (apply (rp_div 0 0 1 _ _ _ _ A4 A3); [apply rmid_in; unfold Rdiv; lra|lra]).
  assert (E : 2 * pi32 * C * (1 / S) = 2 * pi32 * (C / S)) by (field; lra).
  assert (A8 : rp 3 (fmul (fmul (fmul (dz 2) dPI) (f2d c)) (fdiv (dz 1) (f2d sr))) (2 * pi32 * (C / S))). { rewrite <- E. apply (rp_mul 1 1 3 _ _ _ _ A6 A7); [rewrite E; apply rmid_in; unfold pi32; lra|lra]. }
  assert (E2 : 2 * pi32 * (C / S) / 2 = pi32 * (C / S)) by (field; lra). rewrite <- E2.
  apply (rp_div 3 0 4 _ _ _ _ A8 A5); [rewrite E2; apply rmid_in; unfold pi32; lra|lra].
Qed.
Lemma slow_g L lo sr c : / 1000000000 <= lo -> dtan_acc L -> mg_rate sr -> cut_in lo (475 / 1000) sr c ->
  exists w, pi32 * (B2R c / B2R sr) * (1 - 4 * rv) <= w <= pi32 * (B2R c / B2R sr) * (1 + 4 * rv) /\ 314 / 100 * lo <= w <= 3 / 2 /\ rp 8 (ob_g L sr c) (tan w) /\ w <= tan w <= 32.
Proof.
  intros Hlo HL Hs Hc. destruct (slow_w lo sr c Hlo Hs Hc) as [W Q]. cbv zeta in W. unfold ob_g. cbv zeta. set (T := fdiv (dz 1) (f2d sr)) in *.
  set (w := fdiv (fmul (fmul (fmul (dz 2) dPI) (f2d c)) T) (dz 2)) in *. exists (B2R w). pose proof (rp_R _ _ _ W) as WR. pose proof rv_pos as U.
  split; [exact WR|]. assert (WB : 314 / 100 * lo <= B2R w <= 3 / 2). { set (f := B2R c / B2R sr) in *. unfold pi32 in *. split; nra. } split; [exact WB|].
  destruct (tan_range (B2R w) ltac:(lra)) as [T1 T2]. split; [|split; assumption].
  destruct (HL w (rp_fin _ _ _ W)) as [Ft Et]. { split; [|lra]. apply Rle_trans with (bpow radix2 (-40)); [apply bpow_le; lia|bp; lra]. }
  destruct Hs as [Fs Hs]. destruct (f2d_R sr Fs) as [Sd Es]. set (S := B2R sr) in *. assert (I : / 262144 <= / S <= / 4000) by (split; apply Rinv_le_contravar; lra).
  assert (A3 : rp 0 (f2d sr) S) by (apply rp_const; [exact Sd|exact Es|apply rmid_in; lra]).
  assert (A4 : rp 0 (dz 1) 1) by (apply rp_const; [ffin|fval (dz 1); lra|apply rmid_in; lra]).
  assert (A5 : rp 0 (dz 2) 2) by (apply rp_const; [ffin|fval (dz 2); lra|apply rmid_in; lra]).
  assert (A7 : rp 1 T (1 / S)) by (apply (rp_div 0 0 1 _ _ _ _ A4 A3); [apply rmid_in; unfold Rdiv; lra|lra]).
  set (t := tan (B2R w)) in *. clearbody t.
  assert (At : rp 2 (d_tan L w) t). { split; [exact Ft|]. split; [apply rmid_in; lra|]. split; [lra|]. eapply Rle_trans; [exact Et|]. apply Rmult_le_compat_r; [lra|]. unfold rv. bp. lra. }
  assert (E1 : 2 / (1 / S) = 2 * S) by (field; lra).
  assert (B1 : rp 2 (fdiv (dz 2) T) (2 * S)). { rewrite <- E1. apply (rp_div 0 1 2 _ _ _ _ A5 A7); [rewrite E1; apply rmid_in; lra|lra]. }
  assert (B2 : rp 5 (fmul (fdiv (dz 2) T) (d_tan L w)) (2 * S * t)). { apply (rp_mul 2 2 5 _ _ _ _ B1 At); [apply rmid_in; nra|lra]. }
  assert (E2 : 2 * S * t * (1 / S) = 2 * t) by (field; lra).
  assert (B3 : rp 7 (fmul (fmul (fdiv (dz 2) T) (d_tan L w)) T) (2 * t)). { rewrite <- E2. apply (rp_mul 5 1 7 _ _ _ _ B2 A7); [rewrite E2; apply rmid_in; lra|lra]. }
  assert (E3 : 2 * t / 2 = t) by field. rewrite <- E3. apply (rp_div 7 0 8 _ _ _ _ B3 A5); [rewrite E3; apply rmid_in; lra|lra].
Qed.
Lemma slow_cutoff L lo s c hi : / 1000000000 <= lo <= / 1000 -> dtan_acc L -> mg_rate (ob_sr s) -> cut_in lo (475 / 1000) (ob_sr s) c -> ob_fb s ->
  (forall w, 0 < w <= pi32 * (B2R c / B2R (ob_sr s)) * (1 + 4 * rv) -> w <= 3 / 2 -> tan w <= hi) -> hi <= 32 ->
  let s' := ob_setCutoff L s c in ob_coef (3 * lo) (hi / (1 + hi) * (1 + 18 * rv)) s' /\ ob_fb s'.
Proof.
  intros Hlo HL Hs Hc HF HT Hh s'. destruct (slow_g L lo _ _ (proj1 Hlo) HL Hs Hc) as (w & W1 & W2 & G & T1 & T2). set (t := tan w) in *. assert (T3 : t <= hi) by (apply HT; lra). clearbody t. clear HT.
  assert (A4 : rp 0 (dz 1) 1) by (apply rp_const; [ffin|fval (dz 1); lra|apply rmid_in; lra]). pose proof rv_pos as U.
  assert (GR := rp_R _ _ _ G). set (g := ob_g L (ob_sr s) c) in *. assert (Fg := rp_fin _ _ _ G).
  assert (D : rp 9 (fadd (dz 1) g) (1 + t)) by (apply (rp_add 0 8 9 _ _ _ _ A4 G); [apply rmid_in; lra|lra|lra|lra]).
  assert (J : 0 < / (1 + t)) by (apply Rinv_0_lt_compat; lra). assert (JE : (1 + t) * / (1 + t) = 1) by (apply Rinv_r; lra).
  assert (LB : 31 / 10 * lo <= t / (1 + t)).
  { apply Rmult_le_reg_r with (1 + t); [lra|]. replace (t / (1 + t) * (1 + t)) with t by (field; lra).
    assert (31 / 10 * lo * t <= 31 / 10000 * t) by (apply Rmult_le_compat_r; lra). lra. }
  assert (UB : t / (1 + t) <= hi / (1 + hi)). { replace (t / (1 + t)) with (1 - / (1 + t)) by (field; lra). replace (hi / (1 + hi)) with (1 - / (1 + hi)) by (field; lra). assert (/ (1 + hi) <= / (1 + t)) by (apply Rinv_le_contravar; lra). lra. }
  assert (UB1 : t / (1 + t) <= 1) by (replace (t / (1 + t)) with (1 - / (1 + t)) by (field; lra); lra).
  assert (A : rp 18 (fdiv g (fadd (dz 1) g)) (t / (1 + t))) by (apply (rp_div 8 9 18 _ _ _ _ G D); [apply rmid_in; lra|lra]).
  assert (AR := rp_R _ _ _ A). assert (Fa := rp_fin _ _ _ A). assert (Fd := rp_fin _ _ _ D).
  assert (D1 : 1 <= B2R (fadd (dz 1) g)). { fval (dz 1). assert (D8 : dy64 64) by (change 64 with (bpow radix2 6); apply dyp; lia). destruct (fadd_b 1 64 (dz 1) g dy1 D8 ltac:(ffin) Fg) as (_ & _ & B); [|lra]. split; nra. }
  assert (Ga : beta_ok (fdiv g (fadd (dz 1) g))).
  { split; [exact Fa|]. fval (dz 1). assert (D8 : dy64 64) by (change 64 with (bpow radix2 6); apply dyp; lia).
    assert (GP : 0 <= B2R g <= 63) by nra. destruct (fadd_b (B2R g) 64 (dz 1) g (dy_B2R g) D8 ltac:(ffin) Fg ltac:(lra)) as (_ & _ & B).
    destruct (fdiv_b 0 1 g (fadd (dz 1) g) dy_0 dy1 Fg Fd ltac:(lra)) as (_ & _ & B'); [|exact B'].
    set (d := B2R (fadd (dz 1) g)) in *. split; [apply Rmult_le_pos; [lra|left; apply Rinv_0_lt_compat; lra]|]. apply Rmult_le_reg_r with d; [lra|]. unfold Rdiv. rewrite Rmult_assoc, Rinv_l by lra. lra. }
  set (G0 := fdiv g (fadd (dz 1) g)) in *. set (d := fadd (dz 1) g) in *.
  assert (BD : forall x, beta_ok x -> beta_ok (fdiv x d)). { intros x [Fx Bx]. destruct (bd_pos 0 1 0 1 x d dy_0 dy1 Fx Fd Bx D1 ltac:(lra) ltac:(lra) ltac:(lra)) as [F B]. now split. }
  assert (G2 := unit_mul _ _ Ga Ga). assert (G3 := unit_mul _ _ G2 Ga). assert (G4 := unit_mul _ _ G3 Ga).
  split.
  - constructor; cbn [s' ob_setCutoff ob_alpha ob_0 ob_1 ob_2 ob_3 ob_beta ob_gamma]; fold g; fold d; fold G0.
    + split; [exact Fa|]. split.
      * eapply Rle_trans; [|exact (proj1 AR)]. apply Rle_trans with (31 / 10 * lo * (1 - 18 * rv)); [unfold rv; lra|apply Rmult_le_compat_r; [unfold rv; lra|exact LB]].
      * eapply Rle_trans; [exact (proj2 AR)|]. apply Rmult_le_compat_r; lra.
    + apply BD, G3.
    + apply BD, G2.
    + apply BD, Ga.
    + apply BD. split; [ffin|fval (dz 1); lra].
    + exact G4.
  - destruct HF as [HK _]. constructor; cbn [s' ob_setCutoff ob_K ob_alpha0]; [exact HK|]. fold g. fold d. fold G0. apply alpha0_ok; [apply HK|apply HK|exact G4].
Qed.

(** ** Cutoffs from 2^-25 to 0.2499 sample rates: the ladder stays within 1 + 2^-21 *)
Definition crawl : R := / 33554432.
Definition slo : R := 3 * crawl.
Definition dsl (n : R) : R := n * / 16777216.
Definition lev_slow : levels := Lev (1 + dsl 1) (1 + dsl 2) (1 + dsl 3) (1 + dsl 4) (1 + dsl 5) (1 + dsl 6) (1 + dsl 7) (1 + dsl 8).
Lemma fits_slow n : 0 <= n <= 10 -> fits slo hi1 (1 + dsl n) (1 + dsl (n + 1)) (1 + dsl (n + 2)).
Proof.
  intros H. unfold fits, dsl, slo, crawl, hi1, rv, eE. change (bpow radix2 (-48)) with (/ 281474976710656). split; [lra|]. split; [lra|]. split; [lra|]. intros t Ht.
  set (U := 1 + n * / 16777216). set (Z := 1 + (n + 1) * / 16777216). assert (EZ : Z = U + / 16777216) by (unfold Z, U; lra). assert (BU : 1 <= U <= 1 + / 1000000) by (unfold U; lra).
  replace (1 + (n + 2) * / 16777216) with (U + 2 * / 16777216) by (unfold U; lra). clearbody Z U. subst Z. split; [|nra].
  destruct (Rle_dec t (/ 2)) as [G|G].
  - rewrite Rabs_pos_eq by lra. replace ((1 - 2 * t) * (U + / 16777216) + 2 * t * U) with (U + / 16777216 - 2 * / 16777216 * t) by ring. lra.
  - rewrite Rabs_left1 by lra. nra.
Qed.
Lemma lev_slow_ok : lev_ok slo hi1 lev_slow.
Proof.
  unfold lev_ok, lev_slow. cbn [l_z0 l_1 l_z1 l_2 l_z2 l_3 l_z3 l_4].
  pose proof (fits_slow 0 ltac:(lra)) as A. pose proof (fits_slow 2 ltac:(lra)) as B. pose proof (fits_slow 4 ltac:(lra)) as C. pose proof (fits_slow 6 ltac:(lra)) as D.
  replace (1 + dsl 0) with 1 in A by (unfold dsl; lra). replace (0 + 1) with 1 in A by lra. replace (0 + 2) with 2 in A by lra. replace (2 + 1) with 3 in B by lra. replace (2 + 2) with 4 in B by lra.
  replace (4 + 1) with 5 in C by lra. replace (4 + 2) with 6 in C by lra. replace (6 + 1) with 7 in D by lra. replace (6 + 2) with 8 in D by lra.
  split; [exact A|]. split; [exact B|]. split; [exact C|]. split; [exact D|]. unfold slo, crawl, hi1, rv. lra.
Qed.
Lemma cut_slow L s c : dtan_acc L -> mg_rate (ob_sr s) -> cut_in crawl (2499 / 10000) (ob_sr s) c -> ob_fb s -> let s' := ob_setCutoff L s c in ob_coef slo hi1 s' /\ ob_fb s'.
Proof.
  intros HL Hs Hc Hf s'. assert (Hc' : cut_in crawl (475 / 1000) (ob_sr s) c). { destruct Hs as [_ Hs]. destruct Hc as [F Hc]. split; [exact F|lra]. }
  replace hi1 with (1 / (1 + 1) * (1 + 18 * rv)) by (unfold hi1; field). unfold slo. apply slow_cutoff; auto; [unfold crawl; lra| |lra]. intros w Hw _. rewrite <- tan_PI4. pose proof PI_bounds as P. pose proof rv_pos as U.
  assert (Q : B2R c / B2R (ob_sr s) <= 2499 / 10000). { destruct Hs as [_ Hs]. destruct Hc as [_ Hc]. apply Rmult_le_reg_r with (B2R (ob_sr s)); [lra|]. unfold Rdiv at 1. rewrite Rmult_assoc, Rinv_l by lra. lra. }
  assert (W : w <= PI / 4). { eapply Rle_trans; [apply Hw|]. apply Rle_trans with (pi32 * (2499 / 10000) * (1 + 4 * rv)); [apply Rmult_le_compat_r; [lra|]; apply Rmult_le_compat_l; unfold pi32; lra|]. unfold pi32, rv. lra. } apply tan_incr_1; lra.
Qed.
Definition crawl_inv (sr : f32) (s : ob) : Prop := hmem sr slo hi1 lev_slow s.
Lemma crawl_init L sr : dtan_acc L -> mg_rate sr -> 8000 <= B2R sr -> crawl_inv sr (ob_init L sr).
Proof.
  intros HL Hs H8. apply init_zero; [|exact lev_slow_ok]. destruct (init_low L sr HL Hs H8) as (A & [C0 C1 C2 C3 C4 C5] & F). split; [exact A|]. split; [|exact F].
  constructor; auto. destruct C0 as [F0 B0]. split; [exact F0|]. unfold alo, slo, crawl in *. lra.
Qed.
Lemma crawl_set L sr s c : dtan_acc L -> mg_rate sr -> cut_in crawl (2499 / 10000) sr c -> crawl_inv sr s -> crawl_inv sr (ob_setCutoff L s c).
Proof. intros HL Hs Hc ((E & C & F) & M). rewrite <- E in Hs, Hc. destruct (cut_slow L s c HL Hs Hc F) as [C' F']. split; [split; [exact E|split; assumption]|exact M]. Qed.
Lemma crawl_res sr s r : is_nan r = false -> crawl_inv sr s -> crawl_inv sr (ob_setResonance s r).
Proof. intros N ((E & C & F) & M). destruct (setRes_ok slo hi1 s r N C) as [C' F']. split; [split; [exact E|split; assumption]|exact M]. Qed.
Lemma crawl_tick L sr s x : dtanh_unit L -> is_nan x = false -> crawl_inv sr s ->
  crawl_inv sr (fst (ob_tick L s x)) /\ fin (snd (ob_tick L s x)) /\ Rabs (B2R (snd (ob_tick L s x))) <= 1 + / 2097152.
Proof.
  intros HL N ((E & C & F) & M). destruct (tick_ok L slo hi1 lev_slow s x HL lev_slow_ok C F M N) as (o & B & Eo & C' & F' & M' & E'). cbv zeta in *.
  split; [split; [split; [congruence|split; assumption]|exact M']|]. rewrite Eo. cbn [lev_slow l_4] in B. unfold dsl in B.
  assert (D : @dy 24 128 (1 + / 2097152)). { replace (1 + / 2097152) with (B2R (flit 2097153 (-21) : f32)); [apply dy_B2R|]. fval (flit 2097153 (-21) : f32). lra. }
  destruct B as [Fo Bo]. apply Rabs_le_inv in Bo. destruct (d2f_b _ _ o Fo (dy_opp _ D) D ltac:(lra)) as (G & _ & Q). split; [exact G|]. now apply Rabs_le.
Qed.
(** Calls with cutoffs from 2^-25 to 0.2499 sample rates. *)
Definition ob_crawl (sr : f32) (o : ob_op) : Prop := match o with ObCut c => cut_in crawl (2499 / 10000) sr c | ObRes r => is_nan r = false | ObTick x => is_nan x = false | ObReset => True end.
Lemma crawl_run L sr os : dtanh_unit L -> dtan_acc L -> mg_rate sr -> 8000 <= B2R sr -> Forall (ob_crawl sr) os ->
  Forall (fun y => fin y /\ Rabs (B2R y) <= 1 + / 2097152) (snd (mg_run (ob_call L) (ob_init L sr) os)).
Proof.
  intros H1 H2 Hs H8 K. apply (run_inv (ob_call L) (crawl_inv sr) (ob_crawl sr)); auto; [|now apply crawl_init].
  intros s o I O. destruct o as [c|r|x|]; cbn [ob_call].
  - split; [now apply crawl_set|discriminate].
  - split; [now apply crawl_res|discriminate].
  - destruct (crawl_tick L sr s x H1 O I) as (A & B). destruct (ob_tick L s x) as [s' y]. cbn [fst snd] in *. split; [exact A|]. intros v E. injection E as <-. exact B.
  - split; [|discriminate]. apply reset_mem; [exact lev_slow_ok|apply I].
Qed.
