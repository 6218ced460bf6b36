(** Microtracker ladder: the bound. *)
From Coq Require Import ZArith Reals Lra Lia Bool Psatz List.
From Flocq Require Import Core BinarySingleNaN Mult_error.
From Verif Require Import Flt FltFacts FltMore FltKey FltArith Libm UtilModel UtilProofs Dbl DblRel LpProofs MgModel MgSpec MgBase ImProofs MtModel MtProofs LaSpec.
Import ListNotations.
Local Open Scope R_scope.

Lemma frac_neg d c : 0 <= c <= 1 -> d <= 0 -> d <= d * c <= 0. Proof. intros. split; nra. Qed.
Lemma frac_pos d c : 0 <= c <= 1 -> 0 <= d -> 0 <= d * c <= d. Proof. intros. split; nra. Qed.
Section Level.
  Context (j : Z) (Hj : (0 <= j <= 60)%Z).
  Let X : R := bpow radix2 j.
  Lemma PX : 1 <= X <= bpow radix2 60.
  Proof. unfold X. split; [change 1 with (bpow radix2 0)|]; apply bpow_le; lia. Qed.
  Lemma dyX n k : (Z.abs n < 2 ^ 53)%Z -> (-900 <= k <= 100)%Z -> dy64 (IZR n * bpow radix2 k * X).
  Proof.
    intros N K. unfold X. rewrite Rmult_assoc, <- bpow_plus. split; [apply dy_F2R; [exact N|cbn; lia]|]. rewrite Rabs_mult. apply Rle_lt_trans with (bpow radix2 53 * bpow radix2 160).
    - apply Rmult_le_compat; try apply Rabs_pos.
      + rewrite <- abs_IZR. change (bpow radix2 53) with (IZR (2 ^ 53)). apply IZR_le. lia.
      + rewrite Rabs_pos_eq by apply bpow_ge_0. apply bpow_le. lia.
    - rewrite <- bpow_plus. apply bpow_lt. lia.
  Qed.
  Definition lev (a : Z) : R := IZR a * bpow radix2 (-7) * X.
  Lemma dlev a : (0 <= a <= 4000)%Z -> dy64 (lev a). Proof. intros H. apply dyX; lia. Qed.
  Lemma small (x : R) : Rabs x <= 28 * X -> te x <= / 1000000000000 * X /\ Rabs x <= bpow radix2 70.
  Proof.
    intros H. pose proof PX as P. unfold te. change (bpow radix2 (-48)) with (/ 281474976710656). split; [lra|]. eapply Rle_trans; [exact H|]. replace (bpow radix2 70) with (1024 * bpow radix2 60) by (change 1024 with (bpow radix2 10); rewrite <- bpow_plus; reflexivity). lra.
  Qed.
  (** One pole: it never passes the level just above that of its input. *)
  Lemma stage_ok (a : Z) (c x p : f64) : (3328 <= a <= 3400)%Z -> fin c -> 0 <= B2R c <= 1 -> bd (lev a) x -> bd (lev (a + 1)) p -> bd (lev (a + 1)) (mt_stage c x p).
  Proof.
    intros Ha Fc Bc [Fx Bx] [Fp Bp]. pose proof PX as PX1. unfold lev in *. rewrite plus_IZR in *. change (bpow radix2 (-7)) with (/ 128) in *. assert (A : 3328 <= IZR a <= 3400) by (split; apply IZR_le; lia).
    set (m := IZR a * / 128 * X) in *. assert (Em : (IZR a + 1) * / 128 * X = m + / 128 * X) by (unfold m; ring). rewrite Em in *. assert (Bm : 26 * X <= m <= 27 * X) by (unfold m; split; nra).
    assert (DM : dy64 (m + / 128 * X)). { rewrite <- Em. pose proof (dlev (a + 1) ltac:(lia)) as D. unfold lev in D. rewrite plus_IZR in D. exact D. }
    clearbody m. clear Em. destruct (small (B2R x) ltac:(lra)) as [S1 S2]. destruct (small (B2R p) ltac:(lra)) as [S3 S4].
    destruct (tanh_acc x Fx S2) as [Fx' Ex]. destruct (tanh_acc p Fp S4) as [Fp' Ep]. apply Rabs_le_inv in Bx, Bp, Ex, Ep. unfold mt_stage.
    pose proof (tf_abs (B2R x)) as TA. pose proof (tf_abs (B2R p)) as TB. assert (Rabs (B2R x) <= 28 * X) by (apply Rabs_le; lra). assert (Rabs (B2R p) <= 28 * X) by (apply Rabs_le; lra). assert (TA' : Rabs (tf (B2R x)) <= 28 * X) by lra. assert (TB' : Rabs (tf (B2R p)) <= 28 * X) by lra. apply Rabs_le_inv in TA', TB'. clear TA TB.
    set (tx := mt_tanh x) in *. set (tp := mt_tanh p) in *. clearbody tx tp.
    assert (D64 : dy64 (64 * X)) by (replace (64 * X) with (64 * bpow radix2 0 * X) by (change (bpow radix2 0) with 1; ring); apply dyX; lia). assert (D128 : dy64 (128 * X)) by (replace (128 * X) with (128 * bpow radix2 0 * X) by (change (bpow radix2 0) with 1; ring); apply dyX; lia). assert (D0 : dy64 0) by apply dy_0.
    destruct (fsub_b (- (64 * X)) (64 * X) tx tp (dy_opp _ D64) D64 Fx' Fp' ltac:(lra)) as (Fd & Ed & Bd).
    assert (Q : Rabs (B2R (fsub tx tp) - (B2R tx - B2R tp)) <= / 1000000000000 * X).
    { rewrite Ed. eapply Rle_trans; [apply (rnd_rel (prec:=53) (emax:=1024))|]. change (bpow radix2 (- (53))) with (/ 9007199254740992). assert (Rabs (B2R tx - B2R tp) <= 64 * X) by (apply Rabs_le; lra). assert (bpow radix2 (SpecFloat.emin 53 1024 - 1) <= / 1048576 * / 1048576 * / 1048576) by (change (/ 1048576) with (bpow radix2 (-20)); rewrite <- !bpow_plus; apply bpow_le; cbn; lia). lra. }
    apply Rabs_le_inv in Q.
    assert (SG1 : B2R tx <= B2R tp -> B2R (fsub tx tp) <= 0) by (intros K; destruct (fsub_b (- (64 * X)) 0 tx tp (dy_opp _ D64) D0 Fx' Fp' ltac:(lra)) as (_ & _ & B); lra).
    assert (SG2 : B2R tp <= B2R tx -> 0 <= B2R (fsub tx tp)) by (intros K; destruct (fsub_b 0 (64 * X) tx tp D0 D64 Fx' Fp' ltac:(lra)) as (_ & _ & B); lra).
    set (d := fsub tx tp) in *. clearbody d. clear Ed. pose proof (dy_B2R d) as DD.
    assert (MB : fin (fmul d c) /\ (B2R d <= 0 -> B2R d <= B2R (fmul d c) <= 0) /\ (0 <= B2R d -> 0 <= B2R (fmul d c) <= B2R d)).
    { split; [|split].
      - destruct (Rle_lt_dec (B2R d) 0) as [K|K]; [pose proof (frac_neg _ _ Bc K) as Y|pose proof (frac_pos _ _ Bc (Rlt_le _ _ K)) as Y]; destruct (fmul_b (- (64 * X)) (64 * X) d c (dy_opp _ D64) D64 Fd Fc ltac:(lra)) as (F & _); exact F.
      - intros K. destruct (fmul_b (B2R d) 0 d c DD D0 Fd Fc (frac_neg _ _ Bc K)) as (_ & _ & B). exact B.
      - intros K. destruct (fmul_b 0 (B2R d) d c D0 DD Fd Fc (frac_pos _ _ Bc K)) as (_ & _ & B). exact B. }
    destruct MB as (Fq & M1 & M2). set (q := fmul d c) in *. clearbody q.
    assert (Bq : - (64 * X) <= B2R q <= 64 * X) by (destruct (Rle_lt_dec (B2R d) 0) as [K|K]; [specialize (M1 K)|specialize (M2 (Rlt_le _ _ K))]; lra).
    destruct (fadd_b (- (128 * X)) (128 * X) p q (dy_opp _ D128) D128 Fp Fq ltac:(lra)) as (Fr & _ & _).
    assert (UP : B2R (fadd p q) <= m + / 128 * X).
    { assert (G : B2R p + B2R q <= m + / 128 * X).
      { destruct (Rle_lt_dec (B2R d) 0) as [K|K]; [specialize (M1 K); lra|]. specialize (M2 (Rlt_le _ _ K)).
        destruct (Rle_lt_dec (m + / 256 * X) (B2R p)) as [H1|H1].
        - exfalso. pose proof (tf_far m (B2R p) ltac:(lra) ltac:(lra)) as T. pose proof (tf_mono (B2R x) m ltac:(lra)) as T2. assert (B2R tx <= B2R tp) by lra. specialize (SG1 ltac:(lra)). lra.
        - assert (W : B2R p + tf (B2R x) - tf (B2R p) <= m + / 256 * X).
          { destruct (Rle_lt_dec (B2R p) (B2R x)) as [H2|H2]; [pose proof (tf_gap _ _ H2); lra|pose proof (tf_mono (B2R x) (B2R p) ltac:(lra)); lra]. }
          lra. }
      destruct (fadd_b (- (128 * X)) (m + / 128 * X) p q (dy_opp _ D128) DM Fp Fq ltac:(lra)) as (_ & _ & B). lra. }
    assert (DN : - (m + / 128 * X) <= B2R (fadd p q)).
    { assert (G : - (m + / 128 * X) <= B2R p + B2R q).
      { destruct (Rle_lt_dec 0 (B2R d)) as [K|K]; [specialize (M2 K); lra|]. specialize (M1 (Rlt_le _ _ K)).
        destruct (Rle_lt_dec (B2R p) (- (m + / 256 * X))) as [H1|H1].
        - exfalso. pose proof (tf_far m (- B2R p) ltac:(lra) ltac:(lra)) as T. pose proof (tf_mono (- m) (B2R x) ltac:(lra)) as T2. rewrite tf_opp in T, T2. assert (B2R tp <= B2R tx) by lra. specialize (SG2 ltac:(lra)). lra.
        - assert (W : - (m + / 256 * X) <= B2R p + tf (B2R x) - tf (B2R p)).
          { destruct (Rle_lt_dec (B2R x) (B2R p)) as [H2|H2]; [pose proof (tf_gap _ _ H2); lra|pose proof (tf_mono (B2R p) (B2R x) ltac:(lra)); lra]. }
          lra. }
      destruct (fadd_b (- (m + / 128 * X)) (128 * X) p q (dy_opp _ DM) D128 Fp Fq ltac:(lra)) as (_ & _ & B). lra. }
    split; [exact Fr|apply Rabs_le; lra].
  Qed.

  Record mt_inv (sr : f32) (s : mt) : Prop := {
    mv_sr : mt_sr s = sr;
    mv_c : fin (mt_c s) /\ 0 <= B2R (mt_c s) <= 1;
    mv_res : fin (mt_res s) /\ 0 <= B2R (mt_res s) <= 24 / 100;
    mv_0 : bd (lev 3329) (mt_p0 s); mv_1 : bd (lev 3330) (mt_p1 s); mv_2 : bd (lev 3331) (mt_p2 s);
    mv_3 : bd (lev 3332) (mt_p3 s); mv_32 : bd (lev 3332) (mt_p32 s); mv_33 : bd (lev 3332) (mt_p33 s); mv_34 : bd (lev 3332) (mt_p34 s) }.
  Definition lv (a : Z) (k : Z) : R := IZR a * bpow radix2 k * X.
  Lemma mix_ok sr s : mt_inv sr s -> bd (lv (131083 * 3332) (-24)) (mt_mix s).
  Proof.
    intros [_ _ _ _ _ _ H3 H32 H33 H34]. pose proof PX as P. unfold mt_mix.
    assert (W : forall k n (x : f64), (0 <= n < 2 ^ 20)%Z -> bd (IZR n * bpow radix2 (-17)) k -> bd (lev 3332) x -> bd (lv (n * 3332) (-24)) (fmul x k)).
    { intros k n x Hn Hk Hx. eapply bd_mul; [exact Hx|exact Hk| |apply dyX; lia]. unfold lev, lv. rewrite mult_IZR. replace (bpow radix2 (-24)) with (bpow radix2 (-7) * bpow radix2 (-17)) by (rewrite <- bpow_plus; reflexivity). right. ring. }
    assert (A : forall x y a b, (0 <= a < 2 ^ 40)%Z -> (0 <= b < 2 ^ 40)%Z -> bd (lv a (-24)) x -> bd (lv b (-24)) y -> bd (lv (a + b) (-24)) (fadd x y)).
    { intros x y a b Ha Hb Hx Hy. eapply bd_add; [exact Hx|exact Hy| |apply dyX; lia]. unfold lv. rewrite plus_IZR. right. ring. }
    replace (131083 * 3332)%Z with (47303 * 3332 + 54696 * 3332 + 23318 * 3332 + 5766 * 3332)%Z by reflexivity.
    apply A; [lia|lia| |apply W; [lia| |exact H34]]; [apply A; [lia|lia| |apply W; [lia| |exact H33]]; [apply A; [lia|lia| |apply W; [lia| |exact H32]]; [apply W; [lia| |exact H3]|]|]|]; change (bpow radix2 (-17)) with (/ 131072).
    - bdc (ddec 360891 1000000).
    - bdc (ddec 417290 1000000).
    - bdc (ddec 177896 1000000).
    - bdc (ddec 439725 10000000).
  Qed.
  Lemma k_R (r : f32) : fin r -> 0 <= B2R r <= 24 / 100 -> bd (24 / 25) (f2d (fmul r (fofZ 4))).
  Proof.
    intros F B. assert (V : B2R (fofZ 4 : f32) = 4) by (fval (fofZ 4 : f32); lra). assert (E : rnd (prec:=24) (emax:=128) (B2R r * 4) = B2R r * 4).
    { apply rnd_fmt. change 4 with (bpow radix2 2). apply mult_bpow_pos_exact_FLT; [apply fmt_B2R|lia]. }
    destruct (fmul_ok r (fofZ 4) F ltac:(ffin)) as [Fm Em]. { rewrite V, E, Rabs_pos_eq by lra. apply Rle_lt_trans with (bpow radix2 0); [change (bpow radix2 0) with 1; lra|apply bpow_lt; lia]. } rewrite V, E in Em.
    apply bd_f2d; [exact Fm|]. rewrite Em, Rabs_pos_eq; lra.
  Qed.
  Lemma mt_tick_ok sr s x : mt_inv sr s -> fin x -> Rabs (B2R x) <= X -> mt_inv sr (fst (mt_tick s x)) /\ fin (snd (mt_tick s x)) /\ Rabs (B2R (snd (mt_tick s x))) <= 27 * X.
  Proof.
    intros I Fx Bx. pose proof PX as P. pose proof (mix_ok sr s I) as MX. destruct I as [E [Fc Bc] [Fr Br] H0 H1 H2 H3 H32 H33 H34]. unfold mt_tick. cbv zeta. cbn [fst snd]. set (out := mt_mix s) in *. clearbody out.
    assert (IN : bd (lev 3328) (fsub (f2d x) (fmul (f2d (fmul (mt_res s) (fofZ 4))) out))).
    { eapply bd_sub; [apply bd_f2d; [exact Fx|exact Bx]|eapply bd_mul; [apply k_R; [exact Fr|exact Br]|exact MX| |]| |apply dlev; lia].
      - instantiate (1 := lv 26212000 (-20)). unfold lv. change (bpow radix2 (-24)) with (/ 16777216). change (bpow radix2 (-20)) with (/ 1048576). change (131083 * 3332)%Z with 436768556%Z. lra.
      - apply dyX; lia.
      - unfold lv, lev. change (bpow radix2 (-20)) with (/ 1048576). change (bpow radix2 (-7)) with (/ 128). lra. }
    pose proof (stage_ok 3328 (mt_c s) _ (mt_p0 s) ltac:(lia) Fc Bc IN H0) as K0. pose proof (stage_ok 3329 (mt_c s) _ (mt_p1 s) ltac:(lia) Fc Bc K0 H1) as K1. pose proof (stage_ok 3330 (mt_c s) _ (mt_p2 s) ltac:(lia) Fc Bc K1 H2) as K2. pose proof (stage_ok 3331 (mt_c s) _ (mt_p3 s) ltac:(lia) Fc Bc K2 H3) as K3.
    split; [split; cbn [mt_sr mt_c mt_res mt_p0 mt_p1 mt_p2 mt_p3 mt_p32 mt_p33 mt_p34]; auto|].
    assert (O : bd (27 * X) out). { eapply bd_weak; [exact MX|]. unfold lv. change (bpow radix2 (-24)) with (/ 16777216). change (131083 * 3332)%Z with 436768556%Z. lra. } destruct O as [Fo Bo]. apply Rabs_le_inv in Bo.
    assert (D27 : dy32 (27 * X)). { unfold X. split; [apply dy_F2R; [lia|cbn; lia]|]. rewrite Rabs_mult, !Rabs_pos_eq by (try apply bpow_ge_0; lra). apply Rle_lt_trans with (bpow radix2 5 * bpow radix2 60); [|rewrite <- bpow_plus; apply bpow_lt; lia]. apply Rmult_le_compat; [lra|apply bpow_ge_0|change (bpow radix2 5) with 32; lra|apply bpow_le; lia]. }
    destruct (d2f_b (- (27 * X)) (27 * X) _ Fo (dy_opp _ D27) D27 Bo) as (F & _ & B). split; [exact F|]. now apply Rabs_le.
  Qed.
End Level.
Lemma coeff_unit sr c : mg_rate sr -> is_nan c = false -> flt c fzero = false -> fin (mt_coeff sr c) /\ 0 <= B2R (mt_coeff sr c) <= 1.
Proof.
  intros [Fs Hs] N P. destruct (f2d_R sr Fs) as [Sd Es]. assert (O : B2R (dz 1) = 1) by (fval (dz 1); lra). unfold mt_coeff. cbv zeta.
  destruct (nan_cases c N) as [F|[b ->]].
  - apply (proj1 (flt_R_false _ _ F (eq_refl : fin (fzero : f32)))) in P. change (B2R (fzero : f32)) with 0 in P. destruct (f2d_R c F) as [Fd Ed]. destruct (bd_f2d_any c F) as [_ B]. rewrite Ed in B. rewrite Rabs_pos_eq in B by exact P.
    assert (D0 : dy64 0) by apply dy_0. assert (V2 : B2R (dz 2) = 2) by (fval (dz 2); lra). assert (VP : 3 <= B2R dPI <= 4) by (fval dPI; lra).
    destruct (fmul_b 0 (bpow radix2 129) (f2d c) (dz 2) D0 ltac:(apply dyp; lia) Fd ltac:(ffin)) as (F1 & _ & B1). { rewrite Ed, V2. replace (bpow radix2 129) with (2 * bpow radix2 128) by (change 2 with (bpow radix2 1); rewrite <- bpow_plus; reflexivity). lra. } set (a := fmul (f2d c) (dz 2)) in *. clearbody a.
    destruct (fmul_b 0 (bpow radix2 131) a dPI D0 ltac:(apply dyp; lia) F1 ltac:(ffin)) as (F2 & _ & B2). { replace (bpow radix2 131) with (4 * bpow radix2 129) by (change 4 with (bpow radix2 2); rewrite <- bpow_plus; reflexivity). set (t := bpow radix2 129) in *. clearbody t. set (pi := B2R dPI) in *. clearbody pi. split; nra. } set (b := fmul a dPI) in *. clearbody b.
    destruct (fdiv_b 0 (bpow radix2 131) b (f2d sr) D0 ltac:(apply dyp; lia) F2 Sd ltac:(lra)) as (F3 & _ & B3). { rewrite Es. assert (I : 0 < / B2R sr <= 1) by (split; [apply Rinv_0_lt_compat; lra|rewrite <- Rinv_1; apply Rinv_le_contravar; lra]). unfold Rdiv. set (t := bpow radix2 131) in *. clearbody t. split; nra. }
    set (q := fdiv b (f2d sr)) in *. clearbody q. destruct (flt (dz 1) q) eqn:K; [split; [reflexivity|lra]|]. apply (proj1 (flt_R_false (dz 1) q (eq_refl : fin (dz 1)) F3)) in K. split; [exact F3|lra].
  - destruct b; [discriminate P|]. replace (flt (dz 1) (fdiv (fmul (fmul (f2d (B754_infinity false)) (dz 2)) dPI) (f2d sr))) with true; [split; [reflexivity|lra]|].
    replace (fmul (fmul (f2d (B754_infinity false)) (dz 2)) dPI) with (B754_infinity false : f64) by (vm_compute; reflexivity). assert (P1 : 0 < B2R (f2d sr)) by lra. destruct (f2d sr) as [b| | |b m e]; try discriminate Sd; [cbn in P1; lra|]. destruct b; [exfalso; cbn in P1; apply Rlt_not_le in P1; apply P1; apply Float_prop.F2R_le_0; cbn; lia|]. reflexivity.
Qed.
Lemma mt_init_inv j sr : (0 <= j <= 60)%Z -> mg_rate sr -> mt_inv j sr (mt_init sr).
Proof.
  intros Hj Hr. pose proof (PX j Hj) as P. unfold mt_init, mt_setResonance, mt_setCutoff. cbn [mt_sr mt_c mt_res mt_p0 mt_p1 mt_p2 mt_p3 mt_p32 mt_p33 mt_p34 mt_cut].
  assert (Z : forall a, (0 <= a)%Z -> bd (lev j a) fzero). { intros a Ha. split; [reflexivity|]. change (B2R (fzero : f64)) with 0. rewrite Rabs_R0. unfold lev. apply Rmult_le_pos; [apply Rmult_le_pos; [apply IZR_le; lia|apply bpow_ge_0]|apply bpow_ge_0]. }
  split; cbn [mt_sr mt_c mt_res mt_p0 mt_p1 mt_p2 mt_p3 mt_p32 mt_p33 mt_p34]; try (apply Z; lia); [reflexivity|apply coeff_unit; [exact Hr|reflexivity|reflexivity]|].
  split; [ffin|]. fval (unit_clamp (fdec 1 10)). lra.
Qed.
Lemma mt_bounded j sr os : (0 <= j <= 60)%Z -> mg_rate sr -> Forall (mt_good (bpow radix2 j)) os -> Forall (fun y => fin y /\ Rabs (B2R y) <= 27 * bpow radix2 j) (snd (mg_run mt_call (mt_init sr) os)).
Proof.
  intros Hj Hr Ho. apply (run_inv mt_call (mt_inv j sr) (mt_good (bpow radix2 j)) (fun y => fin y /\ Rabs (B2R y) <= 27 * bpow radix2 j)); [|now apply mt_init_inv|exact Ho].
  intros s o I G. destruct o as [c|r|x|]; cbn [mt_call mt_good] in *.
  - split; [|intros v E; discriminate E]. destruct G as [N Q]. destruct I as [E C R H0 H1 H2 H3 H4 H5 H6]. unfold mt_setCutoff. rewrite E. split; cbn [fst mt_sr mt_c mt_res mt_p0 mt_p1 mt_p2 mt_p3 mt_p32 mt_p33 mt_p34]; try assumption; [reflexivity|]. now apply coeff_unit.
  - split; [|intros v E; discriminate E]. destruct G as [F B]. destruct I as [E C R H0 H1 H2 H3 H4 H5 H6]. split; cbn [fst mt_setResonance mt_sr mt_c mt_res mt_p0 mt_p1 mt_p2 mt_p3 mt_p32 mt_p33 mt_p34]; try assumption.
    destruct (unit_clamp_R r (fin_nan _ F)) as [Fu Bu]. split; [exact Fu|]. split; [lra|]. unfold unit_clamp. destruct (flt r fzero) eqn:A; [change (B2R (fzero : f32)) with 0; lra|]. rewrite (proj2 (flt_R_false one r one_fin F)) by (rewrite one_R; lra). exact B.
  - destruct G as [F B]. pose proof (mt_tick_ok j Hj sr s x I F B) as (A & Y). destruct (mt_tick s x) as [s' y]. cbn [fst snd] in *. split; [exact A|]. intros v E. injection E as <-. exact Y.
  - split; [|intros v E; discriminate E]. destruct I as [E C R H0 H1 H2 H3 H4 H5 H6]. assert (Z : forall a, (0 <= a)%Z -> bd (lev j a) fzero). { intros a Ha. split; [reflexivity|]. change (B2R (fzero : f64)) with 0. rewrite Rabs_R0. unfold lev. apply Rmult_le_pos; [apply Rmult_le_pos; [apply IZR_le; lia|apply bpow_ge_0]|apply bpow_ge_0]. }
    split; cbn [fst mt_reset mt_sr mt_c mt_res mt_p0 mt_p1 mt_p2 mt_p3 mt_p32 mt_p33 mt_p34]; try assumption; apply Z; lia.
Qed.
