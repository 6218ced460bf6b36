(** Stilson ladder: the saturation, the table lookup, bounded outputs. *)
From Coq Require Import ZArith Reals Lra Lia Bool Psatz List.
From Flocq Require Import Core BinarySingleNaN.
From Verif Require Import Flt FltFacts FltMore FltKey FltArith Libm Res UtilModel UtilProofs Dbl LpProofs2 MgModel MgSpec MgBase StModel.
Import ListNotations.
Local Open Scope R_scope.

#[local] Instance vexp64 : Valid_exp (SpecFloat.fexp 53 1024).
Proof. apply fexp_correct. reflexivity. Qed.
#[local] Instance mono64 : Monotone_exp (SpecFloat.fexp 53 1024).
Proof. intros a b H. unfold SpecFloat.fexp, SpecFloat.emin. lia. Qed.
Notation fmt64 := (generic_format radix2 (SpecFloat.fexp 53 1024)).
Definition lev : f64 := ddec 95 100.
Lemma lev_R : 94 / 100 <= B2R lev <= 96 / 100. Proof. fval lev. lra. Qed.
Lemma lev_c : 19 / 20 - / 1000000 <= B2R lev <= 19 / 20 + / 1000000. Proof. fval lev. lra. Qed.

(** Far from zero, 0.95 is less than half the spacing of doubles. *)
Lemma far_eq x d : fmt64 x -> bpow radix2 53 < x -> Rabs d < 1 -> rnd64 (x + d) = x.
Proof.
  intros G X D. apply Rabs_def2 in D. assert (P : 0 < x) by (pose proof (bpow_gt_0 radix2 53); lra).
  assert (F53 : fmt64 (bpow radix2 53)) by (apply generic_format_bpow; unfold SpecFloat.fexp, SpecFloat.emin; lia).
  assert (U53 : ulp radix2 (SpecFloat.fexp 53 1024) (bpow radix2 53) = 2) by (rewrite ulp_bpow; reflexivity).
  apply Rle_antisym.
  - apply (round_N_le_midp radix2 (SpecFloat.fexp 53 1024) (fun n => negb (Z.even n))); [exact G|]. rewrite succ_eq_pos by lra.
    assert (2 <= ulp radix2 (SpecFloat.fexp 53 1024) x). { rewrite <- U53. apply ulp_le_pos; [exact vexp64|exact mono64|apply bpow_ge_0|lra]. }
    lra.
  - apply (round_N_ge_midp radix2 (SpecFloat.fexp 53 1024) (fun n => negb (Z.even n))); [exact G|].
    pose proof (pred_plus_ulp radix2 (SpecFloat.fexp 53 1024) x P G) as E.
    assert (Q : bpow radix2 53 <= pred radix2 (SpecFloat.fexp 53 1024) x) by (apply (pred_ge_gt radix2 (SpecFloat.fexp 53 1024) (bpow radix2 53) x F53 G X)).
    assert (2 <= ulp radix2 (SpecFloat.fexp 53 1024) (pred radix2 (SpecFloat.fexp 53 1024) x)). { rewrite <- U53. apply ulp_le_pos; [exact vexp64|exact mono64|apply bpow_ge_0|exact Q]. }
    lra.
Qed.
Lemma near_rnd x d : Rabs x <= bpow radix2 40 -> Rabs d <= 1 -> Rabs (rnd64 (x + d) - (x + d)) <= / 8192.
Proof.
  intros S D. eapply Rle_trans; [apply (rnd_err_le (prec := 53) (emax := 1024) 41); [cbn; lia|]|change (41 - 53 - 1)%Z with (-13)%Z; bp; lra].
  eapply Rle_trans; [apply Rabs_triang|]. revert S. bp. lra.
Qed.
(** A number from 2^40 up to 2^53 and its neighbours at distance 1. *)
Lemma pow_Z k : (0 <= k)%Z -> IZR (2 ^ k) = bpow radix2 k. Proof. intros H. rewrite <- (IZR_Zpower radix2 k H). reflexivity. Qed.
Lemma grid x : fmt64 x -> bpow radix2 40 <= x < bpow radix2 53 ->
  exists n e, x = IZR n * bpow radix2 e /\ (-13 <= e <= 0)%Z /\ (2 ^ 52 <= n < 2 ^ 53)%Z.
Proof.
  intros G B. assert (P : 0 < x) by (pose proof (bpow_gt_0 radix2 40); lra). set (e := cexp radix2 (SpecFloat.fexp 53 1024) x). set (n := Ztrunc (scaled_mantissa radix2 (SpecFloat.fexp 53 1024) x)).
  assert (E : x = IZR n * bpow radix2 e) by exact G. set (m := mag radix2 x : Z). assert (Hm : bpow radix2 (m - 1) <= x < bpow radix2 m). { pose proof (bpow_mag_le radix2 x ltac:(lra)) as A1. pose proof (bpow_mag_gt radix2 x) as A2. rewrite Rabs_pos_eq in A1, A2 by lra. auto. }
  assert (M1 : (40 < m)%Z) by (apply (lt_bpow radix2); lra). assert (M2 : (m - 1 < 53)%Z) by (apply (lt_bpow radix2); lra).
  assert (Ee : e = (m - 53)%Z). { unfold e, cexp. fold m. unfold SpecFloat.fexp, SpecFloat.emin. lia. }
  exists n, e. split; [exact E|]. split; [lia|].
  assert (T : bpow radix2 52 <= IZR n < bpow radix2 53). { pose proof (bpow_gt_0 radix2 e) as Pe. assert (A1 : bpow radix2 (m - 1) = bpow radix2 52 * bpow radix2 e) by (rewrite <- bpow_plus; f_equal; lia). assert (A2 : bpow radix2 m = bpow radix2 53 * bpow radix2 e) by (rewrite <- bpow_plus; f_equal; lia).
    rewrite E, A1, A2 in Hm. split; [apply Rmult_le_reg_r with (bpow radix2 e); lra|apply Rmult_lt_reg_r with (bpow radix2 e); lra]. }
  rewrite <- !pow_Z in T by lia. split; [apply le_IZR|apply lt_IZR]; lra.
Qed.
Lemma fmt_ne n e : (Z.abs n < 2 ^ 53)%Z -> (-100 <= e <= 100)%Z -> fmt64 (IZR n * bpow radix2 e).
Proof. intros H He. apply (dy_F2R (prec := 53) (emax := 1024)); cbn; lia. Qed.
Lemma up_gap x d : fmt64 x -> bpow radix2 40 <= x <= bpow radix2 53 -> 0 <= d < 1 -> rnd64 (x + d) <= x + 1.
Proof.
  intros G B D. destruct (Rle_lt_or_eq_dec _ _ (proj2 B)) as [L|L].
  2:{ apply Rle_trans with x; [|lra]. apply (round_N_le_midp radix2 (SpecFloat.fexp 53 1024) (fun n => negb (Z.even n))); [exact G|]. rewrite succ_eq_pos by (pose proof (bpow_gt_0 radix2 40); lra).
      assert (U : ulp radix2 (SpecFloat.fexp 53 1024) x = 2) by (rewrite L, ulp_bpow; reflexivity). rewrite U. lra. }
  destruct (grid x G (conj (proj1 B) L)) as (n & e & E & He & Hn). set (N := (n + 2 ^ (- e))%Z).
  assert (EN : x + 1 = IZR N * bpow radix2 e). { unfold N. rewrite plus_IZR, pow_Z by lia. rewrite Rmult_plus_distr_r, <- bpow_plus, E. replace (- e + e)%Z with 0%Z by ring. reflexivity. }
  assert (P1 : (0 < 2 ^ (- e) <= 2 ^ 13)%Z) by (split; [apply Z.pow_pos_nonneg; lia|apply Z.pow_le_mono_r; lia]).
  destruct (Z_lt_ge_dec N (2 ^ 53)) as [S|S].
  - assert (F : fmt64 (x + 1)) by (rewrite EN; apply fmt_ne; [unfold N in *; lia|lia]). rewrite <- (rnd_fmt (x + 1) F). apply rnd_le. lra.
  - destruct (Z.Even_or_Odd N) as [[k Hk]|[k Hk]].
    + assert (F : fmt64 (x + 1)). { rewrite EN, Hk, mult_IZR. replace (2 * IZR k * bpow radix2 e) with (IZR k * bpow radix2 (e + 1)) by (rewrite bpow_plus; change (bpow radix2 1) with 2; ring). apply fmt_ne; [unfold N in *; lia|lia]. }
      rewrite <- (rnd_fmt (x + 1) F). apply rnd_le. lra.
    + set (f := IZR k * bpow radix2 (e + 1)). assert (Ff : fmt64 f) by (apply fmt_ne; [unfold N in *; lia|lia]). assert (Pe : 0 < bpow radix2 e) by apply bpow_gt_0.
      assert (E1 : x + 1 = f + bpow radix2 e). { rewrite EN, Hk, plus_IZR, mult_IZR. unfold f. rewrite bpow_plus. change (bpow radix2 1) with 2. ring. }
      apply Rle_trans with f; [|lra]. apply (round_N_le_midp radix2 (SpecFloat.fexp 53 1024) (fun n => negb (Z.even n))); [exact Ff|].
      assert (P52 : bpow radix2 (53 + e) <= f). { unfold f. replace (53 + e)%Z with (52 + (e + 1))%Z by ring. rewrite bpow_plus. apply Rmult_le_compat_r; [apply bpow_ge_0|]. rewrite <- pow_Z by lia. apply IZR_le. unfold N in *. lia. }
      rewrite succ_eq_pos by (pose proof (bpow_gt_0 radix2 (53 + e)); lra).
      assert (U : 2 * bpow radix2 e <= ulp radix2 (SpecFloat.fexp 53 1024) f).
      { replace (2 * bpow radix2 e) with (ulp radix2 (SpecFloat.fexp 53 1024) (bpow radix2 (53 + e))). 2:{ rewrite ulp_bpow. replace (SpecFloat.fexp 53 1024 (53 + e + 1)) with (1 + e)%Z by (unfold SpecFloat.fexp, SpecFloat.emin; lia). rewrite bpow_plus. reflexivity. }
        apply ulp_le_pos; [exact vexp64|exact mono64|apply bpow_ge_0|exact P52]. }
      lra.
Qed.
Lemma down_gap x d : fmt64 x -> bpow radix2 40 <= x <= bpow radix2 53 -> 0 <= d < 1 -> x - 1 <= rnd64 (x - d).
Proof.
  intros G B D. destruct (Rle_lt_or_eq_dec _ _ (proj2 B)) as [L|L].
  2:{ assert (F : fmt64 (x - 1)). { rewrite L. replace (bpow radix2 53 - 1) with (IZR (2 ^ 53 - 1) * bpow radix2 0) by (rewrite minus_IZR, pow_Z by lia; change (bpow radix2 0) with 1; ring). apply fmt_ne; lia. }
      rewrite <- (rnd_fmt (x - 1) F). apply rnd_le. lra. }
  destruct (grid x G (conj (proj1 B) L)) as (n & e & E & He & Hn). set (N := (n - 2 ^ (- e))%Z).
  assert (EN : x - 1 = IZR N * bpow radix2 e). { unfold N. rewrite minus_IZR, pow_Z by lia. rewrite Rmult_minus_distr_r, <- bpow_plus, E. replace (- e + e)%Z with 0%Z by ring. reflexivity. }
  assert (P1 : (0 < 2 ^ (- e) <= 2 ^ 13)%Z) by (split; [apply Z.pow_pos_nonneg; lia|apply Z.pow_le_mono_r; lia]).
  assert (F : fmt64 (x - 1)) by (rewrite EN; apply fmt_ne; [unfold N; lia|lia]). rewrite <- (rnd_fmt (x - 1) F). apply rnd_le. lra.
Qed.
Lemma gap_pos x : fmt64 x -> bpow radix2 40 <= x -> Rabs (rnd64 (x + B2R lev) - rnd64 (x - B2R lev)) <= 2.
Proof.
  intros G B. pose proof lev_R as C. destruct (Rle_lt_dec x (bpow radix2 53)) as [S|S].
  - pose proof (up_gap x (B2R lev) G ltac:(lra) ltac:(lra)) as U. pose proof (down_gap x (B2R lev) G ltac:(lra) ltac:(lra)) as D. pose proof (rnd_le (prec := 53) (emax := 1024) (x - B2R lev) (x + B2R lev) ltac:(lra)) as M. apply Rabs_le. lra.
  - unfold Rminus at 2. rewrite (far_eq x (B2R lev) G S ltac:(rewrite Rabs_pos_eq; lra)), (far_eq x (- B2R lev) G S ltac:(rewrite Rabs_Ropp, Rabs_pos_eq; lra)). rewrite Rminus_diag_eq, Rabs_R0 by reflexivity. lra.
Qed.
Lemma rnd_gap x : fmt64 x -> Rabs (rnd64 (x + B2R lev) - rnd64 (x - B2R lev)) <= 2.
Proof.
  intros G. pose proof lev_R as C. destruct (Rle_lt_dec (Rabs x) (bpow radix2 40)) as [S|S].
  - pose proof (near_rnd _ (B2R lev) S ltac:(rewrite Rabs_pos_eq; lra)) as E1. pose proof (near_rnd _ (- B2R lev) S ltac:(rewrite Rabs_Ropp, Rabs_pos_eq; lra)) as E2. replace (x + - B2R lev) with (x - B2R lev) in E2 by ring.
    apply Rabs_le_inv in E1. apply Rabs_le_inv in E2. apply Rabs_le. lra.
  - destruct (Rle_lt_dec 0 x) as [N|N].
    + rewrite Rabs_pos_eq in S by exact N. apply gap_pos; [exact G|lra].
    + rewrite Rabs_left in S by exact N. pose proof (gap_pos (- x) ltac:(now apply generic_format_opp) ltac:(lra)) as T.
      replace (x + B2R lev) with (- (- x - B2R lev)) by ring. replace (x - B2R lev) with (- (- x + B2R lev)) by ring. rewrite 2!rnd_opp. eapply Rle_trans; [|exact T]. apply Req_le. f_equal. ring.
Qed.
(** The saturated value of any number below 2^1000 is at most 1 in magnitude. *)
Lemma sat_parts (x : f64) : fin x -> Rabs (B2R x) <= bpow radix2 1000 ->
  let a := fadd x lev in let b := fsub x lev in (fin a /\ B2R a = rnd64 (B2R x + B2R lev)) /\ (fin b /\ B2R b = rnd64 (B2R x - B2R lev)).
Proof.
  intros F B a b. pose proof lev_R as C. apply Rabs_le_inv in B. assert (D : dy64 (bpow radix2 1001)) by (apply dy_bpow; cbn; lia).
  assert (T : bpow radix2 1000 + 1 <= bpow radix2 1001). { replace (bpow radix2 1001) with (2 * bpow radix2 1000) by (change 2 with (bpow radix2 1); rewrite <- bpow_plus; reflexivity). pose proof (bpow_le radix2 0 1000 ltac:(lia)) as T. change (bpow radix2 0) with 1 in T. lra. }
  destruct (fadd_b (- bpow radix2 1001) (bpow radix2 1001) x lev (dy_opp _ D) D F ltac:(ffin) ltac:(lra)) as (F1 & E1 & _).
  destruct (fsub_b (- bpow radix2 1001) (bpow radix2 1001) x lev (dy_opp _ D) D F ltac:(ffin) ltac:(lra)) as (F2 & E2 & _). auto.
Qed.
Lemma abs_diff a b : Rabs (Rabs a - Rabs b) <= Rabs (a - b).
Proof. apply Rabs_triang_inv2. Qed.
Lemma half_mul (y : f64) m : fin y -> Rabs (B2R y) <= 2 * m -> dy64 m -> fin (fmul (ddec 1 2) y) /\ Rabs (B2R (fmul (ddec 1 2) y)) <= m.
Proof.
  intros F B D. assert (V : B2R (ddec 1 2) = / 2) by (fval (ddec 1 2); lra). apply Rabs_le_inv in B.
  destruct (fmul_b (- m) m (ddec 1 2) y (dy_opp _ D) D ltac:(ffin) F) as (A & _ & E); [rewrite V; lra|]. split; [exact A|]. now apply Rabs_le.
Qed.
Lemma sat_gen (x : f64) g m : fin x -> Rabs (B2R x) <= bpow radix2 1000 -> Rabs (rnd64 (B2R x + B2R lev) - rnd64 (B2R x - B2R lev)) <= g -> g <= 2 * m -> dy64 (2 * m) -> dy64 m -> fin (st_sat x) /\ Rabs (B2R (st_sat x)) <= m.
Proof.
  intros F B G M D D1. destruct (sat_parts x F B) as ((F1 & E1) & (F2 & E2)). unfold st_sat. fold lev. set (a := fadd x lev) in *. set (b := fsub x lev) in *. clearbody a b.
  assert (T : Rabs (B2R (fabs a) - B2R (fabs b)) <= 2 * m). { rewrite 2!fabs_R, E1, E2. eapply Rle_trans; [apply abs_diff|]. lra. }
  apply Rabs_le_inv in T. destruct (fsub_b (- (2 * m)) (2 * m) (fabs a) (fabs b) (dy_opp _ D) D ltac:(now apply fabs_fin) ltac:(now apply fabs_fin) T) as (F3 & _ & B3).
  apply half_mul; [exact F3|now apply Rabs_le|exact D1].
Qed.
Lemma dyk k : (-20 <= k <= 500)%Z -> dy64 (bpow radix2 k). Proof. intros H. apply dy_bpow. cbn. lia. Qed.
Lemma sat_one (x : f64) : fin x -> Rabs (B2R x) <= bpow radix2 1000 -> fin (st_sat x) /\ Rabs (B2R (st_sat x)) <= 1.
Proof. intros F B. apply (sat_gen x 2); [exact F|exact B|apply rnd_gap, fmt_B2R|lra|change (2 * 1) with (2 * bpow radix2 0); change 2 with (bpow radix2 1); rewrite <- bpow_plus; now apply dyk|now apply (dyk 0)]. Qed.

(** ** One tick *)
Definition sat_ok (K m : R) : Prop := forall x : f64, bd K x -> bd m (st_sat x).
Lemma sat_ok_one : sat_ok (bpow radix2 156) 1.
Proof. intros x [F B]. apply sat_one; [exact F|]. eapply Rle_trans; [exact B|apply bpow_le; lia]. Qed.
Lemma twice k : 2 * bpow radix2 k = bpow radix2 (k + 1). Proof. rewrite bpow_plus. change (bpow radix2 1) with 2. ring. Qed.
Lemma stage_ok a m p o l : (2 <= a <= 200)%Z -> 0 <= m <= 2 -> sat_ok (bpow radix2 (a + 28)) m -> bd (bpow radix2 25) p -> bd (bpow radix2 a) o -> bd m l ->
  bd m (fst (st_stage p o l)) /\ bd m (snd (st_stage p o l)).
Proof.
  intros Ha Hm K Hp Ho Hl. assert (A4 : 4 <= bpow radix2 a) by (change 4 with (bpow radix2 2); apply bpow_le; lia).
  assert (D : bd (bpow radix2 (a + 1)) (fsub o l)) by (apply bd_sub with (1 := Ho) (2 := Hl); [rewrite <- twice; lra|apply dyp; lia]).
  assert (P : bd (bpow radix2 (a + 26)) (fmul p (fsub o l))) by (apply bd_mul with (1 := Hp) (2 := D); [rewrite <- bpow_plus; apply bpow_le; lia|apply dyp; lia]).
  assert (S : bd (bpow radix2 (a + 27)) (fadd o (fmul p (fsub o l)))).
  { apply bd_add with (1 := Ho) (2 := P); [|apply dyp; lia]. replace (a + 27)%Z with (a + 26 + 1)%Z by ring. rewrite <- twice. assert (bpow radix2 a <= bpow radix2 (a + 26)) by (apply bpow_le; lia). lra. }
  assert (M : bd m (st_sat (fadd o (fmul p (fsub o l))))) by (apply K; apply bd_weak with (1 := S); apply bpow_le; lia).
  unfold st_stage. cbn [fst snd]. split; [exact M|]. apply K.
  assert (T : bd (bpow radix2 2) (fadd (st_sat (fadd o (fmul p (fsub o l)))) l)) by (apply bd_add with (1 := M) (2 := Hl); [change (bpow radix2 2) with 4; lra|apply dyp; lia]).
  apply bd_weak with (1 := T). apply bpow_le. lia.
Qed.
Lemma snap_ok m x : 0 <= m -> bd m x -> bd m (st_snap x).
Proof. intros H B. unfold st_snap. destruct (negb _); [|exact B]. split; [reflexivity|]. change (B2R (fzero : f64)) with 0. rewrite Rabs_R0. exact H. Qed.

Record st_ok (m : R) (s : st) : Prop := StOk { so_0 : bd m (st_s0 s); so_1 : bd m (st_s1 s); so_2 : bd m (st_s2 s); so_3 : bd m (st_s3 s); so_o : bd m (st_out s); so_p : bd (bpow radix2 25) (st_p s); so_q : bd 1 (st_Q s) }.
Lemma st_tick_ok a m s (x : f32) : (2 <= a <= 128)%Z -> m = 1 \/ m = 2 -> sat_ok (bpow radix2 (a + 28)) m -> st_ok m s -> fin x -> Rabs (B2R x) <= bpow radix2 a ->
  st_ok m (fst (st_tick s x)) /\ fin (snd (st_tick s x)) /\ Rabs (B2R (snd (st_tick s x))) <= m.
Proof.
  intros Ha Hm K [H0 H1 H2 H3 Ho Hp Hq] Fx Bx. assert (Hm2 : 0 <= m <= 2) by (destruct Hm; lra). assert (A4 : 4 <= bpow radix2 a) by (change 4 with (bpow radix2 2); apply bpow_le; lia).
  assert (Dm : dy64 m /\ dy32 m). { destruct Hm as [-> | ->]; [change 1 with (bpow radix2 0)|change 2 with (bpow radix2 1)]; split; apply dy_bpow; cbn; lia. } destruct Dm as [Dm Dm3].
  assert (C65 : bd (66 / 100) (ddec 65 100)) by bdc (ddec 65 100). assert (C14 : bd (/ 4) (ddec 1 4)) by bdc (ddec 1 4).
  assert (X1 : bd (bpow radix2 a) (fmul (f2d x) (ddec 65 100))).
  { apply bd_mul with (1 := bd_f2d x _ Fx Bx) (2 := C65); [|apply dyp; lia]. rewrite <- (Rmult_1_r (bpow radix2 a)) at 2. apply Rmult_le_compat_l; [apply bpow_ge_0|lra]. }
  assert (X2 : bd (bpow radix2 (a + 1)) (fsub (fmul (f2d x) (ddec 65 100)) (st_out s))) by (apply bd_sub with (1 := X1) (2 := Ho); [rewrite <- twice; lra|apply dyp; lia]).
  assert (X3 : bd (bpow radix2 a) (fmul (ddec 1 4) (fsub (fmul (f2d x) (ddec 65 100)) (st_out s)))) by (apply bd_mul with (1 := C14) (2 := X2); [rewrite <- twice; lra|apply dyp; lia]).
  assert (W : forall y, bd m y -> bd (bpow radix2 a) y) by (intros y Hy; apply bd_weak with (1 := Hy); lra).
  unfold st_tick. set (o := fmul (ddec 1 4) _) in *. clearbody o.
  destruct (stage_ok a m _ _ _ ltac:(lia) Hm2 K Hp X3 H0) as [M0 O0]. destruct (st_stage (st_p s) o (st_s0 s)) as [m0 o0]. cbn [fst snd] in *.
  destruct (stage_ok a m _ _ _ ltac:(lia) Hm2 K Hp (W _ O0) H1) as [M1 O1]. destruct (st_stage (st_p s) o0 (st_s1 s)) as [m1 o1]. cbn [fst snd] in *.
  destruct (stage_ok a m _ _ _ ltac:(lia) Hm2 K Hp (W _ O1) H2) as [M2 O2]. destruct (st_stage (st_p s) o1 (st_s2 s)) as [m2 o2]. cbn [fst snd] in *.
  destruct (stage_ok a m _ _ _ ltac:(lia) Hm2 K Hp (W _ O2) H3) as [M3 O3]. destruct (st_stage (st_p s) o2 (st_s3 s)) as [m3 o3]. cbn [fst snd] in *.
  pose proof (snap_ok m o3 ltac:(lra) O3) as S. split.
  - constructor; cbn [st_s0 st_s1 st_s2 st_s3 st_out st_p st_Q]; auto. apply bd_mul with (1 := S) (2 := Hq); [lra|exact Dm].
  - destruct S as [FS BS]. apply Rabs_le_inv in BS. destruct (d2f_b (- m) m _ FS (dy_opp _ Dm3) Dm3 BS) as (A & _ & B). split; [exact A|]. now apply Rabs_le.
Qed.

(** ** The setters *)
Definition st_cut_ok (sr c : f32) : Prop := fin c /\ Rabs (B2R c) <= 300 * B2R sr.
Lemma dyn n : (Z.abs n <= 2 ^ 53)%Z -> dy64 (IZR n). Proof. apply dy_IZR. Qed.
Lemma pole_bd sr c : mg_rate sr -> st_cut_ok sr c -> bd 18970000 (st_pole sr c).
Proof.
  intros [Fs Hs] [Fc Hc]. destruct (f2d_R c Fc) as [F1 E1]. destruct (f2d_R sr Fs) as [F2 E2].
  assert (Q : bd 300 (fdiv (f2d c) (f2d sr))).
  { assert (T : Rabs (B2R (f2d c) / B2R (f2d sr)) <= 300). { rewrite E1, E2. unfold Rdiv. rewrite Rabs_mult, Rabs_inv, (Rabs_pos_eq (B2R sr)) by lra. apply Rmult_le_reg_r with (B2R sr); [lra|]. rewrite Rmult_assoc, Rinv_l by lra. lra. }
    apply Rabs_le_inv in T. destruct (fdiv_b (- (300)) 300 (f2d c) (f2d sr) (dy_opp _ (dyn 300 ltac:(lia))) (dyn 300 ltac:(lia)) F1 F2 ltac:(lra) T) as (A & _ & B). split; [exact A|now apply Rabs_le]. }
  unfold st_pole. set (fc := fdiv (f2d c) (f2d sr)) in *. clearbody fc.
  assert (X2 : bd 90000 (fmul fc fc)) by (apply bd_mul with (1 := Q) (2 := Q); [lra|apply dyn; lia]).
  assert (X3 : bd 27000000 (fmul (fmul fc fc) fc)) by (apply bd_mul with (1 := X2) (2 := Q); [lra|apply dyn; lia]).
  assert (C1 : bd (7 / 10) (fneg (ddec 69346 100000))) by bdc (fneg (ddec 69346 100000)). assert (C2 : bd (6 / 10) (ddec 59515 100000)) by bdc (ddec 59515 100000). assert (C3 : bd 4 (ddec 32937 10000)) by bdc (ddec 32937 10000). assert (C4 : bd 2 (ddec 10072 10000)) by bdc (ddec 10072 10000).
  assert (T1 : bd 18900000 (fmul (fneg (ddec 69346 100000)) (fmul (fmul fc fc) fc))) by (apply bd_mul with (1 := C1) (2 := X3); [lra|apply dyn; lia]).
  assert (T2 : bd 54000 (fmul (ddec 59515 100000) (fmul fc fc))) by (apply bd_mul with (1 := C2) (2 := X2); [lra|apply dyn; lia]).
  assert (T3 : bd 1200 (fmul (ddec 32937 10000) fc)) by (apply bd_mul with (1 := C3) (2 := Q); [lra|apply dyn; lia]).
  assert (S1 : bd 18954000 (fsub (fmul (fneg (ddec 69346 100000)) (fmul (fmul fc fc) fc)) (fmul (ddec 59515 100000) (fmul fc fc)))) by (apply bd_sub with (1 := T1) (2 := T2); [lra|apply dyn; lia]).
  assert (S2 : bd 18956000 (fadd (fsub (fmul (fneg (ddec 69346 100000)) (fmul (fmul fc fc) fc)) (fmul (ddec 59515 100000) (fmul fc fc))) (fmul (ddec 32937 10000) fc))) by (apply bd_add with (1 := S1) (2 := T3); [lra|apply dyn; lia]).
  apply bd_sub with (1 := S2) (2 := C4); [lra|apply dyn; lia].
Qed.
(** The table: 199 entries, all in (0, 1). *)
Lemma table_len : length st_table = 199%nat. Proof. reflexivity. Qed.
Lemma table_unit : forallb (fun v => fle fzero v && fle v one) st_table = true. Proof. vm_compute. reflexivity. Qed.
Lemma read_ok i : (0 <= i <= 198)%Z -> exists v, st_read i = Val v /\ fin v /\ 0 <= B2R v <= 1.
Proof.
  intros H. unfold st_read. rewrite (proj2 (Z.leb_le 0 i)) by lia. destruct (nth_error st_table (Z.to_nat i)) as [v|] eqn:E.
  - exists v. split; [reflexivity|]. apply nth_error_In in E. pose proof table_unit as T. rewrite forallb_forall in T. specialize (T v E). apply andb_true_iff in T. destruct T as [A B].
    destruct (fle_nan _ _ A) as [_ N]. assert (F : fin v). { destruct (nan_cases v N) as [F|[s ->]]; [exact F|destruct s; discriminate]. }
    split; [exact F|]. apply (proj1 (fle_R _ _ (eq_refl : fin (fzero : f32)) F)) in A. apply (proj1 (fle_R _ _ F one_fin)) in B. rewrite one_R in B. change (B2R (fzero : f32)) with 0 in A. lra.
  - apply nth_error_None in E. rewrite table_len in E. lia.
Qed.
Lemma lerp_unit (a b t : f32) : fin a -> fin b -> fin t -> 0 <= B2R a <= 1 -> 0 <= B2R b <= 1 -> 0 <= B2R t <= 1 -> fin (lerp a b t) /\ 0 <= B2R (lerp a b t) <= 1.
Proof.
  intros Fa Fb Ft Ba Bb Bt. pose proof (lerp_bound 0 a b t ltac:(lia) Fa Fb Ft Bt) as T. change (bpow radix2 0) with 1 in T. destruct T as [F B]; try (apply Rabs_le; lra).
  split; [exact F|]. apply Rabs_le_inv in B. split; [|lra]. unfold lerp in *.
  destruct (fsub_b (- B2R a) 1 b a (dy_opp _ (dy_B2R a)) dy1 Fb Fa ltac:(lra)) as (F1 & _ & B1).
  destruct (fmul_b (- B2R a) 1 t (fsub b a) (dy_opp _ (dy_B2R a)) dy1 Ft F1) as (F2 & _ & B2). { split; nra. }
  assert (D2 : dy32 2) by (change 2 with (bpow radix2 1); apply dy_bpow; cbn; lia).
  destruct (fadd_b 0 2 a (fmul t (fsub b a)) dy0 D2 Fa F2 ltac:(lra)) as (_ & _ & B3). lra.
Qed.
Lemma gain_ok (r : f32) (p : f64) : fin r -> 0 <= B2R r <= 1 -> bd 18970000 p -> exists q, st_gain r p = Val q /\ fin q /\ 0 <= B2R q <= B2R r.
Proof.
  intros Fr Br Hp. assert (C : bd 99 (dz 99)) by bdc (dz 99).
  assert (X : bd 1900000000 (fmul p (dz 99))) by (apply bd_mul with (1 := Hp) (2 := C); [lra|apply dyn; lia]). unfold st_gain. set (ix := fmul p (dz 99)) in *. clearbody ix. destruct X as [Fx Bx]. apply Rabs_le_inv in Bx.
  destruct (ffloor_R ix Fx) as [Ff Ef]. set (n := Zfloor (B2R ix)) in *. pose proof (Zfloor_lb (B2R ix)) as L1. pose proof (Zfloor_ub (B2R ix)) as L2. fold n in L1, L2.
  assert (N : (-1900000001 < n < 1900000001)%Z) by (split; apply lt_IZR; lra).
  assert (I : st_int (ffloor ix) = Val n).
  { unfold st_int, ftoZ. unfold fin in Ff. rewrite Ff. rewrite Btrunc_R, Ef, Ztrunc_IZR. rewrite (proj2 (Z.leb_le (- 2 ^ 31) n)), (proj2 (Z.leb_le n (2 ^ 31 - 1))) by lia. reflexivity. }
  rewrite I. cbn [rbind].
  destruct (fofZ_R (prec := 53) (emax := 1024) n ltac:(lia)) as [Fn En].
  destruct (fsub_b 0 1 ix (fofZ n) dy_0 (dyn 1 ltac:(lia)) Fx Fn ltac:(rewrite En; lra)) as (Fd & _ & Bd).
  destruct (d2f_b 0 1 _ Fd dy0 dy1 Bd) as (Ft & _ & Bt). set (t := d2f (fsub ix (fofZ n))) in *. clearbody t.
  set (n1 := if (n <? -99)%Z then (-99)%Z else n). set (n2 := if (98 <? n1)%Z then 98%Z else n1).
  assert (N2 : (-99 <= n2 <= 98)%Z). { unfold n2, n1. destruct (n <? -99)%Z eqn:A; [reflexivity || (cbn; lia)|]. apply Z.ltb_ge in A. destruct (98 <? n)%Z eqn:B; [lia|]. apply Z.ltb_ge in B. lia. }
  destruct (read_ok (n2 + 99) ltac:(lia)) as (a & -> & Fa & Ba). cbn [rbind]. destruct (read_ok (n2 + 100) ltac:(lia)) as (b & -> & Fb & Bb). cbn [rbind].
  destruct (lerp_unit a b t Fa Fb Ft Ba Bb Bt) as [Fl Bl]. destruct (fmul_b 0 (B2R r) r (lerp a b t) dy0 (dy_B2R r) Fr Fl) as (Fq & _ & Bq); [split; nra|].
  destruct (f2d_R _ Fq) as [G E]. exists (f2d (fmul r (lerp a b t))). split; [reflexivity|]. split; [exact G|]. now rewrite E.
Qed.

Lemma gain_val (r : f32) (p : f64) : bd 18970000 p -> exists q, st_gain r p = Val q.
Proof.
  intros Hp. destruct (gain_ok fzero p eq_refl ltac:(change (B2R (fzero : f32)) with 0; lra) Hp) as (q & H & _). unfold st_gain in *.
  destruct (st_int (ffloor (fmul p (dz 99)))) as [n| |]; cbn [rbind] in *; try discriminate. destruct (st_read _) as [a| |]; cbn [rbind] in *; try discriminate.
  destruct (st_read _) as [b| |]; cbn [rbind] in *; try discriminate. eauto.
Qed.
(** The parameter part of the state the setters keep. *)
Definition st_par (sr : f32) (s : st) : Prop := st_sr s = sr /\ bd 18970000 (st_p s).
Lemma setRes_val sr s r : st_par sr s -> exists s', st_setResonance s r = Val s' /\ st_par sr s'.
Proof. intros [E P]. unfold st_setResonance. destruct (gain_val (unit_clamp r) _ P) as [q ->]. cbn [rbind]. eexists. split; [reflexivity|]. split; assumption. Qed.
Lemma setCut_val sr s c : mg_rate sr -> st_sr s = sr -> st_cut_ok sr c -> exists s', st_setCutoff s c = Val s' /\ st_par sr s'.
Proof. intros Hr E Hc. unfold st_setCutoff. apply setRes_val. split; [exact E|]. cbn [st_p]. rewrite E. now apply pole_bd. Qed.
Lemma st_init_cut sr : mg_rate sr -> st_cut_ok sr (fofZ 1000).
Proof. intros [_ H]. split; [reflexivity|]. fval (fofZ 1000 : f32). rewrite Rabs_pos_eq; lra. Qed.
Lemma st_init_val r0 sr : mg_rate sr -> exists s, st_init r0 sr = Val s /\ st_par sr s.
Proof. intros Hr. unfold st_init. destruct (setCut_val sr (St sr fzero r0 fzero fzero fzero fzero fzero fzero fzero) (fofZ 1000) Hr eq_refl (st_init_cut sr Hr)) as (s & -> & P). cbn [rbind]. now apply setRes_val. Qed.
Lemma st_init_any r0 r1 sr : st_init r0 sr = st_init r1 sr.
Proof.
  unfold st_init, st_setCutoff, st_setResonance, st_gain. cbn [st_res st_p st_sr st_cut st_Q st_s0 st_s1 st_s2 st_s3 st_out].
  destruct (st_int (ffloor (fmul (st_pole sr (fofZ 1000)) (dz 99)))) as [n| |] eqn:E; cbn [rbind]; try reflexivity. destruct (st_read _) as [a| |] eqn:A; cbn [rbind]; try reflexivity.
  destruct (st_read (_ + 100)) as [b| |] eqn:B; cbn [rbind st_res st_p st_sr st_cut st_Q st_s0 st_s1 st_s2 st_s3 st_out]; try reflexivity.
Qed.

Lemma st_gain_le sr c r s s' : mg_rate sr -> st_cut_ok sr c -> fin r -> 0 <= B2R r <= 1 -> st_sr s = sr ->
  (s1 <~ st_setCutoff s c ;; st_setResonance s1 r) = Val s' -> fin (st_Q s') /\ 0 <= B2R (st_Q s') <= B2R r.
Proof.
  intros Hr Hc Fr Br Es E. destruct (setCut_val sr s c Hr Es Hc) as (s1 & E1 & _ & P). rewrite E1 in E. cbn [rbind] in E. unfold st_setResonance in E. rewrite unit_clamp_in in E by auto.
  destruct (gain_ok r (st_p s1) Fr Br P) as (q & G & Q). rewrite G in E. cbn [rbind] in E. injection E as <-. exact Q.
Qed.

(** ** Runs *)
Fixpoint st_run (s : st) (os : list st_op) : res (st * list f32) :=
  match os with
  | [] => Val (s, [])
  | o :: r => v <~ st_call s o ;; w <~ st_run (fst v) r ;; Val (fst w, match snd v with Some y => y :: snd w | None => snd w end)
  end.
Definition st_inv (m : R) (sr : f32) (s : st) : Prop := st_ok m s /\ st_par sr s /\ (fin (st_res s) /\ 0 <= B2R (st_res s) <= 1).
(** Any finite sample, any resonance but NaN, cutoffs up to 300 times the sample rate on either side. *)
Definition st_use (sr : f32) (o : st_op) : Prop :=
  match o with StCut c => fin c /\ Rabs (B2R c) <= 300 * B2R sr | StRes r => is_nan r = false | StTick x => fin x | StReset => True end.
Definition st_op_ok (a : Z) (sr : f32) (o : st_op) : Prop :=
  match o with StCut c => st_cut_ok sr c | StRes r => is_nan r = false | StTick x => fin x /\ Rabs (B2R x) <= bpow radix2 a | StReset => True end.
Lemma bd_p x : bd 18970000 x -> bd (bpow radix2 25) x.
Proof. intros H. apply bd_weak with (1 := H). change (bpow radix2 25) with 33554432. lra. Qed.
Lemma bd_00 m : 0 <= m -> bd m fzero.
Proof. intros H. split; [reflexivity|]. change (B2R (fzero : f64)) with 0. rewrite Rabs_R0. exact H. Qed.
Lemma setRes_inv m sr s r : st_ok m s -> st_par sr s -> is_nan r = false -> exists s', st_setResonance s r = Val s' /\ st_inv m sr s'.
Proof.
  intros [O0 O1 O2 O3 Oo Op Oq] [E P] N. destruct (unit_clamp_R r N) as [Fr Br]. destruct (gain_ok _ _ Fr Br P) as (q & H & Fq & Bq). unfold st_setResonance. rewrite H. cbn [rbind]. eexists. split; [reflexivity|].
  split; [|split; [split; assumption|split; assumption]]. constructor; cbn [st_s0 st_s1 st_s2 st_s3 st_out st_p st_Q]; auto. split; [exact Fq|]. rewrite Rabs_pos_eq; lra.
Qed.
Lemma setCut_inv m sr s c : mg_rate sr -> st_ok m s -> st_sr s = sr -> is_nan (st_res s) = false -> st_cut_ok sr c -> exists s', st_setCutoff s c = Val s' /\ st_inv m sr s'.
Proof.
  intros Hr [O0 O1 O2 O3 Oo Op Oq] E N Hc. pose proof (pole_bd sr c Hr Hc) as P. unfold st_setCutoff. rewrite E. apply setRes_inv; [|split; [reflexivity|exact P]|exact N].
  constructor; cbn [st_s0 st_s1 st_s2 st_s3 st_out st_p st_Q]; auto using bd_p.
Qed.
Lemma st_init_inv m r0 sr : 0 <= m -> mg_rate sr -> exists s, st_init r0 sr = Val s /\ st_inv m sr s.
Proof.
  intros Hm Hr. rewrite (st_init_any r0 fzero). unfold st_init.
  destruct (setCut_inv m sr (St sr fzero fzero fzero fzero fzero fzero fzero fzero fzero) (fofZ 1000) Hr) as (s & -> & (O & P & R)); try reflexivity.
  - constructor; apply bd_00; try exact Hm; [apply bpow_ge_0|lra].
  - now apply st_init_cut.
  - cbn [rbind]. apply setRes_inv; [exact O|exact P|reflexivity].
Qed.
Lemma st_step a m sr : (2 <= a <= 128)%Z -> m = 1 \/ m = 2 -> sat_ok (bpow radix2 (a + 28)) m -> mg_rate sr -> forall s o, st_inv m sr s -> st_op_ok a sr o ->
  exists s' y, st_call s o = Val (s', y) /\ st_inv m sr s' /\ forall v, y = Some v -> fin v /\ Rabs (B2R v) <= m.
Proof.
  intros Ha Hm K Hr s o (O & P & R) Ho. destruct o as [c|r|x|]; cbn [st_call st_op_ok] in *.
  - destruct (setCut_inv m sr s c Hr O (proj1 P) (fin_nan _ (proj1 R)) Ho) as (s' & -> & I'). cbn [rbind]. do 2 eexists. split; [reflexivity|]. split; [exact I'|discriminate].
  - destruct (setRes_inv m sr s r O P Ho) as (s' & -> & I'). cbn [rbind]. do 2 eexists. split; [reflexivity|]. split; [exact I'|discriminate].
  - destruct (st_tick_ok a m s x Ha Hm K O (proj1 Ho) (proj2 Ho)) as (A & B). destruct (st_tick s x) as [s' y] eqn:E. cbn [fst snd] in *. do 2 eexists. split; [reflexivity|]. split; [|intros v [= <-]; exact B].
    assert (X : st_sr s' = st_sr s /\ st_p s' = st_p s /\ st_res s' = st_res s). { unfold st_tick in E. repeat (destruct (st_stage _ _ _) as [? ?] in E). injection E as <- _. auto. }
    destruct X as (X1 & X2 & X3). split; [exact A|]. unfold st_par. rewrite X1, X2, X3. split; [exact P|exact R].
  - do 2 eexists. split; [reflexivity|]. split; [|discriminate]. destruct O as [O0 O1 O2 O3 Oo Op Oq]. split; [|split; [exact P|exact R]].
    assert (0 <= m) by (destruct Hm; lra). constructor; cbn [st_reset st_s0 st_s1 st_s2 st_s3 st_out st_p st_Q]; auto using bd_00.
Qed.
Lemma st_run_ok a m sr : (2 <= a <= 128)%Z -> m = 1 \/ m = 2 -> sat_ok (bpow radix2 (a + 28)) m -> mg_rate sr -> forall os s, st_inv m sr s -> Forall (st_op_ok a sr) os ->
  exists s' ys, st_run s os = Val (s', ys) /\ st_inv m sr s' /\ Forall (fun y => fin y /\ Rabs (B2R y) <= m) ys.
Proof.
  intros Ha Hm K Hr. induction os as [|o r IH]; intros s Hs Ho; [exists s, []; auto|]. inversion_clear Ho as [|? ? H1 H2].
  destruct (st_step a m sr Ha Hm K Hr s o Hs H1) as (s1 & y & E & I1 & Y). destruct (IH s1 I1 H2) as (s2 & ys & E2 & I2 & Ys).
  cbn [st_run]. rewrite E. cbn [rbind fst snd]. rewrite E2. cbn [rbind fst snd]. do 2 eexists. split; [reflexivity|]. split; [exact I2|]. destruct y as [v|]; [constructor; [now apply Y|exact Ys]|exact Ys].
Qed.
Lemma st_from_init a m r0 sr os : (2 <= a <= 128)%Z -> m = 1 \/ m = 2 -> sat_ok (bpow radix2 (a + 28)) m -> mg_rate sr -> Forall (st_op_ok a sr) os ->
  exists s s' ys, st_init r0 sr = Val s /\ st_run s os = Val (s', ys) /\ Forall (fun y => fin y /\ Rabs (B2R y) <= m) ys.
Proof.
  intros Ha Hm K Hr Ho. destruct (st_init_inv m r0 sr ltac:(destruct Hm; lra) Hr) as (s & E & I0). destruct (st_run_ok a m sr Ha Hm K Hr os s I0 Ho) as (s' & ys & E2 & _ & Y). eauto 8.
Qed.
Lemma use_ok sr os : Forall (st_use sr) os -> Forall (st_op_ok 128 sr) os.
Proof. apply Forall_impl. intros [c|r|x|]; cbn [st_use st_op_ok]; auto. intros F. split; [exact F|]. left. apply B2R_lt_emax. Qed.
Lemma st_bounded r0 sr os : mg_rate sr -> Forall (st_use sr) os -> exists s s' ys, st_init r0 sr = Val s /\ st_run s os = Val (s', ys) /\ Forall (fun y => fin y /\ -1 <= B2R y <= 1) ys.
Proof.
  intros Hr Ho. destruct (st_from_init 128 1 r0 sr os ltac:(lia) (or_introl eq_refl) sat_ok_one Hr (use_ok sr os Ho)) as (s & s' & ys & A & B & C). exists s, s', ys. split; [exact A|]. split; [exact B|].
  eapply Forall_impl; [|exact C]. intros y [F Y]. split; [exact F|]. now apply Rabs_le_inv.
Qed.
(** With every setting: nothing undefined happens as long as the cutoffs stay within 300 sample rates. *)
Definition st_call_ok (sr : f32) (o : st_op) : Prop := match o with StCut c => st_cut_ok sr c | _ => True end.
Lemma st_run_par sr : mg_rate sr -> forall os s, st_par sr s -> Forall (st_call_ok sr) os -> exists v, st_run s os = Val v /\ st_par sr (fst v).
Proof.
  intros Hr. induction os as [|o r IH]; intros s Hs Ho; [eexists; split; [reflexivity|exact Hs]|]. inversion_clear Ho as [|? ? H1 H2].
  assert (X : exists s' y, st_call s o = Val (s', y) /\ st_par sr s').
  { destruct o as [c|q|x|]; cbn [st_call st_call_ok] in *.
    - destruct (setCut_val sr s c Hr (proj1 Hs) H1) as (s' & -> & P). cbn [rbind]. eauto.
    - destruct (setRes_val sr s q Hs) as (s' & -> & P). cbn [rbind]. eauto.
    - destruct (st_tick s x) as [s' y] eqn:E. do 2 eexists. split; [reflexivity|]. unfold st_tick in E. repeat (destruct (st_stage _ _ _) as [? ?] in E). injection E as <- _. exact Hs.
    - do 2 eexists. split; [reflexivity|exact Hs]. }
  destruct X as (s' & y & E & P). destruct (IH s' P H2) as (v & V & Q). cbn [st_run]. rewrite E. cbn [rbind fst snd]. rewrite V. cbn [rbind]. eexists. split; [reflexivity|exact Q].
Qed.

(** ** Cutoffs far above the sample rate *)
Lemma pole_far sr c : mg_rate sr -> fin c -> 512 * B2R sr <= B2R c -> bd (bpow radix2 500) (st_pole sr c) /\ B2R (st_pole sr c) <= - bpow radix2 25.
Proof.
  intros [Fs Hs] Fc Hc. destruct (f2d_R c Fc) as [F1 E1]. destruct (f2d_R sr Fs) as [F2 E2].
  assert (Cb : B2R c <= bpow radix2 128) by (left; eapply Rle_lt_trans; [apply Rle_abs|apply B2R_lt_emax]).
  assert (Q : 512 <= B2R (f2d c) / B2R (f2d sr) <= bpow radix2 128).
  { rewrite E1, E2. split; [apply Rmult_le_reg_r with (B2R sr); [lra|]; unfold Rdiv; rewrite Rmult_assoc, Rinv_l by lra; lra|].
    apply Rmult_le_reg_r with (B2R sr); [lra|]. unfold Rdiv. rewrite Rmult_assoc, Rinv_l by lra. pose proof (bpow_gt_0 radix2 128). nra. }
  destruct (fdiv_b 512 (bpow radix2 128) (f2d c) (f2d sr) (dyn 512 ltac:(lia)) (dyp 128 ltac:(lia)) F1 F2 ltac:(lra) Q) as (Ff & _ & Bf).
  unfold st_pole. set (fc := fdiv (f2d c) (f2d sr)) in *. clearbody fc.
  assert (K : exists k, (9 <= k <= 128)%Z /\ bpow radix2 k <= B2R fc <= bpow radix2 (k + 1)).
  { destruct (mag radix2 (B2R fc)) as [e He]. specialize (He ltac:(lra)). rewrite Rabs_pos_eq in He by lra. exists (e - 1)%Z. replace (e - 1 + 1)%Z with e by ring. split; [|lra]. split.
    - assert (bpow radix2 9 < bpow radix2 e) by (change (bpow radix2 9) with 512; lra). apply lt_bpow in H. lia.
    - assert (bpow radix2 (e - 1) <= bpow radix2 128) by lra. apply le_bpow in H. lia. }
  destruct K as (k & Hk & Bk). clear Bf Q Cb Hc.
  assert (S1 : forall i j, (-500 <= i)%Z -> (i <= 600)%Z -> (-500 <= j)%Z -> (j <= 600)%Z -> bpow radix2 i * bpow radix2 j = bpow radix2 (i + j)) by (intros; symmetry; apply bpow_plus).
  destruct (fmul_b (bpow radix2 (k + k)) (bpow radix2 (k + 1 + (k + 1))) fc fc (dyp (k + k) ltac:(lia)) (dyp (k + 1 + (k + 1)) ltac:(lia)) Ff Ff) as (F3 & _ & B3).
  { rewrite (bpow_plus _ k k), (bpow_plus _ (k + 1) (k + 1)). pose proof (bpow_gt_0 radix2 k). split; apply Rmult_le_compat; lra. }
  destruct (fmul_b (bpow radix2 (k + k + k)) (bpow radix2 (k + 1 + (k + 1) + (k + 1))) (fmul fc fc) fc (dyp (k + k + k) ltac:(lia)) (dyp (k + 1 + (k + 1) + (k + 1)) ltac:(lia)) F3 Ff) as (F4 & _ & B4).
  { rewrite (bpow_plus _ (k + k) k), (bpow_plus _ (k + 1 + (k + 1)) (k + 1)). pose proof (bpow_gt_0 radix2 k). pose proof (bpow_gt_0 radix2 (k + k)). split; apply Rmult_le_compat; lra. }
  set (x2 := fmul fc fc) in *. set (x3 := fmul x2 fc) in *. clearbody x3 x2.
  set (a := bpow radix2 (k + k + k)) in *. assert (Ea : bpow radix2 (k + 1 + (k + 1) + (k + 1)) = 8 * a). { unfold a. replace (k + 1 + (k + 1) + (k + 1))%Z with (3 + (k + k + k))%Z by ring. now rewrite bpow_plus. }
  assert (Ea2 : bpow radix2 (k + k + k - 1) = a / 2). { unfold a. replace (k + k + k)%Z with (1 + (k + k + k - 1))%Z by ring. rewrite bpow_plus. change (bpow radix2 1) with 2. replace (1 + (k + k + k - 1) - 1)%Z with (k + k + k - 1)%Z by ring. field. }
  assert (Ea4 : bpow radix2 (k + k + k - 2) = a / 4). { unfold a. replace (k + k + k)%Z with (2 + (k + k + k - 2))%Z by ring. rewrite bpow_plus. change (bpow radix2 2) with 4. replace (2 + (k + k + k - 2) - 2)%Z with (k + k + k - 2)%Z by ring. field. }
  assert (Ga : bpow radix2 25 <= a / 4) by (rewrite <- Ea4; apply bpow_le; lia).
  assert (A1 : dy64 (- (a / 2))) by (rewrite <- Ea2; apply dy_opp, dyp; lia). assert (A2 : dy64 (- (a / 4))) by (rewrite <- Ea4; apply dy_opp, dyp; lia).
  assert (A8 : dy64 (- (8 * a))) by (rewrite <- Ea; apply dy_opp, dyp; lia). assert (A16 : dy64 (- (16 * a))). { replace (16 * a) with (bpow radix2 (4 + (k + k + k))) by (rewrite bpow_plus; fold a; change (bpow radix2 4) with 16; ring). apply dy_opp, dyp. lia. }
  assert (Pa : 0 < a) by apply bpow_gt_0. rewrite Ea in B4.
  assert (B2' : 0 <= B2R x2 <= a). { split; [pose proof (bpow_gt_0 radix2 (k + k)); lra|]. apply Rle_trans with (1 := proj2 B3). apply bpow_le. lia. }
  assert (Bf : 0 <= B2R fc <= a / 64). { split; [pose proof (bpow_gt_0 radix2 k); lra|]. apply Rle_trans with (1 := proj2 Bk). apply Rmult_le_reg_r with 64; [lra|]. replace (a / 64 * 64) with a by field. change 64 with (bpow radix2 6). rewrite <- bpow_plus. apply bpow_le. lia. }
  destruct (fmul_b (- (8 * a)) (- (a / 2)) (fneg (ddec 69346 100000)) x3 A8 A1 ltac:(ffin) F4) as (G1 & _ & C1). { fval (fneg (ddec 69346 100000)). split; nra. }
  assert (Da : dy64 a) by (apply dyp; lia).
  destruct (fmul_b 0 a (ddec 59515 100000) x2 dy_0 Da ltac:(ffin) F3) as (G2 & _ & C2). { fval (ddec 59515 100000). split; nra. }
  assert (Da16 : dy64 (a / 16)). { replace (a / 16) with (bpow radix2 (k + k + k - 4)); [apply dyp; lia|]. unfold a, Zminus. rewrite bpow_plus with (e1 := (k + k + k)%Z). change (bpow radix2 (-4)) with (/ 16). reflexivity. }
  destruct (fmul_b 0 (a / 16) (ddec 32937 10000) fc dy_0 Da16 ltac:(ffin) Ff) as (G3 & _ & C3). { fval (ddec 32937 10000). split; nra. }
  destruct (fsub_b (- (16 * a)) (- (a / 2)) _ _ A16 A1 G1 G2 ltac:(lra)) as (G4 & _ & C4).
  destruct (fadd_b (- (16 * a)) (- (a / 4)) _ _ A16 A2 G4 G3 ltac:(lra)) as (G5 & _ & C5).
  assert (A32 : dy64 (- (32 * a))). { replace (32 * a) with (bpow radix2 (5 + (k + k + k))) by (rewrite bpow_plus; fold a; change (bpow radix2 5) with 32; ring). apply dy_opp, dyp. lia. }
  assert (P25 : 1 <= bpow radix2 25) by (change 1 with (bpow radix2 0); apply bpow_le; lia).
  destruct (fsub_b (- (32 * a)) (- (a / 4)) _ (ddec 10072 10000) A32 A2 G5 ltac:(ffin)) as (G6 & _ & C6). { fval (ddec 10072 10000). lra. }
  split; [|lra]. split; [exact G6|]. apply Rabs_le. assert (32 * a <= bpow radix2 500). { unfold a. change 32 with (bpow radix2 5). rewrite <- bpow_plus. apply bpow_le. lia. } lra.
Qed.
Lemma st_undef sr s c : mg_rate sr -> st_sr s = sr -> fin c -> 512 * B2R sr <= B2R c -> st_setCutoff s c = Undef.
Proof.
  intros Hr E Fc Hc. unfold st_setCutoff, st_setResonance. cbn [st_p st_res]. rewrite E. destruct (pole_far sr c Hr Fc Hc) as [[Fp Bp] Lp]. set (p := st_pole sr c) in *. clearbody p. apply Rabs_le_inv in Bp.
  assert (D : dy64 (-3321888768)) by (apply (dyn (-3321888768)); lia). assert (P0 : 0 < bpow radix2 500) by apply bpow_gt_0.
  assert (P7 : bpow radix2 507 = 128 * bpow radix2 500) by (change 507%Z with (7 + 500)%Z; rewrite bpow_plus; reflexivity).
  assert (L25 : bpow radix2 25 = 33554432) by reflexivity.
  assert (F99 : fin (dz 99)) by ffin.
  destruct (fmul_b (- bpow radix2 507) (-3321888768) p (dz 99) (dy_opp _ (dyp 507 ltac:(lia))) D Fp F99) as (Fx & _ & Bx). { fval (dz 99). rewrite P7. rewrite L25 in Lp. replace (B2R (dz 99)) with 99 by lra. split; lra. }
  unfold st_gain. set (ix := fmul p (dz 99)) in *. clearbody ix. destruct (ffloor_R ix Fx) as [Ff Ef].
  assert (N : (Zfloor (B2R ix) <= -3321888768)%Z). { apply le_IZR. pose proof (Zfloor_lb (B2R ix)). lra. }
  assert (I : st_int (ffloor ix) = Undef). { unfold st_int, ftoZ. unfold fin in Ff. rewrite Ff, Btrunc_R, Ef, Ztrunc_IZR. rewrite (proj2 (Z.leb_gt (- 2 ^ 31) _)); [reflexivity|]. lia. }
  rewrite I. reflexivity.
Qed.
Lemma st_undef_nan s c : is_nan c = true -> st_setCutoff s c = Undef.
Proof. destruct c; try discriminate. intros _. reflexivity. Qed.

(** ** A non-finite sample mutes the filter *)
Lemma nf_add (x y : f64) : is_finite x = false -> is_finite (fadd x y) = false.
Proof. destruct x as [ | s| | ]; try discriminate; intros _; [|reflexivity]. destruct y as [s'|s'| |s' m' e' H']; try reflexivity. destruct s, s'; reflexivity. Qed.
Lemma nf_sub (x y : f64) : is_finite x = false -> is_finite (fsub x y) = false.
Proof. destruct x as [ | s| | ]; try discriminate; intros _; [|reflexivity]. destruct y as [s'|s'| |s' m' e' H']; try reflexivity. destruct s, s'; reflexivity. Qed.
Lemma nf_mul (x y : f64) : is_finite y = false -> is_finite (fmul x y) = false.
Proof. destruct y as [ | s| | ]; try discriminate; intros _; destruct x as [s'|s'| |s' m' e' H']; reflexivity. Qed.
Lemma nf_mul_l (x y : f64) : is_finite x = false -> is_finite (fmul x y) = false.
Proof. destruct x as [ | s| | ]; try discriminate; intros _; destruct y as [s'|s'| |s' m' e' H']; reflexivity. Qed.
Lemma nf_sat (x : f64) : is_finite x = false -> is_nan (st_sat x) = true.
Proof. destruct x as [ | s| | ]; try discriminate; intros _; [|reflexivity]. destruct s; vm_compute; reflexivity. Qed.
Lemma nan_nf (x : f64) : is_nan x = true -> is_finite x = false. Proof. now destruct x. Qed.
Lemma stage_nf p o l : is_finite o = false \/ is_nan l = true -> is_nan (fst (st_stage p o l)) = true /\ is_nan (snd (st_stage p o l)) = true.
Proof.
  intros H. assert (A : is_nan (st_sat (fadd o (fmul p (fsub o l)))) = true).
  { apply nf_sat. destruct H as [H|H]; [now apply nf_add|]. apply nan_nf, dadd_r, dmul_r, dsub_r, H. }
  unfold st_stage. cbn [fst snd]. split; [exact A|]. apply nf_sat. apply nan_nf, dadd_l, A.
Qed.
Definition st_dead (s : st) : Prop := is_nan (st_s0 s) = true.
Lemma f2d_nf (x : f32) : is_finite x = false -> is_finite (f2d x) = false. Proof. destruct x as [ | s| | ]; try discriminate; intros _; reflexivity. Qed.
Lemma tick_dies s (x : f32) : st_dead s \/ is_finite x = false -> st_dead (fst (st_tick s x)) /\ snd (st_tick s x) = fzero.
Proof.
  intros H. unfold st_tick.
  assert (S : is_finite (fmul (ddec 1 4) (fsub (fmul (f2d x) (ddec 65 100)) (st_out s))) = false \/ is_nan (st_s0 s) = true).
  { destruct H as [H|H]; [now right|left]. apply nf_mul, nf_sub, nf_mul_l, f2d_nf, H. }
  set (o := fmul (ddec 1 4) _) in *. clearbody o.
  destruct (stage_nf (st_p s) o (st_s0 s) S) as [M0 O0]. destruct (st_stage (st_p s) o (st_s0 s)) as [m0 o0]. cbn [fst snd] in *.
  destruct (stage_nf (st_p s) o0 (st_s1 s) (or_introl (nan_nf _ O0))) as [M1 O1]. destruct (st_stage (st_p s) o0 (st_s1 s)) as [m1 o1]. cbn [fst snd] in *.
  destruct (stage_nf (st_p s) o1 (st_s2 s) (or_introl (nan_nf _ O1))) as [M2 O2]. destruct (st_stage (st_p s) o1 (st_s2 s)) as [m2 o2]. cbn [fst snd] in *.
  destruct (stage_nf (st_p s) o2 (st_s3 s) (or_introl (nan_nf _ O2))) as [M3 O3]. destruct (st_stage (st_p s) o2 (st_s3 s)) as [m3 o3]. cbn [fst snd] in *.
  split; [exact M0|]. destruct o3; try discriminate. reflexivity.
Qed.
Lemma dead_run os : forall s s' ys, st_dead s -> ~ In StReset os -> st_run s os = Val (s', ys) -> st_dead s' /\ Forall (eq fzero) ys.
Proof.
  induction os as [|o r IH]; intros s s' ys D N E; [injection E as <- <-; auto|]. cbn [st_run] in E. assert (N' : ~ In StReset r) by (intros X; apply N; now right).
  destruct (st_call s o) as [[s1 y]| |] eqn:C; try discriminate. cbn [rbind fst snd] in E. destruct (st_run s1 r) as [[s2 zs]| |] eqn:R; try discriminate. cbn [rbind fst snd] in E. injection E as <- <-.
  assert (X : st_dead s1 /\ forall v, y = Some v -> v = fzero).
  { destruct o as [c|q|x|]; cbn [st_call] in C.
    - unfold st_setCutoff, st_setResonance in C. destruct (st_gain _ _) as [g| |]; cbn [rbind] in C; try discriminate. injection C as <- <-. split; [exact D|discriminate].
    - unfold st_setResonance in C. destruct (st_gain _ _) as [g| |]; cbn [rbind] in C; try discriminate. injection C as <- <-. split; [exact D|discriminate].
    - destruct (tick_dies s x (or_introl D)) as [A B]. destruct (st_tick s x) as [s9 y9]. injection C as <- <-. split; [exact A|intros v [= <-]; exact B].
    - exfalso. apply N. now left. }
  destruct X as [D1 Y]. destruct (IH s1 s2 zs D1 N' R) as [D2 Z]. split; [exact D2|]. destruct y as [v|]; [constructor; [symmetry; now apply Y|exact Z]|exact Z].
Qed.
