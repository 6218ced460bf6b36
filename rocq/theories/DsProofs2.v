(** Downsampler: invariant of all call sequences. *)
From Coq Require Import ZArith Reals Lra Lia Bool List Psatz.
From Flocq Require Import Core BinarySingleNaN.
From Verif Require Import Flt FltFacts FltMore FltArith FltClose FltRel FltScale Libm EnvSpec UtilModel UtilProofs OscSpec OscProofs2 PhasorProofs SmoothSpec DsModel DsSpec DsProofs.
Import ListNotations.
Local Open Scope R_scope.

Definition st_inv (j : Z) (C : R) (xs : list f32) (st : list f32) : Prop :=
  exists s1 s2 s3 s4, st = [s1; s2; s3; s4] /\ bnd j s1 /\ bnd j s2 /\ bnd j s3 /\ bnd j s4 /\
  let u := sig xs in let n := length xs in let h := bpow radix2 (-15) in let M := bpow radix2 j in
  Rabs (B2R s1 - held (lp C u) n) <= (0 + h) * M /\ Rabs (B2R s2 - held (lp C (lp C u)) n) <= (0 + h + h) * M /\
  Rabs (B2R s3 - held (lp C (lp C (lp C u))) n) <= (0 + h + h + h) * M /\ Rabs (B2R s4 - held (lp4 C u) n) <= (0 + h + h + h + h) * M.
Definition acc_inv (j : Z) (C : R) (xs : list f32) (m : nat) (acc : f32) : Prop :=
  ((Z.of_nat m < 2 ^ 24)%Z -> fin acc /\ Rabs (B2R acc) <= INR m * bpow radix2 j) /\
  ((Z.of_nat m <= 1000)%Z -> Rabs (B2R acc - sum (lp4 C (sig xs)) (length xs - m) m) <= (INR m * bpow radix2 (-13) + INR m * INR m * ru) * bpow radix2 j).
Definition ds_inv (L : libm) (rate : f32) (j : Z) (d : ds) (h : ds_mem) : Prop :=
  let C := ideal_c (me_f h) in
  ds_rate d = rate /\ ds_fac d = me_f h /\ (1 <= me_f h <= 16)%Z /\ ds_c d = ds_coeff L rate (me_f h) /\ ds_n d = wrap64 (Z.of_nat (me_m h)) /\
  (me_m h <= length (me_xs h))%nat /\ st_inv j C (me_xs h) (ds_st d) /\ acc_inv j C (me_xs h) (me_m h) (ds_acc d).

Lemma sig_app xs x k : (k < length xs)%nat -> sig (xs ++ [x]) k = sig xs k. Proof. intros H. unfold sig. now rewrite app_nth1. Qed.
Lemma sig_new xs x : sig (xs ++ [x]) (length xs) = B2R x. Proof. unfold sig. rewrite app_nth2, Nat.sub_diag by lia. reflexivity. Qed.
Lemma held_ext (g : (nat -> R) -> nat -> R) u v n : (forall u v k, (forall i, (i <= k)%nat -> u i = v i) -> g u k = g v k) -> (forall i, (i < n)%nat -> u i = v i) -> held (g u) n = held (g v) n.
Proof. intros G H. destruct n; cbn [held]; [reflexivity|]. apply G. intros. apply H. lia. Qed.
Lemma bnd0 j : bnd j zero. Proof. split; [reflexivity|]. rewrite zero_R, Rabs_R0. apply bpow_ge_0. Qed.
Lemma st_zero j C : st_inv j C [] [zero; zero; zero; zero].
Proof.
  exists zero, zero, zero, zero. split; [reflexivity|]. do 4 (split; [apply bnd0|]). cbn [length held]. rewrite zero_R, Rminus_0_r, Rabs_R0.
  assert (0 <= bpow radix2 (-15)) by apply bpow_ge_0. assert (0 <= bpow radix2 j) by apply bpow_ge_0. repeat split; apply Rmult_le_pos; lra.
Qed.
Lemma acc_zero j C xs : acc_inv j C xs 0 zero.
Proof.
  split; intros _; cbn [INR sum]; [split; [reflexivity|]|]; rewrite zero_R, ?Rminus_0_r, Rabs_R0; assert (0 <= bpow radix2 j) by apply bpow_ge_0; lra.
Qed.
Lemma st_write j C c xs st x : (-100 <= j <= 96)%Z -> fin c -> 0 <= B2R c <= 1 -> Rabs (B2R c - C) <= 0.000002 -> 0.15 <= C <= 1 -> st_inv j C xs st -> bnd j x ->
  st_inv j C (xs ++ [x]) (ds_stages c st x).
Proof.
  intros J Fc Bc Ec CB (s1 & s2 & s3 & s4 & -> & B1 & B2 & B3 & B4 & E1 & E2 & E3 & E4) Bx. cbn [ds_stages].
  set (u := sig xs) in *. set (n := length xs) in *. set (v := sig (xs ++ [x])).
  assert (UV : forall i, (i < n)%nat -> v i = u i) by (intros; unfold v, u; apply sig_app; assumption).
  assert (L1 : forall a b k, (forall i, (i <= k)%nat -> a i = b i) -> lp C a k = lp C b k) by (intros; now apply lp_ext).
  assert (L2 : forall a b k, (forall i, (i <= k)%nat -> a i = b i) -> lp C (lp C a) k = lp C (lp C b) k) by (intros ? ? ? H; apply lp_ext; intros; apply lp_ext; intros; apply H; lia).
  assert (L3 : forall a b k, (forall i, (i <= k)%nat -> a i = b i) -> lp C (lp C (lp C a)) k = lp C (lp C (lp C b)) k) by (intros ? ? ? H; apply lp_ext; intros; apply L2; intros; apply H; lia).
  assert (L4 : forall a b k, (forall i, (i <= k)%nat -> a i = b i) -> lp4 C a k = lp4 C b k) by (intros; now apply lp4_ext).
  assert (H1 : held (lp C v) n = held (lp C u) n) by (apply (held_ext (lp C)); auto).
  assert (H2 : held (lp C (lp C v)) n = held (lp C (lp C u)) n) by (apply (held_ext (fun w => lp C (lp C w))); auto).
  assert (H3 : held (lp C (lp C (lp C v))) n = held (lp C (lp C (lp C u))) n) by (apply (held_ext (fun w => lp C (lp C (lp C w)))); auto).
  assert (H4 : held (lp4 C v) n = held (lp4 C u) n) by (apply (held_ext (lp4 C)); auto).
  rewrite <- H1 in E1. rewrite <- H2 in E2. rewrite <- H3 in E3. rewrite <- H4 in E4. assert (hp : 0 <= bpow radix2 (-15)) by apply bpow_ge_0.
  assert (EX : Rabs (B2R x - v n) <= 0 * bpow radix2 j) by (unfold v, n; rewrite sig_new, Rminus_diag_eq, Rabs_R0 by reflexivity; lra).
  destruct (stage_ok j 0 c s1 x C _ (v n) J Fc Bc Ec CB B1 Bx ltac:(lra) E1 EX) as [B1' E1']. set (t1 := fadd s1 _) in *. rewrite <- (lp_held C v n) in E1'.
  destruct (stage_ok j (0 + bpow radix2 (-15)) c s2 t1 C _ _ J Fc Bc Ec CB B2 B1' ltac:(lra) E2 E1') as [B2' E2']. set (t2 := fadd s2 _) in *. rewrite <- (lp_held C (lp C v) n) in E2'.
  destruct (stage_ok j (0 + bpow radix2 (-15) + bpow radix2 (-15)) c s3 t2 C _ _ J Fc Bc Ec CB B3 B2' ltac:(lra) E3 E2') as [B3' E3']. set (t3 := fadd s3 _) in *. rewrite <- (lp_held C (lp C (lp C v)) n) in E3'.
  destruct (stage_ok j (0 + bpow radix2 (-15) + bpow radix2 (-15) + bpow radix2 (-15)) c s4 t3 C _ _ J Fc Bc Ec CB B4 B3' ltac:(lra) E4 E3') as [B4' E4']. set (t4 := fadd s4 _) in *. unfold lp4 in E4' at 1. rewrite <- (lp_held C (lp C (lp C (lp C v))) n) in E4'.
  exists t1, t2, t3, t4. split; [reflexivity|]. do 4 (split; [assumption|]). cbv zeta. rewrite app_length. cbn [length]. replace (length xs + 1)%nat with (S n) by (unfold n; lia). cbn [held].
  repeat (split; [assumption|]). exact E4'.
Qed.
Lemma h13 : 0 + bpow radix2 (-15) + bpow radix2 (-15) + bpow radix2 (-15) + bpow radix2 (-15) = bpow radix2 (-13).
Proof. bp. lra. Qed.
Lemma acc_write j C xs m acc x y : (-100 <= j <= 96)%Z -> (m <= length xs)%nat -> acc_inv j C xs m acc -> bnd j y -> Rabs (B2R y - held (lp4 C (sig (xs ++ [x]))) (S (length xs))) <= bpow radix2 (-13) * bpow radix2 j ->
  acc_inv j C (xs ++ [x]) (S m) (fadd acc y).
Proof.
  intros J Hm [A B] [Fy By] Ey. cbn [held] in Ey. pose proof (bpow_gt_0 radix2 j) as PM.
  assert (Q : (Z.of_nat (S m) < 2 ^ 24)%Z -> fin acc /\ Rabs (B2R acc + B2R y) <= INR (S m) * bpow radix2 j /\ fin (fadd acc y) /\ Rabs (B2R (fadd acc y)) <= INR (S m) * bpow radix2 j /\ B2R (fadd acc y) = rnd32 (B2R acc + B2R y)).
  { intros Hs. destruct (A ltac:(lia)) as [Fa Ba]. split; [exact Fa|].
    assert (S1 : Rabs (B2R acc + B2R y) <= INR (S m) * bpow radix2 j) by (rewrite S_INR; eapply Rle_trans; [apply Rabs_triang|]; lra). split; [exact S1|].
    assert (D : dy32 (INR (S m) * bpow radix2 j)).
    { rewrite INR_IZR_INZ. split.
      - apply dy_F2R; [lia|cbn; lia].
      - rewrite abs_sc, Rabs_pos_eq by (apply IZR_le; lia). apply Rle_lt_trans with (IZR (2 ^ 24) * bpow radix2 j); [apply le_sc, IZR_le; lia|]. change (IZR (2 ^ 24)) with (bpow radix2 24). rewrite <- bpow_plus. apply bpow_lt. lia. }
    destruct (fadd_b _ _ acc y (dy_opp _ D) D Fa Fy) as (F & E & H); [now apply Rabs_le_inv|]. split; [exact F|]. split; [now apply Rabs_le|exact E]. }
  split.
  - intros Hs. destruct (Q Hs) as (_ & _ & F & H & _). auto.
  - intros Hs. destruct (Q ltac:(lia)) as (_ & S1 & _ & _ & E). specialize (B ltac:(lia)). rewrite app_length. cbn [length]. replace (length xs + 1 - S m)%nat with (length xs - m)%nat by lia. cbn [sum].
    replace (length xs - m + m)%nat with (length xs) by lia.
    rewrite (sum_ext (lp4 C (sig (xs ++ [x]))) (lp4 C (sig xs))) by (intros k Hk; apply lp4_ext; intros i Hi; apply sig_app; lia).
    set (Sm := sum (lp4 C (sig xs)) (length xs - m) m) in *. set (F := lp4 C (sig (xs ++ [x])) (length xs)) in *. clearbody Sm F.
    assert (Er : Rabs (B2R (fadd acc y) - (B2R acc + B2R y)) <= ru * (INR (S m) * bpow radix2 j)).
    { rewrite E. eapply Rle_trans; [apply rrel32|]. unfold ru. assert (P : 1 <= INR (S m)) by (rewrite S_INR; pose proof (pos_INR m); lra).
      assert (T : bpow radix2 (-150) <= bpow radix2 (-49) * bpow radix2 j) by (rewrite <- bpow_plus; apply bpow_le; lia).
      assert (B1 : bpow radix2 (-24) <= 0.000000059605) by (bp; lra). assert (B2 : bpow radix2 (-49) <= 0.00000000000001) by (bp; lra).
      assert (0 < bpow radix2 (-24)) by apply bpow_gt_0. assert (0 < bpow radix2 (-49)) by apply bpow_gt_0. set (N := INR (S m)) in *. set (M := bpow radix2 j) in *. clearbody N M.
      assert (M <= N * M) by nra. assert (bpow radix2 (-24) * Rabs (B2R acc + B2R y) <= 0.000000059605 * (N * M)) by (apply Rmult_le_compat; [lra|apply Rabs_pos|lra|exact S1]).
      assert (bpow radix2 (-49) * M <= 0.00000000000001 * (N * M)) by nra. lra. }
    apply Rabs_le_inv in Er, B, Ey. rewrite S_INR in *. unfold ru in *. pose proof (pos_INR m). set (N := INR m) in *. set (M := bpow radix2 j) in *. set (h := bpow radix2 (-13)) in *. clearbody N M h.
    assert (X : (N * h + N * N * 0.00000006) * M + h * M + 0.00000006 * ((N + 1) * M) <= ((N + 1) * h + (N + 1) * (N + 1) * 0.00000006) * M) by nra.
    apply Rabs_le. split; lra.
Qed.
Lemma note_ok L rate j d h o : exp_unit L -> exp_acc L -> fin rate -> 1 <= B2R rate <= bpow radix2 90 -> (-100 <= j <= 96)%Z -> ds_op_ok (bpow radix2 j) o -> (Z.of_nat (me_m h) < 2 ^ 64)%Z -> ds_inv L rate j d h ->
  ds_inv L rate j (fst (ds_call L d o)) (ds_note h o).
Proof.
  intros U A Fr Br J O N (I1 & I2 & I3 & I4 & I5 & I6 & I7 & I8). destruct o as [x| |f|]; cbn [ds_call ds_note fst].
  - pose proof (coeff_ok L rate (me_f h) U A Fr Br I3) as (Fc & Bc & Ec). pose proof (ideal_b (me_f h) I3) as CB. rewrite <- I4 in Fc, Bc, Ec.
    pose proof (st_write j _ _ _ _ x J Fc Bc Ec CB I7 O) as W. unfold ds_write. unfold ds_inv. cbn [ds_rate ds_fac ds_c ds_n ds_st ds_acc me_f me_xs me_m].
    split; [exact I1|]. split; [exact I2|]. split; [exact I3|]. split; [exact I4|]. split.
    { rewrite I5. unfold wrap64. rewrite Zplus_mod_idemp_l. f_equal. lia. }
    split; [rewrite app_length; cbn [length]; lia|]. split; [exact W|].
    destruct W as (t1 & t2 & t3 & t4 & W & _ & _ & _ & B4 & _ & _ & _ & E4). rewrite W. cbn [last]. rewrite h13 in E4. rewrite app_length in E4. cbn [length] in E4. rewrite Nat.add_1_r in E4.
    apply acc_write; auto.
  - assert (Z : ds_inv L rate j (Ds (ds_rate d) (ds_fac d) zero 0 (ds_st d) (ds_c d)) (Mem (me_f h) (me_xs h) 0)).
    { unfold ds_inv. cbn [ds_rate ds_fac ds_c ds_n ds_st ds_acc me_f me_xs me_m]. repeat (split; [first [assumption|reflexivity|lia]|]). apply acc_zero. }
    unfold ds_read. destruct (ds_n d =? 0)%Z eqn:E; [|exact Z]. apply Z.eqb_eq in E.
    rewrite I5 in E. unfold wrap64 in E. rewrite Z.mod_small in E by lia. assert (M : me_m h = 0%nat) by lia.
    unfold ds_inv. cbn [fst me_f me_xs me_m]. rewrite M in *. repeat (split; [first [assumption|lia]|]). assumption.
  - unfold ds_setFactor, ds_init. unfold ds_inv. cbn [ds_rate ds_fac ds_c ds_n ds_st ds_acc me_f me_xs me_m ds_op_ok] in *. rewrite factor_clamp by lia. rewrite I1. pose proof (clamp16_b f).
    repeat (split; [first [assumption|reflexivity|lia]|]). split; [apply st_zero|apply acc_zero].
  - unfold ds_reset, ds_inv. cbn [ds_rate ds_fac ds_c ds_n ds_st ds_acc me_f me_xs me_m] in *. repeat (split; [first [assumption|reflexivity|lia]|]). split; [apply st_zero|apply acc_zero].
Qed.
Lemma note_len ops : forall h, (me_m (fold_left ds_note ops h) <= me_m h + length ops)%nat.
Proof.
  induction ops as [|o ops IH]; intros h; cbn [fold_left length]; [lia|]. eapply Nat.le_trans; [apply IH|]. destruct o; cbn [ds_note me_m]; lia.
Qed.
Lemma run_ok L rate f j ops : exp_unit L -> exp_acc L -> fin rate -> 1 <= B2R rate <= bpow radix2 90 -> (-100 <= j <= 96)%Z -> (0 <= f)%Z -> Forall (ds_op_ok (bpow radix2 j)) ops -> (Z.of_nat (length ops) < 2 ^ 64)%Z ->
  ds_inv L rate j (ds_after L rate f ops) (ds_notes f ops).
Proof.
  intros U A Fr Br J F O N. unfold ds_after, ds_notes.
  assert (I0 : ds_inv L rate j (ds_init L rate f) (Mem (clamp16 f) [] 0)).
  { unfold ds_init, ds_inv. cbn [ds_rate ds_fac ds_c ds_n ds_st ds_acc me_f me_xs me_m]. rewrite factor_clamp by exact F. pose proof (clamp16_b f).
    repeat (split; [first [assumption|reflexivity|lia]|]). split; [apply st_zero|apply acc_zero]. }
  assert (M0 : (Z.of_nat (me_m (Mem (clamp16 f) [] 0) + length ops) < 2 ^ 64)%Z) by (cbn [me_m]; lia).
  revert I0 M0. generalize (ds_init L rate f) (Mem (clamp16 f) [] 0). clear N. induction O as [|o ops Ho O IH]; intros d h I M; cbn [fold_left]; [exact I|].
  apply IH; [apply note_ok; auto; cbn [length] in M; lia|]. cbn [length] in M. destruct o; cbn [ds_note me_m]; lia.
Qed.
Lemma read_ok L rate j d h : (-100 <= j <= 96)%Z -> ds_inv L rate j d h -> (1 <= Z.of_nat (me_m h) < 2 ^ 24)%Z ->
  let y := snd (ds_read d) in fin y /\ Rabs (B2R y) <= bpow radix2 j /\
  ((Z.of_nat (me_m h) <= 1000)%Z -> Rabs (B2R y - mean (lp4 (ideal_c (me_f h)) (sig (me_xs h))) (length (me_xs h) - me_m h) (me_m h)) <= bpow radix2 (j - 12)).
Proof.
  intros J (I1 & I2 & I3 & I4 & I5 & I6 & I7 & [A B]) M. unfold ds_read. rewrite I5. unfold wrap64. rewrite Z.mod_small by lia. destruct (Z.eqb_spec (Z.of_nat (me_m h)) 0) as [E|_]; [lia|]. cbn [snd].
  set (m := me_m h) in *. destruct (A ltac:(lia)) as [Fa Ba]. destruct (fofZ_R (prec:=24) (emax:=128) (Z.of_nat m) ltac:(lia)) as [Fm Em]. rewrite <- INR_IZR_INZ in Em.
  assert (P : 1 <= INR m) by (rewrite INR_IZR_INZ; apply IZR_le; lia). pose proof (bpow_gt_0 radix2 j) as PM.
  assert (Q : Rabs (B2R (ds_acc d) / INR m) <= bpow radix2 j).
  { unfold Rdiv. rewrite Rabs_mult, Rabs_inv, (Rabs_pos_eq (INR m)) by lra. apply Rmult_le_reg_r with (INR m); [lra|]. rewrite Rmult_assoc, Rinv_l by lra. lra. }
  destruct (fdiv_b (- bpow radix2 j) (bpow radix2 j) (ds_acc d) (fofZ (Z.of_nat m))) as (Fy & Ey & By); auto; [apply bdy; lia|apply bdy; lia|rewrite Em; lra|rewrite Em; now apply Rabs_le_inv|].
  split; [exact Fy|]. split; [now apply Rabs_le|]. intros M3. specialize (B M3). rewrite Em in Ey.
  pose proof (rnd_err1 j _ ltac:(lia) Q) as Er. rewrite <- Ey in Er. unfold mean. set (S := sum _ _ _) in *. clearbody S.
  assert (D : Rabs (B2R (ds_acc d) / INR m - S / INR m) <= (bpow radix2 (-13) + INR m * ru) * bpow radix2 j).
  { replace (B2R (ds_acc d) / INR m - S / INR m) with ((B2R (ds_acc d) - S) * / INR m) by (field; lra). rewrite Rabs_mult, Rabs_inv, (Rabs_pos_eq (INR m)) by lra.
    apply Rmult_le_reg_r with (INR m); [lra|]. rewrite Rmult_assoc, Rinv_l, Rmult_1_r by lra. eapply Rle_trans; [exact B|]. right. ring. }
  assert (P3 : INR m <= 1000) by (rewrite INR_IZR_INZ; apply IZR_le; lia).
  replace (j - 25)%Z with (-25 + j)%Z in Er by lia. replace (j - 12)%Z with (-12 + j)%Z by lia. rewrite bpow_plus in Er |- *. set (N := bpow radix2 j) in *. set (q := B2R (ds_acc d) / INR m) in *. clearbody q. clear - Er D P P3 PM.
  apply Rabs_le_inv in Er, D. unfold ru in D. revert Er D. clearbody N. bp. intros Er D. assert (INR m * 0.00000006 * N <= 1000 * 0.00000006 * N) by (apply Rmult_le_compat_r; [lra|]; lra).
  apply Rabs_le. split; nra.
Qed.
