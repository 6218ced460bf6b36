(** Accuracy of the load meter. *)
From Coq Require Import ZArith Reals Lra Lia Bool Psatz List PeanoNat.
From Flocq Require Import Core Relative BinarySingleNaN.
From Verif Require Import Flt FltFacts FltMore FltArith FltClose UtilModel UtilProofs OscProofs2 PhasorProofs Dbl ImProofs MgModel CpuModel CpuProofs.
Import ListNotations.
Local Open Scope R_scope.

(** A double that is [r] up to a factor between 1 - e and 1 + e. *)
Definition fx (e : R) (x : f64) (r : R) : Prop := fin x /\ exists d, B2R x = r * (1 + d) /\ Rabs d <= e.
Definition u9 : R := 0.00000000000000012.
Definition mid9 (r : R) : Prop := r = 0 \/ bpow radix2 (-900) <= Rabs r <= bpow radix2 900.
Lemma fx0 x : fin x -> fx 0 x (B2R x).
Proof. intro F. split; [exact F |]. exists 0. split; [ring |]. rewrite Rabs_R0. lra. Qed.
Lemma rnd_fac v : v = 0 \/ bpow radix2 (-901) <= Rabs v -> exists d, rnd64 v = v * (1 + d) /\ Rabs d <= u9.
Proof.
  intros [-> | H]; [exists 0; rewrite rnd_0, Rabs_R0; split; [ring | unfold u9; lra] |].
  destruct (relative_error_N_FLT_ex radix2 (-1074) 53 ltac:(reflexivity) (fun x => negb (Z.even x)) v) as (d & B & E).
  - eapply Rle_trans; [| exact H]. apply bpow_le. lia.
  - exists d. split; [exact E |]. eapply Rle_trans; [exact B |]. unfold u9. change (bpow radix2 (- (53) + 1)) with (/ 4503599627370496). lra.
Qed.
Lemma rnd_fx e r v d : mid9 r -> v = r * (1 + d) -> Rabs d <= / 4 -> (forall d', Rabs d' <= u9 -> Rabs ((1 + d) * (1 + d') - 1) <= e) ->
  Rabs (rnd64 v) < bpow radix2 1024 /\ exists c, rnd64 v = r * (1 + c) /\ Rabs c <= e.
Proof.
  intros M V D H. apply Rabs_le_inv in D.
  assert (F : v = 0 \/ bpow radix2 (-901) <= Rabs v).
  { destruct M as [-> | [A _]]; [left; rewrite V; ring | right]. rewrite V, Rabs_mult, (Rabs_pos_eq (1 + d)) by lra.
    change (-901)%Z with (-900 + -1)%Z. rewrite bpow_plus. change (bpow radix2 (-1)) with (/ 2). pose proof (bpow_gt_0 radix2 (-900)). nra. }
  destruct (rnd_fac v F) as (d' & E & B). split.
  - destruct (dy_rnd_bnd (prec:=53) (emax:=1024) (- bpow radix2 901) (bpow radix2 901) v) as [X _]; [apply dy_opp; apply dy_bpow; cbn; lia | apply dy_bpow; cbn; lia | | exact X].
    apply Rabs_le_inv. rewrite V, Rabs_mult, (Rabs_pos_eq (1 + d)) by lra. change 901%Z with (900 + 1)%Z. rewrite bpow_plus. change (bpow radix2 1) with 2.
    pose proof (bpow_gt_0 radix2 900). destruct M as [-> | [_ A]]; [rewrite Rabs_R0; nra | pose proof (Rabs_pos r); nra].
  - exists ((1 + d) * (1 + d') - 1). split; [rewrite E, V; ring | apply H; exact B].
Qed.
Lemma fx_mul e1 e2 e x y r1 r2 : fx e1 x r1 -> fx e2 y r2 -> e1 <= / 16 -> e2 <= / 16 -> mid9 (r1 * r2) -> (1 + e1) * (1 + e2) * (1 + u9) <= 1 + e -> fx e (fmul x y) (r1 * r2).
Proof.
  intros [Fx (a & Ea & Ba)] [Fy (b & Eb & Bb)] L1 L2 M H. pose proof (Rabs_pos a). pose proof (Rabs_pos b). apply Rabs_le_inv in Ba. apply Rabs_le_inv in Bb.
  destruct (rnd_fx e (r1 * r2) (B2R x * B2R y) ((1 + a) * (1 + b) - 1)) as [A (c & Ec & Bc)]; [exact M | rewrite Ea, Eb; ring | apply Rabs_le; nra | |].
  - intros d' Bd. apply Rabs_le_inv in Bd. unfold u9 in *. replace (1 + ((1 + a) * (1 + b) - 1)) with ((1 + a) * (1 + b)) by ring.
    assert (P1 : (1 - e1) * (1 - e2) <= (1 + a) * (1 + b)) by (apply Rmult_le_compat; lra).
    assert (P2 : (1 + a) * (1 + b) <= (1 + e1) * (1 + e2)) by (apply Rmult_le_compat; lra).
    assert (P0 : 0 <= (1 - e1) * (1 - e2)) by (apply Rmult_le_pos; lra).
    set (p := (1 + a) * (1 + b)) in *. set (q := (1 + e1) * (1 + e2)) in *. set (s := (1 - e1) * (1 - e2)) in *.
    assert (Q : s + q >= 2 /\ q <= 2) by (unfold s, q; split; nra). apply Rabs_le. split; nra.
  - destruct (fmul_ok x y Fx Fy A) as [F' E']. split; [exact F' |]. exists c. rewrite E'. split; assumption.
Qed.
Lemma fx_div e1 e2 e x y r1 r2 : fx e1 x r1 -> fx e2 y r2 -> e1 <= / 16 -> e2 <= / 16 -> r2 <> 0 -> mid9 (r1 / r2) -> (1 + e1) * (1 + u9) <= (1 + e) * (1 - e2) -> fx e (fdiv x y) (r1 / r2).
Proof.
  intros [Fx (a & Ea & Ba)] [Fy (b & Eb & Bb)] L1 L2 N M H. pose proof (Rabs_pos a). pose proof (Rabs_pos b). apply Rabs_le_inv in Ba. apply Rabs_le_inv in Bb.
  assert (NB : 1 + b <> 0) by lra.
  assert (G1 : (1 - e1) * (1 + b) <= (1 + a) * (1 + e2)) by (apply Rmult_le_compat; lra).
  assert (G2 : (1 + a) * (1 - e2) <= (1 + e1) * (1 + b)) by (apply Rmult_le_compat; lra).
  set (p := (1 + a) / (1 + b)). assert (Ep : p * (1 + b) = 1 + a) by (unfold p; field; exact NB).
  assert (P1 : (1 - e1) <= p * (1 + e2)).
  { apply Rmult_le_reg_r with (1 + b); [lra |]. replace (p * (1 + e2) * (1 + b)) with ((p * (1 + b)) * (1 + e2)) by ring. rewrite Ep. exact G1. }
  assert (P2 : p * (1 - e2) <= 1 + e1).
  { apply Rmult_le_reg_r with (1 + b); [lra |]. replace (p * (1 - e2) * (1 + b)) with ((p * (1 + b)) * (1 - e2)) by ring. rewrite Ep. exact G2. }
  assert (P0 : 0 <= p) by nra.
  destruct (rnd_fx e (r1 / r2) (B2R x / B2R y) (p - 1)) as [A (c & Ec & Bc)]; [exact M | rewrite Ea, Eb; unfold p; field; split; assumption | apply Rabs_le; nra | |].
  - intros d' Bd. apply Rabs_le_inv in Bd. assert (U : 0 <= u9 <= / 16) by (unfold u9; lra). set (u := u9) in *. clearbody u. replace (1 + (p - 1)) with p by ring. clearbody p. apply Rabs_le. split.
    + assert (X1 : p >= 1 - e1 - e2).
      { apply Rle_ge. apply Rmult_le_reg_r with (1 + e2); [lra |]. eapply Rle_trans; [| exact P1]. pose proof (Rmult_le_pos e1 e2 ltac:(lra) ltac:(lra)). pose proof (Rmult_le_pos e2 e2 ltac:(lra) ltac:(lra)). lra. }
      assert (X2 : (1 + e1) * (1 + u) * (1 + e2) <= 1 + e).
      { apply Rmult_le_reg_r with (1 - e2); [lra |]. eapply Rle_trans; [| exact H]. replace ((1 + e1) * (1 + u) * (1 + e2) * (1 - e2)) with ((1 + e1) * (1 + u) * (1 - e2 * e2)) by ring.
        rewrite <- (Rmult_1_r ((1 + e1) * (1 + u))) at 2. apply Rmult_le_compat_l; [apply Rmult_le_pos; lra |]. pose proof (Rmult_le_pos e2 e2 ltac:(lra) ltac:(lra)). lra. }
      assert (X3 : 1 + e1 + e2 + u <= (1 + e1) * (1 + u) * (1 + e2)).
      { pose proof (Rmult_le_pos e1 e2 ltac:(lra) ltac:(lra)). pose proof (Rmult_le_pos e1 u ltac:(lra) ltac:(lra)). pose proof (Rmult_le_pos e2 u ltac:(lra) ltac:(lra)).
        pose proof (Rmult_le_pos (e1 * e2) u ltac:(lra) ltac:(lra)). lra. }
      assert (X4 : (1 - e1 - e2) * (1 - u) <= p * (1 + d')) by (apply Rmult_le_compat; lra).
      pose proof (Rmult_le_pos (e1 + e2) u ltac:(lra) ltac:(lra)). lra.
    + assert (T : p * (1 - e2) * (1 + d') <= (1 + e1) * (1 + u)) by (apply Rmult_le_compat; try lra; apply Rmult_le_pos; lra).
      assert (X : p * (1 + d') <= 1 + e); [| lra]. apply Rmult_le_reg_r with (1 - e2); [lra |]. lra.
  - assert (NY : B2R y <> 0) by (rewrite Eb; apply Rmult_integral_contrapositive_currified; assumption).
    destruct (fdiv_ok x y Fx Fy NY A) as [F' E']. split; [exact F' |]. exists c. rewrite E'. split; assumption.
Qed.
(** Narrowing to float. *)
Lemma narrow e x r : fx e x r -> e <= 0.000000000000001 -> r = 0 \/ bpow radix2 (-20) <= r <= bpow radix2 14 ->
  fin (d2f x) /\ Rabs (B2R (d2f x) - r) <= 0.00000006 * r.
Proof.
  intros [F (d & E & B)] L H.
  assert (B20 : bpow radix2 (-20) = / 1048576) by (bp; lra). assert (B14 : bpow radix2 14 = 16384) by (bp; lra).
  assert (D : Rabs d <= 0.000000000000001) by lra. apply Rabs_le_inv in D.
  assert (R0 : 0 <= r <= 16384) by (rewrite B20, B14 in H; lra).
  assert (V : - bpow radix2 15 <= B2R x <= bpow radix2 15) by (assert (bpow radix2 15 = 32768) as -> by (bp; lra); rewrite E; nra).
  destruct (d2f_b (- bpow radix2 15) (bpow radix2 15) x F) as (F' & E' & _); [apply dy_opp; apply dy_bpow; cbn; lia | apply dy_bpow; cbn; lia | exact V |].
  split; [exact F' |]. rewrite E'. destruct H as [-> | H].
  - rewrite E, Rmult_0_l, rnd_0. rewrite Rminus_0_r, Rabs_R0. lra.
  - pose proof (rrel32 (B2R x)) as R. set (w := rnd32 (B2R x)) in *. clearbody w.
    assert (T : Rabs (B2R x - r) <= 0.000000000000001 * r) by (rewrite E; replace (r * (1 + d) - r) with (d * r) by ring; rewrite Rabs_mult, (Rabs_pos_eq r) by lra; apply Rmult_le_compat_r; [lra | apply Rabs_le; lra]).
    assert (A : Rabs (B2R x) <= 1.00000001 * r) by (replace (B2R x) with ((B2R x - r) + r) by ring; eapply Rle_trans; [apply Rabs_triang |]; rewrite (Rabs_pos_eq r) by lra; lra).
    assert (B24 : 0 < bpow radix2 (-24) <= 0.0000000596047) by (split; [apply bpow_gt_0 | bp; lra]).
    assert (B150 : bpow radix2 (-150) <= 0.0000000001 * r).
    { apply Rle_trans with (bpow radix2 (-60)); [apply bpow_le; lia |]. rewrite B20 in H. assert (bpow radix2 (-60) <= 0.0000000001 * / 1048576) by (bp; lra). lra. }
    replace (w - r) with ((w - B2R x) + (B2R x - r)) by ring. eapply Rle_trans; [apply Rabs_triang |].
    assert (bpow radix2 (-24) * Rabs (B2R x) <= 0.0000000596047 * (1.00000001 * r)) by (apply Rmult_le_compat; try lra; apply Rabs_pos). lra.
Qed.
Lemma bp900 : bpow radix2 900 >= bpow radix2 100 /\ bpow radix2 (-900) <= bpow radix2 (-100) /\ bpow radix2 100 >= 1000000000000000000000 /\ bpow radix2 (-100) <= / 1000000000000000000000.
Proof.
  split; [apply Rle_ge, bpow_le; lia |]. split; [apply bpow_le; lia |]. split; [change (bpow radix2 100) with (IZR (2 ^ 100)); apply Rle_ge; apply IZR_le; lia |].
  change (-100)%Z with (- (100))%Z. rewrite bpow_opp. apply Rinv_le; [lra |]. change (bpow radix2 100) with (IZR (2 ^ 100)). apply IZR_le. lia.
Qed.
Lemma mid9_pos r : / 1000000000000000000000 <= r <= 1000000000000000000000 -> mid9 r.
Proof. intro H. right. destruct bp900 as (A & B & C & D). rewrite Rabs_pos_eq by lra. lra. Qed.

(** A block with sane numbers, and the load it stands for, in percent. *)
Definition sane (b : turn) : Prop :=
  fin (tn_rate b) /\ 1 <= B2R (tn_rate b) <= 1000000 /\ (1 <= tn_frames b <= 1000000000)%Z /\ (0 <= tn_ns b <= 1000000000000000)%Z.
Definition load (b : turn) : R := 100 * (IZR (tn_ns b) / (IZR (tn_frames b) / B2R (tn_rate b) * 1000000000)).
Lemma time_ok b : sane b -> fx 0.0000000000000003 (cp_time (tn_rate b) (tn_frames b)) (IZR (tn_frames b) / B2R (tn_rate b) * 1000000000)
  /\ / 1000000 <= IZR (tn_frames b) / B2R (tn_rate b) <= 1000000000.
Proof.
  intros (F & R & N & T). destruct (f2d_R _ F) as [Fd Ed].
  assert (NR : 1 <= IZR (tn_frames b) <= 1000000000) by (split; [apply (IZR_le 1) | apply (IZR_le _ 1000000000)]; lia).
  destruct (fofZ_R (prec:=53) (emax:=1024) (tn_frames b)) as [Fn En]; [lia |]. destruct (fofZ_R (prec:=53) (emax:=1024) 1000000000) as [F9 E9]; [lia |].
  set (n := IZR (tn_frames b)) in *. set (r := B2R (tn_rate b)) in *.
  assert (Q : / 1000000 <= n / r <= 1000000000).
  { split; apply Rmult_le_reg_r with r; try lra; unfold Rdiv; rewrite Rmult_assoc, Rinv_l by lra; nra. }
  split; [| exact Q]. unfold cp_time, dz.
  assert (D : fx u9 (fdiv (fofZ (tn_frames b)) (f2d (tn_rate b))) (n / r)).
  { pose proof (fx0 _ Fn) as A. rewrite En in A. pose proof (fx0 _ Fd) as B. rewrite Ed in B. fold r in B.
    apply (fx_div 0 0 u9 _ _ n r A B); try lra; try (unfold u9; lra). apply mid9_pos. lra. }
  pose proof (fx0 _ F9) as A9. rewrite E9 in A9.
  apply (fx_mul u9 0 _ _ _ _ _ D A9); try (unfold u9; lra). apply mid9_pos. lra.
Qed.
Lemma sample_ok b : sane b -> load b = 0 \/ bpow radix2 (-20) <= load b <= bpow radix2 14 ->
  fin (cp_sample (tn_rate b) (tn_frames b) (tn_ns b)) /\ Rabs (B2R (cp_sample (tn_rate b) (tn_frames b) (tn_ns b)) - load b) <= 0.00000006 * load b.
Proof.
  intros S L. destruct (time_ok b S) as [TM Q]. destruct S as (F & R & N & T). unfold cp_sample.
  set (d := IZR (tn_frames b) / B2R (tn_rate b)) in *. set (tm := d * 1000000000) in *.
  assert (TR : 0 <= IZR (tn_ns b) <= 1000000000000000) by (split; [apply (IZR_le 0) | apply (IZR_le _ 1000000000000000)]; lia).
  assert (TP : 1000 <= tm <= 1000000000000000000) by (unfold tm; lra).
  destruct (fofZ_R (prec:=53) (emax:=1024) (tn_ns b)) as [Ft Et]; [lia |]. destruct (fofZ_R (prec:=53) (emax:=1024) 100) as [F1 E1]; [lia |].
  pose proof (fx0 _ Ft) as A. rewrite Et in A. pose proof (fx0 _ F1) as A1. rewrite E1 in A1.
  assert (MT : mid9 (IZR (tn_ns b) / tm) /\ mid9 (IZR (tn_ns b) / tm * 100)).
  { destruct (Z.eq_dec (tn_ns b) 0) as [-> | NZ]; [split; left; unfold Rdiv; ring |].
    assert (1 <= IZR (tn_ns b)) by (apply (IZR_le 1); lia).
    assert (/ 1000000000000000000 <= IZR (tn_ns b) / tm <= 1000000000000000).
    { split; apply Rmult_le_reg_r with tm; try lra; unfold Rdiv; rewrite Rmult_assoc, Rinv_l by lra; lra. }
    split; apply mid9_pos; lra. }
  assert (D : fx 0.0000000000000006 (fdiv (fofZ (tn_ns b)) (cp_time (tn_rate b) (tn_frames b))) (IZR (tn_ns b) / tm)).
  { apply (fx_div 0 0.0000000000000003 _ _ _ _ _ A TM); try lra; [apply MT | unfold u9; lra]. }
  assert (P : fx 0.0000000000000009 (fmul (fdiv (fofZ (tn_ns b)) (cp_time (tn_rate b) (tn_frames b))) (fofZ 100)) (IZR (tn_ns b) / tm * 100)).
  { apply (fx_mul 0.0000000000000006 0 _ _ _ _ _ D A1); try lra; [apply MT | unfold u9; lra]. }
  replace (load b) with (IZR (tn_ns b) / tm * 100) in * by (unfold load, tm, d; ring).
  apply (narrow _ _ _ P); [lra | exact L].
Qed.
Lemma time_pos b : sane b -> flt (dz 0) (cp_time (tn_rate b) (tn_frames b)) = true.
Proof.
  intro S. destruct (time_ok b S) as [[F (d & E & B)] Q]. apply Rabs_le_inv in B.
  destruct (fofZ_R (prec:=53) (emax:=1024) 0) as [F0 E0]; [lia |]. apply flt_R; [exact F0 | exact F |]. change (B2R (dz 0)) with (B2R (fofZ 0 : f64)). rewrite E0, E. nra.
Qed.
(** The reading from the sum. *)
Lemma reading_ok xs m : Forall tame xs -> xs <> [] -> adds cp_start xs = Some m ->
  fin (cp_usage m) /\ Rabs (B2R (cp_usage m) - sum (map val (recent xs)) / INR (length (recent xs))) <= 0.00000006 * (sum (map val (recent xs)) / INR (length (recent xs))).
Proof.
  intros T NE E. destruct (adds_sum xs T) as (m' & E' & (_ & SZ & _) & [FS ES] & U). rewrite E in E'. inversion E'; subst m'. clear E'. specialize (U NE).
  assert (LN : (1 <= length (recent xs) <= 100)%nat) by (rewrite recent_len; destruct xs; [congruence | cbn [length]; lia]).
  assert (SL : cp_size m = length (recent xs)) by (rewrite recent_len; exact SZ).
  pose proof (recent_tame xs T) as TR. revert SL LN TR ES. generalize (recent xs). intros l SL LN TR ES. rewrite U, SL.
  destruct (fofZ_R (prec:=53) (emax:=1024) (Z.of_nat (length l))) as [Fn En]; [lia |].
  assert (NR : 1 <= IZR (Z.of_nat (length l)) <= 100) by (split; [apply (IZR_le 1) | apply (IZR_le _ 100)]; lia).
  rewrite INR_IZR_INZ. set (n := IZR (Z.of_nat (length l))) in *.
  destruct (sum_grid l TR) as (k & Ek & Bk). set (s := sum (map val l)) in *.
  assert (S01 : s = 0 \/ bpow radix2 (-10) <= s).
  { clear - TR. subst s. induction l as [| x l IH]; [left; reflexivity |]. inversion TR as [| ? ? Tx Tl]; subst. cbn [map sum fold_right]. fold (sum (map val l)).
    assert (P : 0 < bpow radix2 (-10)) by apply bpow_gt_0. destruct Tx as [_ X]. change (B2R x + sum (map val l) = 0 \/ bpow radix2 (-10) <= B2R x + sum (map val l)).
    destruct (IH Tl) as [Z | B]; destruct X as [X | X]; [left | right | right | right]; lra. }
  assert (SB : s <= n * 8192).
  { rewrite Ek. apply Rle_trans with (IZR (Z.of_nat (length l) * 2 ^ 46) * bpow radix2 (-33)); [apply Rmult_le_compat_r; [apply bpow_ge_0 | apply IZR_le; lia] |].
    rewrite mult_IZR. fold n. change (IZR (2 ^ 46)) with (bpow radix2 46). rewrite Rmult_assoc, <- bpow_plus. change (bpow radix2 (46 + -33)) with 8192. lra. }
  assert (B10 : bpow radix2 (-10) = / 1024) by (bp; lra). rewrite B10 in S01.
  assert (W : s / n = 0 \/ / 102400 <= s / n <= 8192).
  { destruct S01 as [-> | G]; [left; unfold Rdiv; ring | right]. split; apply Rmult_le_reg_r with n; try lra; unfold Rdiv; rewrite Rmult_assoc, Rinv_l by lra; lra. }
  pose proof (fx0 _ FS) as A. rewrite ES in A. pose proof (fx0 _ Fn) as B. rewrite En in B.
  apply (narrow 0.0000000000000003).
  - apply (fx_div 0 0 _ _ _ _ _ A B); try lra; [| unfold u9; lra]. destruct W as [W | W]; [left; exact W | apply mid9_pos; lra].
  - lra.
  - destruct W as [W | W]; [left; exact W | right]. assert (bpow radix2 (-20) = / 1048576) as -> by (bp; lra). assert (bpow radix2 14 = 16384) as -> by (bp; lra). lra.
Qed.

(** An empty block is not counted, whatever the rate. *)
Lemma time_zero (r : f32) : flt (dz 0) (cp_time r 0) = false.
Proof.
  assert (Z : exists z : bool, fdiv (dz 0) (f2d r) = B754_zero z \/ fdiv (dz 0) (f2d r) = B754_nan).
  { assert (E : dz 0 = B754_zero false) by (vm_compute; reflexivity). rewrite E. destruct (f2d r) as [z | z | | z mm e H]; [exists z; right | exists z; left; destruct z | exists true; right | exists z; left; destruct z]; reflexivity. }
  unfold cp_time. destruct Z as (z & [-> | ->]); [| reflexivity]. destruct z; vm_compute; reflexivity.
Qed.
Lemma block_cases m b : sane b \/ tn_frames b = 0%Z ->
  (sane b /\ cp_block m b = cp_add m (cp_sample (tn_rate b) (tn_frames b) (tn_ns b))) \/ (tn_frames b = 0%Z /\ cp_block m b = Some m).
Proof.
  unfold cp_block. intros [S | Z]; [left | right]; (split; [assumption |]); [rewrite (time_pos b S); reflexivity |]. rewrite Z, time_zero. reflexivity.
Qed.
Definition counted (b : turn) : bool := negb (Z.eqb (tn_frames b) 0).
Definition smp (b : turn) : f32 := cp_sample (tn_rate b) (tn_frames b) (tn_ns b).
Lemma run_adds bs : Forall (fun b => sane b \/ tn_frames b = 0%Z) bs -> forall m, cp_run m bs = adds m (map smp (filter counted bs)).
Proof.
  induction bs as [| b bs IH]; intros H m; [reflexivity |]. inversion H as [| ? ? HB HT]; subst. cbn [cp_run filter]. unfold counted at 1.
  destruct (block_cases m b HB) as [[S E] | [Z E]]; rewrite E.
  - destruct S as (_ & _ & N & _). destruct (Z.eqb_spec (tn_frames b) 0) as [|_]; [lia |]. cbn [negb map adds]. unfold smp at 1. destruct (cp_add m _); [apply IH; exact HT | reflexivity].
  - rewrite Z. cbn [Z.eqb negb]. apply IH. exact HT.
Qed.
Lemma map_recent {A B} (f : A -> B) l : map f (recent l) = recent (map f l).
Proof. unfold recent. rewrite map_length. generalize (length l - 100)%nat. induction l as [| x l IH]; intros [| n]; try reflexivity. cbn [skipn map]. apply IH. Qed.
Lemma sum_close (l : list turn) : Forall (fun b => Rabs (B2R (smp b) - load b) <= 0.00000006 * load b) l -> Rabs (sum (map val (map smp l)) - sum (map load l)) <= 0.00000006 * sum (map load l).
Proof.
  induction l as [| b l IH]; intro H; [cbn; rewrite Rminus_0_r, Rabs_R0; lra |]. inversion H as [| ? ? HB HT]; subst. specialize (IH HT).
  change (sum (map val (map smp (b :: l)))) with (B2R (smp b) + sum (map val (map smp l))). change (sum (map load (b :: l))) with (load b + sum (map load l)).
  replace (B2R (smp b) + sum (map val (map smp l)) - (load b + sum (map load l))) with ((B2R (smp b) - load b) + (sum (map val (map smp l)) - sum (map load l))) by ring.
  eapply Rle_trans; [apply Rabs_triang |]. lra.
Qed.
Definition usual (b : turn) : Prop := sane b /\ (load b = 0 \/ 0.001 <= load b <= 8000).
Lemma usual_tame b : usual b -> tame (smp b) /\ Rabs (B2R (smp b) - load b) <= 0.00000006 * load b.
Proof.
  intros [S L]. assert (B10 : bpow radix2 (-10) = / 1024) by (bp; lra). assert (B13 : bpow radix2 13 = 8192) by (bp; lra).
  destruct (sample_ok b S) as [F B]; [destruct L as [L | L]; [left; exact L | right]; assert (bpow radix2 (-20) = / 1048576) as -> by (bp; lra); assert (bpow radix2 14 = 16384) as -> by (bp; lra); lra |].
  split; [| exact B]. split; [exact F |]. rewrite B10, B13. fold (smp b) in B. apply Rabs_le_inv in B. destruct L as [L | L]; [left; rewrite L in B; lra | right; lra].
Qed.
Lemma meter_ok bs : Forall (fun b => usual b \/ tn_frames b = 0%Z) bs -> filter counted bs <> [] ->
  exists m, cp_run cp_start bs = Some m /\ fin (cp_usage m)
  /\ (let l := map load (recent (filter counted bs)) in Rabs (B2R (cp_usage m) - sum l / INR (length l)) <= 0.00000013 * (sum l / INR (length l))).
Proof.
  intros H NE. assert (HS : Forall (fun b => sane b \/ tn_frames b = 0%Z) bs) by (eapply Forall_impl; [| exact H]; intros b [[S _] | Z]; [left; exact S | right; exact Z]).
  assert (HU : Forall usual (filter counted bs)).
  { apply Forall_forall. intros b IN. apply filter_In in IN. destruct IN as [IN C]. rewrite Forall_forall in H. destruct (H b IN) as [U | Z]; [exact U |]. unfold counted in C. rewrite Z in C. discriminate. }
  rewrite (run_adds bs HS). revert HU NE. generalize (filter counted bs). clear. intros ws HU NE.
  assert (HT : Forall tame (map smp ws)) by (apply Forall_map; eapply Forall_impl; [| exact HU]; intros b U; apply (usual_tame b U)).
  destruct (adds_sum _ HT) as (m & E & _). exists m. split; [exact E |].
  destruct (reading_ok (map smp ws) m HT ltac:(destruct ws; [congruence | discriminate]) E) as [F B]. split; [exact F |]. cbv zeta.
  rewrite <- map_recent in B. rewrite map_length in B |- *.
  assert (HR : Forall usual (recent ws)) by (unfold recent; rewrite <- (firstn_skipn (length ws - 100) ws) in HU; apply Forall_app in HU; apply HU).
  assert (LN : (1 <= length (recent ws))%nat) by (rewrite recent_len; destruct ws; [congruence | cbn [length]; lia]).
  revert B HR LN. generalize (recent ws). clear. intros l B HR LN.
  pose proof (sum_close l ltac:(eapply Forall_impl; [| exact HR]; intros b U; apply (usual_tame b U))) as C.
  assert (N : 0 < INR (length l)) by (apply lt_0_INR; lia). set (n := INR (length l)) in *.
  assert (P : 0 <= sum (map load l)).
  { clear - HR. induction l as [| b l IH]; [cbn; lra |]. inversion HR as [| ? ? [_ U] HT]; subst. specialize (IH HT). change (sum (map load (b :: l))) with (load b + sum (map load l)). lra. }
  set (s := sum (map val (map smp l))) in *. set (q := sum (map load l)) in *.
  assert (C' : Rabs (s / n - q / n) <= 0.00000006 * (q / n)).
  { replace (s / n - q / n) with ((s - q) * / n) by (unfold Rdiv; ring). rewrite Rabs_mult, (Rabs_pos_eq (/ n)) by (left; apply Rinv_0_lt_compat; exact N).
    unfold Rdiv. rewrite <- Rmult_assoc. apply Rmult_le_compat_r; [left; apply Rinv_0_lt_compat; exact N | exact C]. }
  assert (Q : 0 <= q / n) by (apply Rmult_le_pos; [exact P | left; apply Rinv_0_lt_compat; exact N]).
  set (a := s / n) in *. set (c := q / n) in *. clearbody a c. apply Rabs_le_inv in B. apply Rabs_le_inv in C'. apply Rabs_le. lra.
Qed.
