(** Downsampler properties C43, C62. *)
From Coq Require Import ZArith Reals Lra Lia Bool List Psatz.
From Flocq Require Import Core BinarySingleNaN.
From Verif Require Import Flt FltFacts FltMore FltScale Libm LibmInst EnvSpec EnvInst UtilModel UtilProofs OscSpec OscProofs3 OscProps SmoothSpec DsModel DsSpec DsProofs DsProofs2.
Import ListNotations.
Local Open Scope R_scope.

(** ** Counting *)
Lemma count_ok L rate f ops : (0 <= f)%Z -> (forall g, In (DsFactor g) ops -> (0 <= g)%Z) -> (Z.of_nat (length ops) < 2 ^ 64)%Z ->
  ds_n (ds_after L rate f ops) = Z.of_nat (me_m (ds_notes f ops)) /\ ds_fac (ds_after L rate f ops) = me_f (ds_notes f ops).
Proof.
  intros F G N. unfold ds_after, ds_notes. assert (I : ds_n (ds_init L rate f) = Z.of_nat (me_m (Mem (clamp16 f) [] 0)) /\ ds_fac (ds_init L rate f) = me_f (Mem (clamp16 f) [] 0)) by (split; [reflexivity|now apply factor_clamp]).
  assert (M0 : (Z.of_nat (me_m (Mem (clamp16 f) [] 0) + length ops) < 2 ^ 64)%Z) by (cbn [me_m]; lia).
  revert I M0. generalize (ds_init L rate f) (Mem (clamp16 f) [] 0). clear N. induction ops as [|o ops IH]; intros d h [I1 I2] M; cbn [fold_left]; [auto|]. cbn [length] in M.
  apply IH; [intros g Hg; apply G; now right| |destruct o; cbn [ds_note me_m]; lia].
  destruct o as [x| |g|]; cbn [ds_call ds_note fst me_m me_f].
  - cbn [ds_write ds_n ds_fac]. rewrite I1. unfold wrap64. rewrite Z.mod_small by lia. split; [lia|exact I2].
  - unfold ds_read. destruct (Z.eqb_spec (ds_n d) 0) as [E|E]; cbn [fst ds_n ds_fac]; auto.
  - cbn [ds_setFactor ds_init ds_n ds_fac]. split; [reflexivity|]. apply factor_clamp, G. now left.
  - auto.
Qed.
(** C43: isReady holds exactly when at least [factor] samples have been written since the last read; the factor in force is the last one asked for, limited to 1..16. *)
Theorem C43_ready : forall L rate f ops, (0 <= f)%Z -> (forall g, In (DsFactor g) ops -> (0 <= g)%Z) -> (Z.of_nat (length ops) < 2 ^ 64)%Z ->
  let h := ds_notes f ops in (ds_ready (ds_after L rate f ops) = true <-> (me_f h <= Z.of_nat (me_m h))%Z) /\ (1 <= me_f h <= 16)%Z.
Proof.
  intros L rate f ops F G N h. destruct (count_ok L rate f ops F G N) as [A B]. unfold ds_ready. rewrite A, B, Z.leb_le. split; [reflexivity|].
  unfold h, ds_notes. assert (B0 : (1 <= me_f (Mem (clamp16 f) [] 0) <= 16)%Z) by apply clamp16_b. revert B0. generalize (Mem (clamp16 f) [] 0). clear.
  induction ops as [|o ops IH]; intros h B; cbn [fold_left]; [exact B|]. apply IH. destruct o; cbn [ds_note me_f]; try exact B. apply clamp16_b.
Qed.
Print Assumptions C43_ready.
(** C43: with nothing written since the last read, read returns 0. *)
Theorem C43_empty : forall L rate f ops, (0 <= f)%Z -> (forall g, In (DsFactor g) ops -> (0 <= g)%Z) -> (Z.of_nat (length ops) < 2 ^ 64)%Z ->
  me_m (ds_notes f ops) = 0%nat -> ds_read (ds_after L rate f ops) = (ds_after L rate f ops, zero).
Proof. intros L rate f ops F G N M. destruct (count_ok L rate f ops F G N) as [A _]. unfold ds_read. rewrite A, M. reflexivity. Qed.
Print Assumptions C43_empty.
(** C43: whatever is called in between, the output never exceeds the level of the samples written (level any power of two). *)
Theorem C43_bounded : forall L rate f j ops, exp_unit L -> exp_acc L -> fin rate -> 1 <= B2R rate <= bpow radix2 90 -> (-100 <= j <= 96)%Z -> (0 <= f)%Z -> Forall (ds_op_ok (bpow radix2 j)) ops ->
  (Z.of_nat (length ops) < 2 ^ 64)%Z -> (1 <= Z.of_nat (me_m (ds_notes f ops)) < 2 ^ 24)%Z ->
  let y := snd (ds_read (ds_after L rate f ops)) in fin y /\ Rabs (B2R y) <= bpow radix2 j.
Proof.
  intros L rate f j ops U A Fr Br J F O N M y. destruct (read_ok L rate j _ _ J (run_ok L rate f j ops U A Fr Br J F O N) M) as (Y1 & Y2 & _). auto.
Qed.
Print Assumptions C43_bounded.
(** C62: read returns the mean, over the samples written since the last read, of the real four-pole lowpass with cutoff 0.45 of the output rate, applied to everything
    written since the last clearing; error at most 2^-12 of the level, for ever. *)
Theorem C62_filter : forall L rate f j ops, exp_unit L -> exp_acc L -> fin rate -> 1 <= B2R rate <= bpow radix2 90 -> (-100 <= j <= 96)%Z -> (0 <= f)%Z -> Forall (ds_op_ok (bpow radix2 j)) ops ->
  (Z.of_nat (length ops) < 2 ^ 64)%Z -> let h := ds_notes f ops in (1 <= Z.of_nat (me_m h) <= 1000)%Z ->
  let y := snd (ds_read (ds_after L rate f ops)) in
  Rabs (B2R y - mean (lp4 (ideal_c (me_f h)) (sig (me_xs h))) (length (me_xs h) - me_m h) (me_m h)) <= bpow radix2 (j - 12).
Proof.
  intros L rate f j ops U A Fr Br J F O N h M y. assert (M' : (1 <= Z.of_nat (me_m h) < 2 ^ 24)%Z) by lia. destruct (read_ok L rate j _ _ J (run_ok L rate f j ops U A Fr Br J F O N) M') as (_ & _ & Y3). apply Y3. fold h. lia.
Qed.
Print Assumptions C62_filter.

(** ** Settling on a constant *)
Lemma lp_settle c u x A : 0.15 <= c <= 1 -> Rabs x <= A -> (forall n, Rabs (u n - x) <= A * 0.95 ^ n) -> forall n, Rabs (lp c u n - x) <= 3 / 2 * A * 0.95 ^ n.
Proof.
  intros C XA U. assert (A0 : 0 <= A) by (eapply Rle_trans; [apply Rabs_pos|exact XA]). induction n as [|n IH]; cbn [lp].
  - pose proof (U O) as U0. cbn [pow] in *. replace (c * u O - x) with (c * (u O - x) - (1 - c) * x) by ring. eapply Rle_trans; [apply Rabs_triang|]. rewrite Rabs_Ropp, !Rabs_mult, (Rabs_pos_eq c), (Rabs_pos_eq (1 - c)) by lra. nra.
  - pose proof (U (S n)) as U1. assert (P : 0 < 0.95 ^ n) by (apply pow_lt; lra). cbn [pow] in *. set (p := 0.95 ^ n) in *. clearbody p.
    replace ((1 - c) * lp c u n + c * u (S n) - x) with ((1 - c) * (lp c u n - x) + c * (u (S n) - x)) by ring. eapply Rle_trans; [apply Rabs_triang|]. rewrite !Rabs_mult, (Rabs_pos_eq c), (Rabs_pos_eq (1 - c)) by lra.
    apply Rle_trans with ((1 - c) * (3 / 2 * A * p) + c * (A * (0.95 * p))); [apply Rplus_le_compat; apply Rmult_le_compat_l; lra|].
    assert (0 <= A * p) by nra. replace (3 / 2 * A * (0.95 * p)) with (1.425 * (A * p)) by lra. replace ((1 - c) * (3 / 2 * A * p) + c * (A * (0.95 * p))) with ((1.5 - 0.55 * c) * (A * p)) by lra. apply Rmult_le_compat_r; lra.
Qed.
Lemma lp4_settle c x n : 0.15 <= c <= 1 -> Rabs (lp4 c (fun _ => x) n - x) <= 6 * Rabs x * 0.95 ^ n.
Proof.
  intros C. unfold lp4. pose proof (Rabs_pos x) as P. assert (Q : 0 < 0.95 ^ n) by (apply pow_lt; lra).
  eapply Rle_trans; [apply (lp_settle c _ x (3 / 2 * (3 / 2 * (3 / 2 * Rabs x)))); [exact C|lra|]|].
  - apply lp_settle; [exact C|lra|]. apply lp_settle; [exact C|lra|]. apply lp_settle; [exact C|lra|]. intros k. rewrite Rminus_diag_eq, Rabs_R0 by reflexivity. assert (0 < 0.95 ^ k) by (apply pow_lt; lra). nra.
  - apply Rmult_le_compat_r; lra.
Qed.
Lemma p95 n : (300 <= n)%nat -> 0.95 ^ n <= 0.000001.
Proof.
  intros H. assert (A : 0.95 ^ 20 <= 0.36) by (cbn [pow]; lra). assert (B : 0.36 ^ 15 <= 0.000001) by (cbn [pow]; lra).
  replace n with (20 * 15 + (n - 300))%nat by lia. rewrite pow_add, pow_mult. assert (0 < 0.95 ^ 20) by (apply pow_lt; lra).
  assert ((0.95 ^ 20) ^ 15 <= 0.36 ^ 15) by (apply pow_incr; lra). assert (0.95 ^ (n - 300) <= 1) by (rewrite <- (pow1 (n - 300)); apply pow_incr; lra).
  assert (0 < 0.95 ^ (n - 300)) by (apply pow_lt; lra). assert (0 < (0.95 ^ 20) ^ 15) by (now apply pow_lt). set (a := (0.95 ^ 20) ^ 15) in *. set (b := 0.95 ^ (n - 300)) in *. clearbody a b. nra.
Qed.
Lemma sum_near u a m x e : (forall k, (a <= k)%nat -> Rabs (u k - x) <= e) -> Rabs (sum u a m - INR m * x) <= INR m * e.
Proof.
  intros U. induction m as [|m IH]; [cbn [sum INR]; rewrite !Rmult_0_l, Rminus_0_r, Rabs_R0; lra|]. cbn [sum]. rewrite S_INR. pose proof (U (a + m)%nat ltac:(lia)) as V.
  apply Rabs_le_inv in IH, V. apply Rabs_le. split; lra.
Qed.
(** C62: unit gain: after 300 equal samples every further mean is within 2^-11 of the level of that sample. *)
Theorem C62_settles : forall L rate f j x n m, exp_unit L -> exp_acc L -> fin rate -> 1 <= B2R rate <= bpow radix2 90 -> (-100 <= j <= 96)%Z -> (0 <= f)%Z -> within (bpow radix2 j) x ->
  (300 <= n)%nat -> (1 <= m <= 1000)%nat -> (Z.of_nat n < 2 ^ 60)%Z ->
  let ops := repeat (DsWrite x) n ++ DsRead :: repeat (DsWrite x) m in
  Rabs (B2R (snd (ds_read (ds_after L rate f ops))) - B2R x) <= bpow radix2 (j - 11).
Proof.
  intros L rate f j x n m U A Fr Br J F W N M NB ops.
  assert (WN : forall k h, fold_left ds_note (repeat (DsWrite x) k) h = Mem (me_f h) (me_xs h ++ repeat x k) (me_m h + k)).
  { induction k as [|k IH]; intros h; cbn [repeat fold_left]; [rewrite app_nil_r, Nat.add_0_r; now destruct h|]. rewrite IH. cbn [ds_note me_f me_xs me_m]. rewrite <- app_assoc. cbn [app]. f_equal. lia. }
  assert (H : ds_notes f ops = Mem (clamp16 f) (repeat x (n + m)) m).
  { unfold ds_notes, ops. rewrite fold_left_app. cbn [fold_left]. rewrite !WN. cbn [ds_note me_f me_xs me_m app]. rewrite <- repeat_app. reflexivity. }
  assert (O : Forall (ds_op_ok (bpow radix2 j)) ops).
  { unfold ops. apply Forall_app. split; [|constructor; [exact I|]]; apply Forall_forall; intros o Ho; apply repeat_spec in Ho; subst o; exact W. }
  assert (LN : (Z.of_nat (length ops) < 2 ^ 64)%Z) by (unfold ops; rewrite app_length; cbn [length]; rewrite !repeat_length; lia).
  pose proof (C62_filter L rate f j ops U A Fr Br J F O LN) as T. rewrite H in T. cbv zeta in T. cbn [me_f me_xs me_m] in T. specialize (T ltac:(lia)). rewrite repeat_length in T. replace (n + m - m)%nat with n in T by lia.
  set (C := ideal_c (clamp16 f)) in *. assert (CB : 0.15 <= C <= 1) by apply ideal_b, clamp16_b. destruct W as [Fx Bx].
  assert (SE : sum (lp4 C (sig (repeat x (n + m)))) n m = sum (lp4 C (fun _ => B2R x)) n m).
  { apply sum_ext. intros k Hk. apply lp4_ext. intros i Hi. unfold sig. f_equal. apply (repeat_spec (n + m) x), nth_In. rewrite repeat_length. lia. }
  unfold mean in T. rewrite SE in T. pose proof (sum_near (lp4 C (fun _ => B2R x)) n m (B2R x) (0.000006 * bpow radix2 j)) as SN.
  assert (U1 : forall k, (n <= k)%nat -> Rabs (lp4 C (fun _ => B2R x) k - B2R x) <= 0.000006 * bpow radix2 j).
  { intros k Hk. eapply Rle_trans; [apply lp4_settle; exact CB|]. pose proof (p95 k ltac:(lia)). assert (0 < 0.95 ^ k) by (apply pow_lt; lra). pose proof (Rabs_pos (B2R x)). pose proof (bpow_gt_0 radix2 j). set (M1 := bpow radix2 j) in *. clearbody M1.
    apply Rle_trans with (6 * M1 * 0.000001); [apply Rmult_le_compat; lra|lra]. }
  specialize (SN U1). assert (P : 1 <= INR m) by (rewrite INR_IZR_INZ; apply IZR_le; lia). set (S := sum (lp4 C (fun _ => B2R x)) n m) in *. clearbody S.
  assert (D : Rabs (S / INR m - B2R x) <= 0.000006 * bpow radix2 j).
  { replace (S / INR m - B2R x) with ((S - INR m * B2R x) * / INR m) by (field; lra). rewrite Rabs_mult, Rabs_inv, (Rabs_pos_eq (INR m)) by lra. apply Rmult_le_reg_r with (INR m); [lra|]. rewrite Rmult_assoc, Rinv_l by lra. lra. }
  replace (j - 12)%Z with (-12 + j)%Z in T by lia. replace (j - 11)%Z with (-11 + j)%Z by lia. rewrite bpow_plus in T |- *. apply Rabs_le_inv in T, D. pose proof (bpow_gt_0 radix2 j). set (M1 := bpow radix2 j) in *. clearbody M1.
  revert T. bp. intros T. apply Rabs_le. split; lra.
Qed.
Print Assumptions C62_settles.

(** ** Blocks *)
Lemma writes_ok input k : forall d i, (0 <= i)%Z -> (Z.to_nat i + k <= length input)%nat -> ds_writes d input i k = Some (fold_left ds_write (firstn k (skipn (Z.to_nat i) input)) d).
Proof.
  induction k as [|k IH]; intros d i I H; cbn [ds_writes]; [reflexivity|].
  destruct (nth_error input (Z.to_nat i)) as [x|] eqn:E; [|apply nth_error_None in E; lia]. rewrite IH by lia.
  assert (S : skipn (Z.to_nat i) input = x :: skipn (Z.to_nat (i + 1)) input).
  { replace (Z.to_nat (i + 1)) with (S (Z.to_nat i)) by lia. clear - E. revert E. generalize (Z.to_nat i). intros n. revert input. induction n as [|n IH]; intros [|a l] E; try discriminate E; [injection E as ->; reflexivity|]. apply IH. exact E. }
  rewrite S. reflexivity.
Qed.
Lemma writes_short input k : forall d i, (0 <= i)%Z -> (length input < Z.to_nat i + k)%nat -> (Z.to_nat i <= length input)%nat -> ds_writes d input i k = None.
Proof.
  induction k as [|k IH]; intros d i I H B; [lia|]. cbn [ds_writes]. destruct (nth_error input (Z.to_nat i)) as [x|] eqn:E; [|reflexivity].
  apply IH; [lia|lia|]. assert (Z.to_nat i < length input)%nat by (apply nth_error_Some; congruence). lia.
Qed.
Lemma run_writes L l : forall d, run (ds_call L) d (map DsWrite l) = (fold_left ds_write l d, map (fun _ => None) l).
Proof. induction l as [|x l IH]; intros d; cbn [map run ds_call fold_left]; [reflexivity|]. rewrite IH. reflexivity. Qed.
Lemma fac_writes l : forall d, ds_fac (fold_left ds_write l d) = ds_fac d.
Proof. induction l as [|x l IH]; intros d; cbn [fold_left]; [reflexivity|]. rewrite IH. reflexivity. Qed.
Lemma fac_read d : ds_fac (fst (ds_read d)) = ds_fac d. Proof. unfold ds_read. destruct (_ =? _)%Z; reflexivity. Qed.
Lemma returned_app l r : returned (l ++ r) = returned l ++ returned r.
Proof. induction l as [|[y|] l IH]; cbn [app returned]; [reflexivity| |]; now rewrite IH. Qed.
Lemma process_from L f input n : forall d i, ds_fac d = Z.of_nat f -> ((i + n) * f <= length input)%nat ->
  let p := run (ds_call L) d (flat_map (fun i => map DsWrite (firstn f (skipn (i * f) input)) ++ [DsRead]) (seq i n)) in
  ds_process_from d input (Z.of_nat i) n = Some (fst p, returned (snd p)) /\ length (returned (snd p)) = n.
Proof.
  induction n as [|n IH]; intros d i F H; cbn [seq flat_map ds_process_from]; [split; reflexivity|].
  assert (IF : (i * f + f <= length input)%nat) by nia.
  rewrite F, writes_ok by (rewrite ?Z2Nat.inj_mul, ?Nat2Z.id by lia; lia). rewrite Z2Nat.inj_mul, !Nat2Z.id by lia. set (fr := firstn f (skipn (i * f) input)). set (d1 := fold_left ds_write fr d).
  destruct (ds_read d1) as [d2 y] eqn:E. assert (F2 : ds_fac d2 = Z.of_nat f) by (replace d2 with (fst (ds_read d1)) by (now rewrite E); rewrite fac_read; unfold d1; rewrite fac_writes; exact F).
  specialize (IH d2 (S i) F2 ltac:(lia)). cbv zeta in IH. replace (Z.of_nat i + 1)%Z with (Z.of_nat (S i)) by lia. rewrite <- app_assoc. cbn [app].
  rewrite run_app. rewrite run_writes. fold d1. cbn [fst snd run ds_call]. rewrite E. destruct (run (ds_call L) d2 _) as [d3 os]. cbn [fst snd] in *. destruct IH as [-> IH2].
  assert (R : returned (map (fun _ : f32 => None) fr) = []) by (clear; induction fr as [|a l IH]; cbn [map returned]; auto). rewrite returned_app, R. cbn [app returned length]. split; [reflexivity|lia].
Qed.
(** C43: process on n frames does exactly what n rounds of [factor] writes and one read do, and returns the n values read. *)
Theorem C43_process : forall L d input n, (1 <= ds_fac d <= 16)%Z -> let f := Z.to_nat (ds_fac d) in (n * f <= length input)%nat ->
  let p := run (ds_call L) d (frames f n input) in ds_process d input n = Some (fst p, returned (snd p)) /\ length (returned (snd p)) = n.
Proof.
  intros L d input n F f H. unfold ds_process, frames. apply (process_from L f input n d 0); [unfold f; lia|lia].
Qed.
Print Assumptions C43_process.
(** C43: and it reads past the end of a block that is too short. *)
Lemma process_short f input n : forall d i, ds_fac d = Z.of_nat f -> (i * f <= length input)%nat -> (length input < (i + n) * f)%nat -> ds_process_from d input (Z.of_nat i) n = None.
Proof.
  induction n as [|n IH]; intros d i F B H; [lia|]. cbn [ds_process_from]. rewrite F.
  destruct (Nat.le_gt_cases (i * f + f) (length input)) as [C|C].
  - rewrite writes_ok by (rewrite ?Z2Nat.inj_mul, ?Nat2Z.id by lia; lia). set (d1 := fold_left _ _ _). destruct (ds_read d1) as [d2 y] eqn:E.
    replace (Z.of_nat i + 1)%Z with (Z.of_nat (S i)) by lia. rewrite IH; [reflexivity| |lia|lia].
    replace d2 with (fst (ds_read d1)) by (now rewrite E). rewrite fac_read. unfold d1. rewrite fac_writes. exact F.
  - rewrite writes_short; [reflexivity|lia|rewrite Z2Nat.inj_mul, !Nat2Z.id by lia; lia|rewrite Z2Nat.inj_mul, !Nat2Z.id by lia; lia].
Qed.
Theorem C43_process_needs : forall d input n, (1 <= ds_fac d <= 16)%Z -> (length input < n * Z.to_nat (ds_fac d))%nat -> ds_process d input n = None.
Proof. intros d input n F H. unfold ds_process. apply (process_short (Z.to_nat (ds_fac d)) input n d 0); lia. Qed.
Print Assumptions C43_process_needs.
(** C43: a stereo downsampler is two independent mono ones. *)
Theorem C43_stereo : forall L ops l r, let p := run (ds_call L) l (map (channel true) ops) in let q := run (ds_call L) r (map (channel false) ops) in
  fold_left (fun d o => fst (ds2_call L d o)) ops (l, r) = (fst p, fst q) /\
  (forall o, snd (ds2_call L (l, r) o) = match snd (ds_call L l (channel true o)), snd (ds_call L r (channel false o)) with Some x, Some y => Some (x, y) | _, _ => None end).
Proof.
  intros L ops l r p q. split.
  - unfold p, q. clear p q. revert l r. induction ops as [|o ops IH]; intros l r; cbn [fold_left map run]; [reflexivity|].
    assert (E : fst (ds2_call L (l, r) o) = (fst (ds_call L l (channel true o)), fst (ds_call L r (channel false o)))).
    { destruct o; cbn [ds2_call ds_call channel fst]; try reflexivity. unfold ds2_read. cbn [fst snd]. destruct (ds_read l), (ds_read r). reflexivity. }
    rewrite E, IH. destruct (ds_call L l _) as [l1 x]. destruct (ds_call L r _) as [r1 y]. cbn [fst].
    destruct (run _ l1 _) as [l2 xs]. destruct (run _ r1 _) as [r2 ys]. reflexivity.
  - intros o. destruct o; cbn [ds2_call ds_call channel snd]; try reflexivity. unfold ds2_read. cbn [fst snd]. destruct (ds_read l), (ds_read r). reflexivity.
Qed.
Print Assumptions C43_stereo.

(** ** Examples *)
(** Coefficient one half: filtered samples 1 and 3, mean 2. *)
Example ex_C43 : let d := ds_init half_exp (fofZ 48000) 2 in
  match ds_process d [fofZ 16; fofZ 16; zero; zero] 2 with Some (_, [a; b]) => feq a (fdec 4 2) && negb (feq b a) | _ => false end = true.
Proof. vm_compute. reflexivity. Qed.
Example ex_C43_short : ds_process (ds_init half_exp (fofZ 48000) 2) [one; one; one] 2 = None.
Proof. reflexivity. Qed.
Example ex_C43_factor : ds_fac (ds_init half_exp (fofZ 48000) 0) = 1%Z /\ ds_fac (ds_init half_exp (fofZ 48000) 99) = 16%Z.
Proof. split; reflexivity. Qed.
Example ex_C43_ready : let d := ds_write (ds_init half_exp (fofZ 48000) 2) one in ds_ready d = false /\ ds_ready (ds_write d one) = true /\ ds_ready (fst (ds_read (ds_write d one))) = false.
Proof. repeat split; reflexivity. Qed.
(** The ideal filter on an impulse with coefficient 1/2: 1/16, 2/16, 5/32. *)
Example ex_C62 : let u n := match n with O => 1 | _ => 0 end in lp4 (/ 2) u 0 = / 16 /\ lp4 (/ 2) u 1 = 2 / 16 /\ lp4 (/ 2) u 2 = 5 / 32.
Proof. unfold lp4. cbn [lp]. repeat split; lra. Qed.
Example ex_C62_hyp : exp_unit exact_libm /\ exp_acc exact_libm /\ 1 <= B2R (fofZ 48000 : f32) <= bpow radix2 90.
Proof.
  split; [apply exact_exp_unit|]. split; [apply exact_exp_acc|]. fval (fofZ 48000 : f32). split; [lra|]. apply Rle_trans with (bpow radix2 16); [bp; lra|apply bpow_le; lia].
Qed.
