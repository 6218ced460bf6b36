(** C113: the load meter of the supersaw example. *)
From Coq Require Import ZArith Reals Lra Lia Bool List PeanoNat.
From Flocq Require Import Core BinarySingleNaN.
From Verif Require Import Flt FltFacts FltMore UtilModel MgModel CpuModel CpuProofs CpuProofs2.
Import ListNotations.
Local Open Scope R_scope.

(** No sequence of samples (NaN and infinities included) takes the ring out of bounds; it holds the last 100 of them. *)
Theorem C113_ring : forall xs : list f32, exists m, adds cp_start xs = Some m
  /\ cp_size m = Nat.min (length xs) 100 /\ (cp_idx m < 100)%nat
  /\ (forall j, (length xs - 100 <= j < length xs)%nat -> nth_error (cp_ring m) (Nat.modulo j 100) = nth_error xs j).
Proof.
  intro xs. destruct (adds_ring xs) as (m & E & (L & S & I & N)). exists m. split; [exact E |]. split; [exact S |]. split; [| exact N].
  rewrite I. apply Nat.mod_upper_bound. lia.
Qed.
(** With blocks of a 1000 s at most, rates between 1 Hz and 1 MHz and loads that are zero or between 0.001 % and 8000 %, the running sum is exact for ever. *)
Theorem C113_sum_exact : forall bs, Forall (fun b => usual b \/ tn_frames b = 0%Z) bs ->
  exists m, cp_run cp_start bs = Some m /\ fin (cp_sum m) /\ B2R (cp_sum m) = sum (map val (recent (map smp (filter counted bs)))).
Proof.
  intros bs H. assert (HS : Forall (fun b => sane b \/ tn_frames b = 0%Z) bs) by (eapply Forall_impl; [| exact H]; intros b [[S _] | Z]; [left; exact S | right; exact Z]).
  assert (HU : Forall tame (map smp (filter counted bs))).
  { apply Forall_map. apply Forall_forall. intros b IN. apply filter_In in IN. destruct IN as [IN C]. rewrite Forall_forall in H. destruct (H b IN) as [U | Z]; [apply (usual_tame b U) |]. unfold counted in C. rewrite Z in C. discriminate. }
  rewrite (run_adds bs HS). destruct (adds_sum _ HU) as (m & E & _ & [F S] & _). exists m. split; [exact E |]. split; assumption.
Qed.
(** The displayed value is the mean of the last 100 loads to within 1.3e-7 of itself, however long the session; empty blocks do not count. *)
Theorem C113_reading : forall bs, Forall (fun b => usual b \/ tn_frames b = 0%Z) bs -> filter counted bs <> [] ->
  exists m, cp_run cp_start bs = Some m /\ fin (cp_usage m)
  /\ (let l := map load (recent (filter counted bs)) in Rabs (B2R (cp_usage m) - sum l / INR (length l)) <= 0.00000013 * (sum l / INR (length l))).
Proof. exact meter_ok. Qed.
(** One very long block can leave a rounding error in the sum that no later block removes: 17 ns out of 1.33 ms all the time, but for one block that took an hour. *)
Definition tick17 : turn := Turn (fofZ 48000) 64 17.
Definition pause : list turn := repeat tick17 100 ++ Turn (fofZ 48000) 64 3600000000000 :: repeat tick17 100.
Definition settled (m : meter) (x : f32) : Prop :=
  cp_ring m = repeat x 100 /\ cp_size m = 100%nat /\ (cp_idx m < 100)%nat /\ fadd (fsub (cp_sum m) (f2d x)) (f2d x) = cp_sum m /\ cp_usage m = d2f (fdiv (cp_sum m) (dz 100)).
Lemma put_same : forall n i (x : f32), (i < n)%nat -> cp_put (repeat x n) i x = Some (repeat x n) /\ nth_error (repeat x n) i = Some x.
Proof.
  induction n as [| n IH]; intros i x H; [lia |]. destruct i as [| i]; [split; reflexivity |]. cbn. destruct (IH i x ltac:(lia)) as [A B]. rewrite A. split; [reflexivity | exact B].
Qed.
Lemma settled_add m x : settled m x -> exists m', cp_add m x = Some m' /\ settled m' x /\ cp_usage m' = cp_usage m.
Proof.
  intros (R & S & I & F & U). unfold cp_add. rewrite S, R. cbn [Nat.ltb Nat.leb]. destruct (put_same 100 (cp_idx m) x I) as [A B]. rewrite A, B, F.
  eexists. split; [reflexivity |]. split; [| symmetry; exact U]. unfold settled. cbn [cp_ring cp_size cp_idx cp_sum cp_usage].
  split; [reflexivity |]. split; [reflexivity |]. split; [apply Nat.mod_upper_bound; lia |]. split; [exact F | reflexivity].
Qed.
Theorem C113_pause_refuted : forall k, exists m, cp_run cp_start (pause ++ repeat tick17 k) = Some m
  /\ cp_usage m <> smp tick17 /\ recent (pause ++ repeat tick17 k) = repeat tick17 100.
Proof.
  assert (B : exists m, cp_run cp_start pause = Some m /\ settled m (smp tick17) /\ cp_usage m <> smp tick17).
  { set (o := cp_run cp_start pause). vm_compute in o. match goal with o := Some ?m |- _ => exists m; split; [reflexivity |] end.
    clear o. split; [unfold settled; vm_compute; repeat split; lia |]. vm_compute. discriminate. }
  assert (RA : forall a b m, cp_run m (a ++ b) = match cp_run m a with Some m' => cp_run m' b | None => None end).
  { induction a as [| x a IH]; intros b m; [reflexivity |]. cbn [app cp_run]. destruct (cp_block m x); [apply IH | reflexivity]. }
  destruct B as (m0 & E0 & S0 & N0). intro k.
  assert (R : exists m, cp_run m0 (repeat tick17 k) = Some m /\ settled m (smp tick17) /\ cp_usage m = cp_usage m0).
  { clear E0. assert (T : flt (dz 0) (cp_time (fofZ 48000) 64) = true) by (vm_compute; reflexivity).
    clear N0. revert m0 S0. induction k as [| k IH]; intros m S; [exists m; split; [reflexivity | split; [exact S | reflexivity]] |].
    destruct (settled_add m (smp tick17) S) as (m1 & E1 & S1 & U1). destruct (IH m1 S1) as (m2 & E2 & S2 & U2). exists m2. cbn [repeat cp_run]. unfold cp_block. cbn [tn_rate tn_frames tn_ns tick17].
    rewrite T. change (cp_sample (fofZ 48000) 64 17) with (smp tick17). rewrite E1. split; [exact E2 |]. split; [exact S2 | congruence]. }
  destruct R as (m & E & _ & U). exists m. rewrite RA, E0, E. split; [reflexivity |]. split; [congruence |].
  unfold recent, pause. rewrite <- app_assoc. cbn [app]. rewrite !app_length. cbn [length]. rewrite !app_length, !repeat_length.
  replace (100 + S (100 + k) - 100)%nat with (101 + k)%nat by lia.
  rewrite skipn_app, repeat_length. replace (skipn (101 + k) (repeat tick17 100)) with (@nil turn) by (symmetry; apply skipn_all2; rewrite repeat_length; lia).
  replace (101 + k - 100)%nat with (S k) by lia. cbn [app skipn]. rewrite <- repeat_app. rewrite Nat.add_comm, repeat_app, skipn_app, repeat_length.
  rewrite skipn_all2 by (rewrite repeat_length; lia). replace (k - k)%nat with 0%nat by lia. reflexivity.
Qed.
Print Assumptions C113_ring.
Print Assumptions C113_sum_exact.
Print Assumptions C113_reading.
Print Assumptions C113_pause_refuted.

(** 64 frames at 48 kHz are 1333333 ns: loads of 7.5 % and 15 %, an empty block, then 15 % for 100 blocks. *)
Definition quarter : list turn := [Turn (fofZ 48000) 64 100000; Turn (fofZ 48000) 64 200000; Turn (fofZ 48000) 0 5].
Example ex_C113 : match cp_run cp_start quarter, cp_run cp_start (quarter ++ repeat (Turn (fofZ 48000) 64 200000) 100) with
  | Some m, Some m' => feq (cp_usage m) (fdec 1125 100) = true /\ feq (cp_usage m') (fofZ 15) = true /\ cp_size m' = 100%nat /\ cp_idx m' = 2%nat
  | _, _ => False end.
Proof. vm_compute. repeat split; reflexivity. Qed.
Example ex_C113_usual : usual (Turn (fofZ 48000) 64 100000) /\ load (Turn (fofZ 48000) 64 100000) = 7.5.
Proof.
  assert (E : B2R (fofZ 48000 : f32) = 48000 /\ fin (fofZ 48000 : f32)) by (destruct (fofZ_R (prec:=24) (emax:=128) 48000) as [A B]; [lia | split; assumption]).
  destruct E as [E F]. assert (L : load (Turn (fofZ 48000) 64 100000) = 7.5) by (unfold load; cbn [tn_rate tn_frames tn_ns]; rewrite E; lra).
  split; [| exact L]. split; [| rewrite L; right; lra]. unfold sane. cbn [tn_rate tn_frames tn_ns]. rewrite E. repeat split; try exact F; try lra; lia.
Qed.
