(** Proofs about the load meter. *)
From Coq Require Import ZArith Reals Lra Lia Bool Psatz List PeanoNat.
From Flocq Require Import Core BinarySingleNaN.
From Verif Require Import Flt FltFacts FltMore FltArith FltClose UtilModel UtilProofs Dbl ImProofs MgModel CpuModel.
Import ListNotations.
Local Open Scope R_scope.

(** The last 100 entries. *)
Definition recent {A} (l : list A) : list A := skipn (length l - 100) l.
Definition sum (l : list R) : R := fold_right Rplus 0 l.
Definition val (x : f32) : R := B2R x.
Fixpoint adds (m : meter) (xs : list f32) : option meter :=
  match xs with [] => Some m | x :: t => match cp_add m x with Some m' => adds m' t | None => None end end.

Lemma put_ok : forall r i x, (i < length r)%nat -> exists r', cp_put r i x = Some r' /\ length r' = length r /\
  (forall j, nth_error r' j = if Nat.eqb i j then Some x else nth_error r j).
Proof.
  induction r as [| y r IH]; intros i x H; [cbn in H; lia |]. destruct i as [| i].
  - exists (x :: r). split; [reflexivity |]. split; [reflexivity |]. intros [| j]; reflexivity.
  - cbn in H. destruct (IH i x) as (r' & E & L & N); [lia |]. exists (y :: r'). cbn. rewrite E. split; [reflexivity |]. split; [lia |]. intros [| j]; [reflexivity | apply N].
Qed.
(** Ring, size and index after [xs]. *)
Definition ring_ok (m : meter) (xs : list f32) : Prop :=
  length (cp_ring m) = 100%nat /\ cp_size m = Nat.min (length xs) 100 /\ cp_idx m = Nat.modulo (length xs) 100
  /\ (forall j, (length xs - 100 <= j < length xs)%nat -> nth_error (cp_ring m) (Nat.modulo j 100) = nth_error xs j).
Lemma ring_start : ring_ok cp_start [].
Proof. split; [reflexivity |]. split; [reflexivity |]. split; [reflexivity |]. intros j H. cbn in H. lia. Qed.
Lemma mod_ne j n : (j < n < j + 100)%nat -> Nat.modulo j 100 <> Nat.modulo n 100.
Proof.
  intros H E. pose proof (Nat.div_mod j 100 ltac:(lia)) as A. pose proof (Nat.div_mod n 100 ltac:(lia)) as B. rewrite E in A.
  assert ((n = j + 100 * (n / 100 - j / 100))%nat) by nia. assert ((n / 100 > j / 100)%nat) by nia. nia.
Qed.
Lemma mod_back n : (100 <= n)%nat -> Nat.modulo (n - 100) 100 = Nat.modulo n 100.
Proof. intro H. replace n with ((n - 100) + 1 * 100)%nat at 2 by lia. rewrite Nat.mod_add by lia. reflexivity. Qed.
Lemma add_ring m xs x : ring_ok m xs ->
  exists m', cp_add m x = Some m' /\ ring_ok m' (xs ++ [x])
  /\ cp_sum m' = (if Nat.ltb (length xs) 100 then fadd (cp_sum m) (f2d x)
                  else fadd (fsub (cp_sum m) (f2d (nth (length xs - 100) xs (zero : f32)))) (f2d x))
  /\ cp_usage m' = d2f (fdiv (cp_sum m') (dz (Z.of_nat (cp_size m')))).
Proof.
  intros (L & S & I & N). set (n := length xs) in *.
  assert (IL : (cp_idx m < 100)%nat) by (rewrite I; apply Nat.mod_upper_bound; lia).
  destruct (put_ok (cp_ring m) (cp_idx m) x ltac:(lia)) as (r & E & Lr & Nr).
  assert (RO : forall u s, ring_ok (Meter u r (Nat.min (n + 1) 100) (Nat.modulo (Datatypes.S (cp_idx m)) 100) s) (xs ++ [x])).
  { intros u s. unfold ring_ok. cbn [cp_ring cp_size cp_idx]. rewrite app_length. cbn [length]. fold n. split; [lia |]. split; [reflexivity |]. split.
    - rewrite I. replace (Datatypes.S (Nat.modulo n 100)) with (Nat.modulo n 100 + 1)%nat by lia. rewrite Nat.add_mod_idemp_l by lia. reflexivity.
    - intros j H. rewrite Nr, I. destruct (Nat.eq_dec j n) as [-> | NE].
      + rewrite Nat.eqb_refl. rewrite nth_error_app2 by (fold n; lia). fold n. replace (n - n)%nat with 0%nat by lia. reflexivity.
      + destruct (Nat.eqb_spec (Nat.modulo n 100) (Nat.modulo j 100)) as [EE | _].
        * exfalso. symmetry in EE. revert EE. apply mod_ne. lia.
        * rewrite N by lia. symmetry. apply nth_error_app1. fold n. lia. }
  unfold cp_add. rewrite S, E. destruct (Nat.ltb_spec (Nat.min n 100) 100) as [LT | GE].
  - destruct (Nat.ltb_spec n 100) as [LT' | GE']; [| lia]. eexists. split; [reflexivity |]. split; [| split; reflexivity].
    replace (Datatypes.S (Nat.min n 100)) with (Nat.min (n + 1) 100) by lia. apply RO.
  - destruct (Nat.ltb_spec n 100) as [LT' | GE']; [lia |].
    assert (EO : nth_error (cp_ring m) (cp_idx m) = Some (nth (n - 100) xs (zero : f32))).
    { rewrite I, <- (mod_back n GE'), N by lia. apply nth_error_nth'. fold n. lia. }
    rewrite EO. eexists. split; [reflexivity |]. split; [| split; reflexivity].
    replace (Nat.min n 100) with (Nat.min (n + 1) 100) at 1 by lia. replace (Nat.min n 100) with (Nat.min (n + 1) 100) by lia. apply RO.
Qed.

(** Samples that are 0 or between 2^-10 and 2^13: multiples of 2^-33. *)
Definition tame (x : f32) : Prop := fin x /\ (B2R x = 0 \/ bpow radix2 (-10) <= B2R x <= bpow radix2 13).
Lemma tame_grid x : tame x -> exists k, B2R x = IZR k * bpow radix2 (-33) /\ (0 <= k <= 2 ^ 46)%Z.
Proof.
  intros [F [Z | [A B]]]; [exists 0%Z; rewrite Z; split; [ring | lia] |].
  pose proof (fmt_B2R x) as G. apply FLT_format_generic in G; [| reflexivity]. destruct G as [[m e] E Hm He]. cbn [Defs.Fnum Defs.Fexp] in *.
  unfold Defs.F2R in E. cbn [Defs.Fnum Defs.Fexp] in E. change (radix2 ^ 24)%Z with (2 ^ 24)%Z in Hm.
  assert (P : 0 < bpow radix2 e) by apply bpow_gt_0. assert (P10 : 0 < bpow radix2 (-10)) by apply bpow_gt_0.
  assert (M : 0 < IZR m) by (rewrite E in A; nra).
  apply lt_IZR in M.
  assert (LE : (-33 <= e)%Z).
  { destruct (Z.le_gt_cases (-33) e) as [|GT]; [assumption | exfalso]. assert (C : B2R x < bpow radix2 (-10)); [| lra].
    rewrite E. apply Rlt_le_trans with (bpow radix2 24 * bpow radix2 e).
    - apply Rmult_lt_compat_r; [exact P |]. change (bpow radix2 24) with (IZR (2 ^ 24)). apply IZR_lt. lia.
    - rewrite <- bpow_plus. apply bpow_le. lia. }
  exists (m * 2 ^ (e + 33))%Z.
  assert (EQ : B2R x = IZR (m * 2 ^ (e + 33)) * bpow radix2 (-33)).
  { rewrite E, mult_IZR. change 2%Z with (radix_val radix2) at 1. rewrite IZR_Zpower by lia. rewrite Rmult_assoc, <- bpow_plus. f_equal. f_equal. lia. }
  split; [exact EQ |]. split; [apply Z.mul_nonneg_nonneg; [lia | apply Z.pow_nonneg; lia] |].
  apply le_IZR. apply Rmult_le_reg_r with (bpow radix2 (-33)); [apply bpow_gt_0 |]. rewrite <- EQ. eapply Rle_trans; [exact B |].
  change (IZR (2 ^ 46)) with (bpow radix2 46). rewrite <- bpow_plus. right. reflexivity.
Qed.
Lemma sum_grid l : Forall tame l -> exists k, sum (map val l) = IZR k * bpow radix2 (-33) /\ (0 <= k <= Z.of_nat (length l) * 2 ^ 46)%Z.
Proof.
  induction l as [| x l IH]; intro H; [exists 0%Z; cbn; split; [ring | lia] |]. inversion H as [| ? ? T HT]; subst.
  destruct (IH HT) as (k & E & B). destruct (tame_grid x T) as (j & Ej & Bj). exists (j + k)%Z. cbn [map sum fold_right]. fold (sum (map val l)).
  rewrite E. unfold val at 1. rewrite Ej, plus_IZR. split; [ring |]. cbn [length]. lia.
Qed.
Lemma sum_app a b : sum (a ++ b) = sum a + sum b.
Proof.
  induction a as [| x a IH]; [cbn [app]; change (sum []) with 0; lra |]. change (sum ((x :: a) ++ b)) with (x + sum (a ++ b)). change (sum (x :: a)) with (x + sum a). rewrite IH. lra.
Qed.
Lemma recent_step (xs : list f32) x :
  (length xs < 100)%nat /\ recent (xs ++ [x]) = recent xs ++ [x]
  \/ (100 <= length xs)%nat /\ exists t, recent xs = nth (length xs - 100) xs (zero : f32) :: t /\ recent (xs ++ [x]) = t ++ [x].
Proof.
  unfold recent. rewrite app_length. cbn [length]. destruct (Nat.lt_ge_cases (length xs) 100) as [L | G].
  - left. split; [exact L |]. replace (length xs + 1 - 100)%nat with 0%nat by lia. replace (length xs - 100)%nat with 0%nat by lia. reflexivity.
  - right. split; [exact G |]. exists (skipn (length xs + 1 - 100) xs). split.
    + replace (length xs + 1 - 100)%nat with (S (length xs - 100)) by lia.
      assert (H : (length xs - 100 < length xs)%nat) by lia. revert H. generalize (length xs - 100)%nat. clear. induction xs as [| y xs IH]; intros n H; [cbn in H; lia |].
      destruct n as [| n]; [reflexivity |]. cbn [skipn nth]. cbn in H. apply IH. lia.
    + rewrite skipn_app. f_equal. replace (length xs + 1 - 100 - length xs)%nat with 0%nat by lia. reflexivity.
Qed.
Lemma recent_len {A} (l : list A) : length (recent l) = Nat.min (length l) 100.
Proof. unfold recent. rewrite skipn_length. lia. Qed.
Lemma recent_tame xs : Forall tame xs -> Forall tame (recent xs).
Proof. intro H. unfold recent. rewrite <- (firstn_skipn (length xs - 100) xs) in H. apply Forall_app in H. apply H. Qed.
(** A sum of at most 101 tame samples is a double. *)
Lemma sum_dy l : Forall tame l -> (length l <= 101)%nat -> dy64 (sum (map val l)).
Proof. intros T L. destruct (sum_grid l T) as (k & E & B). rewrite E. apply dyn; lia. Qed.
Definition sum_ok (m : meter) (xs : list f32) : Prop := fin (cp_sum m) /\ B2R (cp_sum m) = sum (map val (recent xs)).
Lemma add_sum m xs x : ring_ok m xs -> sum_ok m xs -> Forall tame (xs ++ [x]) ->
  exists m', cp_add m x = Some m' /\ ring_ok m' (xs ++ [x]) /\ sum_ok m' (xs ++ [x]) /\ cp_usage m' = d2f (fdiv (cp_sum m') (dz (Z.of_nat (cp_size m')))).
Proof.
  intros R [F E] T. destruct (add_ring m xs x R) as (m' & EA & R' & ES & EU). exists m'. split; [exact EA |]. split; [exact R' |]. split; [| exact EU].
  unfold sum_ok. rewrite ES. apply Forall_app in T. destruct T as [TX Tx]. inversion Tx as [| ? ? T1 _]; subst. destruct T1 as [Fx Bx] eqn:TT.
  assert (T1' : tame x) by (split; assumption). destruct (f2d_R x Fx) as [Fd Ed].
  destruct (recent_step xs x) as [[L RS] | [G (t & RT & RS)]].
  - apply Nat.ltb_lt in L. rewrite L. apply Nat.ltb_lt in L.
    assert (EQ : sum (map val (recent (xs ++ [x]))) = B2R (cp_sum m) + B2R (f2d x)) by (rewrite RS, map_app, sum_app, E, Ed; cbn; unfold val; ring).
    destruct (fadd_exact (cp_sum m) (f2d x) F Fd) as [A B].
    + rewrite <- EQ. apply sum_dy; [apply recent_tame; apply Forall_app; split; assumption | rewrite recent_len; lia].
    + split; [exact A |]. rewrite B, EQ. reflexivity.
  - destruct (Nat.ltb_spec (length xs) 100) as [L | _]; [lia |]. set (o := nth (length xs - 100) xs (zero : f32)) in *.
    pose proof (recent_tame xs TX) as TR. rewrite RT in TR. inversion TR as [| ? ? To Tt]; subst.
    assert (Lt : (length t <= 99)%nat) by (pose proof (recent_len xs) as RL; rewrite RT in RL; cbn [length] in RL; lia).
    destruct To as [Fo Bo]. destruct (f2d_R o Fo) as [Fo' Eo].
    assert (E1 : B2R (cp_sum m) - B2R (f2d o) = sum (map val t)) by (rewrite E, RT, Eo; cbn [map sum fold_right]; fold (sum (map val t)); unfold val at 1; ring).
    destruct (fsub_exact (cp_sum m) (f2d o) F Fo') as [A1 B1]; [rewrite E1; apply sum_dy; [exact Tt | lia] |].
    assert (E2 : B2R (fsub (cp_sum m) (f2d o)) + B2R (f2d x) = sum (map val (recent (xs ++ [x])))) by (rewrite B1, E1, RS, map_app, sum_app, Ed; cbn; unfold val; ring).
    destruct (fadd_exact (fsub (cp_sum m) (f2d o)) (f2d x) A1 Fd) as [A2 B2].
    + rewrite E2, RS. apply sum_dy; [apply Forall_app; split; assumption | rewrite app_length; cbn; lia].
    + split; [exact A2 |]. rewrite B2. exact E2.
Qed.
Lemma adds_app m xs ys : adds m (xs ++ ys) = match adds m xs with Some m' => adds m' ys | None => None end.
Proof. revert m. induction xs as [| x xs IH]; intro m; [reflexivity |]. cbn [app adds]. destruct (cp_add m x); [apply IH | reflexivity]. Qed.
Lemma adds_ring xs : exists m, adds cp_start xs = Some m /\ ring_ok m xs.
Proof.
  induction xs as [| x xs IH] using rev_ind; [exists cp_start; split; [reflexivity | apply ring_start] |].
  destruct IH as (m & E & R). destruct (add_ring m xs x R) as (m' & E' & R' & _). exists m'. rewrite adds_app, E. cbn [adds]. rewrite E'. split; [reflexivity | exact R'].
Qed.
Lemma adds_sum xs : Forall tame xs -> exists m, adds cp_start xs = Some m /\ ring_ok m xs /\ sum_ok m xs
  /\ (xs <> [] -> cp_usage m = d2f (fdiv (cp_sum m) (dz (Z.of_nat (cp_size m))))).
Proof.
  induction xs as [| x xs IH] using rev_ind; intro T.
  - exists cp_start. split; [reflexivity |]. split; [apply ring_start |]. split; [| congruence]. split; [reflexivity |]. cbn. reflexivity.
  - pose proof T as T'. apply Forall_app in T'. destruct T' as [TX _]. destruct (IH TX) as (m & E & R & S & _).
    destruct (add_sum m xs x R S T) as (m' & E' & R' & S' & U). exists m'. rewrite adds_app, E. cbn [adds]. rewrite E'.
    split; [reflexivity |]. split; [exact R' |]. split; [exact S' |]. intros _. exact U.
Qed.
