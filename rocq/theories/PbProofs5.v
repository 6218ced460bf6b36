(** The playback example at normal speed: what is heard. *)
From Coq Require Import ZArith Reals Lra Lia Bool List.
From Flocq Require Import Core BinarySingleNaN.
From Verif Require Import Flt FltFacts FltMore FltArith FltClose FltRel FltScale Libm UtilModel UtilProofs EnvSpec EnvProofs PanSpec OscSpec OscProofs OscProofs2 SmoothModel SmoothSpec SmoothProofs LineModel LineSpec PhasorProofs PhasorProofs2 PhasorProofs4
  RdModel RdSpec RdProofs RdProofs2 RdProofs3 DsModel DsSpec DsProofs DsProofs2 PbModel PbProofs2 PbProofs3 PbProofs4.
Import ListNotations.
Local Open Scope R_scope.
Local Notation rnd32 := (@rnd 24 128).

(** ** The upsampled file *)
(** Frame [k] of channel [c] of a looped file. *)
Definition looped (b : rbuf) (c k : Z) : R := B2R (smp b c (k mod rb_n b)).
(** Twice the rate: the frames, and between two of them the four-point cubic midpoint. *)
Definition doubled (b : rbuf) (c : Z) (i : nat) : R :=
  let k := (Z.of_nat i / 2)%Z in
  if Z.even (Z.of_nat i) then looped b c k
  else 9 / 16 * (looped b c k + looped b c (k + 1)) - 1 / 16 * (looped b c (k - 1) + looped b c (k + 2)).

(** ** The smoother rests at one half *)
Lemma unit_grid (c : f32) : / 2 <= B2R c <= 1 -> exists m, (2 ^ 23 <= m <= 2 ^ 24)%Z /\ B2R c = IZR m * bpow radix2 (-24).
Proof.
  intros B. pose proof (fmt_B2R c) as G. red in G.
  set (e := cexp radix2 (SpecFloat.fexp 24 128) (B2R c)) in *.
  assert (E : (-24 <= e)%Z).
  { unfold e, cexp. assert (0 <= mag radix2 (B2R c))%Z by (apply mag_ge_bpow; change (bpow radix2 (0 - 1)) with (/ 2); rewrite Rabs_pos_eq; lra).
    unfold SpecFloat.fexp, SpecFloat.emin. lia. }
  clearbody e. generalize dependent (Ztrunc (scaled_mantissa radix2 (SpecFloat.fexp 24 128) (B2R c))). intros M G.
  unfold F2R in G. cbn [Fnum Fexp] in G. exists (M * 2 ^ (e + 24))%Z.
  assert (X : B2R c = IZR (M * 2 ^ (e + 24)) * bpow radix2 (-24)).
  { rewrite G, mult_IZR. change 2%Z with (radix_val radix2). rewrite IZR_Zpower by lia. rewrite Rmult_assoc, <- bpow_plus. do 2 f_equal. lia. }
  split; [|exact X]. rewrite X in B. set (K := (M * 2 ^ (e + 24))%Z) in *. change (bpow radix2 (-24)) with (/ 16777216) in B.
  split; apply le_IZR; change (2 ^ 23)%Z with 8388608%Z; change (2 ^ 24)%Z with 16777216%Z; lra.
Qed.
Lemma rest_half s x : half_lag s -> B2R (lg_prev s) = / 2 -> fin x -> B2R x = / 2 -> B2R (snd (lg_tick s x)) = / 2 /\ fin (snd (lg_tick s x)).
Proof.
  intros [[Fc Bc] [Fp _]] Ep Fx Ex. unfold lg_tick. cbv zeta. cbn [snd]. destruct (unit_grid _ Bc) as (m & Hm & Em). set (c := lg_coeff s) in *. set (p := lg_prev s) in *. clearbody c p.
  assert (O1 : B2R (one : f32) = 1) by apply one_R.
  assert (D : forall n, (0 <= n <= 2 ^ 24)%Z -> dy32 (IZR n * bpow radix2 (-25))).
  { intros n Hn. destruct (Z.eq_dec n (2 ^ 24)) as [-> |K]; [|apply dyq; lia]. change (IZR (2 ^ 24)) with (bpow radix2 24). rewrite <- bpow_plus. apply bp_dy. lia. }
  assert (Q : B2R (one : f32) - B2R c = IZR (2 ^ 24 - m) * bpow radix2 (-24)) by (rewrite O1, Em, minus_IZR; change (IZR (2 ^ 24)) with 16777216; change (bpow radix2 (-24)) with (/ 16777216); lra).
  destruct (fsub_exact one c ltac:(reflexivity) Fc) as [Fq Rq]; [rewrite Q; apply dyq; lia|]. rewrite Q in Rq. set (q := fsub one c) in *. clearbody q.
  assert (H25 : forall z, IZR z * bpow radix2 (-24) * / 2 = IZR z * bpow radix2 (-25)) by (intros; change (bpow radix2 (-24)) with (/ 16777216); change (bpow radix2 (-25)) with (/ 33554432); lra).
  destruct (fmul_exact c p Fc Fp) as [F1 R1]; [rewrite Em, Ep, H25; apply D; lia|]. rewrite Em, Ep, H25 in R1.
  destruct (fmul_exact q x Fq Fx) as [F2 R2]; [rewrite Rq, Ex, H25; apply D; lia|]. rewrite Rq, Ex, H25 in R2.
  set (u := fmul c p) in *. set (v := fmul q x) in *. clearbody u v.
  assert (S : B2R u + B2R v = / 2) by (rewrite R1, R2, minus_IZR; change (IZR (2 ^ 24)) with 16777216; change (bpow radix2 (-25)) with (/ 33554432); lra).
  destruct (fadd_exact u v F1 F2) as [F R]; [rewrite S; change (/ 2) with (bpow radix2 (-1)); apply bp_dy; lia|]. rewrite S in R. auto.
Qed.

(** ** The position counts in halves *)
(** [m] halves. *)
Definition halves (x : f32) (m : Z) : Prop := fin x /\ B2R x = IZR m / 2.
Definition count_inv (n m : Z) (p : phasor) : Prop :=
  ph_start p = zero /\ ph_end p = fofZ n /\ fin (ph_rate p) /\ B2R (ph_rate p) = / 2 /\ halves (ph_value p) m /\ (0 <= m <= 2 * n)%Z.
Lemma count_tick n m p : (1 <= n <= 2 ^ 23)%Z -> count_inv n m p -> halves (snd (ph_tick p)) (m mod (2 * n)) /\ count_inv n (m mod (2 * n) + 1) (fst (ph_tick p)).
Proof.
  intros N (A & B & C & D & [E1 E2] & F). destruct (fofZ_R (prec:=24) (emax:=128) n ltac:(lia)) as [Fn Rn].
  assert (N1 : 1 <= IZR n <= 8388608) by (split; apply IZR_le; lia).
  assert (Pn : ph_par (fofZ n)) by (split; [exact Fn|]; rewrite Rn, Rabs_pos_eq by lra; apply Rle_trans with 8388608; [lra|]; change 8388608 with (bpow radix2 23); apply bpow_le; lia).
  assert (W : halves (ph_wrap zero (fofZ n) (ph_value p)) (m mod (2 * n))).
  { destruct (Z.eq_dec m (2 * n)) as [-> |K].
    - rewrite mult_IZR in E2. destruct (wrap_once (fofZ n) (ph_value p) Pn ltac:(lra) E1 ltac:(lra)) as [X Y]. split; [exact X|]. rewrite Y, E2, Rn, Z.mod_same by lia. lra.
    - assert (M1 : 0 <= IZR m < 2 * IZR n) by (rewrite <- mult_IZR; split; [apply IZR_le|apply IZR_lt]; lia).
      rewrite wrap_low by (auto; lra). rewrite Z.mod_small by lia. split; assumption. }
  unfold ph_tick. cbn [fst snd]. rewrite A, B. split; [exact W|]. destruct W as [W1 W2]. pose proof (Z.mod_pos_bound m (2 * n) ltac:(lia)) as MB.
  set (w := ph_wrap _ _ _) in *. clearbody w. set (k := (m mod (2 * n))%Z) in *. clearbody k.
  unfold count_inv, ph_at. cbn [ph_start ph_end ph_rate ph_value]. do 4 (split; [assumption|]). split; [|lia].
  assert (S : B2R w + B2R (ph_rate p) = IZR (k + 1) * bpow radix2 (-1)) by (rewrite W2, D, plus_IZR; change (bpow radix2 (-1)) with (/ 2); lra).
  destruct (fadd_exact w (ph_rate p) W1 C) as [X Y].
  { rewrite S. destruct (Z.eq_dec (k + 1) (2 ^ 24)) as [-> |K]; [|apply dyq; lia]. change (IZR (2 ^ 24)) with (bpow radix2 24). rewrite <- bpow_plus. apply bp_dy. lia. }
  split; [exact X|]. rewrite Y, S. change (bpow radix2 (-1)) with (/ 2). lra.
Qed.

(** ** Reading at a half *)
Lemma half_read j b p m : rb_ok b -> (rb_n b <= 2 ^ 24)%Z -> (-100 <= j <= 96)%Z -> loud j b 0 -> loud j b 1 -> (0 <= m < 2 * rb_n b)%Z -> halves p m ->
  exists l r, rd_tick2 (BufRd (Some b) true 4) p = Some (l, r) /\ fin l /\ fin r /\
    Rabs (B2R l - doubled b 0 (Z.to_nat m)) <= bpow radix2 (j - 17) /\ Rabs (B2R r - doubled b 1 (Z.to_nat m)) <= bpow radix2 (j - 17).
Proof.
  intros O N J L0 L1 M [Fp Ep]. pose proof (ok_n b O) as N1. assert (M1 : 0 <= IZR m < 2 * IZR (rb_n b)) by (rewrite <- mult_IZR; split; [apply IZR_le|apply IZR_lt]; lia).
  assert (NR : 1 <= IZR (rb_n b)) by (apply IZR_le; lia).
  assert (Q : rd_pos true (rb_n b) (B2R p) = B2R p).
  { unfold rd_pos. replace (Zfloor (B2R p / IZR (rb_n b))) with 0%Z; [lra|]. symmetry. apply Zfloor_imp. cbn. split; [apply Rmult_le_pos; [lra|left; apply Rinv_0_lt_compat; lra]|].
    apply Rmult_lt_reg_r with (IZR (rb_n b)); [lra|]. unfold Rdiv. rewrite Rmult_assoc, Rinv_l; lra. }
  destruct (rd_spline j b true p O N J L0 L1 Fp (B2R p)) as (l & r & _ & A & F0 & F1 & E0 & E1); [rewrite Q; symmetry; apply rnd_B2R|lra|].
  exists l, r. split; [exact A|]. split; [exact F0|]. split; [exact F1|].
  set (k := (m / 2)%Z). pose proof (Z.div_mod m 2 ltac:(lia)) as DM. pose proof (Z.mod_pos_bound m 2 ltac:(lia)) as MB. fold k in DM.
  assert (FL : Zfloor (B2R p) = k). { apply Zfloor_imp. rewrite Ep. assert (IZR m = 2 * IZR k + IZR (m mod 2)) by (rewrite DM at 1; now rewrite plus_IZR, mult_IZR). rewrite plus_IZR. assert (0 <= IZR (m mod 2) <= 1) by (split; apply IZR_le; lia). lra. }
  rewrite FL in E0, E1. assert (K : (0 <= k < rb_n b)%Z) by (unfold k; split; [apply Z.div_pos; lia|apply Z.div_lt_upper_bound; lia]).
  assert (LK : forall c, looped b c k = B2R (smp b c k)) by (intros; unfold looped; now rewrite Z.mod_small by lia).
  assert (G : forall c, doubled b c (Z.to_nat m) = spline (B2R p - IZR k) (B2R (smp b c (before true (rb_n b) k))) (B2R (smp b c k)) (B2R (smp b c (frame true (rb_n b) (k + 1)))) (B2R (smp b c (frame true (rb_n b) (k + 2))))).
  { intros c. unfold doubled. rewrite Z2Nat.id by lia. fold k. rewrite LK. unfold before, frame. cbn [negb andb]. unfold looped.
    assert (IM : IZR m = 2 * IZR k + IZR (m mod 2)) by (rewrite DM at 1; now rewrite plus_IZR, mult_IZR). rewrite Ep, IM, Zmod_even. rewrite Zmod_even in *. destruct (Z.even m); unfold spline; lra. }
  rewrite !G. auto.
Qed.
Lemma doubled_wrap b c i : (1 <= rb_n b)%Z -> (0 <= i)%Z -> doubled b c (Z.to_nat (i mod (2 * rb_n b))) = doubled b c (Z.to_nat i).
Proof.
  intros N I. pose proof (Z.mod_pos_bound i (2 * rb_n b) ltac:(lia)) as MB. unfold doubled. rewrite !Z2Nat.id by lia.
  pose proof (Z.div_mod i (2 * rb_n b) ltac:(lia)) as D. set (q := (i / (2 * rb_n b))%Z) in *. set (r := (i mod (2 * rb_n b))%Z) in *. clearbody q r. subst i.
  assert (E : Z.even (2 * rb_n b * q + r) = Z.even r) by (rewrite Z.even_add, <- Z.mul_assoc, Z.even_mul; change (Z.even 2) with true; cbn [orb]; now destruct (Z.even r)).
  assert (H : ((2 * rb_n b * q + r) / 2 = r / 2 + rb_n b * q)%Z) by (replace (2 * rb_n b * q + r)%Z with (r + rb_n b * q * 2)%Z by ring; rewrite Z.div_add by lia; reflexivity).
  assert (P : forall k d, looped b c (k + rb_n b * q + d) = looped b c (k + d)) by (intros; unfold looped; replace (k + rb_n b * q + d)%Z with (k + d + q * rb_n b)%Z by ring; now rewrite Z_mod_plus_full).
  assert (P0 : forall k, looped b c (k + rb_n b * q) = looped b c k) by (intros; rewrite <- (Z.add_0_r (k + rb_n b * q)), P; f_equal; lia).
  rewrite E, H. change (r / 2 + rb_n b * q - 1)%Z with (r / 2 + rb_n b * q + -1)%Z. rewrite !P, P0. reflexivity.
Qed.

(** ** The downsampler follows *)
Lemma lp_close c u v e : 0 <= c <= 1 -> forall n, (forall i, (i <= n)%nat -> Rabs (u i - v i) <= e) -> Rabs (lp c u n - lp c v n) <= e.
Proof.
  intros C. induction n as [|n IH]; intros H; cbn [lp].
  - specialize (H 0%nat (le_n _)). rewrite <- Rmult_minus_distr_l, Rabs_mult, Rabs_pos_eq by lra. pose proof (Rabs_pos (u 0%nat - v 0%nat)). nra.
  - specialize (IH ltac:(intros; apply H; lia)). specialize (H (S n) (le_n _)).
    replace ((1 - c) * lp c u n + c * u (S n) - ((1 - c) * lp c v n + c * v (S n))) with ((1 - c) * (lp c u n - lp c v n) + c * (u (S n) - v (S n))) by ring.
    eapply Rle_trans; [apply Rabs_triang|]. rewrite !Rabs_mult, (Rabs_pos_eq c), (Rabs_pos_eq (1 - c)) by lra.
    set (A := Rabs (lp c u n - lp c v n)) in *. set (B := Rabs (u (S n) - v (S n))) in *.
    assert ((1 - c) * A <= (1 - c) * e) by (apply Rmult_le_compat_l; lra). assert (c * B <= c * e) by (apply Rmult_le_compat_l; lra). lra.
Qed.
Lemma lp4_close c u v e n : 0 <= c <= 1 -> (forall i, (i <= n)%nat -> Rabs (u i - v i) <= e) -> Rabs (lp4 c u n - lp4 c v n) <= e.
Proof. intros C H. unfold lp4. repeat (apply lp_close; [exact C|intros]). apply H. lia. Qed.
Lemma mean2 u a : mean u a 2 = (u a + u (a + 1)%nat) / 2.
Proof. unfold mean. cbn [sum INR]. rewrite Nat.add_0_r. lra. Qed.
(** Samples written so far, close to the signal [g]. *)
Definition follows (L : libm) (rate : f32) (j : Z) (e : R) (g : nat -> R) (k : nat) (d : ds) : Prop :=
  exists xs, ds_inv L rate j d (Mem 2 xs 0) /\ length xs = (2 * k)%nat /\ (forall i, (i < 2 * k)%nat -> Rabs (sig xs i - g i) <= e).
Lemma follows_init L rate j e g : follows L rate j e g 0 (ds_init L rate 2).
Proof.
  exists []. split; [|split; [reflexivity|intros; lia]]. unfold ds_init, ds_inv. cbn [ds_rate ds_fac ds_c ds_n ds_st ds_acc me_f me_xs me_m].
  change (ds_factor 2) with 2%Z. repeat (split; [first [assumption|reflexivity|lia]|]). split; [apply st_zero|apply acc_zero].
Qed.
Lemma follows_two L rate j e g k d x1 x2 : exp_unit L -> exp_acc L -> rate_fine rate -> (-100 <= j <= 96)%Z -> bnd j x1 -> bnd j x2 ->
  Rabs (B2R x1 - g (2 * k)%nat) <= e -> Rabs (B2R x2 - g (2 * k + 1)%nat) <= e -> follows L rate j e g k d ->
  let r := ds_read (ds_write (ds_write d x1) x2) in follows L rate j e g (S k) (fst r) /\ fin (snd r) /\ Rabs (B2R (snd r) - mean (lp4 (ideal_c 2) g) (2 * k) 2) <= bpow radix2 (j - 12) + e.
Proof.
  intros U A [Fr Br] J B1 B2 C1 C2 (xs & I & N & S0) r.
  pose proof (note_ok L rate j d (Mem 2 xs 0) (DsWrite x1) U A Fr Br J B1 ltac:(cbn [me_m]; lia) I) as I1. cbn [ds_note me_f me_xs me_m ds_call fst] in I1.
  pose proof (note_ok L rate j _ (Mem 2 (xs ++ [x1]) 1) (DsWrite x2) U A Fr Br J B2 ltac:(cbn [me_m]; lia) I1) as I2. cbn [ds_note me_f me_xs me_m ds_call fst] in I2.
  pose proof (note_ok L rate j _ (Mem 2 ((xs ++ [x1]) ++ [x2]) 2) DsRead U A Fr Br J Logic.I ltac:(cbn [me_m]; lia) I2) as I3. cbn [ds_note me_f me_xs me_m] in I3.
  pose proof (read_ok L rate j _ (Mem 2 ((xs ++ [x1]) ++ [x2]) 2) J I2 ltac:(cbn [me_m]; lia)) as R. cbv zeta in R. cbn [me_f me_xs me_m] in R. destruct R as (Fy & By & Ry). specialize (Ry ltac:(lia)).
  assert (G : forall i, (i < 2 * S k)%nat -> Rabs (sig ((xs ++ [x1]) ++ [x2]) i - g i) <= e).
  { intros i Hi. destruct (Nat.eq_dec i (2 * k + 1)) as [-> |N1].
    - replace (2 * k + 1)%nat with (length (xs ++ [x1])) at 1 by (rewrite app_length; cbn [length]; lia). rewrite sig_new. exact C2.
    - rewrite sig_app by (rewrite app_length; cbn [length]; lia). destruct (Nat.eq_dec i (2 * k)) as [-> |N2].
      + rewrite <- N at 1. rewrite sig_new. exact C1.
      + rewrite sig_app by lia. apply S0. lia. }
  assert (LN : length ((xs ++ [x1]) ++ [x2]) = (2 * S k)%nat) by (rewrite !app_length; cbn [length]; lia).
  subst r. cbn [ds_call] in I3. destruct (ds_read (ds_write (ds_write d x1) x2)) as [d' y]. cbn [fst snd] in *.
  split; [exists ((xs ++ [x1]) ++ [x2]); auto|]. split; [exact Fy|]. rewrite LN in Ry. replace (2 * S k - 2)%nat with (2 * k)%nat in Ry by lia.
  pose proof (ideal_b 2 ltac:(lia)) as CB. rewrite mean2 in Ry |- *.
  pose proof (lp4_close (ideal_c 2) (sig ((xs ++ [x1]) ++ [x2])) g e (2 * k) ltac:(lra) ltac:(intros; apply G; lia)) as Q1.
  pose proof (lp4_close (ideal_c 2) (sig ((xs ++ [x1]) ++ [x2])) g e (2 * k + 1) ltac:(lra) ltac:(intros; apply G; lia)) as Q2.
  apply Rabs_le_inv in Ry, Q1, Q2. apply Rabs_le. lra.
Qed.

(** ** The player at normal speed *)
Record normal_inv (L : libm) (b : rbuf) (j : Z) (sr : Z) (k : nat) (s : player) : Prop := {
  ni_buf : pl_buf s = b; ni_lag : half_lag (pl_lag s); ni_prev : B2R (lg_prev (pl_lag s)) = / 2;
  ni_ph : exists m, count_inv (rb_n b) m (pl_ph s) /\ (m mod (2 * rb_n b) = Z.of_nat (2 * k) mod (2 * rb_n b))%Z;
  ni_l : follows L (fofZ sr) (j + 1) (bpow radix2 (j - 17)) (doubled b 0) k (fst (pl_ds s));
  ni_r : follows L (fofZ sr) (j + 1) (bpow radix2 (j - 17)) (doubled b 1) k (snd (pl_ds s));
  ni_target : fin (fmul (pl_base s) (pl_ctl s)) /\ B2R (fmul (pl_base s) (pl_ctl s)) = / 2 }.
Lemma same_rate sr : studio sr -> fin (fdiv (fofZ sr) (fmul (fofZ sr) two) : f32) /\ B2R (fdiv (fofZ sr) (fmul (fofZ sr) two) : f32) = / 2.
Proof.
  intros H. destruct (studio_R sr H) as (F & R & Fi & Ri & Lo). set (y := fmul _ _) in *. clearbody y. set (x := fofZ sr) in *. clearbody x.
  assert (Q : B2R x / B2R y = bpow radix2 (-1)) by (rewrite R, Ri; change (bpow radix2 (-1)) with (/ 2); field; lra).
  destruct (fdiv_exact x y F Fi ltac:(lra)) as [Fd Rd]; [rewrite Q; apply bp_dy; lia|]. split; [exact Fd|]. rewrite Rd, Q. reflexivity.
Qed.
Lemma normal_start L b j sr : exp_unit L -> exp_acc L -> rb_ok b -> studio sr -> normal_inv L b j sr 0 (pl_start L b sr sr).
Proof.
  intros U A O Hs. pose proof (same_rate sr Hs) as [Fb Rb]. pose proof (slow_coeff L sr U A Hs) as Cc. unfold pl_start, pl_configure. cbv zeta. cbn [pl_buf pl_frate pl_ctl]. rewrite (ok_valid b O).
  set (base := fdiv _ _) in *. clearbody base. destruct (fmul_exact base one Fb ltac:(reflexivity)) as [Ft Rt]; [rewrite one_R, Rmult_1_r, Rb; change (/ 2) with (bpow radix2 (-1)); apply bp_dy; lia|].
  rewrite one_R, Rmult_1_r, Rb in Rt. constructor; cbn [pl_buf pl_frate pl_ph pl_lag pl_ds pl_base pl_ctl]; auto.
  - split; [exact Cc|]. split; [exact Ft|]. cbn [lg_setValue lg_prev]. rewrite Rt. lra.
  - exists 0%Z. split; [|reflexivity]. unfold count_inv, halves, ph_set. cbn [ph_rate ph_start ph_end ph_pos ph_value]. pose proof (ok_n b O). rewrite zero_R.
    do 2 (split; [reflexivity|]). split; [exact Ft|]. split; [exact Rt|]. split; [split; [reflexivity|lra]|lia].
  - apply follows_init.
  - apply follows_init.
Qed.
Lemma normal_tick b j s t m i : rb_ok b -> (rb_n b <= 2 ^ 23)%Z -> (-100 <= j <= 95)%Z -> loud j b 0 -> loud j b 1 ->
  pl_buf s = b -> half_lag (pl_lag s) -> B2R (lg_prev (pl_lag s)) = / 2 -> count_inv (rb_n b) m (pl_ph s) -> (0 <= i)%Z -> (m mod (2 * rb_n b) = i mod (2 * rb_n b))%Z ->
  fin t -> B2R t = / 2 ->
  exists s' l r m', pl_tick s t = Some s' /\ bnd (j + 1) l /\ bnd (j + 1) r /\ pl_ds s' = (ds_write (fst (pl_ds s)) l, ds_write (snd (pl_ds s)) r) /\
    Rabs (B2R l - doubled b 0 (Z.to_nat i)) <= bpow radix2 (j - 17) /\ Rabs (B2R r - doubled b 1 (Z.to_nat i)) <= bpow radix2 (j - 17) /\
    pl_buf s' = b /\ half_lag (pl_lag s') /\ B2R (lg_prev (pl_lag s')) = / 2 /\ count_inv (rb_n b) m' (pl_ph s') /\ (m' mod (2 * rb_n b) = (i + 1) mod (2 * rb_n b))%Z /\
    pl_base s' = pl_base s /\ pl_ctl s' = pl_ctl s.
Proof.
  intros O N J L0 L1 Eb Hl Hp Hc I0 Im Ft Rt. unfold pl_tick. pose proof (ok_n b O) as N1.
  destruct (rest_half (pl_lag s) t Hl Hp Ft Rt) as [Rr Fr]. destruct (half_tick (pl_lag s) t Hl ltac:(split; [exact Ft|lra])) as [Hl2 _].
  assert (Pv : lg_prev (fst (lg_tick (pl_lag s) t)) = snd (lg_tick (pl_lag s) t)) by reflexivity.
  destruct (lg_tick (pl_lag s) t) as [lg r]. cbn [fst snd] in *.
  assert (Hc2 : count_inv (rb_n b) m (ph_setRate (pl_ph s) r)).
  { destruct Hc as (A & B & _ & _ & E & F). unfold count_inv, ph_setRate. cbn [ph_start ph_end ph_rate ph_value]. auto 7. }
  destruct (count_tick (rb_n b) m _ ltac:(lia) Hc2) as [Hv Hc3]. destruct (ph_tick (ph_setRate (pl_ph s) r)) as [ph phase]. cbn [fst snd] in *.
  pose proof (Z.mod_pos_bound m (2 * rb_n b) ltac:(lia)) as MB.
  rewrite Eb. destruct (half_read j b phase _ O ltac:(lia) ltac:(lia) L0 L1 MB Hv) as (x & y & E & Fx & Fy & Cx & Cy).
  destruct (rd_cubic_bound j b true phase O J L0 L1 (proj1 Hv)) as (x' & y' & E' & Bx & By). rewrite E in E'. injection E' as <- <-.
  rewrite E. cbn [bind fst snd]. rewrite Im in Cx, Cy. rewrite doubled_wrap in Cx, Cy by lia.
  eexists _, x, y, _. split; [reflexivity|]. cbn [pl_buf pl_frate pl_ph pl_lag pl_ds pl_base pl_ctl]. unfold ds2_write.
  split; [exact Bx|]. split; [exact By|]. split; [reflexivity|]. split; [exact Cx|]. split; [exact Cy|]. split; [reflexivity|]. split; [exact Hl2|]. split; [now rewrite Pv|]. split; [exact Hc3|].
  split; [|split; reflexivity]. rewrite Im. now rewrite Zplus_mod_idemp_l.
Qed.
Definition hears (b : rbuf) (j : Z) (k : nat) (y : f32 * f32) : Prop :=
  fin (fst y) /\ fin (snd y) /\ Rabs (B2R (fst y) - mean (lp4 (ideal_c 2) (doubled b 0)) (2 * k) 2) <= bpow radix2 (j - 10) /\ Rabs (B2R (snd y) - mean (lp4 (ideal_c 2) (doubled b 1)) (2 * k) 2) <= bpow radix2 (j - 10).
Lemma normal_frame L b j sr k s : exp_unit L -> exp_acc L -> rb_ok b -> (rb_n b <= 2 ^ 23)%Z -> (-100 <= j <= 95)%Z -> loud j b 0 -> loud j b 1 -> studio sr -> normal_inv L b j sr k s ->
  exists s' y, pl_frame s (fmul (pl_base s) (pl_ctl s)) = Some (s', y) /\ normal_inv L b j sr (S k) s' /\ hears b j k y /\ pl_base s' = pl_base s /\ pl_ctl s' = pl_ctl s.
Proof.
  intros U A O N J L0 L1 Hs [I1 I2 I3 (m & I4 & I4') I5 I6 [I7 I8]]. destruct (jack_fine sr (studio_jack sr Hs)) as (Rf & _).
  remember (fmul (pl_base s) (pl_ctl s)) as t eqn:Et. unfold pl_frame.
  destruct (normal_tick b j s t m (Z.of_nat (2 * k)) O N J L0 L1 I1 I2 I3 I4 ltac:(lia) I4' I7 I8) as (s1 & l1 & r1 & m1 & E1 & Bl1 & Br1 & D1 & Cl1 & Cr1 & X1 & X2 & X3 & X4 & X5 & X6 & X7). rewrite E1. cbn [bind].
  destruct (normal_tick b j s1 t m1 (Z.of_nat (2 * k) + 1) O N J L0 L1 X1 X2 X3 X4 ltac:(lia) X5 I7 I8) as (s2 & l2 & r2 & m2 & E2 & Bl2 & Br2 & D2 & Cl2 & Cr2 & Y1 & Y2 & Y3 & Y4 & Y5 & Y6 & Y7). rewrite E2. cbn [bind].
  rewrite Nat2Z.id in Cl1, Cr1. replace (Z.to_nat (Z.of_nat (2 * k) + 1)) with (2 * k + 1)%nat in Cl2, Cr2 by lia.
  rewrite D1 in D2. cbn [fst snd] in D2. rewrite D2. unfold ds2_read. cbn [fst snd].
  destruct (follows_two L (fofZ sr) (j + 1) _ _ k (fst (pl_ds s)) l1 l2 U A Rf ltac:(lia) Bl1 Bl2 Cl1 Cl2 I5) as (Jl & Fl & Wl).
  destruct (follows_two L (fofZ sr) (j + 1) _ _ k (snd (pl_ds s)) r1 r2 U A Rf ltac:(lia) Br1 Br2 Cr1 Cr2 I6) as (Jr & Fr & Wr).
  destruct (ds_read (ds_write (ds_write (fst (pl_ds s)) l1) l2)) as [dl yl]. destruct (ds_read (ds_write (ds_write (snd (pl_ds s)) r1) r2)) as [dr yr]. cbn [fst snd] in *.
  assert (Err : bpow radix2 (j + 1 - 12) + bpow radix2 (j - 17) <= bpow radix2 (j - 10)).
  { replace (j + 1 - 12)%Z with (j - 10 + -1)%Z by lia. replace (j - 17)%Z with (j - 10 + -7)%Z by lia. rewrite !bpow_plus with (e1 := (j - 10)%Z). pose proof (bpow_gt_0 radix2 (j - 10)). change (bpow radix2 (-1)) with (/ 2). change (bpow radix2 (-7)) with (/ 128). lra. }
  eexists _, (yl, yr). split; [reflexivity|]. split; [|split; [unfold hears; cbn [fst snd]; split; [exact Fl|]; split; [exact Fr|]; split; eapply Rle_trans; eassumption|cbn [pl_base pl_ctl]; split; congruence]].
  constructor; cbn [pl_buf pl_frate pl_ph pl_lag pl_ds pl_base pl_ctl fst snd]; auto.
  - exists m2. split; [exact Y4|]. rewrite Y5. f_equal. lia.
  - rewrite Y6, Y7, X6, X7, <- Et. auto.
Qed.
Lemma normal_frames L b j sr n : exp_unit L -> exp_acc L -> rb_ok b -> (rb_n b <= 2 ^ 23)%Z -> (-100 <= j <= 95)%Z -> loud j b 0 -> loud j b 1 -> studio sr -> forall k s t, normal_inv L b j sr k s ->
  t = fmul (pl_base s) (pl_ctl s) -> exists s' ys, pl_frames s t n = Some (s', ys) /\ normal_inv L b j sr (k + n) s' /\ length ys = n /\ (forall i, (i < n)%nat -> hears b j (k + i) (nth i ys (zero, zero))).
Proof.
  intros U A O N J L0 L1 Hs. induction n as [|n IH]; intros k s t I T; cbn [pl_frames].
  - exists s, []. rewrite Nat.add_0_r. split; [reflexivity|]. split; [exact I|]. split; [reflexivity|]. intros; lia.
  - rewrite T. destruct (normal_frame L b j sr k s U A O N J L0 L1 Hs I) as (s1 & y & E & I1 & Y & Q1 & Q2). rewrite E. cbn [bind].
    destruct (IH (S k) s1 (fmul (pl_base s) (pl_ctl s)) I1) as (s2 & ys & E2 & I2 & Ln & H); [now rewrite Q1, Q2|]. rewrite E2. cbn [bind]. exists s2, (y :: ys).
    split; [reflexivity|]. split; [replace (k + S n)%nat with (S k + n)%nat by lia; exact I2|]. split; [cbn [length]; now rewrite Ln|]. intros [|i] Hi; cbn [nth].
    + now rewrite Nat.add_0_r.
    + replace (k + S i)%nat with (S k + i)%nat by lia. apply H. lia.
Qed.
Definition only_blocks (o : pl_call) : Prop := match o with LBlock _ => True | _ => False end.
Lemma normal_run L b j sr os : exp_unit L -> exp_acc L -> rb_ok b -> (rb_n b <= 2 ^ 23)%Z -> (-100 <= j <= 95)%Z -> loud j b 0 -> loud j b 1 -> studio sr -> Forall only_blocks os -> forall k s, normal_inv L b j sr k s ->
  exists s' ys, pl_run L s os = Some (s', ys) /\ length ys = asked os /\ (forall i, (i < asked os)%nat -> hears b j (k + i) (nth i ys (zero, zero))).
Proof.
  intros U A O N J L0 L1 Hs H. induction H as [|o os Ho H IH]; intros k s I; cbn [pl_run].
  - exists s, []. split; [reflexivity|]. split; [reflexivity|]. cbn. intros; lia.
  - destruct o as [r|x w|n]; cbn [only_blocks] in Ho; try easy. cbn [pl_op]. unfold pl_block.
    destruct (normal_frames L b j sr n U A O N J L0 L1 Hs k s _ I eq_refl) as (s1 & ys & E & I1 & Ln & Y). rewrite E. cbn [bind].
    destruct (IH (k + n)%nat s1 I1) as (s2 & zs & E2 & Ln2 & Y2). rewrite E2. cbn [bind]. exists s2, (ys ++ zs). split; [reflexivity|].
    cbn [asked fold_right]. fold (asked os). split; [rewrite app_length; lia|]. intros i Hi. destruct (Nat.lt_ge_cases i n) as [Q|Q].
    + rewrite app_nth1 by lia. now apply Y.
    + rewrite app_nth2 by lia. rewrite Ln. replace (k + i)%nat with (k + n + (i - n))%nat by lia. apply Y2. lia.
Qed.
(** From the start of the program. *)
Lemma plays_file L b j sr os : exp_unit L -> exp_acc L -> rb_ok b -> (rb_n b <= 2 ^ 23)%Z -> (-100 <= j <= 95)%Z -> loud j b 0 -> loud j b 1 -> studio sr -> Forall only_blocks os ->
  exists s' ys, pl_run L (pl_start L b sr sr) os = Some (s', ys) /\ length ys = asked os /\ (forall i, (i < asked os)%nat -> hears b j i (nth i ys (zero, zero))).
Proof. intros U A O N J L0 L1 Hs H. exact (normal_run L b j sr os U A O N J L0 L1 Hs H 0 _ (normal_start L b j sr U A O Hs)). Qed.
