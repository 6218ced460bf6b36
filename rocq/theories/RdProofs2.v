(** BufRd: positions, taps, reads. *)
From Coq Require Import ZArith Reals Bool List Lra Lia Psatz.
From Flocq Require Import Core BinarySingleNaN.
From Verif Require Import Flt FltFacts FltMore FltKey FltArith FltClose FltScale UtilModel UtilProofs OscSpec OscProofs2 PhasorProofs RdModel RdSpec RdProofs.
Import ListNotations.
Local Open Scope R_scope.

(** ** Positions *)
Lemma fofZ_big n : (1 <= n < 2 ^ 62)%Z -> fin (fofZ n : f32) /\ 1 <= B2R (fofZ n : f32) <= bpow radix2 62.
Proof.
  intros H. assert (B : 1 <= rnd32 (IZR n) <= bpow radix2 62).
  { split.
    - rewrite <- one_R. apply rnd_ge_B2R. rewrite one_R. apply (IZR_le 1). lia.
    - destruct (bdy 62 ltac:(lia)) as [[D _] _]. rewrite <- (rnd_fmt (prec:=24) (emax:=128) _ D). apply rnd_le. change (bpow radix2 62) with (IZR (2 ^ 62)). apply IZR_le. lia. }
  unfold fofZ. destruct (flit_R (prec:=24) (emax:=128) n 0) as [F E].
  - change (bpow radix2 0) with 1. rewrite Rmult_1_r. rewrite Rabs_pos_eq by lra. eapply Rle_lt_trans; [apply B|apply bpow_lt; lia].
  - split; [exact F|]. rewrite E. change (bpow radix2 0) with 1. rewrite Rmult_1_r. exact B.
Qed.
Lemma phase_ok loop n p : (1 <= n < 2 ^ 62)%Z -> (fin p \/ (loop = false /\ is_nan p = false)) ->
  fin (rd_phase loop n p) /\ 0 <= B2R (rd_phase loop n p) <= bpow radix2 62.
Proof.
  intros H P. destruct (fofZ_big n H) as [Fn Bn]. unfold rd_phase. destruct loop.
  - destruct P as [Fp|[P _]]; [|discriminate P]. destruct (ffmod_R p (fofZ n) Fp Fn ltac:(lra)) as [Fm _]. destruct (ffmod_bound p (fofZ n) Fp Fn ltac:(lra)) as (Bm & _ & _).
    rewrite (Rabs_pos_eq (B2R (fofZ n))) in Bm by lra. apply Rabs_def2 in Bm. cbv zeta. destruct (flt (ffmod p (fofZ n)) zero) eqn:M.
    + apply flt_R in M; [|exact Fm|reflexivity]. rewrite zero_R in M.
      destruct (fadd_b 0 (B2R (fofZ n : f32)) (ffmod p (fofZ n)) (fofZ n)) as (A & _ & B); auto; [apply dy0|apply dy_B2R|lra|]. split; [exact A|lra].
    + apply flt_R_false in M; [|exact Fm|reflexivity]. rewrite zero_R in M. split; [exact Fm|lra].
  - destruct (fsub_b 0 (bpow radix2 62) (fofZ n) one) as (A & _ & B); auto; [apply dy0|apply bdy; lia|apply one_fin|rewrite one_R; lra|].
    assert (N : is_nan p = false) by (destruct P as [P|[_ P]]; [now apply fin_nan|exact P]).
    destruct (clamp_fin p zero (fsub (fofZ n) one) N eq_refl A) as [C D]; [rewrite zero_R; lra|]. rewrite zero_R in D. split; [exact C|]. cbv zeta. lra.
Qed.
Lemma phase_bad loop n p : is_nan p = true \/ (loop = true /\ is_finite p = false) -> is_nan (rd_phase loop n p) = true.
Proof.
  intros H. unfold rd_phase. destruct loop.
  - assert (B : ffmod p (fofZ n) = (B754_nan : f32)).
    { destruct p as [b|b| |b m e X]; destruct H as [H|[_ H]]; try discriminate H; cbn; destruct (fofZ n : f32); reflexivity. }
    cbv zeta. rewrite B. reflexivity.
  - destruct H as [H|[H _]]; [|discriminate H]. now apply clamp_nan.
Qed.
Lemma split_ok a : fin a -> 0 <= B2R a <= bpow radix2 62 -> exists f, rd_split a = Some (Zfloor (B2R a), f) /\ (0 <= Zfloor (B2R a) <= 2 ^ 62)%Z.
Proof.
  intros F B. assert (Z : (0 <= Zfloor (B2R a) <= 2 ^ 62)%Z).
  { split; [apply Zfloor_lub; apply B|]. apply le_IZR. eapply Rle_trans; [apply Zfloor_lb|]. apply B. }
  exists (fsub a (fofZ (Zfloor (B2R a)))). split; [|exact Z]. unfold rd_split.
  replace (to_size a) with (Some (Zfloor (B2R a))); [reflexivity|]. symmetry. apply ftoZ_some. split; [exact F|]. split; [now rewrite Ztrunc_floor by apply B|].
  assert ((2 ^ 62 <= SIZE_MAX)%Z) by (vm_compute; discriminate). lia.
Qed.
Lemma split_bad a : is_nan a = true -> rd_split a = None.
Proof. destruct a; try discriminate. reflexivity. Qed.
(** Below 2^24 the fraction is exact. *)
Lemma split_exact a : fin a -> 0 <= B2R a <= IZR (2 ^ 24) ->
  exists f, rd_split a = Some (Zfloor (B2R a), f) /\ fin f /\ B2R f = B2R a - IZR (Zfloor (B2R a)) /\ 0 <= B2R f < 1.
Proof.
  intros F B. destruct (split_ok a F) as (f & E & Z).
  { split; [apply B|]. eapply Rle_trans; [apply B|]. apply (bpow_le radix2 24 62). lia. }
  exists f. split; [exact E|]. unfold rd_split in E. destruct (to_size a) as [i|]; [|discriminate E]. cbn [bind] in E. injection E as -> <-.
  assert (Zi : (Zfloor (B2R a) <= 2 ^ 24)%Z) by (apply le_IZR; eapply Rle_trans; [apply Zfloor_lb|apply B]).
  destruct (fofZ_R (prec:=24) (emax:=128) (Zfloor (B2R a)) ltac:(lia)) as [Fi Ei].
  assert (X : B2R a - IZR (Zfloor (B2R a)) = B2R (ffmod a one)).
  { destruct (ffmod_R a one F one_fin) as [_ Y]; [rewrite one_R; lra|].
    rewrite Y, one_R. unfold Rdiv. rewrite Rinv_1, Rmult_1_r, Rmult_1_l, Ztrunc_floor by apply B. reflexivity. }
  destruct (fsub_exact a (fofZ (Zfloor (B2R a))) F Fi) as [A1 A2]; [rewrite Ei, X; apply dy_B2R|]. rewrite Ei in A2.
  split; [exact A1|]. split; [exact A2|]. rewrite A2. pose proof (Zfloor_lb (B2R a)). pose proof (Zfloor_ub (B2R a)). lra.
Qed.
(** The position is exact for phases that are not negative, and when clamping. *)
Lemma pos_bnd loop n p : (0 < n)%Z -> 0 <= rd_pos loop n p <= IZR n /\ (loop = true -> rd_pos loop n p < IZR n) /\ (loop = false -> rd_pos loop n p <= IZR n - 1).
Proof.
  intros H. apply IZR_lt in H. unfold rd_pos. destruct loop.
  - pose proof (Zfloor_lb (p / IZR n)) as A. pose proof (Zfloor_ub (p / IZR n)) as B. set (k := IZR (Zfloor (p / IZR n))) in *.
    assert (E : p = p / IZR n * IZR n) by (field; lra). set (q := p / IZR n) in *.
    assert (0 <= p - IZR n * k < IZR n) by (rewrite E; split; nra). split; [lra|]. split; [intros _; lra|discriminate].
  - assert (1 <= IZR n) by (apply (IZR_le 1); apply lt_IZR in H; lia).
    unfold Rmax, Rmin. destruct (Rle_dec (IZR n - 1) p); destruct (Rle_dec 0 _); (split; [lra|split; [discriminate|lra]]).
Qed.
Lemma phase_exact loop n p : (1 <= n <= 2 ^ 24)%Z -> fin p -> (loop = true -> 0 <= B2R p) ->
  fin (rd_phase loop n p) /\ B2R (rd_phase loop n p) = rd_pos loop n (B2R p).
Proof.
  intros H Fp Hp. destruct (fofZ_R (prec:=24) (emax:=128) n ltac:(lia)) as [Fn En]. assert (N1 : 1 <= IZR n) by (apply (IZR_le 1); lia).
  unfold rd_phase, rd_pos. destruct loop; cbv zeta.
  - specialize (Hp eq_refl). destruct (ffmod_R p (fofZ n) Fp Fn ltac:(lra)) as [Fm Em]. rewrite En in Em.
    assert (Q : 0 <= B2R p / IZR n) by (apply Rmult_le_pos; [exact Hp|left; apply Rinv_0_lt_compat; lra]).
    rewrite Ztrunc_floor in Em by exact Q.
    destruct (pos_bnd true n (B2R p) ltac:(lia)) as [PB _]. unfold rd_pos in PB.
    replace (flt (ffmod p (fofZ n)) zero) with false; [split; assumption|]. symmetry. apply flt_R_false; [exact Fm|reflexivity|rewrite zero_R, Em; apply PB].
  - destruct (fsub_exact (fofZ n : f32) one Fn one_fin) as [F1 E1].
    { rewrite En, one_R, <- minus_IZR. apply dyZ. lia. } rewrite En, one_R in E1.
    unfold clamp. assert (Fz : fin zero) by reflexivity. destruct (flt p zero) eqn:A.
    + apply flt_R in A; [|assumption..]. rewrite zero_R in *. split; [exact Fz|]. unfold Rmax, Rmin. destruct (Rle_dec (IZR n - 1) _); destruct (Rle_dec 0 _); lra.
    + apply flt_R_false in A; [|assumption..]. rewrite zero_R in *. destruct (flt (fsub (fofZ n) one) p) eqn:B.
      * apply flt_R in B; [|assumption..]. split; [exact F1|]. rewrite E1 in *. unfold Rmax, Rmin. destruct (Rle_dec (IZR n - 1) _); destruct (Rle_dec 0 _); lra.
      * apply flt_R_false in B; [|assumption..]. split; [exact Fp|]. rewrite E1 in *. unfold Rmax, Rmin. destruct (Rle_dec (IZR n - 1) _); destruct (Rle_dec 0 _); lra.
Qed.
(** Looping over a negative phase: the exact position, rounded once. *)
Lemma phase_neg n p : (1 <= n <= 2 ^ 24)%Z -> fin p -> B2R p < 0 ->
  fin (rd_phase true n p) /\ B2R (rd_phase true n p) = rnd32 (rd_pos true n (B2R p)).
Proof.
  intros H Fp Hp. destruct (fofZ_R (prec:=24) (emax:=128) n ltac:(lia)) as [Fn En]. assert (N1 : 1 <= IZR n) by (apply (IZR_le 1); lia).
  unfold rd_phase, rd_pos. cbv zeta. destruct (ffmod_R p (fofZ n) Fp Fn ltac:(lra)) as [Fm Em]. destruct (ffmod_bound p (fofZ n) Fp Fn ltac:(lra)) as (Bm & _ & Sg).
  rewrite En in *. rewrite (Rabs_pos_eq (IZR n)) in Bm by lra. apply Rabs_def2 in Bm. set (m := ffmod p (fofZ n)) in *.
  assert (M0 : B2R m <= 0) by nra. set (q := B2R p / IZR n) in *. assert (Eq : B2R p = q * IZR n) by (unfold q; field; lra).
  assert (Q0 : q <= 0) by (apply Rmult_le_reg_r with (IZR n); [lra|rewrite <- Eq; lra]).
  rewrite Ztrunc_ceil in Em by exact Q0.
  destruct (flt m zero) eqn:M.
  - apply flt_R in M; [|exact Fm|reflexivity]. rewrite zero_R in M.
    destruct (fadd_b 0 (B2R (fofZ n : f32)) m (fofZ n)) as (A & B & _); auto; [apply dy0|apply dy_B2R|rewrite En; lra|].
    split; [exact A|]. rewrite B, En. f_equal. rewrite Em.
    assert (C : Zceil q = (Zfloor q + 1)%Z).
    { apply Zceil_floor_neq. intros K. rewrite <- K, Zceil_IZR, K in Em. rewrite Em, Eq in M. lra. }
    rewrite C, plus_IZR. ring.
  - apply flt_R_false in M; [|exact Fm|reflexivity]. rewrite zero_R in M. assert (Z : B2R m = 0) by lra. split; [exact Fm|]. rewrite Z.
    assert (K : q = IZR (Zceil q)) by (apply Rmult_eq_reg_r with (IZR n); [rewrite <- Eq; lra|lra]).
    rewrite K at 1. rewrite Zfloor_IZR, Eq, K at 1. replace (IZR (Zceil q) * IZR n - IZR n * IZR (Zceil q)) with 0 by ring. symmetry. apply rnd_0.
Qed.

(** ** Taps *)
Definition tapv (b : rbuf) (c i : Z) : f32 := if (i <? rb_n b)%Z then smp b c i else zero.
Lemma w64 i : (0 <= i < 2 ^ 64)%Z -> wrap64 i = i. Proof. intros. now apply Z.mod_small. Qed.
Lemma at_ok b d i : rb_data b = Some d -> (0 <= i < rb_len b)%Z -> rb_at b i = Some (d i).
Proof. intros D H. unfold rb_at. rewrite D. cbn [bind]. replace ((0 <=? i)%Z && (i <? rb_len b)%Z) with true; [reflexivity|]. symmetry. apply andb_true_intro. split; [apply Z.leb_le|apply Z.ltb_lt]; lia. Qed.
Lemma get_ok b i : rb_ok b -> (0 <= i)%Z -> rb_get b i = Some (tapv b 0 i).
Proof.
  intros (d & D & N & C & L) I. unfold rb_get, tapv, smp. rewrite D. cbn [orb]. destruct (Z.leb_spec (rb_n b) i) as [K|K].
  - replace (i <? rb_n b)%Z with false by (symmetry; apply Z.ltb_ge; lia). reflexivity.
  - replace (i <? rb_n b)%Z with true by (symmetry; apply Z.ltb_lt; lia).
    assert (X : (i * rb_ch b < rb_len b)%Z) by (destruct C as [C | C]; rewrite C in *; lia).
    assert (Y : (0 <= i * rb_ch b)%Z) by (destruct C as [C | C]; rewrite C in *; lia).
    rewrite w64 by lia. rewrite (at_ok b d _ D) by lia. f_equal. f_equal. destruct C as [C | C]; rewrite C; cbn [Z.eqb Pos.eqb]; lia.
Qed.
Lemma get2_ok b i : rb_ok b -> (0 <= i)%Z -> rb_get2 b i = Some (tapv b 0 i, tapv b 1 i).
Proof.
  intros (d & D & N & C & L) I. unfold rb_get2, tapv, smp. rewrite D. cbn [orb]. destruct (Z.leb_spec (rb_n b) i) as [K|K].
  - replace (i <? rb_n b)%Z with false by (symmetry; apply Z.ltb_ge; lia). reflexivity.
  - replace (i <? rb_n b)%Z with true by (symmetry; apply Z.ltb_lt; lia).
    destruct C as [C | C]; rewrite C in *; cbn [Z.eqb Pos.eqb].
    + rewrite (at_ok b d _ D) by lia. reflexivity.
    + rewrite (w64 (i * 2)) by lia. rewrite w64 by lia. rewrite !(at_ok b d _ D) by lia. cbn [bind]. f_equal. f_equal; f_equal; lia.
Qed.
(** One channel of a read with integer part [i] and fraction [f]. *)
Definition interp (mode : Z) (lp : bool) (b : rbuf) (c i : Z) (f : f32) : f32 :=
  let n := rb_n b in
  if (mode =? 2)%Z then lerp (tapv b c i) (tapv b c (rd_wrap lp (i + 1) n)) f
  else if (mode =? 4)%Z then rd_cubic (tapv b c (rd_prev lp i n)) (tapv b c i) (tapv b c (rd_wrap lp (i + 1) n)) (tapv b c (rd_wrap lp (i + 2) n)) f
  else tapv b c i.
Lemma wrap_nn lp i n : (0 < n)%Z -> (0 <= i)%Z -> (0 <= rd_wrap lp i n < n)%Z.
Proof. intros N I. unfold rd_wrap. destruct lp; [apply Z.mod_pos_bound; lia|]. destruct (Z.ltb_spec i n); lia. Qed.
Lemma prev_nn lp i n : (0 < n)%Z -> (0 <= i)%Z -> (0 <= rd_prev lp i n < n)%Z.
Proof. intros N I. unfold rd_prev. destruct (Z.eqb_spec i 0); apply wrap_nn; lia. Qed.
Lemma ok_valid b : rb_ok b -> rb_valid b = true.
Proof. intros (d & D & N & C & L). unfold rb_valid. rewrite D. cbn [andb]. apply Z.ltb_lt in N. rewrite N. destruct C as [-> | ->]; reflexivity. Qed.
Lemma tick_form b lp mode p i f : rb_ok b -> rd_split (rd_phase lp (rb_n b) p) = Some (i, f) -> (0 <= i <= 2 ^ 62)%Z ->
  rd_tick (BufRd (Some b) lp mode) p = Some (interp mode lp b 0 i f) /\
  rd_tick2 (BufRd (Some b) lp mode) p = Some (interp mode lp b 0 i f, interp mode lp b 1 i f).
Proof.
  intros O S I. pose proof (ok_valid b O) as V. assert (N : (0 < rb_n b)%Z) by (destruct O as (d & _ & N & _); exact N).
  unfold rd_tick, rd_tick2, interp. cbn [rd_buf rd_loop rd_mode]. rewrite V, S. cbn [negb bind]. unfold rd_next. rewrite !w64 by lia.
  rewrite !(get_ok b) by (auto; first [lia | apply wrap_nn; lia | apply prev_nn; lia]).
  rewrite !(get2_ok b) by (auto; first [lia | apply wrap_nn; lia | apply prev_nn; lia]). cbn [bind fst snd].
  destruct (mode =? 2)%Z; [split; reflexivity|]. destruct (mode =? 4)%Z; split; reflexivity.
Qed.
Lemma ok_n b : rb_ok b -> (1 <= rb_n b < 2 ^ 62)%Z.
Proof. intros (d & _ & N & C & L). destruct C as [C | C]; rewrite C in L; lia. Qed.
Lemma mono_ok b c : rb_ok b -> rb_ok (mono_of b c).
Proof. intros O. pose proof (ok_n b O). exists (smp b c). unfold mono_of. cbn [rb_data rb_n rb_ch rb_len]. split; [reflexivity|]. split; [lia|]. split; [now left|lia]. Qed.
Lemma interp_mono mode lp b c i f : interp mode lp (mono_of b c) 0 i f = interp mode lp b c i f.
Proof. reflexivity. Qed.

(** Defined exactly for finite phases (and infinite ones when clamping). *)
Lemma rd_defined b lp mode p : rb_ok b -> fin p \/ (lp = false /\ is_nan p = false) ->
  exists i f, rd_split (rd_phase lp (rb_n b) p) = Some (i, f) /\ (0 <= i <= 2 ^ 62)%Z /\
  rd_tick (BufRd (Some b) lp mode) p = Some (interp mode lp b 0 i f) /\
  rd_tick2 (BufRd (Some b) lp mode) p = Some (interp mode lp b 0 i f, interp mode lp b 1 i f).
Proof.
  intros O P. destruct (phase_ok lp (rb_n b) p (ok_n b O) P) as [F B]. destruct (split_ok _ F B) as (f & S & Z).
  exists (Zfloor (B2R (rd_phase lp (rb_n b) p))), f. split; [exact S|]. split; [exact Z|]. now apply tick_form.
Qed.
Lemma rd_undefined b lp mode p : rb_ok b -> is_nan p = true \/ (lp = true /\ is_finite p = false) ->
  rd_tick (BufRd (Some b) lp mode) p = None /\ rd_tick2 (BufRd (Some b) lp mode) p = None.
Proof.
  intros O P. pose proof (split_bad _ (phase_bad lp (rb_n b) p P)) as S. unfold rd_tick, rd_tick2. cbn [rd_buf rd_loop]. rewrite (ok_valid b O), S. split; reflexivity.
Qed.
Lemma rd_channels b lp mode p : rb_ok b ->
  rd_tick (BufRd (Some b) lp mode) p = rd_tick (BufRd (Some (mono_of b 0)) lp mode) p /\
  rd_tick2 (BufRd (Some b) lp mode) p =
    (l <- rd_tick (BufRd (Some (mono_of b 0)) lp mode) p ;; r <- rd_tick (BufRd (Some (mono_of b 1)) lp mode) p ;; Some (l, r)).
Proof.
  intros O. assert (D : (fin p \/ (lp = false /\ is_nan p = false)) \/ (is_nan p = true \/ (lp = true /\ is_finite p = false))).
  { destruct p as [s|s| |s m e B]; destruct lp; cbn; auto; left; left; reflexivity. }
  destruct D as [D|D].
  - destruct (rd_defined b lp mode p O D) as (i & f & S & I & A & B).
    destruct (tick_form (mono_of b 0) lp mode p i f (mono_ok b 0 O) S I) as [A0 _]. destruct (tick_form (mono_of b 1) lp mode p i f (mono_ok b 1 O) S I) as [A1 _].
    rewrite A, B, A0, A1, !interp_mono. split; reflexivity.
  - destruct (rd_undefined b lp mode p O D) as [A B]. destruct (rd_undefined (mono_of b 0) lp mode p (mono_ok b 0 O) D) as [A0 _]. rewrite A, B, A0. split; reflexivity.
Qed.
