(** The playback example as a whole: defined and bounded. *)
From Coq Require Import ZArith Reals Lra Lia Bool List.
From Flocq Require Import Core BinarySingleNaN.
From Verif Require Import Flt FltFacts FltMore FltArith FltClose FltRel FltScale Libm UtilModel UtilProofs EnvSpec EnvProofs PanSpec OscSpec SmoothModel SmoothSpec SmoothProofs LineModel LineSpec PhasorProofs PhasorProofs2
  RdModel RdSpec RdProofs RdProofs2 RdProofs3 DsModel DsSpec DsProofs DsProofs2 CombProofs PbModel PbProofs2.
Import ListNotations.
Local Open Scope R_scope.
Local Notation rnd32 := (@rnd 24 128).

(** Cubic reading of a looped buffer. *)
Lemma rd_cubic_bound j b lp p : rb_ok b -> (-100 <= j <= 95)%Z -> loud j b 0 -> loud j b 1 -> fin p ->
  exists l r, rd_tick2 (BufRd (Some b) lp 4) p = Some (l, r) /\ bnd (j + 1) l /\ bnd (j + 1) r.
Proof.
  intros O J L0 L1 P. destruct (phase_ok lp (rb_n b) p (ok_n b O) (or_introl P)) as [F B]. destruct (split_frac _ F B) as (i & f & S & I & Ff & Bf).
  destruct (tick_form b lp 4 p i f O S I) as [_ A1]. eexists _, _. split; [exact A1|]. pose proof (ok_n b O).
  assert (T : forall c, loud j b c -> bnd (j + 1) (interp 4 lp b c i f)).
  { intros c L. pose proof (tap_loud j b c i L ltac:(lia)) as X0.
    pose proof (tap_loud j b c (rd_wrap lp (i + 1) (rb_n b)) L ltac:(apply wrap_nn; lia)) as X1.
    pose proof (tap_loud j b c (rd_wrap lp (i + 2) (rb_n b)) L ltac:(apply wrap_nn; lia)) as X2.
    pose proof (tap_loud j b c (rd_prev lp i (rb_n b)) L ltac:(apply prev_nn; lia)) as X3.
    cbv beta zeta delta [interp]. change (4 =? 2)%Z with false. change (4 =? 4)%Z with true. cbv iota.
    destruct (cubic_acc j _ _ _ _ f ltac:(lia) X3 X0 X1 X2 Ff ltac:(lra)) as [Fc Ec]. split; [exact Fc|].
    pose proof (spline_le (bpow radix2 j) (B2R f) _ _ _ _ ltac:(lra) (proj2 X3) (proj2 X0) (proj2 X1) (proj2 X2)) as SB.
    set (y := rd_cubic _ _ _ _ _) in *. clearbody y. set (z := spline _ _ _ _ _) in *. clearbody z.
    replace (B2R y) with (z + (B2R y - z)) by ring. eapply Rle_trans; [apply Rabs_triang|].
    assert (E17 : bpow radix2 (j - 17) = / 131072 * bpow radix2 j) by (unfold Z.sub; rewrite Z.add_comm, bpow_plus; reflexivity).
    rewrite bp2. pose proof (bpow_gt_0 radix2 j). lra. }
  split; now apply T.
Qed.

(** One channel of the downsampler between two frames. *)
Definition idle (L : libm) (rate : f32) (j : Z) (d : ds) : Prop := exists h, ds_inv L rate j d h /\ me_m h = O.
Lemma idle_init L rate j f : (0 <= f)%Z -> idle L rate j (ds_init L rate f).
Proof.
  intros F. exists (Mem (clamp16 f) [] 0). split; [|reflexivity]. unfold ds_init, ds_inv. cbn [ds_rate ds_fac ds_c ds_n ds_st ds_acc me_f me_xs me_m]. rewrite factor_clamp by exact F.
  pose proof (clamp16_b f). repeat (split; [first [assumption|reflexivity|lia]|]). split; [apply st_zero|apply acc_zero].
Qed.
Definition rate_fine (rate : f32) : Prop := fin rate /\ 1 <= B2R rate <= bpow radix2 90.
Lemma idle_two L rate j d x1 x2 : exp_unit L -> exp_acc L -> rate_fine rate -> (-100 <= j <= 96)%Z -> bnd j x1 -> bnd j x2 -> idle L rate j d ->
  let r := ds_read (ds_write (ds_write d x1) x2) in idle L rate j (fst r) /\ bnd j (snd r).
Proof.
  intros U A [Fr Br] J B1 B2 (h & I & M) r.
  assert (N0 : (Z.of_nat (me_m h) < 2 ^ 64)%Z) by (rewrite M; reflexivity).
  pose proof (note_ok L rate j d h (DsWrite x1) U A Fr Br J B1 N0 I) as I1.
  assert (N1 : (Z.of_nat (me_m (ds_note h (DsWrite x1))) < 2 ^ 64)%Z) by (cbn [ds_note me_m]; rewrite M; reflexivity).
  pose proof (note_ok L rate j _ _ (DsWrite x2) U A Fr Br J B2 N1 I1) as I2.
  set (h2 := ds_note (ds_note h (DsWrite x1)) (DsWrite x2)) in *.
  assert (N2 : me_m h2 = 2%nat) by (unfold h2; cbn [ds_note me_m]; now rewrite M).
  pose proof (note_ok L rate j _ _ DsRead U A Fr Br J Logic.I ltac:(rewrite N2; reflexivity) I2) as I3.
  pose proof (read_ok L rate j _ _ J I2 ltac:(rewrite N2; split; [vm_compute; discriminate|reflexivity])) as R. cbv zeta in R. destruct R as (Fy & By & _).
  cbn [ds_call fst] in I1, I2, I3, Fy, By. subst r. split.
  - exists (ds_note h2 DsRead). split; [|reflexivity]. destruct (ds_read (ds_write (ds_write d x1) x2)). exact I3.
  - split; assumption.
Qed.

(** ** The player *)
Definition file_rate (r : Z) : Prop := (1 <= r < 2 ^ 31)%Z.
Definition jack_rate (r : Z) : Prop := (1 <= r < 2 ^ 32)%Z.
Record pl_inv (L : libm) (b : rbuf) (fr : Z) (j : Z) (s : player) : Prop := {
  pi_buf : pl_buf s = b; pi_fr : pl_frate s = fofZ fr; pi_ph : ph_inv (pl_ph s);
  pi_lag : exists sr, lg_inv sr (bpow radix2 40) (pl_lag s);
  pi_ds : exists rate, rate_fine rate /\ idle L rate j (fst (pl_ds s)) /\ idle L rate j (snd (pl_ds s));
  pi_base : within (bpow radix2 32) (pl_base s); pi_ctl : within (bpow radix2 3) (pl_ctl s) }.
Lemma target_ok (x y : f32) : within (bpow radix2 32) x -> within (bpow radix2 3) y -> within (bpow radix2 40) (fmul x y).
Proof.
  intros [Fx Bx] [Fy By]. destruct (bp_dy 40 ltac:(lia)) as [D1 D2].
  assert (A : Rabs (B2R x * B2R y) <= bpow radix2 40).
  { rewrite Rabs_mult. apply Rle_trans with (bpow radix2 32 * bpow radix2 3); [apply Rmult_le_compat; auto using Rabs_pos|]. rewrite <- bpow_plus. apply bpow_le. lia. }
  destruct (fmul_b _ _ x y D2 D1 Fx Fy (Rabs_le_inv _ _ A)) as (F & _ & B). split; [exact F|now apply Rabs_le].
Qed.
Lemma within_par k x : (k <= 100)%Z -> within (bpow radix2 k) x -> ph_par x.
Proof. intros K [F B]. split; [exact F|]. eapply Rle_trans; [exact B|now apply bpow_le]. Qed.
Lemma jack_fine sr : jack_rate sr -> rate_fine (fofZ sr) /\ fin (fmul (fofZ sr) two : f32) /\ 2 <= B2R (fmul (fofZ sr) two : f32) /\ sr_ok (fmul (fofZ sr) two).
Proof.
  intros H. destruct (fofZ_big sr) as [F [B1 B2]]; [unfold jack_rate in H; lia|].
  assert (R : rate_fine (fofZ sr)) by (split; [exact F|]; split; [exact B1|]; eapply Rle_trans; [exact B2|apply bpow_le; lia]). split; [exact R|].
  assert (T2 : B2R (two : f32) = 2) by (fval (two : f32); lra).
  destruct (bp_dy 63 ltac:(lia)) as [D1 _]. destruct (bp_dy 1 ltac:(lia)) as [D2 _].
  destruct (fmul_b _ _ (fofZ sr : f32) two D2 D1 F ltac:(reflexivity)) as (Fm & _ & Bm).
  { rewrite T2. change 63%Z with (62 + 1)%Z. rewrite bp2. change (bpow radix2 1) with 2. lra. }
  split; [exact Fm|]. change (bpow radix2 1) with 2 in Bm. split; [apply Bm|]. unfold sr_ok. apply flt_R; [reflexivity|exact Fm|]. change (B2R (fzero : f32)) with 0. lra.
Qed.
Lemma fofZ_rnd31 n : (Z.abs n <= 2 ^ 31)%Z -> fin (fofZ n : f32) /\ Rabs (B2R (fofZ n : f32)) <= bpow radix2 31.
Proof.
  intros H. unfold fofZ. assert (A : - bpow radix2 31 <= IZR n <= bpow radix2 31) by (change (bpow radix2 31) with (IZR (2 ^ 31)); rewrite <- opp_IZR; split; apply IZR_le; lia).
  destruct (dy_rnd_bnd (prec:=24) (emax:=128) (- bpow radix2 31) (bpow radix2 31) (IZR n)) as [B C]; [apply bdy; lia|apply bdy; lia|exact A|].
  destruct (flit_R (prec:=24) (emax:=128) n 0) as [F E]; change (bpow radix2 0) with 1 in *; rewrite Rmult_1_r in *; [exact B|]. split; [exact F|]. rewrite E. now apply Rabs_le.
Qed.
Lemma base_ok fr sr : file_rate fr -> jack_rate sr -> within (bpow radix2 32) (fdiv (fofZ fr) (fmul (fofZ sr) two)).
Proof.
  intros Hf Hs. destruct (jack_fine sr Hs) as (_ & Fi & Bi & _). set (y := fmul _ _) in *. clearbody y.
  destruct (fofZ_rnd31 fr) as [Ff Bf]; [unfold file_rate in Hf; lia|]. set (x := fofZ fr) in *. clearbody x.
  assert (1 <= IZR fr) by (apply IZR_le; unfold file_rate in Hf; lia).
  destruct (bp_dy 32 ltac:(lia)) as [D1 D2]. assert (Ny : B2R y <> 0) by lra.
  assert (A : Rabs (B2R x / B2R y) <= bpow radix2 32).
  { unfold Rdiv. rewrite Rabs_mult, Rabs_inv, (Rabs_pos_eq (B2R y)) by lra. rewrite <- (Rmult_1_r (bpow radix2 32)).
    apply Rmult_le_compat; [apply Rabs_pos|left; apply Rinv_0_lt_compat; lra| |rewrite <- Rinv_1; apply Rinv_le_contravar; lra].
    eapply Rle_trans; [exact Bf|apply bpow_le; lia]. }
  destruct (fdiv_b _ _ x y D2 D1 Ff Fi Ny (Rabs_le_inv _ _ A)) as (F & _ & B). split; [exact F|now apply Rabs_le].
Qed.
Lemma configure_inv L b fr j s sr : exp_unit L -> rb_ok b -> file_rate fr -> jack_rate sr -> pl_buf s = b -> pl_frate s = fofZ fr -> within (bpow radix2 3) (pl_ctl s) ->
  pl_inv L b fr j (pl_configure L s (fofZ sr)).
Proof.
  intros U O Hf Hs Eb Ef Hc. destruct (jack_fine sr Hs) as (Rf & Fi & Bi & So). pose proof (base_ok fr sr Hf Hs) as Bb.
  unfold pl_configure. cbv zeta. rewrite Eb, (ok_valid b O), Ef. set (base := fdiv _ _) in *. clearbody base.
  pose proof (target_ok base (pl_ctl s) Bb Hc) as T. set (tg := fmul base (pl_ctl s)) in *. clearbody tg.
  assert (Pn : ph_par (fofZ (rb_n b))).
  { destruct (fofZ_big (rb_n b) (ok_n b O)) as [F [B1 B2]]. split; [exact F|]. rewrite Rabs_pos_eq by lra. eapply Rle_trans; [exact B2|apply bpow_le; lia]. }
  destruct par_01 as [P0 P1].
  constructor; cbn [pl_buf pl_frate pl_ph pl_lag pl_ds pl_base pl_ctl]; auto.
  - unfold ph_inv, ph_set. cbn [ph_rate ph_start ph_end ph_pos ph_value]. pose proof (within_par 40 tg ltac:(lia) T). repeat (split; [assumption|]). now apply par_big.
  - exists (fmul (fofZ sr) two). pose proof (lg_init_inv L (fmul (fofZ sr) two) (fdec 2 10) (bpow radix2 40) U So ltac:(reflexivity) ltac:(apply bpow_ge_0)) as (A & B & C).
    exact (conj A (conj B T)).
  - exists (fofZ sr). split; [exact Rf|]. unfold ds2_init. split; apply idle_init; lia.
Qed.
Lemma start_inv L b fr j sr : exp_unit L -> rb_ok b -> file_rate fr -> jack_rate sr -> pl_inv L b fr j (pl_start L b fr sr).
Proof.
  intros U O Hf Hs. unfold pl_start. apply configure_inv; auto. cbn [pl_ctl]. split; [reflexivity|]. rewrite one_R, Rabs_pos_eq by lra. apply (bpow_le radix2 0 3). lia.
Qed.
(** One oversampled step: everything but the downsampler. *)
Lemma tick_ok b j s target : rb_ok b -> (-100 <= j <= 95)%Z -> loud j b 0 -> loud j b 1 ->
  pl_buf s = b -> ph_inv (pl_ph s) -> (exists sr, lg_inv sr (bpow radix2 40) (pl_lag s)) -> within (bpow radix2 40) target ->
  exists s' l r, pl_tick s target = Some s' /\ bnd (j + 1) l /\ bnd (j + 1) r /\ pl_ds s' = (ds_write (fst (pl_ds s)) l, ds_write (snd (pl_ds s)) r) /\
    pl_buf s' = b /\ pl_frate s' = pl_frate s /\ ph_inv (pl_ph s') /\ (exists sr, lg_inv sr (bpow radix2 40) (pl_lag s')) /\ pl_base s' = pl_base s /\ pl_ctl s' = pl_ctl s.
Proof.
  intros O J L0 L1 Eb Ip [sr Il] T. unfold pl_tick.
  destruct (lg_tick_inv 40 sr (pl_lag s) target ltac:(lia) Il T) as [I2 W2]. destruct (lg_tick (pl_lag s) target) as [lg r]. cbn [fst snd] in I2, W2.
  assert (Ip2 : ph_inv (ph_setRate (pl_ph s) r)) by exact (ph_op_inv (pl_ph s) (HRate r) Ip (within_par 40 r ltac:(lia) W2)).
  pose proof (ph_tick_inv _ Ip2) as Ip3. assert (Fp : fin (snd (ph_tick (ph_setRate (pl_ph s) r)))).
  { destruct Ip2 as (_ & B & C & _ & E). unfold ph_tick. cbn [snd]. exact (proj1 (wrap_big _ _ _ B C E)). }
  destruct (ph_tick (ph_setRate (pl_ph s) r)) as [ph phase]. cbn [fst snd] in Ip3, Fp. rewrite Eb.
  destruct (rd_cubic_bound j b true phase O J L0 L1 Fp) as (x & y & E & Bx & By). rewrite E. cbn [bind fst snd].
  eexists _, x, y. split; [reflexivity|]. cbn [pl_buf pl_frate pl_ph pl_lag pl_ds pl_base pl_ctl]. unfold ds2_write.
  split; [exact Bx|]. split; [exact By|]. split; [reflexivity|]. split; [reflexivity|]. split; [reflexivity|]. split; [exact Ip3|]. split; [now exists sr|]. split; reflexivity.
Qed.
Definition within2 (m : R) (y : f32 * f32) : Prop := within m (fst y) /\ within m (snd y).
Lemma frame_ok L b fr j s target : exp_unit L -> exp_acc L -> rb_ok b -> (-100 <= j <= 95)%Z -> loud j b 0 -> loud j b 1 -> pl_inv L b fr (j + 1) s -> within (bpow radix2 40) target ->
  exists s' y, pl_frame s target = Some (s', y) /\ pl_inv L b fr (j + 1) s' /\ within2 (bpow radix2 (j + 1)) y /\ pl_base s' = pl_base s /\ pl_ctl s' = pl_ctl s.
Proof.
  intros U A O J L0 L1 [I1 I2 I3 I4 I5 I6 I7] T. unfold pl_frame.
  destruct (tick_ok b j s target O J L0 L1 I1 I3 I4 T) as (s1 & l1 & r1 & E1 & Bl1 & Br1 & D1 & X1 & X2 & X3 & X4 & X5 & X6). rewrite E1. cbn [bind].
  destruct (tick_ok b j s1 target O J L0 L1 X1 X3 X4 T) as (s2 & l2 & r2 & E2 & Bl2 & Br2 & D2 & Y1 & Y2 & Y3 & Y4 & Y5 & Y6). rewrite E2. cbn [bind].
  destruct I5 as (rate & Rf & Il & Ir). rewrite D1 in D2. cbn [fst snd] in D2. rewrite D2. unfold ds2_read. cbn [fst snd].
  destruct (idle_two L rate (j + 1) (fst (pl_ds s)) l1 l2 U A Rf ltac:(lia) Bl1 Bl2 Il) as [Jl Wl].
  destruct (idle_two L rate (j + 1) (snd (pl_ds s)) r1 r2 U A Rf ltac:(lia) Br1 Br2 Ir) as [Jr Wr].
  destruct (ds_read (ds_write (ds_write (fst (pl_ds s)) l1) l2)) as [dl yl]. destruct (ds_read (ds_write (ds_write (snd (pl_ds s)) r1) r2)) as [dr yr]. cbn [fst snd] in Jl, Wl, Jr, Wr.
  eexists _, (yl, yr). split; [reflexivity|]. split; [|split; [split; assumption|cbn [pl_base pl_ctl]; split; congruence]].
  constructor; cbn [pl_buf pl_frate pl_ph pl_lag pl_ds pl_base pl_ctl fst snd]; auto; try congruence.
  - exists rate. auto.
Qed.
Lemma frames_ok L b fr j target n : exp_unit L -> exp_acc L -> rb_ok b -> (-100 <= j <= 95)%Z -> loud j b 0 -> loud j b 1 -> within (bpow radix2 40) target ->
  forall s, pl_inv L b fr (j + 1) s ->
  exists s' ys, pl_frames s target n = Some (s', ys) /\ length ys = n /\ pl_inv L b fr (j + 1) s' /\ Forall (within2 (bpow radix2 (j + 1))) ys.
Proof.
  intros U A O J L0 L1 T. induction n as [|n IH]; intros s I; cbn [pl_frames]; [exists s, []; split; [reflexivity|]; split; [reflexivity|]; split; [exact I|constructor]|].
  destruct (frame_ok L b fr j s target U A O J L0 L1 I T) as (s1 & y & E & I1 & W & _). rewrite E. cbn [bind].
  destruct (IH s1 I1) as (s2 & ys & E2 & N & I2 & W2). rewrite E2. cbn [bind]. exists s2, (y :: ys). split; [reflexivity|]. split; [cbn [length]; now rewrite N|]. split; [exact I2|constructor; assumption].
Qed.
(** Frames asked for. *)
Definition asked (os : list pl_call) : nat := fold_right (fun o n => match o with LBlock k => k + n | _ => n end)%nat 0%nat os.
Definition pl_ok (o : pl_call) : Prop := match o with LRate sr => jack_rate sr | _ => True end.
Lemma run_fine L b fr j os : exp_unit L -> exp_acc L -> exp_rel L -> log_rel L -> rb_ok b -> file_rate fr -> (-100 <= j <= 95)%Z -> loud j b 0 -> loud j b 1 -> Forall pl_ok os ->
  forall s, pl_inv L b fr (j + 1) s ->
  exists s' ys, pl_run L s os = Some (s', ys) /\ length ys = asked os /\ pl_inv L b fr (j + 1) s' /\ Forall (within2 (bpow radix2 (j + 1))) ys.
Proof.
  intros U A ER LR O Hf J L0 L1 H. induction H as [|o os Ho H IH]; intros s I; cbn [pl_run]; [exists s, []; split; [reflexivity|]; split; [reflexivity|]; split; [exact I|constructor]|].
  assert (S : exists s1 ys, pl_op L s o = Some (s1, ys) /\ length ys = match o with LBlock k => k | _ => 0%nat end /\ pl_inv L b fr (j + 1) s1 /\ Forall (within2 (bpow radix2 (j + 1))) ys).
  { destruct o as [sr|x w|n]; cbn [pl_op].
    - eexists _, []. split; [reflexivity|]. split; [reflexivity|]. split; [|constructor]. destruct I. now apply configure_inv.
    - eexists _, []. split; [reflexivity|]. split; [reflexivity|]. split; [|constructor]. destruct I. constructor; auto. cbn [pl_ctl].
      destruct (rate_range L x w ER LR) as [F B]. split; [exact F|]. change (bpow radix2 3) with 8. destruct B as [->|B]; [rewrite Rabs_R0|]; lra.
    - unfold pl_block. destruct (frames_ok L b fr j (fmul (pl_base s) (pl_ctl s)) n U A O J L0 L1) with (s := s) as (s1 & ys & E & N & I1 & W); auto.
      + destruct I. now apply target_ok.
      + exists s1, ys. auto. }
  destruct S as (s1 & ys & E & N & I1 & W). rewrite E. cbn [bind]. destruct (IH s1 I1) as (s2 & zs & E2 & N2 & I2 & W2). rewrite E2. cbn [bind].
  exists s2, (ys ++ zs). split; [reflexivity|]. split; [|split; [exact I2|apply Forall_app; auto]]. rewrite app_length, N, N2. cbn [asked fold_right]. destruct o; reflexivity.
Qed.
