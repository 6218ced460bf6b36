(** SuperSaw: all outputs are finite, the frequencies of the voices, and what frequency 0 does. *)
From Coq Require Import ZArith Reals Bool List Lra Lia Psatz.
From Flocq Require Import Core BinarySingleNaN.
From Verif Require Import Flt FltFacts FltMore FltKey FltArith Libm UtilModel UtilProofs FltClose FltRel Ln2 RealBounds
  OscModel OscSpec OscProofs OscProofs2 OscProofs3 EnvModel EnvSpec EnvProofs EnvProofs2 PanModel PanSpec PanProofs VcModel VcSpec VcProofs SsSpec SsProofs SsProofs2.
Import ListNotations.
Local Open Scope R_scope.

Lemma ss_after_inv L sr rnd ops : exp_unit L -> pow2_acc L -> sin_unit L -> cos_unit L -> saw_rate sr -> (forall k, unit_sample (rnd k)) -> Forall (ss_ok sr) ops ->
  ss_inv sr (ss_after L sr rnd ops).
Proof. intros HE HP HT HC R U H. exact (ss_run_inv L sr ops HE HP HT HC R H _ (ss_init_inv L sr rnd HE R U)). Qed.
(** *** Settings *)
Lemma ss_set_call L s o : ss_freq (fst (ss_call L s o)) = freq_set (ss_freq s) o /\ ss_vdepth (fst (ss_call L s o)) = depth_set (ss_vdepth s) o /\
  ss_det (fst (ss_call L s o)) = detune_set (ss_det s) o.
Proof.
  destruct o; try (repeat split; reflexivity). cbn [ss_call]. unfold ss_tick. destruct (ad_tick _) as [a b]. destruct (ss_mix L _ _ _ _ _) as [c [u w]]. repeat split; reflexivity.
Qed.
Lemma ss_set_run L ops : forall s, ss_freq (fst (ss_run L s ops)) = fold_left freq_set ops (ss_freq s) /\ ss_vdepth (fst (ss_run L s ops)) = fold_left depth_set ops (ss_vdepth s) /\
  ss_det (fst (ss_run L s ops)) = fold_left detune_set ops (ss_det s).
Proof.
  induction ops as [|o t IH]; intros s; [repeat split; reflexivity|]. rewrite ss_run_fst. destruct (IH (fst (ss_call L s o))) as (A & B & C).
  destruct (ss_set_call L s o) as (D & E & F). rewrite A, B, C, D, E, F. repeat split; reflexivity.
Qed.
Lemma ss_set_after L sr rnd ops : ss_freq (ss_after L sr rnd ops) = freq_of ops /\ ss_vdepth (ss_after L sr rnd ops) = depth_of ops /\ ss_det (ss_after L sr rnd ops) = detune_of ops.
Proof. apply ss_set_run. Qed.

(** *** Every output is finite. *)
Lemma out_fin (m e : f32) : room 7 m -> unit_sample e -> fin (fmul (fmul m ss_norm) e) /\ Rabs (B2R (fmul (fmul m ss_norm) e)) <= 21675.
Proof.
  intros [Fm Bm] [Fe Be]. destruct norm_b as [Fn Bn]. change (IZR (7 * 8192)) with 57344 in Bm.
  assert (D : dy32 21675) by (apply (dyZ 21675); lia).
  assert (A : Rabs (B2R m * B2R ss_norm) <= 21675).
  { rewrite Rabs_mult. apply Rle_trans with (57344 * 0.377965); [|lra]. apply Rmult_le_compat; try apply Rabs_pos; [exact Bm|rewrite Rabs_pos_eq; lra]. }
  destruct (fmul_b _ _ m ss_norm (dy_opp _ D) D Fm Fn (abs_dn _ _ A)) as (F & _ & B).
  destruct (shrink e (fmul m ss_norm) 21675 Fe ltac:(apply unit_abs; lra) F ltac:(now apply Rabs_le) D) as [G H]. split; assumption.
Qed.
Lemma ss_finite L sr rnd ops : exp_unit L -> pow2_acc L -> sin_unit L -> cos_unit L -> saw_rate sr -> (forall k, unit_sample (rnd k)) -> Forall (ss_ok sr) ops ->
  let y := ss_next L (ss_after L sr rnd ops) in
  (fin (fst y) /\ Rabs (B2R (fst y)) <= 21675) /\ (fin (snd y) /\ Rabs (B2R (snd y)) <= 21675).
Proof.
  intros HE HP HT HC R U H. pose proof (ss_after_inv L sr rnd ops HE HP HT HC R U H) as I. cbv zeta.
  destruct (ss_tick_ok L sr _ HP HT HC R I) as [_ (e & ml & mr & E & _ & Ue & M1 & M2 & _)]. unfold ss_next. rewrite E. cbn [fst snd]. split; now apply out_fin.
Qed.

(** *** The frequencies of the voices *)
Definition spread_out (s : ssaw) : Prop := map sv_det (ss_voices s) = map (fun i => ss_offset i (ss_det s)) idx.
Lemma mix_det L f d sp l : forall m, map sv_det (fst (ss_mix L f d sp l m)) = map (fun p => sv_det (snd p)) l.
Proof.
  induction l as [|[i v] t IH]; intros m; [reflexivity|]. cbn [ss_mix map snd]. unfold sv_tick at 1. destruct (lt_tick (sv_vib v)) as [vib x]. destruct (sw_tick _) as [sw z].
  specialize (IH (fadd (fst m) (fst (pan2_process L z (fmul (fsub (fmul (fofZ (i mod 2)) two) one) sp))), fadd (snd m) (snd (pan2_process L z (fmul (fsub (fmul (fofZ (i mod 2)) two) one) sp))))).
  destruct (ss_mix L f d sp t _) as [vs mm]. cbn [fst map sv_det] in *. now rewrite IH.
Qed.
Lemma combine_snd {A B} (g : A -> B) : forall (l : list Z) vs, length l = length vs -> map (fun p => g (snd p)) (combine l vs) = map g vs.
Proof. induction l as [|i l IH]; intros [|v vs] H; try discriminate; [reflexivity|]. cbn. f_equal. apply IH. now injection H. Qed.
Lemma combine_fst {A B} (g : Z -> B) : forall (l : list Z) (vs : list A), length l = length vs -> map (fun p => g (fst p)) (combine l vs) = map g l.
Proof. induction l as [|i l IH]; intros [|v vs] H; try discriminate; [reflexivity|]. cbn. f_equal. apply IH. now injection H. Qed.
Lemma spread_call L s o : length (ss_voices s) = 7%nat -> spread_out s -> length (ss_voices (fst (ss_call L s o))) = 7%nat /\ spread_out (fst (ss_call L s o)).
Proof.
  intros N S. unfold spread_out in *. destruct o; try (split; assumption).
  - split; reflexivity.
  - cbn [ss_call fst ss_setVibratoRate ss_voices ss_det]. rewrite map_length, map_map. auto.
  - cbn [ss_call fst ss_setDetune ss_voices ss_det]. rewrite map_length, zip_len by exact N. split; [reflexivity|]. rewrite map_map. cbn [sv_det]. apply (combine_fst (fun i => ss_offset i d)). now rewrite N.
  - cbn [ss_call]. unfold ss_tick. destruct (ad_tick _) as [a b].
    pose proof (mix_det L (ss_freq s) (ss_vdepth s) (ss_spread s) (combine idx (ss_voices s)) (zero, zero)) as M.
    destruct (ss_mix L _ _ _ _ _) as [c [u w]]. cbn [fst ss_voices ss_det] in *. rewrite combine_snd in M by (now rewrite N). rewrite M, S. split; [|reflexivity].
    rewrite <- (map_length sv_det), M, S. reflexivity.
  - cbn [ss_call fst ss_reset ss_voices ss_det]. rewrite map_length, map_map. auto.
Qed.
Lemma spread_run L ops : forall s, length (ss_voices s) = 7%nat -> spread_out s -> spread_out (fst (ss_run L s ops)).
Proof. induction ops as [|o t IH]; intros s N S; [exact S|]. rewrite ss_run_fst. destruct (spread_call L s o N S) as [A B]. now apply IH. Qed.
Lemma offset_close i (d : f32) : (0 <= i <= 6)%Z -> fin d -> Rabs (B2R d) <= 12 -> cl 0.000001 (ss_offset i d) ((IZR i / 6 - / 2) * B2R d).
Proof.
  intros Hi Fd Bd. unfold ss_offset. assert (J : 0 <= IZR i <= 6) by (split; apply IZR_le; lia).
  destruct (fofZ_R (prec:=24) (emax:=128) i ltac:(lia)) as [Fi Ei]. destruct (fofZ_R (prec:=24) (emax:=128) 6 ltac:(lia)) as [F6 E6].
  assert (H : fin (half : f32) /\ B2R (half : f32) = / 2) by (split; [ffin|fval (half : f32); lra]). destruct H as [Fh Eh].
  assert (C1 : cl (bpow radix2 (-25)) (fdiv (fofZ i) (fofZ 6)) (IZR i / 6)).
  { destruct (fdiv_b 0 1 (fofZ i : f32) (fofZ 6) dy0 dy1 Fi F6) as (Fq & Eq & _); [rewrite E6; lra|rewrite Ei, E6; lra|]. split; [exact Fq|]. rewrite Eq, Ei, E6.
    apply (rnd_err1 0); [lia|]. change (bpow radix2 0) with 1. rewrite Rabs_pos_eq; lra. }
  assert (C2 := cl_sub 0 _ 0 _ half _ _ ltac:(lia) C1 (cl_self half Fh)). rewrite Eh in C2.
  assert (Z : Rabs (IZR i / 6 - / 2) <= / 2) by (apply Rabs_le; lra).
  specialize (C2 ltac:(change (bpow radix2 0) with 1; change (bpow radix2 (-25)) with (/ 33554432); lra)).
  change (bpow radix2 (-25)) with (/ 33554432) in C2. change (bpow radix2 (0 - 25)) with (/ 33554432) in C2.
  assert (Q : Rabs ((IZR i / 6 - / 2) * B2R d) <= 6).
  { rewrite Rabs_mult. replace 6 with (/ 2 * 12) at 2 by lra. apply Rmult_le_compat; try apply Rabs_pos; [apply Rabs_le; lra|exact Bd]. }
  assert (C3 := cl_mul 3 _ 0 (/ 2) 12 _ d _ _ ltac:(lia) C2 (cl_self d Fd) Z Bd ltac:(change (bpow radix2 3) with 8; lra)).
  change (bpow radix2 (3 - 25)) with (/ 4194304) in C3. destruct C3 as [F C3]. split; [exact F|]. eapply Rle_trans; [exact C3|]. lra.
Qed.
Lemma over12 a (x : f32) y : cl a x y -> 0 <= a <= 0.001 -> Rabs y <= 6 -> cl (a / 12 + / 33554432) (fdiv x (fofZ 12)) (y / 12).
Proof.
  intros [F C] A B. destruct twelve as [Ft Et].
  assert (X : Rabs (B2R x) <= 6.01). { replace (B2R x) with (y + (B2R x - y)) by ring. eapply Rle_trans; [apply Rabs_triang|]. lra. }
  destruct (fdiv_b (- (1)) 1 x (fofZ 12) (dy_opp _ dy1) dy1 F Ft) as (G & E & _); [rewrite Et; lra|rewrite Et; apply abs_dn; unfold Rdiv; rewrite Rabs_mult, (Rabs_pos_eq (/ 12)) by lra; lra|].
  split; [exact G|]. rewrite E, Et.
  assert (Z : Rabs (B2R x / 12) <= bpow radix2 0) by (change (bpow radix2 0) with 1; unfold Rdiv; rewrite Rabs_mult, (Rabs_pos_eq (/ 12)) by lra; lra).
  pose proof (rnd_err1 0 _ ltac:(lia) Z) as T. change (bpow radix2 (0 - 25)) with (/ 33554432) in T.
  apply Rabs_le_inv in T. apply Rabs_le_inv in C. apply Rabs_le. lra.
Qed.
Lemma pow2_near e : Rabs e <= 0.0000002 -> Rabs (Rpower 2 e - 1) <= 0.0000002.
Proof.
  intros H. apply Rabs_le_inv in H. pose proof ln_2 as L. unfold Rpower. set (z := e * ln 2). assert (Z : Rabs z <= 0.00000014).
  { unfold z. rewrite Rabs_mult, (Rabs_pos_eq (ln 2)) by lra. assert (Rabs e <= 0.0000002) by (apply Rabs_le; lra). pose proof (Rabs_pos e). nra. }
  apply Rabs_le_inv in Z. pose proof (exp_ineq1_le (- z)) as H1. pose proof (exp_ineq1_le z) as H2. assert (E : exp z * exp (- z) = 1) by (rewrite <- exp_plus; replace (z + - z) with 0 by ring; apply exp_0).
  pose proof (exp_pos z). apply Rabs_le. split; [lra|]. nra.
Qed.
Lemma mix_nth L f d sp : forall l m k v0, (k < length l)%nat ->
  nth k (fst (ss_mix L f d sp l m)) v0 = fst (sv_tick L f d sp (fst (nth k l (0%Z, v0))) (snd (nth k l (0%Z, v0)))).
Proof.
  induction l as [|[i v] t IH]; intros m k v0 K; [cbn in K; lia|]. cbn [ss_mix].
  destruct k as [|k].
  - cbn [nth fst snd]. destruct (sv_tick L f d sp i v) as [v' p]. destruct (ss_mix L f d sp t _) as [vs mm]. reflexivity.
  - change (nth (S k) ((i, v) :: t) (0%Z, v0)) with (nth k t (0%Z, v0)). destruct (sv_tick L f d sp i v) as [v' p].
    specialize (IH (fadd (fst m) (fst p), fadd (snd m) (snd p)) k v0 ltac:(cbn in K; lia)). destruct (ss_mix L f d sp t _) as [vs mm]. cbn [fst nth] in *. exact IH.
Qed.
Lemma combine_nth0 (vs : list svoice) k v0 : length vs = 7%nat -> (k < 7)%nat -> nth k (combine idx vs) (0%Z, v0) = (Z.of_nat k, nth k vs v0).
Proof. intros N K. rewrite combine_nth by (now rewrite N). f_equal. unfold idx. do 7 (destruct k as [|k]; [reflexivity|]). lia. Qed.
Definition det_in (x : f32) : Prop := fin x /\ Rabs (B2R x) <= 12.
Lemma det_init : det_in (fdec 2 10).
Proof. split; [ffin|]. fval (fdec 2 10 : f32). apply Rabs_le. lra. Qed.
Lemma detune_in sr ops : Forall (ss_ok sr) ops -> det_in (detune_of ops).
Proof.
  intros H. unfold detune_of. enough (K : forall x, det_in x -> det_in (fold_left detune_set ops x)) by (apply K; exact det_init).
  induction H as [|o t Ho Ht IH]; intros x X; [exact X|]. cbn [fold_left]. apply IH.
  destruct o; cbn [detune_set]; [exact det_init|..]; try exact X. exact Ho.
Qed.
Lemma voice_pitch L sr rnd ops i : exp_unit L -> pow2_acc L -> sin_unit L -> cos_unit L -> saw_rate sr -> (forall k, unit_sample (rnd k)) -> Forall (ss_ok sr) ops -> (i < 7)%nat ->
  exists m, -1 <= m <= 1 /\
    let p := voice_freq (ss_after L sr rnd (ops ++ [SsTick])) i in
    let ideal := B2R (freq_of ops) * Rpower 2 ((m * B2R (depth_of ops) + (INR i / 6 - / 2) * B2R (detune_of ops)) / 12) in
    fin p /\ Rabs (B2R p - ideal) <= 0.0000015 * ideal.
Proof.
  intros HE HP HT HC R U H K. pose proof (ss_after_inv L sr rnd ops HE HP HT HC R U H) as I. destruct (ss_set_after L sr rnd ops) as (E1 & E2 & E3).
  assert (D : fin (detune_of ops) /\ Rabs (B2R (detune_of ops)) <= 12).
  { apply detune_in with sr. exact H. }
  assert (SP : spread_out (ss_after L sr rnd ops)) by (apply spread_run; reflexivity).
  assert (EA : ss_after L sr rnd (ops ++ [SsTick]) = fst (ss_tick L (ss_after L sr rnd ops))).
  { unfold ss_after. rewrite ss_run_app. rewrite ss_run_fst. cbn [ss_run fst ss_call]. destruct (ss_tick L _). reflexivity. }
  rewrite EA. rewrite <- E1, <- E2, <- E3 in *. clear E1 E2 E3 EA. set (s := ss_after L sr rnd ops) in *. clearbody s. clear H.
  destruct I as ([Hv Hn] & ([Ff Bf] & [Fd Bd] & Hs) & _).
  set (v0 := SVoice (sw_init one zero) (lt_init one zero) zero). set (v := nth i (ss_voices s) v0).
  assert (Iv : sv_inv sr v) by (apply Forall_nth; [exact Hv|rewrite Hn; exact K]). destruct Iv as (_ & Il & _ & _).
  destruct (lt_out sr _ Il) as [Ao _].
  exists (B2R (snd (lt_tick (sv_vib v)))). split; [apply Ao|]. cbv zeta.
  assert (EV : voice_freq (fst (ss_tick L s)) i = vfreq L (ss_freq s) (fdiv (fmul (snd (lt_tick (sv_vib v))) (ss_vdepth s)) (fofZ 12)) (fdiv (sv_det v) (fofZ 12))).
  { unfold voice_freq, ss_tick. destruct (ad_tick (ss_env s)) as [env e].
    pose proof (mix_nth L (ss_freq s) (ss_vdepth s) (ss_spread s) (combine idx (ss_voices s)) (zero, zero) i v0 ltac:(rewrite zip_len by exact Hn; exact K)) as M.
    destruct (ss_mix L _ _ _ _ _) as [vs mm]. cbn [fst ss_voices] in *. fold v0. rewrite M, combine_nth0 by assumption. cbn [fst snd]. fold v. unfold sv_tick. destruct (lt_tick (sv_vib v)) as [vib m]. reflexivity. }
  rewrite EV. clear EV.
  assert (ED : sv_det v = ss_offset (Z.of_nat i) (ss_det s)).
  { unfold v. rewrite <- (map_nth sv_det). unfold spread_out in SP. rewrite SP. rewrite (nth_indep _ _ (ss_offset 0 (ss_det s))) by (cbn; exact K).
    rewrite (map_nth (fun i => ss_offset i (ss_det s))). f_equal. unfold idx. clear - K. do 7 (destruct i as [|i]; [reflexivity|]). lia. }
  rewrite ED. destruct D as [Fq Bq]. pose proof (offset_close (Z.of_nat i) _ ltac:(lia) Fq Bq) as OC. rewrite <- INR_IZR_INZ in OC.
  assert (Ki : 0 <= INR i <= 6) by (split; [apply pos_INR|]; replace 6 with (INR 6) by (cbn; lra); apply le_INR; lia).
  assert (Q : Rabs ((INR i / 6 - / 2) * B2R (ss_det s)) <= 6).
  { rewrite Rabs_mult. replace 6 with (/ 2 * 12) at 2 by lra. apply Rmult_le_compat; try apply Rabs_pos; [apply Rabs_le; lra|exact Bq]. }
  pose proof (over12 _ _ _ OC ltac:(lra) Q) as C2.
  set (m := snd (lt_tick (sv_vib v))) in *. clearbody m. destruct Ao as [Fm Bm].
  assert (Pm : Rabs (B2R m * B2R (ss_vdepth s)) <= 6). { rewrite Rabs_mult. pose proof (unit_abs _ Bm). pose proof (Rabs_pos (B2R m)). pose proof (Rabs_pos (B2R (ss_vdepth s))). nra. }
  assert (C0 := cl_mul 3 0 0 1 6 m (ss_vdepth s) _ _ ltac:(lia) (cl_self m Fm) (cl_self _ Fd) (unit_abs _ Bm) Bd ltac:(change (bpow radix2 3) with 8; lra)).
  change (bpow radix2 (3 - 25)) with (/ 4194304) in C0.
  pose proof (over12 _ _ _ C0 ltac:(lra) Pm) as C1.
  destruct (wobble m (ss_vdepth s) (conj Fm Bm) Fd Bd) as (Fy & _ & By).
  destruct (offset_b (Z.of_nat i) (ss_det s) ltac:(lia) Fq Bq) as [Fo Bo]. destruct (div12 _ 6 Fo Bo ltac:(lra)) as (Fz & _ & Bz).
  destruct (vfreq_close L sr (ss_freq s) _ _ HP R Ff Bf Fy By Fz Bz) as [[Fp Ep] _]. split; [exact Fp|].
  destruct C1 as [_ C1]. destruct C2 as [_ C2].
  set (y := B2R (fdiv (fmul m (ss_vdepth s)) (fofZ 12))) in *. set (q := B2R (fdiv (ss_offset (Z.of_nat i) (ss_det s)) (fofZ 12))) in *.
  set (a := B2R m * B2R (ss_vdepth s)) in *. set (b := (INR i / 6 - / 2) * B2R (ss_det s)) in *.
  assert (Er : Rabs (y + q - (a + b) / 12) <= 0.0000002).
  { apply Rabs_le_inv in C1. apply Rabs_le_inv in C2. apply Rabs_le. lra. }
  pose proof (pow2_near _ Er) as PN.
  assert (EQ : Rpower 2 (y + q) = Rpower 2 ((a + b) / 12) * Rpower 2 (y + q - (a + b) / 12)) by (rewrite pow2_mul; f_equal; ring).
  rewrite EQ in Ep. set (k := Rpower 2 (y + q - (a + b) / 12)) in *. assert (f0 : 0 < B2R (ss_freq s)) by (destruct R as [_ Bs]; lra).
  set (W := B2R (ss_freq s) * Rpower 2 ((a + b) / 12)) in *. assert (W0 : 0 < W) by (apply Rmult_lt_0_compat; [exact f0|apply pow_pos]).
  replace (B2R (ss_freq s) * (Rpower 2 ((a + b) / 12) * k)) with (W * k) in Ep by (unfold W; ring).
  apply Rabs_le_inv in PN. rewrite (Rabs_pos_eq (W * k)) in Ep by (apply Rmult_le_pos; lra). apply Rabs_le_inv in Ep. apply Rabs_le.
  assert (W * k <= W * 1.0000002) by (apply Rmult_le_compat_l; lra). assert (W * 0.9999998 <= W * k) by (apply Rmult_le_compat_l; lra). lra.
Qed.

(** *** Frequency 0 *)
Lemma zero_times b (x : f32) : fin x -> 0 < B2R x -> fmul (B754_zero b) x = B754_zero b.
Proof.
  intros F P. destruct x as [s|s| |s m e H]; try discriminate F; [cbn in P; lra|]. destruct s.
  - exfalso. pose proof (F2R_lt_0 radix2 (Float radix2 (Zneg m) e) ltac:(reflexivity)). change (B2R (B754_finite true m e H : f32)) with (F2R (Float radix2 (Zneg m) e)) in P. lra.
  - destruct b; reflexivity.
Qed.
Lemma vfreq_zero L b y q : pow2_acc L -> fin y -> Rabs (B2R y) <= / 2 -> fin q -> Rabs (B2R q) <= / 2 -> vfreq L (B754_zero b) y q = B754_zero b.
Proof.
  intros HP Fy By Fq Bq. destruct (HP y Fy ltac:(lra)) as [F1 E1]. destruct (HP q Fq ltac:(lra)) as [F2 E2].
  pose proof (pow2_lo_hi _ By). pose proof (pow2_lo_hi _ Bq). change (bpow radix2 (-22)) with (/ 4194304) in *. apply Rabs_le_inv in E1. apply Rabs_le_inv in E2.
  unfold vfreq. rewrite !zero_times; auto; lra.
Qed.
Definition cold (sr : f32) (b : bool) (v : svoice) : Prop := exists s0, sw_inv sr s0 /\ sw_freq s0 = B754_zero b /\ sv_saw v = fst (sw_tick s0).
Lemma saw_setf_same sr s f : sw_inv sr s -> sw_freq s = f -> sw_setFrequency s f = s.
Proof. intros (_ & _ & _ & _ & Es & _ & _ & _ & Ei) <-. destruct s as [sr0 f0 ph inc prev sc]. unfold sw_setFrequency. cbn in *. now rewrite Ei, Es. Qed.
Lemma nan_add (x y : f32) : is_nan x = true \/ is_nan y = true -> is_nan (fadd x y) = true.
Proof. destruct x as [[]|[]| |], y as [[]|[]| |]; intros [H|H]; try discriminate H; reflexivity. Qed.
Lemma nan_mul (x y : f32) : is_nan x = true \/ is_nan y = true -> is_nan (fmul x y) = true.
Proof. destruct x as [[]|[]| |], y as [[]|[]| |]; intros [H|H]; try discriminate H; reflexivity. Qed.
Section Zero.
  Variables (L : libm) (sr : f32) (b : bool) (d sp : f32).
  Hypothesis HP : pow2_acc L. Hypothesis HR : saw_rate sr. Hypothesis Fd : fin d. Hypothesis Bd : Rabs (B2R d) <= 6.
  Lemma zero_voice i v : sv_inv sr v ->
    (sv_inv sr (fst (sv_tick L (B754_zero b) d sp i v)) /\ cold sr b (fst (sv_tick L (B754_zero b) d sp i v))) /\
    (cold sr b v -> both_nan (snd (sv_tick L (B754_zero b) d sp i v))).
  Proof.
    intros (Hs & Hl & Fq & Bq). unfold sv_tick. destruct (lt_out sr _ Hl) as [Ao _]. destruct (lt_tick_inv sr _ Hl) as [Hl' _].
    destruct (lt_tick (sv_vib v)) as [vib m]. cbn [fst snd] in Ao, Hl'.
    destruct (wobble m d Ao Fd Bd) as (Fy & _ & By). destruct (div12 (sv_det v) 6 Fq Bq ltac:(lra)) as (Fw & _ & Bw).
    pose proof (vfreq_zero L b _ _ HP Fy By Fw Bw) as Z. unfold vfreq in Z. rewrite Z. clear Z.
    assert (I1 : sw_inv sr (sw_setFrequency (sv_saw v) (B754_zero b))).
    { apply (sw_op_inv sr _ (OFreq (B754_zero b)) (saw_rate_ok _ HR) Hs). split; [reflexivity|]. destruct HR as [_ Bs]. change (B2R (B754_zero b : f32)) with 0. lra. }
    assert (NA : cold sr b v -> snd (sw_tick (sw_setFrequency (sv_saw v) (B754_zero b))) = B754_nan).
    { intros (s0 & I0 & E0 & ->). rewrite (saw_setf_same sr) by (try exact E0; now apply sw_tick_inv). now apply (saw_zero_step sr s0 b (saw_rate_ok _ HR)). }
    assert (CO : cold sr b (SVoice (fst (sw_tick (sw_setFrequency (sv_saw v) (B754_zero b)))) vib (sv_det v))).
    { exists (sw_setFrequency (sv_saw v) (B754_zero b)). auto. }
    pose proof (sw_tick_inv sr _ I1) as I2.
    destruct (sw_tick (sw_setFrequency (sv_saw v) (B754_zero b))) as [sw x]. cbn [fst snd] in *. split; [split; [exact (conj I2 (conj Hl' (conj Fq Bq)))|exact CO]|].
    intros C. rewrite (NA C). unfold pan2_process, both_nan. cbn [fst snd]. split; apply nan_mul; left; reflexivity.
  Qed.
  Lemma zero_mix l : forall m, Forall (fun p => sv_inv sr (snd p)) l ->
    let r := ss_mix L (B754_zero b) d sp l m in
    Forall (fun v => sv_inv sr v /\ cold sr b v) (fst r) /\ length (fst r) = length l /\
    (both_nan m \/ (Forall (fun p => cold sr b (snd p)) l /\ l <> []) -> both_nan (snd r)).
  Proof.
    induction l as [|[i v] t IH]; intros m H.
    - cbn. split; [constructor|]. split; [reflexivity|]. intros [N|[_ N]]; [exact N|congruence].
    - inversion H as [|? ? Hv Ht]; subst. cbn [snd] in Hv. destruct (zero_voice i v Hv) as [A B]. cbv zeta. cbn [ss_mix].
      destruct (sv_tick L (B754_zero b) d sp i v) as [v' p]. cbn [fst snd] in A, B.
      specialize (IH (fadd (fst m) (fst p), fadd (snd m) (snd p)) Ht). cbv zeta in IH. destruct (ss_mix L (B754_zero b) d sp t _) as [vs mm]. cbn [fst snd] in *.
      destruct IH as (I1 & I2 & I3). split; [constructor; assumption|]. split; [cbn; now rewrite I2|]. intros K. apply I3. left. unfold both_nan. cbn [fst snd].
      destruct K as [[N1 N2]|[K _]]; [split; apply nan_add; left; assumption|]. inversion K as [|? ? K1 _]; subst. destruct (B K1) as [N1 N2]. split; apply nan_add; right; assumption.
  Qed.
End Zero.
Definition z_inv (sr : f32) (b : bool) (s : ssaw) : Prop :=
  (Forall (sv_inv sr) (ss_voices s) /\ length (ss_voices s) = 7%nat) /\ ss_freq s = B754_zero b /\ (fin (ss_vdepth s) /\ Rabs (B2R (ss_vdepth s)) <= 6).
Lemma z_tick L sr b s : pow2_acc L -> saw_rate sr -> z_inv sr b s ->
  (z_inv sr b (fst (ss_tick L s)) /\ Forall (cold sr b) (ss_voices (fst (ss_tick L s)))) /\ (Forall (cold sr b) (ss_voices s) -> both_nan (snd (ss_tick L s))).
Proof.
  intros HP R ([Hv Hn] & Ef & [Fd Bd]). unfold ss_tick. rewrite Ef. destruct (ad_tick (ss_env s)) as [env e].
  pose proof (zero_mix L sr b (ss_vdepth s) (ss_spread s) HP R Fd Bd (combine idx (ss_voices s)) (zero, zero) (zip_fwd _ idx _ Hv)) as M. cbv zeta in M.
  rewrite zip_len in M by exact Hn. destruct (ss_mix L _ _ _ _ _) as [vs [ml mr]]. cbn [fst snd] in *. destruct M as (M1 & M2 & M3). split.
  - split.
    + refine (conj (conj _ M2) (conj eq_refl (conj Fd Bd))). cbn [ss_voices]. eapply Forall_impl; [|exact M1]. cbn. tauto.
    + cbn [ss_voices]. eapply Forall_impl; [|exact M1]. cbn. tauto.
  - intros C. destruct M3 as [N1 N2].
    { right. split; [now apply (zip_fwd (cold sr b))|]. destruct (ss_voices s); [discriminate Hn|discriminate]. }
    cbn [fst snd] in N1, N2. split; cbn [fst snd]; apply nan_mul; left; apply nan_mul; now left.
Qed.
Lemma z_call L sr b s o : pow2_acc L -> saw_rate sr -> ss_ok sr o -> ss_holds o -> z_inv sr b s -> Forall (cold sr b) (ss_voices s) ->
  z_inv sr b (fst (ss_call L s o)) /\ Forall (cold sr b) (ss_voices (fst (ss_call L s o))).
Proof.
  intros HP R O Hh I C. pose proof I as ([Hv Hn] & Ef & Hd). destruct o; try contradiction; try (split; assumption); cbn [ss_call fst].
  - unfold ss_setVibratoRate. split.
    + refine (conj (conj _ _) (conj Ef Hd)); cbn [ss_voices]; [|now rewrite map_length]. apply Forall_map. eapply Forall_impl; [|exact Hv].
      intros v (V1 & V2 & V3). refine (conj V1 (conj _ V3)). exact (lt_op_inv sr _ (OFreq r) (saw_rate_ok _ R) V2 O).
    + cbn [ss_voices]. apply Forall_map. eapply Forall_impl; [|exact C]. intros v V. exact V.
  - split; [|exact C]. exact (conj (conj Hv Hn) (conj Ef O)).
  - unfold ss_setDetune. cbn [ss_voices]. split.
    + refine (conj (conj _ _) (conj Ef Hd)); cbn [ss_voices]; [|now rewrite map_length, zip_len]. apply Forall_map. apply Forall_forall. intros [i v] Hi. cbn [fst snd]. destruct O as [Fo Bo].
      pose proof (idx_range i (in_combine_l _ _ _ _ Hi)) as Ri. apply in_combine_r in Hi. rewrite Forall_forall in Hv. destruct (Hv v Hi) as (V1 & V2 & _).
      refine (conj V1 (conj V2 _)). cbn [sv_det]. now apply offset_b.
    + apply Forall_map. apply Forall_forall. intros [i v] Hi. apply in_combine_r in Hi. rewrite Forall_forall in C. exact (C v Hi).
  - destruct (z_tick L sr b s HP R I) as [T _]. destruct (ss_tick L s). exact T.
Qed.
Lemma ss_zero_freq L sr rnd pre b post : exp_unit L -> pow2_acc L -> sin_unit L -> cos_unit L -> saw_rate sr -> (forall k, unit_sample (rnd k)) ->
  Forall (ss_ok sr) (pre ++ post) -> Forall ss_holds post ->
  Forall both_nan (ss_samples L (ss_after L sr rnd (pre ++ [SsFreq (B754_zero b); SsTick])) post).
Proof.
  intros HE HP HT HC R U H Hh. apply Forall_app in H. destruct H as [H1 H2].
  pose proof (ss_after_inv L sr rnd pre HE HP HT HC R U H1) as I.
  assert (EA : ss_after L sr rnd (pre ++ [SsFreq (B754_zero b); SsTick]) = fst (ss_tick L (ss_setFrequency (ss_after L sr rnd pre) (B754_zero b)))).
  { unfold ss_after. rewrite ss_run_app, !ss_run_fst. cbn [ss_run fst ss_call]. destruct (ss_tick L _). reflexivity. }
  rewrite EA. clear EA. set (s := ss_after L sr rnd pre) in *. clearbody s. destruct I as ([Hv Hn] & (_ & Hd & _) & _).
  destruct (z_tick L sr b (ss_setFrequency s (B754_zero b)) HP R (conj (conj Hv Hn) (conj eq_refl Hd))) as [[I C] _].
  set (t := fst (ss_tick L (ss_setFrequency s (B754_zero b)))) in *. clearbody t. clear s Hv Hn Hd H1. revert t I C.
  induction Hh as [|o post Ho Ht IH]; intros s I C; [constructor|]. inversion H2 as [|? ? O1 O2]; subst.
  destruct (z_call L sr b s o HP R O1 Ho I C) as [I' C'].
  assert (X : forall y, snd (ss_call L s o) = Some y -> both_nan y).
  { destruct o; cbn [ss_call snd]; try discriminate. pose proof (proj2 (z_tick L sr b s HP R I) C) as T. destruct (ss_tick L s). cbn [snd] in *. intros y E. injection E as <-. exact T. }
  specialize (IH O2 _ I' C'). unfold ss_samples in *. cbn [ss_run]. destruct (ss_call L s o) as [s1 r]. cbn [fst snd] in *.
  destruct (ss_run L s1 post) as [s2 rs]. cbn [snd flat_map] in *. apply Forall_app. split; [|exact IH].
  destruct r as [y|]; [|constructor]. constructor; [now apply X|constructor].
Qed.
