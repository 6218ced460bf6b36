(** Moog example: control mapping, smoothed cutoff, bounded output. *)
From Coq Require Import ZArith Reals Lra Lia Bool Psatz List.
From Flocq Require Import Core BinarySingleNaN Sterbenz.
From Verif Require Import Flt FltFacts FltMore FltKey FltArith Libm UtilModel UtilProofs FltClose FltRel Ln2 EnvSpec EnvProofs OscModel OscSpec OscProofs OscProofs2 SmoothModel SmoothSpec SmoothProofs
  LineSpec SsProofs ExpBounds MgModel MgSpec MgBase ObModel ObProofs ObProofs2 PbProofs2 PbProofs4 MxModel.
Import ListNotations.
Local Open Scope R_scope.
Local Notation rnd32 := (@rnd 24 128).
Local Notation dy32 := (@dy 24 128).

(** The program after the given events, and the samples it has written. *)
Definition mx_run (L : libm) (sr : Z) (os : list mx_call) : moog * list f32 := mg_run (mx_op L) (mx_start L sr) os.
(** Sample rates at which the highest cutoff stays below a quarter of the rate. *)
Definition mx_hz (sr : Z) : Prop := (32800 <= sr <= 262144)%Z.
Definition mx_ok (o : mx_call) : Prop := match o with XRate sr => mx_hz sr | _ => True end.

(** ** The controls *)
Lemma mx_norm_eq n : mx_norm n = unit_clamp n. Proof. reflexivity. Qed.
Lemma mx_cutoff_eq L x w : mx_cutoff L x w = log_map L (fofZ 100) (fofZ 8000) (unit_clamp (fdiv (fofZ x) (fofZ w))). Proof. reflexivity. Qed.
Lemma hz100 : fin (fofZ 100 : f32) /\ B2R (fofZ 100 : f32) = 100. Proof. destruct (fofZ_R (prec:=24) (emax:=128) 100 ltac:(lia)). auto. Qed.
Lemma hz8000 : fin (fofZ 8000 : f32) /\ B2R (fofZ 8000 : f32) = 8000. Proof. destruct (fofZ_R (prec:=24) (emax:=128) 8000 ltac:(lia)). auto. Qed.
Lemma ln_small x : 1 <= x <= 8192 -> 0 <= ln x <= 13.
Proof.
  intros H. split; [rewrite <- ln_1; destruct (proj1 H) as [T| <-]; [left; apply ln_increasing; lra|lra]|].
  apply Rle_trans with (ln (2 ^ 13)); [destruct (proj2 H) as [T|T]; [left; apply ln_increasing; lra|rewrite T; right; f_equal; lra]|].
  rewrite ln_pow by lra. pose proof ln_2 as L2. simpl INR. lra.
Qed.
Lemma cutoff_map L es s u : exp_rel L -> log_rel L -> cl es s u -> 0 <= u <= 1 -> 0 <= B2R s <= 1 -> 0 <= es <= bpow radix2 (-25) ->
  rl (bpow radix2 (-16)) (log_map L (fofZ 100) (fofZ 8000) s) (geo 100 8000 u).
Proof.
  intros EL LL C U S E. destruct hz100 as [F1 R1]. destruct hz8000 as [F2 R2].
  assert (Eg : geo 100 8000 u = geo (B2R (fofZ 100 : f32)) (B2R (fofZ 8000 : f32)) u) by (now rewrite R1, R2). rewrite Eg.
  assert (E' : es <= bpow radix2 (-20)) by (eapply Rle_trans; [apply E|apply bpow_le; lia]).
  pose proof (ln_small 100 ltac:(lra)) as N1. pose proof (ln_small 8000 ltac:(lra)) as N2.
  eapply rl_weak; [apply (log_map_acc L 4 es); auto; try (cbn; lia); try lra|].
  - rewrite R1, Rabs_pos_eq by lra. change (bpow radix2 4) with 16. lra.
  - rewrite R2, Rabs_pos_eq by lra. change (bpow radix2 4) with 16. lra.
  - change (bpow radix2 4) with 16. change (bpow radix2 (-23)) with (/ 8388608). change (bpow radix2 (-16)) with (/ 65536). change (bpow radix2 (-25)) with (/ 33554432) in E. lra.
Qed.
Lemma cutoff_range L x w : exp_rel L -> log_rel L -> span (999 / 10) 8001 (mx_cutoff L x w).
Proof.
  intros EL LL. rewrite mx_cutoff_eq. destruct (uclamp_fin (fdiv (fofZ x) (fofZ w))) as [Fs Bs]. set (s := unit_clamp _) in *. clearbody s.
  destruct (cutoff_map L 0 s (B2R s) EL LL (cl_self _ Fs) Bs Bs ltac:(pose proof (bpow_ge_0 radix2 (-25)); lra)) as [F E].
  pose proof (geo_in 100 8000 (B2R s) ltac:(lra) ltac:(lra) Bs) as G. set (g := geo _ _ _) in *. rewrite (Rabs_pos_eq g) in E by lra. apply Rabs_le_inv in E. change (bpow radix2 (-16)) with (/ 65536) in E. split; [exact F|lra].
Qed.
Lemma cutoff_acc L x w : exp_rel L -> log_rel L -> screen x w -> rl (bpow radix2 (-16)) (mx_cutoff L x w) (geo 100 8000 (rclamp (IZR x / IZR w))).
Proof.
  intros EL LL S. rewrite mx_cutoff_eq. destruct (uclamp_fin (fdiv (fofZ x) (fofZ w))) as [Fs Bs]. apply (cutoff_map L (bpow radix2 (-25))); auto; [now apply frac_cl|apply rclamp_in|]. pose proof (bpow_ge_0 radix2 (-25)). lra.
Qed.
(** [0.0f + n * (0.99f - 0.0f)]. *)
Definition res_map (n : f32) : f32 := fadd zero (fmul n (fsub (fdec 99 100) zero)).
Lemma res_lit : fin (fsub (fdec 99 100) zero : f32) /\ Rabs (B2R (fsub (fdec 99 100) zero : f32) - 99 / 100) <= / 60000000.
Proof. split; [ffin|]. fval (fsub (fdec 99 100) zero : f32). apply Rabs_le. lra. Qed.
Lemma res_map_R n : fin n -> 0 <= B2R n <= 1 -> let z := res_map n in fin z /\ 0 <= B2R z <= 1 /\ Rabs (B2R z - 99 / 100 * B2R n) <= / 21000000.
Proof.
  intros F B z. destruct res_lit as [Fl El]. apply Rabs_le_inv in El. unfold z, res_map. set (k := fsub _ _) in *. clearbody k.
  destruct (bp_dy 0 ltac:(lia)) as [D1 _]. change (bpow radix2 0) with 1 in D1.
  assert (P : 0 <= B2R n * B2R k <= 1) by nra.
  destruct (fmul_b 0 1 n k dy0 D1 F Fl P) as (Fm & Rm & Bm).
  pose proof (rnd_err1 0 (B2R n * B2R k) ltac:(lia)) as E. rewrite Rabs_pos_eq in E by lra. change (bpow radix2 0) with 1 in E. specialize (E ltac:(lra)). rewrite <- Rm in E. change (bpow radix2 (0 - 25)) with (/ 33554432) in E. apply Rabs_le_inv in E.
  set (m := fmul n k) in *. clearbody m. assert (Z0 : B2R (zero : f32) = 0) by reflexivity.
  destruct (fadd_exact (zero : f32) m ltac:(reflexivity) Fm) as [Fa Ra]; [rewrite Z0, Rplus_0_l; apply dy_B2R|]. rewrite Z0, Rplus_0_l in Ra.
  split; [exact Fa|]. rewrite Ra. split; [exact Bm|]. apply Rabs_le. nra.
Qed.
Lemma res_range y h : fin (mx_resonance y h) /\ 0 <= B2R (mx_resonance y h) <= 1.
Proof.
  change (mx_resonance y h) with (res_map (unit_clamp (fsub one (fdiv (fofZ y) (fofZ h))))). destruct (uclamp_fin (fsub one (fdiv (fofZ y) (fofZ h)))) as [F B].
  destruct (res_map_R _ F B) as (A & C & _). auto.
Qed.
Lemma rclamp_flip r : rclamp (1 - r) = 1 - rclamp r.
Proof. unfold rclamp, Rmax, Rmin. repeat (destruct (Rle_dec _ _)); lra. Qed.
Lemma clamp_rnd q : Rabs (rclamp (rnd32 q) - rclamp q) <= bpow radix2 (-25).
Proof.
  destruct one_1 as [F1 R1]. destruct (Rle_dec 1 q) as [G|G].
  { assert (1 <= rnd32 q) by (rewrite <- R1; apply rnd_ge_B2R; lra). unfold rclamp. rewrite !Rmin_left by lra. rewrite Rmax_right by lra. rewrite Rminus_diag_eq, Rabs_R0 by reflexivity. apply bpow_ge_0. }
  destruct (Rle_dec q 0) as [N|N].
  { assert (rnd32 q <= 0) by (apply rnd_nonpos; exact N). unfold rclamp. rewrite !Rmin_right by lra. rewrite !Rmax_left by lra. rewrite Rminus_diag_eq, Rabs_R0 by reflexivity. apply bpow_ge_0. }
  eapply Rle_trans; [apply rclamp_lip|]. apply (rnd_err1 0); [lia|]. change (bpow radix2 0) with 1. apply Rabs_le. lra.
Qed.
Lemma res_acc y h : screen y h -> cl (bpow radix2 (-23)) (mx_resonance y h) (99 / 100 * (1 - rclamp (IZR y / IZR h))).
Proof.
  intros [Hx Hw]. change (mx_resonance y h) with (res_map (unit_clamp (fsub one (fdiv (fofZ y) (fofZ h))))).
  destruct (fofZ_R (prec:=24) (emax:=128) y ltac:(lia)) as [Fx Rx]. destruct (fofZ_R (prec:=24) (emax:=128) h ltac:(lia)) as [Fw Rw].
  assert (W1 : 1 <= IZR h) by (apply IZR_le; lia).
  assert (Ax : Rabs (IZR y) <= bpow radix2 24) by (rewrite <- abs_IZR; change (bpow radix2 24) with (IZR (2 ^ 24)); apply IZR_le; lia).
  assert (A : Rabs (IZR y / IZR h) <= bpow radix2 24).
  { unfold Rdiv. rewrite Rabs_mult, Rabs_inv, (Rabs_pos_eq (IZR h)) by lra. rewrite <- (Rmult_1_r (bpow radix2 24)).
    apply Rmult_le_compat; [apply Rabs_pos|left; apply Rinv_0_lt_compat; lra|exact Ax|]. rewrite <- Rinv_1. apply Rinv_le_contravar; lra. }
  destruct (bp_dy 24 ltac:(lia)) as [D1 D2]. destruct (bp_dy 25 ltac:(lia)) as [D3 D4].
  destruct (fdiv_b (- bpow radix2 24) (bpow radix2 24) (fofZ y : f32) (fofZ h) D2 D1 Fx Fw) as (F & R & B); [rewrite Rw; lra|rewrite Rx, Rw; apply Rabs_le_inv; exact A|].
  rewrite Rx, Rw in R. set (q := IZR y / IZR h) in *. set (v := fdiv _ _) in *. clearbody v. destruct one_1 as [F1 R1].
  destruct (fsub_b _ _ (one : f32) v D4 D3 F1 F) as (Fn & Rn & _); [rewrite R1; change (bpow radix2 25) with 33554432; change (bpow radix2 24) with 16777216 in B; lra|].
  destruct (uclamp_R _ Fn) as [Fu Ru]. rewrite Rn, R1 in Ru. destruct (uclamp_fin (fsub one v)) as [_ Bu].
  pose proof (clamp_rnd (1 - B2R v)) as E1. rewrite <- Ru in E1. rewrite R, rclamp_flip in E1. pose proof (clamp_rnd q) as E2. set (n := unit_clamp _) in *. clearbody n.
  destruct (res_map_R n Fu Bu) as (Fz & _ & Ez). split; [exact Fz|]. change (bpow radix2 (-25)) with (/ 33554432) in *. change (bpow radix2 (-23)) with (/ 8388608).
  apply Rabs_le_inv in E1, E2, Ez. apply Rabs_le. lra.
Qed.

(** ** The smoothers *)
Lemma mx_hz_R sr : mx_hz sr -> fin (fofZ sr : f32) /\ B2R (fofZ sr : f32) = IZR sr /\ 32800 <= IZR sr <= 262144.
Proof.
  intros H. unfold mx_hz in H. destruct (fofZ_R (prec:=24) (emax:=128) sr ltac:(lia)) as [F R]. split; [exact F|]. split; [exact R|]. split; apply IZR_le; lia.
Qed.
Lemma exp_quad x : 0 <= x <= 1 -> 1 - x <= exp (- x) <= 1 - x + x * x.
Proof.
  intros H. pose proof (exp_ineq1_le (- x)) as A. split; [lra|]. pose proof (exp_ineq1_le x) as B. rewrite exp_Ropp. apply Rle_trans with (/ (1 + x)); [apply Rinv_le_contravar; lra|].
  apply Rmult_le_reg_r with (1 + x); [lra|]. rewrite Rinv_l by lra. assert (0 <= x * x * x) by nra. nra.
Qed.
Definition mx_coeff (L : libm) (sr : Z) : f32 := lag_coeff L (fdec 2 10) (fofZ sr).
Lemma mx_coeff_R L sr : exp_unit L -> exp_acc L -> mx_hz sr ->
  unit_sample (mx_coeff L sr) /\ fin (fsub one (mx_coeff L sr)) /\ 343 / 10 / IZR sr <= B2R (fsub one (mx_coeff L sr)) <= 346 / 10 / IZR sr /\ B2R (mx_coeff L sr) + B2R (fsub one (mx_coeff L sr)) = 1.
Proof.
  intros HU HA Hs. destruct (mx_hz_R sr Hs) as (Fs & Rs & Bs). set (r := IZR sr) in *.
  assert (So : sr_ok (fofZ sr)). { unfold sr_ok. apply flt_R; [reflexivity|exact Fs|]. rewrite Rs. change (B2R (fzero : f32)) with 0. lra. }
  pose proof (lag_coeff_unit L (fdec 2 10) (fofZ sr) HU So ltac:(reflexivity)) as U. fold (mx_coeff L sr) in U. split; [exact U|].
  assert (X : Rabs (B2R (mx_coeff L sr) - exp (- (34538775 / 1000000 / r))) <= / 8000000).
  { unfold mx_coeff, lag_coeff. change (fle (fdec 2 10 : f32) zero) with false. cbv iota. set (w := fofZ sr : f32) in *. clearbody w.
    assert (A1 : rl (/ 10000000) (fdec 2 10) (2 / 10)) by (split; [reflexivity|]; fval (fdec 2 10 : f32); rewrite (Rabs_pos_eq (2 / 10)) by lra; apply Rabs_le; lra).
    assert (A2 : rl 0 w r) by (rewrite <- Rs; now apply rl_self).
    assert (A3 : rl (2 / 10000000) (fmul (fdec 2 10) w) (2 / 10 * r)).
    { apply (rl_mul (/ 10000000) 0); auto; try lra; [|unfold ru; lra]. split; rewrite Rabs_pos_eq by lra; [apply Rle_trans with (bpow radix2 0); [apply bpow_le; lia|cbn; lra]|apply Rle_trans with (bpow radix2 20); [cbn; lra|apply bpow_le; lia]]. }
    assert (A4 : rl (/ 10000000) (fneg (fdec 6907755 1000000)) (- (6907755 / 1000000))) by (split; [reflexivity|]; fval (fneg (fdec 6907755 1000000) : f32); rewrite (Rabs_left1 (- (6907755 / 1000000))) by lra; apply Rabs_le; lra).
    assert (I : / 262144 <= / r <= / 32800) by (split; apply Rinv_le_contravar; lra).
    assert (E : - (6907755 / 1000000) / (2 / 10 * r) = - (34538775 / 1000000 / r)) by (field; lra).
    assert (A5 : rl (5 / 10000000) (fdiv (fneg (fdec 6907755 1000000)) (fmul (fdec 2 10) w)) (- (34538775 / 1000000 / r))).
    { rewrite <- E. apply (rl_div (/ 10000000) (2 / 10000000)); auto; try lra; [|unfold ru; lra]. rewrite E. unfold Rdiv at 1. split; rewrite Rabs_Ropp, Rabs_pos_eq by lra; unfold Rdiv; [apply Rle_trans with (bpow radix2 (-20)); [apply bpow_le; lia|cbn; lra]|apply Rle_trans with (bpow radix2 0); [cbn; lra|apply bpow_le; lia]]. }
    set (z := fdiv _ _) in *. clearbody z. destruct A5 as [Fz Ez]. rewrite Rabs_Ropp in Ez. set (x := 34538775 / 1000000 / r) in *. assert (Bx : / 10000 <= x <= / 900) by (unfold x, Rdiv; lra). clearbody x. rewrite (Rabs_pos_eq x) in Ez by lra. apply Rabs_le_inv in Ez.
    destruct (HA z Fz ltac:(lra)) as [_ Ex]. change (bpow radix2 (-23)) with (/ 8388608) in Ex.
    assert (D : Rabs (exp (B2R z) - exp (- x)) <= 101 / 100 * / 1000000000 * exp (- x)) by (apply exp_shift; [lra|]; apply Rabs_le; lra).
    assert (E1 : 0 < exp (- x) <= 1) by (split; [apply exp_pos|rewrite <- exp_0; apply exp_le_mono; lra]).
    apply Rabs_le_inv in Ex, D. apply Rabs_le. lra. }
  set (c := mx_coeff L sr) in *. clearbody c. destruct U as [Fc Bc].
  assert (I : / 262144 <= / r <= / 32800) by (split; apply Rinv_le_contravar; lra).
  pose proof (exp_quad (34538775 / 1000000 / r) ltac:(unfold Rdiv; lra)) as Q. set (x := 34538775 / 1000000 / r) in *. assert (Ex : x = 34538775 / 1000000 * / r) by reflexivity.
  assert (Xq : x * x <= x * / 900) by (apply Rmult_le_compat_l; rewrite Ex; lra). apply Rabs_le_inv in X. unfold Rdiv at 2 4.
  assert (O1 : B2R (one : f32) = 1) by apply one_R. assert (H2 : / 2 <= B2R c) by lra.
  destruct (fsub_exact one c ltac:(reflexivity) Fc) as [Fq Rq].
  { rewrite O1. split; [|apply Rle_lt_trans with (bpow radix2 0); [apply Rabs_le; cbn; lra|apply bpow_lt; lia]].
    apply sterbenz; auto with typeclass_instances; [apply fexp_correct; reflexivity|apply fexp_monotone|rewrite <- O1; apply fmt_B2R|apply fmt_B2R|lra]. }
  rewrite O1 in Rq. split; [exact Fq|]. rewrite Rq. split; [|lra]. lra.
Qed.

(** One step of the cutoff smoother. *)
Lemma cut_step (c p x : f32) sr : mx_hz sr -> unit_sample c -> fin (fsub one c) -> 343 / 10 / IZR sr <= B2R (fsub one c) <= 346 / 10 / IZR sr -> B2R c + B2R (fsub one c) = 1 ->
  span 0 8192 p -> span (999 / 10) 8001 x -> let y := fadd (fmul c p) (fmul (fsub one c) x) in
  fin y /\ crawl * IZR sr <= B2R y <= 8192 /\ (99 <= B2R p -> 99 <= B2R y) /\ (B2R p = 0 -> B2R y <= 9).
Proof.
  intros Hs U Fq Bq Eq [Fp Bp] [Fx Bx] y. destruct (mx_hz_R sr Hs) as (Fs & Rs & Bs). unfold mx_hz in Hs.
  assert (W : within (bpow radix2 13) y) by (apply (mix32 13); [lia|exact U|split; [exact Fx|]|split; [exact Fp|]]; change (bpow radix2 13) with 8192; rewrite Rabs_pos_eq; lra).
  destruct W as [Fy By]. change (bpow radix2 13) with 8192 in By. apply Rabs_le_inv in By. destruct U as [Fc Bc].
  set (q := fsub one c) in *. clearbody q. set (r := IZR sr) in *. assert (I : / 262144 <= / r <= / 32800) by (split; apply Rinv_le_contravar; lra). unfold Rdiv in Bq.
  assert (Ir : r * / r = 1) by (apply Rinv_r; lra).
  assert (Dl : dy32 (crawl * r)). { unfold crawl, r. rewrite Rmult_comm. change (/ 33554432) with (bpow radix2 (-25)). apply dyq; lia. }
  destruct (bp_dy 4 ltac:(lia)) as [D4 _]. change (bpow radix2 4) with 16 in D4. destruct (bp_dy 14 ltac:(lia)) as [D14 _]. change (bpow radix2 14) with 16384 in D14. destruct (bp_dy 13 ltac:(lia)) as [D13 _]. change (bpow radix2 13) with 8192 in D13.
  assert (Qx : 343 / 10 * / r * (999 / 10) <= B2R q * B2R x <= 346 / 10 * / r * 8001).
  { split; [apply Rmult_le_compat; lra|apply Rmult_le_compat; lra]. }
  assert (Cr : crawl * r <= B2R q * B2R x). { eapply Rle_trans; [|apply Qx]. unfold crawl. apply Rmult_le_reg_r with r; [lra|]. replace (343 / 10 * / r * (999 / 10) * r) with (343 / 10 * (999 / 10)) by (field; lra). nra. }
  destruct (fmul_b _ _ q x Dl D4 Fq Fx ltac:(lra)) as (Fm & Rm & Bm).
  pose proof (rnd_err1 4 (B2R q * B2R x) ltac:(lia)) as Em. change (bpow radix2 4) with 16 in Em. change (bpow radix2 (4 - 25)) with (/ 2097152) in Em. rewrite Rabs_pos_eq in Em by lra. specialize (Em ltac:(lra)). rewrite <- Rm in Em.
  assert (P : 0 <= B2R c * B2R p <= 8192) by nra. destruct (fmul_b 0 8192 c p dy0 D13 Fc Fp P) as (Fn & Rn & Bn).
  destruct (fadd_b (B2R (fmul q x)) 16384 (fmul c p) (fmul q x) (dy_B2R (fmul q x)) D14 Fn Fm ltac:(destruct Bn; destruct Bm; split; lra)) as (_ & Ra & Ba). fold y in Ra, Ba.
  split; [exact Fy|]. split; [lra|]. split.
  - intros H99. assert (D99 : dy32 99) by (apply dy_IZR; lia).
    destruct (fadd_b 99 16384 (fmul c p) (fmul q x) D99 D14 Fn Fm) as (_ & _ & G); [|fold y in G; lra]. split; [|lra].
    assert (N : rnd32 (99 * B2R c) <= B2R (fmul c p)) by (rewrite Rn; apply rnd_le; nra).
    pose proof (rnd_err1 7 (99 * B2R c) ltac:(lia)) as E7. change (bpow radix2 7) with 128 in E7. change (bpow radix2 (7 - 25)) with (/ 262144) in E7. rewrite Rabs_pos_eq in E7 by lra. specialize (E7 ltac:(lra)). apply Rabs_le_inv in E7, Em.
    assert (B2R q * (999 / 10) <= B2R q * B2R x) by (apply Rmult_le_compat_l; lra). lra.
  - intros H0. assert (Z : B2R c * B2R p = 0) by (rewrite H0; ring). assert (Zn : B2R (fmul c p) = 0) by (rewrite Rn, Z; apply rnd_0).
    assert (D9 : dy32 9) by (apply dy_IZR; lia). apply Rabs_le_inv in Em.
    destruct (fadd_b 0 9 (fmul c p) (fmul q x) dy0 D9 Fn Fm) as (_ & _ & G); [rewrite Zn; lra|fold y in G; lra].
Qed.

(** ** The invariant *)
Definition mx_smooth (L : libm) (sr : Z) (top : R) (l : lag) : Prop := lg_sr l = fofZ sr /\ lg_coeff l = mx_coeff L sr /\ span 0 top (lg_prev l).
Definition mx_voice (sr : Z) (f : f32) (w : saw) : Prop := sw_inv (fofZ sr) w /\ sw_freq w = f.
Record mx_inv (L : libm) (sr : Z) (s : moog) : Prop := {
  mi_hz : mx_hz sr;
  mi_c : mx_voice sr (fdec 26163 100) (mx_c s); mi_e : mx_voice sr (fdec 32963 100) (mx_e s); mi_g : mx_voice sr (fofZ 392) (mx_g s);
  mi_f : crawl_inv (fofZ sr) (mx_f s);
  mi_cl : mx_smooth L sr 8192 (mx_cl s); mi_rl : mx_smooth L sr 1 (mx_rl s);
  mi_cut : span (999 / 10) 8001 (mx_cut s); mi_res : span 0 1 (mx_res s) }.
Lemma hz_rates sr : mx_hz sr -> rate_ok (fofZ sr) /\ freq_ok (fofZ sr) (fofZ 440) /\ mg_rate (fofZ sr) /\ 8000 <= B2R (fofZ sr : f32).
Proof.
  intros H. destruct (mx_hz_R sr H) as (F & R & B). assert (bpow radix2 18 <= bpow radix2 100) by (apply bpow_le; lia). change (bpow radix2 18) with 262144 in *.
  unfold rate_ok, freq_ok, mg_rate. rewrite R. destruct (fofZ_R (prec:=24) (emax:=128) 440 ltac:(lia)) as [F4 R4]. rewrite R4. repeat split; auto; lra.
Qed.
Definition note (f : f32) : Prop := fin f /\ 261 <= B2R f <= 393.
Lemma notes : note (fdec 26163 100) /\ note (fdec 32963 100) /\ note (fofZ 392).
Proof. unfold note. fval (fdec 26163 100 : f32). fval (fdec 32963 100 : f32). fval (fofZ 392 : f32). repeat split; try reflexivity; lra. Qed.
Lemma note_saw sr f : mx_hz sr -> note f -> saw_freq_ok (fofZ sr) f /\ freq_ok (fofZ sr) f.
Proof.
  intros H [F B]. destruct (mx_hz_R sr H) as (_ & R & Bs). unfold saw_freq_ok, freq_ok. rewrite R. change (bpow radix2 14) with 16384. repeat split; auto; lra.
Qed.
Lemma voice_start sr f : mx_hz sr -> note f -> mx_voice sr f (mx_saw (fofZ sr) f).
Proof.
  intros H N. destruct (hz_rates sr H) as (R & Q & _). destruct (note_saw sr f H N) as [_ Qf]. split; [|reflexivity].
  exact (sw_op_inv (fofZ sr) _ (OFreq f) R (sw_init_inv (fofZ sr) zero R Q eq_refl) Qf).
Qed.
Lemma setf_self sr w : sw_inv sr w -> sw_setFrequency w (sw_freq w) = w.
Proof. intros (_ & _ & _ & _ & Es & _ & _ & _ & Ei). destruct w. unfold sw_setFrequency. cbn in *. subst. reflexivity. Qed.
Lemma voice_tick sr f w : mx_hz sr -> note f -> mx_voice sr f w -> mx_voice sr f (fst (sw_tick w)) /\ within (bpow radix2 13) (snd (sw_tick w)).
Proof.
  intros H N [I E]. destruct (hz_rates sr H) as (R & _). destruct (note_saw sr f H N) as [Qf _].
  pose proof (saw_any (fofZ sr) w f R I Qf) as T. rewrite <- E in T at 1 2 3. rewrite (setf_self _ _ I) in T. destruct T as (A & B & C). split; [split; [exact A|exact E]|]. split; [exact B|exact C].
Qed.
Lemma smooth_init L sr top v : 0 <= top -> span 0 top v -> mx_smooth L sr top (lg_setValue (lg_init L (fofZ sr) (fdec 2 10)) v).
Proof. intros T S. split; [reflexivity|]. split; [reflexivity|exact S]. Qed.
Lemma smooth_zero L sr top : 0 <= top -> mx_smooth L sr top (lg_init L (fofZ sr) (fdec 2 10)).
Proof. intros T. split; [reflexivity|]. split; [reflexivity|]. split; [reflexivity|]. change (B2R (lg_prev (lg_init L (fofZ sr) (fdec 2 10)))) with 0. lra. Qed.
Lemma rate_inv L s sr sr' : dtan_acc L -> mx_inv L sr' s -> mx_hz sr -> mx_inv L sr (mx_rate L s (fofZ sr)).
Proof.
  intros HL I H. destruct (hz_rates sr H) as (_ & _ & M & M8). destruct notes as (N1 & N2 & N3).
  constructor; [exact H|apply voice_start; auto|apply voice_start; auto|apply voice_start; auto|now apply crawl_init|apply smooth_zero; lra|apply smooth_zero; lra|apply I|apply I].
Qed.
Lemma k1000 : fin (fofZ 1000 : f32) /\ B2R (fofZ 1000 : f32) = 1000. Proof. destruct (fofZ_R (prec:=24) (emax:=128) 1000 ltac:(lia)). auto. Qed.
Lemma start_ok L sr : dtan_acc L -> mx_hz sr -> mx_inv L sr (mx_start L sr).
Proof.
  intros HL H. destruct (hz_rates sr H) as (_ & _ & M & M8). destruct notes as (N1 & N2 & N3). destruct k1000 as [Fk Rk]. destruct (mx_hz_R sr H) as (_ & Rs & Bs).
  assert (K3 : span 0 1 (fdec 3 10)) by (split; [reflexivity|]; fval (fdec 3 10 : f32); lra).
  constructor; [exact H|apply voice_start; auto|apply voice_start; auto|apply voice_start; auto| |apply smooth_init; [lra|split; [exact Fk|rewrite Rk; lra]]|apply smooth_init; [lra|exact K3]|split; [exact Fk|]|exact K3].
  - apply crawl_res; [reflexivity|]. apply crawl_set; auto; [|now apply crawl_init]. split; [exact Fk|]. rewrite Rk, Rs. unfold crawl. lra.
  - change (mx_cut (mx_start L sr)) with (fofZ 1000 : f32). rewrite Rk. lra.
Qed.
Lemma lim30 : dy32 (5033168 * bpow radix2 (-24)). Proof. apply dyq; lia. Qed.
Lemma tick_all L sr s : exp_unit L -> exp_acc L -> dtan_acc L -> dtanh_unit L -> mx_inv L sr s ->
  mx_inv L sr (fst (mx_tick L s)) /\ fin (snd (mx_tick L s)) /\ Rabs (B2R (snd (mx_tick L s))) <= 0.3000002 /\
  ob_cut (mx_f (fst (mx_tick L s))) = lg_prev (mx_cl (fst (mx_tick L s))) /\
  (99 <= B2R (lg_prev (mx_cl s)) -> 99 <= B2R (lg_prev (mx_cl (fst (mx_tick L s))))) /\
  (B2R (lg_prev (mx_cl s)) = 0 -> B2R (lg_prev (mx_cl (fst (mx_tick L s)))) <= 9) /\ 0 < B2R (lg_prev (mx_cl (fst (mx_tick L s)))).
Proof.
  intros HU HA HT HH [H Vc Ve Vg Vf (S1 & S2 & S3) (T1 & T2 & T3) Hc Hr]. destruct notes as (N1 & N2 & N3). destruct (hz_rates sr H) as (_ & _ & M & M8). destruct (mx_hz_R sr H) as (_ & Rs & Bs).
  destruct (mx_coeff_R L sr HU HA H) as (U & Fq & Bq & Eq).
  pose proof (cut_step _ (lg_prev (mx_cl s)) (mx_cut s) sr H U Fq Bq Eq S3 Hc) as K. cbv zeta in K. rewrite <- S2 in K.
  assert (R0 : span 0 1 (fadd (fmul (lg_coeff (mx_rl s)) (lg_prev (mx_rl s))) (fmul (fsub one (lg_coeff (mx_rl s))) (mx_res s)))).
  { rewrite T2. destruct T3 as [Fp Bp]. destruct Hr as [Fx Bx]. destruct (mix32 0 (mx_coeff L sr) (mx_res s) (lg_prev (mx_rl s)) ltac:(lia) U) as [[A B] _]; [split; [exact Fx|]; change (bpow radix2 0) with 1; rewrite Rabs_pos_eq; lra|split; [exact Fp|]; change (bpow radix2 0) with 1; rewrite Rabs_pos_eq; lra|].
    split; [exact A|]. change (bpow radix2 0) with 1 in B. apply Rabs_le_inv in B. split; [|lra].
    destruct U as [Fc Bc]. set (q := fsub one _) in *. clearbody q. assert (I : 0 < / IZR sr <= / 32800) by (split; [apply Rinv_0_lt_compat; lra|apply Rinv_le_contravar; lra]). unfold Rdiv in Bq.
    destruct (bp_dy 0 ltac:(lia)) as [D1 _]. change (bpow radix2 0) with 1 in D1. destruct (bp_dy 1 ltac:(lia)) as [D2 _]. change (bpow radix2 1) with 2 in D2.
    destruct (fmul_b 0 1 q (mx_res s) dy0 D1 Fq Fx ltac:(nra)) as (F1 & _ & B1). destruct (fmul_b 0 1 (mx_coeff L sr) (lg_prev (mx_rl s)) dy0 D1 Fc Fp ltac:(nra)) as (F2 & _ & B2).
    destruct (fadd_b 0 2 _ _ dy0 D2 F2 F1 ltac:(lra)) as (_ & _ & B3). apply B3. }
  unfold mx_tick, lg_tick. cbv zeta. set (c := fadd (fmul (lg_coeff (mx_cl s)) (lg_prev (mx_cl s))) _) in *. set (r := fadd (fmul (lg_coeff (mx_rl s)) _) _) in *. clearbody c r.
  destruct K as (Fc & Bc & K1 & K2).
  assert (Cu : cut_in crawl (2499 / 10000) (fofZ sr) c) by (split; [exact Fc|]; rewrite Rs; lra).
  pose proof (crawl_res _ _ r (fin_nan _ (proj1 R0)) (crawl_set L (fofZ sr) (mx_f s) c HT M Cu Vf)) as G. 
  assert (Ec : ob_cut (ob_setResonance (ob_setCutoff L (mx_f s) c) r) = c) by reflexivity. set (g := ob_setResonance _ _) in *. clearbody g.
  destruct (voice_tick sr _ _ H N1 Vc) as [Wc [Xc Yc]]. destruct (voice_tick sr _ _ H N2 Ve) as [We [Xe Ye]]. destruct (voice_tick sr _ _ H N3 Vg) as [Wg [Xg Yg]].
  destruct (sw_tick (mx_c s)) as [wc xc]. destruct (sw_tick (mx_e s)) as [we xe]. destruct (sw_tick (mx_g s)) as [wg xg]. cbn [fst snd] in *.
  assert (Nm : is_nan (fdiv (fadd (fadd xc xe) xg) (fofZ 3)) = false).
  { apply fin_nan. apply Rabs_le_inv in Yc, Ye, Yg. change (bpow radix2 13) with 8192 in *. destruct (bp_dy 14 ltac:(lia)) as [D14 E14]. destruct (bp_dy 15 ltac:(lia)) as [D15 E15]. change (bpow radix2 14) with 16384 in *. change (bpow radix2 15) with 32768 in *.
    destruct (fadd_b _ _ xc xe E14 D14 Xc Xe ltac:(lra)) as (F1 & _ & B1). destruct (fadd_b _ _ (fadd xc xe) xg E15 D15 F1 Xg ltac:(lra)) as (F2 & _ & B2).
    destruct (fofZ_R (prec:=24) (emax:=128) 3 ltac:(lia)) as [F3 R3]. destruct (fdiv_b _ _ (fadd (fadd xc xe) xg) (fofZ 3 : f32) E15 D15 F2 F3) as (F4 & _ & _); [rewrite R3; lra|rewrite R3; lra|exact F4]. }
  set (m := fdiv _ _) in *. clearbody m.
  destruct (crawl_tick L (fofZ sr) g m HH Nm G) as (G' & Fy & By). 
  assert (Ek : ob_cut (fst (ob_tick L g m)) = ob_cut g) by reflexivity. destruct (ob_tick L g m) as [g' y]. cbn [fst snd] in *.
  assert (F3 : fin (fdec 3 10 : f32)) by reflexivity. assert (R3 : Rabs (B2R (fdec 3 10 : f32) - 3 / 10) <= / 80000000) by (fval (fdec 3 10 : f32); apply Rabs_le; lra). set (k := fdec 3 10) in *. clearbody k. apply Rabs_le_inv in R3, By.
  pose proof lim30 as Dk. set (h := 5033168 * bpow radix2 (-24)) in *. assert (Hh : 0.3000001 + 0.00000008 <= h <= 0.3000002) by (unfold h; change (bpow radix2 (-24)) with (/ 16777216); lra). clearbody h.
  destruct (fmul_b (- h) h y k (dy_opp _ Dk) Dk Fy F3) as (Fo & _ & Bo).
  { assert (A : Rabs (B2R y * B2R k) <= h); [|now apply Rabs_le_inv]. rewrite Rabs_mult, (Rabs_pos_eq (B2R k)) by lra. apply Rle_trans with ((1 + / 2097152) * B2R k); [apply Rmult_le_compat_r; [lra|apply Rabs_le; lra]|]. lra. }
  split; [constructor; cbn [mx_c mx_e mx_g mx_f mx_cl mx_rl mx_cut mx_res]; auto|].
  - split; [exact S1|]. split; [exact S2|]. split; [exact Fc|]. cbn [lg_prev]. unfold crawl in Bc. lra.
  - split; [exact T1|]. split; [exact T2|]. exact R0.
  - split; [exact Fo|]. split; [apply Rabs_le; lra|]. cbn [mx_f mx_cl lg_prev ob_cut]. split; [now rewrite Ek|]. split; [exact K1|]. split; [exact K2|]. unfold crawl in Bc. lra.
Qed.

(** ** Runs *)
Lemma mx_step L s o : exp_unit L -> exp_acc L -> exp_rel L -> log_rel L -> dtan_acc L -> dtanh_unit L -> (exists sr, mx_inv L sr s) -> mx_ok o ->
  (exists sr, mx_inv L sr (fst (mx_op L s o))) /\ forall y, snd (mx_op L s o) = Some y -> fin y /\ Rabs (B2R y) <= 0.3000002.
Proof.
  intros HU HA EL LL HT HH [sr I] O. destruct o as [sr'|x w|y h|]; cbn [mx_op].
  - split; [|discriminate]. exists sr'. now apply (rate_inv L s sr' sr).
  - split; [|discriminate]. exists sr. destruct I. constructor; auto. now apply cutoff_range.
  - split; [|discriminate]. exists sr. destruct I. constructor; auto. apply res_range.
  - destruct (tick_all L sr s HU HA HT HH I) as (A & B & C & _). destruct (mx_tick L s) as [s' y]. cbn [fst snd] in *. split; [now exists sr|]. intros v E. injection E as <-. auto.
Qed.
Lemma mx_safe L sr os : exp_unit L -> exp_acc L -> exp_rel L -> log_rel L -> dtan_acc L -> dtanh_unit L -> mx_hz sr -> Forall mx_ok os ->
  (exists sr', mx_inv L sr' (fst (mx_run L sr os))) /\ Forall (fun y => fin y /\ Rabs (B2R y) <= 0.3000002) (snd (mx_run L sr os)).
Proof.
  intros HU HA EL LL HT HH H K. apply (run_inv (mx_op L) (fun s => exists sr, mx_inv L sr s) mx_ok); auto.
  - intros s o I O. now apply mx_step.
  - exists sr. now apply start_ok.
Qed.
Definition no_rate (o : mx_call) : Prop := match o with XRate _ => False | _ => True end.
Definition held (s : moog) : Prop := 99 <= B2R (lg_prev (mx_cl s)) <= 8192 /\ span 99 8192 (ob_cut (mx_f s)).
Lemma mx_held L sr os : exp_unit L -> exp_acc L -> exp_rel L -> log_rel L -> dtan_acc L -> dtanh_unit L -> mx_hz sr -> Forall no_rate os ->
  span 99 8192 (ob_cut (mx_f (fst (mx_run L sr os)))).
Proof.
  intros HU HA EL LL HT HH H K. apply (run_inv (mx_op L) (fun s => (exists sr, mx_inv L sr s) /\ held s) no_rate (fun _ => True)); auto.
  - intros s o [I J] O. assert (O' : mx_ok o) by (destruct o; [destruct O|exact Logic.I..]). destruct (mx_step L s o HU HA EL LL HT HH I O') as [I' _]. split; [|trivial]. split; [exact I'|].
    destruct o as [sr'|x w|y h|]; [destruct O|exact J|exact J|]. cbn [mx_op] in *. destruct I as [r I]. destruct (tick_all L r s HU HA HT HH I) as (A & _ & _ & E & B & _). specialize (B (proj1 (proj1 J))).
    destruct (mx_tick L s) as [s' y]. cbn [fst snd] in *. destruct A as [_ _ _ _ _ (_ & _ & S) _ _ _]. destruct S as [Fs Bs]. split; [lra|]. rewrite E. split; [exact Fs|lra].
  - split; [exists sr; now apply start_ok|]. destruct k1000 as [Fk Rk]. unfold held. change (lg_prev (mx_cl (mx_start L sr))) with (fofZ 1000 : f32). change (ob_cut (mx_f (mx_start L sr))) with (fofZ 1000 : f32). rewrite Rk. split; [lra|]. split; [exact Fk|]. rewrite Rk. lra.
Qed.
Lemma mg_run_app {S O} (call : S -> O -> S * option f32) a b : forall s, fst (mg_run call s (a ++ b)) = fst (mg_run call (fst (mg_run call s a)) b).
Proof.
  induction a as [|o r IH]; intros s; [reflexivity|]. cbn [app mg_run]. destruct (call s o) as [s' y]. pose proof (IH s') as E. destruct (mg_run call s' (r ++ b)). destruct (mg_run call s' r). exact E.
Qed.
Lemma mx_dropped L sr os sr' : exp_unit L -> exp_acc L -> exp_rel L -> log_rel L -> dtan_acc L -> dtanh_unit L -> mx_hz sr -> Forall mx_ok os -> mx_hz sr' ->
  let c := ob_cut (mx_f (fst (mx_run L sr (os ++ [XRate sr'; XTick])))) in fin c /\ 0 < B2R c <= 9.
Proof.
  intros HU HA EL LL HT HH H K H' c. destruct (mx_safe L sr os HU HA EL LL HT HH H K) as [[r I] _]. unfold c, mx_run. rewrite mg_run_app. fold (mx_run L sr os). set (s := fst (mx_run L sr os)) in *. clearbody s.
  pose proof (rate_inv L s sr' r HT I H') as J. cbn [mg_run mx_op]. assert (Z : B2R (lg_prev (mx_cl (mx_rate L s (fofZ sr')))) = 0) by reflexivity. set (t := mx_rate L s (fofZ sr')) in *. clearbody t.
  destruct (tick_all L sr' t HU HA HT HH J) as (A & _ & _ & E & _ & B & P). specialize (B Z). destruct (mx_tick L t) as [t' y]. cbn [fst snd] in *. rewrite E. destruct A as [_ _ _ _ _ (_ & _ & S) _ _ _]. split; [apply S|lra].
Qed.
Definition ticks (os : list mx_call) : nat := length (filter (fun o => match o with XTick => true | _ => false end) os).
Lemma mx_length L os : forall s, length (snd (mg_run (mx_op L) s os)) = ticks os.
Proof.
  induction os as [|o r IH]; intros s; [reflexivity|]. unfold ticks in *. cbn [mg_run filter]. destruct o as [a|a b|a b|]; cbn [mx_op].
  - specialize (IH (mx_rate L s (fofZ a))). destruct (mg_run _ _ r). exact IH.
  - match goal with |- context [mg_run _ ?t r] => specialize (IH t) end. destruct (mg_run _ _ r). exact IH.
  - match goal with |- context [mg_run _ ?t r] => specialize (IH t) end. destruct (mg_run _ _ r). exact IH.
  - destruct (mx_tick L s) as [t y]. specialize (IH t). destruct (mg_run _ t r). cbn [snd length] in *. now rewrite IH.
Qed.
