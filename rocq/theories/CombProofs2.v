(** CombC: call sequences, what a tick returns, stability. *)
From Coq Require Import ZArith Reals Bool List Lra Lia Psatz.
From Flocq Require Import Core BinarySingleNaN.
From Verif Require Import Flt FltFacts FltMore FltKey FltArith FltClose FltScale Libm Res UtilModel UtilProofs OscSpec OscProofs2 OscProofs3 PhasorProofs RdModel RdProofs RdProofs2 RdProofs3 CombModel CombSpec CombProofs.
Import ListNotations.
Local Open Scope R_scope.

Definition line_size (sr mx : f32) : Z := (Zceil (B2R (fmul mx sr)) + 4)%Z.
Definition cb_inv (sr mx : f32) (c : comb) (hs : list f32) : Prop :=
  ring c hs /\ cb_sr c = sr /\ cb_max c = mx /\ cb_size c = line_size sr mx /\ fin (cb_dt c) /\ 0 <= B2R (cb_dt c) /\
  (B2R (cb_dt c) <= B2R mx \/ cb_dt c = fdec 2 10).
Lemma mul_pos (x y : f32) : fin x -> fin y -> 0 <= B2R x -> 0 <= B2R y -> fin (fmul x y) -> 0 <= B2R (fmul x y) /\ B2R (fmul x y) = rnd32 (B2R x * B2R y).
Proof.
  intros Fx Fy X Y F. assert (P : 0 <= B2R x * B2R y) by (now apply Rmult_le_pos).
  destruct (Rlt_le_dec (Rabs (rnd32 (B2R x * B2R y))) (bpow radix2 128)) as [L|L].
  - destruct (fmul_ok x y Fx Fy L) as [_ E]. rewrite E. split; [now apply rnd_nonneg|reflexivity].
  - exfalso. revert F. unfold fmul. rewrite erase_correct. unfold fin. pose proof (Bmult_correct 24 128 prec24 max128 mode_NE x y) as C.
    change (round radix2 (SpecFloat.fexp 24 128) (round_mode mode_NE) (B2R x * B2R y)) with (rnd32 (B2R x * B2R y)) in C.
    rewrite Rlt_bool_false in C by exact L. unfold binary_overflow in C. cbn [overflow_to_inf] in C. destruct (Bmult mode_NE x y); cbn in C |- *; congruence.
Qed.
Lemma size_bnd sr mx : cb_cfg sr mx -> (4 <= line_size sr mx <= 2 ^ 24)%Z /\ (forall dt, fin dt -> 0 <= B2R dt <= B2R mx ->
  fin (fmul dt sr) /\ 0 <= B2R (fmul dt sr) <= IZR (line_size sr mx) - 4).
Proof.
  intros (Fs & Bs & Fm & Bm & FM & BM). destruct (mul_pos mx sr Fm Fs Bm ltac:(lra) FM) as [M0 ME].
  unfold line_size. assert (Z0 : (0 <= Zceil (B2R (fmul mx sr)) <= 2 ^ 24 - 4)%Z).
  { split; [apply le_IZR; eapply Rle_trans; [exact M0|apply Zceil_ub]|]. apply Zceil_glb. exact BM. }
  split; [lia|]. intros dt Fd Bd. assert (PP : 0 <= B2R dt * B2R sr <= B2R mx * B2R sr) by (split; [apply Rmult_le_pos; lra|apply Rmult_le_compat_r; lra]).
  assert (R1 : 0 <= rnd32 (B2R dt * B2R sr) <= B2R (fmul mx sr)) by (split; [apply rnd_nonneg; lra|rewrite ME; apply rnd_le; lra]).
  destruct (fmul_ok dt sr Fd Fs) as [A E].
  { rewrite Rabs_pos_eq by lra. eapply Rle_lt_trans; [apply R1|]. eapply Rle_lt_trans; [apply RRle_abs|]. apply B2R_lt_emax. }
  split; [exact A|]. rewrite E. split; [apply R1|]. rewrite plus_IZR. pose proof (Zceil_ub (B2R (fmul mx sr))). change (rnd (B2R dt * B2R sr)) with (rnd32 (B2R dt * B2R sr)). lra.
Qed.
Lemma c02_R : fin (fdec 2 10 : f32) /\ 0 <= B2R (fdec 2 10 : f32) <= / 4.
Proof. split; [ffin|]. fval (fdec 2 10 : f32). lra. Qed.
Lemma delay_bnd sr mx c hs : cb_cfg sr mx -> cb_inv sr mx c hs ->
  fin (cb_delay c) /\ 0 <= B2R (cb_delay c) /\ (B2R (cb_delay c) <= IZR (cb_size c) - 4 \/ B2R (cb_delay c) <= bpow radix2 18) /\
  (B2R (cb_dt c) <= B2R mx -> B2R (cb_delay c) <= IZR (cb_size c) - 4).
Proof.
  intros C (R & Es & Em & En & Fd & Pd & Hd). destruct (size_bnd sr mx C) as [_ SB]. unfold cb_delay. rewrite Es, En.
  assert (G : B2R (cb_dt c) <= B2R mx -> fin (fmul (cb_dt c) sr) /\ 0 <= B2R (fmul (cb_dt c) sr) <= IZR (line_size sr mx) - 4) by (intros; apply SB; auto).
  destruct Hd as [Hd|Hd]; [destruct (G Hd) as [A B]; repeat split; auto; lra|].
  destruct C as (Fs & Bs & _). rewrite Hd in *. destruct c02_R as [Fc Bc].
  destruct (fmul_b 0 (bpow radix2 18) (fdec 2 10) sr) as (A & _ & B); auto; [apply dy0|apply bdy; lia|split; [apply Rmult_le_pos; lra|]|].
  { apply Rle_trans with (/ 4 * bpow radix2 20); [apply Rmult_le_compat; lra|]. bp. lra. }
  split; [exact A|]. split; [lra|]. split; [right; lra|]. intros K. apply G, K.
Qed.
(** Enough rounds for the default 0.2 s on any line. *)
Definition enough : nat := Z.to_nat (2 ^ 17).
Lemma enough_Z : Z.of_nat enough = (2 ^ 17)%Z. Proof. unfold enough. now rewrite Z2Nat.id by lia. Qed.
Global Opaque enough.
Lemma tick_ok sr mx c hs x : cb_cfg sr mx -> cb_inv sr mx c hs ->
  exists r i f, (forall fuel, (enough <= fuel)%nat -> cb_wrap fuel (fsub (fofZ (cb_wp c)) (cb_delay c)) (fofZ (cb_size c)) = Val r) /\
    rd_split r = Some (i, f) /\ (0 <= i <= 2 ^ 24)%Z /\ fin f /\ 0 <= B2R f < 1 /\
    let y := cb_herm (cell c (i - 1)) (cell c i) (cell c (i + 1)) (cell c (i + 2)) f in
    exists c', (forall fuel, (enough <= fuel)%nat -> cb_tick fuel c x = Val (y, c')) /\ cb_inv sr mx c' (fadd x (fmul (cb_fb c) y) :: hs) /\
      cb_fb c' = cb_fb c /\ cb_dt c' = cb_dt c /\ cb_dc c' = cb_dc c.
Proof.
  intros C I. destruct (delay_bnd sr mx c hs C I) as (FD & D0 & DB & _). destruct I as (R & Es & Em & En & Fd & Pd & Hd). pose proof R as (S & W & _).
  assert (EN1 : (1 <= enough)%nat) by (pose proof enough_Z; lia).
  assert (P : exists r, (forall fuel, (enough <= fuel)%nat -> cb_wrap fuel (fsub (fofZ (cb_wp c)) (cb_delay c)) (fofZ (cb_size c)) = Val r) /\ fin r /\ 0 <= B2R r <= IZR (2 ^ 24)).
  { destruct DB as [DB|DB].
    - destruct (read_pos 24 (cb_wp c) (cb_size c) (cb_delay c) W S ltac:(lia) FD ltac:(lra)) as (r & d & k & V & Fr & Br & _).
      exists r. split; [intros fuel L; apply V; lia|]. split; [exact Fr|]. assert (IZR (cb_size c) <= IZR (2 ^ 24)) by (apply IZR_le; lia). lra.
    - destruct (fofZ_R (prec:=24) (emax:=128) (cb_wp c) ltac:(lia)) as [Fw Ew]. assert (Bw : 0 <= IZR (cb_wp c) <= IZR (2 ^ 24)) by (split; apply IZR_le; lia).
      destruct (fsub_b (- bpow radix2 18) (IZR (2 ^ 24)) (fofZ (cb_wp c)) (cb_delay c)) as (F1 & _ & B1); auto; [apply bdy; lia|apply dyZ; lia|rewrite Ew; lra|].
      assert (X1 : (Z.of_nat enough <= 2 ^ 22)%Z) by (rewrite enough_Z; lia).
      assert (X2 : - IZR (3 * Z.of_nat enough) <= B2R (fsub (fofZ (cb_wp c)) (cb_delay c)) <= IZR (2 ^ 24)).
      { rewrite enough_Z. split; [|lra]. eapply Rle_trans; [|apply B1]. change (bpow radix2 18) with (IZR (2 ^ 18)). apply Ropp_le_contravar, IZR_le. lia. }
      exact (wrap_ends enough _ (cb_size c) X1 F1 X2 S). }
  destruct P as (r & V & Fr & Br). destruct (split_exact r Fr Br) as (f & SP & Ff & Ef & Bf).
  assert (Ir : (0 <= Zfloor (B2R r) <= 2 ^ 24)%Z) by (split; [apply Zfloor_lub, Br|apply le_IZR; eapply Rle_trans; [apply Zfloor_lb|apply Br]]).
  exists r, (Zfloor (B2R r)), f. split; [exact V|]. split; [exact SP|]. split; [exact Ir|]. split; [exact Ff|]. split; [exact Bf|]. intros y. eexists. split; [|split].
  - intros fuel L. unfold y. apply (tick_cells c x r _ f fuel S W (V fuel L) SP Ir).
  - split; [now apply ring_tick|]. cbn [cb_sr cb_max cb_size cb_dt]. repeat (split; [assumption|]). exact Hd.
  - cbn [cb_fb cb_dt cb_dc]. auto.
Qed.
Lemma ring_set c hs c' : cb_buf c' = cb_buf c -> cb_size c' = cb_size c -> cb_wp c' = cb_wp c -> ring c hs -> ring c' hs.
Proof. intros A B C (S & W & R). unfold ring, cell in *. rewrite A, B, C. auto. Qed.
Lemma clamp_dt d mx : is_nan d = false -> fin mx -> 0 <= B2R mx -> fin (clamp d zero mx) /\ 0 <= B2R (clamp d zero mx) <= B2R mx.
Proof. intros N F B. destruct (clamp_fin d zero mx N eq_refl F) as [X Y]; [rewrite zero_R; lra|]. rewrite zero_R in Y. split; [exact X|lra]. Qed.
Lemma call_ok L sr mx c hs o : cb_cfg sr mx -> cb_inv sr mx c hs -> cb_op_ok o ->
  exists c' out, (forall fuel, (enough <= fuel)%nat -> cb_call L fuel c o = Val (c', out)) /\ cb_inv sr mx c' (heard (cb_fb c) o out hs).
Proof.
  intros C I O. destruct o as [x|d|d|]; cbn [cb_call heard].
  - destruct (tick_ok sr mx c hs x C I) as (r & i & f & _ & _ & _ & _ & _ & c' & V & I' & _). cbv zeta in *.
    eexists c', (Some _). split; [|exact I']. intros fuel L0. rewrite (V fuel L0). reflexivity.
  - eexists _, _. split; [intros; reflexivity|]. destruct I as (R & Es & Em & En & Fd & Pd & Hd). pose proof C as (_ & _ & Fm & Bm & _).
    destruct (clamp_dt d mx O Fm Bm) as [X Y]. split; [apply (ring_set c); auto|]. unfold cb_setDelayTime, cb_update. cbn [cb_sr cb_max cb_size cb_dt]. rewrite Em. repeat (split; [assumption || reflexivity || lra|]). left. lra.
  - eexists _, _. split; [intros; reflexivity|]. destruct I as (R & Es & Em & En & Fd & Pd & Hd). split; [apply (ring_set c); auto|]. cbn [cb_setDecayTime cb_update cb_sr cb_max cb_size cb_dt]. auto 10.
  - eexists _, _. split; [intros; reflexivity|]. destruct I as ((S & W & R) & Es & Em & En & Fd & Pd & Hd). split; [|cbn [cb_reset cb_sr cb_max cb_size cb_dt]; auto 10].
    unfold ring, cell. cbn [cb_reset cb_size cb_wp cb_buf]. split; [exact S|]. split; [lia|]. intros a A. destruct (Z.to_nat (a - 1)); reflexivity.
Qed.
Lemma listen_ok L sr mx fuel ops : cb_cfg sr mx -> (enough <= fuel)%nat -> Forall cb_op_ok ops -> forall c hs, cb_inv sr mx c hs ->
  exists c' hs', listen L fuel c hs ops = Val (c', hs') /\ cb_inv sr mx c' hs'.
Proof.
  intros C F O. induction O as [|o ops Ho O IH]; intros c hs I; cbn [listen]; [eauto|].
  destruct (call_ok L sr mx c hs o C I Ho) as (c' & out & V & I'). rewrite (V fuel F). cbn [rbind fst snd]. apply IH, I'.
Qed.
Lemma init_ok L sr mx : cb_cfg sr mx -> exists c, cb_init L sr mx = Val c /\ cb_inv sr mx c [].
Proof.
  intros C. destruct (size_bnd sr mx C) as [SB _]. pose proof C as (Fs & Bs & Fm & Bm & FM & BM).
  destruct (fceil_R (fmul mx sr) FM) as [Fc Ec]. unfold cb_init.
  assert (T : to_size (fceil (fmul mx sr)) = Some (Zceil (B2R (fmul mx sr)))).
  { apply ftoZ_some. split; [exact Fc|]. rewrite Ec, Ztrunc_IZR. split; [reflexivity|]. unfold line_size in SB. assert ((2 ^ 24 <= SIZE_MAX)%Z) by (vm_compute; discriminate). lia. }
  rewrite T. cbn [of_opt rbind]. unfold line_size in SB. rewrite w64 by lia. eexists. split; [reflexivity|]. unfold cb_inv, ring, cell, cb_update. cbn [cb_sr cb_max cb_size cb_dt cb_wp cb_buf]. destruct c02_R as [A B].
  split; [split; [exact SB|]; split; [lia|]; intros a _; destruct (Z.to_nat (a - 1)); reflexivity|].
  repeat (split; [assumption || reflexivity || lra|]). now right.
Qed.
(** ** What a tick returns *)
(** Age [a] modulo the line length. *)
Definition agew (hs : list f32) (n a : Z) : R := ago hs ((a - 1) mod n + 1).
Lemma agew_in hs n a : (1 <= a <= n)%Z -> agew hs n a = ago hs a.
Proof. intros H. unfold agew. rewrite Z.mod_small by lia. f_equal. lia. Qed.
Lemma cell_age c hs a k : ring c hs -> B2R (cell c (cb_wp c - a + k * cb_size c)) = agew hs (cb_size c) a.
Proof.
  intros (S & W & R). rewrite cell_mod by lia. unfold agew, ago. set (n := cb_size c) in *. pose proof (Z.mod_pos_bound (a - 1) n ltac:(lia)).
  rewrite <- R by (fold n; lia). rewrite Z.mod_eq by lia. rewrite <- (cell_mod c (cb_wp c - a) ((a - 1) / n)) by (fold n; lia). f_equal. f_equal. fold n. ring.
Qed.
Lemma tick_value K j sr mx c hs x : cb_cfg sr mx -> cb_inv sr mx c hs -> (cb_size c <= 2 ^ K)%Z -> (2 <= K <= 24)%Z -> (-100 <= j <= 96)%Z -> quiet j hs ->
  B2R (cb_delay c) <= IZR (cb_size c) - 4 ->
  exists y c' d, (forall fuel, (enough <= fuel)%nat -> cb_tick fuel c x = Val (y, c')) /\ fin y /\
    Rabs (d - B2R (cb_delay c)) <= bpow radix2 (K - 24) /\ (forall m, B2R (cb_delay c) = IZR m -> d = B2R (cb_delay c)) /\
    let a := Zceil d in let n := cb_size c in
    Rabs (B2R y - spline (IZR a - d) (agew hs n (a + 1)) (agew hs n a) (agew hs n (a - 1)) (agew hs n (a - 2))) <= bpow radix2 (j - 17) /\
    (forall m, B2R (cb_delay c) = IZR m -> B2R y = agew hs n m).
Proof.
  intros C I HK K24 J Q DS. destruct (delay_bnd sr mx c hs C I) as (FD & D0 & _ & _). pose proof I as (R & _). pose proof R as (S & W & _).
  destruct (tick_ok sr mx c hs x C I) as (r & i & f & V & SP & Ir & Ff & Bf & c' & T & _). set (y := cb_herm _ _ _ _ _) in T.
  destruct (read_pos K (cb_wp c) (cb_size c) (cb_delay c) W ltac:(lia) K24 FD ltac:(lra)) as (r' & d & k & V' & Fr & Br & _ & Er & Ed & Eint).
  assert (r' = r) by (pose proof (V enough ltac:(lia)) as V1; rewrite V' in V1 by (pose proof enough_Z; lia); congruence). subst r'.
  destruct (split_exact r Fr) as (f' & SP' & _ & Ef & _). { assert (IZR (cb_size c) <= IZR (2 ^ 24)) by (apply IZR_le; lia). lra. }
  rewrite SP in SP'. injection SP' as Ei <-.
  assert (Ea : i = (cb_wp c - Zceil d + k * cb_size c)%Z).
  { rewrite Ei. apply Zfloor_imp. rewrite Er. pose proof (Zceil_ub d). assert (IZR (Zceil d) < d + 1) by (unfold Zceil; rewrite opp_IZR; pose proof (Zfloor_ub (- d)); lra).
    rewrite (plus_IZR _ 1), plus_IZR, minus_IZR, mult_IZR. lra. }
  exists y, c', d. split; [exact T|].
  assert (EC : forall e, B2R (cell c (i + e)) = agew hs (cb_size c) (Zceil d - e)).
  { intros e. replace (i + e)%Z with (cb_wp c - (Zceil d - e) + k * cb_size c)%Z by lia. now apply cell_age. }
  destruct (herm_acc j (cell c (i - 1)) (cell c i) (cell c (i + 1)) (cell c (i + 2)) f J) as [Fy Ey]; try (apply (any_quiet j c hs); assumption); [exact Ff|lra|].
  fold y in Fy, Ey. split; [exact Fy|]. split; [exact Ed|]. split; [exact Eint|]. cbv zeta.
  assert (EF : B2R f = IZR (Zceil d) - d) by (rewrite Ef, <- Ei, Ea, Er, plus_IZR, minus_IZR, mult_IZR; ring).
  split.
  - rewrite EF in Ey. replace (i - 1)%Z with (i + -1)%Z in Ey by lia. rewrite (EC (-1)%Z), (EC 1%Z), (EC 2%Z) in Ey. replace (B2R (cell c i)) with (agew hs (cb_size c) (Zceil d)) in Ey.
    + replace (Zceil d - -1)%Z with (Zceil d + 1)%Z in Ey by lia. exact Ey.
    + replace i with (i + 0)%Z by lia. rewrite EC. f_equal. lia.
  - intros m M. specialize (Eint m M). rewrite M in Eint. subst d. rewrite Zceil_IZR in *. assert (B2R f = 0) by lra. unfold y. rewrite herm_at0; auto.
    replace i with (i + 0)%Z by lia. rewrite EC. f_equal. lia.
Qed.
(** ** Stability *)
Lemma quiet_tick j phi sr mx c hs x : cb_cfg sr mx -> cb_inv sr mx c hs -> (-100 <= j <= 96)%Z -> quiet j hs ->
  fin (cb_fb c) -> Rabs (B2R (cb_fb c)) <= phi -> fin x -> Rabs (B2R x) <= (1 - bpow radix2 (-30) - 63 / 50 * phi) * bpow radix2 j ->
  exists y c', (forall fuel, (enough <= fuel)%nat -> cb_tick fuel c x = Val (y, c')) /\ fin y /\ Rabs (B2R y) <= 63 / 50 * bpow radix2 j /\
    quiet j (fadd x (fmul (cb_fb c) y) :: hs) /\ cb_inv sr mx c' (fadd x (fmul (cb_fb c) y) :: hs).
Proof.
  intros C I J Q Ffb Bfb Fx Bx. pose proof I as (R & _). destruct (tick_ok sr mx c hs x C I) as (r & i & f & _ & _ & _ & Ff & Bf & c' & T & I' & _). set (y := cb_herm _ _ _ _ _) in *.
  assert (Qc : forall i, bnd j (cell c i)) by (intros; now apply (any_quiet j c hs)).
  destruct (herm_acc j (cell c (i - 1)) (cell c i) (cell c (i + 1)) (cell c (i + 2)) f J) as [Fy Ey]; auto; [lra|]. fold y in Fy, Ey.
  pose proof (spline_le (bpow radix2 j) (B2R f) _ _ _ _ ltac:(lra) (proj2 (Qc (i - 1)%Z)) (proj2 (Qc i)) (proj2 (Qc (i + 1)%Z)) (proj2 (Qc (i + 2)%Z))) as SL.
  set (sp := spline (B2R f) _ _ _ _) in *. pose proof (bpow_gt_0 radix2 j) as PJ. set (M := bpow radix2 j) in *.
  assert (E17 : bpow radix2 (j - 17) = M * bpow radix2 (-17)) by (unfold M; rewrite <- bpow_plus; f_equal; lia).
  assert (By : Rabs (B2R y) <= 5 / 4 * M + M * bpow radix2 (-17)).
  { replace (B2R y) with (sp + (B2R y - sp)) by ring. eapply Rle_trans; [apply Rabs_triang|]. lra. }
  assert (By' : Rabs (B2R y) <= 63 / 50 * M) by (eapply Rle_trans; [exact By|]; assert (bpow radix2 (-17) <= / 100) by (bp; lra); nra).
  exists y, c'. split; [exact T|]. split; [exact Fy|]. split; [exact By'|]. split; [|exact I']. constructor; [|exact Q].
  assert (P0 : 0 <= phi) by (eapply Rle_trans; [apply Rabs_pos|exact Bfb]).
  assert (PM : Rabs (B2R (cb_fb c) * B2R y) <= phi * (5 / 4 * M + M * bpow radix2 (-17))) by (rewrite Rabs_mult; apply Rmult_le_compat; auto using Rabs_pos).
  assert (B30 : 0 < bpow radix2 (-30)) by apply bpow_gt_0.
  assert (X0 : 0 <= (1 - bpow radix2 (-30) - 63 / 50 * phi) * M) by (eapply Rle_trans; [apply Rabs_pos|exact Bx]).
  assert (P1 : phi <= 1) by (destruct (Rle_lt_dec phi 1) as [H|H]; [exact H|exfalso; nra]).
  pose proof (rrel32 (B2R (cb_fb c) * B2R y)) as RR.
  assert (T150 : bpow radix2 (-150) <= bpow radix2 (-31) * M) by (unfold M; rewrite <- bpow_plus; apply bpow_le; lia).
  assert (PR : Rabs (rnd32 (B2R (cb_fb c) * B2R y)) <= (63 / 50 * phi + bpow radix2 (-30)) * M).
  { set (p := B2R (cb_fb c) * B2R y) in *. replace (rnd32 p) with (p + (rnd32 p - p)) by ring. eapply Rle_trans; [apply Rabs_triang|].
    set (t := bpow radix2 (-150)) in *. clearbody t p. assert (phi * M >= 0) by nra. clear - PM RR T150 PJ P0 P1 H. set (z := Rabs p) in *.
    assert (z <= (5 / 4 + bpow radix2 (-17)) * (phi * M)) by (eapply Rle_trans; [exact PM|right; ring]). replace ((63 / 50 * phi + bpow radix2 (-30)) * M) with (63 / 50 * (phi * M) + bpow radix2 (-30) * M) by ring. set (w := phi * M) in *. set (q := Rabs (rnd32 p - p)) in *. clearbody z w q. clear PM P0 P1. revert RR T150 H0. bp. intros. lra. }
  assert (M126 : M <= bpow radix2 126) by (apply bpow_le; lia).
  destruct (fmul_ok (cb_fb c) y Ffb Fy) as [Fm Em].
  { eapply Rle_lt_trans; [exact PR|]. apply Rle_lt_trans with (2 * M); [apply Rmult_le_compat_r; [lra|]; clear - P1; bp; lra|]. eapply Rle_lt_trans; [apply Rmult_le_compat_l; [lra|exact M126]|]. change 2 with (bpow radix2 1). rewrite <- bpow_plus. apply bpow_lt. lia. }
  change (rnd (B2R (cb_fb c) * B2R y)) with (rnd32 (B2R (cb_fb c) * B2R y)) in Em. rewrite <- Em in PR.
  assert (SUM : Rabs (B2R x + B2R (fmul (cb_fb c) y)) <= M) by (eapply Rle_trans; [apply Rabs_triang|]; nra).
  destruct (fadd_b (- M) M x (fmul (cb_fb c) y)) as (Fa & _ & Ba); auto; [apply bdy; lia|apply bdy; lia|now apply Rabs_le_inv|]. split; [exact Fa|]. apply Rabs_le. exact Ba.
Qed.
