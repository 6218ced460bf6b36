(** CombC: feedback coefficient, runs, failures. *)
From Coq Require Import ZArith Reals Bool List Lra Lia Psatz.
From Flocq Require Import Core BinarySingleNaN Mult_error.
From Verif Require Import Flt FltFacts FltMore FltKey FltArith FltClose FltScale Libm EnvSpec Res UtilModel UtilProofs ExpBounds LnBounds OscSpec OscProofs2 OscProofs3 PhasorProofs RdModel RdProofs RdProofs2 RdProofs3 CombModel CombSpec CombProofs CombProofs2.
Import ListNotations.
Local Open Scope R_scope.

(** ** Feedback coefficient *)
Lemma c69_R : fin (fdec 6907755 1000000 : f32) /\ Rabs (B2R (fdec 6907755 1000000 : f32) - 6.907755) <= 0.0000003.
Proof. split; [ffin|]. fval (fdec 6907755 1000000 : f32). apply Rabs_le. split; lra. Qed.
Lemma abs_dc (dc : f32) : fin dc -> feq dc zero = false -> fin (fabs dc) /\ 0 < B2R (fabs dc) /\ B2R (fabs dc) = Rabs (B2R dc).
Proof.
  intros F E. assert (N : B2R dc <> 0).
  { intros Z. assert (feq dc zero = true) by (apply feq_R; [exact F|reflexivity|]; now rewrite zero_R). congruence. }
  split; [now apply fabs_fin|]. rewrite fabs_R. split; [now apply Rabs_pos_lt|reflexivity].
Qed.
Lemma exponent_neg dt dc : fin dt -> 0 <= B2R dt -> fin dc -> feq dc zero = false -> fle (fmul (fdiv dt (fabs dc)) (fneg (fdec 6907755 1000000))) fzero = true.
Proof.
  intros Fd Pd Fc E. destruct (abs_dc dc Fc E) as (Fa & Pa & _). destruct (fdiv_key dt (fabs dc) Fd Fa ltac:(lra)) as [N K].
  assert (K0 : 0 <= key (fdiv dt (fabs dc))).
  { rewrite K. rewrite <- (sat_in (emax:=128) 0) by (rewrite Rabs_R0; apply bpow_gt_0). apply sat_le. apply rnd_nonneg. apply Rmult_le_pos; [exact Pd|left; now apply Rinv_0_lt_compat]. }
  destruct c69_R as [F6 B6]. apply Rabs_le_inv in B6. set (q := fdiv dt (fabs dc)) in *. destruct (nan_cases q N) as [F|[s S]].
  - rewrite key_fin in K0 by exact F. destruct (fmul_key q (fneg (fdec 6907755 1000000)) F) as [N2 K2]; [now apply fneg_fin|]. apply fle_true; [exact N2|reflexivity|].
    rewrite K2, fneg_R. cbn [key fzero B2R]. apply Rle_trans with (sat (emax:=128) 0); [|right; apply sat_in; rewrite Rabs_R0; apply bpow_gt_0]. apply sat_le. apply rnd_nonpos. nra.
  - rewrite S in *. destruct s; [exfalso; cbn [key] in K0; pose proof (bpow_gt_0 radix2 128); lra|]. vm_compute. reflexivity.
Qed.
Lemma fb_unit L dt dc : exp_unit L -> fin dt -> 0 <= B2R dt -> is_nan dc = false ->
  let fb := cb_feedback L dt dc in
  fin fb /\ Rabs (B2R fb) <= 1 /\ (flt zero dc = true -> 0 <= B2R fb) /\ (flt dc zero = true -> B2R fb <= 0) /\ (feq dc zero = true -> B2R fb = 0).
Proof.
  intros X Fd Pd N fb. unfold fb, cb_feedback. destruct (nan_cases dc N) as [F|[s ->]].
  - replace (is_inf dc) with false by (destruct dc; try discriminate; reflexivity). destruct (feq dc zero) eqn:E.
    + split; [reflexivity|]. rewrite zero_R, Rabs_R0. split; [lra|]. split; [intros; lra|]. split; intros; lra.
    + destruct (X _ (exponent_neg dt dc Fd Pd F E)) as [FX BX]. set (e := m_exp L _) in *. destruct (flt dc zero) eqn:S.
      * split; [now apply fneg_fin|]. rewrite fneg_R, Rabs_Ropp, Rabs_pos_eq by lra. split; [lra|]. split; [|split; [lra|discriminate]].
        intros T. apply flt_R in S; [|exact F|reflexivity]. apply flt_R in T; [|reflexivity|exact F]. lra.
      * split; [exact FX|]. rewrite Rabs_pos_eq by lra. split; [lra|]. split; [lra|]. split; discriminate.
  - cbn [is_inf]. destruct s; vm_compute flt.
    + split; [reflexivity|]. change (fneg one) with (fneg one). rewrite fneg_R, one_R, Rabs_Ropp, Rabs_R1. split; [lra|]. split; [discriminate|]. split; [lra|discriminate].
    + split; [reflexivity|]. rewrite one_R, Rabs_R1. split; [lra|]. split; [lra|]. split; discriminate.
Qed.
Lemma fb_acc L dt dc : exp_acc L -> fin dt -> 0 <= B2R dt -> fin dc -> feq dc zero = false -> B2R dt <= bpow radix2 100 * Rabs (B2R dc) ->
  let ideal := Rpower (/ 1000) (B2R dt / Rabs (B2R dc)) in
  Rabs (B2R (cb_feedback L dt dc) - (if flt dc zero then - ideal else ideal)) <= bpow radix2 (-16).
Proof.
  intros X Fd Pd F E H ideal. destruct (abs_dc dc F E) as (Fa & Pa & Ea). rewrite <- Ea in H. unfold ideal. rewrite <- Ea.
  unfold cb_feedback. replace (is_inf dc) with false by (destruct dc; try discriminate; reflexivity). rewrite E.
  set (A := fabs dc) in *. assert (X0 : 0 <= B2R dt / B2R A <= bpow radix2 100).
  { split; [apply Rmult_le_pos; [exact Pd|left; now apply Rinv_0_lt_compat]|]. apply Rmult_le_reg_r with (B2R A); [exact Pa|]. unfold Rdiv. rewrite Rmult_assoc, Rinv_l, Rmult_1_r by lra. lra. }
  set (x := B2R dt / B2R A) in *. destruct (fdiv_b 0 (bpow radix2 100) dt A) as (Fq & Eq & Bq); auto; [apply dy0|apply bdy; lia|lra|]. fold x in Eq.
  destruct c69_R as [F6 B6]. apply Rabs_le_inv in B6. set (c := fdec 6907755 1000000 : f32) in *. set (q := fdiv dt A) in *.
  assert (P8 : 0 <= B2R q * B2R c <= bpow radix2 103).
  { split; [apply Rmult_le_pos; lra|]. apply Rle_trans with (bpow radix2 100 * 8); [apply Rmult_le_compat; lra|]. change 8 with (bpow radix2 3). rewrite <- bpow_plus. apply bpow_le. lia. }
  destruct (fmul_b (- bpow radix2 103) 0 q (fneg c)) as (Fe & Ee & Be); auto; [apply bdy; lia|apply dy0|rewrite fneg_R; lra|].
  rewrite fneg_R in Ee. set (e := fmul q (fneg c)) in *. destruct (X e Fe ltac:(lra)) as [Fx Ex].
  assert (Q : Rabs (B2R (m_exp L e) - Rpower (/ 1000) x) <= bpow radix2 (-16)).
  { unfold Rpower. assert (LN : ln (/ 1000) = - ln 1000) by (apply ln_Rinv; lra). rewrite LN. pose proof ln_1000 as L1. set (l := ln 1000) in *. clearbody l. clear LN.
    pose proof (rrel32 x) as R1. pose proof (rrel32 (B2R q * - B2R c)) as R2. rewrite <- Eq in R1. rewrite <- Ee in R2. rewrite (Rabs_pos_eq x) in R1 by lra.
    replace (B2R q * - B2R c) with (- (B2R q * B2R c)) in R2 by ring. rewrite (Rabs_Ropp (B2R q * B2R c)), (Rabs_pos_eq (B2R q * B2R c)) in R2 by lra.
    assert (T : bpow radix2 (-150) <= 0.000000000001) by (apply Rle_trans with (bpow radix2 (-60)); [apply bpow_le; lia|bp; lra]).
    apply Rabs_le_inv in R1, R2. set (t := bpow radix2 (-150)) in *. clearbody t. assert (T24 : bpow radix2 (-24) <= 0.00000006) by (bp; lra). assert (P24 : 0 < bpow radix2 (-24)) by apply bpow_gt_0.
    assert (C8 : 0 <= B2R q * B2R c <= 7 * B2R q) by (split; nra).
    assert (QX : Rabs (B2R q - x) <= 0.00000006 * x + 0.000000000001) by (apply Rabs_le; split; nra). apply Rabs_le_inv in QX.
    assert (EQ : Rabs (B2R e + B2R q * B2R c) <= 0.00000006 * (7 * B2R q) + 0.000000000001) by (apply Rabs_le; split; nra). apply Rabs_le_inv in EQ.
    assert (CL : Rabs (B2R q * B2R c - x * l) <= 0.0000019 * x + 0.00000001).
    { replace (B2R q * B2R c - x * l) with ((B2R q - x) * B2R c + x * (B2R c - l)) by ring. apply Rabs_le. split; nra. } apply Rabs_le_inv in CL.
    assert (DF : Rabs (B2R e + x * l) <= 0.0000024 * x + 0.00000002) by (apply Rabs_le; split; lra).
    replace (x * - l) with (- (x * l)) by ring. destruct (Rle_lt_dec x 6) as [S|S].
    - pose proof (exp_neg_lip (B2R e) (- (x * l)) ltac:(lra) ltac:(nra)) as LP. replace (B2R e - - (x * l)) with (B2R e + x * l) in LP by ring.
      replace (B2R (m_exp L e) - exp (- (x * l))) with ((B2R (m_exp L e) - exp (B2R e)) + (exp (B2R e) - exp (- (x * l)))) by ring.
      eapply Rle_trans; [apply Rabs_triang|]. assert (bpow radix2 (-23) <= 0.00000012) by (bp; lra). assert (0.0000152 <= bpow radix2 (-16)) by (bp; lra). lra.
    - assert (U : forall z, z <= - 14 -> 0 < exp z <= 0.000001).
      { intros z Z. split; [apply exp_pos|]. apply Rle_trans with (exp (2 * - 6.907756)); [apply exp_le_mono; lra|]. pose proof (sq_hi _ _ exp_1000_hi). lra. }
      apply Rabs_le_inv in DF. pose proof (U (B2R e) ltac:(nra)) as U1. pose proof (U (- (x * l)) ltac:(nra)) as U2. apply Rabs_le_inv in Ex.
      assert (bpow radix2 (-23) <= 0.00000012) by (bp; lra). assert (0.0000152 <= bpow radix2 (-16)) by (bp; lra). apply Rabs_le. split; lra. }
  destruct (flt dc zero); [|exact Q]. rewrite fneg_R. replace (- B2R (m_exp L e) - - Rpower (/ 1000) x) with (- (B2R (m_exp L e) - Rpower (/ 1000) x)) by ring. now rewrite Rabs_Ropp.
Qed.
(** The coefficient in use is always that of the current delay and decay times. *)
Lemma fb_current L fuel ops : forall c hs c' hs', cb_fb c = cb_feedback L (cb_dt c) (cb_dc c) -> listen L fuel c hs ops = Val (c', hs') -> cb_fb c' = cb_feedback L (cb_dt c') (cb_dc c').
Proof.
  induction ops as [|o ops IH]; intros c hs c' hs' F H; cbn [listen] in H; [congruence|].
  destruct (cb_call L fuel c o) as [[c1 out]| |] eqn:C; try discriminate H. cbn [rbind fst snd] in H. eapply IH; [|exact H].
  destruct o as [x|d|d|]; cbn [cb_call] in C; try (injection C as <- <-; first [reflexivity|exact F]).
  unfold cb_tick in C. destruct (cb_wrap _ _ _) as [r| |]; cbn [rbind] in C; try discriminate C. destruct (to_size r) as [i|]; cbn [of_opt rbind] in C; try discriminate C.
  repeat (match type of C with context [cb_at ?a ?b] => destruct (cb_at a b) as [?v| |]; cbn [rbind fst snd] in C; try discriminate C end).
  injection C as <- <-. exact F.
Qed.
(** ** Runs *)
Lemma quiet_run L fuel sr mx phi j ops : cb_cfg sr mx -> (enough <= fuel)%nat -> (-100 <= j <= 96)%Z -> Forall cb_op_ok ops -> forall c hs, cb_inv sr mx c hs -> quiet j hs ->
  (forall p x q c1 h1, ops = p ++ CbTick x :: q -> listen L fuel c hs p = Val (c1, h1) ->
     fin (cb_fb c1) /\ Rabs (B2R (cb_fb c1)) <= phi /\ fin x /\ Rabs (B2R x) <= (1 - bpow radix2 (-30) - 63 / 50 * phi) * bpow radix2 j) ->
  exists c' hs', listen L fuel c hs ops = Val (c', hs') /\ quiet j hs' /\ cb_inv sr mx c' hs'.
Proof.
  intros C F J O. induction O as [|o ops Ho O IH]; intros c hs I Q H; cbn [listen]; [eauto|].
  destruct (call_ok L sr mx c hs o C I Ho) as (c1 & out & V & I1). specialize (V fuel F). rewrite V. cbn [rbind fst snd].
  apply IH; [exact I1| |].
  - destruct o as [x|d|d|]; cbn [heard]; try exact Q; [|constructor].
    destruct (H [] x ops c hs eq_refl eq_refl) as (H1 & H2 & H3 & H4). destruct (quiet_tick j phi sr mx c hs x C I J Q H1 H2 H3 H4) as (y & c2 & T & _ & _ & Q' & _).
    cbn [cb_call] in V. rewrite (T fuel F) in V. cbn [rbind fst snd] in V. injection V as _ <-. exact Q'.
  - intros p x q c2 h2 E LL. apply (H (o :: p) x q c2 h2); [now rewrite E|]. cbn [listen]. rewrite V. exact LL.
Qed.
(** Whole delays: stable whenever |fb| < 1. *)
Lemma dy_scale (x : f32) j : fin x -> Rabs (B2R x) <= 1 -> (0 <= j <= 100)%Z -> dy32 (Rabs (B2R x) * bpow radix2 j) /\ dy32 (- (Rabs (B2R x) * bpow radix2 j)).
Proof.
  intros F B J. assert (D : dy32 (Rabs (B2R x) * bpow radix2 j)); [|split; [exact D|now apply dy_opp]].
  split.
  - rewrite <- (fabs_R x). apply mult_bpow_pos_exact_FLT; [apply fmt_B2R|lia].
  - rewrite abs_sc, Rabs_Rabsolu. apply Rle_lt_trans with (1 * bpow radix2 j); [now apply le_sc|]. rewrite Rmult_1_l. apply bpow_lt. cbn. lia.
Qed.
Lemma whole_tick j sr mx c hs x m : cb_cfg sr mx -> cb_inv sr mx c hs -> (0 <= j <= 96)%Z -> quiet j hs -> B2R (cb_delay c) = IZR m -> B2R (cb_delay c) <= IZR (cb_size c) - 4 ->
  fin (cb_fb c) -> fin x -> Rabs (B2R x) <= (1 - Rabs (B2R (cb_fb c))) * bpow radix2 j ->
  exists y c', (forall fuel, (enough <= fuel)%nat -> cb_tick fuel c x = Val (y, c')) /\ fin y /\ Rabs (B2R y) <= bpow radix2 j /\
    quiet j (fadd x (fmul (cb_fb c) y) :: hs) /\ cb_inv sr mx c' (fadd x (fmul (cb_fb c) y) :: hs) /\ cb_fb c' = cb_fb c /\ cb_delay c' = cb_delay c /\ cb_size c' = cb_size c.
Proof.
  intros C I J Q DM DS Ffb Fx Bx. pose proof I as (R & _). pose proof R as (S & _).
  destruct (tick_ok sr mx c hs x C I) as (r & i & f & _ & _ & _ & _ & _ & c' & T & I' & E1 & E2 & _). set (y := cb_herm _ _ _ _ _) in *.
  destruct (tick_value 24 j sr mx c hs x C I ltac:(lia) ltac:(lia) ltac:(lia) Q DS) as (y' & c2 & d & T' & Fy & _ & _ & _ & Y).
  assert (y' = y) by (pose proof (T enough ltac:(lia)) as A; rewrite T' in A by lia; congruence). subst y'. specialize (Y m DM).
  assert (By : Rabs (B2R y) <= bpow radix2 j).
  { rewrite Y. unfold agew, ago. set (k := Z.to_nat _). clearbody k. destruct (nth_in_or_default k hs zero) as [In|In]; [|rewrite In, zero_R, Rabs_R0; apply bpow_ge_0].
    unfold quiet in Q. rewrite Forall_forall in Q. now apply Q. }
  exists y, c'. split; [exact T|]. split; [exact Fy|]. split; [exact By|]. pose proof (bpow_gt_0 radix2 j) as PJ. set (M := bpow radix2 j) in *.
  assert (P1 : Rabs (B2R (cb_fb c)) <= 1).
  { assert (0 <= (1 - Rabs (B2R (cb_fb c))) * M) by (eapply Rle_trans; [apply Rabs_pos|exact Bx]). destruct (Rle_lt_dec (Rabs (B2R (cb_fb c))) 1) as [K|K]; [exact K|exfalso; nra]. }
  split.
  - constructor; [|exact Q]. destruct (dy_scale (cb_fb c) j Ffb P1 ltac:(lia)) as [D1 D2]. fold M in D1, D2.
    destruct (fmul_b _ _ (cb_fb c) y D2 D1 Ffb Fy) as (Fm & _ & Bm).
    { apply Rabs_le_inv. rewrite Rabs_mult. apply Rmult_le_compat_l; [apply Rabs_pos|exact By]. }
    destruct (fadd_b (- M) M x (fmul (cb_fb c) y)) as (Fa & _ & Ba); auto; [apply bdy; lia|apply bdy; lia| |split; [exact Fa|apply Rabs_le; exact Ba]].
    apply Rabs_le_inv in Bx. replace ((1 - Rabs (B2R (cb_fb c))) * M) with (M - Rabs (B2R (cb_fb c)) * M) in Bx by ring. lra.
  - split; [exact I'|]. split; [exact E1|]. unfold cb_delay. rewrite E2. destruct I' as (_ & Es & _ & En & _). destruct I as (_ & Es' & _ & En' & _). split; congruence.
Qed.
Lemma whole_run L fuel j sr mx m xs : cb_cfg sr mx -> (enough <= fuel)%nat -> (0 <= j <= 96)%Z -> forall c hs, cb_inv sr mx c hs -> quiet j hs -> B2R (cb_delay c) = IZR m -> B2R (cb_delay c) <= IZR (cb_size c) - 4 ->
  fin (cb_fb c) -> Forall (fun x => fin x /\ Rabs (B2R x) <= (1 - Rabs (B2R (cb_fb c))) * bpow radix2 j) xs ->
  exists c' hs', listen L fuel c hs (map CbTick xs) = Val (c', hs') /\ quiet j hs'.
Proof.
  intros C F J. induction xs as [|x xs IH]; intros c hs I Q DM DS Ffb X; cbn [map listen]; [eauto|].
  inversion X as [|? ? [X1 X2] X3]; subst. destruct (whole_tick j sr mx c hs x m C I J Q DM DS Ffb X1 X2) as (y & c' & T & _ & _ & Q' & I' & E1 & E2 & E3).
  cbn [cb_call]. rewrite (T fuel F). cbn [rbind fst snd heard]. apply IH; auto; rewrite ?E1, ?E2, ?E3; auto.
Qed.
(** ** Failures *)
Lemma nan_delay L fuel c x : let c' := cb_setDelayTime L c (B754_nan : f32) in fin (cb_max c) -> cb_tick fuel c' x = Undef.
Proof.
  intros c' Fm. unfold cb_tick, c', cb_setDelayTime, cb_update. cbn [cb_size cb_dt cb_sr cb_wp].
  replace (clamp B754_nan zero (cb_max c)) with (B754_nan : f32) by (unfold clamp; destruct (cb_max c); reflexivity).
  replace (fmul B754_nan (cb_sr c)) with (B754_nan : f32) by (destruct (cb_sr c); reflexivity).
  replace (fsub (fofZ (cb_wp c)) B754_nan) with (B754_nan : f32) by (destruct (fofZ (cb_wp c)); reflexivity).
  rewrite wrap_val by reflexivity. reflexivity.
Qed.
Lemma neg_max L (sr mx : f32) : fin (fmul mx sr) -> B2R (fmul mx sr) <= -1 -> cb_init L sr mx = Undef.
Proof.
  intros F B. unfold cb_init. destruct (fceil_R (fmul mx sr) F) as [Fc Ec].
  replace (to_size (fceil (fmul mx sr))) with (None : option Z); [reflexivity|]. symmetry. destruct (to_size (fceil (fmul mx sr))) as [z|] eqn:T; [|reflexivity]. exfalso.
  apply ftoZ_some in T. destruct T as (_ & T1 & T2). rewrite Ec, Ztrunc_IZR in T1. subst z. assert (Zceil (B2R (fmul mx sr)) <= -1)%Z by (apply Zceil_glb; exact B). lia.
Qed.
Lemma spin_step (r s : f32) : flt r zero = true -> fadd r s = r -> forall fuel, cb_wrap fuel r s = Spin.
Proof. intros N E. induction fuel as [|k IH]; cbn [cb_wrap]; rewrite N; [reflexivity|]. rewrite E. exact IH. Qed.
Lemma spin_line L fuel x : exists c, cb_init L (flit 1 30) zero = Val c /\ cb_tick fuel c x = Spin.
Proof.
  eexists. split; [reflexivity|]. unfold cb_tick. cbn [cb_size cb_dt cb_sr cb_wp cb_update].
  rewrite spin_step; [reflexivity|vm_compute; reflexivity|vm_compute; reflexivity].
Qed.
