From Coq Require Import ZArith Reals Lra Lia Bool List Psatz.
From Flocq Require Import Core Sterbenz BinarySingleNaN.
From Verif Require Import Flt FltFacts FltMore FltKey FltArith Libm UtilModel UtilProofs FltClose OscModel OscSpec OscProofs LcgProofs.
Import ListNotations.
Local Open Scope R_scope.

(** ** SawDPW *)
Definition sw_inv (sr : f32) (s : saw) : Prop :=
  fin (sw_phase s) /\ 0 <= B2R (sw_phase s) <= 1 /\ fin (sw_inc s) /\ 0 <= B2R (sw_inc s) <= / 2 /\
  sw_sr s = sr /\ sw_scale s = fmul sr half /\ fin (sw_prev s) /\ 0 <= B2R (sw_prev s) <= 1 /\ sw_inc s = fdiv (sw_freq s) sr.

Lemma saw_wave (p : f32) : fin p -> 0 <= B2R p <= 1 ->
  let w := fsub (fmul p two) one in let q := fmul w w in
  fin q /\ 0 <= B2R q <= 1 /\ Rabs (B2R q - (2 * B2R p - 1) * (2 * B2R p - 1)) <= 3.1 * bpow radix2 (-25).
Proof.
  intros F B w q.
  assert (D2 : dy32 (B2R p * B2R two)).
  { rewrite two_R. change 2 with (bpow radix2 1). split; [apply fmt_scale; lia|].
    rewrite Rabs_pos_eq by (bp; lra). apply Rle_lt_trans with (bpow radix2 1); [bp; lra|apply bpow_lt; lia]. }
  destruct (fmul_exact p two F ltac:(ffin) D2) as [Fm Em]. rewrite two_R in Em.
  destruct (fsub_b (-1) 1 (fmul p two) one dyn1 dy1 Fm one_fin) as (Fw & Ew & Bw); [rewrite Em, one_R; lra|].
  fold w in Fw, Ew, Bw. rewrite Em, one_R in Ew.
  assert (Hw : Rabs (B2R w - (2 * B2R p - 1)) <= bpow radix2 (-25)).
  { rewrite Ew. replace (B2R p * 2 - 1) with (2 * B2R p - 1) by ring. apply (rnd_err1 0); [lia|]. apply Rabs_le. bp. lra. }
  destruct (fmul_b 0 1 w w dy0 dy1 Fw Fw) as (Fq & Eq & Bq); [nra|]. fold q in Fq, Eq, Bq.
  split; [exact Fq|]. split; [exact Bq|].
  assert (Hq : Rabs (B2R q - B2R w * B2R w) <= bpow radix2 (-25)).
  { rewrite Eq. apply (rnd_err1 0); [lia|]. apply Rabs_le. bp. nra. }
  set (x := 2 * B2R p - 1) in *. assert (Hx : -1 <= x <= 1) by (unfold x; lra).
  revert Hw Hq. bp. intros Hw Hq. apply Rabs_le_inv in Hw. apply Rabs_le_inv in Hq. apply Rabs_le.
  set (e := B2R w - x) in *. replace (B2R w) with (x + e) in * by (unfold e; ring). nra.
Qed.
Lemma sw_tick_inv sr s : sw_inv sr s -> sw_inv sr (fst (sw_tick s)).
Proof.
  intros (Fp & Bp & Fi & Bi & Es & Ec & Fv & Bv & Ei). destruct (unit_adv _ _ Fp Bp Fi ltac:(lra)) as (F & B & _).
  destruct (saw_wave _ Fp Bp) as (Fq & Bq & _).
  refine (conj F (conj B (conj Fi (conj Bi (conj Es (conj Ec (conj Fq (conj Bq Ei)))))))).
Qed.
Lemma sw_init_inv sr ip : rate_ok sr -> freq_ok sr (fofZ 440) -> is_nan ip = false -> sw_inv sr (sw_init sr ip).
Proof.
  intros R Q N. destruct (inc_b sr _ R Q) as [Fi Bi]. unfold sw_init. cbv zeta.
  set (p := fmul (fadd ip one) half).
  assert (Np : is_nan p = false).
  { assert (Na : is_nan (fadd ip one) = false).
    { destruct (nan_cases ip N) as [F|[b ->]]; [|destruct b; reflexivity]. apply (fadd_key ip one F one_fin). }
    unfold p. destruct (nan_cases _ Na) as [F|[b E]]; [|rewrite E; destruct b; reflexivity]. apply (fmul_key _ half F). ffin. }
  set (q := if flt p zero then zero else p).
  assert (Hq : is_nan q = false /\ 0 <= key q).
  { unfold q. destruct (flt p zero) eqn:C; [split; [reflexivity|]; change (key zero) with 0; lra|]. split; [exact Np|].
    destruct (Rle_or_lt 0 (key p)) as [K|K]; [exact K|]. exfalso. assert (flt p zero = true); [|congruence].
    apply flt_true; [exact Np|reflexivity|]. change (key zero) with 0. exact K. }
  destruct Hq as [Nq Kq].
  assert (Hr : fin (if flt one q then one else q) /\ 0 <= B2R (if flt one q then one else q) <= 1).
  { destruct (flt one q) eqn:C; [split; [exact one_fin|rewrite one_R; lra]|].
    assert (K : key q <= 1).
    { destruct (Rle_or_lt (key q) 1) as [K|K]; [exact K|]. exfalso. assert (flt one q = true); [|congruence].
      apply flt_true; [reflexivity|exact Nq|]. rewrite (key_fin one one_fin), one_R. exact K. }
    assert (F : fin q). { apply fin_key_lt; [exact Nq|]. rewrite Rabs_pos_eq by exact Kq. apply Rle_lt_trans with (bpow radix2 0); [exact K|apply bpow_lt; lia]. }
    rewrite key_fin in * by exact F. auto. }
  destruct Hr as [Fr Br].
  refine (conj Fr (conj Br (conj Fi (conj Bi (conj eq_refl (conj eq_refl (conj eq_refl (conj _ eq_refl)))))))). cbn. lra.
Qed.
Lemma sw_op_inv sr s o : rate_ok sr -> sw_inv sr s -> saw_op_ok sr o -> sw_inv sr (fst (sw_op s o)).
Proof.
  intros R I O. destruct o as [|f|p]; unfold sw_op.
  - pose proof (sw_tick_inv sr s I) as H. destruct (sw_tick s). exact H.
  - destruct I as (Fp & Bp & Fi & Bi & Es & Ec & Fv & Bv & Ei). destruct (inc_b sr f R O) as [F B]. rewrite <- Es in F, B.
    assert (X : sw_inc (sw_setFrequency s f) = fdiv f sr) by (unfold sw_setFrequency, sw_inc; now rewrite Es).
    refine (conj Fp (conj Bp (conj F (conj B (conj Es (conj Ec (conj Fv (conj Bv X)))))))).
  - destruct I as (Fp & Bp & Fi & Bi & Es & Ec & Fv & Bv & Ei).
    refine (conj eq_refl (conj _ (conj Fi (conj Bi (conj Es (conj Ec (conj eq_refl (conj _ Ei)))))))); cbn; lra.
Qed.
Lemma sw_reach_inv sr s : rate_ok sr -> freq_ok sr (fofZ 440) -> saw_reach sr s -> sw_inv sr s.
Proof.
  intros R Q (ip & ops & N & Ho & ->).
  destruct (run_inv sw_op (sw_inv sr) (saw_op_ok sr) (fun _ => True)) with (l := ops) (s := sw_init sr ip) as [I _]; auto.
  - intros s o Hs Hok. now apply sw_op_inv.
  - now apply sw_init_inv.
Qed.

(** The scale factor sr / (2 f). *)
Lemma half_rate sr : rate_ok sr -> fin (fmul sr half) /\ B2R (fmul sr half) = B2R sr / 2.
Proof.
  intros [F B]. destruct (fmul_exact sr half F ltac:(ffin)) as [A E]; [|rewrite half_R in E; split; [exact A|lra]].
  rewrite half_R. replace (/ 2) with (bpow radix2 (-1)) by (bp; lra). split.
  - pose proof (fmt_B2R sr) as G. apply FLT_format_generic in G; [|reflexivity].
    destruct G as [[n e] E Hn He]. cbn [Defs.Fnum Defs.Fexp] in *.
    assert (e > -24)%Z.
    { destruct (Z_gt_le_dec e (-24)) as [|L]; [assumption|]. exfalso. assert (B2R sr < 1); [|lra].
      rewrite E. unfold F2R. cbn [Defs.Fnum Defs.Fexp]. apply Rle_lt_trans with (IZR (Z.abs n) * bpow radix2 (-24)).
      - apply Rmult_le_compat; try apply bpow_ge_0; [|apply IZR_le; lia|now apply bpow_le].
        destruct (Rle_or_lt 0 (IZR n)) as [|C]; [assumption|]. exfalso. assert (B2R sr < 0); [|lra]. rewrite E. unfold F2R. cbn [Defs.Fnum Defs.Fexp].
        pose proof (bpow_gt_0 radix2 e). nra.
      - apply IZR_lt in Hn. change (IZR (Zpower radix2 24)) with 16777216 in Hn. bp. lra. }
    rewrite E. unfold F2R. cbn [Defs.Fnum Defs.Fexp]. rewrite Rmult_assoc, <- bpow_plus. apply dy_F2R; [exact Hn|]. unfold SpecFloat.emin. lia.
  - rewrite Rabs_mult, (Rabs_pos_eq (bpow _ _)) by apply bpow_ge_0. rewrite Rabs_pos_eq by lra.
    apply Rle_lt_trans with (bpow radix2 100 * 1); [apply Rmult_le_compat; try lra; bp; lra|]. rewrite Rmult_1_r. apply bpow_lt. lia.
Qed.
Lemma rrel32 x : Rabs (rnd32 x - x) <= bpow radix2 (-24) * Rabs x + bpow radix2 (-150).
Proof. apply (@rnd_rel 24 128 _ x). Qed.
Lemma t150' : 0 < bpow radix2 (-150) <= bpow radix2 (-50).
Proof. split; [apply bpow_gt_0|apply bpow_le; lia]. Qed.
Lemma saw_scale_b sr f : rate_ok sr -> saw_freq_ok sr f ->
  let S := fdiv (fmul sr half) f in let X := B2R sr / (2 * B2R f) in
  fin S /\ 1 <= X <= bpow radix2 13 /\ Rabs (B2R S - X) <= bpow radix2 (-23) * X /\ 1 <= B2R S <= bpow radix2 13.
Proof.
  intros R (Ff & B1 & B2) S X. destruct (half_rate sr R) as [Fh Eh]. destruct R as [Fr Br].
  assert (Pf : 0 < B2R f). { pose proof (bpow_gt_0 radix2 14). nra. }
  assert (EX : B2R (fmul sr half) / B2R f = X) by (rewrite Eh; unfold X; field; lra).
  assert (HX : 1 <= X <= bpow radix2 13).
  { unfold X. split; apply Rmult_le_reg_r with (2 * B2R f); try lra; unfold Rdiv; rewrite Rmult_assoc, Rinv_l by lra; [lra|].
    revert B1. bp. intros. lra. }
  destruct (fdiv_b 1 (bpow radix2 13) (fmul sr half) f dy1 ltac:(apply bp_dy; lia) Fh Ff) as (F & E & B); [lra|rewrite EX; exact HX|].
  split; [exact F|]. split; [exact HX|]. split; [|exact B]. rewrite EX in E. fold S in E. rewrite E. eapply Rle_trans; [apply rrel32|].
  rewrite Rabs_pos_eq by lra. pose proof t150' as T. revert T. bp. intros. lra.
Qed.
Lemma saw_inc_b sr f : rate_ok sr -> saw_freq_ok sr f -> let Y := B2R f / B2R sr in
  Rabs (B2R (fdiv f sr) - Y) <= bpow radix2 (-23) * Y /\ 0 < Y.
Proof.
  intros R (Ff & B1 & B2) Y. destruct R as [Fr Br].
  assert (Pf : 0 < B2R f). { pose proof (bpow_gt_0 radix2 14). nra. }
  assert (HY : bpow radix2 (-14) <= Y <= / 2).
  { unfold Y. split; apply Rmult_le_reg_r with (B2R sr); try lra; unfold Rdiv; rewrite Rmult_assoc, Rinv_l by lra; [|lra].
    revert B1. bp. intros. lra. }
  destruct (fdiv_b 0 1 f sr dy0 dy1 Ff Fr) as (F & E & B); [lra|fold Y; revert HY; bp; intros; lra|].
  fold Y in E. revert HY. pose proof t150' as T. pose proof (rrel32 Y) as Q. rewrite E. bp. intros HY. rewrite (Rabs_pos_eq Y) in Q by lra. split; lra.
Qed.

Lemma saw_bound sr s : rate_ok sr -> sw_inv sr s -> saw_freq_ok sr (sw_freq s) ->
  fin (snd (sw_tick (fst (sw_tick s)))) /\ Rabs (B2R (snd (sw_tick (fst (sw_tick s))))) <= 2 + bpow radix2 (-7).
Proof.
  intros R (Fp & Bp & Fi & Bi & Es & Ec & Fv & Bv & Ei) Q.
  destruct (unit_adv _ _ Fp Bp Fi ltac:(lra)) as (F' & B' & _ & A).
  destruct (saw_wave _ Fp Bp) as (Fq & Bq & Eq).
  unfold sw_tick at 1 3. unfold snd, fst. cbv zeta. unfold sw_tick, fst, sw_phase, sw_prev, sw_scale, sw_freq.
  cbv zeta. fold (sw_phase s) (sw_inc s) (sw_prev s) (sw_freq s) (sw_scale s).
  set (p' := if fle one (fadd (sw_phase s) (sw_inc s)) then fsub (fadd (sw_phase s) (sw_inc s)) one else fadd (sw_phase s) (sw_inc s)) in *.
  set (q := fmul (fsub (fmul (sw_phase s) two) one) (fsub (fmul (sw_phase s) two) one)) in *.
  destruct (saw_wave p' F' B') as (Fq' & Bq' & Eq').
  set (q' := fmul (fsub (fmul p' two) one) (fsub (fmul p' two) one)) in *.
  rewrite Ec. destruct (saw_scale_b sr (sw_freq s) R Q) as (FS & BX & ES & BS).
  destruct (saw_inc_b sr (sw_freq s) R Q) as (EI & PY). rewrite <- Ei in EI.
  set (S := fdiv (fmul sr half) (sw_freq s)) in *. set (X := B2R sr / (2 * B2R (sw_freq s))) in *. set (Y := B2R (sw_freq s) / B2R sr) in *.
  assert (XY : X * Y = / 2).
  { unfold X, Y. destruct R as [_ Br]. destruct Q as (_ & B1 & _). field. split; [lra|]. intros Z. rewrite Z in B1. lra. }
  destruct (fsub_b (-1) 1 q' q dyn1 dy1 Fq' Fq) as (Fd & Ed & Bd); [lra|].
  assert (Hd : Rabs (B2R (fsub q' q) - (B2R q' - B2R q)) <= bpow radix2 (-25)).
  { rewrite Ed. apply (rnd_err1 0); [lia|]. apply Rabs_le. bp. lra. }
  set (p0 := B2R (sw_phase s)) in *. set (p1 := B2R p') in *. set (i := B2R (sw_inc s)) in *.
  assert (D : Rabs ((2 * p1 - 1) * (2 * p1 - 1) - (2 * p0 - 1) * (2 * p0 - 1)) <= 4 * i + bpow radix2 (-22)).
  { replace ((2 * p1 - 1) * (2 * p1 - 1) - (2 * p0 - 1) * (2 * p0 - 1)) with (4 * ((p1 - p0) * (p1 + p0 - 1))) by ring.
    rewrite Rabs_mult, (Rabs_pos_eq 4), Rabs_mult by lra.
    assert (U1 : Rabs (p1 - p0) <= 1) by (apply Rabs_le; lra). assert (U2 : Rabs (p1 + p0 - 1) <= 1) by (apply Rabs_le; lra).
    pose proof (Rabs_pos (p1 - p0)). pose proof (Rabs_pos (p1 + p0 - 1)).
    replace (bpow radix2 (-22)) with (4 * bpow radix2 (-24)) by (bp; lra).
    assert (Rabs (p1 - p0) <= i + bpow radix2 (-24) \/ Rabs (p1 + p0 - 1) <= i + bpow radix2 (-24)) as [C|C].
    { destruct (fle one (fadd (sw_phase s) (sw_inc s))); apply Rabs_le_inv in A; [right|left]; apply Rabs_le; lra. }
    - assert (Rabs (p1 - p0) * Rabs (p1 + p0 - 1) <= (i + bpow radix2 (-24)) * 1) by (apply Rmult_le_compat; lra). lra.
    - assert (Rabs (p1 - p0) * Rabs (p1 + p0 - 1) <= 1 * (i + bpow radix2 (-24))) by (apply Rmult_le_compat; lra). lra. }
  assert (DD : Rabs (B2R (fsub q' q)) <= 4 * i + bpow radix2 (-21)).
  { revert D Hd Eq Eq'. fold p0 p1. bp. intros D Hd Eq Eq'. apply Rabs_le_inv in D. apply Rabs_le_inv in Hd. apply Rabs_le_inv in Eq. apply Rabs_le_inv in Eq'.
    apply Rabs_le. lra. }
  set (d := B2R (fsub q' q)) in *.
  assert (Pi : Rabs (d * B2R S) <= 2 + 129 / 32768).
  { rewrite Rabs_mult, (Rabs_pos_eq (B2R S)) by lra. revert ES EI DD BS BX. bp. intros ES EI DD BS BX.
    apply Rabs_le_inv in ES. apply Rabs_le_inv in EI.
    apply Rle_trans with ((4 * (Y * (1 + / 8388608)) + / 2097152) * (X * (1 + / 8388608))).
    - apply Rmult_le_compat; [apply Rabs_pos|lra| |]; lra.
    - replace ((4 * (Y * (1 + / 8388608)) + / 2097152) * (X * (1 + / 8388608))) with
        (4 * (X * Y) * ((1 + / 8388608) * (1 + / 8388608)) + / 2097152 * X * (1 + / 8388608)) by ring. rewrite XY.
      lra. }
  assert (DY : dy32 (IZR 16448 * bpow radix2 (-13))) by (apply dyq; lia).
  destruct (fmul_b _ _ (fsub q' q) S (dy_opp _ DY) DY Fd FS) as (F & E & B).
  { apply Rabs_le_inv. eapply Rle_trans; [exact Pi|]. bp. lra. }
  split; [exact F|]. apply Rabs_le. revert B. bp. intros. split; lra.
Qed.

Lemma saw_steady sr s n : rate_ok sr -> sw_inv sr s -> saw_freq_ok sr (sw_freq s) ->
  fin (nth_sample sw_tick (S n) s) /\ Rabs (B2R (nth_sample sw_tick (S n) s)) <= 2 + bpow radix2 (-7).
Proof.
  intros R. revert s. induction n as [|n IH]; intros s I Q.
  - now apply (saw_bound sr).
  - apply (IH (fst (sw_tick s))); [now apply sw_tick_inv|exact Q].
Qed.

(** The click after reset. *)
Lemma saw_click sr s : rate_ok sr -> sw_inv sr s -> saw_freq_ok sr (sw_freq s) ->
  let x := snd (sw_tick (sw_reset s)) in fin x /\ Rabs (B2R x - B2R sr / (2 * B2R (sw_freq s))) <= bpow radix2 (-23) * (B2R sr / (2 * B2R (sw_freq s))).
Proof.
  intros R (_ & _ & _ & _ & _ & Ec & _) Q x. destruct (saw_scale_b sr (sw_freq s) R Q) as (FS & BX & ES & BS).
  assert (E : x = fmul one (fdiv (fmul sr half) (sw_freq s))).
  { unfold x, sw_tick, sw_reset, snd, sw_phase, sw_prev, sw_scale, sw_freq. fold (sw_scale s) (sw_freq s). rewrite Ec. f_equal. }
  rewrite E. destruct (fmul_exact one _ one_fin FS) as [A B]; rewrite one_R, Rmult_1_l in *; [apply dy_B2R|]. rewrite B. auto.
Qed.

(** Frequency 0: NaN from the second sample on. *)
Lemma zero_cases (x : f32) : fin x -> B2R x = 0 -> exists b, x = B754_zero b.
Proof.
  intros F E. destruct x as [b|b| |b m e H]; try discriminate F; [now exists b|]. exfalso. apply eq_0_F2R in E. destruct b; discriminate.
Qed.
Lemma sub_same (x y : f32) : fin x -> fin y -> B2R x = B2R y -> exists b, fsub x y = B754_zero b.
Proof.
  intros F G E. destruct (fsub_exact x y F G) as [A B]; [rewrite E, Rminus_diag_eq by reflexivity; apply dy_0|].
  apply zero_cases; [exact A|]. rewrite B, E. ring.
Qed.
Lemma saw_same (p p' : f32) : fin p -> fin p' -> 0 <= B2R p <= 1 -> B2R p' = B2R p \/ (B2R p = 1 /\ B2R p' = 0) ->
  B2R (fmul (fsub (fmul p' two) one) (fsub (fmul p' two) one)) = B2R (fmul (fsub (fmul p two) one) (fsub (fmul p two) one)).
Proof.
  assert (V : forall p : f32, fin p -> 0 <= B2R p <= 1 -> exists w, fin (fsub (fmul p two) one) /\ B2R (fsub (fmul p two) one) = rnd32 (B2R p * 2 - 1) /\
     B2R (fmul (fsub (fmul p two) one) (fsub (fmul p two) one)) = rnd32 (w * w) /\ w = rnd32 (B2R p * 2 - 1)).
  { clear. intros p F B. exists (rnd32 (B2R p * 2 - 1)).
    assert (D2 : dy32 (B2R p * B2R two)).
    { rewrite two_R. change 2 with (bpow radix2 1). split; [apply fmt_scale; lia|].
      rewrite Rabs_pos_eq by (bp; lra). apply Rle_lt_trans with (bpow radix2 1); [bp; lra|apply bpow_lt; lia]. }
    destruct (fmul_exact p two F ltac:(ffin) D2) as [Fm Em]. rewrite two_R in Em.
    destruct (fsub_b (-1) 1 (fmul p two) one dyn1 dy1 Fm one_fin) as (Fw & Ew & Bw); [rewrite Em, one_R; lra|].
    rewrite Em, one_R in Ew. split; [exact Fw|]. split; [exact Ew|]. split; [|reflexivity].
    destruct (fmul_b 0 1 _ _ dy0 dy1 Fw Fw) as (Fq & Eq & Bq); [nra|]. rewrite Eq, Ew. reflexivity. }
  intros F F' B [E|[E E']].
  - destruct (V p F B) as (w & _ & _ & X & W). destruct (V p' F' ltac:(lra)) as (w' & _ & _ & X' & W'). rewrite X, X', W, W', E. reflexivity.
  - destruct (V p F B) as (w & _ & _ & X & W). destruct (V p' F' ltac:(lra)) as (w' & _ & _ & X' & W'). rewrite X, X', W, W', E, E'.
    replace (1 * 2 - 1) with 1 by ring. replace (0 * 2 - 1) with (- (1)) by ring. rewrite rnd_opp. f_equal. ring.
Qed.
Lemma saw_zero_step sr s b : rate_ok sr -> sw_inv sr s -> sw_freq s = B754_zero b ->
  snd (sw_tick (fst (sw_tick s))) = B754_nan.
Proof.
  intros R (Fp & Bp & Fi & Bi & Es & Ec & Fv & Bv & Ei) Q.
  destruct (unit_adv _ _ Fp Bp Fi ltac:(lra)) as (F' & B' & _ & _).
  destruct (saw_wave _ Fp Bp) as (Fq & Bq & _).
  unfold sw_tick at 1. unfold snd. cbv zeta. unfold sw_tick, fst, sw_phase, sw_prev, sw_scale, sw_freq.
  cbv zeta. fold (sw_phase s) (sw_inc s) (sw_prev s) (sw_freq s) (sw_scale s).
  assert (I0 : B2R (sw_inc s) = 0).
  { rewrite Ei, Q. destruct R as [Fr Br].
    destruct (fdiv_exact (B754_zero b) sr eq_refl Fr) as [_ E]; [lra| |]; (replace (B2R (B754_zero b : f32) / B2R sr) with 0 by (cbn; unfold Rdiv; ring)) || idtac.
    - apply dy_0.
    - rewrite E. cbn. unfold Rdiv. ring. }
  assert (HP : B2R (if fle one (fadd (sw_phase s) (sw_inc s)) then fsub (fadd (sw_phase s) (sw_inc s)) one else fadd (sw_phase s) (sw_inc s)) = B2R (sw_phase s)
     \/ (B2R (sw_phase s) = 1 /\ B2R (if fle one (fadd (sw_phase s) (sw_inc s)) then fsub (fadd (sw_phase s) (sw_inc s)) one else fadd (sw_phase s) (sw_inc s)) = 0)).
  { destruct (fadd_exact (sw_phase s) (sw_inc s) Fp Fi) as [Fa Ea]; [rewrite I0, Rplus_0_r; apply dy_B2R|]. rewrite I0, Rplus_0_r in Ea.
    destruct (fle one (fadd (sw_phase s) (sw_inc s))) eqn:C; [right|left; exact Ea].
    apply fle_R in C; [|exact one_fin|exact Fa]. rewrite one_R, Ea in C. assert (O : B2R (sw_phase s) = 1) by lra. split; [exact O|].
    destruct (fsub_exact (fadd (sw_phase s) (sw_inc s)) one Fa one_fin) as [_ E]; rewrite Ea, O, one_R in *.
    - replace (1 - 1) with 0 by ring. apply dy_0.
    - rewrite E. ring. }
  set (p' := if fle one _ then _ else _) in *.
  pose proof (saw_same _ _ Fp F' Bp HP) as SE. destruct (saw_wave _ F' B') as (Fq' & _).
  destruct (sub_same _ _ Fq' Fq SE) as [c ->].
  assert (D : fdiv (sw_scale s) (sw_freq s) = B754_infinity b).
  { rewrite Q, Ec. destruct (half_rate sr R) as [Fh Eh]. destruct R as [_ Br].
    assert (P : 0 < B2R (fmul sr half)) by lra. clear - Fh P. destruct (fmul sr half) as [u|u| |u m e H]; try discriminate Fh; [cbn in P; lra|].
    destruct u; [exfalso; pose proof (F2R_lt_0 radix2 (Float radix2 (Zneg m) e) eq_refl); cbn in P, H0; lra|]. destruct b; reflexivity. }
  rewrite D. destruct c, b; reflexivity.
Qed.
Lemma saw_zero sr s b n : rate_ok sr -> sw_inv sr s -> sw_freq s = B754_zero b -> nth_sample sw_tick (S n) s = B754_nan.
Proof.
  intros R. revert s. induction n as [|n IH]; intros s I Q.
  - now apply (saw_zero_step sr s b).
  - apply (IH (fst (sw_tick s))); [now apply sw_tick_inv|exact Q].
Qed.
