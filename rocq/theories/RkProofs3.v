(** Runge-Kutta ladder: bounded outputs for every history of calls. *)
From Coq Require Import ZArith Reals Lra Lia Bool Psatz List.
From Flocq Require Import Core BinarySingleNaN.
From Verif Require Import Flt FltFacts FltMore FltKey FltArith Libm UtilModel UtilProofs Dbl LpProofs MgModel MgSpec MgBase RdProofs2 ImProofs RkModel RkProofs RkProofs2 LaSpec.
Import ListNotations.
Local Open Scope R_scope.

Definition quad_all (P : f64 -> Prop) (q : quad) : Prop := P (q_0 q) /\ P (q_1 q) /\ P (q_2 q) /\ P (q_3 q).
Definition rk_lim (m : Z) : R := 49 / 16 + 2 * (IZR m * (101 / 256)).
Section Inv.
  Context (m : Z) (Hm : (1 <= m <= 64)%Z) (sr : f32) (Hr : mg_rate sr) (H1000 : 64000 <= IZR m * B2R sr).
  Record rk_inv (s : rk) : Prop := {
    rv_sr : rk_sr s = sr;
    rv_res : fin (rk_res s) /\ 0 <= B2R (rk_res s) <= 1;
    rv_drive : bd (bpow radix2 128) (rk_drive s);
    rv_mk : bd (5121 / 1024) (rk_makeup s);
    rv_coeff : exists cut : f32, fin cut /\ 0 <= B2R cut <= IZR m / 64 * B2R sr /\ fin (rk_coeff s) /\ B2R (rk_coeff s) = pp * B2R cut;
    rv_step : fin (rk_step s) /\ bpow radix2 (-90) <= B2R (rk_step s) /\ B2R (rk_step s) * B2R sr <= 1 + / 1000000;
    rv_state : quad_all (bd (rk_lim m)) (rk_state s) }.
  Lemma Pm' : 1 <= IZR m <= 64. Proof. split; apply IZR_le; lia. Qed.
  Lemma lim_le : rk_lim m <= 55. Proof. pose proof Pm'. unfold rk_lim. lra. Qed.

  Lemma solve_ok s (x : f32) q : rk_inv s -> fin x -> quad_all (bd (rk_lim m)) q -> quad_all (bd (rk_lim m)) (rk_solve s (f2d x) q).
  Proof.
    intros [Es [Fr Br] Dr _ (cut & Fcut & Bcut & Fc & Ec) (Fh & Lh & Uh) _] Fx Hq. pose proof Pm' as PM. destruct Hr as [Fs Hs]. pose proof lim_le as LL.
    set (C := pp * B2R cut) in *. assert (PP : 0 < pp < 62832 / 10000) by (unfold pp; lra). assert (PC : 0 <= C) by (unfold C; nra).
    assert (DC : forall n, (Z.abs n <= 24)%Z -> dy64 (IZR n * C)) by (intros n Hn; now apply coeff_dy).
    pose proof (bpow_gt_0 radix2 (-90)) as P60.
    assert (HC : B2R (rk_step s) * C <= IZR m * (982 / 10000)).
    { assert (X : C <= 62832 / 10000 * (IZR m / 64 * B2R sr)) by (unfold C; apply Rmult_le_compat; lra).
      apply Rle_trans with (B2R (rk_step s) * (62832 / 10000 * (IZR m / 64 * B2R sr))); [apply Rmult_le_compat_l; lra|].
      replace (B2R (rk_step s) * (62832 / 10000 * (IZR m / 64 * B2R sr))) with (B2R (rk_step s) * B2R sr * (62832 / 640000 * IZR m)) by field.
      apply Rle_trans with ((1 + / 1000000) * (62832 / 640000 * IZR m)); [apply Rmult_le_compat_r; lra|lra]. }
    clearbody C. set (c := rk_coeff s) in *. set (h := rk_step s) in *.
    (* the drive of the first stage *)
    assert (DRV : forall y : f64, bd 200 y -> bd 2 (rk_clip (fsub (fmul (f2d x) (rk_drive s)) (fmul (fmul (f2d (rk_res s)) (dz 10)) y)))).
    { intros y By. assert (R10 : bd 10 (fmul (f2d (rk_res s)) (dz 10))) by (apply (bd_mul 1 10 10); [apply bd_f2d; [exact Fr|apply Rabs_le; lra]|bdc (dz 10)|lra|dynum 10%Z 0%Z]).
      assert (P1 : bd (bpow radix2 256) (fmul (f2d x) (rk_drive s))) by (eapply bd_mul; [apply bd_f2d_any; exact Fx|exact Dr|rewrite <- bpow_plus; apply bpow_le; lia|apply dyp; lia]).
      assert (P2 : bd 2000 (fmul (fmul (f2d (rk_res s)) (dz 10)) y)) by (eapply bd_mul; [exact R10|exact By|lra|dynum 2000%Z 0%Z]).
      assert (P3 : bd (bpow radix2 257) (fsub (fmul (f2d x) (rk_drive s)) (fmul (fmul (f2d (rk_res s)) (dz 10)) y))).
      { eapply bd_sub; [exact P1|exact P2| |apply dyp; lia]. replace (bpow radix2 257) with (bpow radix2 256 + bpow radix2 256) by (change 257%Z with (1 + 256)%Z; rewrite bpow_plus; change (bpow radix2 1) with 2; ring). apply Rplus_le_compat_l. apply Rle_trans with (bpow radix2 11); [bp; lra|apply bpow_le; lia]. }
      destruct P3 as [F3 _]. destruct (clip_R _ F3) as (F & B & _). split; assumption. }
    assert (CL : forall y : f64, bd 200 y -> bd 2 (rk_clip y)) by (intros y [Fy _]; destruct (clip_R y Fy) as (F & B & _); split; assumption).
    destruct (hh2_R h Fh Lh) as [F2 B2].
    (* stages stay finite *)
    assert (STG : forall (y A hh : f64) (z : f64), bd 200 y -> bd 2 A -> bd (rk_lim m) z -> fin hh -> 0 <= B2R hh <= B2R h -> bd 200 (fadd z (fmul hh (kk c A y)))).
    { intros y A hh z [Fy _] HA [Fz Bz] Fhh Bhh. destruct (k_ok c C Fc Ec PC DC A y HA Fy) as (Fk & Bk & _). fold (kk c A y) in Fk, Bk. set (k := kk c A y) in *. clearbody k.
      assert (X : Rabs (B2R hh * B2R k) <= IZR m * (101 / 256)).
      { rewrite Rabs_mult, (Rabs_pos_eq (B2R hh)) by lra. assert (Rabs (B2R k) <= 4 * C) by (apply Rabs_le; lra). pose proof (Rabs_pos (B2R k)). apply Rle_trans with (B2R h * (4 * C)); [apply Rmult_le_compat; lra|lra]. }
      destruct (step_ok m Hm z hh k Fz Bz Fhh (proj1 Bhh) Fk X) as (F & B & _). fold (rk_lim m) in B. split; [exact F|]. apply Rabs_le. lra. }
    assert (W : forall y, bd (rk_lim m) y -> bd 200 y) by (intros y Hy; eapply bd_weak; [exact Hy|lra]).
    destruct Hq as (Q0 & Q1 & Q2 & Q3). destruct q as [q0 q1 q2 q3]. cbn [q_0 q_1 q_2 q_3] in *.
    set (r := fmul (f2d (rk_res s)) (dz 10)) in *. set (i := fmul (f2d x) (rk_drive s)) in *.
    (* the stages *)
    set (e2 := hh2 h) in *.
    pose (a0 := fadd q0 (fmul e2 (kk c (rk_clip (fsub i (fmul r q3))) q0))). pose (a1 := fadd q1 (fmul e2 (kk c (rk_clip q0) q1))). pose (a2 := fadd q2 (fmul e2 (kk c (rk_clip q1) q2))). pose (a3 := fadd q3 (fmul e2 (kk c (rk_clip q2) q3))).
    assert (A0 : bd 200 a0) by (apply STG; auto). assert (A1 : bd 200 a1) by (apply STG; auto). assert (A2 : bd 200 a2) by (apply STG; auto). assert (A3 : bd 200 a3) by (apply STG; auto).
    pose (b0 := fadd q0 (fmul e2 (kk c (rk_clip (fsub i (fmul r a3))) a0))). pose (b1 := fadd q1 (fmul e2 (kk c (rk_clip a0) a1))). pose (b2 := fadd q2 (fmul e2 (kk c (rk_clip a1) a2))). pose (b3 := fadd q3 (fmul e2 (kk c (rk_clip a2) a3))).
    assert (B0 : bd 200 b0) by (apply STG; auto). assert (B1 : bd 200 b1) by (apply STG; auto). assert (B2' : bd 200 b2) by (apply STG; auto). assert (B3 : bd 200 b3) by (apply STG; auto).
    assert (HH : 0 <= B2R h <= B2R h) by lra.
    pose (d0 := fadd q0 (fmul h (kk c (rk_clip (fsub i (fmul r b3))) b0))). pose (d1 := fadd q1 (fmul h (kk c (rk_clip b0) b1))). pose (d2 := fadd q2 (fmul h (kk c (rk_clip b1) b2))). pose (d3 := fadd q3 (fmul h (kk c (rk_clip b2) b3))).
    assert (D0 : bd 200 d0) by (apply STG; auto). assert (D1 : bd 200 d1) by (apply STG; auto). assert (D2 : bd 200 d2) by (apply STG; auto). assert (D3 : bd 200 d3) by (apply STG; auto).
    pose proof (comp_ok m Hm c h C Fc Ec PC DC Fh Lh HC q0 _ _ _ _ (proj1 Q0) (proj2 Q0) (DRV q3 (W _ Q3)) (DRV a3 A3) (DRV b3 B3) (DRV d3 D3)) as R0.
    pose proof (comp_ok m Hm c h C Fc Ec PC DC Fh Lh HC q1 _ _ _ _ (proj1 Q1) (proj2 Q1) (CL q0 (W _ Q0)) (CL a0 A0) (CL b0 B0) (CL d0 D0)) as R1.
    pose proof (comp_ok m Hm c h C Fc Ec PC DC Fh Lh HC q2 _ _ _ _ (proj1 Q2) (proj2 Q2) (CL q1 (W _ Q1)) (CL a1 A1) (CL b1 B1) (CL d1 D1)) as R2.
    pose proof (comp_ok m Hm c h C Fc Ec PC DC Fh Lh HC q3 _ _ _ _ (proj1 Q3) (proj2 Q3) (CL q2 (W _ Q2)) (CL a2 A2) (CL b2 B2') (CL d2 D2)) as R3.
    cbv zeta in R0, R1, R2, R3. split; [exact R0|]. split; [exact R1|]. split; [exact R2|exact R3].
  Qed.

  Lemma iter_ok s (x : f32) n : forall q, rk_inv s -> fin x -> quad_all (bd (rk_lim m)) q -> quad_all (bd (rk_lim m)) (Nat.iter n (rk_solve s (f2d x)) q).
  Proof. induction n as [|n IH]; intros q I Fx Q; [exact Q|]. cbn [Nat.iter nat_rect]. change (quad_all (bd (rk_lim m)) (rk_solve s (f2d x) (Nat.iter n (rk_solve s (f2d x)) q))). apply solve_ok; auto. Qed.
  Lemma zero_ok : quad_all (bd (rk_lim m)) rk_zero.
  Proof.
    pose proof Pm'. assert (Z : bd (rk_lim m) fzero) by (split; [reflexivity|]; change (B2R (fzero : f64)) with 0; rewrite Rabs_R0; unfold rk_lim; lra). split; [exact Z|]. split; [exact Z|]. split; exact Z.
  Qed.
  Lemma step_R n : (1 <= n < 2 ^ 31)%Z -> fin (rk_stepsize sr n) /\ bpow radix2 (-90) <= B2R (rk_stepsize sr n) /\ B2R (rk_stepsize sr n) * B2R sr <= 1 + / 1000000.
  Proof.
    intros Hn. destruct Hr as [Fs Hs]. unfold rk_stepsize.
    pose proof (fofZ_big n ltac:(lia)) as N.
    destruct N as [Fn Bn]. set (nf := fofZ n : f32) in *. clearbody nf.
    destruct (fmul_b (B2R sr) (bpow radix2 80) nf sr) as (Fp & _ & Bp); [apply dy_B2R|apply dy_bpow; cbn; lia|exact Fn|exact Fs| |].
    { split; [nra|]. replace (bpow radix2 80) with (bpow radix2 62 * bpow radix2 18) by (rewrite <- bpow_plus; reflexivity). apply Rmult_le_compat; try lra. change (bpow radix2 18) with 262144. lra. }
    destruct (f2d_R _ Fp) as [Fd Ed]. set (p := fmul nf sr) in *. clearbody p. rewrite <- Ed in Bp. set (d := f2d p) in *. clearbody d. clear Ed Fp p.
    assert (O : B2R (dz 1) = 1) by (fval (dz 1); lra).
    assert (I : bpow radix2 (-80) <= 1 / B2R d <= / B2R sr). { unfold Rdiv. rewrite Rmult_1_l. split; [change (bpow radix2 (-80)) with (/ bpow radix2 80); apply Rinv_le_contravar; lra|apply Rinv_le_contravar; lra]. }
    assert (Q : / B2R sr <= 1) by (rewrite <- Rinv_1; apply Rinv_le_contravar; lra).
    destruct (fdiv_b (bpow radix2 (-80)) 1 (dz 1) d) as (F & E & B); [apply dyp; lia|dynum 1%Z 0%Z|ffin|exact Fd|lra|rewrite O; lra|]. split; [exact F|]. split; [apply Rle_trans with (bpow radix2 (-80)); [apply bpow_le; lia|lra]|].
    pose proof (rnd_rel (prec:=53) (emax:=1024) (B2R (dz 1) / B2R d)) as R. rewrite <- E, O in R. set (t := 1 / B2R d) in *. pose proof (bpow_gt_0 radix2 (-80)). rewrite (Rabs_pos_eq t) in R by lra. apply Rabs_le_inv in R. change (bpow radix2 (- (53))) with (bpow radix2 (-53)) in R.
    assert (U1 : bpow radix2 (-53) <= / 1000000000) by (bp; lra). assert (U2 : bpow radix2 (SpecFloat.emin 53 1024 - 1) <= / 10000000000000000) by (apply Rle_trans with (bpow radix2 (-60)); [apply bpow_le; cbn; lia|change (bpow radix2 (-60)) with (/ 1152921504606846976); lra]).
    set (v := fdiv (dz 1) d) in *. clearbody v. assert (V : B2R v <= t + / 1000000000 * t + / 10000000000000000) by (assert (bpow radix2 (-53) * t <= / 1000000000 * t) by (apply Rmult_le_compat_r; lra); lra).
    assert (TS : t * B2R sr <= 1) by (apply Rle_trans with (/ B2R sr * B2R sr); [apply Rmult_le_compat_r; lra|rewrite Rinv_l; lra]).
    apply Rle_trans with ((t + / 1000000000 * t + / 10000000000000000) * B2R sr); [apply Rmult_le_compat_r; lra|]. nra.
  Qed.
  Lemma cut_ok s c : fin c -> 0 <= B2R c <= IZR m / 64 * B2R sr -> rk_sr s = sr -> (fin (rk_res s) /\ 0 <= B2R (rk_res s) <= 1) -> bd (bpow radix2 128) (rk_drive s) ->
    (fin (rk_step s) /\ bpow radix2 (-90) <= B2R (rk_step s) /\ B2R (rk_step s) * B2R sr <= 1 + / 1000000) -> quad_all (bd (rk_lim m)) (rk_state s) -> rk_inv (rk_setCutoff s c).
  Proof.
    intros Fc Bc E R D P Q. unfold rk_setCutoff. rewrite E. destruct (makeup_R sr c Hr Fc) as [Fm Bm]. destruct (coeff_R c Fc) as [F1 E1].
    split; cbn [rk_sr rk_res rk_drive rk_makeup rk_coeff rk_step rk_state]; try assumption; [reflexivity|split; [exact Fm|apply Rabs_le; lra]|]. exists c. auto.
  Qed.
  Lemma rk_init_inv : rk_inv (rk_init sr).
  Proof.
    unfold rk_init. match goal with |- rk_inv (rk_setResonance ?s ?r) => assert (A : rk_inv s) end.
    { apply cut_ok; [ffin|fval (fofZ 1000 : f32); lra|reflexivity| | | |]; cbn [rk_sr rk_res rk_drive rk_makeup rk_coeff rk_step rk_state].
      - split; [reflexivity|]. change (B2R (fzero : f32)) with 0. lra.
      - split; [reflexivity|]. apply Rabs_le. fval (dz 1). assert (1 <= bpow radix2 128) by (change 1 with (bpow radix2 0); apply bpow_le; lia). lra.
      - apply step_R. lia.
      - exact zero_ok. }
    destruct A as [A B C D E F G]. split; cbn [rk_setResonance rk_sr rk_res rk_drive rk_makeup rk_coeff rk_step rk_state]; try assumption. apply unit_clamp_R. reflexivity.
  Qed.
  Lemma rk_tick_ok s x : rk_inv s -> fin x -> rk_inv (fst (rk_tick s x)) /\ fin (snd (rk_tick s x)) /\ Rabs (B2R (snd (rk_tick s x))) <= 16 + 4 * IZR m.
  Proof.
    intros I Fx. unfold rk_tick. cbv zeta. cbn [fst snd]. pose proof (iter_ok s x (Z.to_nat (rk_over s)) (rk_state s) I Fx (rv_state _ I)) as Q. set (q := Nat.iter _ _ _) in *. clearbody q. destruct I as [A B C D E F G].
    split; [split; cbn [rk_sr rk_res rk_drive rk_makeup rk_coeff rk_step rk_state]; assumption|].
    destruct Q as (_ & _ & _ & Q3). pose proof Pm' as PM.
    assert (DM : dy64 (16 + 4 * IZR m)) by (replace (16 + 4 * IZR m) with (IZR (16 + 4 * m) * bpow radix2 0); [apply dyn; lia|rewrite plus_IZR, mult_IZR; change (bpow radix2 0) with 1; lra]).
    assert (Y : bd (16 + 4 * IZR m) (fmul (q_3 q) (rk_makeup s))) by (eapply bd_mul; [exact Q3|exact D|unfold rk_lim; lra|exact DM]). destruct Y as [Fy By]. apply Rabs_le_inv in By.
    assert (D2 : dy32 (16 + 4 * IZR m)) by (replace (16 + 4 * IZR m) with (IZR (16 + 4 * m)) by (rewrite plus_IZR, mult_IZR; reflexivity); apply dy_IZR; change (2 ^ 24)%Z with 16777216%Z; lia).
    destruct (d2f_b (- (16 + 4 * IZR m)) (16 + 4 * IZR m) _ Fy (dy_opp _ D2) D2 By) as (F0 & _ & B0). split; [exact F0|]. now apply Rabs_le.
  Qed.
  Lemma rk_step_ok s o : rk_inv s -> rk_good (IZR m / 64) sr o -> rk_inv (fst (rk_call s o)) /\ forall v, snd (rk_call s o) = Some v -> fin v /\ Rabs (B2R v) <= 16 + 4 * IZR m.
  Proof.
    intros I G. destruct o as [c|r|d|n|x|]; cbn [rk_call rk_good] in *.
    - split; [|intros v E; discriminate E]. destruct I as [A B C D E F H]. destruct G as [Fc Bc]. apply cut_ok; assumption.
    - split; [|intros v E; discriminate E]. destruct I as [A B C D E F H]. split; cbn [fst rk_setResonance rk_sr rk_res rk_drive rk_makeup rk_coeff rk_step rk_state]; try assumption. now apply unit_clamp_R.
    - split; [|intros v E; discriminate E]. destruct I as [A B C D E F H]. split; cbn [fst rk_setDrive rk_sr rk_res rk_drive rk_makeup rk_coeff rk_step rk_state]; try assumption.
      destruct (flt d fzero); [|now apply bd_f2d_any]. split; [reflexivity|]. change (B2R (fzero : f64)) with 0. rewrite Rabs_R0. apply bpow_ge_0.
    - split; [|intros v E; discriminate E]. destruct I as [A B C D E F H]. unfold rk_setOversample. cbv zeta. rewrite A. split; cbn [fst rk_sr rk_res rk_drive rk_makeup rk_coeff rk_step rk_state]; try assumption; [reflexivity|].
      apply step_R. destruct (Z.ltb_spec n 1); lia.
    - pose proof (rk_tick_ok s x I G) as (A & B). destruct (rk_tick s x) as [s' y]. cbn [fst snd] in *. split; [exact A|]. intros v E. injection E as <-. exact B.
    - split; [|intros v E; discriminate E]. destruct I as [A B C D E F H]. split; cbn [fst rk_reset rk_sr rk_res rk_drive rk_makeup rk_coeff rk_step rk_state]; try assumption. exact zero_ok.
  Qed.
End Inv.
Lemma rk_bounded m sr os : (1 <= m <= 64)%Z -> mg_rate sr -> 64000 <= IZR m * B2R sr -> Forall (rk_good (IZR m / 64) sr) os ->
  Forall (fun y => fin y /\ Rabs (B2R y) <= 16 + 4 * IZR m) (snd (mg_run rk_call (rk_init sr) os)).
Proof.
  intros Hm Hr H Ho. apply (run_inv rk_call (rk_inv m sr) (rk_good (IZR m / 64) sr) (fun y => fin y /\ Rabs (B2R y) <= 16 + 4 * IZR m)); [|now apply rk_init_inv|exact Ho].
  intros s o I G. now apply rk_step_ok.
Qed.
