(** The JACK example: level, notes, pitch. *)
From Coq Require Import ZArith Reals Bool List Lra Lia.
From Flocq Require Import Core BinarySingleNaN.
From Verif Require Import Flt FltFacts FltMore FltKey FltArith FltClose FltRel Libm UtilModel UtilProofs Ln2 OscModel OscSpec OscProofs OscProofs3
  EnvModel EnvSpec EnvProofs EnvProofs2 PanModel PanProofs VcModel VcSpec VcProofs VcProofs2 JxModel JxSpec.
Import ListNotations.
Local Open Scope R_scope.

Lemma jx_hz_R sr : jx_hz sr -> fin (fofZ sr : f32) /\ B2R (fofZ sr : f32) = IZR sr /\ 1000 <= IZR sr <= 262144.
Proof. intros H. unfold jx_hz in H. destruct (fofZ_R (prec:=24) (emax:=128) sr ltac:(lia)) as [F R]. split; [exact F|]. split; [exact R|]. split; apply IZR_le; lia. Qed.
Lemma jx_vr sr : jx_hz sr -> voice_rate (fofZ sr).
Proof.
  intros H. destruct (jx_hz_R sr H) as (F & E & B). split; [exact F|]. rewrite E. split; [lra|]. apply Rle_trans with (bpow radix2 18); [change (bpow radix2 18) with 262144; lra|apply bpow_le; lia].
Qed.

(** ** The release *)
Definition rel_c (L : libm) (sr : Z) : f32 := coeff L (fdec 3 10) (fofZ sr).
Lemma rel_arg sr : jx_hz sr -> let p := fmul (fdec 3 10) (fofZ sr : f32) in fin p /\ 0.299999 * IZR sr <= B2R p <= 0.300001 * IZR sr.
Proof.
  intros H p. destruct (jx_hz_R sr H) as (F & E & B). assert (FL : fin (fdec 3 10 : f32)) by ffin. fval (fdec 3 10 : f32).
  assert (R : rl 0.0000001 p (B2R (fdec 3 10 : f32) * B2R (fofZ sr : f32))).
  { apply rl_mul with 0 0; try lra; try (apply rl_self; assumption); [|unfold ru; lra]. rewrite E. unfold mid. rewrite Rabs_pos_eq by (apply Rmult_le_pos; lra). split.
    - apply Rle_trans with 1; [change 1 with (bpow radix2 0); apply bpow_le; lia|]. nra.
    - apply Rle_trans with (bpow radix2 20); [change (bpow radix2 20) with 1048576; nra|apply bpow_le; lia]. }
  destruct R as [Fp Ep]. split; [exact Fp|]. rewrite E in Ep. set (a := B2R (fdec 3 10 : f32)) in *. clearbody a.
  assert (0.2999999 <= a <= 0.3000001) by lra. rewrite (Rabs_pos_eq (a * IZR sr)) in Ep by (apply Rmult_le_pos; lra). apply Rabs_le_inv in Ep. clearbody p.
  assert (0.2999999 * IZR sr <= a * IZR sr) by (apply Rmult_le_compat_r; lra). assert (a * IZR sr <= 0.3000001 * IZR sr) by (apply Rmult_le_compat_r; lra). split; lra.
Qed.
Lemma rel_c_R L sr : exp_acc L -> jx_hz sr -> B2R (rel_c L sr) <= 1 - 327 / 100 / IZR sr.
Proof.
  intros HL H. destruct (jx_hz_R sr H) as (_ & _ & B). destruct (rel_arg sr H) as [F P]. unfold rel_c, coeff. set (p := fmul _ _) in *. clearbody p. set (q := IZR sr) in *. clearbody q.
  destruct (coeff_arg p F ltac:(lra)) as (Fx & Nx & Ex). set (x := fdiv (fneg one) p) in *. clearbody x.
  destruct (HL x Fx Nx) as [Fc Ec]. apply Rabs_le_inv in Ec, Ex. change (bpow radix2 (-23)) with (/ 8388608) in Ec.
  assert (Iq : / 262144 <= / q <= / 1000) by (split; apply Rinv_le_contravar; lra).
  assert (Ip : 3.33332 * / q <= / B2R p <= 3.33335 * / q).
  { split; [apply Rmult_le_reg_r with (B2R p)|apply Rmult_le_reg_r with (B2R p)]; try lra; rewrite Rinv_l by lra.
    - apply Rle_trans with (3.33332 * / q * (0.300001 * q)); [apply Rmult_le_compat_l; lra|]. replace (3.33332 * / q * (0.300001 * q)) with (3.33332 * 0.300001 * (/ q * q)) by ring. rewrite Rinv_l by lra. lra.
    - apply Rle_trans with (3.33335 * / q * (0.299999 * q)); [|apply Rmult_le_compat_l; lra]. replace (3.33335 * / q * (0.299999 * q)) with (3.33335 * 0.299999 * (/ q * q)) by ring. rewrite Rinv_l by lra. lra. }
  set (y := - B2R x). assert (Y : 3.3333 * / q <= y <= 3.3334 * / q) by (unfold y; lra).
  assert (EE : exp (B2R x) <= 1 - y + y * y).
  { replace (B2R x) with (- y) by (unfold y; ring). rewrite exp_Ropp. pose proof (exp_ineq1_le y). apply Rle_trans with (/ (1 + y)); [apply Rinv_le_contravar; lra|].
    apply Rmult_le_reg_r with (1 + y); [lra|]. rewrite Rinv_l by lra. assert (0 <= y * y * y) by (apply Rmult_le_pos; [apply Rmult_le_pos|]; lra). lra. }
  assert (y * y <= 0.0034 * y) by (apply Rmult_le_compat_r; lra). unfold Rdiv. lra.
Qed.
Lemma c0001_R : 0.00009999 <= B2R c0001 <= 0.00010001. Proof. fval c0001. lra. Qed.
Lemma exp96 : 10010 <= exp (48 / 5).
Proof.
  assert (E : exp (48 / 5) = exp 0.075 ^ 128). { rewrite <- Rpower_pow by apply exp_pos. unfold Rpower. rewrite ln_exp. f_equal. rewrite INR_IZR_INZ. cbn [Z.of_nat]. change (IZR (Z.pos (Pos.of_succ_nat 127))) with 128. lra. }
  rewrite E. set (a := exp 0.075). assert (A : 1.075 <= a) by (unfold a; pose proof (exp_ineq1_le 0.075); lra). clearbody a. clear E.
  assert (S : forall b c, 0 <= b -> b <= c -> b * b <= c * c) by (intros; apply Rmult_le_compat; assumption).
  replace (a ^ 128) with (((((((a * a) * (a * a)) * ((a * a) * (a * a))) * (((a * a) * (a * a)) * ((a * a) * (a * a)))) * ((((a * a) * (a * a)) * ((a * a) * (a * a))) * (((a * a) * (a * a)) * ((a * a) * (a * a)))))) ^ 4) by ring.
  set (a2 := a * a). assert (A2 : 1.1556 <= a2) by (unfold a2; pose proof (S 1.075 a ltac:(lra) A); lra). clearbody a2.
  set (a4 := a2 * a2). assert (A4 : 1.3354 <= a4) by (unfold a4; pose proof (S 1.1556 a2 ltac:(lra) A2); lra). clearbody a4.
  set (a8 := a4 * a4). assert (A8 : 1.7832 <= a8) by (unfold a8; pose proof (S 1.3354 a4 ltac:(lra) A4); lra). clearbody a8.
  set (a16 := a8 * a8). assert (A16 : 3.1798 <= a16) by (unfold a16; pose proof (S 1.7832 a8 ltac:(lra) A8); lra). clearbody a16.
  set (a32 := a16 * a16). assert (A32 : 10.111 <= a32) by (unfold a32; pose proof (S 3.1798 a16 ltac:(lra) A16); lra). clearbody a32.
  replace (a32 ^ 4) with ((a32 * a32) * (a32 * a32)) by ring.
  set (a64 := a32 * a32). assert (A64 : 102.23 <= a64) by (unfold a64; pose proof (S 10.111 a32 ltac:(lra) A32); lra). clearbody a64.
  pose proof (S 102.23 a64 ltac:(lra) A64). lra.
Qed.
Lemma decay_pow a n : 0 <= a <= 1 -> (1 - a) ^ n <= exp (- (INR n * a)).
Proof.
  intros H. induction n as [|n IH]; [cbn; replace (- (0 * a)) with 0 by ring; rewrite exp_0; lra|].
  rewrite S_INR. replace (- ((INR n + 1) * a)) with (- a + - (INR n * a)) by ring. rewrite exp_plus. cbn [pow].
  apply Rmult_le_compat; [lra|apply pow_le; lra| |exact IH]. pose proof (exp_ineq1_le (- a)). lra.
Qed.
Lemma decay_end sr n : jx_hz sr -> (3 * sr <= Z.of_nat n)%Z -> (1 - 32 / 10 / IZR sr) ^ n < B2R c0001.
Proof.
  intros H N. destruct (jx_hz_R sr H) as (_ & _ & B). pose proof c0001_R as C. pose proof exp96 as E.
  assert (Iq : / 262144 <= / IZR sr <= / 1000) by (split; apply Rinv_le_contravar; lra).
  eapply Rle_lt_trans; [apply decay_pow; unfold Rdiv; lra|].
  assert (G : 9.6 <= INR n * (32 / 10 / IZR sr)).
  { apply Rle_trans with (3 * IZR sr * (32 / 10 / IZR sr)); [|apply Rmult_le_compat_r; [unfold Rdiv; lra|rewrite INR_IZR_INZ, <- mult_IZR; now apply IZR_le]].
    replace (3 * IZR sr * (32 / 10 / IZR sr)) with (9.6 * (IZR sr * / IZR sr)) by (unfold Rdiv; lra). rewrite Rinv_r by lra. lra. }
  apply Rle_lt_trans with (exp (- (48 / 5))). { destruct G as [G|G]; [left; apply exp_increasing; lra|right; f_equal; lra]. }
  rewrite exp_Ropp. apply Rle_lt_trans with (/ 10010); [apply Rinv_le_contravar; lra|lra].
Qed.
(** Released [m] ticks ago. *)
Definition fading (L : libm) (sr : Z) (m : nat) (e : ar) : Prop :=
  ar_rc e = rel_c L sr /\ (ar_state e = ArIdle \/ (ar_state e = ArRelease /\ (m = 0%nat \/ B2R c0001 < B2R (ar_value e)) /\ B2R (ar_value e) <= (1 - 32 / 10 / IZR sr) ^ m)).
Lemma fading_tick L sr m e : exp_acc L -> jx_hz sr -> ar_inv e -> fading L sr m e -> fading L sr (S m) (fst (ar_tick e)).
Proof.
  intros HL H I [C D]. unfold ar_tick. destruct D as [S|(S & _ & V)]; rewrite S; cbn [fst]; [split; [exact C|now left]|].
  pose proof I as (Hv & _ & Hr & _). destruct (rel_unit _ _ Hr Hv) as [[F Bu] _]. pose proof (rel_c_R L sr HL H) as R. rewrite <- C in R. destruct (jx_hz_R sr H) as (_ & _ & B).
  destruct (fle (fmul (ar_rc e) (ar_value e)) c0001) eqn:T; [split; [exact C|now left]|]. split; [exact C|]. right. split; [reflexivity|]. cbn [ar_with ar_value].
  apply fle_R_false in T; [|exact F|exact c0001_fin]. split; [now right|].
  destruct Hv as [Fv Bv]. destruct Hr as [Fr Br].
  pose proof c0001_R as C0.
  assert (X : B2R (fmul (ar_rc e) (ar_value e)) <= (1 - 32 / 10 / IZR sr) * B2R (ar_value e)).
  { destruct (fmul_b 0 1 (ar_rc e) (ar_value e) dy0 dy1 Fr Fv ltac:(split; [apply Rmult_le_pos; lra|nra])) as (_ & E & _).
    rewrite E. pose proof (rnd_rel (prec:=24) (emax:=128) (B2R (ar_rc e) * B2R (ar_value e))) as K. apply Rabs_le_inv in K. destruct K as [_ K].
    rewrite Rabs_pos_eq in K by (apply Rmult_le_pos; lra). change (- (24))%Z with (-24)%Z in K. change (SpecFloat.emin 24 128 - 1)%Z with (-150)%Z in K.
    set (v := B2R (ar_value e)) in *. set (c := B2R (ar_rc e)) in *. clearbody v c.
    assert (V0 : 0.00009 <= v). { destruct (Rle_lt_dec 0.00009 v) as [|Lv]; [assumption|]. exfalso. rewrite E in T. assert (c * v <= 0.00009) by nra. 
      assert (bpow radix2 (-150) <= bpow radix2 (-30)) by (apply bpow_le; lia). change (bpow radix2 (-30)) with (/ 1073741824) in *. change (bpow radix2 (-24)) with (/ 16777216) in *. lra. }
    assert (T1 : bpow radix2 (-150) <= bpow radix2 (-60)) by (apply bpow_le; lia). assert (T2 : bpow radix2 (-60) <= 0.00000000001 * v) by (apply Rle_trans with (0.00000000001 * 0.00009); [change (bpow radix2 (-60)) with (/ 1152921504606846976); lra|apply Rmult_le_compat_l; lra]).
    change (bpow radix2 (-24)) with (/ 16777216) in K. assert (c * v <= 1 * v) by (apply Rmult_le_compat_r; lra).
    assert (c * v <= (1 - 327 / 100 / IZR sr) * v) by (apply Rmult_le_compat_r; lra).
    assert (Iq : / 262144 <= / IZR sr) by (apply Rinv_le_contravar; lra). assert (/ 262144 * v <= / IZR sr * v) by (apply Rmult_le_compat_r; lra). unfold Rdiv in *. set (w := / IZR sr * v) in *.
    replace ((1 - 327 * / 100 * / IZR sr) * v) with (v - 3.27 * w) in * by (unfold w; lra). replace ((1 - 32 * / 10 * / IZR sr) * v) with (v - 3.2 * w) by (unfold w; lra). clearbody w. lra. }
  eapply Rle_trans; [exact X|]. cbn [pow]. apply Rmult_le_compat_l; [|exact V]. assert (/ IZR sr <= / 1000) by (apply Rinv_le_contravar; lra). unfold Rdiv. lra.
Qed.
Lemma fading_end L sr m e : jx_hz sr -> fading L sr m e -> (3 * sr <= Z.of_nat m)%Z -> ar_state e = ArIdle.
Proof.
  intros H [_ [S|(_ & V & W)]] N; [exact S|]. pose proof (decay_end sr m H N). destruct V as [V|V]; [subst m; unfold jx_hz in H; lia|]. lra.
Qed.

(** ** The program *)
Definition tuned (f : f32) : Prop := fin f /\ 20 <= B2R f <= 20000.
Definition jx_inv (L : libm) (sr : Z) (s : keys) : Prop :=
  jx_hz sr /\ ev_inv (fofZ sr) (1 / 2) (jx_v s) /\ tuned (jx_f s) /\ ar_rc (ev_env (jx_v s)) = rel_c L sr /\ (jx_last s = false -> ar_state (ev_env (jx_v s)) <> ArAttack).
Lemma tuned_ok sr f : tuned f -> ev_ok sr (EvFreq f).
Proof. intros [F B]. split; [exact F|]. rewrite Rabs_pos_eq by lra. apply Rle_trans with (bpow radix2 15); [change (bpow radix2 15) with 32768; lra|apply bpow_le; lia]. Qed.
Lemma tuned440 : tuned (fofZ 440). Proof. split; [ffin|]. fval (fofZ 440 : f32). lra. Qed.
Lemma accept_tuned f : flt (fofZ 20) f = true -> flt f (fofZ 20000) = true -> tuned f.
Proof.
  intros A B. assert (F : fin f). { destruct f as [|[]| |]; try reflexivity; vm_compute in A, B; discriminate. }
  apply flt_R in A; [|ffin|exact F]. apply flt_R in B; [|exact F|ffin]. fval (fofZ 20 : f32). fval (fofZ 20000 : f32). split; [exact F|]. lra.
Qed.
Lemma rate_inv L sr s : exp_unit L -> jx_hz sr -> tuned (jx_f s) -> jx_inv L sr (fst (jx_op L s (JRate sr))).
Proof.
  intros HE H T. cbn [jx_op fst]. split; [exact H|]. cbn [jx_v jx_f jx_last]. split; [exact (ev_init_inv L (fofZ sr) HE (jx_vr sr H))|]. split; [exact T|]. split; [reflexivity|]. intros _. discriminate.
Qed.
Lemma start_inv L sr : exp_unit L -> sin_unit L -> cos_unit L -> jx_hz sr -> jx_inv L sr (jx_start L sr).
Proof.
  intros HE HS HC H. pose proof (jx_vr sr H) as R. destruct (jx_hz_R sr H) as (F & E & B). split; [exact H|]. split; [|split; [exact tuned440|split; [reflexivity|intros _; discriminate]]].
  pose proof (ev_after_inv L (fofZ sr) [EvFreq (fofZ 440); EvAttack (fdec 1 100); EvRelTime (fdec 3 10); EvDepth (fdec 1 10); EvRate (fofZ 5); EvAmp half] HE HS HC R) as I.
  assert (A : amp_of [EvFreq (fofZ 440); EvAttack (fdec 1 100); EvRelTime (fdec 3 10); EvDepth (fdec 1 10); EvRate (fofZ 5); EvAmp half] = 1 / 2).
  { unfold amp_of, amp_set, fold_left. change (flt half zero) with false. change (flt one half) with false. cbv iota. rewrite half_R. lra. }
  rewrite A in I. apply I. constructor; [apply (tuned_ok (fofZ sr) _ tuned440)|]. constructor; [exact Logic.I|]. constructor; [exact Logic.I|]. constructor; [reflexivity|]. constructor; [|constructor; [reflexivity|constructor]].
  cbn [ev_ok]. apply flt_R_false; [exact F|ffin|]. fval (fofZ 5 : f32). lra.
Qed.
Lemma tick_env L v : ev_env (fst (ev_tick L v)) = fst (ar_tick (ev_env v)).
Proof. unfold ev_tick. destruct (ev_vibrato v) as [a b]. destruct (so_tick L b). destruct (ar_tick (ev_env v)). destruct (ln_tick (ev_pan v)). reflexivity. Qed.
Lemma ar_tick_rc e : ar_rc (fst (ar_tick e)) = ar_rc e.
Proof. unfold ar_tick. destruct (ar_state e); cbn [fst]; [reflexivity| |]; destruct (fle _ _); reflexivity. Qed.
Lemma ar_tick_noattack e : ar_state e <> ArAttack -> ar_state (fst (ar_tick e)) <> ArAttack.
Proof. unfold ar_tick. destruct (ar_state e); cbn [fst]; [discriminate|congruence|]. intros _. destruct (fle _ _); discriminate. Qed.
Lemma ar_tick_attack e : ar_state e = ArAttack -> ar_gate e = true -> ar_state (fst (ar_tick e)) = ArAttack /\ ar_gate (fst (ar_tick e)) = true.
Proof. intros S G. unfold ar_tick. rewrite S. cbn [fst]. rewrite G. destruct (fle _ _); split; reflexivity. Qed.
Lemma jx_ticks_S L v n : jx_ticks L v (S n) = let r := jx_ticks L (fst (ev_tick L v)) n in (fst r, snd (ev_tick L v) :: snd r).
Proof. cbn [jx_ticks]. destruct (ev_tick L v) as [v1 y]. cbn [fst snd]. destruct (jx_ticks L v1 n). reflexivity. Qed.
Definition small (y : f32 * f32) : Prop := (fin (fst y) /\ Rabs (B2R (fst y)) <= 1 / 2) /\ (fin (snd y) /\ Rabs (B2R (snd y)) <= 1 / 2).
Lemma ticks_inv L sr n : exp_unit L -> sin_unit L -> cos_unit L -> jx_hz sr -> forall v, ev_inv (fofZ sr) (1 / 2) v ->
  ev_inv (fofZ sr) (1 / 2) (fst (jx_ticks L v n)) /\ Forall small (snd (jx_ticks L v n)) /\ length (snd (jx_ticks L v n)) = n /\ ar_rc (ev_env (fst (jx_ticks L v n))) = ar_rc (ev_env v) /\
  (ar_state (ev_env v) <> ArAttack -> ar_state (ev_env (fst (jx_ticks L v n))) <> ArAttack).
Proof.
  intros HE HS HC H. induction n as [|n IH]; intros v I; [split; [exact I|split; [constructor|split; [reflexivity|split; [reflexivity|auto]]]]|]. rewrite jx_ticks_S. cbv zeta. cbn [fst snd length].
  destruct (ev_tick_inv L (fofZ sr) (1 / 2) v HE HS HC (jx_vr sr H) I) as [I' O]. destruct (IH _ I') as (A & B & C & D & E). rewrite tick_env in D, E. rewrite ar_tick_rc in D.
  split; [exact A|]. split; [constructor; [exact O|exact B]|]. split; [now rewrite C|]. split; [exact D|]. intros N. apply E. now apply ar_tick_noattack.
Qed.
(** The voice at the start of a block. *)
Definition jx_gate (s : keys) : voice :=
  let v := ev_setFrequency (jx_v s) (jx_f s) in
  if negb (Bool.eqb (jx_on s) (jx_last s)) then (if jx_on s then ev_trigger v else ev_release v) else v.
Lemma block_eq L s n : jx_block L s n = (Keys (fst (jx_ticks L (jx_gate s) n)) (jx_on s) (jx_on s) (jx_f s), snd (jx_ticks L (jx_gate s) n)).
Proof. unfold jx_block. fold (jx_gate s). cbv zeta. change (if negb (Bool.eqb (jx_on s) (jx_last s)) then _ else _) with (jx_gate s). destruct (jx_ticks L (jx_gate s) n). reflexivity. Qed.
Lemma gate_inv L sr s : exp_unit L -> sin_unit L -> cos_unit L -> jx_inv L sr s ->
  ev_inv (fofZ sr) (1 / 2) (jx_gate s) /\ ar_rc (ev_env (jx_gate s)) = rel_c L sr /\ (jx_on s = false -> ar_state (ev_env (jx_gate s)) <> ArAttack).
Proof.
  intros HE HS HC (H & I & T & C & N). pose proof (jx_vr sr H) as R.
  pose proof (ev_call_inv L (fofZ sr) (1 / 2) (jx_v s) (EvFreq (jx_f s)) HE HS HC R (tuned_ok (fofZ sr) _ T) I) as I1. cbn [ev_call fst amp_set] in I1.
  pose proof (ev_call_inv L (fofZ sr) (1 / 2) _ EvTrigger HE HS HC R Logic.I I1) as I2. pose proof (ev_call_inv L (fofZ sr) (1 / 2) _ EvRelease HE HS HC R Logic.I I1) as I3. cbn [ev_call fst amp_set] in I2, I3.
  unfold jx_gate. destruct (jx_on s) eqn:On, (jx_last s) eqn:La; cbn [Bool.eqb negb].
  - split; [exact I1|]. split; [exact C|discriminate].
  - split; [exact I2|]. split; [exact C|discriminate].
  - split; [exact I3|]. split; [exact C|]. intros _. cbn. destruct (ar_state _); discriminate.
  - split; [exact I1|]. split; [exact C|]. intros _. exact (N eq_refl).
Qed.
Lemma op_inv L sr s o : exp_unit L -> sin_unit L -> cos_unit L -> jx_inv L sr s -> jx_ok o ->
  jx_inv L (match o with JRate q => q | _ => sr end) (fst (jx_op L s o)) /\ Forall small (snd (jx_op L s o)) /\ length (snd (jx_op L s o)) = match o with JBlock n => n | _ => 0%nat end.
Proof.
  intros HE HS HC I K. pose proof I as (H & V & T & C & N). destruct o as [q| |f|n].
  - split; [now apply rate_inv|]. split; [constructor|reflexivity].
  - split; [exact I|]. split; [constructor|reflexivity].
  - cbn [jx_op fst snd]. split; [|split; [constructor|reflexivity]]. split; [exact H|]. split; [exact V|]. split; [|split; [exact C|exact N]]. cbn [jx_f].
    destruct (flt (fofZ 20) f) eqn:A, (flt f (fofZ 20000)) eqn:B; cbn [andb]; try exact T. now apply accept_tuned.
  - cbn [jx_op]. rewrite block_eq. cbn [fst snd]. destruct (gate_inv L sr s HE HS HC I) as (G & Gc & Gn). destruct (ticks_inv L sr n HE HS HC H _ G) as (A & B & D & E & Q).
    split; [|split; [exact B|exact D]]. split; [exact H|]. cbn [jx_v jx_f jx_last]. split; [exact A|]. split; [exact T|]. split; [now rewrite E|]. intros O. apply Q. now apply Gn.
Qed.
Lemma jx_run_cons L s o os : jx_run L s (o :: os) = let r := jx_run L (fst (jx_op L s o)) os in (fst r, snd (jx_op L s o) ++ snd r).
Proof. cbn [jx_run]. destruct (jx_op L s o) as [s1 ys]. cbn [fst snd]. destruct (jx_run L s1 os). reflexivity. Qed.
Lemma jx_run_app L a b : forall s, jx_run L s (a ++ b) = let r := jx_run L s a in let q := jx_run L (fst r) b in (fst q, snd r ++ snd q).
Proof.
  induction a as [|o a IH]; intros s; [cbn; now destruct (jx_run L s b)|]. cbn [app]. rewrite !jx_run_cons. cbv zeta. rewrite IH. cbv zeta. cbn [fst snd]. now rewrite app_assoc.
Qed.
Lemma run_inv_from L os : exp_unit L -> sin_unit L -> cos_unit L -> Forall jx_ok os -> forall sr s, jx_inv L sr s ->
  jx_inv L (rate_of sr os) (fst (jx_run L s os)) /\ Forall small (snd (jx_run L s os)) /\ length (snd (jx_run L s os)) = frames os.
Proof.
  intros HE HS HC K. induction K as [|o os Ko K IH]; intros sr s I; [split; [exact I|split; [constructor|reflexivity]]|]. rewrite jx_run_cons. cbv zeta. cbn [fst snd].
  destruct (op_inv L sr s o HE HS HC I Ko) as (A & B & C). destruct (IH _ _ A) as (D & E & F). unfold rate_of. cbn [fold_left frames fold_right]. fold (rate_of (match o with JRate q => q | _ => sr end) os).
  split; [exact D|]. split; [apply Forall_app; split; assumption|]. rewrite app_length, C, F. destruct o; reflexivity.
Qed.
Lemma after_inv L sr os : exp_unit L -> sin_unit L -> cos_unit L -> jx_hz sr -> Forall jx_ok os -> jx_inv L (rate_of sr os) (jx_after L sr os).
Proof. intros HE HS HC H K. exact (proj1 (run_inv_from L os HE HS HC K sr _ (start_inv L sr HE HS HC H))). Qed.
Lemma jx_safe L sr os : exp_unit L -> sin_unit L -> cos_unit L -> jx_hz sr -> Forall jx_ok os ->
  length (jx_plays L sr [] os) = frames os /\ Forall small (jx_plays L sr [] os).
Proof. intros HE HS HC H K. destruct (run_inv_from L os HE HS HC K sr _ (start_inv L sr HE HS HC H)) as (_ & A & B). split; [exact B|exact A]. Qed.
(** What was typed. *)
Lemma on_run L os : forall s, jx_on (fst (jx_run L s os)) = fold_left (fun b o => match o with JEnter => negb b | _ => b end) os (jx_on s).
Proof. induction os as [|o os IH]; intros s; [reflexivity|]. rewrite jx_run_cons. cbv zeta. cbn [fst fold_left]. rewrite IH. f_equal. destruct o; cbn [jx_op fst]; try reflexivity. now rewrite block_eq. Qed.
Lemma f_run L os : forall s, jx_f (fst (jx_run L s os)) = fold_left (fun g o => match o with JNumber f => if (flt (fofZ 20) f && flt f (fofZ 20000))%bool then f else g | _ => g end) os (jx_f s).
Proof. induction os as [|o os IH]; intros s; [reflexivity|]. rewrite jx_run_cons. cbv zeta. cbn [fst fold_left]. rewrite IH. f_equal. destruct o; cbn [jx_op fst]; try reflexivity. now rewrite block_eq. Qed.
Lemma after_on L sr os : jx_on (jx_after L sr os) = held os. Proof. apply on_run. Qed.
Lemma after_f L sr os : jx_f (jx_after L sr os) = asked os. Proof. apply f_run. Qed.
Lemma after_snoc L sr os o : jx_after L sr (os ++ [o]) = fst (jx_op L (jx_after L sr os) o).
Proof. unfold jx_after. rewrite jx_run_app. cbv zeta. cbn [fst]. rewrite jx_run_cons. reflexivity. Qed.
Lemma after_app L sr a b : jx_after L sr (a ++ b) = fst (jx_run L (jx_after L sr a) b).
Proof. unfold jx_after. now rewrite jx_run_app. Qed.

(** ** A held note sounds *)
Definition sounds (s : keys) : Prop := jx_last s = true -> ar_state (ev_env (jx_v s)) = ArAttack /\ ar_gate (ev_env (jx_v s)) = true.
Lemma ticks_attack L n : forall v, ar_state (ev_env v) = ArAttack -> ar_gate (ev_env v) = true -> ar_state (ev_env (fst (jx_ticks L v n))) = ArAttack /\ ar_gate (ev_env (fst (jx_ticks L v n))) = true.
Proof.
  induction n as [|n IH]; intros v S G; [now split|]. rewrite jx_ticks_S. cbv zeta. cbn [fst]. destruct (ar_tick_attack _ S G). apply IH; now rewrite tick_env.
Qed.
Lemma sounds_op L s o : no_rate o -> sounds s -> sounds (fst (jx_op L s o)).
Proof.
  intros K S. destruct o as [q| |f|n]; [contradiction|exact S|exact S|]. cbn [jx_op]. rewrite block_eq. cbn [fst]. intros O. cbn [jx_last jx_v] in *.
  assert (G : ar_state (ev_env (jx_gate s)) = ArAttack /\ ar_gate (ev_env (jx_gate s)) = true).
  { unfold jx_gate. rewrite O. destruct (jx_last s) eqn:La; cbn [Bool.eqb negb]; [apply (S La)|now split]. }
  destruct G as [A B]. now apply ticks_attack.
Qed.
Lemma sounds_run L os : Forall no_rate os -> forall s, sounds s -> sounds (fst (jx_run L s os)).
Proof. intros K. induction K as [|o os Ko K IH]; intros s S; [exact S|]. rewrite jx_run_cons. cbv zeta. cbn [fst]. apply IH. now apply sounds_op. Qed.
Lemma jx_sounds L sr os n : Forall no_rate os -> held os = true -> ev_isActive (jx_v (jx_after L sr (os ++ [JBlock n]))) = true.
Proof.
  intros K O. assert (S : sounds (jx_after L sr (os ++ [JBlock n]))).
  { apply sounds_run; [apply Forall_app; split; [exact K|repeat constructor]|]. intros E. discriminate. }
  unfold ev_isActive, ar_isActive. destruct S as [A _]; [|now rewrite A]. rewrite after_snoc. cbn [jx_op]. rewrite block_eq. cbn [fst jx_last]. now rewrite after_on.
Qed.

(** ** Silence *)
Definition at_rest (s : keys) : Prop := ev_isActive (jx_v s) = false /\ jx_on s = jx_last s.
Lemma ticks_rest L sr n : exp_unit L -> sin_unit L -> cos_unit L -> jx_hz sr -> forall v, ev_inv (fofZ sr) (1 / 2) v -> ev_isActive v = false ->
  Forall silent (snd (jx_ticks L v n)) /\ ev_isActive (fst (jx_ticks L v n)) = false.
Proof.
  intros HE HS HC H. induction n as [|n IH]; intros v I Q; [split; [constructor|exact Q]|]. rewrite jx_ticks_S. cbv zeta. cbn [fst snd].
  destruct (ev_tick_silent L (fofZ sr) (1 / 2) v HE HS HC (jx_vr sr H) I Q) as [Y Q']. pose proof (proj1 (ev_tick_inv L (fofZ sr) (1 / 2) v HE HS HC (jx_vr sr H) I)) as I'.
  destruct (IH _ I' Q') as [A B]. split; [constructor; assumption|exact B].
Qed.
Lemma rest_op L sr s o : exp_unit L -> sin_unit L -> cos_unit L -> jx_inv L sr s -> jx_ok o -> no_enter o -> at_rest s -> at_rest (fst (jx_op L s o)) /\ Forall silent (snd (jx_op L s o)).
Proof.
  intros HE HS HC I K N [Q E]. destruct o as [q| |f|n]; [|contradiction| |].
  - split; [split; [reflexivity|exact E]|constructor].
  - split; [split; [exact Q|exact E]|constructor].
  - pose proof (gate_inv L sr s HE HS HC I) as (G & _). assert (Gq : ev_isActive (jx_gate s) = false) by (unfold jx_gate; rewrite E, Bool.eqb_reflx; exact Q).
    destruct (ticks_rest L sr n HE HS HC (proj1 I) _ G Gq) as [A B]. cbn [jx_op]. rewrite block_eq. cbn [fst snd]. split; [split; [exact B|reflexivity]|exact A].
Qed.
Lemma rest_run L os : exp_unit L -> sin_unit L -> cos_unit L -> Forall jx_ok os -> Forall no_enter os -> forall sr s, jx_inv L sr s -> at_rest s -> Forall silent (snd (jx_run L s os)).
Proof.
  intros HE HS HC K. induction K as [|o os Ko K IH]; intros N sr s I Q; [constructor|]. inversion N as [|? ? No N']; subst. rewrite jx_run_cons. cbv zeta. cbn [snd].
  destruct (rest_op L sr s o HE HS HC I Ko No Q) as [A B]. apply Forall_app. split; [exact B|]. exact (IH N' _ _ (proj1 (op_inv L sr s o HE HS HC I Ko)) A).
Qed.
Lemma jx_quiet_start L sr os : exp_unit L -> sin_unit L -> cos_unit L -> jx_hz sr -> Forall jx_ok os -> Forall no_enter os -> Forall silent (jx_plays L sr [] os).
Proof. intros HE HS HC H K N. apply (rest_run L os HE HS HC K N sr); [now apply start_inv|]. split; reflexivity. Qed.
Lemma jx_rate_mutes L sr os n sr' more : exp_unit L -> sin_unit L -> cos_unit L -> jx_hz sr -> Forall jx_ok os -> jx_hz sr' -> Forall jx_ok more -> Forall no_enter more ->
  Forall silent (jx_plays L sr (os ++ [JBlock n; JRate sr']) more).
Proof.
  intros HE HS HC H K H' K' N. assert (Ko : Forall jx_ok (os ++ [JBlock n; JRate sr'])) by (apply Forall_app; split; [exact K|repeat constructor; apply H']).
  apply (rest_run L more HE HS HC K' N _ _ (after_inv L sr _ HE HS HC H Ko)). change [JBlock n; JRate sr'] with ([JBlock n] ++ [JRate sr']). rewrite app_assoc, after_snoc, after_snoc. cbn [jx_op]. rewrite block_eq. split; reflexivity.
Qed.

(** ** A released note fades *)
Lemma ticks_fading L sr n : exp_unit L -> exp_acc L -> sin_unit L -> cos_unit L -> jx_hz sr -> forall m v, ev_inv (fofZ sr) (1 / 2) v -> fading L sr m (ev_env v) ->
  fading L sr (m + n) (ev_env (fst (jx_ticks L v n))) /\ Forall silent (skipn (Z.to_nat (3 * sr) - m) (snd (jx_ticks L v n))).
Proof.
  intros HE HA HS HC H. induction n as [|n IH]; intros m v I D; [rewrite Nat.add_0_r; split; [exact D|destruct (_ - m)%nat; constructor]|]. rewrite jx_ticks_S. cbv zeta. cbn [fst snd].
  pose proof (proj1 (ev_tick_inv L (fofZ sr) (1 / 2) v HE HS HC (jx_vr sr H) I)) as I'.
  assert (D' : fading L sr (S m) (ev_env (fst (ev_tick L v)))) by (rewrite tick_env; apply fading_tick; auto; apply I).
  destruct (IH (S m) _ I' D') as [A B]. split; [now rewrite Nat.add_succ_r|].
  destruct (Z.to_nat (3 * sr) - m)%nat as [|k] eqn:E.
  - cbn [skipn]. replace (Z.to_nat (3 * sr) - S m)%nat with 0%nat in B by lia. constructor; [|exact B].
    apply (ev_tick_silent L (fofZ sr) (1 / 2) v HE HS HC (jx_vr sr H) I). unfold ev_isActive, ar_isActive. rewrite (fading_end L sr m _ H D); [reflexivity|]. unfold jx_hz in H. lia.
  - cbn [skipn]. replace (Z.to_nat (3 * sr) - S m)%nat with k in B by lia. exact B.
Qed.
Definition released (L : libm) (sr : Z) (m : nat) (s : keys) : Prop := jx_inv L sr s /\ jx_on s = false /\ jx_last s = false /\ fading L sr m (ev_env (jx_v s)).
Lemma fading_run L sr os : exp_unit L -> exp_acc L -> sin_unit L -> cos_unit L -> Forall no_enter os -> Forall no_rate os -> forall m s, released L sr m s ->
  Forall silent (skipn (Z.to_nat (3 * sr) - m) (snd (jx_run L s os))).
Proof.
  intros HE HA HS HC N. induction N as [|o os No N IH]; intros K m s (I & On & La & D); [cbn; destruct (_ - m)%nat; constructor|]. inversion K as [|? ? Ko K']; subst. rewrite jx_run_cons. cbv zeta. cbn [snd].
  assert (Ok : jx_ok o) by (destruct o; try exact Logic.I; contradiction). destruct (op_inv L sr s o HE HS HC I Ok) as (I' & _ & Ln). destruct o as [q| |f|n]; [contradiction|contradiction| |].
  - cbn [jx_op fst snd app] in *. apply IH; [exact K'|]. split; [exact I'|]. split; [exact On|split; [exact La|exact D]].
  - cbn [jx_op] in *. rewrite block_eq in *. cbn [fst snd] in *.
    assert (G : jx_gate s = ev_setFrequency (jx_v s) (jx_f s)) by (unfold jx_gate; now rewrite On, La). pose proof (proj1 (gate_inv L sr s HE HS HC I)) as Ig.
    destruct (ticks_fading L sr n HE HA HS HC (proj1 I) m (jx_gate s) Ig ltac:(rewrite G; exact D)) as [A B].
    rewrite skipn_app. apply Forall_app. split; [exact B|]. rewrite Ln. replace (Z.to_nat (3 * sr) - m - n)%nat with (Z.to_nat (3 * sr) - (m + n))%nat by lia.
    apply IH; [exact K'|]. split; [exact I'|]. split; [exact On|split; [exact On|exact A]].
Qed.
Lemma jx_fades L sr os n more : exp_unit L -> exp_acc L -> sin_unit L -> cos_unit L -> jx_hz sr -> Forall jx_ok os -> held os = false -> Forall no_enter more -> Forall no_rate more ->
  Forall silent (skipn (Z.to_nat (3 * rate_of sr os)) (jx_plays L sr (os ++ [JBlock n]) more)).
Proof.
  intros HE HA HS HC H K O N R. unfold jx_plays. rewrite <- (Nat.sub_0_r (Z.to_nat _)). apply fading_run; auto.
  assert (Kb : Forall jx_ok (os ++ [JBlock n])) by (apply Forall_app; split; [exact K|repeat constructor]). pose proof (after_inv L sr _ HE HS HC H Kb) as I.
  assert (Er : rate_of sr (os ++ [JBlock n]) = rate_of sr os) by (unfold rate_of; now rewrite fold_left_app). rewrite Er in I.
  split; [exact I|]. rewrite after_snoc in *. cbn [jx_op] in *. rewrite block_eq in *. cbn [fst] in *. cbn [jx_on jx_last jx_v]. rewrite after_on. split; [exact O|]. split; [exact O|].
  destruct I as (_ & V & _ & C & Na). cbn [jx_v jx_last] in *. rewrite after_on in Na. specialize (Na O). split; [exact C|]. destruct (ar_state _) eqn:S; [now left|congruence|right]. split; [reflexivity|]. split; [now left|]. cbn [pow]. apply V.
Qed.

(** ** Pitch *)
Lemma ticks_snoc L n : forall v, fst (jx_ticks L v (S n)) = fst (ev_tick L (fst (jx_ticks L v n))).
Proof. induction n as [|n IH]; intros v; [rewrite jx_ticks_S; reflexivity|]. rewrite jx_ticks_S. cbv zeta. cbn [fst]. rewrite IH, jx_ticks_S. reflexivity. Qed.
Lemma ticks_set L n : forall v, ev_depth (fst (jx_ticks L v n)) = ev_depth v /\ ev_base (fst (jx_ticks L v n)) = ev_base v.
Proof. induction n as [|n IH]; intros v; [auto|]. rewrite jx_ticks_S. cbv zeta. cbn [fst]. destruct (IH (fst (ev_tick L v))) as [A B]. destruct (tick_depth L v) as [C D]. rewrite A, B. auto. Qed.
Lemma gate_set s : ev_depth (jx_gate s) = ev_depth (jx_v s) /\ ev_base (jx_gate s) = jx_f s /\ ev_vib (jx_gate s) = ev_vib (jx_v s).
Proof. unfold jx_gate. destruct (negb _); [destruct (jx_on s)|]; repeat split. Qed.
Lemma depth_run L d os : Forall no_rate os -> forall s, ev_depth (jx_v s) = d -> ev_depth (jx_v (fst (jx_run L s os))) = d.
Proof.
  intros K. induction K as [|o os Ko K IH]; intros s D; [exact D|]. rewrite jx_run_cons. cbv zeta. cbn [fst]. apply IH. destruct o as [q| |f|n]; [contradiction|exact D|exact D|].
  cbn [jx_op]. rewrite block_eq. cbn [fst jx_v]. rewrite (proj1 (ticks_set L n _)), (proj1 (gate_set s)). exact D.
Qed.
Lemma bend (f m d : f32) k : fin m -> -1 <= B2R m <= 1 -> fin d -> 0 < B2R d <= 1 -> tuned f -> Rabs (B2R m * B2R d) <= k -> k <= 1 ->
  let p := fmul f (fadd one (fmul (fmul m d) LN2_12)) in
  fin p /\ Rabs (B2R p - B2R f * (1 + B2R m * B2R d * (ln 2 / 12))) <= 0.0000003 * B2R f.
Proof.
  intros Fm Bm Fd Bd [Ff Bf] Hk K1 p. pose proof (ratio_close m d Fm Bm Fd Bd) as [Fr Er]. pose proof ln_2 as L2. unfold p. clear p. set (r := fadd one _) in *. clearbody r.
  set (t := B2R m * B2R d * (ln 2 / 12)) in *. assert (Tt : Rabs t <= 0.0578) by (unfold t; rewrite Rabs_mult, (Rabs_pos_eq (ln 2 / 12)) by lra; pose proof (Rabs_pos (B2R m * B2R d)); nra).
  apply Rabs_le_inv in Er, Tt.
  assert (R : rl 0.0000001 (fmul f r) (B2R f * B2R r)).
  { apply rl_mul with 0 0; try lra; try (apply rl_self; assumption); [|unfold ru; lra]. unfold mid. rewrite Rabs_pos_eq by (apply Rmult_le_pos; lra). split.
    - apply Rle_trans with 1; [change 1 with (bpow radix2 0); apply bpow_le; lia|nra].
    - apply Rle_trans with (bpow radix2 20); [change (bpow radix2 20) with 1048576; nra|apply bpow_le; lia]. }
  destruct R as [Fp Ep]. split; [exact Fp|]. rewrite (Rabs_pos_eq (B2R f * B2R r)) in Ep by (apply Rmult_le_pos; lra).
  replace (B2R (fmul f r) - B2R f * (1 + t)) with ((B2R (fmul f r) - B2R f * B2R r) + B2R f * (B2R r - (1 + t))) by ring.
  eapply Rle_trans; [apply Rabs_triang|]. rewrite (Rabs_mult (B2R f)), (Rabs_pos_eq (B2R f)) by lra. assert (Rabs (B2R r - (1 + t)) <= 0.0000001) by (apply Rabs_le; lra).
  assert (B2R f * Rabs (B2R r - (1 + t)) <= B2R f * 0.0000001) by (apply Rmult_le_compat_l; lra). assert (B2R f * B2R r <= B2R f * 1.06) by (apply Rmult_le_compat_l; lra). lra.
Qed.
Lemma jx_pitch L sr os n : exp_unit L -> sin_unit L -> cos_unit L -> jx_hz sr -> Forall no_rate os ->
  let p := pitch (jx_v (jx_after L sr (os ++ [JBlock (S n)]))) in fin p /\ Rabs (B2R p - B2R (asked os)) <= 0.0058 * B2R (asked os).
Proof.
  intros HE HS HC H K p. assert (Ko : Forall jx_ok os) by (eapply Forall_impl; [|exact K]; intros []; auto; contradiction).
  pose proof (after_inv L sr os HE HS HC H Ko) as I. pose proof (depth_run L (fdec 1 10) os K (jx_start L sr) eq_refl) as D. fold (jx_after L sr os) in D.
  unfold p. rewrite after_snoc. cbn [jx_op]. rewrite block_eq. cbn [fst jx_v]. rewrite ticks_snoc, tick_pitch.
  destruct (gate_inv L _ _ HE HS HC I) as (G & _). pose proof (proj1 (ticks_inv L _ n HE HS HC (proj1 I) _ G)) as ((_ & _ & V & _) & _).
  destruct (ticks_set L n (jx_gate (jx_after L sr os))) as [E1 E2]. destruct (gate_set (jx_after L sr os)) as (E3 & E4 & _). rewrite E1, E2, E3, E4, D, after_f.
  change (flt zero (fdec 1 10)) with true. cbv iota. destruct (ln_tick_inv _ _ V) as [_ [Fm Bm]]. set (m := snd (ln_tick _)) in *. clearbody m.
  assert (T : tuned (asked os)) by (rewrite <- (after_f L sr); apply I). fval (fdec 1 10 : f32). assert (Fd : fin (fdec 1 10 : f32)) by ffin.
  assert (M : Rabs (B2R m * B2R (fdec 1 10 : f32)) <= 0.100001) by (rewrite Rabs_mult, (Rabs_pos_eq (B2R (fdec 1 10 : f32))) by lra; pose proof (unit_abs _ Bm); pose proof (Rabs_pos (B2R m)); nra).
  destruct (bend (asked os) m (fdec 1 10) 0.100001 Fm Bm Fd ltac:(lra) T M ltac:(lra)) as [Fp Ep]. split; [exact Fp|]. destruct T as [_ T]. pose proof ln_2 as L2. clear V0.
  set (q := B2R (fmul _ _)) in *. set (x := B2R m * B2R (fdec 1 10 : f32)) in *. clearbody q x. set (f := B2R (asked os)) in *. clearbody f.
  assert (X : Rabs (x * (ln 2 / 12)) <= 0.00577699) by (rewrite Rabs_mult, (Rabs_pos_eq (ln 2 / 12)) by lra; pose proof (Rabs_pos x); nra). apply Rabs_le_inv in X, Ep.
  assert (f * (x * (ln 2 / 12)) <= f * 0.00577699) by (apply Rmult_le_compat_l; lra). assert (f * -0.00577699 <= f * (x * (ln 2 / 12))) by (apply Rmult_le_compat_l; lra).
  apply Rabs_le. split; lra.
Qed.
Definition first_out : f32 := snd (ln_tick (ln_fill zero zero zero zero seed0)).
Lemma first_out_R : fin first_out /\ -0.967 <= B2R first_out <= -0.9668. Proof. split; [ffin|]. fval first_out. lra. Qed.
Lemma jx_flat L sr os sr' : exp_unit L -> sin_unit L -> cos_unit L -> jx_hz sr -> Forall jx_ok os -> jx_hz sr' ->
  let p := pitch (jx_v (jx_after L sr (os ++ [JRate sr'; JBlock 1]))) in fin p /\ 0.972 * B2R (asked os) <= B2R p <= 0.9722 * B2R (asked os).
Proof.
  intros HE HS HC H K H' p. pose proof (after_inv L sr os HE HS HC H K) as I.
  unfold p. change [JRate sr'; JBlock 1] with ([JRate sr'] ++ [JBlock 1]). rewrite app_assoc, after_snoc, after_snoc. cbn [jx_op]. rewrite block_eq. cbn [fst jx_v]. rewrite ticks_snoc, tick_pitch. cbn [jx_ticks fst].
  set (s := Keys _ _ _ _). destruct (gate_set s) as (E1 & E2 & E3). rewrite E1, E2, E3. unfold s. cbn [jx_v jx_f]. change (ev_depth (ev_init L (fofZ sr'))) with half. change (flt zero half) with true. cbv iota. rewrite after_f.
  change (snd (ln_tick (ev_vib (ev_init L (fofZ sr'))))) with first_out. destruct first_out_R as [Fm Bm].
  assert (T : tuned (asked os)) by (rewrite <- (after_f L sr); apply I). clear s E1 E2 E3.
  assert (Fh : fin half) by ffin. pose proof half_R as Eh.
  destruct (bend (asked os) first_out half 1 Fm ltac:(lra) Fh ltac:(lra) T ltac:(rewrite Eh; apply Rabs_le; lra) ltac:(lra)) as [Fp Ep]. split; [exact Fp|]. destruct T as [_ T]. pose proof ln_2 as L2. rewrite Eh in Ep.
  set (q := B2R (fmul _ _)) in *. set (x := B2R first_out) in *. clearbody q x. set (f := B2R (asked os)) in *. clearbody f. apply Rabs_le_inv in Ep.
  assert (X : -0.02793 <= x * / 2 * (ln 2 / 12) <= -0.02792) by (split; nra). set (y := x * / 2 * (ln 2 / 12)) in *. clearbody y.
  assert (f * y <= f * -0.02792) by (apply Rmult_le_compat_l; lra). assert (f * -0.02793 <= f * y) by (apply Rmult_le_compat_l; lra). split; lra.
Qed.
