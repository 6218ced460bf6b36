From Verif Require Import AllocModel LoopModel LoopSpec LoopProofs.
From Coq Require Import ZArith Reals Lra Lia Bool List Psatz.
From Flocq Require Import Core BinarySingleNaN.
From Verif Require Import Flt FltFacts FltMore FltArith Libm UtilModel UtilProofs OscModel OscSpec OscProofs OscProofs4 EnvModel EnvSpec EnvProofs EnvProofs2 ExpBounds ExpBounds2 EnvTime EnvTime2
  VcModel VcSpec VcProofs VcProofs2 BxModel BxProofs.
Import ListNotations.
Local Open Scope R_scope.

(** ** Example 1 *)
Lemma ex1_wave L i : sin_acc L -> (i < 8)%nat -> exists x, nth_error (bx_ex1 L) i = Some x /\
  Rabs (B2R x - sin (2 * PI * (440 / 48000) * INR i)) <= (INR i + 1) * bpow radix2 (-19).
Proof.
  intros HA H. unfold bx_ex1. rewrite nth_firstn by exact H. rewrite fill_nth by (unfold bx_n; lia).
  eexists. split; [reflexivity|]. destruct bx_sr_R as [Fs Es]. destruct (fofZ_R (prec:=24) (emax:=128) 440 ltac:(lia)) as [F4 E4].
  assert (Q : freq_ok bx_sr (fofZ 440)) by (split; [exact F4|rewrite E4, Es; lra]).
  assert (Rk : rate_ok bx_sr).
  { split; [exact Fs|]. rewrite Es. split; [lra|]. apply Rle_trans with (bpow radix2 16); [change (bpow radix2 16) with 65536; lra|apply bpow_le; lia]. }
  pose proof (so_wave L bx_sr (fofZ 440) i HA Rk Q Q) as W. rewrite E4, Es in W. exact W.
Qed.

(** ** Example 2 *)
Lemma ar_after n : forall e, after ar_tick n e = fst (ar_ticks n e).
Proof. induction n as [|n IH]; intros e; [reflexivity|]. rewrite ar_ticks_S. cbn [after]. apply IH. Qed.
Lemma ar_ticks_last n e : fst (ar_ticks (S n) e) = fst (ar_tick (fst (ar_ticks n e))).
Proof. revert e. induction n as [|n IH]; intros e; [now rewrite ar_ticks_S|]. rewrite ar_ticks_S, IH, <- ar_ticks_S. reflexivity. Qed.
Lemma ex2_curve L i : exp_unit L -> exp_acc L -> (i < 8)%nat -> exists x, nth_error (bx_ex2 L) i = Some x /\
  Rabs (B2R x - (1 - exp (- (INR (S i) / (B2R (fdec 1 100 : f32) * 48000))))) <= 0.000121.
Proof.
  intros HU HA H. unfold bx_ex2. rewrite nth_firstn by exact H. rewrite fill_nth by (unfold bx_n; lia).
  eexists. split; [reflexivity|].
  set (e := ar_setRelease L (ar_init L bx_sr) (fdec 1 10)).
  change (ar_setRelease L (ar_setAttack L (ar_init L bx_sr) (fdec 1 100)) (fdec 1 10)) with (ar_setAttack L e (fdec 1 100)).
  destruct bx_sr_R as [Fs Es]. assert (Hs : sr_ok bx_sr) by apply (vr_sr _ bx_rate).
  assert (Re : ar_reach L e) by (exists bx_sr, [ArORelease (fdec 1 10)]; repeat split; auto; repeat constructor).
  unfold nth_sample. rewrite ar_after. change (snd (ar_tick ?a)) with (ar_value (fst (ar_tick a))). rewrite <- ar_ticks_last.
  pose proof T_short as TS. assert (Er : B2R (ar_sr e) = 48000) by exact Es.
  destruct (ar_attack_curve L e (fdec 1 100) (S i) (B2R (fdec 1 100 : f32) * 48000)) as (_ & C & _);
    [exact HU|exact HA|exact Re|ffin|exact Fs|vm_compute; reflexivity|now rewrite Er|lra|].
  cbn zeta in C. change (B2R (ar_value e)) with 0 in C. rewrite Rminus_0_r, Rmult_1_l in C.
  set (T := B2R (fdec 1 100 : f32) * 48000) in *. clearbody T.
  assert (X : INR (S i) / T <= 8 / 479.99).
  { assert (INR (S i) <= 8) by (replace 8 with (INR 8) by (cbn; lra); apply le_INR; lia). pose proof (pos_INR (S i)).
    apply Rmult_le_reg_r with T; [lra|]. unfold Rdiv. rewrite Rmult_assoc, Rinv_l by lra. lra. }
  assert (Y : 1 - INR (S i) / T <= exp (- (INR (S i) / T))).
  { pose proof (exp_ineq1_le (- (INR (S i) / T))). lra. }
  eapply Rle_trans; [apply C; lra|lra].
Qed.

(** ** Example 3 *)
Lemma ex3_values : bx_ex3 = map (fun m => flit m (-24)) [-13820230; -13819776; -13819321; -13818866; -13818408; -13817952; -13817496; -13817037]%Z.
Proof. vm_compute. reflexivity. Qed.

(** ** Example 5 *)
Definition back (st : lstate) : list f32 := if cur0 st then bufA st else bufB st.
Definition front (st : lstate) : list f32 := if cur0 st then bufB st else bufA st.
Definition set_back (st : lstate) (b : list f32) : lstate :=
  if cur0 st then LState b (bufB st) (cur0 st) (lrate st) else LState (bufA st) b (cur0 st) (lrate st).
Lemma sb_back st b : back (set_back st b) = b. Proof. unfold back, set_back. destruct (cur0 st) eqn:E; cbn; now rewrite ?E. Qed.
Lemma sb_front st b : front (set_back st b) = front st. Proof. unfold front, set_back. destruct (cur0 st) eqn:E; cbn; now rewrite ?E. Qed.
Lemma sb_proc st b : getProcessingBuffer (set_back st b) = getProcessingBuffer st.
Proof. unfold getProcessingBuffer, set_back. destruct (cur0 st) eqn:E; cbn; now rewrite ?E. Qed.
Lemma sb_sb st a b : set_back (set_back st a) b = set_back st b. Proof. unfold set_back. destruct (cur0 st) eqn:E; cbn; now rewrite ?E. Qed.
Lemma clear_sb st : clearProcessingBuffer st = set_back st (silence (length (back st))).
Proof. unfold clearProcessingBuffer, set_back, back. destruct (cur0 st); now rewrite clear_silence. Qed.
Lemma store_sb st i x : (i < length (back st))%nat -> store st (getProcessingBuffer st) i x = Some (set_back st (upd (back st) i x)).
Proof. unfold getProcessingBuffer, set_back, back. destruct (cur0 st) eqn:E; intros H; cbn [store]; rewrite aset_upd by exact H; cbn; now rewrite ?E. Qed.
Lemma swap_back st : back (swapBuffers st) = front st. Proof. unfold back, front, swapBuffers. cbn. now destruct (cur0 st). Qed.
Lemma swap_front st : front (swapBuffers st) = back st. Proof. unfold back, front, swapBuffers. cbn. now destruct (cur0 st). Qed.
Lemma upd_split (b : list f32) i n x ys : (i < length b)%nat ->
  firstn (S i) (upd b i x) ++ ys ++ skipn (S i + n) (upd b i x) = firstn i b ++ (x :: ys) ++ skipn (i + S n) b.
Proof.
  revert i. induction b as [|h t IH]; intros i H; cbn [length] in H; [lia|]. destruct i as [|i].
  - reflexivity.
  - assert (E : upd (h :: t) (S i) x = h :: upd t i x) by reflexivity. rewrite E. cbn [firstn app Nat.add skipn].
    f_equal. apply IH. lia.
Qed.
Lemma process_run L n : forall i v l r, (i + n <= length (back l))%nat -> (i + n <= length (back r))%nat ->
  let ys := ev_samples L v (ticks_of n) in
  bx_process L n i v (getProcessingBuffer l) (getProcessingBuffer r) l r =
  Some (fst (ev_run L v (ticks_of n)),
        (set_back l (firstn i (back l) ++ map fst ys ++ skipn (i + n) (back l)), set_back r (firstn i (back r) ++ map snd ys ++ skipn (i + n) (back r)))).
Proof.
  induction n as [|n IH]; intros i v l r Hl Hr; cbn zeta.
  - cbn [bx_process ticks_of repeat ev_run fst]. change (ev_samples L v []) with (@nil (f32 * f32)). cbn [map app].
    rewrite Nat.add_0_r, !firstn_skipn. unfold set_back, back. destruct l as [a b c s], r as [a' b' c' s']. cbn. destruct c, c'; reflexivity.
  - cbn [bx_process]. unfold ticks_of in *. cbn [repeat]. rewrite ev_run_fst, ev_samples_cons, call_tick. cbn [fst snd].
    destruct (ev_tick L v) as [v1 y]. cbn [fst snd].
    rewrite (store_sb l i (fst y)), (store_sb r i (snd y)) by lia. cbn [bind].
    rewrite <- (sb_proc l (upd (back l) i (fst y))), <- (sb_proc r (upd (back r) i (snd y))) at 1.
    rewrite IH by (rewrite sb_back, upd_length by lia; lia). cbn zeta. rewrite !sb_sb, !sb_back, !upd_split by lia. reflexivity.
Qed.
Definition ok64 (st : lstate) : Prop := length (back st) = 64%nat /\ length (front st) = 64%nat.
Definition round (L : libm) (v : voice) (l r : lstate) : voice * (lstate * lstate) :=
  let ys := ev_samples L v (ticks_of 64) in
  (fst (ev_run L v (ticks_of 64)), (swapBuffers (set_back l (map fst ys)), swapBuffers (set_back r (map snd ys)))).
Lemma round_run L n v l r : ok64 l -> ok64 r ->
  bx_rounds L (S n) v l r = let x := round L v l r in bx_rounds L n (fst x) (fst (snd x)) (snd (snd x)).
Proof.
  intros [B1 F1] [B2 F2]. cbn [bx_rounds]. rewrite !clear_sb.
  rewrite <- (sb_proc l (silence (length (back l)))), <- (sb_proc r (silence (length (back r)))).
  assert (Hs : forall k, length (silence k) = k) by (intros k; apply repeat_length).
  rewrite process_run by (rewrite sb_back, Hs; unfold bx_n; lia). cbn zeta. cbn [bind fst snd]. unfold bx_n. rewrite !sb_sb, !sb_back.
  assert (Hk : forall b : list f32, length b = 64%nat -> skipn (0 + 64) b = []) by (intros b Hb; apply skipn_all2; lia).
  rewrite !Hk by (rewrite Hs; assumption). cbn [firstn app]. rewrite !app_nil_r. reflexivity.
Qed.
Lemma round_ok L v l r : ok64 l -> ok64 r -> ok64 (fst (snd (round L v l r))) /\ ok64 (snd (snd (round L v l r))).
Proof.
  intros [B1 F1] [B2 F2]. unfold ok64, round. cbn [fst snd]. rewrite !swap_back, !swap_front, !sb_front, !sb_back, !map_length, samples_len. auto.
Qed.
Lemma rounds_run L n : forall v l r, ok64 l -> ok64 r -> exists l' r', ok64 l' /\ ok64 r' /\
  forall m, bx_rounds L (n + m) v l r = bx_rounds L m (fst (ev_run L v (ticks_of (n * 64)))) l' r'.
Proof.
  induction n as [|n IH]; intros v l r Hl Hr; [exists l, r; auto|].
  destruct (round_ok L v l r Hl Hr) as [Hl1 Hr1].
  destruct (IH (fst (round L v l r)) _ _ Hl1 Hr1) as (l' & r' & A & B & E). exists l', r'. split; [exact A|]. split; [exact B|].
  intros m. change (S n + m)%nat with (S (n + m)). rewrite round_run by assumption. cbn zeta. rewrite E. f_equal.
  unfold round. cbn [fst]. unfold ticks_of. change (S n * 64)%nat with (64 + n * 64)%nat. now rewrite repeat_app, ev_run_app.
Qed.
(** The last two of [n + 2] rounds fill the two buffers. *)
Lemma rounds_show L n v l r : ok64 l -> ok64 r -> let ys := ev_samples L v (ticks_of (n * 64 + (64 + 64))) in
  exists l' r', bx_rounds L (n + 2) v l r = Some (fst (ev_run L v (ticks_of (n * 64 + (64 + 64)))), (l', r')) /\
    front l' = map fst (skipn (n * 64 + 64) ys) /\ front r' = map snd (skipn (n * 64 + 64) ys) /\
    back l' = map fst (firstn 64 (skipn (n * 64) ys)) /\ back r' = map snd (firstn 64 (skipn (n * 64) ys)).
Proof.
  intros Hl Hr. cbn zeta. destruct (rounds_run L n v l r Hl Hr) as (l1 & r1 & A & B & E). rewrite (E 2%nat). clear E.
  unfold ticks_of at 2 3 4 5 6. rewrite !repeat_app. fold (ticks_of (n * 64)) (ticks_of 64).
  rewrite !ev_samples_app, !ev_run_app. pose proof (samples_len L (n * 64) v) as LN.
  set (w := fst (ev_run L v (ticks_of (n * 64)))). set (zs := ev_samples L v (ticks_of (n * 64))) in *. clearbody w zs.
  pose proof (samples_len L 64 w) as LW.
  rewrite (round_run L 1 w l1 r1 A B). cbn zeta. destruct (round_ok L w l1 r1 A B) as [A2 B2].
  rewrite (round_run L 0 _ _ _ A2 B2). cbn zeta. cbn [bx_rounds]. unfold round. cbn [fst snd].
  do 2 eexists. split; [reflexivity|]. rewrite !swap_front, !swap_back, !sb_front, !sb_back, !swap_front, !sb_back.
  set (y1 := ev_samples L w (ticks_of 64)) in *. set (y2 := ev_samples L (fst (ev_run L w (ticks_of 64))) (ticks_of 64)) in *.
  assert (K1 : skipn (n * 64) (zs ++ y1 ++ y2) = y1 ++ y2) by (rewrite <- LN, skipn_app, skipn_all, Nat.sub_diag; reflexivity).
  assert (K2 : skipn (n * 64 + 64) (zs ++ y1 ++ y2) = y2).
  { rewrite app_assoc. replace (n * 64 + 64)%nat with (length (zs ++ y1)) by (rewrite app_length; lia). rewrite skipn_app, skipn_all, Nat.sub_diag. reflexivity. }
  assert (K3 : firstn 64 (y1 ++ y2) = y1).
  { transitivity (firstn (length y1) (y1 ++ y2)); [now rewrite LW|]. rewrite firstn_app, firstn_all, Nat.sub_diag. cbn [firstn]. apply app_nil_r. }
  rewrite K1, K2, K3. auto.
Qed.
Lemma init_ok64 st : length (bufA st) = 64%nat -> length (bufB st) = 64%nat -> ok64 (loop_init st bx_sr).
Proof. intros A B. unfold ok64, back, front, loop_init. cbn. rewrite !clear_silence, A, B. split; apply repeat_length. Qed.
Lemma shows_front st : shows st (getOutputBuffer st) (front st).
Proof. intros i. unfold getOutputBuffer, front. now destruct (cur0 st). Qed.
Lemma shows_back st : shows st (getProcessingBuffer st) (back st).
Proof. intros i. unfold getProcessingBuffer, back. now destruct (cur0 st). Qed.
