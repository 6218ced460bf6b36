(** XPlay: safety. *)
From Coq Require Import ZArith Reals Bool List Lra Lia Psatz.
From Flocq Require Import Core BinarySingleNaN Mult_error.
From Verif Require Import Flt FltFacts FltMore FltKey FltArith FltClose FltScale Libm EnvSpec Res UtilModel UtilProofs OscSpec OscProofs2 PhasorProofs
  SmoothModel SmoothSpec SmoothProofs2 EnvModel RdModel RdSpec RdProofs RdProofs2 PanModel XpModel XpSpec.
Import ListNotations.
Local Open Scope R_scope.

Lemma smin_cases a b : smin a b = a \/ smin a b = b. Proof. unfold smin. destruct (flt b a); auto. Qed.
Lemma smax_cases a b : smax a b = a \/ smax a b = b. Proof. unfold smax. destruct (flt a b); auto. Qed.
Lemma fofZ_32 n : (1 <= n <= 2 ^ 32)%Z -> fin (fofZ n : f32) /\ 1 <= B2R (fofZ n : f32) <= bpow radix2 32.
Proof.
  intros H. destruct (fofZ_big n ltac:(lia)) as [F B]. split; [exact F|]. split; [apply B|].
  assert (G : 1 <= rnd32 (IZR n) <= bpow radix2 32).
  { split; [rewrite <- one_R; apply rnd_ge_B2R; rewrite one_R; apply (IZR_le 1); lia|].
    destruct (bdy 32 ltac:(lia)) as [[D _] _]. rewrite <- (rnd_fmt (prec:=24) (emax:=128) _ D). apply rnd_le. change (bpow radix2 32) with (IZR (2 ^ 32)). apply IZR_le. lia. }
  unfold fofZ. destruct (flit_R (prec:=24) (emax:=128) n 0) as [_ E].
  - change (bpow radix2 0) with 1. rewrite Rmult_1_r. rewrite Rabs_pos_eq by lra. eapply Rle_lt_trans; [apply G|apply bpow_lt; lia].
  - rewrite E. change (bpow radix2 0) with 1. rewrite Rmult_1_r. apply G.
Qed.
(** Adding up to 2^35 never takes a number past 2^60. *)
Lemma stall_up v : v <= bpow radix2 60 + bpow radix2 35 -> rnd32 v <= bpow radix2 60.
Proof.
  intros V. assert (F : generic_format radix2 (SpecFloat.fexp 24 128) (bpow radix2 60)) by (destruct (bdy 60 ltac:(lia)) as [[D _] _]; exact D).
  unfold rnd32, rnd. apply round_N_le_midp; [typeclasses eauto|exact F|].
  assert (U : succ radix2 (SpecFloat.fexp 24 128) (bpow radix2 60) = bpow radix2 60 + bpow radix2 37).
  { rewrite succ_eq_pos by apply bpow_ge_0. rewrite ulp_bpow. reflexivity. }
  rewrite U. eapply Rle_lt_trans; [exact V|]. bp. lra.
Qed.
Lemma stall v : Rabs v <= bpow radix2 60 + bpow radix2 35 -> Rabs (rnd32 v) <= bpow radix2 60.
Proof.
  intros V. apply Rabs_le_inv in V. apply Rabs_le. split; [|apply stall_up; lra].
  pose proof (stall_up (- v) ltac:(lra)) as H. rewrite rnd_opp in H. lra.
Qed.
Lemma add_stall (x y : f32) : fin x -> fin y -> Rabs (B2R x) <= bpow radix2 60 -> Rabs (B2R y) <= bpow radix2 35 ->
  fin (fadd x y) /\ Rabs (B2R (fadd x y)) <= bpow radix2 60 /\ B2R (fadd x y) = rnd32 (B2R x + B2R y).
Proof.
  intros Fx Fy X Y. assert (S : Rabs (B2R x + B2R y) <= bpow radix2 60 + bpow radix2 35) by (eapply Rle_trans; [apply Rabs_triang|lra]).
  destruct (fadd_b (- bpow radix2 61) (bpow radix2 61) x y) as (F & E & _); auto; try (apply bdy; lia); [apply Rabs_le_inv in S; assert (bpow radix2 60 + bpow radix2 35 <= bpow radix2 61) by (bp; lra); lra|].
  split; [exact F|]. split; [|exact E]. rewrite E. now apply stall.
Qed.
Lemma sub_stall (x y : f32) : fin x -> fin y -> Rabs (B2R x) <= bpow radix2 60 -> Rabs (B2R y) <= bpow radix2 35 ->
  fin (fsub x y) /\ Rabs (B2R (fsub x y)) <= bpow radix2 60 /\ B2R (fsub x y) = rnd32 (B2R x - B2R y).
Proof.
  intros Fx Fy X Y. assert (S : Rabs (B2R x - B2R y) <= bpow radix2 60 + bpow radix2 35).
  { unfold Rminus. eapply Rle_trans; [apply Rabs_triang|]. rewrite Rabs_Ropp. lra. }
  destruct (fsub_b (- bpow radix2 61) (bpow radix2 61) x y) as (F & E & _); auto; try (apply bdy; lia); [apply Rabs_le_inv in S; assert (bpow radix2 60 + bpow radix2 35 <= bpow radix2 61) by (bp; lra); lra|].
  split; [exact F|]. split; [|exact E]. rewrite E. now apply stall.
Qed.

(** ** The invariant *)
Definition unit_f (x : f32) : Prop := fin x /\ 0 <= B2R x <= 1.
Definition reader_of (b : option rbuf) (r : bufrd) : Prop := rd_buf r = b \/ rd_buf r = None.
Definition span (k : Z) (x : f32) : Prop := fin x /\ 0 <= B2R x <= bpow radix2 k.
Definition bounds_ok (x : xplay) : Prop :=
  span 32 (x_frames x) /\ span 32 (x_ls x) /\ span 32 (x_size x) /\ (x_usable (x_buf x) = true -> 1 <= B2R (x_frames x)).
Definition x_inv (f : Z) (x : xplay) : Prop :=
  xbuf_ok (x_buf x) /\ xsr_ok (x_sr x) /\ unit_f (x_start x) /\ unit_f (x_end x) /\ xrate_ok (x_rate x) /\ span f (x_fade x) /\
  reader_of (x_buf x) (x_rd x) /\ ll_sr (x_lag x) = x_sr x /\ ll_time (x_lag x) = x_fade x /\ bounds_ok x /\
  (fin (x_ph x) /\ Rabs (B2R (x_ph x)) <= bpow radix2 60).

(** ** Loop bounds *)
Lemma span_two x : span 32 x -> fin (fmul x two) /\ B2R (fmul x two) = 2 * B2R x /\ 0 <= B2R (fmul x two) <= bpow radix2 33.
Proof.
  intros [F B]. assert (D : dy32 (B2R x * 2)).
  { split.
    - replace 2 with (bpow radix2 1) by reflexivity. apply mult_bpow_pos_exact_FLT; [apply fmt_B2R|lia].
    - rewrite Rabs_pos_eq by lra. eapply Rle_lt_trans; [|apply (bpow_lt radix2 33 128); lia]. replace (bpow radix2 33) with (2 * bpow radix2 32) by (bp; lra). lra. }
  destruct (fmul_exact x two F eq_refl) as [A E]; [rewrite two_R; exact D|]. rewrite two_R in E. split; [exact A|]. split; [lra|]. replace (bpow radix2 33) with (2 * bpow radix2 32) by (bp; lra). lra.
Qed.
Lemma unit_span u fr : unit_f u -> span 32 fr -> span 32 (fmul u fr).
Proof.
  intros [Fu Bu] [Ff Bf]. destruct (fmul_b 0 (bpow radix2 32) u fr) as (A & _ & B); auto; [apply dy0|apply bdy; lia| |split; [exact A|lra]].
  split; [nra|]. apply Rle_trans with (1 * B2R fr); [apply Rmult_le_compat_r; lra|lra].
Qed.
Lemma up_ok fuel : forall p lo w, fin p -> Rabs (B2R p) <= bpow radix2 60 -> fin w -> Rabs (B2R w) <= bpow radix2 35 ->
  match x_up fuel p lo w with Val q => fin q /\ Rabs (B2R q) <= bpow radix2 60 | Undef => False | Spin => True end.
Proof.
  induction fuel as [|k IH]; intros p lo w F B Fw Bw; cbn [x_up]; destruct (flt p lo); auto.
  destruct (add_stall p w F Fw B Bw) as (A1 & A2 & _). now apply IH.
Qed.
Lemma down_ok fuel : forall p hi w, fin p -> Rabs (B2R p) <= bpow radix2 60 -> fin w -> Rabs (B2R w) <= bpow radix2 35 ->
  match x_down fuel p hi w with Val q => fin q /\ Rabs (B2R q) <= bpow radix2 60 | Undef => False | Spin => True end.
Proof.
  induction fuel as [|k IH]; intros p hi w F B Fw Bw; cbn [x_down]; destruct (fle hi p); auto.
  destruct (sub_stall p w F Fw B Bw) as (A1 & A2 & _). now apply IH.
Qed.
(** What [updateLoopBounds] needs of the state it starts from. *)
Definition x_pre (f : Z) (x : xplay) : Prop :=
  xbuf_ok (x_buf x) /\ xsr_ok (x_sr x) /\ unit_f (x_start x) /\ unit_f (x_end x) /\ xrate_ok (x_rate x) /\ span f (x_fade x) /\
  reader_of (x_buf x) (x_rd x) /\ ll_sr (x_lag x) = x_sr x /\ ll_time (x_lag x) = x_fade x /\
  (fin (x_ph x) /\ Rabs (B2R (x_ph x)) <= bpow radix2 60).
Lemma frames_ok b : xbuf_ok b -> let fr := match b with Some b => if rb_valid b then fofZ (rb_n b) else zero | None => zero end in
  span 32 fr /\ (x_usable b = true -> 1 <= B2R fr).
Proof.
  intros H fr. unfold fr. assert (Z : span 32 (zero : f32)) by (split; [reflexivity|rewrite zero_R; split; [lra|apply bpow_ge_0]]).
  destruct b as [b|]; [|split; [exact Z|discriminate]]. cbn [x_usable]. destruct (rb_valid b) eqn:V; [|split; [exact Z|discriminate]].
  destruct H as [H _]. destruct (H V) as [(d & _ & N0 & _) N]. destruct (fofZ_32 (rb_n b) ltac:(lia)) as [F B]. split; [split; [exact F|lra]|intros; lra].
Qed.
Lemma size_span a b : span 32 a -> span 32 b -> span 32 (smax zero (fsub a b)).
Proof.
  intros [Fa Ba] [Fb Bb]. destruct (fsub_b (- bpow radix2 32) (bpow radix2 32) a b) as (F & E & B); auto; try (apply bdy; lia); [lra|].
  unfold smax. destruct (flt zero (fsub a b)) eqn:T.
  - apply flt_R in T; [|reflexivity|exact F]. rewrite zero_R in T. split; [exact F|lra].
  - split; [reflexivity|rewrite zero_R; split; [lra|apply bpow_ge_0]].
Qed.
Lemma smin_unit a b : unit_f a -> unit_f b -> unit_f (smin a b). Proof. intros A B. destruct (smin_cases a b) as [->| ->]; assumption. Qed.
Lemma smax_unit a b : unit_f a -> unit_f b -> unit_f (smax a b). Proof. intros A B. destruct (smax_cases a b) as [->| ->]; assumption. Qed.
Lemma span_60 x : span 32 x -> fin x /\ Rabs (B2R x) <= bpow radix2 60.
Proof. intros [F B]. split; [exact F|]. rewrite Rabs_pos_eq by lra. eapply Rle_trans; [apply B|]. apply bpow_le. lia. Qed.
Lemma update_ok f fuel x reset : x_pre f x ->
  match x_update fuel x reset with Val y => x_inv f y | Undef => False | Spin => reset = false end.
Proof.
  intros (Hb & Hs & H0 & H1 & Hr & Hf & Hd & L1 & L2 & Hp). unfold x_update. pose proof (frames_ok (x_buf x) Hb) as FR. cbv zeta in FR |- *.
  set (fr := match x_buf x with Some b => _ | None => _ end) in *. destruct FR as [FR FU].
  set (ls := fmul (smin (x_start x) (x_end x)) fr). set (le := fmul (smax (x_start x) (x_end x)) fr). set (size := smax zero (fsub le ls)).
  assert (Sls : span 32 ls) by (apply unit_span; [now apply smin_unit|exact FR]). assert (Sle : span 32 le) by (apply unit_span; [now apply smax_unit|exact FR]).
  assert (Ssz : span 32 size) by (apply size_span; assumption).
  destruct (reset || fle size zero) eqn:R.
  - unfold x_inv, bounds_ok. cbn [x_buf x_sr x_start x_end x_rate x_fade x_rd x_lag x_frames x_ls x_size x_ph]. pose proof (span_60 ls Sls). tauto.
  - apply orb_false_iff in R. destruct R as [R _]. subst reset. destruct (span_two size Ssz) as (Fw & Ew & Bw).
    assert (Bw' : Rabs (B2R (fmul size two)) <= bpow radix2 35) by (rewrite Rabs_pos_eq by lra; eapply Rle_trans; [apply Bw|apply bpow_le; lia]).
    pose proof (up_ok fuel (x_ph x) ls (fmul size two) (proj1 Hp) (proj2 Hp) Fw Bw') as U. destruct (x_up _ _ _ _) as [p| |]; cbn [rbind]; [|contradiction|reflexivity].
    destruct U as [Fp Bp]. pose proof (down_ok fuel p (fadd ls (fmul size two)) (fmul size two) Fp Bp Fw Bw') as D. destruct (x_down _ _ _ _) as [q| |]; cbn [rbind]; [|contradiction|reflexivity].
    unfold x_inv, bounds_ok. cbn [x_buf x_sr x_start x_end x_rate x_fade x_rd x_lag x_frames x_ls x_size x_ph]. tauto.
Qed.
(** ** Lag *)
Lemma lag_len f t sr : (f <= 12)%Z -> span f t -> fle t zero = false -> xsr_ok sr -> ll_len t sr = Some (ramp_len t sr) /\ (1 <= ramp_len t sr <= 2 ^ 30)%Z /\ ramp_ok t sr.
Proof.
  intros Hf [Ft Bt] T [Fs Bs]. apply fle_R_false in T; [|exact Ft|reflexivity]. rewrite zero_R in T.
  assert (R : ramp_ok t sr).
  { split; [exact Ft|]. split; [exact T|]. split; [exact Fs|]. split; [lra|]. change (IZR (2 ^ 30)) with (bpow radix2 (12 + 18)). rewrite bpow_plus.
    apply Rmult_le_compat; try lra. eapply Rle_trans; [apply Bt|]. now apply bpow_le. }
  destruct (ramp_len_ok t sr R). auto.
Qed.
Lemma advance_keep s : ll_sr (fst (ll_advance s)) = ll_sr s /\ ll_time (fst (ll_advance s)) = ll_time s.
Proof. unfold ll_advance. cbv zeta. destruct (0 <? ll_rem s)%Z; [|auto]. destruct (ll_rem s - 1 =? 0)%Z; auto. Qed.
Lemma lag_tick_ok f s x : (f <= 12)%Z -> span f (ll_time s) -> xsr_ok (ll_sr s) ->
  exists s' y, ll_tick s x = Some (s', y) /\ ll_sr s' = ll_sr s /\ ll_time s' = ll_time s.
Proof.
  intros Hf T S. unfold ll_tick. destruct (feq x (ll_target s)).
  - pose proof (advance_keep s) as K. destruct (ll_advance s) as [s' y]. exists s', y. auto.
  - destruct (fle (ll_time s) zero) eqn:E; [do 2 eexists; split; [reflexivity|auto]|].
    destruct (lag_len f _ _ Hf T E S) as (-> & _ & _). set (s1 := LagL _ _ _ _ _ _). pose proof (advance_keep s1) as K. destruct (ll_advance s1) as [s' y]. exists s', y. auto.
Qed.
Lemma lag_time_ok f s t : (f <= 12)%Z -> span f t -> xsr_ok (ll_sr s) -> exists s', ll_setTime s t = Some s' /\ ll_sr s' = ll_sr s /\ ll_time s' = t.
Proof.
  intros Hf T S. unfold ll_setTime. destruct (fle t zero) eqn:E; [eexists; split; [reflexivity|auto]|].
  destruct (feq (ll_target s) (ll_cur s)); [eexists; split; [reflexivity|auto]|]. destruct (lag_len f _ _ Hf T E S) as (-> & _ & _). eexists; split; [reflexivity|auto].
Qed.
Lemma fade_span f t : (flt zero t = true -> fin t /\ B2R t <= bpow radix2 f) -> span f (smax zero t).
Proof.
  intros H. unfold smax. destruct (flt zero t) eqn:T; [|split; [reflexivity|rewrite zero_R; split; [lra|apply bpow_ge_0]]].
  destruct (H eq_refl) as [F B]. apply flt_R in T; [|reflexivity|exact F]. rewrite zero_R in T. split; [exact F|lra].
Qed.
(** ** Heads *)
Lemma size_pos x : span 32 (x_size x) -> fle (x_size x) zero = false -> 0 < B2R (x_size x).
Proof. intros [F _] T. apply fle_R_false in T; [|exact F|reflexivity]. now rewrite zero_R in T. Qed.
Lemma wrap_ok p fr : fin p -> Rabs (B2R p) <= bpow radix2 60 -> span 32 fr -> 1 <= B2R fr -> fin (wrap_direct p zero fr).
Proof.
  intros F B [Ff Bf] P. destruct (fsub_exact fr zero Ff eq_refl) as [A E]; [rewrite zero_R, Rminus_0_r; apply dy_B2R|]. rewrite zero_R, Rminus_0_r in E.
  apply (wrap_error p zero fr); auto; try reflexivity.
  - rewrite zero_R, Rabs_R0. apply bpow_ge_0.
  - rewrite E. split; [apply Rle_trans with 1; [change 1 with (bpow radix2 0); apply bpow_le; lia|lra]|]. eapply Rle_trans; [apply Bf|]. apply bpow_le. lia.
Qed.
Lemma pong_ok size p : span 32 size -> fin p -> 0 <= B2R p <= 2 * B2R size ->
  span 32 (x_pingpong size p) /\ B2R (x_pingpong size p) <= B2R size.
Proof.
  intros S Fp Bp. unfold x_pingpong. destruct (span_two size S) as (Fw & Ew & Bw). destruct S as [Fs Bs]. destruct (fle p size) eqn:T.
  - apply fle_R in T; [|exact Fp|exact Fs]. repeat split; auto; lra.
  - apply fle_R_false in T; [|exact Fp|exact Fs].
    destruct (fsub_b 0 (B2R size) (fmul size two) p) as (A & _ & B); auto; [apply dy0|apply dy_B2R|lra|]. repeat split; auto; lra.
Qed.
(** In bounce mode the phase inside the window. *)
Definition x_phase (x : xplay) : f32 :=
  let p := ffmod (fsub (x_ph x) (x_ls x)) (fmul (x_size x) two) in if flt p zero then fadd p (fmul (x_size x) two) else p.
Lemma phase_in f x : x_inv f x -> 0 < B2R (x_size x) -> fin (x_phase x) /\ 0 <= B2R (x_phase x) <= 2 * B2R (x_size x).
Proof.
  intros (Hb & Hs & H0 & H1 & Hr & Hf & Hd & L1 & L2 & (FR & LS & SZ & FU) & (Fp & Bp)) P. unfold x_phase. cbv zeta.
  destruct (span_two _ SZ) as (Fw & Ew & Bw). destruct LS as [Fl Bl].
  destruct (sub_stall (x_ph x) (x_ls x) Fp Fl Bp) as (Fd & Bd & _); [rewrite Rabs_pos_eq by lra; eapply Rle_trans; [apply Bl|apply bpow_le; lia]|].
  destruct (ffmod_R _ _ Fd Fw ltac:(lra)) as [Fm _]. destruct (ffmod_bound _ _ Fd Fw ltac:(lra)) as (Bm & _ & _).
  rewrite (Rabs_pos_eq (B2R (fmul (x_size x) two))) in Bm by lra. apply Rabs_def2 in Bm. set (m := ffmod _ _) in *.
  destruct (flt m zero) eqn:T.
  - apply flt_R in T; [|exact Fm|reflexivity]. rewrite zero_R in T. destruct (fadd_b 0 (B2R (fmul (x_size x) two)) m (fmul (x_size x) two)) as (A & _ & B); auto; [apply dy0|apply dy_B2R|lra|].
    split; [exact A|]. lra.
  - apply flt_R_false in T; [|exact Fm|reflexivity]. rewrite zero_R in T. split; [exact Fm|lra].
Qed.
Lemma bounce_heads x : x_bounce x = true -> x_heads x =
  (fadd (x_ls x) (x_pingpong (x_size x) (x_phase x)), fadd (x_ls x) (x_pingpong (x_size x) (fsub (fmul (x_size x) two) (x_phase x)))).
Proof. intros B. unfold x_heads. rewrite B. reflexivity. Qed.
Lemma heads_ok f x : x_inv f x -> x_usable (x_buf x) = true -> 0 < B2R (x_size x) -> fin (fst (x_heads x)) /\ fin (snd (x_heads x)).
Proof.
  intros I U P. pose proof I as (Hb & Hs & H0 & H1 & Hr & Hf & Hd & L1 & L2 & (FR & LS & SZ & FU) & (Fp & Bp)). destruct (x_bounce x) eqn:M.
  - rewrite (bounce_heads x M). cbn [fst snd]. destruct (phase_in f x I P) as [Fq Bq]. destruct (span_two _ SZ) as (Fw & Ew & Bw).
    destruct (pong_ok _ _ SZ Fq Bq) as [[S1 S2] _]. destruct (fsub_b 0 (B2R (fmul (x_size x) two)) (fmul (x_size x) two) (x_phase x)) as (A & _ & B); auto; [apply dy0|apply dy_B2R|lra|].
    rewrite Ew in B. destruct (pong_ok _ _ SZ A B) as [[S3 S4] _]. destruct LS as [Fl Bl].
    split; match goal with |- fin (fadd ?a ?b) => destruct (fadd_b 0 (bpow radix2 33) a b) as (A' & _); auto; [apply dy0|apply bdy; lia|] end; replace (bpow radix2 33) with (bpow radix2 32 + bpow radix2 32) by (bp; lra); lra.
  - unfold x_heads. rewrite M. cbn [negb fst snd]. split; [now apply wrap_ok; auto|].
    destruct SZ as [Fz Bz]. destruct (sub_stall (x_ph x) (x_size x) Fp Fz Bp) as (A & B & _); [rewrite Rabs_pos_eq by lra; eapply Rle_trans; [apply Bz|apply bpow_le; lia]|]. now apply wrap_ok; auto.
Qed.
(** ** Rate and advance *)
Lemma eff_ok f x : x_inv f x -> fin (x_eff x) /\ Rabs (B2R (x_eff x)) <= bpow radix2 34.
Proof.
  intros (Hb & (Fs & Bs) & H0 & H1 & (Fr & Br) & _). unfold x_eff. cbv zeta. set (bsr := match x_buf x with Some b => _ | None => _ end).
  set (sc := if flt zero bsr then _ else _). assert (SC : span 18 sc).
  { unfold sc. destruct (flt zero bsr) eqn:T; [|split; [exact one_fin|rewrite one_R; split; [lra|bp; lra]]].
    assert (HB : fin bsr /\ B2R bsr <= bpow radix2 18). { unfold bsr in *. destruct (x_buf x) as [b|]; [now apply Hb|discriminate T]. } destruct HB as [Fb Bb].
    apply flt_R in T; [|reflexivity|exact Fb]. rewrite zero_R in T.
    destruct (fdiv_b 0 (bpow radix2 18) bsr (x_sr x)) as (A & _ & B); auto; [apply dy0|apply bdy; lia|lra| |split; [exact A|lra]].
    assert (J : 0 < / B2R (x_sr x) <= 1) by (split; [apply Rinv_0_lt_compat; lra|rewrite <- Rinv_1; apply Rinv_le_contravar; lra]). unfold Rdiv. split; [apply Rmult_le_pos; lra|].
    apply Rle_trans with (B2R bsr * 1); [apply Rmult_le_compat_l; lra|lra]. }
  destruct SC as [Fc Bc]. apply Rabs_le_inv in Br.
  destruct (fmul_b (- bpow radix2 34) (bpow radix2 34) (x_rate x) sc) as (A & _ & B); auto; try (apply bdy; lia).
  { apply Rabs_le_inv. rewrite Rabs_mult. change (bpow radix2 34) with (bpow radix2 (16 + 18)). rewrite bpow_plus. apply Rmult_le_compat; try apply Rabs_pos; [apply Rabs_le; lra|rewrite Rabs_pos_eq; lra]. }
  assert (S : fin (if x_rev x then fneg one else one) /\ (B2R (if x_rev x then fneg one else one) = 1 \/ B2R (if x_rev x then fneg one else one) = -1)).
  { destruct (x_rev x); [split; [now apply fneg_fin|rewrite fneg_R, one_R; right; lra]|split; [apply one_fin|left; apply one_R]]. }
  destruct S as [Fg Bg]. destruct (fmul_b (- bpow radix2 34) (bpow radix2 34) (fmul (x_rate x) sc) (if x_rev x then fneg one else one)) as (A' & _ & B'); auto; try (apply bdy; lia).
  { destruct Bg as [-> | ->]; lra. }
  split; [exact A'|]. apply Rabs_le. lra.
Qed.
Lemma next_ok f x h : x_inv f x -> fin (fst (x_next x h)) /\ Rabs (B2R (fst (x_next x h))) <= bpow radix2 60.
Proof.
  intros I. destruct (eff_ok f x I) as [Fe Be]. pose proof I as (Hb & Hs & H0 & H1 & Hr & Hf & Hd & L1 & L2 & (FR & LS & SZ & FU) & (Fp & Bp)).
  destruct (span_two _ SZ) as (Fw & Ew & Bw). assert (Bw' : Rabs (B2R (fmul (x_size x) two)) <= bpow radix2 35) by (rewrite Rabs_pos_eq by lra; eapply Rle_trans; [apply Bw|apply bpow_le; lia]).
  assert (Be' : Rabs (B2R (x_eff x)) <= bpow radix2 35) by (eapply Rle_trans; [apply Be|apply bpow_le; lia]).
  destruct (add_stall _ _ Fp Fe Bp Be') as (F1 & B1 & _). unfold x_next. cbv zeta. set (c := fadd (x_ph x) (x_eff x)) in *.
  destruct (fle _ c); cbn [fst]; [destruct (sub_stall c _ F1 Fw B1 Bw') as (A & B & _); auto|]. destruct (flt c _); cbn [fst]; [destruct (add_stall c _ F1 Fw B1 Bw') as (A & B & _); auto|]. auto.
Qed.
(** ** Calls *)
Lemma read_ok b r p : xbuf_ok b -> reader_of b r -> fin p -> exists s, rd_tick2 r p = Some s.
Proof.
  intros Hb R F. destruct r as [rb lp md]. unfold reader_of in R. cbn [rd_buf] in R. destruct R as [-> | ->]; [|eexists; reflexivity]. destruct b as [b|]; [|eexists; reflexivity]. destruct Hb as [H _].
  destruct (rb_valid b) eqn:V; [|exists (zero, zero); unfold rd_tick2; cbn [rd_buf]; rewrite V; reflexivity].
  destruct (H eq_refl) as [O _]. destruct (rd_defined b lp md p O (or_introl F)) as (i & g & _ & _ & _ & E). eauto.
Qed.
Lemma tick_ok f L x : (f <= 12)%Z -> x_inv f x -> exists y x', x_tick L x = Val (y, x') /\ x_inv f x'.
Proof.
  intros Hf I. unfold x_tick. destruct (negb (x_usable (x_buf x)) || fle (x_size x) zero) eqn:U; [eauto|].
  apply orb_false_iff in U. destruct U as [U Z]. apply negb_false_iff in U. pose proof I as (Hb & Hs & H0 & H1 & Hr & Hfd & Hd & L1 & L2 & (FR & LS & SZ & FU) & (Fp & Bp)).
  pose proof (size_pos x SZ Z) as P. destruct (heads_ok f x I U P) as [F1 F2]. cbv zeta. set (h := fle _ (x_ph x)).
  destruct (lag_tick_ok f (x_lag x) (if h then one else fneg one) Hf ltac:(now rewrite L2) ltac:(now rewrite L1)) as (lag & fd & -> & K1 & K2). cbn [of_opt rbind].
  destruct (x_heads x) as [p1 p2]. cbn [fst snd] in F1, F2. destruct (read_ok _ _ p1 Hb Hd F1) as [s1 ->]. cbn [of_opt rbind]. destruct (read_ok _ _ p2 Hb Hd F2) as [s2 ->]. cbn [of_opt rbind].
  destruct (ad_tick (x_env x)) as [env v]. pose proof (next_ok f x h I) as N. destruct (x_next x h) as [p h2]. cbn [fst] in N. do 2 eexists. split; [reflexivity|].
  unfold x_inv, bounds_ok. cbn [x_buf x_sr x_start x_end x_rate x_fade x_rd x_lag x_frames x_ls x_size x_ph]. rewrite K1, K2. unfold bounds_ok in *. tauto.
Qed.
Lemma clamp_unit_f s : is_nan s = false -> unit_f (clamp s zero one).
Proof. intros N. destruct (clamp_fin s zero one N eq_refl one_fin) as [F B]; [rewrite zero_R, one_R; lra|]. rewrite zero_R, one_R in B. split; [exact F|exact B]. Qed.
Lemma inv_pre f x : x_inv f x -> x_pre f x. Proof. unfold x_inv, x_pre. tauto. Qed.
Lemma init_ok f L fuel x sr : (f <= 12)%Z -> xbuf_ok (x_buf x) -> unit_f (x_start x) -> unit_f (x_end x) -> xrate_ok (x_rate x) -> span f (x_fade x) ->
  (fin (x_ph x) /\ Rabs (B2R (x_ph x)) <= bpow radix2 60) -> xsr_ok sr -> exists y, x_init L fuel x sr = Val y /\ x_inv f y.
Proof.
  intros Hf Hb H0 H1 Hr Hfd Hp Hs. unfold x_init, ll_init. destruct (lag_time_ok f (LagL sr zero (fneg one) (fneg one) zero 0) (x_fade x) Hf Hfd Hs) as (lag & -> & K1 & K2). cbn [of_opt rbind].
  match goal with |- context [x_update fuel ?z true] => assert (P : x_pre f z) end.
  { unfold x_pre. cbn [x_buf x_sr x_start x_end x_rate x_fade x_rd x_lag x_frames x_ls x_size x_ph]. cbn [ll_sr] in K1. unfold reader_of, rd_init. tauto. }
  pose proof (update_ok f fuel _ true P) as U. destruct (x_update fuel _ true) as [y| |]; [eauto|contradiction|discriminate U].
Qed.
Lemma call_ok f L fuel x o : (f <= 12)%Z -> x_inv f x -> x_op_ok f o ->
  match x_call L fuel x o with Val (y, _) => x_inv f y | Undef => False | Spin => ~ x_op_plain o end.
Proof.
  intros Hf I O. pose proof I as (Hb & Hs & H0 & H1 & Hr & Hfd & Hd & L1 & L2 & (FR & LS & SZ & FU) & (Fp & Bp)). destruct o as [sr|b|s e pr|r|b|t|g|m|l| |]; cbn [x_call x_op_plain].
  - destruct (init_ok f L fuel x sr Hf Hb H0 H1 Hr Hfd (conj Fp Bp) O) as (y & -> & Y). exact Y.
  - unfold x_setBuffer. match goal with |- context [x_update fuel ?z true] => assert (P : x_pre f z) end.
    { unfold x_pre. cbn [x_buf x_sr x_start x_end x_rate x_fade x_rd x_lag x_frames x_ls x_size x_ph]. cbn [x_op_ok] in O.
      assert (reader_of b (rd_setBuffer (x_rd x) b)) by (left; reflexivity). tauto. }
    pose proof (update_ok f fuel _ true P) as U. destruct (x_update fuel _ true) as [y| |]; [exact U|contradiction|discriminate U].
  - destruct O as [N1 N2]. unfold x_setStartEnd. cbv zeta. destruct (_ && _); [exact I|].
    match goal with |- context [x_update fuel ?z _] => assert (P : x_pre f z) end.
    { unfold x_pre. cbn [x_buf x_sr x_start x_end x_rate x_fade x_rd x_lag x_frames x_ls x_size x_ph]. pose proof (clamp_unit_f s N1). pose proof (clamp_unit_f e N2). tauto. }
    pose proof (update_ok f fuel _ (negb pr) P) as U. destruct (x_update fuel _ _) as [y| |]; [exact U|contradiction|destruct pr; [intros A; exact A|discriminate U]].
  - unfold x_inv, bounds_ok, x_setRate. cbn [x_buf x_sr x_start x_end x_rate x_fade x_rd x_lag x_frames x_ls x_size x_ph]. cbn [x_op_ok] in O. tauto.
  - unfold x_inv, bounds_ok, x_setPlayMode. cbn [x_buf x_sr x_start x_end x_rate x_fade x_rd x_lag x_frames x_ls x_size x_ph]. tauto.
  - cbn [x_op_ok] in O. unfold x_setFadeTime. pose proof (fade_span f t O) as S. destruct (lag_time_ok f (x_lag x) (smax zero t) Hf S ltac:(now rewrite L1)) as (lag & -> & K1 & K2).
    cbn [of_opt rbind]. unfold x_inv, bounds_ok. cbn [x_buf x_sr x_start x_end x_rate x_fade x_rd x_lag x_frames x_ls x_size x_ph]. rewrite K1, L1. tauto.
  - unfold x_inv, bounds_ok, x_setGate. cbn [x_buf x_sr x_start x_end x_rate x_fade x_rd x_lag x_frames x_ls x_size x_ph]. tauto.
  - unfold x_inv, bounds_ok, x_setReader, reader_of in *. cbn [x_buf x_sr x_start x_end x_rate x_fade x_rd x_lag x_frames x_ls x_size x_ph rd_setInterpolation rd_buf]. tauto.
  - unfold x_inv, bounds_ok, x_setReader, reader_of in *. cbn [x_buf x_sr x_start x_end x_rate x_fade x_rd x_lag x_frames x_ls x_size x_ph rd_setLoop rd_buf]. tauto.
  - unfold x_inv, bounds_ok, x_resetPhasor. cbn [x_buf x_sr x_start x_end x_rate x_fade x_rd x_lag x_frames x_ls x_size x_ph]. pose proof (span_60 _ LS). tauto.
  - destruct (tick_ok f L x Hf I) as (y & x' & -> & I'). exact I'.
Qed.
Lemma run_ok f L fuel ops : (f <= 12)%Z -> forall x, x_inv f x -> Forall (x_op_ok f) ops ->
  match x_run L fuel x ops with Val (y, _) => x_inv f y | Undef => False | Spin => ~ Forall x_op_plain ops end.
Proof.
  intros Hf. induction ops as [|o ops IH]; intros x I O; cbn [x_run]; [exact I|]. inversion O as [|? ? O1 O2]; subst. pose proof (call_ok f L fuel x o Hf I O1) as C.
  destruct (x_call L fuel x o) as [[y out]| |]; cbn [rbind fst snd]; [|contradiction|intros A; inversion A; subst; contradiction]. specialize (IH y C O2).
  destruct (x_run L fuel y ops) as [[z outs]| |]; cbn [rbind fst snd]; [exact IH|contradiction|intros A; inversion A; subst; contradiction].
Qed.
Lemma new_ok f L fuel junk sr : (-4 <= f <= 12)%Z -> xsr_ok sr -> let '(rd, lag, env) := junk in exists y, x_init L fuel (x_new rd lag env) sr = Val y /\ x_inv f y.
Proof.
  intros Hf S. destruct junk as [[rd lag] env]. apply init_ok; auto; try lia; cbn [x_new x_buf x_start x_end x_rate x_fade x_ph].
  - exact I.
  - split; [reflexivity|rewrite zero_R; lra].
  - split; [apply one_fin|rewrite one_R; lra].
  - split; [apply one_fin|rewrite one_R, Rabs_R1; bp; lra].
  - split; [ffin|]. assert (bpow radix2 (-4) <= bpow radix2 f) by (apply bpow_le; lia). fval (fdec 5 100 : f32). split; [lra|]. eapply Rle_trans; [|eassumption]. bp. lra.
  - split; [reflexivity|rewrite zero_R, Rabs_R0; apply bpow_ge_0].
Qed.
Lemma session_ok f L fuel junk sr ops : (-4 <= f <= 12)%Z -> xsr_ok sr -> Forall (x_op_ok f) ops ->
  match x_session L fuel junk sr ops with Val (y, _) => x_inv f y | Undef => False | Spin => ~ Forall x_op_plain ops end.
Proof.
  intros Hf S O. unfold x_session. pose proof (new_ok f L fuel junk sr Hf S) as N. destruct junk as [[rd lag] env]. destruct N as (y & E & I). cbn [x_run x_call]. rewrite E. cbn [rbind fst snd].
  pose proof (run_ok f L fuel ops ltac:(lia) y I O) as R. destruct (x_run L fuel y ops) as [[z outs]| |]; cbn [rbind fst snd]; assumption.
Qed.
