(** XPlay: the crossfade control, output level, silence, the end of a note. *)
From Coq Require Import ZArith Reals Bool List Lra Lia Psatz.
From Flocq Require Import Core BinarySingleNaN.
From Verif Require Import Flt FltFacts FltMore FltKey FltArith FltClose FltScale Libm ExpBounds EnvModel EnvSpec EnvProofs EnvProofs2 Res UtilModel UtilProofs OscSpec OscProofs2 PhasorProofs
  SmoothModel SmoothSpec SmoothProofs2 RdModel RdSpec RdProofs RdProofs2 RdProofs3 CombProofs PanModel PanSpec PanProofs XpModel XpSpec XpProofs XpProofs2.
Import ListNotations.
Local Open Scope R_scope.

(** ** The crossfade control stays finite *)
Definition pm1 (x : f32) : Prop := x = one \/ x = fneg one.
Definition lag_inv (s : lagl) : Prop :=
  (fin (ll_cur s) /\ Rabs (B2R (ll_cur s)) <= 2) /\ pm1 (ll_target s) /\ fin (ll_inc s) /\
  ((0 < ll_rem s)%Z -> exists k, (0 <= k)%Z /\ (ll_rem s + k <= 2 ^ 21)%Z /\
    Rabs (B2R (ll_cur s) + IZR (ll_rem s) * B2R (ll_inc s) - B2R (ll_target s)) <= bpow radix2 (-21) + IZR k * bpow radix2 (-24)).
Lemma pm1_fin x : pm1 x -> fin x /\ Rabs (B2R x) = 1.
Proof.
  intros [-> | ->]; (split; [ffin|]); [rewrite one_R, Rabs_R1; reflexivity|]. rewrite fneg_R, one_R, Rabs_Ropp, Rabs_R1. reflexivity.
Qed.
Lemma lag_rest sr t c i r : pm1 c -> fin i -> (r <= 0)%Z -> lag_inv (LagL sr t c c i r).
Proof. intros P F R. unfold lag_inv. cbn. destruct (pm1_fin c P) as [A B]. repeat split; auto; [lra|lia]. Qed.
Lemma advance_inv s : lag_inv s -> lag_inv (fst (ll_advance s)) /\ fin (snd (ll_advance s)).
Proof.
  intros ((Fc & Bc) & T & Fi & K). destruct (pm1_fin _ T) as [Ft Bt]. unfold ll_advance. cbv zeta. destruct (0 <? ll_rem s)%Z eqn:R.
  2:{ apply Z.ltb_ge in R. cbn [fst snd]. split; [apply lag_rest; auto|exact Ft]. }
  apply Z.ltb_lt in R. destruct (ll_rem s - 1 =? 0)%Z eqn:E; [cbn [fst snd]; split; [apply lag_rest; auto; [reflexivity|apply Z.eqb_eq in E; lia]|exact Ft]|].
  apply Z.eqb_neq in E. destruct (K R) as (k & K0 & K1 & B). clear K. destruct s as [sr t c g i r]. cbn [ll_sr ll_time ll_cur ll_target ll_inc ll_rem fst snd] in *.
  assert (Rr : 2 <= IZR r) by (apply IZR_le; lia). assert (Kk : 0 <= IZR k <= 2097152) by (split; [apply IZR_le|apply IZR_le]; lia).
  assert (M : Rabs (B2R c + IZR r * B2R i) <= 2).
  { revert B. bp. intros B. apply Rabs_le_inv in B. revert Bt. unfold Rabs at 1. destruct (Rcase_abs (B2R g)); intros Bt; apply Rabs_le; nra. }
  assert (S : Rabs (B2R c + B2R i) <= 2).
  { replace (B2R c + B2R i) with ((B2R c * (IZR r - 1) + (B2R c + IZR r * B2R i)) / IZR r) by (field; lra).
    apply Rabs_le_inv in Bc. apply Rabs_le_inv in M. assert (P : 0 < / IZR r) by (apply Rinv_0_lt_compat; lra). assert (P1 : IZR r * / IZR r = 1) by (apply Rinv_r; lra).
    unfold Rdiv. set (q := / IZR r) in *. set (m := B2R c + IZR r * B2R i) in *. clearbody m.
    assert (X : - (2 * IZR r) <= B2R c * (IZR r - 1) + m <= 2 * IZR r) by nra. set (z := B2R c * (IZR r - 1) + m) in *. clearbody z. apply Rabs_le. pose proof (Rmult_le_compat_r q _ _ ltac:(lra) (proj1 X)). pose proof (Rmult_le_compat_r q _ _ ltac:(lra) (proj2 X)).
    replace (- (2 * IZR r) * q) with (-2 * (IZR r * q)) in * by ring. replace (2 * IZR r * q) with (2 * (IZR r * q)) in * by ring. rewrite P1 in *. lra. }
  destruct (fadd_b (-2) 2 c i (dyZ (-2) ltac:(lia)) (dyZ 2 ltac:(lia)) Fc Fi) as (Fs & Es & Bs); [apply Rabs_le_inv; exact S|].
  split; [|exact Fs]. unfold lag_inv. cbn [ll_sr ll_time ll_cur ll_target ll_inc ll_rem fst snd]. split; [split; [exact Fs|apply Rabs_le; exact Bs]|]. split; [exact T|]. split; [exact Fi|].
  intros _. exists (k + 1)%Z. split; [lia|]. split; [lia|]. rewrite Es. pose proof (rnd_err1 1 (B2R c + B2R i) ltac:(lia) S) as Er. change (1 - 25)%Z with (-24)%Z in Er.
  rewrite minus_IZR, plus_IZR. apply Rabs_le_inv in Er. apply Rabs_le_inv in B. apply Rabs_le. set (e := rnd32 (B2R c + B2R i)) in *. clearbody e. nra.
Qed.
Lemma start_inv sr t c g n : fin c -> Rabs (B2R c) <= 2 -> pm1 g -> (1 <= n <= 2 ^ 21)%Z -> lag_inv (LagL sr t c g (ll_incof g c n) n).
Proof.
  intros Fc Bc T N. destruct (pm1_fin _ T) as [Ft Bt]. unfold ll_incof. replace (n <=? 0)%Z with false by (symmetry; apply Z.leb_gt; lia).
  destruct (fofZ_R (prec:=24) (emax:=128) n ltac:(lia)) as [Fn En]. assert (Nr : 1 <= IZR n <= 2097152) by (split; apply IZR_le; lia).
  assert (Bd : Rabs (B2R g - B2R c) <= 3). { eapply Rle_trans; [apply Rabs_triang|]. rewrite Rabs_Ropp. lra. }
  destruct (fsub_b (-3) 3 g c (dyZ (-3) ltac:(lia)) (dyZ 3 ltac:(lia)) Ft Fc) as (Fd & Ed & Bd'); [apply Rabs_le_inv; exact Bd|].
  pose proof (rnd_err1 2 (B2R g - B2R c) ltac:(lia) ltac:(bp; lra)) as E1. rewrite <- Ed in E1. change (2 - 25)%Z with (-23)%Z in E1. set (d := fsub g c) in *.
  assert (Pn : 0 < / IZR n <= 1) by (split; [apply Rinv_0_lt_compat; lra|rewrite <- Rinv_1; apply Rinv_le_contravar; lra]).
  destruct (fdiv_b (-3) 3 d (fofZ n) (dyZ (-3) ltac:(lia)) (dyZ 3 ltac:(lia)) Fd Fn) as (Fi & Ei & Bi); [rewrite En; lra|rewrite En; unfold Rdiv; nra|].
  unfold lag_inv. cbn [ll_sr ll_time ll_cur ll_target ll_inc ll_rem]. split; [auto|]. split; [exact T|]. split; [exact Fi|]. intros _. exists 0%Z. split; [lia|]. split; [lia|].
  pose proof (rrel32 (B2R d / IZR n)) as E2. rewrite En in Ei. rewrite <- Ei in E2. set (i := fdiv d (fofZ n)) in *.
  assert (Q : Rabs (B2R d / IZR n) = Rabs (B2R d) * / IZR n) by (unfold Rdiv; rewrite Rabs_mult, (Rabs_pos_eq (/ IZR n)) by lra; reflexivity).
  assert (E3 : Rabs (IZR n * B2R i - B2R d) <= 4 * bpow radix2 (-24)).
  { replace (IZR n * B2R i - B2R d) with (IZR n * (B2R i - B2R d / IZR n)) by (field; lra). rewrite Rabs_mult, (Rabs_pos_eq (IZR n)) by lra. rewrite Q in E2.
    apply Rle_trans with (IZR n * (bpow radix2 (-24) * (Rabs (B2R d) * / IZR n) + bpow radix2 (-150))); [apply Rmult_le_compat_l; lra|].
    replace (IZR n * (bpow radix2 (-24) * (Rabs (B2R d) * / IZR n) + bpow radix2 (-150))) with (bpow radix2 (-24) * Rabs (B2R d) + IZR n * bpow radix2 (-150)) by (field; lra).
    assert (Rabs (B2R d) <= 3) by (apply Rabs_le; lra). assert (bpow radix2 (-150) <= bpow radix2 (-50)) by (apply bpow_le; lia). pose proof (bpow_gt_0 radix2 (-150)).
    revert H0. bp. intros. nra. }
  clearbody i d. apply Rabs_le_inv in E1. apply Rabs_le_inv in E3. revert E1 E3. bp. intros E1 E3. apply Rabs_le. lra.
Qed.
Lemma ramp_short f t sr : (f <= 3)%Z -> span f t -> fle t zero = false -> xsr_ok sr -> ll_len t sr = Some (ramp_len t sr) /\ (1 <= ramp_len t sr <= 2 ^ 21)%Z.
Proof.
  intros Hf S Z X. destruct (lag_len f t sr ltac:(lia) S Z X) as (E & [B _] & (Ft & Pt & Fs & Ps & _)). split; [exact E|]. split; [exact B|]. unfold ramp_len. apply Z.max_lub; [lia|].
  destruct S as [_ Bt]. destruct X as [_ Bs]. assert (Q : bpow radix2 f <= 8) by (change 8 with (bpow radix2 3); apply bpow_le; lia).
  destruct (fmul_b 0 (bpow radix2 21) t sr dy0 ltac:(apply bdy; lia) Ft Fs) as (Fm & Em & Bm).
  { change 21%Z with (3 + 18)%Z. rewrite bpow_plus. change (bpow radix2 3) with 8. split; [nra|]. apply Rmult_le_compat; lra. }
  apply Z.le_trans with (ZnearestA (IZR (2 ^ 21))); [|rewrite (Zrnd_IZR ZnearestA (2 ^ 21)); lia]. apply Zrnd_le; [apply valid_rnd_NA|]. apply Bm.
Qed.
Lemma pm1_neq x y : pm1 x -> pm1 y -> feq x y = false -> x <> y. Proof. intros [-> | ->] [-> | ->] E H; try discriminate H; vm_compute in E; discriminate E. Qed.
Lemma lag_tick_inv f s x s' y : (f <= 3)%Z -> span f (ll_time s) -> xsr_ok (ll_sr s) -> lag_inv s -> pm1 x -> ll_tick s x = Some (s', y) -> lag_inv s' /\ fin y.
Proof.
  intros Hf T S I P H. unfold ll_tick in H. destruct (feq x (ll_target s)).
  - injection H as H. pose proof (advance_inv s I) as A. rewrite H in A. exact A.
  - destruct (fle (ll_time s) zero) eqn:E; [injection H as <- <-; split; [apply lag_rest; auto; [reflexivity|lia]|apply (pm1_fin x P)]|].
    destruct (ramp_short f _ _ Hf T E S) as [EL B]. rewrite EL in H. injection H as H. destruct I as ((Fc & Bc) & _ & _ & _).
    pose proof (advance_inv _ (start_inv (ll_sr s) (ll_time s) (ll_cur s) x _ Fc Bc P B)) as A. rewrite H in A. exact A.
Qed.
Lemma lag_time_inv f s t s' : (f <= 3)%Z -> span f t -> xsr_ok (ll_sr s) -> lag_inv s -> ll_setTime s t = Some s' -> lag_inv s'.
Proof.
  intros Hf T S I H. pose proof I as ((Fc & Bc) & G & Fi & K). unfold ll_setTime in H. destruct (fle t zero) eqn:E; [injection H as <-; apply lag_rest; auto; [reflexivity|lia]|].
  destruct (feq (ll_target s) (ll_cur s)); [injection H as <-; exact I|]. destruct (ramp_short f _ _ Hf T E S) as [EL B]. rewrite EL in H. injection H as <-. now apply start_inv.
Qed.
(** ** What the calls do to the reader, the crossfade control and the envelope *)
Definition keeps (x y : xplay) : Prop := x_rd y = x_rd x /\ x_lag y = x_lag x /\ x_env y = x_env x /\ x_sr y = x_sr x /\ x_fade y = x_fade x /\ x_gate y = x_gate x.
Lemma update_keeps fuel x r y : x_update fuel x r = Val y -> keeps x y.
Proof.
  unfold x_update. cbv zeta. destruct (r || _); [intros H; injection H as <-; repeat split|]. destruct (x_up _ _ _ _); cbn [rbind]; try discriminate.
  destruct (x_down _ _ _ _); cbn [rbind]; try discriminate. intros H; injection H as <-; repeat split.
Qed.
Definition init_env (L : libm) (x : xplay) (sr : f32) : adsr :=
  ad_setgate (ad_setDoneAction (ad_setRelease L (ad_setSustain (ad_setDecay L (ad_setAttack L (ad_init L sr) (x_fade x)) zero) one) (x_fade x)) 2) (x_gate x).
Lemma init_parts L fuel x sr y : x_init L fuel x sr = Val y -> ll_init sr (fneg one) (x_fade x) = Some (x_lag y) /\ x_env y = init_env L x sr /\ x_rd y = rd_init None /\
  x_sr y = sr /\ x_fade y = x_fade x /\ x_gate y = x_gate x.
Proof.
  unfold x_init. destruct (ll_init _ _ _) as [l|]; cbn [of_opt rbind]; [|discriminate]. cbv zeta. intros H. apply update_keeps in H. destruct H as (A & B & C & D & E & F).
  cbn [x_rd x_lag x_env x_sr x_fade x_gate] in *. rewrite A, B, C, D, E, F. repeat split.
Qed.
Definition x_inv2 (L : libm) (x : xplay) : Prop :=
  lag_inv (x_lag x) /\ ad_inv (x_env x) /\ ad_sr (x_env x) = x_sr x /\ ad_rc (x_env x) = coeff L (clamp_time (x_fade x)) (x_sr x).
Lemma xsr_sr sr : xsr_ok sr -> sr_ok sr.
Proof. intros [F B]. unfold sr_ok. apply flt_R; [reflexivity|exact F|]. rewrite fzero_R. lra. Qed.
Lemma setgate_rc e g : ad_rc (ad_setgate e g) = ad_rc e /\ ad_sr (ad_setgate e g) = ad_sr e.
Proof. unfold ad_setgate. destruct (_ && _); [|destruct (_ && _)]; auto. Qed.
Lemma tick_rc e : ad_rc (fst (ad_tick e)) = ad_rc e /\ ad_sr (fst (ad_tick e)) = ad_sr e.
Proof.
  unfold ad_tick. destruct (ad_state e); auto; [destruct (fle c999 _)|destruct (flt _ c001)|destruct (fle _ c0001)]; auto.
Qed.
Lemma init_inv2 L fuel f x sr y : (f <= 3)%Z -> exp_unit L -> xsr_ok sr -> span f (x_fade x) -> x_init L fuel x sr = Val y -> x_inv2 L y.
Proof.
  intros Hf HL S T H. destruct (init_parts _ _ _ _ _ H) as (A & B & C & D & E & F). unfold x_inv2. rewrite B, D, E. split; [|split; [|split]].
  - unfold ll_init in A. eapply (lag_time_inv f _ _ _ Hf T); [| |exact A]; [exact S|]. apply lag_rest; [now right|reflexivity|lia].
  - pose proof (ad_init_inv L sr HL (xsr_sr sr S)) as I. unfold init_env.
    apply (ad_step_inv L _ (AdAttack (x_fade x)) HL Logic.I) in I. destruct I as [I _]. apply (ad_step_inv L _ (AdDecay zero) HL Logic.I) in I. destruct I as [I _].
    apply (ad_step_inv L _ (AdSustain one) HL) in I; [|reflexivity]. destruct I as [I _]. apply (ad_step_inv L _ (AdRelease (x_fade x)) HL Logic.I) in I. destruct I as [I _].
    apply (ad_step_inv L _ (AdAction 2) HL Logic.I) in I. destruct I as [I _]. apply (ad_step_inv L _ (AdGate (x_gate x)) HL Logic.I) in I. destruct I as [I _]. exact I.
  - unfold init_env. rewrite (proj2 (setgate_rc _ _)). reflexivity.
  - unfold init_env. rewrite (proj1 (setgate_rc _ _)). reflexivity.
Qed.
Lemma inv2_keeps L x y : keeps x y -> x_inv2 L x -> x_inv2 L y.
Proof. intros (A & B & C & D & E & F). unfold x_inv2. rewrite B, C, D, E. auto. Qed.
Lemma start_end_keeps fuel x s e p y : x_setStartEnd fuel x s e p = Val y -> keeps x y.
Proof.
  unfold x_setStartEnd. cbv zeta. destruct (_ && _); [intros H; injection H as <-; repeat split|]. intros H. apply update_keeps in H. exact H.
Qed.
Lemma call_inv2 f L fuel x o y out : (f <= 3)%Z -> exp_unit L -> x_inv f x -> x_inv2 L x -> x_op_ok f o -> x_call L fuel x o = Val (y, out) -> x_inv2 L y.
Proof.
  intros Hf HL I J O H. pose proof I as (Hb & Hs & H0 & H1 & Hr & Hfd & Hd & L1 & L2 & (FR & LS & SZ & FU) & (Fp & Bp)). pose proof J as (J1 & J2 & J3 & J4).
  destruct o as [sr|b|s e pr|r|b|t|g|m|l| |]; cbn [x_call] in H.
  - destruct (x_init L fuel x sr) as [z| |] eqn:E; cbn [rbind] in H; try discriminate H. injection H as <- _. exact (init_inv2 L fuel f x sr z Hf HL O Hfd E).
  - destruct (x_setBuffer fuel x b) as [z| |] eqn:E; cbn [rbind] in H; try discriminate H. injection H as <- _. apply update_keeps in E.
    destruct E as (_ & B & C & D & E & F). unfold x_inv2. rewrite B, C, D, E. exact J.
  - destruct (x_setStartEnd fuel x s e pr) as [z| |] eqn:E; cbn [rbind] in H; try discriminate H. injection H as <- _. apply start_end_keeps in E. exact (inv2_keeps L x z E J).
  - injection H as <- _. exact J.
  - injection H as <- _. exact J.
  - unfold x_setFadeTime in H. cbv zeta in H. destruct (ll_setTime (x_lag x) (smax zero t)) as [l|] eqn:E; cbn [of_opt rbind] in H; try discriminate H. injection H as <- _.
    unfold x_inv2. cbn [x_lag x_env x_sr x_fade]. pose proof (fade_span f t O) as S. split; [|split; [|split]].
    + eapply (lag_time_inv f _ _ _ Hf S); [| |exact E]; [now rewrite L1|exact J1].
    + apply (ad_step_inv L _ (AdAttack (smax zero t)) HL Logic.I) in J2. destruct J2 as [J2 _]. apply (ad_step_inv L _ (AdRelease (smax zero t)) HL Logic.I) in J2. exact (proj1 J2).
    + exact J3.
    + cbn [ad_setRelease ad_rc ad_setAttack ad_sr]. now rewrite J3.
  - injection H as <- _. unfold x_inv2, x_setGate. cbn [x_lag x_env x_sr x_fade]. destruct (setgate_rc (x_env x) g) as [-> ->]. split; [exact J1|]. split; [|auto].
    exact (proj1 (ad_step_inv L _ (AdGate g) HL Logic.I J2)).
  - injection H as <- _. exact J.
  - injection H as <- _. exact J.
  - injection H as <- _. exact J.
  - destruct (x_tick L x) as [[q z]| |] eqn:E; cbn [rbind fst snd] in H; try discriminate H. injection H as <- _.
    destruct (tick_shape _ _ _ _ E) as [(-> & _)|(_ & _ & h & lag & fd & s1 & s2 & T & _ & _ & _ & ->)]; [exact J|]. unfold x_inv2. cbn [x_lag x_env x_sr x_fade].
    destruct (tick_rc (x_env x)) as [-> ->]. split; [|split; [exact (proj1 (ad_tick_inv _ J2))|auto]].
    eapply (lag_tick_inv f _ _ _ _ Hf _ _ J1 _ T). Unshelve. all: [> now rewrite L2|now rewrite L1|destruct (fle _ _); [now left|now right]].
Qed.

(** ** Output level *)
Lemma mulb (x y : f32) M : fin x -> fin y -> Rabs (B2R x) * Rabs (B2R y) <= M -> M <= bpow radix2 110 ->
  fin (fmul x y) /\ Rabs (B2R (fmul x y)) <= M * (1 + bpow radix2 (-24)) + bpow radix2 (-150).
Proof.
  intros Fx Fy B Bm. rewrite <- Rabs_mult in B. destruct (bdy 110 ltac:(lia)) as [D1 D2].
  destruct (fmul_b (- bpow radix2 110) (bpow radix2 110) x y) as (F & E & _); auto; [apply Rabs_le_inv; lra|]. split; [exact F|]. rewrite E.
  pose proof (rrel32 (B2R x * B2R y)) as Er. pose proof (bpow_gt_0 radix2 (-24)). set (m := B2R x * B2R y) in *. 
  apply Rle_trans with (Rabs (rnd32 m - m) + Rabs m); [eapply Rle_trans; [|apply Rabs_triang]; right; f_equal; ring|]. pose proof (Rabs_pos m). nra.
Qed.
Lemma addb (x y : f32) M : fin x -> fin y -> Rabs (B2R x) + Rabs (B2R y) <= M -> M <= bpow radix2 110 ->
  fin (fadd x y) /\ Rabs (B2R (fadd x y)) <= M * (1 + bpow radix2 (-24)) + bpow radix2 (-150).
Proof.
  intros Fx Fy B Bm. assert (B2 : Rabs (B2R x + B2R y) <= M) by (eapply Rle_trans; [apply Rabs_triang|exact B]). destruct (bdy 110 ltac:(lia)) as [D1 D2].
  destruct (fadd_b (- bpow radix2 110) (bpow radix2 110) x y) as (F & E & _); auto; [apply Rabs_le_inv; lra|]. split; [exact F|]. rewrite E.
  pose proof (rrel32 (B2R x + B2R y)) as Er. pose proof (bpow_gt_0 radix2 (-24)). set (m := B2R x + B2R y) in *. 
  apply Rle_trans with (Rabs (rnd32 m - m) + Rabs m); [eapply Rle_trans; [|apply Rabs_triang]; right; f_equal; ring|]. pose proof (Rabs_pos m). nra.
Qed.
Lemma cos_sin_sum a : Rabs (cos a) + Rabs (sin a) <= 1.41422.
Proof.
  pose proof (sin2_cos2 a) as E. unfold Rsqr in E. assert (S : (Rabs (cos a) + Rabs (sin a)) * (Rabs (cos a) + Rabs (sin a)) <= 2).
  { pose proof (Rsqr_abs (cos a)) as A. pose proof (Rsqr_abs (sin a)) as B. pose proof (Rle_0_sqr (Rabs (cos a) - Rabs (sin a))) as C. unfold Rsqr in *.
    set (c := Rabs (cos a)) in *. set (s := Rabs (sin a)) in *. clearbody c s. nra. }
  pose proof (Rabs_pos (cos a)). pose proof (Rabs_pos (sin a)). set (q := Rabs (cos a) + Rabs (sin a)) in *. assert (0 <= q) by (unfold q; lra). clearbody q. nra.
Qed.
Lemma gains_sum L fd : trig_acc L -> fin fd -> let '(a, b) := computeGains L fd one in
  fin a /\ fin b /\ Rabs (B2R a) + Rabs (B2R b) <= 1.41423.
Proof.
  intros T F. unfold computeGains. cbv zeta. rewrite !fmul_one. destruct (gains_acc L fd T (fin_nan _ F)) as [[Fs Es] [Fc Ec]].
  split; [exact Fc|]. split; [exact Fs|]. pose proof (cos_sin_sum (B2R (pan_angle fd))) as S. set (c := cos _) in *. set (s := sin _) in *.
  assert (C : Rabs (B2R (m_cos L (pan_angle fd))) <= Rabs c + (bpow radix2 (-23) * Rabs c + bpow radix2 (-149))) by (pose proof (Rabs_triang_inv (B2R (m_cos L (pan_angle fd))) c); lra).
  assert (D : Rabs (B2R (m_sin L (pan_angle fd))) <= Rabs s + (bpow radix2 (-23) * Rabs s + bpow radix2 (-149))) by (pose proof (Rabs_triang_inv (B2R (m_sin L (pan_angle fd))) s); lra).
  assert (Q : bpow radix2 (-149) <= bpow radix2 (-30)) by (apply bpow_le; lia). pose proof (Rabs_pos c). pose proof (Rabs_pos s). revert C D Q. bp. intros. nra.
Qed.
Definition lvl (e : R) (x : f32) : Prop := fin x /\ Rabs (B2R x) <= e.
Lemma mixb e (x y a b v : f32) : bpow radix2 (-100) <= e <= bpow radix2 100 -> lvl e x -> lvl e y -> fin a -> fin b -> Rabs (B2R a) + Rabs (B2R b) <= 1.41423 -> unit_sample v ->
  fin (fmul (fadd (fmul x a) (fmul y b)) v) /\ Rabs (B2R (fmul (fadd (fmul x a) (fmul y b)) v)) <= 1.4143 * e.
Proof.
  intros [Dn Up] [Fx Bx] [Fy By] Fa Fb G [Fv Bv]. pose proof (Rabs_pos (B2R a)). pose proof (Rabs_pos (B2R b)). pose proof (Rabs_pos (B2R x)). pose proof (Rabs_pos (B2R y)).
  assert (P : 0 < e) by (pose proof (bpow_gt_0 radix2 (-100)); lra).
  assert (Lo : bpow radix2 (-150) <= bpow radix2 (-50) * e).
  { change (-150)%Z with (-50 + -100)%Z. rewrite bpow_plus. apply Rmult_le_compat_l; [apply bpow_ge_0|exact Dn]. }
  assert (Big : 2 * bpow radix2 100 <= bpow radix2 110) by (replace (bpow radix2 110) with (bpow radix2 10 * bpow radix2 100) by (rewrite <- bpow_plus; reflexivity); pose proof (bpow_gt_0 radix2 100); change (bpow radix2 10) with 1024; lra).
  set (H100 := bpow radix2 100) in *. clearbody H100. assert (Ea : 0 <= e * Rabs (B2R a)) by (apply Rmult_le_pos; lra). assert (Eb : 0 <= e * Rabs (B2R b)) by (apply Rmult_le_pos; lra).
  assert (Eg : e * Rabs (B2R a) + e * Rabs (B2R b) <= e * 1.41423) by (rewrite <- Rmult_plus_distr_l; apply Rmult_le_compat_l; lra).
  destruct (mulb x a (e * Rabs (B2R a)) Fx Fa ltac:(apply Rmult_le_compat_r; lra) ltac:(lra)) as [Fp Bp].
  destruct (mulb y b (e * Rabs (B2R b)) Fy Fb ltac:(apply Rmult_le_compat_r; lra) ltac:(lra)) as [Fq Bq]. set (p := fmul x a) in *. set (q := fmul y b) in *. clearbody p q. set (ea := e * Rabs (B2R a)) in *. set (eb := e * Rabs (B2R b)) in *. clearbody ea eb. clear G. clear Fx Bx Fy By Fa Fb.
  assert (U : 0 < bpow radix2 (-24) <= / 16000000) by (bp; lra). assert (W : bpow radix2 (-50) <= / 16000000) by (bp; lra).
  assert (Lt : bpow radix2 (-150) <= e * / 16000000) by (eapply Rle_trans; [exact Lo|]; rewrite Rmult_comm; apply Rmult_le_compat_l; lra). clear Lo W.
  assert (X : forall m, 0 <= m -> m * (1 + bpow radix2 (-24)) + bpow radix2 (-150) <= m + m * / 16000000 + e * / 16000000).
  { intros m Hm. pose proof (Rmult_le_compat_l m _ _ Hm (proj2 U)). lra. }
  apply (Rle_trans _ _ _) with (2 := X ea Ea) in Bp. apply (Rle_trans _ _ _) with (2 := X eb Eb) in Bq.
  destruct (addb p q (1.41424 * e) Fp Fq ltac:(lra) ltac:(lra)) as [Fs Bs]. apply (Rle_trans _ _ _) with (2 := X (1.41424 * e) ltac:(lra)) in Bs. set (s := fadd p q) in *. clearbody s.
  assert (S2 : Rabs (B2R s) * Rabs (B2R v) <= 1.41425 * e).
  { rewrite (Rabs_pos_eq (B2R v)) by lra. pose proof (Rabs_pos (B2R s)). apply Rle_trans with (Rabs (B2R s) * 1); [apply Rmult_le_compat_l; lra|lra]. }
  destruct (mulb s v _ Fs Fv S2 ltac:(lra)) as [Fr Br]. apply (Rle_trans _ _ _) with (2 := X (1.41425 * e) ltac:(lra)) in Br. split; [exact Fr|]. lra.
Qed.
Definition heard (j : Z) (r : bufrd) : Prop := match rd_buf r with Some b => rb_valid b = true -> loud j b 0 /\ loud j b 1 | None => True end.
(** What one read gives, at most. *)
Definition reads (e : R) (r : bufrd) : Prop := forall p s, fin p -> rd_tick2 r p = Some s -> lvl e (fst s) /\ lvl e (snd s).
Lemma lvl0 e : 0 <= e -> lvl e zero. Proof. intros. split; [reflexivity|]. now rewrite zero_R, Rabs_R0. Qed.
Lemma read_plain j b r : (-100 <= j <= 100)%Z -> xbuf_ok b -> reader_of b r -> heard j r -> rd_mode r <> 4%Z -> reads (bpow radix2 j) r.
Proof.
  intros J Hb R H M p s F E. pose proof (bpow_ge_0 radix2 j) as P. assert (Z : s = (zero, zero) -> lvl (bpow radix2 j) (fst s) /\ lvl (bpow radix2 j) (snd s)) by (intros ->; split; now apply lvl0).
  destruct r as [rb lp md]. unfold reader_of in R. unfold heard in H. cbn [rd_buf rd_mode] in R, H, M.
  destruct R as [-> | ->]; [|injection E as <-; now apply Z]. destruct b as [b|]; [|injection E as <-; now apply Z]. destruct Hb as [H1 _].
  destruct (rb_valid b) eqn:V; [|unfold rd_tick2 in E; cbn [rd_buf] in E; rewrite V in E; injection E as <-; now apply Z].
  destruct (H1 eq_refl) as [O _]. destruct (H eq_refl) as [A0 A1]. destruct (rd_bounded j b lp md p O ltac:(lia) A0 A1 M (or_introl F)) as (l & r & _ & E2 & B0 & B1).
  rewrite E2 in E. injection E as <-. auto.
Qed.
Lemma cubic_level j b lp p : rb_ok b -> (-100 <= j <= 95)%Z -> loud j b 0 -> loud j b 1 -> fin p ->
  exists l r, rd_tick2 (BufRd (Some b) lp 4) p = Some (l, r) /\ lvl (1.2501 * bpow radix2 j) l /\ lvl (1.2501 * bpow radix2 j) r.
Proof.
  intros O J L0 L1 P. destruct (phase_ok lp (rb_n b) p (ok_n b O) (or_introl P)) as [F B]. destruct (split_frac _ F B) as (i & f & S & I & Ff & Bf).
  destruct (tick_form b lp 4 p i f O S I) as [_ A1]. eexists _, _. split; [exact A1|]. pose proof (ok_n b O).
  assert (T : forall c, loud j b c -> lvl (1.2501 * bpow radix2 j) (interp 4 lp b c i f)).
  { intros c L. pose proof (tap_loud j b c i L ltac:(lia)) as X0.
    pose proof (tap_loud j b c (rd_wrap lp (i + 1) (rb_n b)) L ltac:(apply wrap_nn; lia)) as X1.
    pose proof (tap_loud j b c (rd_wrap lp (i + 2) (rb_n b)) L ltac:(apply wrap_nn; lia)) as X2.
    pose proof (tap_loud j b c (rd_prev lp i (rb_n b)) L ltac:(apply prev_nn; lia)) as X3.
    cbv beta zeta delta [interp]. change (4 =? 2)%Z with false. change (4 =? 4)%Z with true. cbv iota.
    destruct (cubic_acc j _ _ _ _ f ltac:(lia) X3 X0 X1 X2 Ff ltac:(lra)) as [Fc Ec]. split; [exact Fc|].
    pose proof (spline_le (bpow radix2 j) (B2R f) _ _ _ _ ltac:(lra) (proj2 X3) (proj2 X0) (proj2 X1) (proj2 X2)) as SB.
    set (y := rd_cubic _ _ _ _ _) in *. clearbody y. set (z := spline _ _ _ _ _) in *. clearbody z.
    replace (B2R y) with (z + (B2R y - z)) by ring. eapply Rle_trans; [apply Rabs_triang|].
    assert (E17 : bpow radix2 (j - 17) = / 131072 * bpow radix2 j) by (unfold Z.sub; rewrite Z.add_comm, bpow_plus; reflexivity).
    pose proof (bpow_gt_0 radix2 j). lra. }
  split; now apply T.
Qed.
Lemma read_any j b r : (-100 <= j <= 95)%Z -> xbuf_ok b -> reader_of b r -> heard j r -> reads (1.2501 * bpow radix2 j) r.
Proof.
  intros J Hb R H. destruct (Z.eq_dec (rd_mode r) 4) as [M|M].
  - intros p s F E. pose proof (bpow_ge_0 radix2 j) as P. assert (Z : s = (zero, zero) -> lvl (1.2501 * bpow radix2 j) (fst s) /\ lvl (1.2501 * bpow radix2 j) (snd s)) by (intros ->; split; apply lvl0; lra).
    destruct r as [rb lp md]. unfold reader_of in R. unfold heard in H. cbn [rd_buf rd_mode] in R, H, M. subst md.
    destruct R as [-> | ->]; [|injection E as <-; now apply Z]. destruct b as [b|]; [|injection E as <-; now apply Z]. destruct Hb as [H1 _].
    destruct (rb_valid b) eqn:V; [|unfold rd_tick2 in E; cbn [rd_buf] in E; rewrite V in E; injection E as <-; now apply Z].
    destruct (H1 eq_refl) as [O _]. destruct (H eq_refl) as [A0 A1]. destruct (cubic_level j b lp p O J A0 A1 F) as (l & r & E2 & B0 & B1).
    rewrite E2 in E. injection E as <-. auto.
  - intros p s F E. pose proof (bpow_ge_0 radix2 j) as P. destruct (read_plain j b r ltac:(lia) Hb R H M p s F E) as [[F0 B0] [F1 B1]]. split; (split; [assumption|lra]).
Qed.
Lemma level_range j : (-100 <= j <= 100)%Z -> bpow radix2 (-100) <= bpow radix2 j <= bpow radix2 100.
Proof. intros. split; apply bpow_le; lia. Qed.
Lemma cubic_range j : (-100 <= j <= 95)%Z -> bpow radix2 (-100) <= 1.2501 * bpow radix2 j <= bpow radix2 100.
Proof.
  intros. assert (bpow radix2 (-100) <= bpow radix2 j <= bpow radix2 95) by (split; apply bpow_le; lia). assert (bpow radix2 100 = 32 * bpow radix2 95) by (change 100%Z with (5 + 95)%Z; rewrite bpow_plus; reflexivity).
  pose proof (bpow_gt_0 radix2 (-100)). lra.
Qed.
Lemma tick_lag f L x lag fd : (f <= 3)%Z -> x_inv f x -> x_inv2 L x -> ll_tick (x_lag x) (if fle (fadd (x_ls x) (x_size x)) (x_ph x) then one else fneg one) = Some (lag, fd) -> fin fd.
Proof.
  intros Hf (Hb & Hs & H0 & H1 & Hr & Hfd & Hd & L1 & L2 & _) (J1 & _) T. eapply (lag_tick_inv f _ _ _ _ Hf _ _ J1 _ T). Unshelve. all: [> now rewrite L2|now rewrite L1|destruct (fle _ _); [now left|now right]].
Qed.
Lemma tick_level f e L x y x' : (f <= 3)%Z -> bpow radix2 (-100) <= e <= bpow radix2 100 -> trig_acc L -> x_inv f x -> x_inv2 L x -> reads e (x_rd x) -> x_tick L x = Val (y, x') ->
  within2 (1.4143 * e) y.
Proof.
  intros Hf He HT I J H T. pose proof I as (Hb & Hs & H0 & H1 & Hr & Hfd & Hd & L1 & L2 & (FR & LS & SZ & FU) & Hp). pose proof (bpow_gt_0 radix2 (-100)).
  destruct (tick_shape _ _ _ _ T) as [(_ & -> & _)|(U & Z & h & lag & fd & s1 & s2 & TL & R1 & R2 & -> & _)].
  - unfold within2. cbn [fst snd]. rewrite zero_R, Rabs_R0. repeat split; try reflexivity; lra.
  - pose proof (tick_lag f L x lag fd Hf I J TL) as Ff. destruct (heads_ok f x I U (size_pos x SZ Z)) as [F1 F2].
    destruct (H _ _ F1 R1) as [A1 A2]. destruct (H _ _ F2 R2) as [B1 B2]. destruct J as (_ & J2 & _). destruct (ad_tick_inv _ J2) as [_ V].
    pose proof (gains_sum L fd HT Ff) as G. unfold xf_process2. destruct (computeGains L fd one) as [ga gb]. destruct G as (Ga & Gb & G). unfold within2. cbn [fst snd].
    split; apply mixb; auto.
Qed.
Lemma call_heard j f L fuel x o y out : heard j (x_rd x) -> x_inv f x -> x_op_loud j o -> x_call L fuel x o = Val (y, out) -> heard j (x_rd y).
Proof.
  intros H I O C. destruct o as [sr|b|s e pr|r|b|t|g|m|l| |]; cbn [x_call] in C.
  - destruct (x_init L fuel x sr) as [z| |] eqn:E; cbn [rbind] in C; try discriminate C. injection C as <- _. destruct (init_parts _ _ _ _ _ E) as (_ & _ & R & _). rewrite R. exact Logic.I.
  - destruct (x_setBuffer fuel x b) as [z| |] eqn:E; cbn [rbind] in C; try discriminate C. injection C as <- _. apply update_keeps in E. destruct E as [E _]. rewrite E. cbn [x_rd rd_setBuffer].
    unfold heard. cbn [rd_setBuffer rd_buf]. destruct b as [b|]; [exact O|exact Logic.I].
  - destruct (x_setStartEnd fuel x s e pr) as [z| |] eqn:E; cbn [rbind] in C; try discriminate C. injection C as <- _. apply start_end_keeps in E. destruct E as [E _]. now rewrite E.
  - injection C as <- _. exact H.
  - injection C as <- _. exact H.
  - unfold x_setFadeTime in C. cbv zeta in C. destruct (ll_setTime _ _) as [l|]; cbn [of_opt rbind] in C; try discriminate C. injection C as <- _. exact H.
  - injection C as <- _. exact H.
  - injection C as <- _. exact H.
  - injection C as <- _. exact H.
  - injection C as <- _. exact H.
  - destruct (x_tick L x) as [[q z]| |] eqn:E; cbn [rbind fst snd] in C; try discriminate C. injection C as <- _.
    destruct (tick_shape _ _ _ _ E) as [(-> & _)|(_ & _ & h & lag & fd & s1 & s2 & _ & _ & _ & _ & ->)]; exact H.
Qed.
Lemma call_mode L fuel x o y out : rd_mode (x_rd x) <> 4%Z -> x_op_nocubic o -> x_call L fuel x o = Val (y, out) -> rd_mode (x_rd y) <> 4%Z.
Proof.
  intros H O C. destruct o as [sr|b|s e pr|r|b|t|g|m|l| |]; cbn [x_call x_op_nocubic] in C, O.
  - destruct (x_init L fuel x sr) as [z| |] eqn:E; cbn [rbind] in C; try discriminate C. injection C as <- _. destruct (init_parts _ _ _ _ _ E) as (_ & _ & R & _). rewrite R. cbn. lia.
  - destruct (x_setBuffer fuel x b) as [z| |] eqn:E; cbn [rbind] in C; try discriminate C. injection C as <- _. apply update_keeps in E. destruct E as [E _]. rewrite E. exact H.
  - destruct (x_setStartEnd fuel x s e pr) as [z| |] eqn:E; cbn [rbind] in C; try discriminate C. injection C as <- _. apply start_end_keeps in E. destruct E as [E _]. now rewrite E.
  - injection C as <- _. exact H.
  - injection C as <- _. exact H.
  - unfold x_setFadeTime in C. cbv zeta in C. destruct (ll_setTime _ _) as [l|]; cbn [of_opt rbind] in C; try discriminate C. injection C as <- _. exact H.
  - injection C as <- _. exact H.
  - injection C as <- _. exact O.
  - injection C as <- _. exact H.
  - injection C as <- _. exact H.
  - destruct (x_tick L x) as [[q z]| |] eqn:E; cbn [rbind fst snd] in C; try discriminate C. injection C as <- _.
    destruct (tick_shape _ _ _ _ E) as [(-> & _)|(_ & _ & h & lag & fd & s1 & s2 & _ & _ & _ & _ & ->)]; exact H.
Qed.
(** Outputs come from ticks. *)
Lemma call_out L fuel x o y q : x_call L fuel x o = Val (y, Some q) -> o = XTick /\ x_tick L x = Val (q, y).
Proof.
  intros C. destruct o as [sr|b|s e pr|r|b|t|g|m|l| |]; cbn [x_call] in C; try discriminate C.
  - destruct (x_init L fuel x sr); discriminate C.
  - destruct (x_setStartEnd fuel x s e pr); discriminate C.
  - destruct (x_setFadeTime L x t); discriminate C.
  - destruct (x_tick L x) as [[p z]| |]; cbn [rbind fst snd] in C; try discriminate C. injection C as <- <-. auto.
Qed.
(** An invariant of the calls and what it says about outputs. *)
Lemma run_scheme (P : xplay -> Prop) (Q : f32 * f32 -> Prop) (K : x_op -> Prop) L fuel :
  (forall x o y out, P x -> K o -> x_call L fuel x o = Val (y, out) -> P y /\ match out with Some q => Q q | None => True end) ->
  forall ops x y outs, P x -> Forall K ops -> x_run L fuel x ops = Val (y, outs) -> P y /\ Forall Q outs.
Proof.
  intros H. induction ops as [|o t IH]; intros x y outs Px Ks R; cbn [x_run] in R; [injection R as <- <-; auto|]. inversion Ks as [|? ? K1 K2]; subst.
  destruct (x_call L fuel x o) as [[z out]| |] eqn:C; cbn [rbind fst snd] in R; try discriminate R. destruct (H x o z out Px K1 C) as [Pz Qo].
  destruct (x_run L fuel z t) as [[w os]| |] eqn:E; cbn [rbind fst snd] in R; try discriminate R. injection R as <- <-. destruct (IH z w os Pz K2 E) as [Pw Qs].
  split; [exact Pw|]. destruct out; [constructor; assumption|exact Qs].
Qed.
Definition x_inv3 (f : Z) (L : libm) (x : xplay) : Prop := x_inv f x /\ x_inv2 L x.
Lemma call_inv3 f L fuel x o y out : (f <= 3)%Z -> exp_unit L -> x_inv3 f L x -> x_op_ok f o -> x_call L fuel x o = Val (y, out) -> x_inv3 f L y.
Proof.
  intros Hf HL [I J] O C. split; [|exact (call_inv2 f L fuel x o y out Hf HL I J O C)]. pose proof (call_ok f L fuel x o ltac:(lia) I O) as A. rewrite C in A. exact A.
Qed.
(** Sessions: what holds after [init], kept by the calls. *)
Lemma session_scheme f (P : xplay -> Prop) (Q : f32 * f32 -> Prop) (K : x_op -> Prop) L fuel junk sr ops x outs : (-4 <= f <= 3)%Z -> exp_unit L -> xsr_ok sr -> Forall (x_op_ok f) ops -> Forall K ops ->
  (forall y, x_inv3 f L y -> x_rd y = rd_init None -> x_env y = init_env L (x_new (fst (fst junk)) (snd (fst junk)) (snd junk)) sr -> x_gate y = one -> x_buf y = None -> P y) ->
  (forall x o y out, x_inv3 f L x -> x_inv3 f L y -> P x -> x_op_ok f o -> K o -> x_call L fuel x o = Val (y, out) -> P y /\ match out with Some q => Q q | None => True end) ->
  x_session L fuel junk sr ops = Val (x, outs) -> x_inv3 f L x /\ P x /\ Forall Q outs.
Proof.
  intros Hf HL Hs O Ks Init Step S. unfold x_session in S. destruct junk as [[rd lag] env]. cbn [fst snd] in Init.
  pose proof (new_ok f L fuel (rd, lag, env) sr ltac:(lia) Hs) as N. cbv beta iota in N. destruct N as (y0 & E0 & I0). cbn [x_run x_call] in S. rewrite E0 in S. cbn [rbind fst snd] in S.
  assert (J0 : x_inv2 L y0).
  { eapply (init_inv2 L fuel f); [lia|exact HL|exact Hs| |exact E0]. cbn [x_new x_fade]. split; [ffin|]. assert (bpow radix2 (-4) <= bpow radix2 f) by (apply bpow_le; lia). fval (fdec 5 100 : f32). split; [lra|]. eapply Rle_trans; [|eassumption]. bp. lra. }
  destruct (init_parts _ _ _ _ _ E0) as (_ & Pe & Pr & _ & _ & Pg). assert (Pb : x_buf y0 = None).
  { unfold x_init in E0. destruct (ll_init _ _ _); cbn [of_opt rbind] in E0; [|discriminate E0]. cbv zeta in E0. destruct (update_fields _ _ _ E0) as [Eb _]. rewrite Eb. reflexivity. }
  destruct (x_run L fuel y0 ops) as [[w os]| |] eqn:R; cbn [rbind fst snd] in S; try discriminate S. injection S as <- <-.
  destruct (run_scheme (fun x => x_inv3 f L x /\ P x) Q (fun o => x_op_ok f o /\ K o) L fuel) with (ops := ops) (x := y0) (y := w) (outs := os) as [[A B] C]; auto.
  - intros x o y out [Ix Px] [Oo Ko] Cc. pose proof (call_inv3 f L fuel x o y out ltac:(lia) HL Ix Oo Cc) as Iy. destruct (Step x o y out Ix Iy Px Oo Ko Cc). auto.
  - split; [split; assumption|]. apply Init; auto. split; assumption.
  - rewrite Forall_forall in *. auto.
Qed.
Lemma session_level f j L fuel junk sr ops x outs : (-4 <= f <= 3)%Z -> (-100 <= j <= 100)%Z -> trig_acc L -> exp_unit L -> xsr_ok sr -> Forall (x_op_ok f) ops -> Forall (x_op_loud j) ops -> Forall x_op_nocubic ops ->
  x_session L fuel junk sr ops = Val (x, outs) -> Forall (within2 (1.4143 * bpow radix2 j)) outs.
Proof.
  intros Hf Hj HT HL Hs O K M S. assert (KM : Forall (fun o => x_op_loud j o /\ x_op_nocubic o) ops) by (now apply Forall_and).
  eapply (session_scheme f (fun x => heard j (x_rd x) /\ rd_mode (x_rd x) <> 4%Z) _ (fun o => x_op_loud j o /\ x_op_nocubic o)) in S; eauto; [apply S| |].
  - intros y _ R _ _ _. rewrite R. split; [exact I|cbn; lia].
  - intros x0 o y out [I1 J1] _ [H H'] Oo [Ko Km] C. split; [split; [exact (call_heard j f L fuel x0 o y out H I1 Ko C)|exact (call_mode L fuel x0 o y out H' Km C)]|].
    destruct out as [q|]; [|exact I]. destruct (call_out _ _ _ _ _ _ C) as [_ T]. pose proof I1 as (Hb & _ & _ & _ & _ & _ & Hd & _).
    eapply (tick_level f (bpow radix2 j) L x0); eauto; [lia|now apply level_range|]. now apply (read_plain j (x_buf x0)).
Qed.
Lemma session_level_any f j L fuel junk sr ops x outs : (-4 <= f <= 3)%Z -> (-100 <= j <= 95)%Z -> trig_acc L -> exp_unit L -> xsr_ok sr -> Forall (x_op_ok f) ops -> Forall (x_op_loud j) ops ->
  x_session L fuel junk sr ops = Val (x, outs) -> Forall (within2 (1.4143 * (1.2501 * bpow radix2 j))) outs.
Proof.
  intros Hf Hj HT HL Hs O K S. eapply (session_scheme f (fun x => heard j (x_rd x)) _ (x_op_loud j)) in S; eauto; [apply S| |].
  - intros y _ R _ _ _. rewrite R. exact I.
  - intros x0 o y out [I1 J1] _ H Oo Ko C. split; [exact (call_heard j f L fuel x0 o y out H I1 Ko C)|]. destruct out as [q|]; [|exact I]. destruct (call_out _ _ _ _ _ _ C) as [_ T].
    pose proof I1 as (Hb & _ & _ & _ & _ & _ & Hd & _). eapply (tick_level f _ L x0); eauto; [lia|now apply cubic_range|]. now apply (read_any j (x_buf x0)).
Qed.

(** ** [init] drops the buffer of the reader *)
Lemma mix0 (x y a b v : f32) : fin x -> fin y -> B2R x = 0 -> B2R y = 0 -> fin a -> fin b -> fin v -> fin (fmul (fadd (fmul x a) (fmul y b)) v) /\ B2R (fmul (fadd (fmul x a) (fmul y b)) v) = 0.
Proof.
  intros Fx Fy Ex Ey Fa Fb Fv. destruct (zero_mul x a Fx Fa Ex) as [F1 E1]. destruct (zero_mul y b Fy Fb Ey) as [F2 E2].
  assert (S : fin (fadd (fmul x a) (fmul y b)) /\ B2R (fadd (fmul x a) (fmul y b)) = 0). { destruct (add_zero (fmul x a) (fmul y b) F1 F2 E2) as [[F3 E3] _]. split; [exact F3|]. rewrite E3. exact E1. }
  destruct S as [F3 E3]. exact (zero_mul _ v F3 Fv E3).
Qed.
Lemma tick_mute f L x y x' : (f <= 3)%Z -> trig_acc L -> x_inv3 f L x -> rd_buf (x_rd x) = None -> x_tick L x = Val (y, x') -> quiet2 y.
Proof.
  intros Hf HT [I J] R T. destruct (tick_shape _ _ _ _ T) as [(_ & -> & _)|(U & Z & h & lag & fd & s1 & s2 & TL & R1 & R2 & -> & _)].
  - unfold quiet2. cbn [fst snd]. rewrite zero_R. repeat split; reflexivity.
  - pose proof (tick_lag f L x lag fd Hf I J TL) as Ff. unfold rd_tick2 in R1, R2. rewrite R in R1, R2. injection R1 as <-. injection R2 as <-. destruct J as (_ & J2 & _). destruct (ad_tick_inv _ J2) as [_ [V _]].
    pose proof (gains_sum L fd HT Ff) as G. unfold xf_process2. destruct (computeGains L fd one) as [ga gb]. destruct G as (Ga & Gb & G). unfold quiet2. cbn [fst snd].
    split; apply mix0; auto; reflexivity.
Qed.
Lemma call_mute L fuel x o y out : rd_buf (x_rd x) = None -> x_op_nobuf o -> x_call L fuel x o = Val (y, out) -> rd_buf (x_rd y) = None.
Proof.
  intros H O C. destruct o as [sr|b|s e pr|r|b|t|g|m|l| |]; cbn [x_call x_op_nobuf] in C, O; try contradiction.
  - destruct (x_init L fuel x sr) as [z| |] eqn:E; cbn [rbind] in C; try discriminate C. injection C as <- _. destruct (init_parts _ _ _ _ _ E) as (_ & _ & R & _). rewrite R. reflexivity.
  - destruct (x_setStartEnd fuel x s e pr) as [z| |] eqn:E; cbn [rbind] in C; try discriminate C. injection C as <- _. apply start_end_keeps in E. destruct E as [E _]. now rewrite E.
  - injection C as <- _. exact H.
  - injection C as <- _. exact H.
  - unfold x_setFadeTime in C. cbv zeta in C. destruct (ll_setTime _ _) as [l|]; cbn [of_opt rbind] in C; try discriminate C. injection C as <- _. exact H.
  - injection C as <- _. exact H.
  - injection C as <- _. exact H.
  - injection C as <- _. exact H.
  - injection C as <- _. exact H.
  - destruct (x_tick L x) as [[q z]| |] eqn:E; cbn [rbind fst snd] in C; try discriminate C. injection C as <- _.
    destruct (tick_shape _ _ _ _ E) as [(-> & _)|(_ & _ & h & lag & fd & s1 & s2 & _ & _ & _ & _ & ->)]; exact H.
Qed.
Lemma session_inv3 f L fuel junk sr ops x outs : (-4 <= f <= 3)%Z -> exp_unit L -> xsr_ok sr -> Forall (x_op_ok f) ops -> x_session L fuel junk sr ops = Val (x, outs) -> x_inv3 f L x.
Proof.
  intros Hf HL Hs O S. eapply (session_scheme f (fun _ => True) (fun _ => True) (fun _ => True)) in S; eauto; [apply S|rewrite Forall_forall; auto|]. intros ? ? ? out; intros; destruct out; auto.
Qed.
Lemma mute_run f L fuel x sr ops y outs : (f <= 3)%Z -> trig_acc L -> exp_unit L -> x_inv3 f L x -> xsr_ok sr -> Forall (x_op_ok f) ops ->
  Forall x_op_nobuf ops -> x_run L fuel x (XInit sr :: ops) = Val (y, outs) -> Forall quiet2 outs.
Proof.
  intros Hf HT HL I Hs O K R. cbn [x_run] in R. destruct (x_call L fuel x (XInit sr)) as [[z out]| |] eqn:C; cbn [rbind fst snd] in R; try discriminate R.
  pose proof (call_inv3 f L fuel x (XInit sr) z out Hf HL I Hs C) as Iz. assert (M : rd_buf (x_rd z) = None /\ out = None).
  { cbn [x_call] in C. destruct (x_init L fuel x sr) as [z'| |] eqn:E; cbn [rbind] in C; try discriminate C. injection C as <- <-. destruct (init_parts _ _ _ _ _ E) as (_ & _ & Rd & _). rewrite Rd. auto. }
  destruct M as [M ->]. destruct (x_run L fuel z ops) as [[w os]| |] eqn:E; cbn [rbind fst snd] in R; try discriminate R. injection R as <- <-.
  pose proof (run_scheme (fun x => x_inv3 f L x /\ rd_buf (x_rd x) = None) quiet2 (fun o => x_op_ok f o /\ x_op_nobuf o) L fuel) as RS.
  refine (proj2 (RS _ ops z w os (conj Iz M) _ E)).
  - intros x0 o y0 out [Ix Rx] [Oo Ko] Cc. split; [split; [exact (call_inv3 f L fuel _ _ _ _ Hf HL Ix Oo Cc)|exact (call_mute L fuel _ _ _ _ Rx Ko Cc)]|].
    destruct out as [q|]; [|exact Logic.I]. destruct (call_out _ _ _ _ _ _ Cc) as [_ T]. exact (tick_mute f L x0 q y0 Hf HT Ix Rx T).
  - apply Forall_and; assumption.
Qed.

(** ** Nothing to play: nothing moves *)
Lemma tick_stuck L x : x_usable (x_buf x) = false \/ fle (x_size x) zero = true -> x_tick L x = Val ((zero, zero), x).
Proof. intros H. unfold x_tick. replace (negb (x_usable (x_buf x)) || fle (x_size x) zero) with true; [reflexivity|]. destruct H as [-> | ->]; [reflexivity|now rewrite orb_true_r]. Qed.
Lemma ticks_stuck L fuel x n : x_usable (x_buf x) = false \/ fle (x_size x) zero = true -> x_run L fuel x (repeat XTick n) = Val (x, repeat (zero, zero) n).
Proof. intros H. induction n as [|n IH]; [reflexivity|]. cbn [repeat x_run x_call]. rewrite (tick_stuck L x H). cbn [rbind fst snd]. rewrite IH. reflexivity. Qed.

(** ** The end of a note *)
Lemma rc_below f L t sr : (f <= 3)%Z -> exp_acc L -> xsr_ok sr -> span f t -> B2R (coeff L (clamp_time t) sr) < 1.
Proof.
  intros Hf HA [Fs Bs] [Ft Bt]. assert (Q : bpow radix2 f <= 8) by (change 8 with (bpow radix2 3); apply bpow_le; lia).
  assert (C : fin (clamp_time t) /\ 0.00009 <= B2R (clamp_time t) <= 8).
  { assert (K : B2R c0001 = 13743895 / 137438953472) by (fval c0001; lra). unfold clamp_time. destruct (flt c0001 t) eqn:E.
    - apply flt_R in E; [|exact c0001_fin|exact Ft]. split; [exact Ft|lra].
    - split; [exact c0001_fin|lra]. }
  destruct C as [Fc Bc]. unfold coeff. set (c := clamp_time t) in *. change (bpow radix2 18) with 262144 in Bs.
  assert (D1 : dy32 (bpow radix2 (-14))) by (apply bdy; lia). assert (D2 : dy32 (bpow radix2 21)) by (apply bdy; lia).
  destruct (fmul_b (bpow radix2 (-14)) (bpow radix2 21) c sr D1 D2 Fc Fs) as (Fp & Ep & Bp); [bp; nra|]. set (p := fmul c sr) in *. revert Bp. bp. intros Bp.
  assert (Fo : fin (fneg one : f32)) by ffin. assert (Eo : B2R (fneg one : f32) = -1) by (rewrite fneg_R, one_R; reflexivity).
  assert (Pi : / 2097152 <= / B2R p <= 16384). { split; [apply Rinv_le_contravar; lra|]. replace 16384 with (/ / 16384) by field. apply Rinv_le_contravar; lra. }
  assert (D3 : dy32 (- bpow radix2 14)) by (apply bdy; lia). assert (D4 : dy32 (- bpow radix2 (-21))) by (apply bdy; lia).
  destruct (fdiv_b (- bpow radix2 14) (- bpow radix2 (-21)) (fneg one) p D3 D4 Fo Fp) as (Fa & Ea & Ba); [lra|rewrite Eo; unfold Rdiv; bp; lra|].
  set (a := fdiv (fneg one) p) in *. revert Ba. bp. intros Ba. destruct (HA a Fa ltac:(lra)) as [_ A]. apply Rabs_le_inv in A. revert A. bp. intros A.
  pose proof (exp_neg_upper (/ 2097152) ltac:(lra)) as X. assert (Y : exp (B2R a) <= exp (- / 2097152)). { destruct (Rle_lt_or_eq_dec (B2R a) (- / 2097152)) as [G|G]; [lra|left; now apply exp_increasing|right; now f_equal]. }
  nra.
Qed.
(** The envelope inside a playing XPlay is ticked once per sample. *)
Lemma plays_tick L x b y x' : x_plays x b -> x_tick L x = Val (y, x') -> x_plays x' b /\ x_env x' = fst (ad_tick (x_env x)) /\ x_gate x' = x_gate x /\
  exists a c : f32, y = (fmul a (snd (ad_tick (x_env x))), fmul c (snd (ad_tick (x_env x)))).
Proof.
  intros (B & V & R & Z) T. destruct (tick_shape _ _ _ _ T) as [(_ & _ & [E|E])|(_ & _ & h & lag & fd & s1 & s2 & _ & _ & _ & -> & ->)];
    [rewrite B in E; cbn in E; congruence|congruence|]. unfold x_plays. cbn [x_buf x_rd x_size x_env x_gate]. repeat split; auto. eauto.
Qed.
Lemma plays_ticks f L fuel b n : (f <= 3)%Z -> exp_unit L -> forall x, x_inv3 f L x -> x_plays x b ->
  exists y outs, x_run L fuel x (repeat XTick n) = Val (y, outs) /\ x_inv3 f L y /\ x_plays y b /\ x_env y = fst (ad_ticks n (x_env x)).
Proof.
  intros Hf HL. induction n as [|n IH]; intros x I P; [exists x, []; auto|]. cbn [repeat x_run].
  pose proof (call_ok f L fuel x XTick ltac:(lia) (proj1 I) Logic.I) as C. destruct (x_call L fuel x XTick) as [[x1 out]| |] eqn:E; [|contradiction|exfalso; apply C; exact Logic.I].
  pose proof (call_inv3 f L fuel x XTick x1 out Hf HL I Logic.I E) as I1. cbn [x_call] in E. destruct (x_tick L x) as [[q z]| |] eqn:T; cbn [rbind fst snd] in E; try discriminate E. injection E as <- <-.
  destruct (plays_tick L x b q z P T) as (P1 & E1 & _ & _). destruct (IH z I1 P1) as (y & outs & R & Iy & Py & Ey). cbn [rbind fst snd]. rewrite R. cbn [rbind fst snd]. do 2 eexists. split; [reflexivity|].
  split; [exact Iy|]. split; [exact Py|]. rewrite Ey, E1, ad_ticks_S. reflexivity.
Qed.
Definition gated (x : xplay) : Prop := exists s, gate_inv (x_env x) (x_gate x) s.
Lemma new_gate L sr : gate_inv (ad_init L sr) fzero false. Proof. unfold gate_inv. cbn. auto 10. Qed.
Lemma call_gated L fuel x o y out : gated x -> x_op_gate o -> x_call L fuel x o = Val (y, out) -> gated y.
Proof.
  intros G O C. destruct o as [sr|b|s e pr|r|b|t|g|m|l| |]; cbn [x_call x_op_gate] in C, O.
  - destruct (x_init L fuel x sr) as [z| |] eqn:E; cbn [rbind] in C; try discriminate C. injection C as <- _. destruct (init_parts _ _ _ _ _ E) as (_ & Pe & _ & _ & _ & Pg).
    destruct G as (s & A & N & _). pose proof (new_gate L sr) as G0. unfold gated. rewrite Pe, Pg. unfold init_env.
    apply (gate_step L _ (AdAttack (x_fade x)) _ _ Logic.I) in G0. apply (gate_step L _ (AdDecay zero) _ _ Logic.I) in G0. apply (gate_step L _ (AdSustain one) _ _ Logic.I) in G0.
    apply (gate_step L _ (AdRelease (x_fade x)) _ _ Logic.I) in G0. apply (gate_step L _ (AdAction 2) _ _ Logic.I) in G0. apply (gate_step L _ (AdGate (x_gate x)) _ _ N) in G0. eexists. exact G0.
  - destruct (x_setBuffer fuel x b) as [z| |] eqn:E; cbn [rbind] in C; try discriminate C. injection C as <- _. apply update_keeps in E. destruct E as (_ & _ & E1 & _ & _ & E2). unfold gated. rewrite E1, E2. exact G.
  - destruct (x_setStartEnd fuel x s e pr) as [z| |] eqn:E; cbn [rbind] in C; try discriminate C. injection C as <- _. apply start_end_keeps in E. destruct E as (_ & _ & E1 & _ & _ & E2). unfold gated. rewrite E1, E2. exact G.
  - injection C as <- _. exact G.
  - injection C as <- _. exact G.
  - unfold x_setFadeTime in C. cbv zeta in C. destruct (ll_setTime _ _) as [l|]; cbn [of_opt rbind] in C; try discriminate C. injection C as <- _. exact G.
  - injection C as <- _. destruct G as (s & G). apply (gate_step L _ (AdGate g) _ _ O) in G. eexists. exact G.
  - injection C as <- _. exact G.
  - injection C as <- _. exact G.
  - injection C as <- _. exact G.
  - destruct (x_tick L x) as [[q z]| |] eqn:E; cbn [rbind fst snd] in C; try discriminate C. injection C as <- _.
    destruct (tick_shape _ _ _ _ E) as [(-> & _)|(_ & _ & h & lag & fd & s1 & s2 & _ & _ & _ & _ & ->)]; [exact G|]. destruct G as (s & G). exists s. exact (gate_tick _ _ _ G).
Qed.
Lemma session_gated f L fuel junk sr ops x outs : (-4 <= f <= 3)%Z -> exp_unit L -> xsr_ok sr -> Forall (x_op_ok f) ops -> Forall x_op_gate ops -> x_session L fuel junk sr ops = Val (x, outs) -> gated x.
Proof.
  intros Hf HL Hs O K S. eapply (session_scheme f gated (fun _ => True) x_op_gate) in S; eauto; [apply S| |].
  - intros y I3 _ E G _. pose proof (new_gate L sr) as G0. unfold gated. rewrite E, G. unfold init_env.
    set (t := x_fade _). apply (gate_step L _ (AdAttack t) _ _ Logic.I) in G0. apply (gate_step L _ (AdDecay zero) _ _ Logic.I) in G0. apply (gate_step L _ (AdSustain one) _ _ Logic.I) in G0.
    apply (gate_step L _ (AdRelease t) _ _ Logic.I) in G0. apply (gate_step L _ (AdAction 2) _ _ Logic.I) in G0. apply (gate_step L _ (AdGate one) _ _ eq_refl) in G0. eexists. exact G0.
  - intros x0 o y out _ _ G _ Ko C. split; [exact (call_gated L fuel x0 o y out G Ko C)|]. destruct out; exact Logic.I.
Qed.
Lemma session_heard f j L fuel junk sr ops x outs : (-4 <= f <= 3)%Z -> exp_unit L -> xsr_ok sr -> Forall (x_op_ok f) ops -> Forall (x_op_loud j) ops -> x_session L fuel junk sr ops = Val (x, outs) -> heard j (x_rd x).
Proof.
  intros Hf HL Hs O K S. eapply (session_scheme f (fun x => heard j (x_rd x)) (fun _ => True) (x_op_loud j)) in S; eauto; [apply S| |].
  - intros y _ R _ _ _. rewrite R. exact Logic.I.
  - intros x0 o y out [I1 J1] _ H Oo Ko C. split; [exact (call_heard j f L fuel x0 o y out H I1 Ko C)|]. destruct out; exact Logic.I.
Qed.
Lemma open_not_done x : gated x -> flt zero (x_gate x) = true -> x_isDone x = false.
Proof.
  intros (s & G & N & P & D & A & O) Gt. unfold x_isDone, ad_isDone. rewrite D. change (flt fzero (x_gate x) = true) in Gt. rewrite Gt in P. unfold ad_isActive. destruct (ad_state (x_env x)); try discriminate P; cbn; apply andb_false_r.
Qed.
Lemma tick_idle f j L x b y x' : (f <= 3)%Z -> (-100 <= j <= 95)%Z -> trig_acc L -> x_inv3 f L x -> heard j (x_rd x) -> x_plays x b -> ad_state (x_env x) = Idle -> x_tick L x = Val (y, x') ->
  quiet2 y /\ ad_state (x_env x') = Idle /\ ad_done (x_env x') = ad_done (x_env x) /\ x_rd x' = x_rd x.
Proof.
  intros Hf Hj HT [I J] H (B & V & R & Z0) St T. pose proof I as (Hb & Hs & H0 & H1 & Hr & Hfd & Hd & L1 & L2 & (FR & LS & SZ & FU) & Hp).
  destruct (tick_shape _ _ _ _ T) as [(_ & _ & [E|E])|(U & Z & h & lag & fd & s1 & s2 & TL & R1 & R2 & -> & ->)]; [rewrite B in E; cbn in E; congruence|congruence|].
  assert (TT : ad_tick (x_env x) = (ad_with (x_env x) fzero Idle (ad_gate (x_env x)) (ad_done (x_env x)), fzero)) by (unfold ad_tick; now rewrite St).
  cbn [x_env x_rd]. rewrite TT. cbn [fst snd ad_with ad_state ad_done]. split; [|auto].
  pose proof (tick_lag f L x lag fd Hf I J TL) as Ff. destruct (heads_ok f x I U (size_pos x SZ Z)) as [F1 F2].
  pose proof (read_any j _ _ Hj Hb Hd H) as RA. pose proof (cubic_range j Hj) as CR. destruct (RA _ _ F1 R1) as [A1 A2]. destruct (RA _ _ F2 R2) as [B1 B2].
  pose proof (gains_sum L fd HT Ff) as G. unfold xf_process2. destruct (computeGains L fd one) as [ga gb]. destruct G as (Ga & Gb & G). cbn [fst snd].
  assert (U1 : unit_sample one) by (split; [apply one_fin|rewrite one_R; lra]).
  destruct (mixb _ (fst s1) (fst s2) ga gb one CR A1 B1 Ga Gb G U1) as [X1 _]. destruct (mixb _ (snd s1) (snd s2) ga gb one CR A2 B2 Ga Gb G U1) as [X2 _]. rewrite fmul_one in X1, X2.
  split; apply mul_zero; auto; reflexivity.
Qed.
Lemma idle_ticks f j L fuel b n : (f <= 3)%Z -> (-100 <= j <= 95)%Z -> trig_acc L -> exp_unit L -> forall x, x_inv3 f L x -> heard j (x_rd x) -> x_plays x b -> ad_state (x_env x) = Idle -> ad_done (x_env x) = true ->
  exists y outs, x_run L fuel x (repeat XTick n) = Val (y, outs) /\ x_isDone y = true /\ Forall quiet2 outs.
Proof.
  intros Hf Hj HT HL. induction n as [|n IH]; intros x I H P St D; [exists x, []; auto|]. cbn [repeat x_run].
  pose proof (call_ok f L fuel x XTick ltac:(lia) (proj1 I) Logic.I) as C. destruct (x_call L fuel x XTick) as [[x1 out]| |] eqn:E; [|contradiction|exfalso; apply C; exact Logic.I].
  pose proof (call_inv3 f L fuel x XTick x1 out Hf HL I Logic.I E) as I1. cbn [x_call] in E. destruct (x_tick L x) as [[q z]| |] eqn:T; cbn [rbind fst snd] in E; try discriminate E. injection E as <- <-.
  destruct (plays_tick L x b q z P T) as (P1 & _). destruct (tick_idle f j L x b q z Hf Hj HT I H P St T) as (Q & St1 & D1 & R1).
  destruct (IH z I1 ltac:(now rewrite R1) P1 St1 ltac:(now rewrite D1)) as (y & outs & Ry & Dy & Qy). cbn [rbind fst snd]. rewrite Ry. cbn [rbind fst snd]. do 2 eexists. split; [reflexivity|].
  split; [exact Dy|]. constructor; assumption.
Qed.
Lemma release_done f j L fuel x b g : (f <= 3)%Z -> (-100 <= j <= 95)%Z -> trig_acc L -> exp_unit L -> exp_acc L -> x_inv3 f L x -> gated x -> heard j (x_rd x) -> x_plays x b -> flt zero (x_gate x) = true -> fle g zero = true ->
  exists n y outs, x_run L fuel x (XGate g :: repeat XTick n) = Val (y, outs) /\ x_isDone y = true /\
    forall m, exists z zs, x_run L fuel y (repeat XTick m) = Val (z, zs) /\ x_isDone z = true /\ Forall quiet2 zs.
Proof.
  intros Hf Hj HT HL HA I (s & G) H P Gt Gg. pose proof G as (A & N & Ph & D & Ac & O). change (flt fzero (x_gate x) = true) in Gt. rewrite Gt in Ph.
  set (x1 := x_setGate x g). assert (I1 : x_inv3 f L x1) by (apply (call_inv3 f L fuel x (XGate g) x1 None Hf HL I Logic.I); reflexivity).
  assert (S1 : ad_state (x_env x1) = Release).
  { cbn [x1 x_setGate x_env]. unfold ad_setgate. rewrite A, (pos_not_le _ Gt), Gt. cbn [andb]. change (fle g fzero = true) in Gg. rewrite Gg. cbn [andb ad_with ad_state].
    destruct (ad_state (x_env x)); try discriminate Ph; reflexivity. }
  destruct I1 as [I1 J1]. pose proof J1 as (_ & V1 & E1 & C1). pose proof V1 as ((Fv & Bv) & _). destruct (grid_nat (ad_value (x_env x1)) ltac:(lra)) as [m Em].
  assert (Rc : B2R (ad_rc (x_env x1)) < 1).
  { rewrite C1. apply (rc_below f); auto; apply I1. }
  destruct (ad_release_ends_aux m _ V1 S1 Rc Em) as (n & _ & Hi & Hd).
  destruct (plays_ticks f L fuel b (S n) Hf HL x1 (conj I1 J1) P) as (y & outs & R & Iy & Py & Ey). exists (S n), y, outs.
  assert (Hy : heard j (x_rd y)). { destruct P as (_ & _ & R0 & _). destruct Py as (_ & _ & Ry & _). unfold heard in *. rewrite Ry. rewrite R0 in H. exact H. }
  split; [|split].
  - change (XGate g :: repeat XTick (S n)) with ([XGate g] ++ repeat XTick (S n)). cbn [app]. change (x_run L fuel x (XGate g :: repeat XTick (S n))) with (q <~ x_run L fuel x1 (repeat XTick (S n)) ;; Val (fst q, snd q)). rewrite R. reflexivity.
  - unfold x_isDone, ad_isDone. rewrite Ey. exact Hd.
  - intros k. apply (idle_ticks f j L fuel b k Hf Hj HT HL y Iy Hy Py); rewrite Ey; assumption.
Qed.
