(** CombC properties C41, C42, C60, C61. *)
From Coq Require Import ZArith Reals Bool List Lra Lia Psatz.
From Flocq Require Import Core BinarySingleNaN.
From Verif Require Import Flt FltFacts FltMore FltKey Libm LibmInst EnvSpec EnvInst Res UtilModel UtilProofs OscSpec PhasorProofs RdModel CombModel CombSpec CombProofs CombProofs2 CombProofs3.
Import ListNotations.
Local Open Scope R_scope.

Lemma listen_dt L fuel ops : forall c hs c' hs', listen L fuel c hs ops = Val (c', hs') ->
  cb_sr c' = cb_sr c /\ cb_max c' = cb_max c /\ cb_dt c' = fold_left (fun d o => match o with CbDelay d' => clamp d' zero (cb_max c) | _ => d end) ops (cb_dt c) /\
  cb_dc c' = fold_left (fun d o => match o with CbDecay d' => d' | _ => d end) ops (cb_dc c).
Proof.
  induction ops as [|o ops IH]; intros c hs c' hs' H; cbn [listen] in H; [injection H as <- <-; auto|].
  destruct (cb_call L fuel c o) as [[c1 out]| |] eqn:C; try discriminate H. cbn [rbind fst snd] in H. destruct (IH _ _ _ _ H) as (A & B & D & E). cbn [fold_left].
  assert (G : cb_sr c1 = cb_sr c /\ cb_max c1 = cb_max c /\ cb_dt c1 = (match o with CbDelay d' => clamp d' zero (cb_max c) | _ => cb_dt c end) /\ cb_dc c1 = (match o with CbDecay d' => d' | _ => cb_dc c end)).
  { destruct o as [x|d|d|]; cbn [cb_call] in C; try (injection C as <- <-; cbn; auto).
    unfold cb_tick in C. destruct (cb_wrap _ _ _) as [r| |]; cbn [rbind] in C; try discriminate C. destruct (to_size r) as [i|]; cbn [of_opt rbind] in C; try discriminate C.
    repeat (match type of C with context [cb_at ?a ?b] => destruct (cb_at a b) as [?v| |]; cbn [rbind fst snd] in C; try discriminate C end).
    injection C as <- <-. cbn [cb_sr cb_max cb_dt cb_dc]. auto. }
  destruct G as (G1 & G2 & G3 & G4). rewrite G2, G3 in D. rewrite G4 in E. repeat split; congruence.
Qed.
Lemma run_inv L fuel sr mx ops c hs : cb_cfg sr mx -> (enough <= fuel)%nat -> Forall cb_op_ok ops -> comb_run L fuel sr mx ops = Val (c, hs) ->
  cb_inv sr mx c hs /\ cb_size c = line_len sr mx /\ cb_delay c = cur_delay sr mx ops /\ cb_fb c = cb_feedback L (cur_dt mx ops) (cur_dc ops) /\ cb_dt c = cur_dt mx ops.
Proof.
  intros C F O H. unfold comb_run in H. destruct (init_ok L sr mx C) as (c0 & E & I0). rewrite E in H. cbn [rbind] in H.
  destruct (listen_ok L sr mx fuel ops C F O c0 [] I0) as (c' & hs' & H' & I). rewrite H in H'. injection H' as <- <-.
  destruct (listen_dt L fuel ops c0 [] c hs H) as (A & B & D & E').
  assert (G : cb_sr c0 = sr /\ cb_max c0 = mx /\ cb_dt c0 = fdec 2 10 /\ cb_dc c0 = one /\ cb_fb c0 = cb_feedback L (cb_dt c0) (cb_dc c0)).
  { unfold cb_init in E. destruct (to_size _) as [z|]; cbn [of_opt rbind] in E; [|discriminate E]. injection E as <-. cbn [cb_sr cb_max cb_dt cb_dc cb_fb cb_update]. auto. }
  destruct G as (G1 & G2 & G3 & G4 & G5). pose proof (fb_current L fuel ops c0 [] c hs G5 H) as FB.
  split; [exact I|]. split; [apply I|]. unfold cur_delay, cb_delay, cur_dt, cur_dc. rewrite FB, D, E', A, G1, G2, G3, G4. auto.
Qed.

(** C41: from [init] on, every sequence of calls without a NaN delay time stays inside the line, and each tick ends after at most 2^17 rounds of its loop. *)
Theorem C41_safe : forall L sr mx ops fuel, cb_cfg sr mx -> Forall cb_op_ok ops -> (Z.to_nat (2 ^ 17) <= fuel)%nat ->
  exists c hs, comb_run L fuel sr mx ops = Val (c, hs).
Proof.
  intros L sr mx ops fuel C O F. destruct (init_ok L sr mx C) as (c0 & E & I0).
  assert (F' : (enough <= fuel)%nat) by (apply Nat2Z.inj_le; rewrite enough_Z, <- (Z2Nat.id (2 ^ 17)) by lia; now apply Nat2Z.inj_le).
  destruct (listen_ok L sr mx fuel ops C F' O c0 [] I0) as (c' & hs' & H' & _). exists c', hs'. unfold comb_run. now rewrite E.
Qed.
Print Assumptions C41_safe.
(** C41: a NaN delay time makes the next tick undefined, whatever the state. *)
Theorem C41_nan_delay_refuted : forall L fuel c x, fin (cb_max c) -> cb_tick fuel (cb_setDelayTime L c (B754_nan : f32)) x = Undef.
Proof. intros. now apply nan_delay. Qed.
Print Assumptions C41_nan_delay_refuted.
(** C41: a negative line length makes [init] itself undefined. *)
Theorem C41_negative_refuted : forall L sr mx, fin (fmul mx sr) -> B2R (fmul mx sr) <= -1 -> cb_init L sr mx = Undef.
Proof. exact neg_max. Qed.
Print Assumptions C41_negative_refuted.
(** C41: outside the supported rates the loop may never end: rate 2^30, no line. *)
Theorem C41_endless_refuted : forall L, exists c, cb_init L (flit 1 30) zero = Val c /\ forall fuel x, cb_tick fuel c x = Spin.
Proof.
  intros L. destruct (spin_line L 0 zero) as (c & E & _). exists c. split; [exact E|]. intros fuel x. destruct (spin_line L fuel x) as (c' & E' & S). congruence.
Qed.
Print Assumptions C41_endless_refuted.

(** C42: with a whole delay of m samples inside the line a tick returns exactly the signal m samples ago. *)
Theorem C42_comb : forall L fuel sr mx ops c hs j m x, cb_cfg sr mx -> Forall cb_op_ok ops -> (enough <= fuel)%nat -> comb_run L fuel sr mx ops = Val (c, hs) ->
  (-100 <= j <= 96)%Z -> quiet j hs -> B2R (cur_delay sr mx ops) = IZR m -> (1 <= m <= line_len sr mx - 4)%Z ->
  exists y c', cb_tick fuel c x = Val (y, c') /\ fin y /\ B2R y = ago hs m.
Proof.
  intros L fuel sr mx ops c hs j m x C O F H J Q DM M. destruct (run_inv L fuel sr mx ops c hs C F O H) as (I & Es & Ed & _ & _).
  destruct (size_bnd sr mx C) as [SB _]. change (CombProofs2.line_size sr mx) with (line_len sr mx) in SB. rewrite <- Ed in DM.
  destruct (tick_value 24 j sr mx c hs x C I ltac:(lia) ltac:(lia) J Q) as (y & c' & d & T & Fy & _ & _ & _ & Y).
  { rewrite DM, Es. rewrite <- (minus_IZR _ 4). apply IZR_le. lia. }
  exists y, c'. split; [now apply T|]. split; [exact Fy|]. rewrite (Y m DM), agew_in by lia. reflexivity.
Qed.
Print Assumptions C42_comb.
(** C42: a delay of zero returns the oldest sample of the line. *)
Theorem C42_zero_delay_refuted : forall L fuel sr mx ops c hs j x, cb_cfg sr mx -> Forall cb_op_ok ops -> (enough <= fuel)%nat -> comb_run L fuel sr mx ops = Val (c, hs) ->
  (-100 <= j <= 96)%Z -> quiet j hs -> B2R (cur_delay sr mx ops) = 0 ->
  exists y c', cb_tick fuel c x = Val (y, c') /\ fin y /\ B2R y = ago hs (line_len sr mx).
Proof.
  intros L fuel sr mx ops c hs j x C O F H J Q DM. destruct (run_inv L fuel sr mx ops c hs C F O H) as (I & Es & Ed & _ & _).
  destruct (size_bnd sr mx C) as [SB _]. change (CombProofs2.line_size sr mx) with (line_len sr mx) in SB. rewrite <- Ed in DM.
  destruct (tick_value 24 j sr mx c hs x C I ltac:(lia) ltac:(lia) J Q) as (y & c' & d & T & Fy & _ & _ & _ & Y).
  { rewrite DM, Es. rewrite <- (minus_IZR _ 4). apply IZR_le. lia. }
  exists y, c'. split; [now apply T|]. split; [exact Fy|]. rewrite (Y 0%Z DM). unfold agew. f_equal. rewrite Es.
  replace ((0 - 1) mod line_len sr mx)%Z with (line_len sr mx - 1)%Z; [ring|]. apply Z.mod_unique with (-1)%Z; lia.
Qed.
Print Assumptions C42_zero_delay_refuted.

(** C60: for any delay of more than two samples inside a line of at most 2^K samples, a tick returns the Catmull-Rom interpolation of the signal at
    an age within 2^(K-24) samples of the delay, up to 2^-17 of the level 2^j of the signal. *)
Theorem C60_fractional : forall K L fuel sr mx ops c hs j x, cb_cfg sr mx -> Forall cb_op_ok ops -> (enough <= fuel)%nat -> comb_run L fuel sr mx ops = Val (c, hs) ->
  (2 <= K <= 24)%Z -> (line_len sr mx <= 2 ^ K)%Z -> (-100 <= j <= 96)%Z -> quiet j hs ->
  let D := B2R (cur_delay sr mx ops) in 2 + bpow radix2 (K - 24) < D <= IZR (line_len sr mx) - 4 ->
  exists y c' d, cb_tick fuel c x = Val (y, c') /\ fin y /\ Rabs (d - D) <= bpow radix2 (K - 24) /\ Rabs (B2R y - ago_at hs d) <= bpow radix2 (j - 17).
Proof.
  intros K L fuel sr mx ops c hs j x C O F H HK SK J Q D BD. destruct (run_inv L fuel sr mx ops c hs C F O H) as (I & Es & Ed & _ & _).
  destruct (size_bnd sr mx C) as [SB _]. change (CombProofs2.line_size sr mx) with (line_len sr mx) in SB. unfold D in *. rewrite <- Ed in *.
  destruct (tick_value K j sr mx c hs x C I ltac:(lia) HK J Q) as (y & c' & d & T & Fy & Dd & _ & Y & _); [rewrite Es; lra|].
  exists y, c', d. split; [now apply T|]. split; [exact Fy|]. split; [exact Dd|]. unfold ago_at. cbv zeta in Y.
  assert (P1 : bpow radix2 (K - 24) <= 1) by (change 1 with (bpow radix2 0); apply bpow_le; lia). apply Rabs_le_inv in Dd.
  assert (A1 : (2 < Zceil d)%Z) by (apply lt_IZR; pose proof (Zceil_ub d); lra).
  assert (A2 : (Zceil d <= line_len sr mx - 3)%Z) by (apply Zceil_glb; rewrite minus_IZR; lra).
  rewrite !agew_in in Y by lia. exact Y.
Qed.
Print Assumptions C60_fractional.
(** C60: between one and two samples the fourth tap is the oldest sample of the line instead of the current one. *)
Theorem C60_short_refuted : forall K L fuel sr mx ops c hs j x, cb_cfg sr mx -> Forall cb_op_ok ops -> (enough <= fuel)%nat -> comb_run L fuel sr mx ops = Val (c, hs) ->
  (2 <= K <= 24)%Z -> (line_len sr mx <= 2 ^ K)%Z -> (-100 <= j <= 96)%Z -> quiet j hs -> (6 <= line_len sr mx)%Z ->
  let D := B2R (cur_delay sr mx ops) in 1 + bpow radix2 (K - 24) < D <= 2 - bpow radix2 (K - 24) ->
  exists y c' d, cb_tick fuel c x = Val (y, c') /\ fin y /\ Rabs (d - D) <= bpow radix2 (K - 24) /\
    Rabs (B2R y - spline (2 - d) (ago hs 3) (ago hs 2) (ago hs 1) (ago hs (line_len sr mx))) <= bpow radix2 (j - 17).
Proof.
  intros K L fuel sr mx ops c hs j x C O F H HK SK J Q N6 D BD. destruct (run_inv L fuel sr mx ops c hs C F O H) as (I & Es & Ed & _ & _).
  destruct (size_bnd sr mx C) as [SB _]. change (CombProofs2.line_size sr mx) with (line_len sr mx) in SB. unfold D in *. rewrite <- Ed in *.
  pose proof (bpow_gt_0 radix2 (K - 24)) as P0. apply IZR_le in N6 as N6'.
  destruct (tick_value K j sr mx c hs x C I ltac:(lia) HK J Q) as (y & c' & d & T & Fy & Dd & _ & Y & _); [rewrite Es; lra|].
  exists y, c', d. split; [now apply T|]. split; [exact Fy|]. split; [exact Dd|]. cbv zeta in Y. apply Rabs_le_inv in Dd.
  assert (A : Zceil d = 2%Z) by (apply Zceil_imp; change (IZR (2 - 1)) with 1; split; lra).
  rewrite A, Es in Y. rewrite (agew_in hs _ (2 + 1)), (agew_in hs _ 2), (agew_in hs _ (2 - 1)) in Y by lia.
  replace (agew hs (line_len sr mx) (2 - 2)) with (ago hs (line_len sr mx)) in Y; [exact Y|].
  unfold agew. f_equal. replace ((2 - 2 - 1) mod line_len sr mx)%Z with (line_len sr mx - 1)%Z; [ring|]. apply Z.mod_unique with (-1)%Z; lia.
Qed.
Print Assumptions C60_short_refuted.

Lemma dt_ok sr mx c hs : cb_cfg sr mx -> cb_inv sr mx c hs -> fin (cb_dt c) /\ 0 <= B2R (cb_dt c).
Proof. intros C (_ & _ & _ & _ & Fd & Pd & _). auto. Qed.
(** C61: the feedback coefficient never exceeds 1 in size, has the sign of the decay time, is 0 for decay 0 and is recomputed by both setters. *)
Theorem C61_feedback : forall L fuel sr mx ops c hs, exp_unit L -> cb_cfg sr mx -> Forall cb_op_ok ops -> (enough <= fuel)%nat -> comb_run L fuel sr mx ops = Val (c, hs) ->
  let dc := cur_dc ops in is_nan dc = false ->
  fin (cb_fb c) /\ Rabs (B2R (cb_fb c)) <= 1 /\ (flt zero dc = true -> 0 <= B2R (cb_fb c)) /\ (flt dc zero = true -> B2R (cb_fb c) <= 0) /\ (feq dc zero = true -> B2R (cb_fb c) = 0) /\
  (dc = B754_infinity false -> B2R (cb_fb c) = 1) /\ (dc = B754_infinity true -> B2R (cb_fb c) = -1).
Proof.
  intros L fuel sr mx ops c hs X C O F H dc N. destruct (run_inv L fuel sr mx ops c hs C F O H) as (I & _ & _ & FB & DT). destruct (dt_ok _ _ _ _ C I) as [Fd Pd]. rewrite DT in Fd, Pd.
  destruct (fb_unit L _ dc X Fd Pd N) as (A & B & D & E & G). fold dc in FB. rewrite FB. repeat (split; [assumption|]).
  split; intros ->; unfold cb_feedback; cbn [is_inf]; [change (B754_infinity false >? zero)%F with true; cbv iota; apply one_R|].
  change (B754_infinity true >? zero)%F with false. cbv iota. rewrite fneg_R, one_R. reflexivity.
Qed.
Print Assumptions C61_feedback.
(** C61: the signal falls by 60 dB in the decay time: the coefficient is 0.001^(delay/decay) within 2^-16. *)
Theorem C61_sixty_dB : forall L fuel sr mx ops c hs, exp_acc L -> cb_cfg sr mx -> Forall cb_op_ok ops -> (enough <= fuel)%nat -> comb_run L fuel sr mx ops = Val (c, hs) ->
  let dt := cur_dt mx ops in let dc := cur_dc ops in fin dc -> B2R dc <> 0 -> B2R dt <= bpow radix2 100 * Rabs (B2R dc) ->
  let ideal := Rpower (/ 1000) (B2R dt / Rabs (B2R dc)) in
  Rabs (B2R (cb_fb c) - (if Rlt_bool (B2R dc) 0 then - ideal else ideal)) <= bpow radix2 (-16).
Proof.
  intros L fuel sr mx ops c hs X C O F H dt dc Fc N B ideal. destruct (run_inv L fuel sr mx ops c hs C F O H) as (I & _ & _ & FB & DT). destruct (dt_ok _ _ _ _ C I) as [Fd Pd]. rewrite DT in Fd, Pd. fold dt dc in FB. fold dt in Fd, Pd.
  assert (E : feq dc zero = false). { destruct (feq dc zero) eqn:E; [|reflexivity]. apply feq_R in E; [|exact Fc|reflexivity]. rewrite zero_R in E. contradiction. }
  pose proof (fb_acc L dt dc X Fd Pd Fc E B) as A. cbv zeta in A. fold ideal in A. rewrite <- FB in A.
  destruct (flt dc zero) eqn:S.
  - apply flt_R in S; [|exact Fc|reflexivity]. rewrite zero_R in S. rewrite Rlt_bool_true by exact S. exact A.
  - apply flt_R_false in S; [|exact Fc|reflexivity]. rewrite zero_R in S. rewrite Rlt_bool_false by exact S. exact A.
Qed.
Print Assumptions C61_sixty_dB.
(** C61: stability for any delay: while the feedback stays within phi and the input within (1 - 1.26 phi) of a level, the signal in the line never exceeds that level,
    whatever calls are mixed in. *)
Theorem C61_stable : forall L fuel sr mx phi j ops, cb_cfg sr mx -> Forall cb_op_ok ops -> (enough <= fuel)%nat -> (-100 <= j <= 96)%Z ->
  (forall p x q c1 h1, ops = p ++ CbTick x :: q -> comb_run L fuel sr mx p = Val (c1, h1) ->
     fin (cb_fb c1) /\ Rabs (B2R (cb_fb c1)) <= phi /\ fin x /\ Rabs (B2R x) <= (1 - bpow radix2 (-30) - 63 / 50 * phi) * bpow radix2 j) ->
  exists c hs, comb_run L fuel sr mx ops = Val (c, hs) /\ quiet j hs.
Proof.
  intros L fuel sr mx phi j ops C O F J H. destruct (init_ok L sr mx C) as (c0 & E & I0). unfold comb_run in *. rewrite E in *. cbn [rbind] in *.
  destruct (quiet_run L fuel sr mx phi j ops C F J O c0 [] I0 ltac:(constructor) H) as (c & hs & A & B & _). eauto.
Qed.
Print Assumptions C61_stable.
(** C61: with a whole delay the full range of coefficients up to 1 is stable. *)
Theorem C61_stable_whole : forall L fuel sr mx ops c hs j m xs, cb_cfg sr mx -> Forall cb_op_ok ops -> (enough <= fuel)%nat -> comb_run L fuel sr mx ops = Val (c, hs) ->
  (0 <= j <= 96)%Z -> quiet j hs -> B2R (cur_delay sr mx ops) = IZR m -> (m <= line_len sr mx - 4)%Z ->
  fin (cb_fb c) -> Forall (fun x => fin x /\ Rabs (B2R x) <= (1 - Rabs (B2R (cb_fb c))) * bpow radix2 j) xs ->
  exists c' hs', comb_run L fuel sr mx (ops ++ map CbTick xs) = Val (c', hs') /\ quiet j hs'.
Proof.
  intros L fuel sr mx ops c hs j m xs C O F H J Q DM M Ff X. destruct (run_inv L fuel sr mx ops c hs C F O H) as (I & Es & Ed & _ & _). rewrite <- Ed in DM.
  destruct (whole_run L fuel j sr mx m xs C F J c hs I Q DM) as (c' & hs' & A & B); auto.
  { rewrite DM, Es, <- (minus_IZR _ 4). apply IZR_le. lia. }
  exists c', hs'. split; [|exact B]. unfold comb_run in *. destruct (cb_init L sr mx) as [c0| |]; try discriminate H. cbn [rbind] in *.
  assert (G : forall ops c0 hs0, listen L fuel c0 hs0 ops = Val (c, hs) -> listen L fuel c0 hs0 (ops ++ map CbTick xs) = Val (c', hs')); [|now apply G].
  clear - A. induction ops as [|o ops IH]; intros c0 hs0 H; cbn [listen app] in *; [injection H as -> ->; exact A|].
  destruct (cb_call L fuel c0 o) as [[c1 out]| |]; try discriminate H. cbn [rbind fst snd] in *. now apply IH.
Qed.
Print Assumptions C61_stable_whole.

(** ** Examples *)
Definition rate8 : f32 := fofZ 8.
(** One second at 8 Hz: a line of 12 samples. *)
Lemma cfg8 : cb_cfg rate8 one.
Proof.
  assert (E8 : B2R rate8 = 8) by (unfold rate8; fval (fofZ 8 : f32); lra). assert (M8 : B2R (fmul one rate8) = 8) by (unfold rate8; fval (fmul one (fofZ 8) : f32); lra).
  unfold cb_cfg. rewrite E8, M8, one_R. split; [reflexivity|]. split; [bp; lra|]. split; [reflexivity|]. split; [lra|]. split; [unfold rate8; ffin|]. apply (IZR_le 8). lia.
Qed.
Example ex_C41_cfg : cb_cfg rate8 one. Proof. exact cfg8. Qed.
Example ex_C41_len : line_len rate8 one = 12%Z.
Proof. unfold line_len. assert (E : B2R (fmul one rate8 : f32) = IZR 8) by (unfold rate8; fval (fmul one (fofZ 8) : f32); lra). rewrite E, Zceil_IZR. reflexivity. Qed.
(** A library with exp constantly 1/2, enough for a run. *)
Fixpoint outs (L : libm) (fuel : nat) (c : comb) (ops : list cb_op) : list f32 :=
  match ops with [] => [] | o :: ops => match cb_call L fuel c o with Val (c', out) => match out with Some y => y :: outs L fuel c' ops | None => outs L fuel c' ops end | _ => [] end end.
Definition all_eq (l : list f32) (r : list Z) : bool := (length l =? length r)%nat && forallb (fun p => feq (fst p) (fofZ (snd p))) (combine l r).
(** A click of 8 echoes every third sample, halved each time. *)
Example ex_C42 : match cb_init half_exp rate8 one with
  | Val c => all_eq (outs half_exp 8 c (CbDelay (fdec 3 8) :: CbTick (fofZ 8) :: map CbTick (repeat zero 9))) [0; 0; 0; 8; 0; 0; 4; 0; 0; 2]%Z
  | _ => false end = true.
Proof. vm_compute. reflexivity. Qed.
(** Asking for no delay: the click returns after 12 samples, the length of the line. *)
Example ex_C42_zero : match cb_init half_exp rate8 one with
  | Val c => all_eq (outs half_exp 8 c (CbDelay zero :: CbTick (fofZ 8) :: map CbTick (repeat zero 12))) [0; 0; 0; 0; 0; 0; 0; 0; 0; 0; 0; 0; 8]%Z
  | _ => false end = true.
Proof. vm_compute. reflexivity. Qed.
(** Half a sample past three: the Catmull-Rom kernel -1/16, 9/16, 9/16, -1/16. *)
Example ex_C60 : match cb_init half_exp rate8 one with
  | Val c => all_eq (outs half_exp 8 c (CbDecay zero :: CbDelay (fdec 7 16) :: CbTick (fofZ 16) :: map CbTick (repeat zero 6))) [0; 0; -1; 9; 9; -1; 0]%Z
  | _ => false end = true.
Proof. vm_compute. reflexivity. Qed.
(** A delay of 1.5: the first kernel value is lost and appears after the whole line. *)
Example ex_C60_short : match cb_init half_exp rate8 one with
  | Val c => all_eq (outs half_exp 8 c (CbDecay zero :: CbDelay (fdec 3 16) :: CbTick (fofZ 16) :: map CbTick (repeat zero 12))) [0; 9; 9; -1; 0; 0; 0; 0; 0; 0; 0; 0; -1]%Z
  | _ => false end = true.
Proof. vm_compute. reflexivity. Qed.
(** The hypotheses on exp can be met. *)
Example ex_C61_unit : exp_unit half_exp.
Proof. exact half_exp_unit. Qed.
Example ex_C61_sign : match cb_init half_exp rate8 one with
  | Val c => all_eq (outs half_exp 8 c (CbDecay (- one)%F :: CbDelay (fdec 2 8) :: CbTick (fofZ 8) :: map CbTick (repeat zero 6))) [0; 0; 8; 0; -4; 0; 2]%Z
  | _ => false end = true.
Proof. vm_compute. reflexivity. Qed.
