(** XPlay: the property theorems. *)
From Coq Require Import ZArith Reals Bool List Lra Lia.
From Flocq Require Import Core BinarySingleNaN.
From Verif Require Import Flt FltFacts FltMore FltKey FltScale Libm LibmInst EnvModel EnvSpec EnvInst Res UtilModel UtilProofs OscSpec
  SmoothModel RdModel RdSpec RdProofs2 RdProps PanModel PanSpec PanInst PhasorProofs XpModel XpSpec XpProofs XpProofs2 XpProofs3 XpProofs4.
Import ListNotations.
Local Open Scope R_scope.

(** C44: a session whose loop changes all restart the phasor (the default) returns. *)
Theorem C44_plain_returns : forall f L fuel junk sr ops, (-4 <= f <= 12)%Z -> xsr_ok sr -> Forall (x_op_ok f) ops -> Forall x_op_plain ops -> returns (x_session L fuel junk sr ops).
Proof.
  intros f L fuel junk sr ops Hf Hs O P. pose proof (session_ok f L fuel junk sr ops Hf Hs O) as S. destruct (x_session L fuel junk sr ops) as [[x ys]| |]; [eexists; reflexivity|contradiction|contradiction].
Qed.
Print Assumptions C44_plain_returns.
(** C44: a loop change that keeps the phasor returns within 2^24 rounds when neither the old position nor the new start is more than 2^23 new loop lengths away; the phasor is then in the window of two new loop lengths. *)
Theorem C44_preserve_returns : forall f L fuel junk sr ops x ys s e y, (-4 <= f <= 12)%Z -> xsr_ok sr -> Forall (x_op_ok f) ops -> x_session L fuel junk sr ops = Val (x, ys) ->
  is_nan s = false -> is_nan e = false -> x_setStartEnd fuel x s e false = Val y -> (2 ^ 24 <= Z.of_nat fuel)%Z ->
  bpow radix2 (-100) <= B2R (x_size y) -> Rabs (B2R (x_ph x)) <= bpow radix2 23 * B2R (x_size y) -> B2R (x_ls y) <= bpow radix2 23 * B2R (x_size y) ->
  exists z, x_setStartEnd fuel x s e true = Val z /\ (z = x \/ (x_size z = x_size y /\ x_ls z = x_ls y /\ fin (x_ph z) /\ settled z (B2R (x_ph z)))).
Proof.
  intros f L fuel junk sr ops x ys s e y Hf Hs O S N1 N2 H Fu Z P Ls. pose proof (session_ok f L fuel junk sr ops Hf Hs O) as I. rewrite S in I.
  pose proof (call_ok f L fuel x (XStartEnd s e false) ltac:(lia) I (conj N1 N2)) as C. cbn [x_call] in C. rewrite H in C. cbn [rbind] in C.
  unfold x_setStartEnd in *. cbv zeta in *. destruct (_ && _); [exists x; auto|]. cbn [negb] in *. pose proof (update_shape _ _ _ H) as U. rewrite U.
  assert (Nz : fle (x_size y) zero = false).
  { pose proof C as (_ & _ & _ & _ & _ & _ & _ & _ & _ & (_ & _ & [Fz _] & _) & _). apply fle_R_false; [exact Fz|reflexivity|]. rewrite zero_R. pose proof (bpow_gt_0 radix2 (-100)). lra. }
  rewrite Nz. cbn [x_ph]. pose proof I as (_ & _ & _ & _ & _ & _ & _ & _ & _ & _ & (Fp & Bp)). destruct (refit_ok f fuel y (x_ph x) C (rounds_fuel fuel Fu) Fp Bp Z P Ls) as (q & E & Fq & Sq & _). rewrite E. eexists. split; [reflexivity|].
  right. cbn [x_at x_size x_ls x_ph]. split; [reflexivity|]. split; [reflexivity|]. split; [exact Fq|exact Sq].
Qed.
Print Assumptions C44_preserve_returns.
(** C44: beyond that it need not return: with the old position past the new window and the new loop shorter than 2^-27 of it, the wrap loop never ends, whatever the number of rounds. *)
Theorem C44_short_loop_refuted : forall f L fuel junk sr ops x ys s e y, (-4 <= f <= 12)%Z -> xsr_ok sr -> Forall (x_op_ok f) ops -> x_session L fuel junk sr ops = Val (x, ys) ->
  is_nan s = false -> is_nan e = false -> x_setStartEnd fuel x s e false = Val y -> y <> x ->
  0 < B2R (x_size y) < B2R (x_ph x) * bpow radix2 (-27) -> fle (fadd (x_ls y) (fmul (x_size y) two)) (x_ph x) = true ->
  x_setStartEnd fuel x s e true = Spin.
Proof.
  intros f L fuel junk sr ops x ys s e y Hf Hs O S N1 N2 H Ne [Z1 Z2] P. pose proof (session_ok f L fuel junk sr ops Hf Hs O) as I. rewrite S in I.
  pose proof (call_ok f L fuel x (XStartEnd s e false) ltac:(lia) I (conj N1 N2)) as C. cbn [x_call] in C. rewrite H in C. cbn [rbind] in C.
  unfold x_setStartEnd in *. cbv zeta in *. destruct (_ && _); [injection H as <-; congruence|]. cbn [negb] in *. rewrite (update_shape _ _ _ H).
  assert (Nz : fle (x_size y) zero = false).
  { pose proof C as (_ & _ & _ & _ & _ & _ & _ & _ & _ & (_ & _ & [Fz _] & _) & _). apply fle_R_false; [exact Fz|reflexivity|]. now rewrite zero_R. }
  rewrite Nz. cbn [x_ph]. pose proof I as (_ & _ & _ & _ & _ & _ & _ & _ & _ & _ & (Fp & _)). apply (refit_spins f); auto.
Qed.
Print Assumptions C44_short_loop_refuted.

(** C45: no session reads outside the buffer or meets any other undefined operation. *)
Theorem C45_defined : forall f L fuel junk sr ops, (-4 <= f <= 12)%Z -> xsr_ok sr -> Forall (x_op_ok f) ops -> not_undef (x_session L fuel junk sr ops).
Proof.
  intros f L fuel junk sr ops Hf Hs O. pose proof (session_ok f L fuel junk sr ops Hf Hs O) as S. destruct (x_session L fuel junk sr ops) as [[x ys]| |]; [exact I|contradiction|exact I].
Qed.
Print Assumptions C45_defined.
(** C45: an infinite or NaN rate makes the second tick after it undefined. *)
Theorem C45_rate_refuted : forall f L fuel junk sr ops x ys b r, (-4 <= f <= 12)%Z -> xsr_ok sr -> Forall (x_op_ok f) ops -> x_session L fuel junk sr ops = Val (x, ys) -> x_plays x b -> is_finite r = false ->
  x_run L fuel x [XRate r; XTick; XTick] = Undef.
Proof. intros f L fuel junk sr ops x ys b r Hf Hs O S P N. pose proof (session_ok f L fuel junk sr ops Hf Hs O) as I. rewrite S in I. apply (rate_undef f L fuel x b r); auto. lia. Qed.
Print Assumptions C45_rate_refuted.
(** C45: a NaN start silences the player; a later loop change that keeps the phasor then makes the next tick undefined. *)
Theorem C45_nan_start_refuted : forall f L fuel junk sr ops x ys b s e pr s' e' y, (-4 <= f <= 12)%Z -> xsr_ok sr -> Forall (x_op_ok f) ops -> x_session L fuel junk sr ops = Val (x, ys) -> x_plays x b -> is_nan s = true ->
  x_run L fuel x [XStartEnd s e pr; XStartEnd s' e' false] = Val (y, []) -> fle (x_size y) zero = false ->
  x_run L fuel x [XStartEnd s e pr; XStartEnd s' e' true; XTick] = Undef.
Proof.
  intros f L fuel junk sr ops x ys b s e pr s' e' y Hf Hs O S P N R Z. pose proof (session_ok f L fuel junk sr ops Hf Hs O) as I. rewrite S in I.
  exact (proj2 (nan_point_undef f L fuel x b s e pr s' e' y I P N R Z)).
Qed.
Print Assumptions C45_nan_start_refuted.

(** C63: for rates of at most one loop length per sample the phasor stays in its window of two loop lengths, below it by rounding only, over any number of ticks. *)
Theorem C63_window : forall f k L fuel junk sr ops x ys n, (-4 <= f <= 12)%Z -> xsr_ok sr -> Forall (x_op_ok f) ops -> x_session L fuel junk sr ops = Val (x, ys) -> tame k x -> in_window k x ->
  exists x' zs, x_run L fuel x (repeat XTick n) = Val (x', zs) /\ in_window k x' /\ x_ls x' = x_ls x /\ x_size x' = x_size x.
Proof.
  intros f k L fuel junk sr ops x ys n Hf Hs O S T W. pose proof (session_ok f L fuel junk sr ops Hf Hs O) as I. rewrite S in I.
  destruct (ticks_window f k L fuel n ltac:(lia) x I T W) as (x' & zs & A & _ & B). eauto.
Qed.
Print Assumptions C63_window.

(** C64: the code violates this: whatever was played before, [init] detaches the reader from the buffer, so every output is zero until [setBuffer] is called again. *)
Theorem C64_init_drops_buffer_refuted : forall f L fuel junk sr ops x ys sr' ops' y zs, (-4 <= f <= 3)%Z -> trig_acc L -> exp_unit L -> xsr_ok sr -> xsr_ok sr' -> Forall (x_op_ok f) ops -> Forall (x_op_ok f) ops' ->
  x_session L fuel junk sr ops = Val (x, ys) -> Forall x_op_nobuf ops' -> x_run L fuel x (XInit sr' :: ops') = Val (y, zs) -> Forall quiet2 zs.
Proof.
  intros f L fuel junk sr ops x ys sr' ops' y zs Hf HT HL Hs Hs' O O' S N R. eapply (mute_run f L fuel x sr' ops'); eauto; [lia|]. exact (session_inv3 f L fuel junk sr ops x ys Hf HL Hs O S).
Qed.
Print Assumptions C64_init_drops_buffer_refuted.

(** C65: every output is finite and at most 1.4143 times the level of the buffers, cubic interpolation apart. *)
Theorem C65_level : forall f j L fuel junk sr ops x ys, (-4 <= f <= 3)%Z -> (-100 <= j <= 100)%Z -> trig_acc L -> exp_unit L -> xsr_ok sr -> Forall (x_op_ok f) ops -> Forall (x_op_loud j) ops -> Forall x_op_nocubic ops ->
  x_session L fuel junk sr ops = Val (x, ys) -> Forall (within2 (1.4143 * bpow radix2 j)) ys.
Proof. exact session_level. Qed.
Print Assumptions C65_level.
(** C65: whatever the interpolation, at most 1.769 times. *)
Theorem C65_any_interpolation : forall f j L fuel junk sr ops x ys, (-4 <= f <= 3)%Z -> (-100 <= j <= 95)%Z -> trig_acc L -> exp_unit L -> xsr_ok sr -> Forall (x_op_ok f) ops -> Forall (x_op_loud j) ops ->
  x_session L fuel junk sr ops = Val (x, ys) -> Forall (within2 (1.769 * bpow radix2 j)) ys.
Proof.
  intros f j L fuel junk sr ops x ys Hf Hj HT HL Hs O K S. eapply Forall_impl; [|exact (session_level_any f j L fuel junk sr ops x ys Hf Hj HT HL Hs O K S)].
  intros y [[A B] [C D]]. pose proof (bpow_gt_0 radix2 j). split; (split; [assumption|lra]).
Qed.
Print Assumptions C65_any_interpolation.

(** C66: while the gate is open isDone is false; once it is closed enough ticks make isDone true, and from then on every output is zero and isDone stays true. *)
Theorem C66_release : forall f j L fuel junk sr ops x ys b g, (-4 <= f <= 3)%Z -> (-100 <= j <= 95)%Z -> trig_acc L -> exp_unit L -> exp_acc L -> xsr_ok sr ->
  Forall (x_op_ok f) ops -> Forall (x_op_loud j) ops -> Forall x_op_gate ops -> x_session L fuel junk sr ops = Val (x, ys) -> x_plays x b -> flt zero (x_gate x) = true -> fle g zero = true ->
  x_isDone x = false /\ exists n y zs, x_run L fuel x (XGate g :: repeat XTick n) = Val (y, zs) /\ x_isDone y = true /\
    forall m, exists z ws, x_run L fuel y (repeat XTick m) = Val (z, ws) /\ x_isDone z = true /\ Forall quiet2 ws.
Proof.
  intros f j L fuel junk sr ops x ys b g Hf Hj HT HL HA Hs O Lo G S P Gt Gg. pose proof (session_gated f L fuel junk sr ops x ys Hf HL Hs O G S) as Ga.
  split; [exact (open_not_done x Ga Gt)|]. apply (release_done f j L fuel x b g); auto; [lia| |].
  - exact (session_inv3 f L fuel junk sr ops x ys Hf HL Hs O S).
  - exact (session_heard f j L fuel junk sr ops x ys Hf HL Hs O Lo S).
Qed.
Print Assumptions C66_release.
(** C66: with no valid buffer or an empty loop ticks change nothing, so a closed gate never leads to isDone. *)
Theorem C66_nothing_to_play_refuted : forall L fuel x g n, x_usable (x_buf x) = false \/ fle (x_size x) zero = true -> x_isDone x = false ->
  exists y zs, x_run L fuel x (XGate g :: repeat XTick n) = Val (y, zs) /\ x_isDone y = false.
Proof.
  intros L fuel x g n H D. cbn [x_run x_call rbind fst snd]. rewrite (ticks_stuck L fuel (x_setGate x g) n H). cbn [rbind fst snd]. do 2 eexists. split; [reflexivity|].
  unfold x_isDone, ad_isDone, x_setGate in *. cbn [x_env]. unfold ad_setgate. destruct (_ && _); [reflexivity|]. destruct (_ && _); exact D.
Qed.
Print Assumptions C66_nothing_to_play_refuted.

(** C67: in bounce mode both heads stay between the loop start and the loop end. *)
Theorem C67_bounce : forall f L fuel junk sr ops x ys, (-4 <= f <= 12)%Z -> xsr_ok sr -> Forall (x_op_ok f) ops -> x_session L fuel junk sr ops = Val (x, ys) -> x_bounce x = true -> 0 < B2R (x_size x) ->
  let inside p := B2R (x_ls x) <= B2R p <= B2R (fadd (x_ls x) (x_size x)) in inside (fst (x_heads x)) /\ inside (snd (x_heads x)).
Proof. intros f L fuel junk sr ops x ys Hf Hs O S B Z. pose proof (session_ok f L fuel junk sr ops Hf Hs O) as I. rewrite S in I. exact (bounce_inside f x I B Z). Qed.
Print Assumptions C67_bounce.

(** C68: a new player with a buffer recorded at its own sample rate plays the stored frames in order, each times the envelope, over the first pass, whatever the interpolation and wrapping of its reader. *)
Theorem C68_first_pass : forall f j L fuel junk sr b ops k, (-4 <= f <= 3)%Z -> (-100 <= j <= 95)%Z -> exp_unit L -> trig_zero L -> xsr_ok sr -> rb_ok b -> rb_valid b = true -> (rb_n b <= 2 ^ 22)%Z ->
  (rb_sr b = sr \/ flt zero (rb_sr b) = false) -> loud j b 0 -> loud j b 1 -> Forall reader_op ops -> (Z.of_nat k <= rb_n b)%Z ->
  exists x ys, x_session L fuel junk sr (XBuffer (Some b) :: ops ++ repeat XTick k) = Val (x, ys) /\ length ys = k /\
    forall m, (m < k)%nat -> let v := nth m (x_envelope L sr k) zero in
      B2R (fst (nth m ys (zero, zero))) = @rnd 24 128 (B2R (smp b 0 (Z.of_nat m)) * B2R v) /\ B2R (snd (nth m ys (zero, zero))) = @rnd 24 128 (B2R (smp b 1 (Z.of_nat m)) * B2R v).
Proof.
  intros f j L fuel junk sr b ops k Hf Hj HL TZ Hs Ok V Hn Hsr L0 L1 Ro Hk. destruct (first_pass f L fuel junk sr b ops j k Hf Hj HL TZ Hs Ok V Hn Hsr L0 L1 Ro Hk) as (y & outs & S & Ln & O).
  exists y, outs. split; [exact S|]. split; [exact Ln|]. exact O.
Qed.
Print Assumptions C68_first_pass.

(** * Examples *)
(** A computable library: exp gives 1/2, cos 1 and sin 0, so the envelope is 1/2, 3/4, 7/8, ... and the crossfade passes the first head only. *)
Definition pass_libm : libm := {|
  m_exp := fun _ => half; m_sin := fun _ => zero; m_cos := fun _ => one; m_tan := fun x => x; m_tanh := fun x => x;
  m_log := fun x => x; m_atan := fun x => x; m_pow := fun x _ => x;
  d_exp := fun x => x; d_sin := fun x => x; d_cos := fun x => x; d_tan := fun x => x; d_tanh := fun x => x; d_pow := fun x _ => x |}.
Definition junk0 : bufrd * lagl * adsr := (rd_init None, LagL zero zero zero zero zero 0%Z, ad_init pass_libm zero).
Definition sr48 : f32 := fofZ 48000.
(** The left outputs of a session. *)
Definition lefts (r : res (xplay * list (f32 * f32))) : list f32 := match r with Val (_, ys) => map fst ys | _ => [] end.
Lemma sr48_ok : xsr_ok sr48.
Proof. split; [reflexivity|]. fval (sr48 : f32). bp. lra. Qed.
Lemma ramp4_ok : xbuf_ok (Some ramp4).
Proof. split; [intros _; split; [exact ex_C37_ok|cbn; lia]|]. intros _. split; [reflexivity|]. fval (rb_sr ramp4). bp. lra. Qed.

(** The session of the first example below: play, change the loop, the rate and the mode, close the gate. *)
Definition ops0 : list x_op := [XBuffer (Some ramp4); XTick; XTick; XStartEnd (fdec 1 4) (fdec 3 4) false; XRate (fdec 1 2); XTick; XMode true; XTick; XGate zero; XTick].
Lemma ops0_ok : Forall (x_op_ok 3) ops0 /\ Forall x_op_plain ops0 /\ Forall (x_op_loud 7) ops0 /\ Forall x_op_gate ops0 /\ Forall x_op_nocubic ops0.
Proof.
  assert (R : xrate_ok (fdec 1 2)). { split; [reflexivity|]. fval (fdec 1 2 : f32). bp. rewrite Rabs_pos_eq; lra. }
  repeat split; unfold ops0; repeat (apply Forall_cons; [try exact I; try (exact ramp4_ok); try exact R; try (cbn; auto; fail)|]); try apply Forall_nil.
  - intros _. exact ex_C38_loud.
Qed.
(** C44, C45, C65 together on it, with the exact library functions. *)
Example ex_C44_C65 : exists x ys, x_session exact_libm 0 junk0 sr48 ops0 = Val (x, ys) /\ Forall (within2 (1.4143 * bpow radix2 7)) ys.
Proof.
  destruct ops0_ok as (A & B & C & D & M). destruct (C44_plain_returns 3 exact_libm 0 junk0 sr48 ops0 ltac:(lia) sr48_ok A B) as [[x ys] S].
  exists x, ys. split; [exact S|]. exact (C65_level 3 7 exact_libm 0 junk0 sr48 ops0 x ys ltac:(lia) ltac:(lia) exact_trig_acc exact_exp_unit sr48_ok A C M S).
Qed.
Example ex_C65_values : lefts (x_session pass_libm 0 junk0 sr48 ops0) = [fofZ 5; fofZ 15; fdec 35 2; fdec 225 8; fdec 75 4].
Proof. vm_compute. reflexivity. Qed.

(** C44: shortening the loop while keeping the phasor hangs for ever: 1000 frames, playing at frame 500, new end 2^-31. *)
Definition ones (n : nat) : rbuf := buf_of (repeat one n).
Definition hang : list x_op := [XBuffer (Some (ones 1000)); XRate (fofZ 500); XTick].
Example ex_C44_hang : forall fuel, exists x ys, x_session pass_libm fuel junk0 sr48 hang = Val (x, ys) /\ x_setStartEnd fuel x zero (flit 1 (-31)) true = Spin.
Proof.
  intros fuel. assert (A : Forall (x_op_ok 3) hang).
  { repeat apply Forall_cons; try apply Forall_nil; [| |exact I].
    - split; [intros _; split; [eexists; split; [reflexivity|cbn; lia]|cbn; lia]|]. intros _. split; [reflexivity|]. fval (rb_sr (ones 1000)). bp. lra.
    - split; [reflexivity|]. fval (fofZ 500 : f32). bp. rewrite Rabs_pos_eq; lra. }
  assert (P : Forall x_op_plain hang) by (repeat apply Forall_cons; try apply Forall_nil; exact I).
  destruct (C44_plain_returns 3 pass_libm fuel junk0 sr48 hang ltac:(lia) sr48_ok A P) as [[x ys] S]. exists x, ys. split; [exact S|].
  assert (V : match x_session pass_libm fuel junk0 sr48 hang with Val (x, _) => match x_setStartEnd fuel x zero (flit 1 (-31)) false with
    | Val y => x_ph x = fofZ 500 /\ x_ph y = zero /\ x_size y = flit 1000 (-31) /\ fle (fadd (x_ls y) (fmul (x_size y) two)) (x_ph x) = true | _ => False end | _ => False end) by (vm_compute; repeat split; reflexivity).
  rewrite S in V. destruct (x_setStartEnd fuel x zero (flit 1 (-31)) false) as [y| |] eqn:Y; try contradiction. destruct V as (V1 & V2 & V3 & V4).
  apply (C44_short_loop_refuted 3 pass_libm fuel junk0 sr48 hang x ys zero (flit 1 (-31)) y); auto; try lia; try exact sr48_ok.
  - intros E. rewrite E, V1 in V2. discriminate.
  - rewrite V3, V1. fval (flit 1000 (-31) : f32). fval (fofZ 500 : f32). bp. lra.
Qed.
(** C44: with a new end of 1/2 instead, keeping the phasor at frame 500 works and leaves it where it is. *)
Example ex_C44_preserve : match x_session pass_libm 1 junk0 sr48 (hang ++ [XStartEnd zero half true]) with Val (x, _) => x_ph x = fofZ 500 /\ x_size x = fofZ 500 | _ => False end.
Proof. vm_compute. split; reflexivity. Qed.

(** C45: an infinite rate; a NaN start followed by a loop change keeping the phasor. *)
Example ex_C45_rate : x_session pass_libm 0 junk0 sr48 [XBuffer (Some ramp4); XTick; XRate (B754_infinity false); XTick; XTick] = Undef.
Proof. vm_compute. reflexivity. Qed.
Example ex_C45_nan : x_session pass_libm 9 junk0 sr48 [XBuffer (Some ramp4); XStartEnd B754_nan one false; XStartEnd zero half true; XTick] = Undef.
Proof. vm_compute. reflexivity. Qed.

(** C63: the theorem applies to a 4-frame loop at rate 1 and says the phasor stays in it for ever. *)
Example ex_C63 : forall n, match x_session pass_libm 0 junk0 sr48 [XBuffer (Some ramp4)] with
  | Val (x, _) => exists x' zs, x_run pass_libm 0 x (repeat XTick n) = Val (x', zs) /\ in_window 3 x' /\ x_size x' = fofZ 4
  | _ => False end.
Proof.
  intros n. destruct (x_session pass_libm 0 junk0 sr48 [XBuffer (Some ramp4)]) as [[x ys]| |] eqn:S; try (vm_compute in S; discriminate).
  assert (V : match x_session pass_libm 0 junk0 sr48 [XBuffer (Some ramp4)] with Val (x, _) => x_ls x = zero /\ x_ph x = zero /\ x_size x = fofZ 4 /\ x_eff x = one | _ => False end) by (vm_compute; repeat split; reflexivity).
  rewrite S in V. destruct V as (V1 & V2 & V3 & V4).
  destruct (C63_window 3 3 pass_libm 0 junk0 sr48 [XBuffer (Some ramp4)] x ys n) as (x' & zs & A & B & _ & D); auto; try lia; try exact sr48_ok.
  - apply Forall_cons; [exact ramp4_ok|apply Forall_nil].
  - unfold tame. rewrite V1, V3, V4, zero_R, one_R. fval (fofZ 4 : f32). split; [lia|]. rewrite (Rabs_pos_eq 1) by lra. change (3 - 20)%Z with (-17)%Z. bp. lra.
  - unfold in_window. rewrite V1, V2, V3, zero_R. fval (fadd zero (fmul (fofZ 4) two) : f32). change (3 - 22)%Z with (-19)%Z. bp. lra.
  - exists x', zs. rewrite D. auto.
Qed.
(** C63: the code violates the window for rates above two loop lengths per sample, since it takes off only one window per tick: 2 frames at rate 5 drift to position 30 after 30 ticks. *)
Theorem C63_fast_rate_refuted : match x_session pass_libm 0 junk0 sr48 (XBuffer (Some (ones 2)) :: XRate (fofZ 5) :: repeat XTick 30) with
  | Val (x, _) => x_ls x = zero /\ x_size x = two /\ x_ph x = fofZ 30 | _ => False end.
Proof. vm_compute. repeat split; reflexivity. Qed.
Print Assumptions C63_fast_rate_refuted.

(** C64: playing, then a second [init], then ten ticks of silence although the buffer is all ones; another [setBuffer] brings it back. *)
Example ex_C64 : lefts (x_session pass_libm 0 junk0 sr48 (XBuffer (Some (ones 4)) :: XTick :: XInit sr48 :: repeat XTick 3 ++ [XBuffer (Some (ones 4)); XTick])) = [half; zero; zero; zero; fdec 15 16].
Proof. vm_compute. reflexivity. Qed.

(** C65: with equal gains for both heads (as at the middle of the crossfade) a full-length loop reads the same frame twice: ones come out as 1.41. *)
Example ex_C65_loud : match lefts (x_session toy_trig 0 junk0 sr48 [XBuffer (Some (ones 4)); XTick; XTick; XTick]) with [_; _; y] => flt (fdec 14 10) y | _ => false end = true.
Proof. vm_compute. reflexivity. Qed.

(** C65: the cubic reader overshoots: a buffer of ones and zeros read half-way between two ones gives more than 1 (times the envelope 3/4). *)
Example ex_C65_cubic : lefts (x_session pass_libm 0 junk0 sr48 [XBuffer (Some (buf_of [zero; fofZ 16; fofZ 16; zero])); XInterp 4; XRate (fdec 3 2); XTick; XTick]) = [zero; fdec 27 2].
Proof. vm_compute. reflexivity. Qed.

(** C66: hypotheses hold for a session with the exact library; and the whole release in a computed run. *)
Example ex_C66 : exists x ys, x_session exact_libm 0 junk0 sr48 [XBuffer (Some ramp4)] = Val (x, ys) /\ x_isDone x = false
  /\ exists n y zs, x_run exact_libm 0 x (XGate zero :: repeat XTick n) = Val (y, zs) /\ x_isDone y = true.
Proof.
  assert (A : Forall (x_op_ok 3) [XBuffer (Some ramp4)]) by (apply Forall_cons; [exact ramp4_ok|apply Forall_nil]).
  destruct (C44_plain_returns 3 exact_libm 0 junk0 sr48 [XBuffer (Some ramp4)] ltac:(lia) sr48_ok A) as [[x ys] S]; [apply Forall_cons; [exact I|apply Forall_nil]|].
  exists x, ys. split; [exact S|].
  assert (V : match x_session exact_libm 0 junk0 sr48 [XBuffer (Some ramp4)] with Val (x, _) => x_plays x ramp4 /\ flt zero (x_gate x) = true | _ => False end) by (lazy; repeat split; reflexivity).
  rewrite S in V. destruct V as [V1 V2].
  destruct (C66_release 3 7 exact_libm 0 junk0 sr48 [XBuffer (Some ramp4)] x ys ramp4 zero) as [D (n & y & zs & R & E & _)]; auto; try lia;
    try exact sr48_ok; try exact exact_exp_unit; try exact exact_exp_acc; try exact exact_trig_acc; try reflexivity.
  - apply Forall_cons; [intros _; exact ex_C38_loud|apply Forall_nil].
  - apply Forall_cons; [exact I|apply Forall_nil].
  - split; [exact D|]. eauto.
Qed.
Example ex_C66_computed :
  match x_session pass_libm 0 junk0 sr48 (XBuffer (Some ramp4) :: XTick :: XTick :: XGate zero :: repeat XTick 20) with Val (x, _) => x_isDone x | _ => false end = true
  /\ match x_session pass_libm 0 junk0 sr48 (XTick :: XGate zero :: repeat XTick 20) with Val (x, _) => x_isDone x | _ => true end = false.
Proof. vm_compute. split; reflexivity. Qed.

(** C67: heads of a bouncing loop over the middle half, three ticks in, going back. *)
Example ex_C67 : match x_session pass_libm 0 junk0 sr48 (XBuffer (Some ramp4) :: XStartEnd (fdec 1 4) (fdec 3 4) false :: XMode true :: repeat XTick 3) with
  | Val (x, _) => x_ls x = one /\ x_size x = two /\ x_heads x = (two, two) | _ => False end.
Proof. vm_compute. repeat split; reflexivity. Qed.
(** C67: the code does not bounce cleanly off the end of the buffer: the head lands on position n, which the reader wraps to frame 0, so a click at the start of the buffer is heard at the far turning point too. *)
Theorem C67_turning_point_refuted :
  lefts (x_session pass_libm 0 junk0 sr48 (XBuffer (Some (buf_of [fofZ 64; zero; zero; zero])) :: XMode true :: repeat XTick 9)) =
  [fofZ 32; zero; zero; zero; fofZ 62; zero; zero; zero; fdec 511 8].
Proof. vm_compute. reflexivity. Qed.
Print Assumptions C67_turning_point_refuted.

(** C68: the theorem applies to the ramp with the exact library; the computed values with the simple one are 10/2, 20*3/4, 40*7/8, 80*15/16. *)
Example ex_C68 : exists x ys, x_session exact_libm 0 junk0 sr48 (XBuffer (Some ramp4) :: [XInterp 4; XWrap false] ++ repeat XTick 4) = Val (x, ys) /\ length ys = 4%nat.
Proof.
  destruct ex_C38_loud as [L0 L1].
  assert (N : (rb_n ramp4 <= 2 ^ 22)%Z) by (cbn; lia). assert (K : (Z.of_nat 4 <= rb_n ramp4)%Z) by (cbn; lia).
  assert (Ro : Forall reader_op [XInterp 4; XWrap false]) by (repeat constructor).
  destruct (C68_first_pass 3 7 exact_libm 0 junk0 sr48 ramp4 _ 4 ltac:(lia) ltac:(lia) exact_exp_unit exact_trig_zero sr48_ok ex_C37_ok eq_refl N (or_introl eq_refl) L0 L1 Ro K) as (x & ys & A & B & _).
  exists x, ys. split; [exact A|exact B].
Qed.
Example ex_C68_values : lefts (x_session pass_libm 0 junk0 sr48 (XBuffer (Some ramp4) :: repeat XTick 4)) = [fofZ 5; fofZ 15; fofZ 35; fofZ 75]
  /\ lefts (x_session pass_libm 0 junk0 sr48 (XBuffer (Some ramp4) :: [XInterp 4; XWrap false] ++ repeat XTick 4)) = [fofZ 5; fofZ 15; fofZ 35; fofZ 75].
Proof. vm_compute. split; reflexivity. Qed.
