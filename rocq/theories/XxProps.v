(** The XPlay example: the property theorems C104-C106. *)
From Coq Require Import ZArith Reals Bool List Lra Lia.
From Flocq Require Import Core BinarySingleNaN.
From Verif Require Import Flt FltFacts FltMore FltKey FltArith Libm LibmInst EnvModel EnvSpec EnvInst Res UtilModel OscSpec PhasorProofs SmoothModel RdModel RdSpec RdProps PanSpec PanInst
  AllocModel AllocSpec AllocProps PbModel PbProofs PbProps UtilProofs XpModel XpSpec XpProofs XpProps XxModel XxProofs XxProofs2.
Import ListNotations.

(** ** C104: the pointer *)
(** The code violates this: whatever the pointer does, before, between and after the callbacks, the output is the one of a program whose pointer is never polled. *)
Theorem C104_pointer_refuted : forall L fuel b junk sr os os', filter (fun o => negb (xx_moves o)) os = filter (fun o => negb (xx_moves o)) os' ->
  xx_heard L fuel b junk sr os = xx_heard L fuel b junk sr os'.
Proof. intros L fuel b junk sr os os' E. rewrite (pointer_ignored L fuel b junk sr os), (pointer_ignored L fuel b junk sr os'), E. reflexivity. Qed.
Print Assumptions C104_pointer_refuted.
(** Pointer in the top left corner, then far right and down: the same values, which do depend on the buffer. *)
Definition xx_lefts (r : res (list (f32 * f32))) : list f32 := match r with Val ys => map fst ys | _ => [] end.
Example ex_C104 : xx_lefts (xx_heard pass_libm 0 ramp4 junk0 48000 [XxBlock 4]) = xx_lefts (xx_heard pass_libm 0 ramp4 junk0 48000 [XxPoint 0 0 1920 1080; XxBlock 2; XxPoint 1900 1000 1920 1080; XxBlock 2])
  /\ xx_lefts (xx_heard pass_libm 0 ramp4 junk0 48000 [XxBlock 4]) = [fofZ 10; fdec 2109375 100000; fofZ 35; fdec 615234375 10000000].
Proof. vm_compute. split; reflexivity. Qed.

(** ** C105: safe and bounded *)
Local Open Scope R_scope.
Lemma xx_buffer_ok P st b rate : (1 <= rate <= 2 ^ 18)%Z -> rb_ok (view P st b) -> (rb_n (view P st b) <= 2 ^ 32)%Z ->
  rb_ok (xx_buffer P st b rate) /\ rb_n (xx_buffer P st b rate) = rb_n (view P st b) /\ (forall c i, smp (xx_buffer P st b rate) c i = smp (view P st b) c i) /\ xbuf_ok (Some (xx_buffer P st b rate)) /\ rb_sr (xx_buffer P st b rate) = fofZ rate.
Proof.
  intros Hr O N. assert (O2 : rb_ok (xx_buffer P st b rate)) by exact O. split; [exact O2|]. split; [reflexivity|]. split; [reflexivity|]. split; [|reflexivity].
  split; [intros _; split; [exact O2|exact N]|]. intros _. destruct (card_sr rate Hr) as (F & E & B). split; [exact F|]. change (rb_sr (xx_buffer P st b rate)) with (fofZ rate : f32). rewrite E. bp. lra.
Qed.
(** Load a file of one or two channels and at most 2^32 frames, start, then any process callbacks, pointer moves and sample-rate changes: the program returns, never meets an
    undefined operation, plays as many frames as asked for, and none louder than 1.769 times the file. *)
Theorem C105_safe_and_bounded : forall Lm fuel P MB st L f st' b j junk sr os, trig_acc Lm -> exp_unit Lm -> params_ok P MB -> (P < 2 ^ 62)%Z ->
  reachable P MB st L -> file_ok f -> (sf_ch f <= 2)%Z -> (sf_frames f <= 2 ^ 32)%Z -> load P st f = Some (st', Some b) -> card_rate (sf_rate f) -> card_rate sr ->
  (-100 <= j <= 95)%Z -> (forall i, (0 <= i < sf_frames f * sf_ch f)%Z -> fin (sf_item f i) /\ Rabs (B2R (sf_item f i)) <= bpow radix2 j) -> Forall xx_ok os ->
  exists ys, xx_heard Lm fuel (xx_buffer P st' b (sf_rate f)) junk sr os = Val ys /\ length ys = xx_asked os /\ Forall (within2 (1.769 * bpow radix2 j)) ys.
Proof.
  intros Lm fuel P MB st L f st' b j junk sr os HT HL PM PB R F C N E Hf Hs J Lo H. destruct (load_view P MB PM st L f st' b R F C PB E) as (O & Nn & S).
  destruct (xx_buffer_ok P st' b (sf_rate f) Hf O ltac:(lia)) as (O2 & N2 & S2 & X & _).
  assert (LD : forall c, (0 <= c <= 1)%Z -> loud j (xx_buffer P st' b (sf_rate f)) c).
  { intros c Hc i Hi. rewrite N2, Nn in Hi. rewrite S2, S by (auto; lia). apply Lo. destruct F as [F1 F2]. destruct (Z.eqb_spec (sf_ch f) 1) as [Q|Q]; [rewrite Q; lia|]. assert (sf_ch f = 2)%Z by lia. nia. }
  destruct (session_fine j Lm fuel _ junk sr os J HT HL X (LD 0%Z ltac:(lia)) (LD 1%Z ltac:(lia)) Hs H) as (s & ys & E2 & Ln & W & _). exists ys. unfold xx_heard. rewrite E2. auto.
Qed.
Print Assumptions C105_safe_and_bounded.
Example ex_C105 : exists st' b, load ex_P ex_st stereo3 = Some (st', Some b) /\
  forall n, exists ys, xx_heard exact_libm 0 (xx_buffer ex_P st' b 48000) junk0 44100 [XxBlock n; XxPoint 0 0 1920 1080; XxBlock n; XxRate 96000; XxBlock n] = Val ys /\ length ys = (n + (n + (n + 0)))%nat /\ Forall (within2 (1.769 * bpow radix2 7)) ys.
Proof.
  destruct (load_fine ex_P ex_MB ex_params ex_st ex_L stereo3 ex_reachable ltac:(unfold file_ok; cbn; lia) ltac:(cbn; lia)) as (st' & r & E & V & _).
  assert (W : exists b, r = Some b).
  { assert (Q : match load ex_P ex_st stereo3 with Some (_, Some _) => true | _ => false end = true) by (vm_compute; reflexivity). rewrite E in Q. destruct r as [b|]; [eauto|discriminate]. }
  destruct W as [b ->]. exists st', b. split; [exact E|]. intros n.
  set (os := [XxBlock n; XxPoint 0 0 1920 1080; XxBlock n; XxRate 96000; XxBlock n]). change (n + (n + (n + 0)))%nat with (xx_asked os). change 48000%Z with (sf_rate stereo3).
  apply (C105_safe_and_bounded exact_libm 0 ex_P ex_MB ex_st ex_L stereo3 st' b 7 junk0 44100 os exact_trig_acc exact_exp_unit ex_params ltac:(unfold ex_P; lia) ex_reachable); auto.
  - unfold file_ok; cbn; lia.
  - cbn; lia.
  - cbn; lia.
  - unfold card_rate; cbn; lia.
  - unfold card_rate; lia.
  - lia.
  - intros i Hi. cbn [stereo3 sf_frames sf_ch sf_item] in *. destruct (fofZ_R (prec:=24) (emax:=128) (100 + i) ltac:(lia)) as [F Q]. split; [exact F|]. rewrite Q, Rabs_pos_eq by (apply IZR_le; lia). apply (IZR_le _ 128). lia.
  - unfold os. repeat constructor; unfold card_rate; lia.
Qed.

(** ** C106: what is looped, and how fast *)
(** Files of up to 65 seconds (at 48 kHz) and not played faster than half their length per sample: at any time the head that is faded in (the second one from the middle of the double loop on)
    stands in the middle half of the file, up to 2^-20 of its length at the start, and moves by half the ratio of the sample rates, within 2^-23. *)
Theorem C106_middle_half : forall L fuel b junk rate sr os s ys, xbuf_ok (Some b) -> rb_valid b = true -> (1 <= rb_n b <= 3 * 2 ^ 20)%Z -> card_rate rate -> rb_sr b = fofZ rate -> card_rate sr -> Forall xx_ok os ->
  (rate <= rb_n b * sr)%Z -> Forall (fun o => match o with XxRate r => (rate <= rb_n b * r)%Z | _ => True end) os ->
  xx_session L fuel b junk sr os = Val (s, ys) -> let x := xx_x s in
  (if fle (fadd (x_ls x) (x_size x)) (x_ph x) then in_loop (rb_n b) (snd (x_heads x)) else in_loop (rb_n b) (fst (x_heads x))) /\
  B2R (x_ls x) = IZR (rb_n b) / 4 /\ B2R (x_size x) = IZR (rb_n b) / 2 /\
  Rabs (B2R (x_eff x) - IZR rate / IZR (xx_last sr os) / 2) <= bpow radix2 (-23) * (IZR rate / IZR (xx_last sr os) / 2).
Proof.
  intros L fuel b junk rate sr os s ys X V N Hr Rb Hs O Sl Sls E x. unfold xx_session in E. destruct (xx_start L fuel b junk sr) as [s0| |] eqn:E0; cbn [rbind] in E; try discriminate.
  assert (N2 : (1 <= rb_n b <= 2 ^ 22)%Z) by lia.
  assert (St : xx_state b sr (xx_x s0)).
  { pose proof (session_player L fuel b junk sr []) as P. unfold xx_session in P. rewrite E0 in P. cbn [rbind xx_run xx_player fst snd xx_flat flat_map] in P. rewrite app_nil_r in P. symmetry in P.
    pose proof (all_ok b [] X (Forall_nil _)) as A. cbn [xx_flat flat_map] in A. rewrite app_nil_r in A.
    pose proof (session_ok 3 L fuel junk (fofZ sr) (xx_rest b) ltac:(lia) (card_xsr sr Hs) A) as K. rewrite P in K.
    unfold x_session in P. destruct junk as [[rd lg] env]. change (XInit (fofZ sr) :: xx_rest b) with (xx_setup b (fofZ sr)) in P.
    destruct (setup_set L fuel b sr (x_new rd lg env) (xx_x s0) [] V) as [S Ph]; [split; [reflexivity|left; split; reflexivity]|exact P|].
    split; [exact K|]. split; [exact S|exact (start_window b sr _ N2 S Ph)]. }
  destruct (run_state L fuel b rate os X V N2 Hr Rb O sr s0 s ys Hs Sl Sls St E) as [St2 Hl]. fold x in St2. destruct (state_heads b _ x N St2) as [_ H]. destruct St2 as (_ & S & _).
  destruct (set_loop b _ x N2 S) as [[_ E1] [_ E2]]. destruct (set_speed b rate _ x Hr Hl Rb S) as [_ E3]. split; [exact H|]. split; [exact E1|]. split; [exact E2|]. rewrite E3.
  destruct (card_sr rate Hr) as (_ & _ & Br). destruct (card_sr _ Hl) as (_ & _ & Bl). set (q := IZR rate / IZR (xx_last sr os)) in *.
  assert (Q : bpow radix2 (-18) <= q).
  { unfold q. apply Rle_trans with (/ IZR (xx_last sr os)); [change (bpow radix2 (-18)) with (/ 262144); apply Rinv_le; lra|]. unfold Rdiv. rewrite <- (Rmult_1_l (/ IZR (xx_last sr os))) at 1. apply Rmult_le_compat_r; [left; apply Rinv_0_lt_compat; lra|lra]. }
  pose proof (speed_close q Q) as D. replace (rnd32 q / 2 - q / 2) with ((rnd32 q - q) * / 2) by field. rewrite Rabs_mult, (Rabs_pos_eq (/ 2)) by lra. lra.
Qed.
Print Assumptions C106_middle_half.
(** Four frames at 48 kHz: loop from frame 1 to frame 3, half a frame per sample; after a change to 96 kHz a quarter. *)
Example ex_C106 : match xx_session pass_libm 0 ramp4 junk0 48000 [XxBlock 5] with
  | Val (s, _) => x_ls (xx_x s) = one /\ x_size (xx_x s) = two /\ x_ph (xx_x s) = fdec 35 10 /\ x_heads (xx_x s) = (fdec 35 10, fdec 15 10) /\ x_eff (xx_x s) = half
  | _ => False end
  /\ match xx_session pass_libm 0 ramp4 junk0 48000 [XxBlock 5; XxRate 96000; XxBlock 3] with Val (s, _) => x_ph (xx_x s) = fdec 175 100 /\ x_eff (xx_x s) = fdec 25 100 | _ => False end.
Proof. vm_compute. repeat split; reflexivity. Qed.
Example ex_C106_applies : forall n, exists s ys, xx_session exact_libm 0 ramp4 junk0 48000 [XxBlock n; XxRate 96000; XxBlock n] = Val (s, ys) /\ B2R (x_ls (xx_x s)) = IZR 4 / 4.
Proof.
  intros n. set (os := [XxBlock n; XxRate 96000; XxBlock n]). assert (O : Forall xx_ok os) by (unfold os; repeat constructor; unfold card_rate; lia).
  destruct (session_fine 7 exact_libm 0 ramp4 junk0 48000 os ltac:(lia) exact_trig_acc exact_exp_unit ramp4_ok (proj1 ex_C38_loud) (proj2 ex_C38_loud) ltac:(unfold card_rate; lia) O) as (s & ys & E & _).
  exists s, ys. split; [exact E|]. change 4%Z with (rb_n ramp4) at 1. apply (C106_middle_half exact_libm 0 ramp4 junk0 48000 48000 os s ys); auto; try (unfold card_rate; lia); try exact ramp4_ok; try reflexivity; try (cbn; lia).
  unfold os. repeat constructor. cbn. lia.
Qed.
