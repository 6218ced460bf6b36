(** The supersaw example: the property theorems C107-C110. *)
From Coq Require Import ZArith Reals Bool List Lra Lia.
From Flocq Require Import Core BinarySingleNaN.
From Verif Require Import Flt FltFacts FltMore FltRel FltClose FltKey FltArith Libm LibmInst UtilModel UtilProofs EnvSpec EnvInst OscSpec OscInst LineSpec LineInst PanProofs PanProofs2 OscModel SmoothModel RkModel VcModel VcSpec VcInst SsSpec PanSpec PanInst FvModel FvSpec
  PbProofs2 PbProofs3 PbProofs4 MxModel MxProofs SxModel SxSpec SxProofs SxProofs2.
Import ListNotations.
Local Open Scope R_scope.

Lemma exact_pow1e4 : pow1e4_acc exact_libm.
Proof.
  intros y F B. cbn [exact_libm m_pow].
  assert (T : fin (fofZ 10000 : f32) /\ B2R (fofZ 10000 : f32) = 10000) by (apply fofZ_R; lia). destruct T as [Ft Et].
  assert (E : cr_pow (fofZ 10000) y = fofR (Rpower 10000 (B2R y))).
  { destruct y; try discriminate F; unfold cr_pow; rewrite Ft, Et; reflexivity. }
  rewrite E. pose proof (pow1e4_b _ B) as R. set (r := Rpower 10000 (B2R y)) in *.
  destruct (fofR_b (prec:=24) (emax:=128) 0 10000 r dy0 (dyZ 10000 ltac:(lia)) ltac:(lra)) as (Fr & Er & _).
  split; [exact Fr|]. rewrite Er. eapply Rle_trans; [apply rrel|]. rewrite (Rabs_pos_eq r) by lra. pose proof t150 as T. revert T. bp. intros T. lra.
Qed.
Lemma exact_libs : libs exact_libm.
Proof. constructor; [exact exact_exp_unit|exact exact_exp_acc|exact exact_exp_rel|exact exact_log_rel|exact exact_pow2_acc|exact exact_pow1e4|exact exact_sin_unit|exact exact_cos_unit]. Qed.
(** Random numbers for the examples: sixteenths. *)
Definition dice (k i : Z) : f32 := fdiv (fofZ ((7 * k + 3 * i) mod 16)) (fofZ 16).
Lemma dice_ok : draws dice.
Proof.
  intros k i. unfold dice, unit_sample. pose proof (Z.mod_pos_bound (7 * k + 3 * i) 16 ltac:(lia)) as H. set (n := ((7 * k + 3 * i) mod 16)%Z) in *. clearbody n.
  destruct (fofZ_R (prec:=24) (emax:=128) n ltac:(lia)) as [Fn Rn]. destruct (fofZ_R (prec:=24) (emax:=128) 16 ltac:(lia)) as [F6 R6].
  assert (J : 0 <= IZR n <= 15) by (split; apply IZR_le; lia).
  destruct (fdiv_b 0 1 (fofZ n : f32) (fofZ 16) dy0 dy1 Fn F6) as (F & _ & B); [rewrite R6; lra|rewrite Rn, R6; lra|]. now split.
Qed.

(** ** C107: no undefined behaviour, and where what is heard comes from *)
(** Any order of pointer polls, blocks of 1 .. 8192 frames and changes of rate, with fewer than 2^31 frames between changes of rate: defined. *)
Theorem C107_defined : forall L gen sr os, sin_unit L -> (45 <= sr <= 2 ^ 24)%Z -> Forall sx_plain os -> sx_lasts 0 os -> exists s ys, sx_session L gen sr os = Some (s, ys).
Proof. exact session_defined. Qed.
Print Assumptions C107_defined.
(** What is played is 90 % of a dry signal and 10 % of what a reverb with the program's settings, started with the rate and again at every change of rate, makes of it. *)
Theorem C107_chain : forall L gen sr os s ys, sx_session L gen sr os = Some (s, ys) ->
  exists dry wet, map (@length _) dry = sx_sizes os /\ fv_run L (FvInit (fofZ sr) :: room_set ++ room_calls os dry) fv_new = Some (sx_rev s, wet) /\ blended (concat dry) wet ys.
Proof. exact plays_chain. Qed.
Print Assumptions C107_chain.
(** A block longer than the buffers, an empty block before any other, 2^31 frames without a change of rate: undefined. *)
Theorem C107_long_block_refuted : forall L gen sr os fs t, (8192 < Z.of_nat (length fs))%Z -> sx_session L gen sr (os ++ SxBlock fs :: t) = None.
Proof. exact long_block. Qed.
Print Assumptions C107_long_block_refuted.
Theorem C107_empty_first_refuted : forall L gen sr os t, Forall (fun o => match o with SxBlock (_ :: _) => False | _ => True end) os -> sx_session L gen sr (os ++ SxBlock [] :: t) = None.
Proof. exact empty_first. Qed.
Print Assumptions C107_empty_first_refuted.
Theorem C107_endurance_refuted : forall L gen sr os, Forall no_rate os -> (2 ^ 31 <= played os)%Z -> sx_session L gen sr os = None.
Proof. exact endurance. Qed.
Print Assumptions C107_endurance_refuted.
(** A block of three frames with the pointer moving in it, a change of rate, two more frames. *)
Definition session : list sx_call := [SxStore (SCol 300 1920); SxBlock [[]; [SRow 0 1080]; [SCol 7 9; SRow 1 0]]; SxRate 96000; SxBlock [[]; []]].
Lemma session_plain : Forall sx_plain session /\ Forall sx_ok session /\ sx_lasts 0 session.
Proof.
  split; [|split; [|cbn; lia]]; unfold session; repeat (apply Forall_cons; [first [exact Logic.I|cbn [sx_plain sx_ok length]; unfold sx_hz; lia]|]); apply Forall_nil.
Qed.
Example ex_C107 : (exists s ys, sx_session exact_libm dice 48000 session = Some (s, ys) /\ length ys = 5%nat) /\
  sx_session exact_libm dice 48000 [SxStore (SRow 1 2); SxRate 96000; SxBlock []] = None /\ sx_session exact_libm dice 48000 [SxBlock (repeat [] (Z.to_nat 8193))] = None.
Proof.
  destruct session_plain as (A & _ & B). split; [|split].
  - destruct (C107_defined exact_libm dice 48000 session exact_sin_unit ltac:(lia) A B) as (s & ys & E). exists s, ys. split; [exact E|].
    destruct (C107_chain _ _ _ _ _ _ E) as (dry & wet & D & _ & (N & _)). rewrite N. clear - D. cbn [session sx_sizes length] in D.
    destruct dry as [|d1 [|d2 [|]]]; try discriminate D. cbn [map] in D. injection D as D1 D2. cbn [concat]. rewrite !app_length, D1, D2. reflexivity.
  - apply (C107_empty_first_refuted exact_libm dice 48000 [SxStore (SRow 1 2); SxRate 96000] []). repeat constructor.
  - apply (C107_long_block_refuted exact_libm dice 48000 [] (repeat [] (Z.to_nat 8193)) []). rewrite repeat_length, Z2Nat.id by lia. lia.
Qed.

(** ** C108: the dry signal is bounded *)
(** 44.1 kHz to 225.28 kHz, any pointer, any drive, any changes of rate: every dry frame is finite and at most 512. *)
Theorem C108_dry_bounded : forall L gen sr os s ys,
  exp_unit L -> exp_acc L -> exp_rel L -> log_rel L -> pow2_acc L -> pow1e4_acc L -> sin_unit L -> cos_unit L -> draws gen -> sx_hz sr -> Forall sx_ok os -> sx_session L gen sr os = Some (s, ys) ->
  exists dry wet, map (@length _) dry = sx_sizes os /\ fv_run L (FvInit (fofZ sr) :: room_set ++ room_calls os dry) fv_new = Some (sx_rev s, wet) /\ blended (concat dry) wet ys /\
    Forall (fun x => (fin (fst x) /\ Rabs (B2R (fst x)) <= 512) /\ (fin (snd x) /\ Rabs (B2R (snd x)) <= 512)) (concat dry).
Proof. intros L gen sr os s ys H1 H2 H3 H4 H5 H6 H7 H8 HD HZ HO E. exact (proj2 (sx_dry L gen sr os s ys (Build_libs L H1 H2 H3 H4 H5 H6 H7 H8) HD HZ HO E)). Qed.
Print Assumptions C108_dry_bounded.
Example ex_C108 : exists s ys dry wet, sx_session exact_libm dice 48000 session = Some (s, ys) /\ blended (concat dry) wet ys /\ length (concat dry) = 5%nat /\
  Forall (fun x => (fin (fst x) /\ Rabs (B2R (fst x)) <= 512) /\ (fin (snd x) /\ Rabs (B2R (snd x)) <= 512)) (concat dry).
Proof.
  destruct session_plain as (A & C & B). destruct (C107_defined exact_libm dice 48000 session exact_sin_unit ltac:(lia) A B) as (s & ys & E). pose proof exact_libs as [H1 H2 H3 H4 H5 H6 H7 H8].
  destruct (C108_dry_bounded exact_libm dice 48000 session s ys H1 H2 H3 H4 H5 H6 H7 H8 dice_ok ltac:(unfold sx_hz; lia) C E) as (dry & wet & D & _ & Bl & F).
  exists s, ys, dry, wet. split; [exact E|]. split; [exact Bl|]. split; [|exact F]. clear - D. cbn [session sx_sizes length] in D.
  destruct dry as [|d1 [|d2 [|]]]; try discriminate D. cbn [map] in D. injection D as D1 D2. cbn [concat]. rewrite !app_length, D1, D2. reflexivity.
Qed.

(** ** C109: what a change of rate does *)
(** Without one the filters' cutoff never leaves 99 Hz .. 16384 Hz. *)
Theorem C109_held : forall L gen sr os s ys,
  exp_unit L -> exp_acc L -> exp_rel L -> log_rel L -> pow2_acc L -> pow1e4_acc L -> sin_unit L -> cos_unit L -> draws gen -> sx_hz sr -> Forall no_rate os -> sx_session L gen sr os = Some (s, ys) ->
  (fin (rk_cut (sx_fl s)) /\ 99 <= B2R (rk_cut (sx_fl s)) <= 16384) /\ (fin (rk_cut (sx_fr s)) /\ 99 <= B2R (rk_cut (sx_fr s)) <= 16384).
Proof. intros L gen sr os s ys H1 H2 H3 H4 H5 H6 H7 H8 HD HZ HO E. exact (sx_held L gen sr os s ys (Build_libs L H1 H2 H3 H4 H5 H6 H7 H8) HD HZ HO E). Qed.
Print Assumptions C109_held.
(** With the first sample after one both filters are closed, to 10 Hz or less, although the cutoff asked for is 99.9 Hz or more. *)
Theorem C109_closed_refuted : forall L gen sr os sr' ps s ys,
  exp_unit L -> exp_acc L -> exp_rel L -> log_rel L -> pow2_acc L -> pow1e4_acc L -> sin_unit L -> cos_unit L -> draws gen -> sx_hz sr -> Forall sx_ok os -> sx_hz sr' ->
  sx_session L gen sr (os ++ [SxRate sr'; SxBlock [ps]]) = Some (s, ys) ->
  (fin (rk_cut (sx_fl s)) /\ 0 <= B2R (rk_cut (sx_fl s)) <= 10) /\ (fin (rk_cut (sx_fr s)) /\ 0 <= B2R (rk_cut (sx_fr s)) <= 10) /\ 999 / 10 <= B2R (sx_cut s).
Proof. intros L gen sr os sr' ps s ys H1 H2 H3 H4 H5 H6 H7 H8 HD HZ HO H' E. exact (sx_dropped L gen sr os sr' ps s ys (Build_libs L H1 H2 H3 H4 H5 H6 H7 H8) HD HZ HO H' E). Qed.
Print Assumptions C109_closed_refuted.
(** At the start the three voices are seeded 42, 43 and 44: each draws its own random phases ... *)
(** The random phases a voice starts from: sawtooth number [i] of seven at draw [2 i + 1] of the generator, within 2^-22. *)
Definition phased (d : Z -> f32) (v : ssaw) : Prop :=
  Forall2 (fun u i => fin (sw_phase (sv_saw u)) /\ Rabs (B2R (sw_phase (sv_saw u)) - B2R (d (2 * i + 1)%Z)) <= bpow radix2 (-22)) (ss_voices v) [0; 1; 2; 3; 4; 5; 6]%Z.
Lemma phase_acc sr r : unit_sample r -> fin (sw_phase (sw_init sr (fsub (fmul r two) one))) /\ Rabs (B2R (sw_phase (sw_init sr (fsub (fmul r two) one))) - B2R r) <= bpow radix2 (-22).
Proof.
  intros [F B]. unfold sw_init. cbv zeta. cbn [sw_phase].
  assert (T : cl 0 (two : f32) 2) by (split; [ffin|fval (two : f32); rewrite Rabs_pos_eq; lra]).
  assert (O : cl 0 (one : f32) 1) by (split; [ffin|rewrite one_R, Rminus_diag_eq, Rabs_R0; lra]).
  assert (H : cl 0 (half : f32) (/ 2)) by (split; [ffin|fval (half : f32); rewrite Rabs_pos_eq; lra]).
  pose proof (cl_mul 1 0 0 1 2 r two (B2R r) 2 ltac:(lia) (cl_self _ F) T) as A. change (bpow radix2 (1 - 25)) with (/ 16777216) in A. change (bpow radix2 1) with 2 in A.
  specialize (A ltac:(rewrite Rabs_pos_eq; lra) ltac:(rewrite Rabs_pos_eq; lra) ltac:(lra)). set (a := fmul r two) in *. clearbody a.
  pose proof (cl_sub 1 _ 0 a one _ 1 ltac:(lia) A O) as C. change (bpow radix2 (1 - 25)) with (/ 16777216) in C. change (bpow radix2 1) with 2 in C.
  specialize (C ltac:(assert (Rabs (B2R r * 2 - 1) <= 1) by (apply Rabs_le; lra); lra)). set (c := fsub a one) in *. clearbody c.
  pose proof (cl_add 2 _ 0 c one _ 1 ltac:(lia) C O) as D. change (bpow radix2 (2 - 25)) with (/ 8388608) in D. change (bpow radix2 2) with 4 in D.
  specialize (D ltac:(rewrite (Rabs_pos_eq (B2R r * 2 - 1 + 1)) by lra; lra)). set (d := fadd c one) in *. clearbody d.
  pose proof (cl_mul 1 _ 0 2 (/ 2) d half _ (/ 2) ltac:(lia) D H) as E. change (bpow radix2 (1 - 25)) with (/ 16777216) in E. change (bpow radix2 1) with 2 in E.
  specialize (E ltac:(rewrite Rabs_pos_eq; lra) ltac:(rewrite Rabs_pos_eq; lra) ltac:(lra)). set (e := fmul d half) in *. clearbody e. destruct E as [Fe Ee].
  replace ((B2R r * 2 - 1 + 1) * / 2) with (B2R r) in Ee by lra. change (bpow radix2 (-22)) with (/ 4194304).
  assert (G : Rabs (B2R e - B2R r) <= / 4194304) by lra. clear - F B Fe G. apply Rabs_le_inv in G.
  assert (F0 : fin (zero : f32)) by reflexivity. assert (F1 : fin (one : f32)) by ffin. pose proof zero_R as Z0. pose proof one_R as Z1.
  destruct (flt e zero) eqn:K.
  - apply (flt_R _ _ Fe F0) in K. rewrite zero_R in K. replace (flt (one : f32) zero) with false by (vm_compute; reflexivity). split; [reflexivity|]. rewrite zero_R. apply Rabs_le. lra.
  - destruct (flt one e) eqn:K'.
    + apply (flt_R _ _ F1 Fe) in K'. rewrite one_R in K'. split; [ffin|]. rewrite one_R. apply Rabs_le. lra.
    + split; [exact Fe|]. apply Rabs_le. lra.
Qed.
Lemma voice_phases L sr rnd f : (forall i, unit_sample (rnd i)) -> phased rnd (sx_voice L sr rnd f).
Proof.
  intros H. unfold phased.
  assert (E : map (fun u => sw_phase (sv_saw u)) (ss_voices (sx_voice L sr rnd f)) = map (fun i => sw_phase (sw_init sr (fsub (fmul (rnd (2 * i + 1)%Z) two) one))) idx).
  { unfold sx_voice. cbv zeta. unfold ss_init. reflexivity. }
  set (vs := ss_voices _) in *. clearbody vs. change [0; 1; 2; 3; 4; 5; 6]%Z with idx.
  assert (G : Forall2 (fun p i => fin p /\ Rabs (B2R p - B2R (rnd (2 * i + 1)%Z)) <= bpow radix2 (-22)) (map (fun u => sw_phase (sv_saw u)) vs) idx).
  { rewrite E. clear E. generalize idx as l. induction l as [|i l IH]; cbn [map]; constructor; [apply phase_acc, H|exact IH]. }
  clear E. revert G. generalize idx as l. induction vs as [|v vs IH]; intros l G; cbn [map] in G; inversion G; subst; constructor; auto.
Qed.
(** At the start each of the three notes draws its own phases: the generator is seeded 42, 43 and 44 ... *)
Theorem C109_seeds : forall L gen sr s, draws gen -> sx_start L gen sr = Some s -> Forall2 (fun v k => phased (gen k) v) (sx_v s) [42; 43; 44]%Z.
Proof.
  intros L gen sr s D. unfold sx_start. cbv zeta. destruct (sx_reverb _ _) as [g|]; [|discriminate]. intros E. injection E as <-. cbn [sx_v]. unfold sx_voices.
  constructor; [apply voice_phases; intros i; apply D|]. constructor; [apply voice_phases; intros i; apply D|]. constructor; [apply voice_phases; intros i; apply D|constructor].
Qed.
Print Assumptions C109_seeds.
(** ... after a change of rate they are the same voice at three pitches. *)
Theorem C109_alike_refuted : forall L gen s n t, sx_rate L gen s n = Some t -> exists v, sx_v t = map (ss_setFrequency v) [fofZ 55; fdec 32963 100; fdec 52325 100].
Proof. exact same_voices. Qed.
Print Assumptions C109_alike_refuted.
(** The numbers [dice] gives under the three seeds differ, so the notes start apart; the event that closes the filters can be reached. *)
Example ex_C109 : (exists s, sx_start exact_libm dice 48000 = Some s /\ Forall2 (fun v k => phased (dice k) v) (sx_v s) [42; 43; 44]%Z) /\ dice 42 1 = fdec 5625 10000 /\ dice 43 1 = zero /\ dice 44 1 = fdec 4375 10000 /\
  (exists s ys, sx_session exact_libm dice 48000 [SxStore (SCol 1919 1920); SxRate 44100; SxBlock [[]]] = Some (s, ys) /\ B2R (rk_cut (sx_fl s)) <= 10 /\ 999 / 10 <= B2R (sx_cut s)) /\
  (exists s ys, sx_session exact_libm dice 48000 [SxStore (SCol 1919 1920); SxBlock [[]]] = Some (s, ys) /\ 99 <= B2R (rk_cut (sx_fl s))).
Proof.
  pose proof exact_libs as [H1 H2 H3 H4 H5 H6 H7 H8].
  assert (P : Forall sx_plain [SxStore (SCol 1919 1920); SxRate 44100; SxBlock [[]]]) by (repeat (apply Forall_cons; [first [exact Logic.I|cbn [sx_plain length]; lia]|]); apply Forall_nil).
  assert (Q : Forall sx_plain [SxStore (SCol 1919 1920); SxBlock [[]]]) by (repeat (apply Forall_cons; [first [exact Logic.I|cbn [sx_plain length]; lia]|]); apply Forall_nil).
  split; [|split; [|split; [|split; [|split]]]].
  - destruct (C107_defined exact_libm dice 48000 [] exact_sin_unit ltac:(lia) (Forall_nil _) I) as (s & ys & E). unfold sx_session in E.
    destruct (sx_start exact_libm dice 48000) as [t|] eqn:St; [|discriminate E]. exists t. split; [reflexivity|]. exact (C109_seeds _ _ _ _ dice_ok St).
  - vm_compute. reflexivity.
  - vm_compute. reflexivity.
  - vm_compute. reflexivity.
  - destruct (C107_defined exact_libm dice 48000 [SxStore (SCol 1919 1920); SxRate 44100; SxBlock [[]]] exact_sin_unit ltac:(lia) P ltac:(cbn; lia)) as (s & ys & E). exists s, ys. split; [exact E|].
    destruct (C109_closed_refuted exact_libm dice 48000 [SxStore (SCol 1919 1920)] 44100 [] s ys H1 H2 H3 H4 H5 H6 H7 H8 dice_ok ltac:(unfold sx_hz; lia) ltac:(repeat constructor) ltac:(unfold sx_hz; lia) E) as (A & _ & C).
    split; [apply A|exact C].
  - destruct (C107_defined exact_libm dice 48000 [SxStore (SCol 1919 1920); SxBlock [[]]] exact_sin_unit ltac:(lia) Q ltac:(cbn; lia)) as (s & ys & E). exists s, ys. split; [exact E|].
    apply (C109_held exact_libm dice 48000 [SxStore (SCol 1919 1920); SxBlock [[]]] s ys H1 H2 H3 H4 H5 H6 H7 H8 dice_ok ltac:(unfold sx_hz; lia) ltac:(repeat constructor) E).
Qed.

(** ** C110: what the pointer sets *)
(** Column [x] of [w]: the cutoff is 100 Hz times 120 to the fraction of the width. *)
Theorem C110_cutoff : forall L x w, exp_rel L -> log_rel L -> screen x w ->
  let f := 100 * Rpower 120 (Rmax 0 (Rmin 1 (IZR x / IZR w))) in
  fin (sx_cutoff L x w) /\ Rabs (B2R (sx_cutoff L x w) - f) <= bpow radix2 (-16) * f.
Proof.
  intros L x w EL LL S f. destruct (sx_cut_acc L x w EL LL S) as [F E]. split; [exact F|]. change (Rmax 0 (Rmin 1 (IZR x / IZR w))) with (rclamp (IZR x / IZR w)) in f. pose proof (rclamp_in (IZR x / IZR w)) as U. set (u := rclamp _) in *.
  assert (G : geo 100 12000 u = f). { unfold geo, f, Rpower. rewrite exp_plus, exp_ln by lra. f_equal. f_equal. f_equal. replace 12000 with (120 * 100) by lra. rewrite ln_mult by lra. ring. }
  rewrite G in E. assert (0 < f) by (unfold f, Rpower; pose proof (exp_pos (u * ln 120)); lra). rewrite (Rabs_pos_eq f) in E by lra. exact E.
Qed.
Print Assumptions C110_cutoff.
(** Row [y] of [h]: the drive is 1 at the top, 0 at the bottom. *)
Theorem C110_drive : forall y h, screen y h -> fin (sx_drive y h) /\ Rabs (B2R (sx_drive y h) - (1 - Rmax 0 (Rmin 1 (IZR y / IZR h)))) <= bpow radix2 (-24).
Proof. exact sx_drive_acc. Qed.
Print Assumptions C110_drive.
(** The gain of a drive [n], any finite float, is 0.01 times 10000 to the clamped [n]: 0.01 .. 100. *)
Theorem C110_gain : forall L n, pow1e4_acc L -> fin n ->
  let g := / 100 * Rpower 10000 (Rmax 0 (Rmin 1 (B2R n))) in fin (sx_gain L n) /\ Rabs (B2R (sx_gain L n) - g) <= bpow radix2 (-21) * g.
Proof.
  intros L n HP F g. unfold g. change (Rmax 0 (Rmin 1 (B2R n))) with (rclamp (B2R n)). destruct (uclamp_R n F) as [_ E]. rewrite <- E. exact (sx_gain_acc L n HP).
Qed.
Print Assumptions C110_gain.
(** Any integers at all, a screen of width or height 0 included: in range and never a NaN. *)
Theorem C110_any_pointer : forall L x w y h, exp_rel L -> log_rel L ->
  fin (sx_cutoff L x w) /\ 999 / 10 <= B2R (sx_cutoff L x w) <= 12001 /\ fin (sx_drive y h) /\ 0 <= B2R (sx_drive y h) <= 1.
Proof. intros L x w y h EL LL. destruct (sx_cut_range L x w EL LL) as [A B]. destruct (sx_drive_range y h) as [C D]. auto. Qed.
Print Assumptions C110_any_pointer.
(** On a screen of 1920 x 1080 the middle column is 1095 Hz, the middle row a drive of 1/2, and that a gain of 1; below the screen the drive is 0. *)
Example ex_C110 : Rabs (B2R (sx_cutoff exact_libm 960 1920) - 100 * sqrt 120) <= bpow radix2 (-16) * (100 * sqrt 120) /\ sx_drive 540 1080 = half /\ sx_drive 2000 1080 = zero /\ sx_drive (-5) 1080 = one /\
  Rabs (B2R (sx_gain exact_libm half) - 1) <= bpow radix2 (-21).
Proof.
  split; [|split; [|split; [|split]]]; [|vm_compute; reflexivity|vm_compute; reflexivity|vm_compute; reflexivity|].
  - pose proof (proj2 (C110_cutoff exact_libm 960 1920 exact_exp_rel exact_log_rel ltac:(unfold screen; lia))) as E. cbv zeta in E.
    replace (Rmax 0 (Rmin 1 (IZR 960 / IZR 1920))) with (/ 2) in E by (replace (IZR 960 / IZR 1920) with (/ 2) by lra; rewrite Rmin_right, Rmax_right by lra; reflexivity). rewrite Rpower_sqrt in E by lra. exact E.
  - assert (Fh : fin (half : f32)) by ffin. assert (Eh : B2R (half : f32) = / 2) by (fval (half : f32); lra).
    pose proof (proj2 (C110_gain exact_libm half exact_pow1e4 Fh)) as E. cbv zeta in E. rewrite Eh in E.
    replace (Rmax 0 (Rmin 1 (/ 2))) with (/ 2) in E by (rewrite Rmin_right, Rmax_right by lra; reflexivity). rewrite Rpower_sqrt in E by lra.
    replace (sqrt 10000) with 100 in E by (replace 10000 with (Rsqr 100) by (unfold Rsqr; lra); rewrite sqrt_Rsqr; lra). replace (/ 100 * 100) with 1 in E by lra. rewrite Rmult_1_r in E. exact E.
Qed.
