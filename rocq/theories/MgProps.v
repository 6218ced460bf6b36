(** Properties of the Krajeski and Stilson ladders, and of the setters of all seven: C50, C51, C52, C71. *)
From Coq Require Import ZArith Reals Lra Lia Bool List.
From Flocq Require Import Core BinarySingleNaN.
From Verif Require Import Flt FltFacts FltMore FltKey Libm LibmInst Res UtilModel UtilProofs Dbl MgModel MgSpec MgBase MgInst KjModel KjProofs StModel StProofs MtModel MdModel ImModel ObModel RkModel MgComm.
Import ListNotations.
Local Open Scope R_scope.

(** C50: every output of a Stilson ladder is finite and at most 1 in magnitude: finite samples of any size, any resonance but NaN,
    cutoffs up to 300 sample rates, [reset]s, in any order; whatever the uninitialised member held. *)
Theorem C50_stilson_bounded : forall r0 sr os, mg_rate sr ->
  (forall o, In o os -> match o with StCut c => fin c /\ Rabs (B2R c) <= 300 * B2R sr | StRes r => is_nan r = false | StTick x => fin x | StReset => True end) ->
  exists s s' ys, st_init r0 sr = Val s /\ st_run s os = Val (s', ys) /\ forall y, In y ys -> fin y /\ -1 <= B2R y <= 1.
Proof.
  intros r0 sr os Hr Ho. destruct (st_bounded r0 sr os Hr) as (s & s' & ys & A & B & C); [apply Forall_forall; exact Ho|]. exists s, s', ys. rewrite Forall_forall in C. auto.
Qed.
Print Assumptions C50_stilson_bounded.

(** C50: every output of a Krajeski ladder is finite and at most 1 in magnitude: finite samples of any size, any resonance but NaN, cutoffs from 1 Hz to 0.3 sample rates. *)
Theorem C50_krajeski_bounded : forall L sr os, dtanh_unit L -> dpow_acc L -> mg_rate sr ->
  (forall o, In o os -> match o with KjCut c => mg_cut (3 / 10) sr c | KjRes r => is_nan r = false | KjTick x => fin x | KjReset => True end) ->
  forall y, In y (snd (mg_run (kj_call L) (kj_init L sr) os)) -> fin y /\ -1 <= B2R y <= 1.
Proof. intros L sr os HT HL Hr Ho. apply Forall_forall. apply kj_bounded; auto. apply Forall_forall. exact Ho. Qed.
Print Assumptions C50_krajeski_bounded.

(** C50: with no assumption at all - any memory, any calls, NaN and infinite samples, settings or library values - it is finite and below 2^100. *)
Theorem C50_krajeski_finite : forall L s os y, In y (snd (mg_run (kj_call L) s os)) -> fin y /\ Rabs (B2R y) <= bpow radix2 100.
Proof. intros L s os. apply Forall_forall. apply kj_always_finite. Qed.
Print Assumptions C50_krajeski_finite.

Lemma exact_mg : dtanh_unit exact_libm /\ dpow_acc exact_libm. Proof. split; [exact exact_dtanh_unit|exact exact_dpow]. Qed.
Lemma rate48 : mg_rate (fofZ 48000). Proof. split; [reflexivity|]. fval (fofZ 48000 : f32). lra. Qed.
Lemma rate44 : mg_rate (fofZ 44100). Proof. split; [reflexivity|]. fval (fofZ 44100 : f32). lra. Qed.
Lemma cut48 : mg_cut (3 / 10) (fofZ 48000) (fofZ 14400). Proof. split; [reflexivity|]. fval (fofZ 48000 : f32). fval (fofZ 14400 : f32). lra. Qed.
(** A full-blown Krajeski filter, driven at +60 dB, with a correctly rounded library. *)
Example ex_C50_krajeski : forall y, In y (snd (mg_run (kj_call exact_libm) (kj_init exact_libm (fofZ 48000)) [KjCut (fofZ 14400); KjRes (B754_infinity false); KjTick (fofZ 1000); KjTick (fofZ (-1000)); KjReset; KjTick one])) -> fin y /\ -1 <= B2R y <= 1.
Proof. apply (C50_krajeski_bounded _ _ _ (proj1 exact_mg) (proj2 exact_mg) rate48). intros o H. repeat (destruct H as [<-|H]; [try exact cut48; try exact Logic.I; reflexivity|]). destruct H. Qed.
(** Stilson at +60 dB, with the largest float among the inputs. *)
Definition fmaxv : f32 := flit 16777215 104.
Definition hot : list st_op := [StCut (fofZ 8000); StRes one; StTick (fofZ 1000); StTick (fofZ 1000); StTick (fofZ 1000); StTick fmaxv; StTick (fofZ 1000); StTick (fofZ 1000)].
Example ex_C50_stilson : match st_init one (fofZ 48000) with Val s => match st_run s hot with Val (_, ys) => forallb (fun y => fle (fneg one) y && fle y one) ys = true /\ existsb (fun y => flt (fdec 94 100) y) ys = true /\ length ys = 6%nat | _ => False end | _ => False end.
Proof. vm_compute. auto. Qed.
(** The bound 1 fails for NaN samples: one of them sends a Krajeski filter below -2^80. *)
Theorem C50_krajeski_nan_refuted : exists L sr, mg_rate sr /\ exists y, In y (snd (mg_run (kj_call L) (kj_init L sr) [KjTick B754_nan])) /\ fin y /\ B2R y < - bpow radix2 80.
Proof.
  exists poly_libm, (fofZ 48000). split; [exact rate48|]. eexists. split; [left; reflexivity|].
  assert (T : flt (snd (kj_tick poly_libm (kj_init poly_libm (fofZ 48000)) B754_nan)) (fneg (fofZ (2 ^ 80))) = true) by (vm_compute; reflexivity).
  set (y := snd (kj_tick poly_libm (kj_init poly_libm (fofZ 48000)) B754_nan)) in *. assert (F : fin y) by apply kj_tick_finite. split; [exact F|].
  apply (proj1 (flt_R y (fneg (fofZ (2 ^ 80))) F ltac:(reflexivity))) in T. rewrite fneg_R in T. assert (V : B2R (fofZ (2 ^ 80) : f32) = bpow radix2 80) by (fval (fofZ (2 ^ 80) : f32); bp; lra). rewrite V in T. exact T.
Qed.
Print Assumptions C50_krajeski_nan_refuted.

(** C51: setting cutoff and resonance in either order gives the same filter, from any state: Oberheim, Improved, Microtracker, RK simulation and MusicDSP. *)
Theorem C51_oberheim : forall L s c r, fst (mg_run (ob_call L) s [ObCut c; ObRes r]) = fst (mg_run (ob_call L) s [ObRes r; ObCut c]).
Proof. reflexivity. Qed.
Print Assumptions C51_oberheim.
Theorem C51_improved : forall L s c r d, let run := fun os => fst (mg_run (im_call L) s os) in
  run [ImCut c; ImRes r] = run [ImRes r; ImCut c] /\ run [ImCut c; ImDrive d] = run [ImDrive d; ImCut c] /\ run [ImRes r; ImDrive d] = run [ImDrive d; ImRes r].
Proof. intros. repeat split. Qed.
Print Assumptions C51_improved.
Theorem C51_microtracker : forall s c r, fst (mg_run mt_call s [MtCut c; MtRes r]) = fst (mg_run mt_call s [MtRes r; MtCut c]).
Proof. reflexivity. Qed.
Print Assumptions C51_microtracker.
Theorem C51_rk : forall s c r d n, let run := fun os => fst (mg_run rk_call s os) in
  run [RkCut c; RkRes r] = run [RkRes r; RkCut c] /\ run [RkCut c; RkDrive d] = run [RkDrive d; RkCut c] /\ run [RkCut c; RkOver n] = run [RkOver n; RkCut c] /\
  run [RkRes r; RkDrive d] = run [RkDrive d; RkRes r] /\ run [RkRes r; RkOver n] = run [RkOver n; RkRes r] /\ run [RkDrive d; RkOver n] = run [RkOver n; RkDrive d].
Proof. intros. repeat split. Qed.
Print Assumptions C51_rk.
Theorem C51_musicdsp : forall L s c r, fst (mg_run (md_call L) s [MdCut c; MdRes r]) = fst (mg_run (md_call L) s [MdRes r; MdCut c]).
Proof. intros. apply md_order. Qed.
Print Assumptions C51_musicdsp.
(** C51: Stilson, after [init] and any calls with cutoffs up to 300 sample rates. *)
Theorem C51_stilson : forall r0 sr os c r, mg_rate sr -> (forall o, In o os -> match o with StCut c => fin c /\ Rabs (B2R c) <= 300 * B2R sr | _ => True end) -> fin c -> Rabs (B2R c) <= 300 * B2R sr ->
  exists s v s', st_init r0 sr = Val s /\ st_run s os = Val v /\ st_run (fst v) [StCut c; StRes r] = Val (s', []) /\ st_run (fst v) [StRes r; StCut c] = Val (s', []).
Proof.
  intros r0 sr os c r Hr Ho Fc Bc. destruct (st_init_val r0 sr Hr) as (s & E & P). destruct (st_run_par sr Hr os s P) as (v & V & Q); [apply Forall_forall; exact Ho|].
  destruct (st_order sr (fst v) c r Hr Q (conj Fc Bc)) as (s' & A & B). exists s, v, s'. auto.
Qed.
Print Assumptions C51_stilson.
(** C51: Krajeski violates it: from the same [init], the two orders leave different feedback gains, for every resonance from 0.01 and cutoff from a tenth of the sample rate. *)
Theorem C51_krajeski_refuted : forall L sr c r, dpow_acc L -> mg_rate sr -> 40000 <= B2R sr -> mg_cut (3 / 10) sr c -> B2R sr / 10 <= B2R c -> fin r -> / 100 <= B2R r <= 1 ->
  fst (mg_run (kj_call L) (kj_init L sr) [KjCut c; KjRes r]) <> fst (mg_run (kj_call L) (kj_init L sr) [KjRes r; KjCut c]).
Proof. intros L sr c r HL Hr H4 Hc Lc Fr Br E. apply (kj_gres L sr c r HL Hr H4 Hc Lc Fr Br). now rewrite E. Qed.
Print Assumptions C51_krajeski_refuted.
(** ... and it can be heard: the outputs differ. *)
Definition probe : list kj_op := map KjTick [fdec 1 10; fdec 1 10; fdec (-1) 10; fdec 1 10; fdec 1 10].
Example ex_C51_krajeski : snd (mg_run (kj_call poly_libm) (kj_init poly_libm (fofZ 48000)) ([KjCut (fofZ 8000); KjRes one] ++ probe)) <> snd (mg_run (kj_call poly_libm) (kj_init poly_libm (fofZ 48000)) ([KjRes one; KjCut (fofZ 8000)] ++ probe)).
Proof.
  intros H. apply (f_equal (fun l => feq (nth 2 l fzero) (nth 2 (snd (mg_run (kj_call poly_libm) (kj_init poly_libm (fofZ 48000)) ([KjRes one; KjCut (fofZ 8000)] ++ probe))) fzero))) in H.
  revert H. match goal with |- ?a = ?b -> _ => assert (A : a = false) by (vm_compute; reflexivity); assert (B : b = true) by (vm_compute; reflexivity); rewrite A, B end. discriminate.
Qed.
(** Setting the resonance once more mends it. *)
Theorem C51_krajeski_repeat : forall L s c r, fst (mg_run (kj_call L) s [KjRes r; KjCut c; KjRes r]) = fst (mg_run (kj_call L) s [KjCut c; KjRes r]).
Proof. reflexivity. Qed.
Print Assumptions C51_krajeski_repeat.

(** C52: no table read out of bounds and no out-of-range conversion: for every history with finite cutoffs up to 300 sample rates (either sign) - any resonances, NaN included, and any samples. *)
Theorem C52_index : forall r0 sr os, mg_rate sr -> (forall o, In o os -> match o with StCut c => fin c /\ Rabs (B2R c) <= 300 * B2R sr | _ => True end) ->
  exists s v, st_init r0 sr = Val s /\ st_run s os = Val v.
Proof. intros r0 sr os Hr Ho. destruct (st_init_val r0 sr Hr) as (s & E & P). destruct (st_run_par sr Hr os s P) as (v & V & _); [apply Forall_forall; exact Ho|]. eauto. Qed.
Print Assumptions C52_index.
(** C52: the gain read stays in [0, resonance] - the feedback is never larger than asked for. *)
Theorem C52_gain : forall sr c r s s', mg_rate sr -> fin c -> Rabs (B2R c) <= 300 * B2R sr -> fin r -> 0 <= B2R r <= 1 -> st_sr s = sr -> st_run s [StCut c; StRes r] = Val (s', []) ->
  fin (st_Q s') /\ 0 <= B2R (st_Q s') <= B2R r.
Proof.
  intros sr c r s s' Hr Fc Bc Fr Br Es E. apply (st_gain_le sr c r s s' Hr (conj Fc Bc) Fr Br Es). cbn [st_run st_call] in E.
  destruct (st_setCutoff s c) as [s1| |]; cbn [rbind fst snd] in *; try discriminate. destruct (st_setResonance s1 r) as [s2| |]; cbn [rbind fst snd] in *; try discriminate. injection E as <-. reflexivity.
Qed.
Print Assumptions C52_gain.
(** C52: 512 sample rates and beyond, or a NaN, make the conversion of the index to [int] undefined. *)
Theorem C52_far_cutoff_refuted : forall sr s c, mg_rate sr -> st_sr s = sr -> fin c -> 512 * B2R sr <= B2R c -> st_call s (StCut c) = Undef.
Proof. intros sr s c Hr E Fc H. cbn [st_call]. rewrite (st_undef sr s c Hr E Fc H). reflexivity. Qed.
Print Assumptions C52_far_cutoff_refuted.
Theorem C52_nan_cutoff_refuted : forall s, st_call s (StCut B754_nan) = Undef.
Proof. intros s. cbn [st_call]. rewrite st_undef_nan by reflexivity. reflexivity. Qed.
Print Assumptions C52_nan_cutoff_refuted.
(** C52: [init] reads the member [resonance] before it is set, but nothing of the value remains. *)
Theorem C52_init_determined : forall r0 r1 sr, st_init r0 sr = st_init r1 sr.
Proof. exact st_init_any. Qed.
Print Assumptions C52_init_determined.
(** Cutoffs of -14 MHz and +14 MHz at 48 kHz read the two ends of the table. *)
Example ex_C52 : match st_init one (fofZ 48000) with Val s => match st_run s [StCut (fofZ 14400000); StRes one] with Val (t, _) => feq (st_Q t) (f2d (nth 0 st_table fzero)) = false /\ fle (st_Q t) (dz 1) = true | _ => False end | _ => False end.
Proof. vm_compute. auto. Qed.
Example ex_C52_hyp : fin (fofZ 14400000 : f32) /\ Rabs (B2R (fofZ 14400000 : f32)) <= 300 * B2R (fofZ 48000 : f32) /\ 512 * B2R (fofZ 44100 : f32) <= B2R (fofZ 30000000 : f32).
Proof. split; [reflexivity|]. fval (fofZ 14400000 : f32). fval (fofZ 48000 : f32). fval (fofZ 44100 : f32). fval (fofZ 30000000 : f32). split; [rewrite Rabs_pos_eq; lra|lra]. Qed.

(** C71: one sample that is not finite mutes a Stilson ladder for good: from then on every output is 0, whatever is set and played, until [reset]. *)
Theorem C71_mute : forall s x s1 y os s2 ys, is_finite x = false -> st_run s [StTick x] = Val (s1, y) -> ~ In StReset os -> st_run s1 os = Val (s2, ys) -> y = [fzero] /\ forall v, In v ys -> v = fzero.
Proof.
  intros s x s1 y os s2 ys Fx E N R. cbn [st_run st_call] in E. destruct (tick_dies s x (or_intror Fx)) as [D Z]. destruct (st_tick s x) as [t z]. cbn [rbind fst snd] in *. injection E as <- <-.
  split; [now rewrite Z|]. destruct (dead_run os t s2 ys D N R) as [_ Y]. intros v Hv. rewrite Forall_forall in Y. symmetry. now apply Y.
Qed.
Print Assumptions C71_mute.
(** C71: [reset] cures it: the memory is that of a fresh filter. *)
Theorem C71_reset : forall s, let t := st_reset s in (st_s0 t, st_s1 t, st_s2 t, st_s3 t, st_out t) = (fzero, fzero, fzero, fzero, fzero) /\ (st_p t, st_Q t, st_cut t, st_res t) = (st_p s, st_Q s, st_cut s, st_res s).
Proof. intros s. split; reflexivity. Qed.
Print Assumptions C71_reset.
Definition dropout : list st_op := [StTick one; StTick (B754_infinity false); StTick one; StCut (fofZ 2000); StTick one; StReset; StTick one; StTick one].
Example ex_C71 : match st_init one (fofZ 48000) with Val s => match st_run s dropout with Val (_, ys) => map (fun y => feq y fzero) ys = [false; true; true; true; false; false] | _ => False end | _ => False end.
Proof. vm_compute. auto. Qed.
