(** Properties shared by several ladders: C87 (reset), C88 (NaN), and bounds of single ones: C89, C90, C91. *)
From Coq Require Import ZArith Reals Lra Lia Bool List.
From Flocq Require Import Core BinarySingleNaN.
From Verif Require Import Flt FltFacts FltMore FltKey Libm LibmInst Res UtilModel UtilProofs Dbl MgModel MgSpec MgBase MgInst MgProps KjModel StModel StProofs MtModel MdModel ImModel ObModel RkModel LaSpec LaProofs ImProofs RkProofs3 MtProofs2.
Import ListNotations.
Local Open Scope R_scope.

(** C87: after [reset] a ladder gives the outputs of a new one on which only the settings made so far are repeated: whatever was played before, NaN included, and with any library. *)
Theorem C87_krajeski : forall L sr pre post, snd (mg_run (kj_call L) (fst (mg_run (kj_call L) (kj_init L sr) (pre ++ [KjReset]))) post) =
  snd (mg_run (kj_call L) (kj_init L sr) (filter (fun o => match o with KjCut _ | KjRes _ => true | _ => false end) pre ++ post)).
Proof. exact kj_fresh. Qed.
Print Assumptions C87_krajeski.
Theorem C87_microtracker : forall sr pre post, snd (mg_run mt_call (fst (mg_run mt_call (mt_init sr) (pre ++ [MtReset]))) post) =
  snd (mg_run mt_call (mt_init sr) (filter (fun o => match o with MtCut _ | MtRes _ => true | _ => false end) pre ++ post)).
Proof. exact mt_fresh. Qed.
Print Assumptions C87_microtracker.
Theorem C87_musicdsp : forall L r0 sr pre post, snd (mg_run (md_call L) (fst (mg_run (md_call L) (md_init L r0 sr) (pre ++ [MdReset]))) post) =
  snd (mg_run (md_call L) (md_init L r0 sr) (filter (fun o => match o with MdCut _ | MdRes _ => true | _ => false end) pre ++ post)).
Proof. exact md_fresh. Qed.
Print Assumptions C87_musicdsp.
Theorem C87_improved : forall L sr pre post, snd (mg_run (im_call L) (fst (mg_run (im_call L) (im_init sr) (pre ++ [ImReset]))) post) =
  snd (mg_run (im_call L) (im_init sr) (filter (fun o => match o with ImCut _ | ImRes _ | ImDrive _ => true | _ => false end) pre ++ post)).
Proof. exact im_fresh. Qed.
Print Assumptions C87_improved.
Theorem C87_oberheim : forall L sr pre post, snd (mg_run (ob_call L) (fst (mg_run (ob_call L) (ob_init L sr) (pre ++ [ObReset]))) post) =
  snd (mg_run (ob_call L) (ob_init L sr) (filter (fun o => match o with ObCut _ | ObRes _ => true | _ => false end) pre ++ post)).
Proof. exact ob_fresh. Qed.
Print Assumptions C87_oberheim.
Theorem C87_rk : forall sr pre post, snd (mg_run rk_call (fst (mg_run rk_call (rk_init sr) (pre ++ [RkReset]))) post) =
  snd (mg_run rk_call (rk_init sr) (filter (fun o => match o with RkCut _ | RkRes _ | RkDrive _ | RkOver _ => true | _ => false end) pre ++ post)).
Proof. exact rk_fresh. Qed.
Print Assumptions C87_rk.
(** Stilson: for every history that is defined up to the [reset]; what follows is then defined or not in both filters alike. *)
Theorem C87_stilson : forall r0 sr i pre s ys post, st_init r0 sr = Val i -> st_run i (pre ++ [StReset]) = Val (s, ys) ->
  st_run s post = st_run i (filter (fun o => match o with StCut _ | StRes _ => true | _ => false end) pre ++ post).
Proof. exact st_fresh. Qed.
Print Assumptions C87_stilson.
(** An Improved ladder fed a NaN, reset, and played on. *)
Definition spoilt : list im_op := [ImCut (fofZ 5000); ImTick one; ImTick B754_nan; ImDrive (fofZ 2); ImTick one].
Example ex_C87 : map (fun y : f32 => is_nan y) (snd (mg_run (im_call poly_libm) (im_init (fofZ 48000)) (spoilt ++ [ImReset; ImTick one; ImTick one]))) = [false; true; true; false; false] /\
  filter im_sets spoilt = [ImCut (fofZ 5000); ImDrive (fofZ 2)].
Proof. split; [vm_compute; reflexivity|reflexivity]. Qed.
Example ex_C87_stilson : match st_init one (fofZ 48000) with Val i => match st_run i ([StCut (fofZ 3000); StTick one; StTick one] ++ [StReset]) with Val (s, ys) => length ys = 2%nat /\ feq (st_s0 s) fzero = true | _ => False end | _ => False end.
Proof. vm_compute. auto. Qed.

(** C88: one NaN sample makes every later output NaN, whatever is set and played, until [reset]: from that very sample on for MusicDSP, Improved and RK. *)
Theorem C88_musicdsp_refuted : forall L s x os, is_nan x = true -> (forall o, In o os -> o <> MdReset) -> forall y, In y (snd (mg_run (md_call L) s (MdTick x :: os))) -> is_nan y = true.
Proof. intros L s x os N Ho. apply Forall_forall. apply md_nan; [exact N|]. apply Forall_forall. intros o H. specialize (Ho o H). destruct o; cbn [md_on]; auto. Qed.
Print Assumptions C88_musicdsp_refuted.
Theorem C88_improved_refuted : forall L s x os, dtanh_nan L -> is_nan x = true -> (forall o, In o os -> o <> ImReset) -> forall y, In y (snd (mg_run (im_call L) s (ImTick x :: os))) -> is_nan y = true.
Proof. intros L s x os HL N Ho. apply Forall_forall. apply im_nan; [exact HL|exact N|]. apply Forall_forall. intros o H. specialize (Ho o H). destruct o; cbn [im_on]; auto. Qed.
Print Assumptions C88_improved_refuted.
Theorem C88_rk_refuted : forall sr pre x os, is_nan x = true -> (forall o, In o os -> o <> RkReset) -> forall y, In y (snd (mg_run rk_call (fst (mg_run rk_call (rk_init sr) pre)) (RkTick x :: os))) -> is_nan y = true.
Proof. intros sr pre x os N Ho. apply Forall_forall. apply rk_nan; [exact N|]. apply Forall_forall. intros o H. specialize (Ho o H). destruct o; cbn [rk_on]; auto. Qed.
Print Assumptions C88_rk_refuted.
(** Microtracker: from the next sample on - its output is that of the sample before. *)
Theorem C88_microtracker_refuted : forall s x os, is_nan x = true -> (forall o, In o os -> o <> MtReset) -> forall y, In y (snd (mg_run mt_call (fst (mt_call s (MtTick x))) os)) -> is_nan y = true.
Proof. intros s x os N Ho. apply Forall_forall. apply mt_nan; [exact N|]. apply Forall_forall. intros o H. specialize (Ho o H). destruct o; cbn [mt_on]; auto. Qed.
Print Assumptions C88_microtracker_refuted.
Example ex_C88 :
  map (fun y : f32 => is_nan y) (snd (mg_run mt_call (mt_init (fofZ 48000)) [MtTick one; MtTick B754_nan; MtTick one; MtCut (fofZ 200); MtTick one; MtReset; MtTick one])) = [false; false; true; true; false] /\
  map (fun y : f32 => is_nan y) (snd (mg_run (md_call poly_libm) (md_init poly_libm one (fofZ 48000)) [MdTick one; MdTick B754_nan; MdTick one; MdRes one; MdTick one; MdReset; MdTick one])) = [false; true; true; true; false] /\
  map (fun y : f32 => is_nan y) (snd (mg_run rk_call (rk_init (fofZ 48000)) [RkTick one; RkTick B754_nan; RkTick one; RkRes one; RkTick one; RkReset; RkTick one])) = [false; true; true; true; false].
Proof. vm_compute. auto. Qed.
Example ex_C88_hyp : dtanh_nan exact_libm. Proof. exact exact_dtanh_nan. Qed.

(** C89: every output of an Improved ladder is finite and at most 82 in magnitude: finite samples and drives of any size and sign, any cutoffs and resonances but NaN - infinite, negative or above the sample rate - in any order. *)
Theorem C89_improved : forall L sr os, dtanh_unit L -> dtanh_sat L -> mg_rate sr ->
  (forall o, In o os -> match o with ImCut c => is_nan c = false | ImRes r => is_nan r = false | ImDrive d => fin d | ImTick x => fin x | ImReset => True end) ->
  forall y, In y (snd (mg_run (im_call L) (im_init sr) os)) -> fin y /\ Rabs (B2R y) <= 82.
Proof. intros L sr os HU HS Hr Ho. apply Forall_forall. apply im_bounded; auto. apply Forall_forall. exact Ho. Qed.
Print Assumptions C89_improved.
Definition big : f32 := flit 16777215 104.
Definition abuse : list im_op := [ImCut (B754_infinity false); ImRes (B754_infinity false); ImDrive big; ImTick big; ImTick big; ImTick big; ImCut (fofZ (-5)); ImTick (fneg big); ImTick (fneg big)].
Example ex_C89 : forall y, In y (snd (mg_run (im_call exact_libm) (im_init (fofZ 48000)) abuse)) -> fin y /\ Rabs (B2R y) <= 82.
Proof. apply (C89_improved _ _ _ exact_dtanh_unit exact_dtanh_sat rate48). intros o H. repeat (destruct H as [<-|H]; [reflexivity|]). destruct H. Qed.
(** The outputs do pass 1: at 5 kHz and full resonance, where the make-up gain comes in. *)
Example ex_C89_large : existsb (fun y : f32 => flt one (fabs y)) (snd (mg_run (im_call poly_libm) (im_init (fofZ 48000)) (ImCut (fofZ 5000) :: ImRes one :: map (fun _ => ImTick one) (seq 0 100)))) = true.
Proof. vm_compute. reflexivity. Qed.

(** C90: every output of an RK ladder is finite and at most 16 + 4 m in magnitude, for cutoffs from 0 to m/64 of the sample rate (m = 32: half the sample rate, bound 144; the initial 1 kHz must be within as well): finite samples and drives of any size, any resonance but NaN, any oversampling factor. *)
Theorem C90_rk : forall m sr os, (1 <= m <= 64)%Z -> mg_rate sr -> 64000 <= IZR m * B2R sr ->
  (forall o, In o os -> match o with RkCut c => fin c /\ 0 <= B2R c <= IZR m / 64 * B2R sr | RkRes r => is_nan r = false | RkDrive d => fin d | RkOver n => (- 2 ^ 31 <= n < 2 ^ 31)%Z | RkTick x => fin x | RkReset => True end) ->
  forall y, In y (snd (mg_run rk_call (rk_init sr) os)) -> fin y /\ Rabs (B2R y) <= 16 + 4 * IZR m.
Proof. intros m sr os Hm Hr H1 Ho. apply Forall_forall. apply (rk_bounded m sr os Hm Hr H1). apply Forall_forall. exact Ho. Qed.
Print Assumptions C90_rk.
Definition rk_abuse : list rk_op := [RkCut (fofZ 24000); RkRes (B754_infinity false); RkDrive big; RkTick big; RkTick big; RkOver 1; RkTick (fneg big); RkReset; RkTick one].
Example ex_C90 : forall y, In y (snd (mg_run rk_call (rk_init (fofZ 48000)) rk_abuse)) -> fin y /\ Rabs (B2R y) <= 144.
Proof.
  intros y Hy. pose proof (C90_rk 32 (fofZ 48000) rk_abuse ltac:(lia) rate48) as C. fval (fofZ 48000 : f32). fval (fofZ 24000 : f32). set (s := fofZ 48000 : f32) in *. set (c := fofZ 24000 : f32) in *.
  replace 144 with (16 + 4 * 32) by lra. apply C; [lra| |exact Hy]. unfold rk_abuse. fold c. intros o H.
  destruct H as [<-|H]; [split; [reflexivity|lra]|]. repeat (destruct H as [<-|H]; [try exact Logic.I; try reflexivity; try (split; lia)|]). destruct H.
Qed.
Example ex_C90_runs : existsb (fun y : f32 => flt (fdec 1 2) (fabs y)) (snd (mg_run rk_call (rk_init (fofZ 48000)) (RkCut (fofZ 8000) :: RkRes one :: map (fun _ => RkTick big) (seq 0 20)))) = true.
Proof. vm_compute. reflexivity. Qed.

(** C91: with resonance at most 0.24 a Microtracker ladder never gives more than 27 times its largest input (a power of two from 1 to 2^60 here), however the cutoff - any but NaN and below 0 - and the resonance are moved. *)
Theorem C91_microtracker : forall j sr os, (0 <= j <= 60)%Z -> mg_rate sr ->
  (forall o, In o os -> match o with MtCut c => is_nan c = false /\ flt c fzero = false | MtRes r => fin r /\ B2R r <= 24 / 100 | MtTick x => fin x /\ Rabs (B2R x) <= bpow radix2 j | MtReset => True end) ->
  forall y, In y (snd (mg_run mt_call (mt_init sr) os)) -> fin y /\ Rabs (B2R y) <= 27 * bpow radix2 j.
Proof. intros j sr os Hj Hr Ho. apply Forall_forall. apply (mt_bounded j sr os Hj Hr). apply Forall_forall. exact Ho. Qed.
Print Assumptions C91_microtracker.
Definition swing : list mt_op := [MtCut (fofZ 20000); MtRes (flit 15 (-6)); MtTick one; MtTick one; MtCut (fofZ 90000); MtTick (fneg one); MtCut fzero; MtTick one; MtTick one; MtTick one; MtTick one].
Example ex_C91_hyp : forall o, In o swing -> mt_good (bpow radix2 0) o.
Proof.
  pose proof one_R as O1. assert (A1 : Rabs (B2R one) <= 1) by (rewrite O1, Rabs_R1; lra). assert (A2 : Rabs (B2R (fneg one : f32)) <= 1) by (rewrite fneg_R, Rabs_Ropp; exact A1).
  assert (A3 : B2R (flit 15 (-6) : f32) <= 24 / 100) by (fval (flit 15 (-6) : f32); lra).
  intros o H. change (bpow radix2 0) with 1. repeat (destruct H as [<-|H]; [cbn [mt_good]; first [split; reflexivity|split; [reflexivity|assumption]]|]). destruct H.
Qed.
Example ex_C91 : existsb (fun y : f32 => flt (fdec 1 10) (fabs y)) (snd (mg_run mt_call (mt_init (fofZ 48000)) swing)) = true.
Proof. vm_compute. reflexivity. Qed.
