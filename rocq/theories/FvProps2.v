(** Properties of FVerb: C111. *)
From Coq Require Import ZArith Reals Bool List Lra Lia.
From Flocq Require Import Core BinarySingleNaN.
From Verif Require Import Flt FltFacts Libm LibmInst UtilModel UtilProofs EnvSpec EnvInst OscSpec OscInst FvModel FvSpec FvSpec2 FvProofs5 FvProofs7 FvBound3.
Import ListNotations.
Local Open Scope R_scope.

(** ** C111: level *)
(** After [init] or [reset] and any settings, with a decay of at most 40 percent, diffusions and density of at most 90 percent and all cutoffs from 100 Hz: whatever is
    fed in, for however long, what comes out is a number at most 15000 times as large as the largest input. *)
Theorem C111_level : forall L h o s t f a f' b X, sin_unit L -> exp_unit L -> exp_acc L -> 1 / 10 ^ 10 <= X <= bpow radix2 64 ->
  Forall op_good (h ++ o :: s) -> restarts o -> Forall tunes s -> rate_in_force None (h ++ o :: s) <> None -> moderate (h ++ o :: s) ->
  fv_run L (h ++ o :: s) fv_new = Some (f, a) -> Forall (feeds X) t -> fv_run L t f = Some (f', b) -> Forall (levels (15000 * X)) b.
Proof.
  intros L h o s t f a f' b X S E A HX G R T RT (M1 & M2 & M3 & M4 & M5 & M6 & M7) H1 F H2.
  exact (level_run L h o s t f a f' b X S E A HX G R T RT M1 M2 M3 M4 M5 M6 M7 H1 F H2).
Qed.
Print Assumptions C111_level.

(** A reverb at 48 kHz set to a decay of 40 percent, everything else as [init] leaves it, fed with any signal between -1 and 1. *)
Definition hall : list fvop := [FvInit (fofZ 48000); FvSet DECAY (fofZ 40)].
Example ex_C111 : forall t, Forall (feeds 1) t -> lasts true 0 t -> opens true false t ->
  exists ys, outs exact_libm (hall ++ t) fv_new = Some ys /\ Forall (levels 15000) ys.
Proof.
  intros t F LA OP. pose proof (fofZ_R (prec:=24) (emax:=128) 48000 ltac:(cbn; lia)) as [F48 E48]. pose proof (fofZ_R (prec:=24) (emax:=128) 40 ltac:(cbn; lia)) as [F40 E40].
  assert (G : Forall op_good hall).
  { constructor; [split; [exact F48|rewrite E48; lra]|]. constructor; [reflexivity|constructor]. }
  assert (GT : Forall op_good (hall ++ t)).
  { apply Forall_app. split; [exact G|]. eapply Forall_impl; [|exact F]. intros o H. destruct o; try contradiction. exact Logic.I. }
  destruct (run_defined exact_libm (hall ++ t) exact_sin_unit GT) as (f2 & ys & HR); [exact LA|exact OP|].
  exists ys. unfold outs. rewrite HR. split; [reflexivity|].
  rewrite run_app in HR. destruct (fv_run exact_libm hall fv_new) as [[f a]|] eqn:H1; [|discriminate]. destruct (fv_run exact_libm t f) as [[f' b]|] eqn:H2; [|discriminate].
  assert (EA : a = []).
  { revert H1. unfold hall. cbn [fv_run fv_op]. destruct (fv_init (fofZ 48000) fv_new); [|discriminate]. cbn [app]. intros H. injection H as _ <-. reflexivity. }
  injection HR as _ <-. subst a. cbn [app].
  replace 15000 with (15000 * 1) by ring.
  assert (D : in_force DECAY hall = 40).
  { unfold in_force, hall. cbn [tuning app last_set]. destruct (fvparam_eq_dec DECAY DECAY); [|contradiction].
    rewrite <- E40. clear - F40 E40. set (x := fofZ 40 : f32) in *. clearbody x. unfold held. destruct x as [z|z| |z m ex B]; try discriminate F40; rewrite E40; cbn [range_lo range_hi]; rewrite Rmin_right, Rmax_right; lra. }
  assert (Q : forall p, p <> DECAY -> in_force p hall = default p).
  { intros p N. unfold in_force, hall. cbn [tuning app last_set]. destruct (fvparam_eq_dec DECAY p); [congruence|reflexivity]. }
  apply (C111_level exact_libm [] (FvInit (fofZ 48000)) [FvSet DECAY (fofZ 40)] t f [] f' b 1 exact_sin_unit exact_exp_unit exact_exp_acc).
  - split; [lra|]. change 1 with (bpow radix2 0). apply bpow_le. lia.
  - exact G.
  - exact Logic.I.
  - constructor; [exact Logic.I|constructor].
  - vm_compute. discriminate.
  - unfold moderate. change ([] ++ FvInit (fofZ 48000) :: [FvSet DECAY (fofZ 40)]) with hall. rewrite D, !Q by discriminate. cbn [default]. lra.
  - exact H1.
  - exact F.
  - exact H2.
Qed.
