(** The hypotheses on std::sin are those of a correctly rounded library. *)
From Coq Require Import ZArith Reals Bool Lra Lia.
From Flocq Require Import Core BinarySingleNaN.
From Verif Require Import Flt FltFacts FltMore Libm LibmInst UtilModel UtilProofs PanSpec PanProofs PanInst OscModel OscSpec.
Local Open Scope R_scope.

Lemma exact_sin_unit : sin_unit exact_libm.
Proof.
  intros x F. cbn [exact_libm m_sin]. destruct x as [s|s| |s m e H]; try discriminate F; cbn [lift_odd].
  - split; [reflexivity|]. cbn. lra.
  - unfold lift. cbn [is_finite]. destruct (fofR_b (prec:=24) (emax:=128) (-1) 1 (sin (B2R (B754_finite s m e H : f32))) dyn1 dy1 (SIN_bound _)) as (A & _ & B).
    split; assumption.
Qed.
Lemma exact_sin_acc : sin_acc exact_libm.
Proof.
  intros x F _. cbn [exact_libm m_sin]. pose proof (SIN_bound (B2R x)) as B.
  assert (A1 : Rabs (sin (B2R x)) <= 1) by (apply Rabs_le; lra).
  destruct (odd_approx sin x F ltac:(lra) sin_0) as [G E]. split; [exact G|]. eapply Rle_trans; [exact E|].
  assert (bpow radix2 (-149) <= bpow radix2 (-23)) by (apply bpow_le; lia). pose proof (bpow_gt_0 radix2 (-23)).
  replace (bpow radix2 (-22)) with (bpow radix2 (-23) * 1 + bpow radix2 (-23)) by (bp; lra).
  apply Rplus_le_compat; [apply Rmult_le_compat_l; lra|lra].
Qed.
