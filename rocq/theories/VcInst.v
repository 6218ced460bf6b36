(** The hypotheses of the voice theorems hold of a correctly rounded library. *)
From Coq Require Import ZArith Reals Lra Lia Bool.
From Flocq Require Import Core BinarySingleNaN.
From Verif Require Import Flt FltFacts FltMore FltArith FltKey Libm LibmInst UtilModel UtilProofs RealBounds OscSpec PanModel PanSpec PanProofs PanProofs2 PanInst VcSpec SsSpec SsProofs.
Local Open Scope R_scope.

Lemma exact_cos_unit : cos_unit exact_libm.
Proof.
  intros x F. cbn [exact_libm m_cos]. unfold lift. rewrite F.
  destruct (fofR_b (prec:=24) (emax:=128) (- (1)) 1 (cos (B2R x)) (dy_opp _ dy1) dy1 (COS_bound _)) as (Fc & _ & B). split; [exact Fc|lra].
Qed.
Lemma exact_sin_bad : sin_bad exact_libm.
Proof. intros x H. cbn [exact_libm m_sin]. destruct x as [s|s| |s m e B]; try discriminate H; reflexivity. Qed.
Lemma exact_pow2_acc : pow2_acc exact_libm.
Proof.
  intros y F B. cbn [exact_libm m_pow].
  assert (T : fin (two : f32) /\ B2R (two : f32) = 2) by (split; [ffin|fval (two : f32); lra]). destruct T as [Ft Et].
  assert (E : cr_pow two y = fofR (Rpower 2 (B2R y))).
  { destruct y; try discriminate F; unfold cr_pow; rewrite Ft, Et; reflexivity. }
  rewrite E. apply Rabs_le_inv in B.
  assert (R : / 2 <= Rpower 2 (B2R y) <= 2).
  { replace (/ 2) with (Rpower 2 (-1)) by (replace (-1) with (- (1)) by ring; rewrite Rpower_Ropp, Rpower_1; lra).
    split; [apply Rle_Rpower; lra|]. apply Rle_trans with (Rpower 2 1); [apply Rle_Rpower; lra|rewrite Rpower_1; lra]. }
  set (r := Rpower 2 (B2R y)) in *.
  destruct (fofR_b (prec:=24) (emax:=128) 0 2 r dy0 (dyZ 2 ltac:(lia)) ltac:(lra)) as (Fr & Er & _).
  split; [exact Fr|]. rewrite Er. eapply Rle_trans; [apply rrel|]. rewrite (Rabs_pos_eq r) by lra. pose proof t150 as T. revert T. bp. intros T. lra.
Qed.
