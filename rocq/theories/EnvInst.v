(** The hypotheses on [std::exp] used for the envelopes hold of a correctly
    rounded exp and of the toy libraries in the examples. *)
From Coq Require Import ZArith Reals Lra Lia Bool.
From Flocq Require Import Core BinarySingleNaN.
From Verif Require Import Flt FltFacts FltMore FltArith FltKey Libm LibmInst UtilModel UtilProofs EnvModel EnvSpec EnvProofs.
Local Open Scope R_scope.

Lemma exp_le1 x : x <= 0 -> 0 <= exp x <= 1.
Proof.
  intros H. split; [left; apply exp_pos|]. rewrite <- exp_0. destruct H as [H| ->]; [left; now apply exp_increasing|right; reflexivity].
Qed.
Lemma exact_exp_unit : exp_unit exact_libm.
Proof.
  intros x H. cbn [exact_libm m_exp].
  assert (K : x = B754_infinity true \/ fin x /\ B2R x <= 0).
  { destruct x as [b|b| |b m e B]; try destruct b; cbn in H; try discriminate; auto; right; split; try reflexivity; cbn; try lra.
    left. apply F2R_lt_0. cbn. lia. }
  destruct K as [-> |[F K]]; [cbn; split; [reflexivity|lra]|].
  replace (cr_exp x) with (lift exp x) by (destruct x; try discriminate F; reflexivity).
  unfold lift. rewrite F. destruct (fofR_b (prec:=24) (emax:=128) 0 1 (exp (B2R x)) dy0 dy1 (exp_le1 _ K)) as (A & _ & B). auto.
Qed.
Lemma exact_exp_acc : exp_acc exact_libm.
Proof.
  intros x F K. cbn [exact_libm m_exp].
  replace (cr_exp x) with (lift exp x) by (destruct x; try discriminate F; reflexivity).
  unfold lift. rewrite F. pose proof (exp_le1 _ K) as E.
  destruct (fofR_b (prec:=24) (emax:=128) 0 1 (exp (B2R x)) dy0 dy1 E) as (A & B & _).
  split; [exact A|]. rewrite B.
  apply Rle_trans with (bpow radix2 (0 - 24 - 1)); [|apply bpow_le; lia].
  apply rnd_err_le; [cbn; lia|]. apply Rabs_le. bp. lra.
Qed.
Lemma half_exp_unit : exp_unit half_exp.
Proof. intros x _. cbn [half_exp libm_of_exp m_exp]. split; [ffin|]. rewrite half_R. lra. Qed.
Lemma two_exp_unit : exp_unit two_exp.
Proof.
  intros x _. cbn [two_exp libm_of_exp m_exp]. destruct (flt _ _).
  - split; [ffin|]. fval (fdec 9 10 : f32). lra.
  - split; [ffin|]. rewrite one_R. lra.
Qed.
