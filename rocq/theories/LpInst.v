(** The library assumptions of the RLPF theorems can be met. *)
From Coq Require Import ZArith Reals Lra Lia Bool Psatz List.
From Flocq Require Import Core BinarySingleNaN.
From Verif Require Import Flt FltFacts FltMore Libm LibmInst Dbl LpModel LpSpec.
Import ListNotations.
Local Open Scope R_scope.

Lemma fofR_acc (r : R) : Rabs r <= 1 -> fin (fofR r : f64) /\ Rabs (B2R (fofR r : f64) - r) <= bpow radix2 (-53).
Proof.
  intros H. apply Rabs_le_inv in H. destruct (fofR_b (prec:=53) (emax:=1024) (-1) 1 r) as (F & E & _).
  - change (-1) with (- bpow radix2 0). apply dy_opp, dy_bpow; cbn; lia.
  - change 1 with (bpow radix2 0). apply dy_bpow; cbn; lia.
  - exact H.
  - split; [exact F|]. rewrite E. eapply Rle_trans; [apply (rnd_err_le (prec:=53) (emax:=1024) 0); [cbn; lia|]|apply bpow_le; lia]. change (bpow radix2 0) with 1. apply Rabs_le. lra.
Qed.
Lemma exact_sincos : sincos_acc exact_libm.
Proof.
  intros w F _. cbn [exact_libm d_sin d_cos]. split.
  - destruct w as [b|b| |b m e H]; try discriminate F.
    + cbn [lift_odd B2R]. rewrite sin_0, Rminus_0_r, Rabs_R0. split; [reflexivity|apply bpow_ge_0].
    + cbn [lift_odd]. unfold lift. cbn [is_finite]. apply fofR_acc. apply Rabs_le. apply SIN_bound.
  - unfold lift. unfold fin in F. rewrite F. apply fofR_acc. apply Rabs_le. apply COS_bound.
Qed.
(** Libraries for computing examples, each good at one cutoff: 12 kHz at 48 kHz, and 440 Hz at 600 Hz. *)
Definition quarter_trig : libm := {|
  m_exp := fun x => x; m_sin := fun x => x; m_cos := fun x => x; m_tan := fun x => x; m_tanh := fun x => x; m_log := fun x => x; m_atan := fun x => x; m_pow := fun x _ => x;
  d_exp := fun x => x; d_sin := fun _ => flit 9007199254740983 (-53); d_cos := fun _ => flit (-6605478498062028) (-77); d_tan := fun x => x; d_tanh := fun x => x; d_pow := fun x _ => x |}.
Definition slow_trig : libm := {|
  m_exp := fun x => x; m_sin := fun x => x; m_cos := fun x => x; m_tan := fun x => x; m_tanh := fun x => x; m_log := fun x => x; m_atan := fun x => x; m_pow := fun x _ => x;
  d_exp := fun x => x; d_sin := fun _ => flit (-8957856995504955) (-53); d_cos := fun _ => flit (-7532060382932164) (-56); d_tan := fun x => x; d_tanh := fun x => x; d_pow := fun x _ => x |}.
