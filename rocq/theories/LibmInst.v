(** A correctly rounded math library, used only to show that the hypotheses
    the theorems place on [std::exp], [std::sin], ... can be met. *)
From Coq Require Import ZArith Reals Lra Lia Bool Psatz Rtrigo_facts.
From Flocq Require Import Core BinarySingleNaN.
From Verif Require Import Flt FltFacts FltMore Libm.
Local Open Scope R_scope.

Section Of.
  Context {prec emax : Z} {Hp : Prec_gt_0 prec} {Hm : Prec_lt_emax prec emax}.
  Local Notation F := (binary_float prec emax).
  Local Notation fexp := (SpecFloat.fexp prec emax).
  #[local] Instance vexp' : Valid_exp fexp.
  Proof. apply fexp_correct. exact Hp. Qed.

  (** The float nearest to a real number. *)
  Definition fofR (r : R) : F :=
    binary_normalize prec emax _ _ mode_NE
      (Ztrunc (scaled_mantissa radix2 fexp (rnd (prec:=prec) (emax:=emax) r))) (cexp radix2 fexp (rnd (prec:=prec) (emax:=emax) r)) false.

  Lemma fofR_R r : Rabs (rnd (prec:=prec) (emax:=emax) r) < bpow radix2 emax ->
    fin (fofR r) /\ B2R (fofR r) = rnd (prec:=prec) (emax:=emax) r.
  Proof.
    intros H. unfold fofR.
    set (x := rnd (prec:=prec) (emax:=emax) r) in *.
    assert (Fx : generic_format radix2 fexp x) by apply fmt_rnd.
    assert (E : F2R (Float radix2 (Ztrunc (scaled_mantissa radix2 fexp x)) (cexp radix2 fexp x)) = x) by (symmetry; exact Fx).
    pose proof (binary_normalize_correct prec emax _ _ mode_NE (Ztrunc (scaled_mantissa radix2 fexp x)) (cexp radix2 fexp x) false) as C.
    cbn [round_mode] in C. change 2%Z with (radix_val radix2) in C. rewrite E in C.
    change (round radix2 fexp ZnearestE x) with (rnd (prec:=prec) (emax:=emax) x) in C.
    rewrite (rnd_fmt x Fx), Rlt_bool_true in C by exact H.
    destruct C as (A & B & _). split; assumption.
  Qed.
  Lemma fofR_b l h r : dy (prec:=prec) (emax:=emax) l -> dy (prec:=prec) (emax:=emax) h -> l <= r <= h ->
    fin (fofR r) /\ B2R (fofR r) = rnd (prec:=prec) (emax:=emax) r /\ l <= B2R (fofR r) <= h.
  Proof.
    intros Dl Dh B. destruct (dy_rnd_bnd l h r Dl Dh B) as [A C].
    destruct (fofR_R r A) as [D E]. rewrite E. auto.
  Qed.

  Definition lift (f : R -> R) (x : F) : F := if is_finite x then fofR (f (B2R x)) else B754_nan.
  Definition cr_exp (x : F) : F :=
    match x with B754_infinity true => fzero | B754_infinity false => B754_infinity false | _ => lift exp x end.
  (** Odd functions keep the sign of a zero. *)
  Definition lift_odd (f : R -> R) (x : F) : F := match x with B754_zero s => B754_zero s | _ => lift f x end.
  Definition cr_tanh (x : F) : F :=
    match x with B754_infinity s => if s then fofR (-1) else fofR 1 | _ => lift_odd tanh x end.
  Definition cr_atan (x : F) : F :=
    match x with B754_infinity s => if s then fofR (- PI / 2) else fofR (PI / 2) | _ => lift_odd atan x end.
  (** Infinite exponents as for a base greater than 1. *)
  Definition cr_pow (x y : F) : F :=
    match y with
    | B754_infinity s => if s then fzero else B754_infinity false
    | B754_nan => B754_nan
    | _ => if is_finite x then fofR (Rpower (B2R x) (B2R y)) else B754_nan
    end.
End Of.

Definition exact_libm : libm := {|
  m_exp := cr_exp; m_sin := lift_odd sin; m_cos := lift cos; m_tan := lift_odd tan; m_tanh := cr_tanh;
  m_log := lift ln; m_atan := cr_atan; m_pow := cr_pow;
  d_exp := cr_exp; d_sin := lift_odd sin; d_cos := lift cos; d_tan := lift_odd tan; d_tanh := cr_tanh; d_pow := cr_pow |}.
