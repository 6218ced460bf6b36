(** Floating-point operations used by the model.

    C++ [float] / [double] are taken to be IEEE-754 binary32 / binary64.  Flocq's
    [BinarySingleNaN] formalises them; [erase] only replaces the
    well-formedness proof inside a result by a canonical one so that
    [vm_compute] stays fast ([erase_correct : erase x = x]). *)
From Coq Require Import ZArith Bool.
From Flocq Require Import Core BinarySingleNaN.
Local Open Scope Z_scope.

#[global] Instance prec24 : Prec_gt_0 24 := eq_refl.
#[global] Instance max128 : Prec_lt_emax 24 128 := eq_refl.
#[global] Instance prec53 : Prec_gt_0 53 := eq_refl.
#[global] Instance max1024 : Prec_lt_emax 53 1024 := eq_refl.

(** [float] (include/subcollider/types.h:21 [using Sample = float]). *)
Definition f32 : Set := binary_float 24 128.
(** [double]. *)
Definition f64 : Set := binary_float 53 1024.

Section Ops.
  Context {prec emax : Z} {Hp : Prec_gt_0 prec} {Hm : Prec_lt_emax prec emax}.
  Local Notation F := (binary_float prec emax).

  (** Basic arithmetic, round to nearest, ties to even. *)
  Definition fadd (x y : F) : F := erase (Bplus mode_NE x y).
  Definition fsub (x y : F) : F := erase (Bminus mode_NE x y).
  Definition fmul (x y : F) : F := erase (Bmult mode_NE x y).
  Definition fdiv (x y : F) : F := erase (Bdiv mode_NE x y).
  Definition fsqrt (x : F) : F := erase (Bsqrt mode_NE x).
  Definition fneg (x : F) : F := Bopp x.
  Definition fabs (x : F) : F := Babs x.

  (** IEEE comparisons: every comparison with a NaN is false. *)
  Definition flt (x y : F) : bool := Bltb x y.
  Definition fle (x y : F) : bool := Bleb x y.
  Definition feq (x y : F) : bool := Beqb x y.

  (** [std::floor], [std::ceil], [std::trunc], [std::round] (half away from zero). *)
  Definition ffloor (x : F) : F := erase (Bnearbyint mode_DN x).
  Definition fceil (x : F) : F := erase (Bnearbyint mode_UP x).
  Definition ftrunc (x : F) : F := erase (Bnearbyint mode_ZR x).
  Definition fround (x : F) : F := erase (Bnearbyint mode_NA x).

  (** m * 2^e, correctly rounded. *)
  Definition flit (m e : Z) : F := erase (binary_normalize prec emax _ _ mode_NE m e false).

  (** Conversion from an integer type ([static_cast<float>(n)]). *)
  Definition fofZ (n : Z) : F := flit n 0.

  (** Conversion to an integer type: truncation; [None] is the undefined
      conversion of a value whose truncation does not fit in [lo,hi]
      (C++17 7.10 [conv.fpint]). *)
  Definition ftoZ (lo hi : Z) (x : F) : option Z :=
    if is_finite x then
      let n := Btrunc x in
      if (lo <=? n) && (n <=? hi) then Some n else None
    else None.

  (** [std::fmod]: exact remainder with the sign of the dividend. *)
  Definition ffmod (x y : F) : F :=
    match x, y with
    | B754_nan, _ | _, B754_nan => B754_nan
    | B754_infinity _, _ => B754_nan
    | _, B754_zero _ => B754_nan
    | _, B754_infinity _ => x
    | B754_zero _, _ => x
    | B754_finite sx mx ex _, B754_finite _ my ey _ =>
        let e := Z.min ex ey in
        let r := (Zpos mx * 2 ^ (ex - e)) mod (Zpos my * 2 ^ (ey - e)) in
        erase (binary_normalize prec emax _ _ mode_NE (if sx then - r else r) e sx)
    end.

  (** [std::fmin] / [std::fmax]: a NaN argument is ignored. *)
  Definition ffmin (x y : F) : F :=
    if is_nan x then y else if is_nan y then x else if flt y x then y else x.
  Definition ffmax (x y : F) : F :=
    if is_nan x then y else if is_nan y then x else if flt x y then y else x.

  Definition fzero : F := B754_zero false.
End Ops.

Arguments ftoZ {prec emax} lo hi x.

(** Float/double conversions ([static_cast]; exact when widening). *)
Definition fconv {p1 e1 : Z} (p2 e2 : Z) {Hp : Prec_gt_0 p2} {Hm : Prec_lt_emax p2 e2}
    (x : binary_float p1 e1) : binary_float p2 e2 :=
  match x with
  | B754_nan => B754_nan
  | B754_infinity s => B754_infinity s
  | B754_zero s => B754_zero s
  | B754_finite s m e _ =>
      erase (binary_normalize p2 e2 _ _ mode_NE (if s then Zneg m else Zpos m) e s)
  end.
Definition f2d (x : f32) : f64 := fconv 53 1024 x.
Definition d2f (x : f64) : f32 := fconv 24 128 x.

Declare Scope flt_scope.
Delimit Scope flt_scope with F.
Infix "+" := fadd : flt_scope.
Infix "-" := fsub : flt_scope.
Infix "*" := fmul : flt_scope.
Infix "/" := fdiv : flt_scope.
Infix "<?" := flt : flt_scope.
Infix "<=?" := fle : flt_scope.
Infix "=?" := feq : flt_scope.
Notation "x >? y" := (flt y x) (only parsing) : flt_scope.
Notation "x >=? y" := (fle y x) (only parsing) : flt_scope.
Notation "x <>? y" := (negb (feq x y)) (at level 70, only parsing) : flt_scope.
Notation "- x" := (fneg x) : flt_scope.

(** size_t / int ranges (LP64). *)
Definition SIZE_MAX : Z := 2 ^ 64 - 1.
Definition wrap64 (n : Z) : Z := n mod 2 ^ 64.
Definition INT_MAX : Z := 2 ^ 31 - 1.
Definition INT_MIN : Z := - 2 ^ 31.
Definition to_size (x : f32) : option Z := ftoZ 0 SIZE_MAX x.
Definition to_int (x : f32) : option Z := ftoZ INT_MIN INT_MAX x.
