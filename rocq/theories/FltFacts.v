(** Facts about the operations of Flt.v, all derived from Flocq's
    correctness theorems.  No definition of the model lives here. *)
From Coq Require Import ZArith Reals Lra Lia Bool Psatz.
From Flocq Require Import Core BinarySingleNaN Relative Sterbenz.
From Verif Require Import Flt.
Local Open Scope R_scope.

Section Facts.
  Context {prec emax : Z} {Hp : Prec_gt_0 prec} {Hm : Prec_lt_emax prec emax}.
  Local Notation F := (binary_float prec emax).
  Local Notation fexp := (SpecFloat.fexp prec emax).

  Definition fin (x : F) : Prop := is_finite x = true.
  Definition rnd (r : R) : R := round radix2 fexp ZnearestE r.

  #[local] Instance vexp : Valid_exp fexp.
  Proof. apply fexp_correct. exact Hp. Qed.

  Lemma rnd_le x y : x <= y -> rnd x <= rnd y.
  Proof. intros H. apply round_le; auto with typeclass_instances. Qed.

  Lemma rnd_fmt x : generic_format radix2 fexp x -> rnd x = x.
  Proof. intros H. apply round_generic; auto with typeclass_instances. Qed.

  Lemma fmt_B2R (x : F) : generic_format radix2 fexp (B2R x).
  Proof. apply generic_format_B2R. Qed.

  Lemma rnd_B2R (x : F) : rnd (B2R x) = B2R x.
  Proof. apply rnd_fmt, fmt_B2R. Qed.

  Lemma fmt_rnd x : generic_format radix2 fexp (rnd x).
  Proof. apply generic_format_round; auto with typeclass_instances. Qed.

  Lemma rnd_le_B2R x (y : F) : x <= B2R y -> rnd x <= B2R y.
  Proof. intros H. rewrite <- (rnd_B2R y). now apply rnd_le. Qed.

  Lemma rnd_ge_B2R x (y : F) : B2R y <= x -> B2R y <= rnd x.
  Proof. intros H. rewrite <- (rnd_B2R y). now apply rnd_le. Qed.

  Lemma rnd_opp x : rnd (- x) = - rnd x.
  Proof. apply round_NE_opp. Qed.

  Lemma rnd_0 : rnd 0 = 0.
  Proof. apply round_0; auto with typeclass_instances. Qed.

  Lemma rnd_nonneg x : 0 <= x -> 0 <= rnd x.
  Proof. intros H. rewrite <- rnd_0. now apply rnd_le. Qed.

  Lemma rnd_nonpos x : x <= 0 -> rnd x <= 0.
  Proof. intros H. rewrite <- rnd_0. now apply rnd_le. Qed.

  Lemma rnd_abs x : Rabs (rnd x) = rnd (Rabs x).
  Proof. unfold rnd. rewrite <- round_NE_abs. reflexivity. auto with typeclass_instances. Qed.

  Lemma B2R_lt_emax (x : F) : Rabs (B2R x) < bpow radix2 emax.
  Proof. apply abs_B2R_lt_emax. Qed.

  Lemma rnd_bnd (l h : F) r :
    B2R l <= r <= B2R h -> Rabs (rnd r) < bpow radix2 emax.
  Proof.
    intros [Hl Hh].
    pose proof (rnd_ge_B2R _ _ Hl). pose proof (rnd_le_B2R _ _ Hh).
    pose proof (B2R_lt_emax l). pose proof (B2R_lt_emax h).
    apply Rabs_def2 in H1. apply Rabs_def2 in H2. apply Rabs_def1; lra.
  Qed.

  (** ** Addition *)
  Lemma fadd_ok (x y : F) :
    fin x -> fin y -> Rabs (rnd (B2R x + B2R y)) < bpow radix2 emax ->
    fin (fadd x y) /\ B2R (fadd x y) = rnd (B2R x + B2R y).
  Proof.
    intros Hx Hy Hb. unfold fadd, fin. rewrite erase_correct.
    pose proof (Bplus_correct prec emax Hp Hm mode_NE x y Hx Hy) as H.
    cbn [round_mode] in H. fold (rnd (B2R x + B2R y)) in H.
    rewrite Rlt_bool_true in H by exact Hb. tauto.
  Qed.

  Lemma fadd_in (l h x y : F) :
    fin x -> fin y -> B2R l <= B2R x + B2R y <= B2R h ->
    fin (fadd x y) /\ B2R l <= B2R (fadd x y) <= B2R h.
  Proof.
    intros Hx Hy H.
    destruct (fadd_ok x y Hx Hy (rnd_bnd l h _ H)) as [Hf ->]. split; [exact Hf|].
    split; [apply rnd_ge_B2R | apply rnd_le_B2R]; tauto.
  Qed.

  (** ** Subtraction *)
  Lemma fsub_ok (x y : F) :
    fin x -> fin y -> Rabs (rnd (B2R x - B2R y)) < bpow radix2 emax ->
    fin (fsub x y) /\ B2R (fsub x y) = rnd (B2R x - B2R y).
  Proof.
    intros Hx Hy Hb. unfold fsub, fin. rewrite erase_correct.
    pose proof (Bminus_correct prec emax Hp Hm mode_NE x y Hx Hy) as H.
    cbn [round_mode] in H. fold (rnd (B2R x - B2R y)) in H.
    rewrite Rlt_bool_true in H by exact Hb. tauto.
  Qed.

  Lemma fsub_in (l h x y : F) :
    fin x -> fin y -> B2R l <= B2R x - B2R y <= B2R h ->
    fin (fsub x y) /\ B2R l <= B2R (fsub x y) <= B2R h.
  Proof.
    intros Hx Hy H.
    destruct (fsub_ok x y Hx Hy (rnd_bnd l h _ H)) as [Hf ->]. split; [exact Hf|].
    split; [apply rnd_ge_B2R | apply rnd_le_B2R]; tauto.
  Qed.

  (** ** Multiplication *)
  Lemma fmul_ok (x y : F) :
    fin x -> fin y -> Rabs (rnd (B2R x * B2R y)) < bpow radix2 emax ->
    fin (fmul x y) /\ B2R (fmul x y) = rnd (B2R x * B2R y).
  Proof.
    intros Hx Hy Hb. unfold fmul, fin. rewrite erase_correct.
    pose proof (Bmult_correct prec emax Hp Hm mode_NE x y) as H.
    cbn [round_mode] in H. fold (rnd (B2R x * B2R y)) in H.
    rewrite Rlt_bool_true in H by exact Hb. destruct H as (H1 & H2 & _).
    split; [|exact H1]. rewrite H2. unfold fin in *. now rewrite Hx, Hy.
  Qed.

  Lemma fmul_in (l h x y : F) :
    fin x -> fin y -> B2R l <= B2R x * B2R y <= B2R h ->
    fin (fmul x y) /\ B2R l <= B2R (fmul x y) <= B2R h.
  Proof.
    intros Hx Hy H.
    destruct (fmul_ok x y Hx Hy (rnd_bnd l h _ H)) as [Hf ->]. split; [exact Hf|].
    split; [apply rnd_ge_B2R | apply rnd_le_B2R]; tauto.
  Qed.

  (** ** Division *)
  Lemma fdiv_ok (x y : F) :
    fin x -> fin y -> B2R y <> 0 -> Rabs (rnd (B2R x / B2R y)) < bpow radix2 emax ->
    fin (fdiv x y) /\ B2R (fdiv x y) = rnd (B2R x / B2R y).
  Proof.
    intros Hx Hy Hnz Hb. unfold fdiv, fin. rewrite erase_correct.
    pose proof (Bdiv_correct prec emax Hp Hm mode_NE x y Hnz) as H.
    cbn [round_mode] in H. fold (rnd (B2R x / B2R y)) in H.
    rewrite Rlt_bool_true in H by exact Hb. destruct H as (H1 & H2 & _).
    split; [|exact H1]. now rewrite H2.
  Qed.

  Lemma fdiv_in (l h x y : F) :
    fin x -> fin y -> B2R y <> 0 -> B2R l <= B2R x / B2R y <= B2R h ->
    fin (fdiv x y) /\ B2R l <= B2R (fdiv x y) <= B2R h.
  Proof.
    intros Hx Hy Hnz H.
    destruct (fdiv_ok x y Hx Hy Hnz (rnd_bnd l h _ H)) as [Hf ->]. split; [exact Hf|].
    split; [apply rnd_ge_B2R | apply rnd_le_B2R]; tauto.
  Qed.

  (** ** Negation and absolute value *)
  Lemma fneg_fin (x : F) : fin x -> fin (fneg x).
  Proof. unfold fin, fneg. now rewrite is_finite_Bopp. Qed.
  Lemma fneg_R (x : F) : B2R (fneg x) = - B2R x.
  Proof. apply B2R_Bopp. Qed.
  Lemma fabs_fin (x : F) : fin x -> fin (fabs x).
  Proof. unfold fin, fabs. now rewrite is_finite_Babs. Qed.
  Lemma fabs_R (x : F) : B2R (fabs x) = Rabs (B2R x).
  Proof. apply B2R_Babs. Qed.

  (** ** Comparisons *)
  Lemma flt_R (x y : F) : fin x -> fin y -> flt x y = true <-> B2R x < B2R y.
  Proof.
    intros Hx Hy. unfold flt. rewrite (Bltb_correct prec emax x y Hx Hy).
    split; intros H.
    - destruct (Rlt_bool_spec (B2R x) (B2R y)); [assumption|discriminate].
    - now apply Rlt_bool_true.
  Qed.
  Lemma flt_R_false (x y : F) : fin x -> fin y -> flt x y = false <-> B2R y <= B2R x.
  Proof.
    intros Hx Hy. pose proof (flt_R x y Hx Hy) as [E1 E2].
    destruct (flt x y) eqn:E; split; intros H.
    - discriminate.
    - specialize (E1 eq_refl). lra.
    - destruct (Rle_lt_dec (B2R y) (B2R x)) as [|L]; [assumption|].
      now apply E2 in L.
    - reflexivity.
  Qed.
  Lemma fle_R (x y : F) : fin x -> fin y -> fle x y = true <-> B2R x <= B2R y.
  Proof.
    intros Hx Hy. unfold fle. rewrite (Bleb_correct prec emax x y Hx Hy).
    split; intros H.
    - destruct (Rle_bool_spec (B2R x) (B2R y)); [assumption|discriminate].
    - now apply Rle_bool_true.
  Qed.
  Lemma fle_R_false (x y : F) : fin x -> fin y -> fle x y = false <-> B2R y < B2R x.
  Proof.
    intros Hx Hy. pose proof (fle_R x y Hx Hy) as [E1 E2].
    destruct (fle x y) eqn:E; split; intros H.
    - discriminate.
    - specialize (E1 eq_refl). lra.
    - destruct (Rle_lt_dec (B2R x) (B2R y)) as [L|]; [|assumption].
      now apply E2 in L.
    - reflexivity.
  Qed.
  Lemma feq_R (x y : F) : fin x -> fin y -> feq x y = true <-> B2R x = B2R y.
  Proof.
    intros Hx Hy. unfold feq. rewrite (Beqb_correct prec emax x y Hx Hy).
    split; intros H.
    - destruct (Req_bool_spec (B2R x) (B2R y)); [assumption|discriminate].
    - now apply Req_bool_true.
  Qed.
  Lemma feq_refl (x : F) : is_nan x = false -> feq x x = true.
  Proof. intros H. unfold feq. rewrite Beqb_refl. now rewrite H. Qed.

  (** ** Values of literals *)
  Definition fq (x : F) : Z * Z :=
    match x with
    | B754_finite s m e _ =>
        let n := if s then Zneg m else Zpos m in
        if (0 <=? e)%Z then (n * 2 ^ e, 1)%Z else (n, 2 ^ (- e))%Z
    | _ => (0, 1)%Z
    end.

  Lemma fq_R (x : F) : B2R x = IZR (fst (fq x)) / IZR (snd (fq x)).
  Proof.
    destruct x as [s|s| |s m e He]; simpl; try lra.
    unfold F2R. simpl.
    assert (Hs : SpecFloat.cond_Zopp s (Zpos m) = if s then Zneg m else Zpos m) by (destruct s; reflexivity).
    rewrite Hs. set (n := if s then Zneg m else Zpos m).
    destruct (Z.leb_spec 0 e) as [L|L]; simpl.
    - rewrite mult_IZR. unfold Rdiv. rewrite Rinv_1, Rmult_1_r. f_equal.
      rewrite IZR_Zpower with (r := radix2) by exact L. reflexivity.
    - unfold Rdiv. f_equal.
      assert (L' : (0 <= - e)%Z) by lia.
      change (IZR (2 ^ (- e))) with (IZR (Zpower radix2 (- e))).
      rewrite IZR_Zpower by exact L'. rewrite bpow_opp, Rinv_inv. reflexivity.
  Qed.

  (** ** Integers *)
  Lemma flit_R m e :
    Rabs (rnd (IZR m * bpow radix2 e)) < bpow radix2 emax ->
    fin (flit m e) /\ B2R (flit m e : F) = rnd (IZR m * bpow radix2 e).
  Proof.
    intros Hb. unfold flit, fin. rewrite erase_correct.
    pose proof (binary_normalize_correct prec emax Hp Hm mode_NE m e false) as H.
    cbn [round_mode] in H. unfold F2R in H. cbn [Defs.Fnum Defs.Fexp] in H.
    fold (rnd (IZR m * bpow radix2 e)) in H.
    rewrite Rlt_bool_true in H by exact Hb. tauto.
  Qed.

  Lemma fmt_IZR n : (Z.abs n <= 2 ^ prec)%Z -> generic_format radix2 fexp (IZR n).
  Proof.
    intros H.
    assert (P : (0 < prec)%Z) by exact Hp.
    assert (M : (prec < emax)%Z) by exact Hm.
    destruct (Z.eq_dec (Z.abs n) (2 ^ prec)) as [E|E].
    - assert (G : generic_format radix2 fexp (bpow radix2 prec)).
      { apply generic_format_bpow'. auto with typeclass_instances.
        unfold SpecFloat.fexp, SpecFloat.emin. lia. }
      destruct (Z.abs_spec n) as [[_ A]|[_ A]].
      + replace n with (2 ^ prec)%Z by lia.
        change (2 ^ prec)%Z with (Zpower radix2 prec).
        rewrite IZR_Zpower by lia. exact G.
      + replace n with (- 2 ^ prec)%Z by lia.
        rewrite opp_IZR. apply generic_format_opp.
        change (2 ^ prec)%Z with (Zpower radix2 prec).
        rewrite IZR_Zpower by lia. exact G.
    - apply generic_format_FLT with (emin := SpecFloat.emin prec emax).
      exists (Float radix2 n 0); cbn [Defs.Fnum Defs.Fexp].
      + unfold F2R. cbn [Defs.Fnum Defs.Fexp bpow]. now rewrite Rmult_1_r.
      + change (radix2 : Z) with 2%Z. lia.
      + unfold SpecFloat.emin. lia.
  Qed.

  Lemma IZR_lt_emax n : (Z.abs n <= 2 ^ prec)%Z -> Rabs (IZR n) < bpow radix2 emax.
  Proof.
    intros H. rewrite <- abs_IZR.
    assert (P : (0 < prec)%Z) by exact Hp.
    assert (M : (prec < emax)%Z) by exact Hm.
    apply Rle_lt_trans with (bpow radix2 prec).
    - rewrite <- IZR_Zpower by lia. apply IZR_le. exact H.
    - now apply bpow_lt.
  Qed.

  Lemma fofZ_R n : (Z.abs n <= 2 ^ prec)%Z -> fin (fofZ n) /\ B2R (fofZ n : F) = IZR n.
  Proof.
    intros H. pose proof (fmt_IZR n H) as G. pose proof (IZR_lt_emax n H) as L.
    unfold fofZ. destruct (flit_R n 0) as [A B].
    - simpl. rewrite Rmult_1_r, rnd_fmt by exact G. exact L.
    - split; [exact A|]. rewrite B. simpl. rewrite Rmult_1_r. now apply rnd_fmt.
  Qed.

  (** ** floor / ceil / trunc / round *)
  Lemma near_R md (x : F) : fin x ->
    fin (erase (Bnearbyint md x)) /\
    B2R (erase (Bnearbyint md x)) = IZR (round_mode md (B2R x)).
  Proof.
    intros Hx. unfold fin. rewrite erase_correct.
    destruct (Bnearbyint_correct prec emax Hm md x) as (A & B & _).
    split; [now rewrite B|]. rewrite A.
    unfold round, F2R, scaled_mantissa, cexp, FIX_exp. simpl. rewrite !Rmult_1_r. reflexivity.
  Qed.
  Lemma ffloor_R (x : F) : fin x -> fin (ffloor x) /\ B2R (ffloor x) = IZR (Zfloor (B2R x)).
  Proof. intros Hx. apply (near_R mode_DN x Hx). Qed.
  Lemma fceil_R (x : F) : fin x -> fin (fceil x) /\ B2R (fceil x) = IZR (Zceil (B2R x)).
  Proof. intros Hx. apply (near_R mode_UP x Hx). Qed.
  Lemma ftrunc_R (x : F) : fin x -> fin (ftrunc x) /\ B2R (ftrunc x) = IZR (Ztrunc (B2R x)).
  Proof. intros Hx. apply (near_R mode_ZR x Hx). Qed.
  Lemma fround_R (x : F) : fin x -> fin (fround x) /\ B2R (fround x) = IZR (ZnearestA (B2R x)).
  Proof. intros Hx. apply (near_R mode_NA x Hx). Qed.

  Lemma Btrunc_R (x : F) : Btrunc x = Ztrunc (B2R x).
  Proof.
    apply eq_IZR. rewrite (Btrunc_correct prec emax Hm x).
    unfold round, F2R, scaled_mantissa, cexp, FIX_exp. simpl. rewrite !Rmult_1_r. reflexivity.
  Qed.

  Lemma ftoZ_some lo hi (x : F) n :
    ftoZ lo hi x = Some n <-> fin x /\ n = Ztrunc (B2R x) /\ (lo <= n <= hi)%Z.
  Proof.
    unfold ftoZ, fin. rewrite Btrunc_R. destruct (is_finite x).
    - destruct (_ && _)%bool eqn:E.
      + apply andb_prop in E. destruct E as [E1 E2].
        apply Z.leb_le in E1. apply Z.leb_le in E2. split.
        * intros H. injection H as <-. auto.
        * intros (_ & -> & _). reflexivity.
      + split; [discriminate|]. intros (_ & -> & A & B).
        apply Z.leb_le in A. apply Z.leb_le in B. now rewrite A, B in E.
    - split; [discriminate|]. intros (H & _). discriminate.
  Qed.

  (** ** Rounding errors *)
  Lemma fmt_bpow k :
    (SpecFloat.emin prec emax <= k)%Z -> generic_format radix2 fexp (bpow radix2 k).
  Proof.
    intros Hk. apply generic_format_bpow'; [auto with typeclass_instances|].
    unfold SpecFloat.fexp. assert (0 < prec)%Z by exact Hp. lia.
  Qed.

  Lemma rnd_err_le k x :
    (SpecFloat.emin prec emax <= k - prec)%Z -> Rabs x <= bpow radix2 k ->
    Rabs (rnd x - x) <= bpow radix2 (k - prec - 1).
  Proof.
    intros Hk Hx. assert (P : (0 < prec)%Z) by exact Hp.
    destruct (Rle_lt_or_eq_dec _ _ Hx) as [L|E].
    - unfold rnd. apply Rle_trans with (/ 2 * ulp radix2 fexp x).
      + apply error_le_half_ulp. auto with typeclass_instances.
      + replace (k - prec - 1)%Z with (-1 + (k - prec))%Z by lia. rewrite bpow_plus.
        apply Rmult_le_compat; [lra|apply ulp_ge_0|simpl; lra|].
        destruct (Req_dec x 0) as [->|Nz].
        * unfold ulp. rewrite Req_bool_true by reflexivity.
          destruct negligible_exp as [n|] eqn:En; [|apply bpow_ge_0].
          apply bpow_le. pose proof (negligible_exp_spec' fexp) as S.
          rewrite En in S. destruct S as [[A _]|(n' & A & B)]; [discriminate|].
          injection A as <-.
          unfold SpecFloat.fexp in *. unfold SpecFloat.emin in *. lia.
        * rewrite ulp_neq_0 by exact Nz. apply bpow_le. unfold cexp.
          unfold SpecFloat.fexp. apply Z.max_lub; [|exact Hk].
          pose proof (mag_le_bpow radix2 x k Nz L). lia.
    - assert (G : generic_format radix2 fexp (bpow radix2 k)).
      { apply fmt_bpow. lia. }
      assert (Gx : generic_format radix2 fexp x).
      { unfold Rabs in E. destruct (Rcase_abs x).
        - replace x with (- bpow radix2 k) by lra. now apply generic_format_opp.
        - now rewrite E. }
      rewrite rnd_fmt by exact Gx. unfold Rminus. rewrite Rplus_opp_r, Rabs_R0. apply bpow_ge_0.
  Qed.
End Facts.
