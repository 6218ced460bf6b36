(** Arithmetic on inverted values. *)
From Coq Require Import ZArith Reals Lra Lia Bool List Psatz.
From Flocq Require Import Core BinarySingleNaN.
From Verif Require Import Flt FltFacts PolSpec.
Import ListNotations.
Local Open Scope R_scope.

Section Pol.
  Context {prec emax : Z} {Hp : Prec_gt_0 prec} {Hm : Prec_lt_emax prec emax}.
  Local Notation F := (binary_float prec emax).

  Lemma same_refl (x : F) : same x x. Proof. destruct x; cbn; auto. Qed.
  Lemma same_sym (x y : F) : same x y -> same y x. Proof. destruct x, y; cbn; auto. Qed.
  Lemma same_trans (x y z : F) : same x y -> same y z -> same x z. Proof. destruct x, y; cbn; try discriminate; destruct z; cbn; congruence || auto. Qed.
  Lemma same_fin (x y : F) : fin x -> fin y -> B2R x = B2R y -> same x y.
  Proof.
    intros Fx Fy E. destruct x as [s| | |s m e h]; try discriminate Fx; destruct y as [t| | |t m' e' h']; try discriminate Fy.
    - exact Logic.I.
    - exfalso. cbn in E. symmetry in E. apply eq_0_F2R in E. now destruct t.
    - exfalso. cbn in E. apply eq_0_F2R in E. now destruct s.
    - apply B2R_inj; auto.
  Qed.
  Lemma same_inv (x y : F) : same x y -> (fin x /\ fin y /\ B2R x = B2R y) \/ (is_finite x = false /\ x = y).
  Proof.
    intros H. destruct (is_finite x) eqn:A.
    - left. assert (B : fin y) by (destruct x, y; cbn in H; try discriminate; try reflexivity; now rewrite <- H).
      repeat split; auto. destruct x, y; cbn in H; try discriminate; try reflexivity; now rewrite H.
    - right. split; auto. destruct x, y; try discriminate A; auto.
  Qed.
  Lemma same_neg (x y : F) : same x y -> same (fneg x) (fneg y).
  Proof.
    intros H. destruct (same_inv _ _ H) as [(A & B & E)|(A & <-)]; [|apply same_refl].
    apply same_fin; try now apply fneg_fin. now rewrite !fneg_R, E.
  Qed.
  Lemma neg_neg (x : F) : fneg (fneg x) = x. Proof. apply Bopp_involutive. Qed.

  (** The result for the exact value [r], up to the sign of zero. *)
  Definition resf (r : R) (z : F) : Prop :=
    if Rlt_bool (Rabs (rnd (prec:=prec) (emax:=emax) r)) (bpow radix2 emax) then fin z /\ B2R z = rnd (prec:=prec) (emax:=emax) r else z = B754_infinity (Rlt_bool r 0).
  Lemma resf_same r z z' : resf r z -> resf r z' -> same z z'.
  Proof. unfold resf. destruct (Rlt_bool _ _); [intros [A B] [C D]; apply same_fin; auto; congruence|intros -> ->; reflexivity]. Qed.
  Lemma resf_neg r z : resf r z -> resf (- r) (fneg z).
  Proof.
    unfold resf. rewrite rnd_opp, Rabs_Ropp. destruct (Rlt_bool (Rabs _) _) eqn:E.
    - intros [A B]. split; [now apply fneg_fin|]. now rewrite fneg_R, B.
    - intros ->. cbn. f_equal. assert (N : r <> 0).
      { intros ->. rewrite rnd_0, Rabs_R0, Rlt_bool_true in E; [discriminate|apply bpow_gt_0]. }
      destruct (Rlt_bool_spec r 0), (Rlt_bool_spec (- r) 0); auto; lra.
  Qed.
  Lemma sgn_R (x : F) : fin x -> B2R x <> 0 -> Bsign x = Rlt_bool (B2R x) 0.
  Proof.
    intros Fx N. destruct x as [s| | |s m e h]; try discriminate Fx; [now cbn in N|]. cbn [Bsign]. cbn [B2R].
    destruct s; [rewrite Rlt_bool_true; auto; now apply F2R_lt_0|rewrite Rlt_bool_false; auto; now apply Rlt_le, F2R_gt_0].
  Qed.
  Lemma over_inf (z : F) s : B2SF z = binary_overflow prec emax mode_NE s -> z = B754_infinity s.
  Proof. destruct z; cbn; intros H; try discriminate H. now injection H as ->. Qed.
  Lemma sgn_le (x : F) : fin x -> if Bsign x then B2R x <= 0 else 0 <= B2R x.
  Proof.
    intros Fx. destruct (Req_dec (B2R x) 0) as [E|N]; [destruct (Bsign x); lra|]. rewrite sgn_R by assumption.
    destruct (Rlt_bool_spec (B2R x) 0); lra.
  Qed.
  Lemma over_nz r : Rlt_bool (Rabs (rnd (prec:=prec) (emax:=emax) r)) (bpow radix2 emax) = false -> r <> 0.
  Proof. intros E ->. rewrite rnd_0, Rabs_R0, Rlt_bool_true in E; [discriminate|apply bpow_gt_0]. Qed.
  Lemma add_res (x y : F) : fin x -> fin y -> resf (B2R x + B2R y) (fadd x y).
  Proof.
    intros Fx Fy. unfold resf, fadd. rewrite erase_correct. pose proof (Bplus_correct prec emax Hp Hm mode_NE x y Fx Fy) as H.
    cbn [round_mode] in H. fold (rnd (prec:=prec) (emax:=emax) (B2R x + B2R y)) in H. destruct (Rlt_bool (Rabs _) _) eqn:E; [tauto|].
    destruct H as [A B]. apply over_inf in A. rewrite A. f_equal. apply over_nz in E.
    pose proof (sgn_le x Fx) as Sx. pose proof (sgn_le y Fy) as Sy. rewrite <- B in Sy. destruct (Bsign x), (Rlt_bool_spec (B2R x + B2R y) 0); auto; lra.
  Qed.
  Lemma sub_res (x y : F) : fin x -> fin y -> resf (B2R x - B2R y) (fsub x y).
  Proof.
    intros Fx Fy. unfold resf, fsub. rewrite erase_correct. pose proof (Bminus_correct prec emax Hp Hm mode_NE x y Fx Fy) as H.
    cbn [round_mode] in H. fold (rnd (prec:=prec) (emax:=emax) (B2R x - B2R y)) in H. destruct (Rlt_bool (Rabs _) _) eqn:E; [tauto|].
    destruct H as [A B]. apply over_inf in A. rewrite A. f_equal. apply over_nz in E.
    pose proof (sgn_le x Fx) as Sx. pose proof (sgn_le y Fy) as Sy.
    destruct (Bsign x), (Bsign y), (Rlt_bool_spec (B2R x - B2R y) 0); try discriminate B; auto; lra.
  Qed.
  Lemma xor_sgn (x y : F) : fin x -> fin y -> B2R x * B2R y <> 0 -> xorb (Bsign x) (Bsign y) = Rlt_bool (B2R x * B2R y) 0.
  Proof.
    intros Fx Fy N. pose proof (sgn_le x Fx) as Sx. pose proof (sgn_le y Fy) as Sy.
    destruct (Bsign x), (Bsign y), (Rlt_bool_spec (B2R x * B2R y) 0); auto; cbn; nra.
  Qed.
  Lemma mul_res (x y : F) : fin x -> fin y -> resf (B2R x * B2R y) (fmul x y).
  Proof.
    intros Fx Fy. unfold resf, fmul. rewrite erase_correct. pose proof (Bmult_correct prec emax Hp Hm mode_NE x y) as H.
    cbn [round_mode] in H. fold (rnd (prec:=prec) (emax:=emax) (B2R x * B2R y)) in H. destruct (Rlt_bool (Rabs _) _) eqn:E.
    - destruct H as (A & B & _). rewrite Fx, Fy in B. split; [exact B|exact A].
    - apply over_inf in H. rewrite H. f_equal. apply over_nz in E. now apply xor_sgn.
  Qed.
  Lemma div_res (x y : F) : fin x -> fin y -> B2R y <> 0 -> resf (B2R x / B2R y) (fdiv x y).
  Proof.
    intros Fx Fy N. unfold resf, fdiv. rewrite erase_correct. pose proof (Bdiv_correct prec emax Hp Hm mode_NE x y N) as H.
    cbn [round_mode] in H. fold (rnd (prec:=prec) (emax:=emax) (B2R x / B2R y)) in H. destruct (Rlt_bool (Rabs _) _) eqn:E.
    - destruct H as (A & B & _). rewrite Fx in B. split; [exact B|exact A].
    - apply over_inf in H. rewrite H. f_equal. apply over_nz in E.
      pose proof (sgn_le x Fx) as Sx. pose proof (sgn_le y Fy) as Sy.
      assert (I : B2R y * / B2R y = 1) by now apply Rinv_r. assert (Q : B2R x / B2R y * B2R y = B2R x) by (field; exact N).
      destruct (Bsign x), (Bsign y), (Rlt_bool_spec (B2R x / B2R y) 0); auto; cbn; nra.
  Qed.

  (** Exchanging arguments that are the same up to the sign of zero. *)
  Lemma nf_cases (x : F) : is_finite x = false -> x = B754_nan \/ exists s, x = B754_infinity s.
  Proof. destruct x; try discriminate; eauto. Qed.
  Lemma same_add (x y x' y' : F) : same x y -> same x' y' -> same (fadd x x') (fadd y y').
  Proof.
    intros H H'. destruct (same_inv _ _ H) as [(A & B & E)|(A & <-)], (same_inv _ _ H') as [(A' & B' & E')|(A' & <-)].
    - apply resf_same with (B2R x + B2R x'); [now apply add_res|]. rewrite E, E'. now apply add_res.
    - destruct (nf_cases x' A') as [->|[s ->]]; destruct x, y; try discriminate A; try discriminate B; reflexivity.
    - destruct (nf_cases x A) as [->|[s ->]]; destruct x', y'; try discriminate A'; try discriminate B'; reflexivity.
    - apply same_refl.
  Qed.
  Lemma same_sub (x y x' y' : F) : same x y -> same x' y' -> same (fsub x x') (fsub y y').
  Proof.
    intros H H'. destruct (same_inv _ _ H) as [(A & B & E)|(A & <-)], (same_inv _ _ H') as [(A' & B' & E')|(A' & <-)].
    - apply resf_same with (B2R x - B2R x'); [now apply sub_res|]. rewrite E, E'. now apply sub_res.
    - destruct (nf_cases x' A') as [->|[s ->]]; destruct x, y; try discriminate A; try discriminate B; reflexivity.
    - destruct (nf_cases x A) as [->|[s ->]]; destruct x', y'; try discriminate A'; try discriminate B'; reflexivity.
    - apply same_refl.
  Qed.
  Lemma same_mul (x y x' y' : F) : same x y -> same x' y' -> same (fmul x x') (fmul y y').
  Proof.
    intros H H'. destruct (same_inv _ _ H) as [(A & B & E)|(A & <-)], (same_inv _ _ H') as [(A' & B' & E')|(A' & <-)].
    - apply resf_same with (B2R x * B2R x'); [now apply mul_res|]. rewrite E, E'. now apply mul_res.
    - destruct x, y; try discriminate A; try discriminate B; cbn in H; try discriminate H; destruct (nf_cases x' A') as [->|[t ->]]; try reflexivity; rewrite H; reflexivity.
    - destruct x', y'; try discriminate A'; try discriminate B'; cbn in H'; try discriminate H'; destruct (nf_cases x A) as [->|[t ->]]; try reflexivity; rewrite H'; reflexivity.
    - apply same_refl.
  Qed.
  (** The divisor has to be the same float. *)
  Lemma same_div (x y c : F) : same x y -> same (fdiv x c) (fdiv y c).
  Proof.
    intros H. destruct (same_inv _ _ H) as [(A & B & E)|(A & <-)]; [|apply same_refl].
    destruct c as [s|s| |s m e h].
    - destruct x, y; try discriminate A; try discriminate B; cbn in H; try discriminate H; try reflexivity. rewrite H. reflexivity.
    - destruct x, y; try discriminate A; try discriminate B; cbn in H; try discriminate H; try reflexivity.
    - destruct x, y; reflexivity.
    - assert (N : B2R (B754_finite s m e h : F) <> 0) by (cbn; intros Q; apply eq_0_F2R in Q; now destruct s).
      apply resf_same with (B2R x / B2R (B754_finite s m e h : F)); [now apply div_res|]. rewrite E. now apply div_res.
  Qed.
  (** Signs move through the operations. *)
  Lemma neg_add (x y : F) : same (fneg (fadd x y)) (fadd (fneg x) (fneg y)).
  Proof.
    destruct (is_finite x) eqn:A, (is_finite y) eqn:B.
    - apply resf_same with (- (B2R x + B2R y)); [now apply resf_neg, add_res|].
      replace (- (B2R x + B2R y)) with (B2R (fneg x) + B2R (fneg y)) by (rewrite !fneg_R; ring). apply add_res; now apply fneg_fin.
    - destruct (nf_cases y B) as [->|[s ->]]; destruct x; try discriminate A; reflexivity.
    - destruct (nf_cases x A) as [->|[s ->]]; destruct y; try discriminate B; reflexivity.
    - destruct (nf_cases x A) as [->|[s ->]], (nf_cases y B) as [->|[t ->]]; try reflexivity. destruct s, t; reflexivity.
  Qed.
  Lemma neg_sub (x y : F) : same (fneg (fsub x y)) (fsub (fneg x) (fneg y)).
  Proof.
    destruct (is_finite x) eqn:A, (is_finite y) eqn:B.
    - apply resf_same with (- (B2R x - B2R y)); [now apply resf_neg, sub_res|].
      replace (- (B2R x - B2R y)) with (B2R (fneg x) - B2R (fneg y)) by (rewrite !fneg_R; ring). apply sub_res; now apply fneg_fin.
    - destruct (nf_cases y B) as [->|[s ->]]; destruct x; try discriminate A; reflexivity.
    - destruct (nf_cases x A) as [->|[s ->]]; destruct y; try discriminate B; reflexivity.
    - destruct (nf_cases x A) as [->|[s ->]], (nf_cases y B) as [->|[t ->]]; try reflexivity. destruct s, t; reflexivity.
  Qed.
  Lemma neg_swap (x y : F) : same (fneg (fsub x y)) (fsub y x).
  Proof.
    destruct (is_finite x) eqn:A, (is_finite y) eqn:B.
    - apply resf_same with (- (B2R x - B2R y)); [now apply resf_neg, sub_res|].
      replace (- (B2R x - B2R y)) with (B2R y - B2R x) by ring. now apply sub_res.
    - destruct (nf_cases y B) as [->|[s ->]]; destruct x; try discriminate A; try reflexivity; destruct s; reflexivity.
    - destruct (nf_cases x A) as [->|[s ->]]; destruct y; try discriminate B; try reflexivity; destruct s; reflexivity.
    - destruct (nf_cases x A) as [->|[s ->]], (nf_cases y B) as [->|[t ->]]; try reflexivity. destruct s, t; reflexivity.
  Qed.
  Lemma neg_mul_l (x y : F) : same (fneg (fmul x y)) (fmul (fneg x) y).
  Proof.
    destruct (is_finite x) eqn:A, (is_finite y) eqn:B.
    - apply resf_same with (- (B2R x * B2R y)); [now apply resf_neg, mul_res|].
      replace (- (B2R x * B2R y)) with (B2R (fneg x) * B2R y) by (rewrite !fneg_R; ring). apply mul_res; auto. now apply fneg_fin.
    - destruct (nf_cases y B) as [->|[s ->]]; destruct x as [t| | |t m e h]; try discriminate A; try reflexivity; destruct t, s; reflexivity.
    - destruct (nf_cases x A) as [->|[s ->]]; destruct y as [t| | |t m e h]; try discriminate B; try reflexivity; destruct t, s; reflexivity.
    - destruct (nf_cases x A) as [->|[s ->]], (nf_cases y B) as [->|[t ->]]; try reflexivity. destruct s, t; reflexivity.
  Qed.
  Lemma neg_mul_r (x y : F) : same (fneg (fmul x y)) (fmul x (fneg y)).
  Proof.
    destruct (is_finite x) eqn:A, (is_finite y) eqn:B.
    - apply resf_same with (- (B2R x * B2R y)); [now apply resf_neg, mul_res|].
      replace (- (B2R x * B2R y)) with (B2R x * B2R (fneg y)) by (rewrite !fneg_R; ring). apply mul_res; auto. now apply fneg_fin.
    - destruct (nf_cases y B) as [->|[s ->]]; destruct x as [t| | |t m e h]; try discriminate A; try reflexivity; destruct t, s; reflexivity.
    - destruct (nf_cases x A) as [->|[s ->]]; destruct y as [t| | |t m e h]; try discriminate B; try reflexivity; destruct t, s; reflexivity.
    - destruct (nf_cases x A) as [->|[s ->]], (nf_cases y B) as [->|[t ->]]; try reflexivity. destruct s, t; reflexivity.
  Qed.
  Lemma neg_div (x c : F) : same (fneg (fdiv x c)) (fdiv (fneg x) c).
  Proof.
    destruct (is_finite x) eqn:A.
    - destruct c as [s|s| |s m e h]; try (destruct x as [t| | |t m' e' h']; try discriminate A; try reflexivity; destruct t, s; reflexivity).
      assert (N : B2R (B754_finite s m e h : F) <> 0) by (cbn; intros Q; apply eq_0_F2R in Q; now destruct s).
      apply resf_same with (- (B2R x / B2R (B754_finite s m e h : F))); [now apply resf_neg, div_res|].
      replace (- (B2R x / B2R (B754_finite s m e h : F))) with (B2R (fneg x) / B2R (B754_finite s m e h : F)) by (rewrite fneg_R; field; exact N).
      apply div_res; [now apply fneg_fin|reflexivity|exact N].
    - destruct (nf_cases x A) as [->|[t ->]]; destruct c as [s|s| |s m e h]; try reflexivity; destruct t, s; reflexivity.
  Qed.

  (** ** Rules for [opp] *)
  Lemma opp_zero : opp (fzero : F) fzero. Proof. exact Logic.I. Qed.
  Lemma opp_neg (x : F) : opp x (fneg x). Proof. apply same_refl. Qed.
  Lemma opp_same (x y y' : F) : opp x y -> same y y' -> opp x y'. Proof. intros A B. exact (same_trans _ _ _ A B). Qed.
  Lemma opp_add (x y x' y' : F) : opp x y -> opp x' y' -> opp (fadd x x') (fadd y y').
  Proof. intros A B. eapply same_trans; [apply neg_add|now apply same_add]. Qed.
  Lemma opp_sub (x y x' y' : F) : opp x y -> opp x' y' -> opp (fsub x x') (fsub y y').
  Proof. intros A B. eapply same_trans; [apply neg_sub|now apply same_sub]. Qed.
  Lemma opp_mul_l (x y c d : F) : opp x y -> same c d -> opp (fmul x c) (fmul y d).
  Proof. intros A B. eapply same_trans; [apply neg_mul_l|now apply same_mul]. Qed.
  Lemma opp_mul_r (x y c d : F) : same c d -> opp x y -> opp (fmul c x) (fmul d y).
  Proof. intros B A. eapply same_trans; [apply neg_mul_r|now apply same_mul]. Qed.
  Lemma opp_div (x y c : F) : opp x y -> opp (fdiv x c) (fdiv y c).
  Proof. intros A. eapply same_trans; [apply neg_div|now apply same_div]. Qed.
  Lemma opp_fneg (x y : F) : opp x y -> opp (fneg x) (fneg y). Proof. apply same_neg. Qed.
  Lemma opp_sym (x y : F) : opp x y -> opp y x.
  Proof. intros A. unfold opp. apply same_neg in A. rewrite neg_neg in A. now apply same_sym. Qed.
  Lemma opp_opp (x y z : F) : opp x y -> opp y z -> same x z.
  Proof. intros A B. apply opp_sym in A. eapply same_trans; [apply same_sym, A|exact B]. Qed.
  Lemma opp_mul (x y x' y' : F) : opp x y -> opp x' y' -> same (fmul x x') (fmul y y').
  Proof.
    intros A B. apply opp_opp with (fmul x y').
    - apply opp_mul_r; [apply same_refl|exact B].
    - apply opp_mul_l; [exact A|apply same_refl].
  Qed.
  Lemma same_if (b : bool) (x y x' y' : F) : same x y -> same x' y' -> same (if b then x else x') (if b then y else y'). Proof. now destruct b. Qed.
  Lemma opp_if (b : bool) (x y x' y' : F) : opp x y -> opp x' y' -> opp (if b then x else x') (if b then y else y'). Proof. now destruct b. Qed.
  Lemma opp_abs (x y : F) : opp x y -> fabs x = fabs y.
  Proof.
    unfold opp. destruct x as [s|s| |s m e h], y as [t|t| |t m' e' h']; cbn; intros H; try discriminate H; try reflexivity.
    injection H as H1 H2 H3. subst. now rewrite (eqbool_irrelevance _ h h').
  Qed.
  Lemma same_flt (x y x' y' : F) : same x y -> same x' y' -> flt x x' = flt y y'.
  Proof.
    intros H H'. destruct (same_inv _ _ H) as [(A & B & E)|(A & <-)], (same_inv _ _ H') as [(A' & B' & E')|(A' & <-)]; auto.
    - unfold flt. rewrite !Bltb_correct by assumption. now rewrite E, E'.
    - destruct (nf_cases x' A') as [->|[s ->]]; destruct x, y; try discriminate A; try discriminate B; reflexivity.
    - destruct (nf_cases x A) as [->|[s ->]]; destruct x', y'; try discriminate A'; try discriminate B'; reflexivity.
  Qed.
  Lemma same_fle (x y x' y' : F) : same x y -> same x' y' -> fle x x' = fle y y'.
  Proof.
    intros H H'. destruct (same_inv _ _ H) as [(A & B & E)|(A & <-)], (same_inv _ _ H') as [(A' & B' & E')|(A' & <-)]; auto.
    - unfold fle. rewrite !Bleb_correct by assumption. now rewrite E, E'.
    - destruct (nf_cases x' A') as [->|[s ->]]; destruct x, y; try discriminate A; try discriminate B; reflexivity.
    - destruct (nf_cases x A) as [->|[s ->]]; destruct x', y'; try discriminate A'; try discriminate B'; reflexivity.
  Qed.
  Lemma same_feq (x y x' y' : F) : same x y -> same x' y' -> feq x x' = feq y y'.
  Proof.
    intros H H'. destruct (same_inv _ _ H) as [(A & B & E)|(A & <-)], (same_inv _ _ H') as [(A' & B' & E')|(A' & <-)]; auto.
    - unfold feq. rewrite !Beqb_correct by assumption. now rewrite E, E'.
    - destruct (nf_cases x' A') as [->|[s ->]]; destruct x, y; try discriminate A; try discriminate B; reflexivity.
    - destruct (nf_cases x A) as [->|[s ->]]; destruct x', y'; try discriminate A'; try discriminate B'; reflexivity.
  Qed.
  Lemma neg_flt (x y : F) : flt (fneg x) (fneg y) = flt y x.
  Proof.
    destruct (is_finite x) eqn:A, (is_finite y) eqn:B.
    - unfold flt. rewrite !Bltb_correct by (assumption || now apply fneg_fin). rewrite !fneg_R.
      destruct (Rlt_bool_spec (- B2R x) (- B2R y)), (Rlt_bool_spec (B2R y) (B2R x)); auto; lra.
    - destruct (nf_cases y B) as [->|[s ->]]; destruct x as [t| | |t m e h]; try discriminate A; try destruct s; try destruct t; reflexivity.
    - destruct (nf_cases x A) as [->|[s ->]]; destruct y as [t| | |t m e h]; try discriminate B; try destruct s; try destruct t; reflexivity.
    - destruct (nf_cases x A) as [->|[s ->]], (nf_cases y B) as [->|[t ->]]; try destruct s; try destruct t; reflexivity.
  Qed.
  Lemma neg_feq (x y : F) : feq (fneg x) (fneg y) = feq x y.
  Proof.
    destruct (is_finite x) eqn:A, (is_finite y) eqn:B.
    - unfold feq. rewrite !Beqb_correct by (assumption || now apply fneg_fin). rewrite !fneg_R.
      destruct (Req_bool_spec (- B2R x) (- B2R y)), (Req_bool_spec (B2R x) (B2R y)); auto; lra.
    - destruct (nf_cases y B) as [->|[s ->]]; destruct x as [t| | |t m e h]; try discriminate A; try destruct s; try destruct t; reflexivity.
    - destruct (nf_cases x A) as [->|[s ->]]; destruct y as [t| | |t m e h]; try discriminate B; try destruct s; try destruct t; reflexivity.
    - destruct (nf_cases x A) as [->|[s ->]], (nf_cases y B) as [->|[t ->]]; try destruct s; try destruct t; reflexivity.
  Qed.
  Lemma opp_flt (x y x' y' : F) : opp x y -> opp x' y' -> flt y y' = flt x' x.
  Proof. intros A B. rewrite <- (same_flt _ _ _ _ A B). apply neg_flt. Qed.
  Lemma opp_feq (x y x' y' : F) : opp x y -> opp x' y' -> feq x x' = feq y y'.
  Proof. intros A B. rewrite <- (same_feq _ _ _ _ A B). symmetry. apply neg_feq. Qed.
  (** Zero and NaN are their own inverse, nothing else. *)
  Lemma opp_self (x : F) : opp x x -> fin x /\ B2R x = 0 \/ is_nan x = true.
  Proof. destruct x as [s|s| |s m e h]; cbn; intros H; [left; split; reflexivity| |right; reflexivity|]; injection H as H; destruct s; discriminate H. Qed.
  (** A square does not depend on the sign. *)
  Lemma opp_square (x y : F) : opp x y -> fmul x x = fmul y y.
  Proof.
    intros A. pose proof (opp_mul _ _ _ _ A A) as S.
    assert (Q : forall z : F, is_nan z = false -> Bsign (fmul z z) = false).
    { intros z N. unfold fmul. rewrite erase_correct. destruct z as [s|s| |s m e h]; try discriminate N; try (cbn; now destruct s).
      pose proof (Bmult_correct prec emax Hp Hm mode_NE (B754_finite s m e h) (B754_finite s m e h)) as H.
      destruct (Rlt_bool _ _); [destruct H as (_ & H1 & H2)|apply over_inf in H; rewrite H; cbn; now destruct s].
      rewrite H2; [cbn; now destruct s|]. destruct (Bmult _ _ _); auto; discriminate H1. }
    assert (N : is_nan x = is_nan y) by (revert A; unfold opp; destruct x, y; cbn; congruence).
    destruct (is_nan x) eqn:Nx.
    - destruct x; try discriminate Nx. destruct y; try discriminate N. reflexivity.
    - symmetry in N. pose proof (Q x Nx) as Sx. pose proof (Q y N) as Sy. destruct (fmul x x), (fmul y y); cbn in S; try exact S; try discriminate S.
      cbn in Sx, Sy. congruence.
  Qed.
End Pol.

(** Widening and narrowing. *)
Section Conv.
  Context {p1 e1 p2 e2 : Z} {Hp1 : Prec_gt_0 p1} {Hm1 : Prec_lt_emax p1 e1} {Hp2 : Prec_gt_0 p2} {Hm2 : Prec_lt_emax p2 e2}.
  Lemma conv_res (x : binary_float p1 e1) : fin x -> resf (B2R x) (fconv p2 e2 x).
  Proof.
    intros Fx. destruct x as [s| | |s m e h]; try discriminate Fx.
    - unfold resf. cbn. rewrite rnd_0, Rabs_R0, Rlt_bool_true by apply bpow_gt_0. split; reflexivity.
    - unfold resf, fconv. rewrite erase_correct.
      pose proof (binary_normalize_correct p2 e2 Hp2 Hm2 mode_NE (if s then Z.neg m else Z.pos m) e s) as H. cbn [round_mode] in H.
      assert (E : F2R (Float radix2 (if s then Z.neg m else Z.pos m) e) = B2R (B754_finite s m e h : binary_float p1 e1)) by (destruct s; reflexivity).
      rewrite E in H. fold (rnd (prec:=p2) (emax:=e2) (B2R (B754_finite s m e h : binary_float p1 e1))) in H.
      destruct (Rlt_bool (Rabs _) _); [tauto|]. now apply over_inf in H.
  Qed.
  Lemma same_conv (x y : binary_float p1 e1) : same x y -> same (fconv p2 e2 x) (fconv p2 e2 y).
  Proof.
    intros H. destruct (same_inv _ _ H) as [(A & B & E)|(A & <-)]; [|apply same_refl].
    apply resf_same with (B2R x); [now apply conv_res|]. rewrite E. now apply conv_res.
  Qed.
  Lemma neg_conv (x : binary_float p1 e1) : same (fneg (fconv p2 e2 x)) (fconv p2 e2 (fneg x)).
  Proof.
    destruct (is_finite x) eqn:A.
    - apply resf_same with (- B2R x); [now apply resf_neg, conv_res|]. rewrite <- fneg_R. now apply conv_res, fneg_fin.
    - destruct (nf_cases x A) as [->|[s ->]]; reflexivity.
  Qed.
  Lemma opp_conv (x y : binary_float p1 e1) : opp x y -> opp (fconv p2 e2 x) (fconv p2 e2 y).
  Proof. intros A. eapply same_trans; [apply neg_conv|now apply same_conv]. Qed.
End Conv.
Lemma opp_f2d x y : opp x y -> opp (f2d x) (f2d y). Proof. apply opp_conv. Qed.
Lemma opp_d2f x y : opp x y -> opp (d2f x) (d2f y). Proof. apply opp_conv. Qed.
