(** [FltClose.cl] at a power-of-two scale: [cs j e x r] says the float [x] is within [e * 2^j] of [r * 2^j]. *)
From Coq Require Import ZArith Reals Lra Lia Bool Psatz.
From Flocq Require Import Core BinarySingleNaN.
From Verif Require Import Flt FltFacts FltMore FltKey FltArith FltClose UtilModel UtilProofs.
Local Open Scope R_scope.

Definition cs (j : Z) (e : R) (x : f32) (r : R) : Prop := cl (e * bpow radix2 j) x (r * bpow radix2 j).
Lemma bpa a b : bpow radix2 (a + b) = bpow radix2 a * bpow radix2 b. Proof. apply bpow_plus. Qed.
Lemma abs_sc j x : Rabs (x * bpow radix2 j) = Rabs x * bpow radix2 j.
Proof. rewrite Rabs_mult, (Rabs_pos_eq (bpow _ _)) by apply bpow_ge_0. reflexivity. Qed.
Lemma le_sc j x y : x <= y -> x * bpow radix2 j <= y * bpow radix2 j.
Proof. intros. apply Rmult_le_compat_r; [apply bpow_ge_0|assumption]. Qed.
Lemma cs_weak j e e' x r : cs j e x r -> e <= e' -> cs j e' x r.
Proof. intros H L. eapply cl_weak; [exact H|now apply le_sc]. Qed.
Lemma cs_eq j e x r r' : cs j e x r -> r = r' -> cs j e x r'. Proof. intros H <-. exact H. Qed.
Lemma cs_neg j e x r : cs j e x r -> cs j e (fneg x) (- r).
Proof. intros H. unfold cs. rewrite Ropp_mult_distr_l_reverse. now apply cl_neg. Qed.
Lemma cs_self j x : fin x -> cs j 0 x (B2R x / bpow radix2 j).
Proof.
  intros F. unfold cs. rewrite Rmult_0_l. unfold Rdiv. rewrite Rmult_assoc, Rinv_l, Rmult_1_r by (apply Rgt_not_eq, bpow_gt_0). now apply cl_self.
Qed.
Lemma sc_abs j x : Rabs (B2R x) <= bpow radix2 j -> Rabs (B2R (x : f32) / bpow radix2 j) <= 1.
Proof.
  intros H. pose proof (bpow_gt_0 radix2 j) as P. unfold Rdiv. rewrite Rabs_mult, (Rabs_pos_eq (/ _)) by (left; now apply Rinv_0_lt_compat).
  rewrite <- (Rinv_r (bpow radix2 j)) by lra. apply Rmult_le_compat_r; [left; now apply Rinv_0_lt_compat|exact H].
Qed.
Lemma cs_add j k e1 e2 x y r1 r2 : (-125 <= k + j <= 100)%Z -> cs j e1 x r1 -> cs j e2 y r2 -> Rabs (r1 + r2) + e1 + e2 <= bpow radix2 k ->
  cs j (e1 + e2 + bpow radix2 (k - 25)) (fadd x y) (r1 + r2).
Proof.
  intros K A B H. unfold cs in *. pose proof (cl_add (k + j) _ _ _ _ _ _ K A B) as C. rewrite <- Rmult_plus_distr_r, abs_sc, <- !Rmult_plus_distr_r, bpa in C.
  specialize (C (le_sc _ _ _ H)). replace (k + j - 25)%Z with (k - 25 + j)%Z in C by lia. rewrite bpa, <- Rmult_plus_distr_r in C. exact C.
Qed.
Lemma cs_sub j k e1 e2 x y r1 r2 : (-125 <= k + j <= 100)%Z -> cs j e1 x r1 -> cs j e2 y r2 -> Rabs (r1 - r2) + e1 + e2 <= bpow radix2 k ->
  cs j (e1 + e2 + bpow radix2 (k - 25)) (fsub x y) (r1 - r2).
Proof.
  intros K A B H. unfold cs in *. pose proof (cl_sub (k + j) _ _ _ _ _ _ K A B) as C. rewrite <- Rmult_minus_distr_r, abs_sc, <- !Rmult_plus_distr_r, bpa in C.
  specialize (C (le_sc _ _ _ H)). replace (k + j - 25)%Z with (k - 25 + j)%Z in C by lia. rewrite bpa, <- Rmult_plus_distr_r in C. exact C.
Qed.
(** Multiplication by an unscaled factor, on the left and on the right. *)
Lemma cs_mul j k e1 e2 b1 b2 x y r1 r2 : (-125 <= k + j <= 100)%Z -> cl e1 x r1 -> cs j e2 y r2 -> Rabs r1 <= b1 -> Rabs r2 <= b2 ->
  (b1 + e1) * (b2 + e2) <= bpow radix2 k -> cs j (b1 * e2 + b2 * e1 + e1 * e2 + bpow radix2 (k - 25)) (fmul x y) (r1 * r2).
Proof.
  intros K A B H1 H2 H. unfold cs in *.
  pose proof (cl_mul (k + j) e1 (e2 * bpow radix2 j) b1 (b2 * bpow radix2 j) _ _ _ _ K A B H1) as C. rewrite abs_sc in C. specialize (C (le_sc _ _ _ H2)).
  rewrite bpa in C. replace ((b1 + e1) * (b2 * bpow radix2 j + e2 * bpow radix2 j)) with ((b1 + e1) * (b2 + e2) * bpow radix2 j) in C by ring.
  specialize (C (le_sc _ _ _ H)). replace (k + j - 25)%Z with (k - 25 + j)%Z in C by lia. rewrite bpa in C.
  eapply cl_eq; [eapply cl_weak; [exact C|right; ring]|ring].
Qed.
Lemma cs_mulr j k e1 e2 b1 b2 x y r1 r2 : (-125 <= k + j <= 100)%Z -> cs j e1 x r1 -> cl e2 y r2 -> Rabs r1 <= b1 -> Rabs r2 <= b2 ->
  (b1 + e1) * (b2 + e2) <= bpow radix2 k -> cs j (b1 * e2 + b2 * e1 + e1 * e2 + bpow radix2 (k - 25)) (fmul x y) (r1 * r2).
Proof.
  intros K A B H1 H2 H. unfold cs in *.
  pose proof (cl_mul (k + j) (e1 * bpow radix2 j) e2 (b1 * bpow radix2 j) b2 _ _ _ _ K A B) as C. rewrite abs_sc in C. specialize (C (le_sc _ _ _ H1) H2).
  rewrite bpa in C. replace ((b1 * bpow radix2 j + e1 * bpow radix2 j) * (b2 + e2)) with ((b1 + e1) * (b2 + e2) * bpow radix2 j) in C by ring.
  specialize (C (le_sc _ _ _ H)). replace (k + j - 25)%Z with (k - 25 + j)%Z in C by lia. rewrite bpa in C.
  eapply cl_eq; [eapply cl_weak; [exact C|right; ring]|ring].
Qed.
Lemma cs_out j e x r : cs j e x r -> fin x /\ Rabs (B2R x - r * bpow radix2 j) <= e * bpow radix2 j. Proof. intros H. exact H. Qed.
Definition bnd (j : Z) (x : f32) : Prop := fin x /\ Rabs (B2R x) <= bpow radix2 j.
(** Rounding unit used in the bounds. *)
Definition uu : R := bpow radix2 (-25).
Lemma buu k : (0 <= k)%Z -> bpow radix2 (k - 25) = IZR (2 ^ k) * uu.
Proof. intros H. unfold uu, Z.sub. rewrite bpow_plus. f_equal. change (2 ^ k)%Z with (Zpower radix2 k). now rewrite IZR_Zpower. Qed.
Lemma uu_b : 0 < uu <= / 33554432. Proof. unfold uu. bp. lra. Qed.
