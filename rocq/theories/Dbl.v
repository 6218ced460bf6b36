(** Absolute error bookkeeping for binary64 expressions: [ap e x r] says the double [x] is finite and within [e] of the real [r];
    and the conversions between float and double. *)
From Coq Require Import ZArith Reals Lra Lia Bool Psatz.
From Flocq Require Import Core BinarySingleNaN.
From Verif Require Import Flt FltFacts FltMore FltArith UtilModel UtilProofs.
Local Open Scope R_scope.

Notation rnd64 := (@rnd 53 1024).
Notation dy64 := (@dy 53 1024).
Definition ap (e : R) (x : f64) (r : R) : Prop := fin x /\ Rabs (B2R x - r) <= e.
(** Relative error of one operation on results of magnitude at least 2^-1000. *)
Definition du : R := bpow radix2 (-53) * (1 + / 1024).
Lemma du_pos : 0 < du. Proof. unfold du. pose proof (bpow_gt_0 radix2 (-53)). nra. Qed.
Definition mid64 (M : R) : Prop := bpow radix2 (-1000) <= M <= bpow radix2 1000.

Lemma ap_self x : fin x -> ap 0 x (B2R x).
Proof. intros F. split; [exact F|]. rewrite Rminus_diag_eq, Rabs_R0 by reflexivity. lra. Qed.
Lemma ap_weak e e' x r : ap e x r -> e <= e' -> ap e' x r.
Proof. intros [F E] L. split; [exact F|]. lra. Qed.
Lemma ap_eq e x r r' : ap e x r -> r = r' -> ap e x r'. Proof. intros H <-. exact H. Qed.
Lemma ap_abs e x r : ap e x r -> Rabs (B2R x) <= Rabs r + e.
Proof. intros [_ E]. replace (B2R x) with (r + (B2R x - r)) by ring. eapply Rle_trans; [apply Rabs_triang|]. lra. Qed.
Lemma ap_neg e x r : ap e x r -> ap e (fneg x) (- r).
Proof. intros [F E]. split; [now apply fneg_fin|]. rewrite fneg_R. replace (- B2R x - - r) with (- (B2R x - r)) by ring. now rewrite Rabs_Ropp. Qed.
Lemma ap_nonneg e x r : ap e x r -> 0 <= e.
Proof. intros [_ E]. pose proof (Rabs_pos (B2R x - r)). lra. Qed.

Lemma dy_big : dy64 (bpow radix2 1001) /\ dy64 (- bpow radix2 1001).
Proof. split; [|apply dy_opp]; apply dy_bpow; cbn; lia. Qed.
Lemma ap_rnd e M v r : Rabs (v - r) <= e -> Rabs r + e <= M -> mid64 M -> - bpow radix2 1001 <= v <= bpow radix2 1001 /\ Rabs (rnd64 v - r) <= e + M * du.
Proof.
  intros E B [M1 M2].
  assert (A : Rabs v <= M).
  { replace v with (r + (v - r)) by ring. eapply Rle_trans; [apply Rabs_triang|]. lra. }
  assert (L : bpow radix2 1000 <= bpow radix2 1001) by (apply bpow_le; lia).
  split; [apply Rabs_le_inv in A; lra|].
  pose proof (@rnd_rel 53 1024 prec53 v) as R. change (- (53))%Z with (-53)%Z in R. change (SpecFloat.emin 53 1024 - 1)%Z with (-1075)%Z in R.
  assert (T : bpow radix2 (-1075) <= bpow radix2 (-53) * / 1024 * bpow radix2 (-1000)).
  { change (/ 1024) with (bpow radix2 (-10)). rewrite <- 2!bpow_plus. apply bpow_le. lia. }
  assert (U := bpow_gt_0 radix2 (-53)).
  assert (bpow radix2 (-53) * Rabs v <= bpow radix2 (-53) * M) by (apply Rmult_le_compat_l; lra).
  assert (bpow radix2 (-53) * / 1024 * bpow radix2 (-1000) <= bpow radix2 (-53) * / 1024 * M) by (apply Rmult_le_compat_l; lra).
  replace (rnd64 v - r) with ((rnd64 v - v) + (v - r)) by ring. eapply Rle_trans; [apply Rabs_triang|]. unfold du. lra.
Qed.
Lemma ap_add e1 e2 M x y r1 r2 : ap e1 x r1 -> ap e2 y r2 -> mid64 M -> Rabs (r1 + r2) + (e1 + e2) <= M -> ap (e1 + e2 + M * du) (fadd x y) (r1 + r2).
Proof.
  intros [Fx Ex] [Fy Ey] HM B. destruct dy_big as [D1 D2].
  assert (T : Rabs (B2R x + B2R y - (r1 + r2)) <= e1 + e2).
  { replace (B2R x + B2R y - (r1 + r2)) with ((B2R x - r1) + (B2R y - r2)) by ring. eapply Rle_trans; [apply Rabs_triang|]. lra. }
  destruct (ap_rnd _ M _ _ T B HM) as [R1 R2]. destruct (fadd_b _ _ x y D2 D1 Fx Fy R1) as (F & E & _). split; [exact F|]. rewrite E. exact R2.
Qed.
Lemma ap_sub e1 e2 M x y r1 r2 : ap e1 x r1 -> ap e2 y r2 -> mid64 M -> Rabs (r1 - r2) + (e1 + e2) <= M -> ap (e1 + e2 + M * du) (fsub x y) (r1 - r2).
Proof.
  intros [Fx Ex] [Fy Ey] HM B. destruct dy_big as [D1 D2].
  assert (T : Rabs (B2R x - B2R y - (r1 - r2)) <= e1 + e2).
  { replace (B2R x - B2R y - (r1 - r2)) with ((B2R x - r1) - (B2R y - r2)) by ring. eapply Rle_trans; [apply Rabs_triang|]. rewrite Rabs_Ropp. lra. }
  destruct (ap_rnd _ M _ _ T B HM) as [R1 R2]. destruct (fsub_b _ _ x y D2 D1 Fx Fy R1) as (F & E & _). split; [exact F|]. rewrite E. exact R2.
Qed.
Lemma mul_dev x y r1 r2 e1 e2 b1 b2 : Rabs (x - r1) <= e1 -> Rabs (y - r2) <= e2 -> Rabs r1 <= b1 -> Rabs r2 <= b2 -> Rabs (x * y - r1 * r2) <= e1 * b2 + b1 * e2 + e1 * e2.
Proof.
  intros E1 E2 B1 B2. replace (x * y - r1 * r2) with ((x - r1) * r2 + r1 * (y - r2) + (x - r1) * (y - r2)) by ring.
  assert (P : forall a b c d, Rabs a <= c -> Rabs b <= d -> Rabs (a * b) <= c * d) by (intros; rewrite Rabs_mult; apply Rmult_le_compat; auto using Rabs_pos).
  eapply Rle_trans; [apply Rabs_triang|]. apply Rplus_le_compat; [|now apply P]. eapply Rle_trans; [apply Rabs_triang|]. apply Rplus_le_compat; now apply P.
Qed.
Lemma ap_mul e1 e2 b1 b2 M x y r1 r2 : ap e1 x r1 -> ap e2 y r2 -> Rabs r1 <= b1 -> Rabs r2 <= b2 -> mid64 M -> b1 * b2 + (e1 * b2 + b1 * e2 + e1 * e2) <= M ->
  ap (e1 * b2 + b1 * e2 + e1 * e2 + M * du) (fmul x y) (r1 * r2).
Proof.
  intros [Fx Ex] [Fy Ey] B1 B2 HM B. destruct dy_big as [D1 D2]. pose proof (mul_dev _ _ _ _ _ _ _ _ Ex Ey B1 B2) as T.
  assert (Rabs (r1 * r2) <= b1 * b2) by (rewrite Rabs_mult; apply Rmult_le_compat; auto using Rabs_pos).
  destruct (ap_rnd _ M _ _ T ltac:(lra) HM) as [R1 R2]. destruct (fmul_b _ _ x y D2 D1 Fx Fy R1) as (F & E & _). split; [exact F|]. rewrite E. exact R2.
Qed.
Lemma ap_div e1 e2 b m M x y r1 r2 : ap e1 x r1 -> ap e2 y r2 -> Rabs (r1 / r2) <= b -> m + e2 <= Rabs r2 -> 0 < m -> mid64 M -> b + (e1 + b * e2) / m <= M ->
  ap ((e1 + b * e2) / m + M * du) (fdiv x y) (r1 / r2).
Proof.
  intros [Fx Ex] [Fy Ey] B1 B2 Hm HM B. destruct dy_big as [D1 D2].
  assert (E0 : 0 <= e2) by (pose proof (Rabs_pos (B2R y - r2)); lra).
  assert (Ym : m <= Rabs (B2R y)). { replace (B2R y) with (r2 + (B2R y - r2)) by ring. pose proof (Rabs_triang_inv r2 (- (B2R y - r2))) as T. rewrite Rabs_Ropp in T. replace (r2 - - (B2R y - r2)) with (r2 + (B2R y - r2)) in T by ring. lra. }
  assert (Y0 : B2R y <> 0) by (intros Z; rewrite Z, Rabs_R0 in Ym; lra).
  assert (R0 : r2 <> 0) by (intros Z; rewrite Z, Rabs_R0 in B2; lra).
  assert (T : Rabs (B2R x / B2R y - r1 / r2) <= (e1 + b * e2) / m).
  { replace (B2R x / B2R y - r1 / r2) with (((B2R x - r1) - (r1 / r2) * (B2R y - r2)) / B2R y) by (field; auto).
    unfold Rdiv at 1. rewrite Rabs_mult, Rabs_inv. assert (N : Rabs (B2R x - r1 - r1 / r2 * (B2R y - r2)) <= e1 + b * e2).
    { eapply Rle_trans; [apply Rabs_triang|]. rewrite Rabs_Ropp, Rabs_mult. apply Rplus_le_compat; [exact Ex|]. apply Rmult_le_compat; auto using Rabs_pos. }
    apply Rmult_le_compat; auto using Rabs_pos; [left; apply Rinv_0_lt_compat; lra|]. apply Rinv_le_contravar; lra. }
  destruct (ap_rnd _ M _ _ T ltac:(lra) HM) as [R1 R2]. destruct (fdiv_b _ _ x y D2 D1 Fx Fy Y0 R1) as (F & E & _). split; [exact F|]. rewrite E. exact R2.
Qed.

(** ** Conversions *)
Lemma fmt_f2d x : generic_format radix2 (SpecFloat.fexp 24 128) x -> generic_format radix2 (SpecFloat.fexp 53 1024) x.
Proof.
  apply generic_inclusion_mag. intros _. unfold SpecFloat.fexp, SpecFloat.emin. lia.
Qed.
Lemma f2d_R (x : f32) : fin x -> fin (f2d x) /\ B2R (f2d x) = B2R x.
Proof.
  intros F. destruct x as [s|s| |s m e H]; try discriminate F; [split; reflexivity|]. cbn [f2d fconv]. unfold fin. rewrite erase_correct.
  pose proof (binary_normalize_correct 53 1024 prec53 max1024 mode_NE (if s then Zneg m else Zpos m) e s) as C. cbn [round_mode] in C.
  assert (E : F2R (Float radix2 (if s then Zneg m else Zpos m) e) = B2R (B754_finite s m e H : f32)) by (destruct s; reflexivity).
  change 2%Z with (radix_val radix2) in C. rewrite E in C.
  assert (G : generic_format radix2 (SpecFloat.fexp 53 1024) (B2R (B754_finite s m e H : f32))) by apply fmt_f2d, fmt_B2R.
  change (round radix2 (SpecFloat.fexp 53 1024) ZnearestE) with rnd64 in C. rewrite (@rnd_fmt 53 1024 _ G) in C.
  rewrite Rlt_bool_true in C by (eapply Rlt_trans; [apply B2R_lt_emax|apply bpow_lt; lia]). destruct C as (A & B & _). split; assumption.
Qed.
Lemma f2d_nan (x : f32) : is_nan x = true -> is_nan (f2d x) = true.
Proof. destruct x; try discriminate. reflexivity. Qed.
Lemma d2f_R (x : f64) : fin x -> Rabs (@rnd 24 128 (B2R x)) < bpow radix2 128 -> fin (d2f x) /\ B2R (d2f x) = @rnd 24 128 (B2R x).
Proof.
  intros F B. destruct x as [s|s| |s m e H]; try discriminate F; [split; [reflexivity|]; cbn [B2R]; now rewrite rnd_0|]. cbn [d2f fconv]. unfold fin. rewrite erase_correct.
  pose proof (binary_normalize_correct 24 128 prec24 max128 mode_NE (if s then Zneg m else Zpos m) e s) as C. cbn [round_mode] in C.
  assert (E : F2R (Float radix2 (if s then Zneg m else Zpos m) e) = B2R (B754_finite s m e H : f64)) by (destruct s; reflexivity).
  change 2%Z with (radix_val radix2) in C. rewrite E in C. change (round radix2 (SpecFloat.fexp 24 128) ZnearestE) with (@rnd 24 128) in C.
  rewrite Rlt_bool_true in C by exact B. destruct C as (A & D & _). split; assumption.
Qed.
Lemma d2f_b l h (x : f64) : fin x -> dy32 l -> dy32 h -> l <= B2R x <= h -> fin (d2f x) /\ B2R (d2f x) = @rnd 24 128 (B2R x) /\ l <= B2R (d2f x) <= h.
Proof.
  intros F Dl Dh B. destruct (dy_rnd_bnd l h (B2R x) Dl Dh B) as [A C]. destruct (d2f_R x F A) as [G E]. rewrite E. auto.
Qed.
