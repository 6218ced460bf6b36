(** Comparison and monotonicity including infinities: [key] maps every
    non-NaN float to a real so that the float order is the real order. *)
From Coq Require Import ZArith Reals Lra Lia Bool.
From Flocq Require Import Core BinarySingleNaN.
From Verif Require Import Flt FltFacts FltMore.
Local Open Scope R_scope.

Section Key.
  Context {prec emax : Z} {Hp : Prec_gt_0 prec} {Hm : Prec_lt_emax prec emax}.
  Local Notation F := (binary_float prec emax).
  Local Notation fexp := (SpecFloat.fexp prec emax).
  Local Notation rnd := (@rnd prec emax).
  Local Notation M := (bpow radix2 emax).

  Definition key (x : F) : R :=
    match x with B754_infinity s => if s then - M else M | _ => B2R x end.

  Lemma Mpos : 0 < M. Proof. apply bpow_gt_0. Qed.
  Lemma key_fin (x : F) : fin x -> key x = B2R x.
  Proof. destruct x; try discriminate; reflexivity. Qed.
  Lemma key_bnd (x : F) : - M <= key x <= M.
  Proof.
    pose proof Mpos. destruct x as [s|s| |s m e B] eqn:E; cbn [key].
    - cbn. lra.
    - destruct s; lra.
    - cbn. lra.
    - pose proof (B2R_lt_emax (B754_finite s m e B)) as H1. apply Rabs_def2 in H1. lra.
  Qed.
  Lemma nan_cases (x : F) : is_nan x = false -> fin x \/ exists s, x = B754_infinity s.
  Proof. destruct x; try discriminate; eauto; left; reflexivity. Qed.
  Lemma fin_nan (x : F) : fin x -> is_nan x = false.
  Proof. destruct x; try discriminate; reflexivity. Qed.

  Lemma fle_key (x y : F) : is_nan x = false -> is_nan y = false ->
    fle x y = Rle_bool (key x) (key y).
  Proof.
    intros Nx Ny. pose proof Mpos as HM.
    destruct (nan_cases x Nx) as [Fx|[sx ->]]; destruct (nan_cases y Ny) as [Fy|[sy ->]].
    - rewrite !key_fin by assumption. now apply Bleb_correct.
    - pose proof (B2R_lt_emax x) as H. apply Rabs_def2 in H. rewrite (key_fin x Fx). cbn [key].
      destruct sy; [rewrite Rle_bool_false by lra|rewrite Rle_bool_true by lra];
      destruct x; try discriminate; cbn; try reflexivity; destruct s; reflexivity.
    - pose proof (B2R_lt_emax y) as H. apply Rabs_def2 in H. rewrite (key_fin y Fy). cbn [key].
      destruct sx; [rewrite Rle_bool_true by lra|rewrite Rle_bool_false by lra];
      destruct y; try discriminate; cbn; try reflexivity; destruct s; reflexivity.
    - cbn [key]. destruct sx, sy; cbn; (rewrite Rle_bool_true by lra) || (rewrite Rle_bool_false by lra); reflexivity.
  Qed.
  Lemma flt_key (x y : F) : is_nan x = false -> is_nan y = false ->
    flt x y = Rlt_bool (key x) (key y).
  Proof.
    intros Nx Ny. pose proof Mpos as HM.
    destruct (nan_cases x Nx) as [Fx|[sx ->]]; destruct (nan_cases y Ny) as [Fy|[sy ->]].
    - rewrite !key_fin by assumption. now apply Bltb_correct.
    - pose proof (B2R_lt_emax x) as H. apply Rabs_def2 in H. rewrite (key_fin x Fx). cbn [key].
      destruct sy; [rewrite Rlt_bool_false by lra|rewrite Rlt_bool_true by lra];
      destruct x; try discriminate; cbn; try reflexivity; destruct s; reflexivity.
    - pose proof (B2R_lt_emax y) as H. apply Rabs_def2 in H. rewrite (key_fin y Fy). cbn [key].
      destruct sx; [rewrite Rlt_bool_true by lra|rewrite Rlt_bool_false by lra];
      destruct y; try discriminate; cbn; try reflexivity; destruct s; reflexivity.
    - cbn [key]. destruct sx, sy; cbn; (rewrite Rlt_bool_true by lra) || (rewrite Rlt_bool_false by lra); reflexivity.
  Qed.
  Lemma fle_true (x y : F) : is_nan x = false -> is_nan y = false -> (fle x y = true <-> key x <= key y).
  Proof.
    intros. rewrite fle_key by assumption. split; intros H1.
    - destruct (Rle_bool_spec (key x) (key y)); [assumption|discriminate].
    - now apply Rle_bool_true.
  Qed.
  Lemma flt_true (x y : F) : is_nan x = false -> is_nan y = false -> (flt x y = true <-> key x < key y).
  Proof.
    intros. rewrite flt_key by assumption. split; intros H1.
    - destruct (Rlt_bool_spec (key x) (key y)); [assumption|discriminate].
    - now apply Rlt_bool_true.
  Qed.
  Lemma flt_nan (x y : F) : flt x y = true -> is_nan x = false /\ is_nan y = false.
  Proof. destruct x as [[]|[]| |[]], y as [[]|[]| |[]]; cbn; intros H; try discriminate H; auto. Qed.
  Lemma fle_nan (x y : F) : fle x y = true -> is_nan x = false /\ is_nan y = false.
  Proof. destruct x as [[]|[]| |[]], y as [[]|[]| |[]]; cbn; intros H; try discriminate H; auto. Qed.
  Lemma fin_key_lt (x : F) : is_nan x = false -> Rabs (key x) < M -> fin x.
  Proof.
    intros N H. destruct (nan_cases x N) as [F|[s ->]]; [exact F|]. pose proof Mpos.
    cbn [key] in H. destruct s; [rewrite Rabs_Ropp in H|]; rewrite Rabs_pos_eq in H; lra.
  Qed.

  (** Saturation at the overflow threshold. *)
  Definition sat (r : R) : R := Rmax (- M) (Rmin M r).
  Lemma sat_le a b : a <= b -> sat a <= sat b.
  Proof. intros. unfold sat, Rmax, Rmin. repeat destruct Rle_dec; lra. Qed.
  Lemma sat_in r : Rabs r < M -> sat r = r.
  Proof. intros H. apply Rabs_def2 in H. unfold sat, Rmax, Rmin. repeat destruct Rle_dec; lra. Qed.
  Lemma sat_hi r : M <= r -> sat r = M.
  Proof. intros H. pose proof Mpos. unfold sat, Rmax, Rmin. repeat destruct Rle_dec; lra. Qed.
  Lemma sat_lo r : r <= - M -> sat r = - M.
  Proof. intros H. pose proof Mpos. unfold sat, Rmax, Rmin. repeat destruct Rle_dec; lra. Qed.

  Lemma overflow_SF s : binary_overflow prec emax mode_NE s = SpecFloat.S754_infinity s.
  Proof. reflexivity. Qed.

  Lemma of_inf (x : F) s : B2SF x = SpecFloat.S754_infinity s -> x = B754_infinity s.
  Proof. destruct x; cbn; intros H; try discriminate H. now injection H as ->. Qed.

  (** Sign of a rounded value beyond the threshold. *)
  Lemma rnd_big_pos r : M <= Rabs (rnd r) -> 0 <= r -> M <= rnd r.
  Proof. intros H P. rewrite Rabs_pos_eq in H; [exact H|now apply rnd_nonneg]. Qed.
  Lemma rnd_big_neg r : M <= Rabs (rnd r) -> r <= 0 -> rnd r <= - M.
  Proof. intros H P. rewrite Rabs_left1 in H; [lra|now apply rnd_nonpos]. Qed.

  Lemma Bsign_neg_R (x : F) : fin x -> Bsign x = true -> B2R x <= 0.
  Proof.
    destruct x as [s|s| |s m e B]; try discriminate; cbn; intros _ H; [lra|].
    subst s. apply F2R_le_0. cbn. lia.
  Qed.
  Lemma Bsign_pos_R (x : F) : fin x -> Bsign x = false -> 0 <= B2R x.
  Proof.
    destruct x as [s|s| |s m e B]; try discriminate; cbn; intros _ H; [lra|].
    subst s. apply F2R_ge_0. cbn. lia.
  Qed.

  Lemma fadd_key (x y : F) : fin x -> fin y ->
    is_nan (fadd x y) = false /\ key (fadd x y) = sat (rnd (B2R x + B2R y)).
  Proof.
    intros Fx Fy. destruct (Rlt_le_dec (Rabs (rnd (B2R x + B2R y))) M) as [L|L].
    - destruct (fadd_ok x y Fx Fy L) as [A B]. rewrite sat_in by exact L.
      split; [now apply fin_nan|]. now rewrite key_fin.
    - pose proof (Bplus_correct _ _ _ _ mode_NE x y Fx Fy) as C.
      cbn [round_mode] in C. change (round radix2 fexp ZnearestE) with rnd in C.
      rewrite Rlt_bool_false in C by exact L. destruct C as [C S].
      rewrite overflow_SF in C. apply of_inf in C.
      unfold fadd. rewrite erase_correct, C. split; [reflexivity|]. cbn [key].
      destruct (Bsign x) eqn:Sx.
      + rewrite sat_lo; [reflexivity|]. apply rnd_big_neg; [exact L|].
        pose proof (Bsign_neg_R x Fx Sx). symmetry in S. pose proof (Bsign_neg_R y Fy S). lra.
      + rewrite sat_hi; [reflexivity|]. apply rnd_big_pos; [exact L|].
        pose proof (Bsign_pos_R x Fx Sx). symmetry in S. pose proof (Bsign_pos_R y Fy S). lra.
  Qed.
  Lemma fsub_key (x y : F) : fin x -> fin y ->
    is_nan (fsub x y) = false /\ key (fsub x y) = sat (rnd (B2R x - B2R y)).
  Proof.
    intros Fx Fy. destruct (Rlt_le_dec (Rabs (rnd (B2R x - B2R y))) M) as [L|L].
    - destruct (fsub_ok x y Fx Fy L) as [A B]. rewrite sat_in by exact L.
      split; [now apply fin_nan|]. now rewrite key_fin.
    - pose proof (Bminus_correct _ _ _ _ mode_NE x y Fx Fy) as C.
      cbn [round_mode] in C. change (round radix2 fexp ZnearestE) with rnd in C.
      rewrite Rlt_bool_false in C by exact L. destruct C as [C S].
      rewrite overflow_SF in C. apply of_inf in C.
      unfold fsub. rewrite erase_correct, C. split; [reflexivity|]. cbn [key].
      destruct (Bsign x) eqn:Sx.
      + rewrite sat_lo; [reflexivity|]. apply rnd_big_neg; [exact L|].
        pose proof (Bsign_neg_R x Fx Sx). symmetry in S. apply negb_true_iff in S. pose proof (Bsign_pos_R y Fy S). lra.
      + rewrite sat_hi; [reflexivity|]. apply rnd_big_pos; [exact L|].
        pose proof (Bsign_pos_R x Fx Sx). symmetry in S. apply negb_false_iff in S. pose proof (Bsign_neg_R y Fy S). lra.
  Qed.
  Lemma fmul_key (x y : F) : fin x -> fin y ->
    is_nan (fmul x y) = false /\ key (fmul x y) = sat (rnd (B2R x * B2R y)).
  Proof.
    intros Fx Fy. destruct (Rlt_le_dec (Rabs (rnd (B2R x * B2R y))) M) as [L|L].
    - destruct (fmul_ok x y Fx Fy L) as [A B]. rewrite sat_in by exact L.
      split; [now apply fin_nan|]. now rewrite key_fin.
    - pose proof (Bmult_correct _ _ _ _ mode_NE x y) as C.
      cbn [round_mode] in C. change (round radix2 fexp ZnearestE) with rnd in C.
      rewrite Rlt_bool_false in C by exact L.
      rewrite overflow_SF in C. apply of_inf in C.
      unfold fmul. rewrite erase_correct, C. split; [reflexivity|]. cbn [key].
      destruct (Bsign x) eqn:Sx; destruct (Bsign y) eqn:Sy; cbn [xorb];
        [pose proof (Bsign_neg_R x Fx Sx); pose proof (Bsign_neg_R y Fy Sy)
        |pose proof (Bsign_neg_R x Fx Sx); pose proof (Bsign_pos_R y Fy Sy)
        |pose proof (Bsign_pos_R x Fx Sx); pose proof (Bsign_neg_R y Fy Sy)
        |pose proof (Bsign_pos_R x Fx Sx); pose proof (Bsign_pos_R y Fy Sy)].
      + rewrite sat_hi; [reflexivity|]. apply rnd_big_pos; [exact L|]. nra.
      + rewrite sat_lo; [reflexivity|]. apply rnd_big_neg; [exact L|]. nra.
      + rewrite sat_lo; [reflexivity|]. apply rnd_big_neg; [exact L|]. nra.
      + rewrite sat_hi; [reflexivity|]. apply rnd_big_pos; [exact L|]. nra.
  Qed.
  Lemma fdiv_key (x y : F) : fin x -> fin y -> B2R y <> 0 ->
    is_nan (fdiv x y) = false /\ key (fdiv x y) = sat (rnd (B2R x / B2R y)).
  Proof.
    intros Fx Fy Hy. destruct (Rlt_le_dec (Rabs (rnd (B2R x / B2R y))) M) as [L|L].
    - destruct (fdiv_ok x y Fx Fy Hy L) as [A B]. rewrite sat_in by exact L.
      split; [now apply fin_nan|]. now rewrite key_fin.
    - pose proof (Bdiv_correct _ _ _ _ mode_NE x y Hy) as C.
      cbn [round_mode] in C. change (round radix2 fexp ZnearestE) with rnd in C.
      rewrite Rlt_bool_false in C by exact L.
      rewrite overflow_SF in C. apply of_inf in C.
      unfold fdiv. rewrite erase_correct, C. split; [reflexivity|]. cbn [key].
      assert (HI : 0 <= B2R y -> 0 <= / B2R y) by (intros; left; apply Rinv_0_lt_compat; lra).
      assert (HJ : B2R y <= 0 -> / B2R y <= 0) by (intros; left; apply Rinv_lt_0_compat; lra).
      unfold Rdiv in *.
      destruct (Bsign x) eqn:Sx; destruct (Bsign y) eqn:Sy; cbn [xorb];
        [pose proof (Bsign_neg_R x Fx Sx); pose proof (HJ (Bsign_neg_R y Fy Sy))
        |pose proof (Bsign_neg_R x Fx Sx); pose proof (HI (Bsign_pos_R y Fy Sy))
        |pose proof (Bsign_pos_R x Fx Sx); pose proof (HJ (Bsign_neg_R y Fy Sy))
        |pose proof (Bsign_pos_R x Fx Sx); pose proof (HI (Bsign_pos_R y Fy Sy))].
      + rewrite sat_hi; [reflexivity|]. apply rnd_big_pos; [exact L|]. nra.
      + rewrite sat_lo; [reflexivity|]. apply rnd_big_neg; [exact L|]. nra.
      + rewrite sat_lo; [reflexivity|]. apply rnd_big_neg; [exact L|]. nra.
      + rewrite sat_hi; [reflexivity|]. apply rnd_big_pos; [exact L|]. nra.
  Qed.

  (** Monotonicity, infinities included. *)
  Lemma fadd_mono_r (a x y : F) : fin a -> fle x y = true -> fle (fadd a x) (fadd a y) = true.
  Proof.
    intros Fa H. destruct (fle_nan _ _ H) as [Nx Ny]. apply fle_true in H; [|assumption..].
    assert (E : forall s, fadd a (B754_infinity s) = B754_infinity s).
    { intros s. unfold fadd. rewrite erase_correct. destruct a; try discriminate; reflexivity. }
    assert (K : forall z : F, is_nan z = false -> is_nan (fadd a z) = false /\
       (fin z -> key (fadd a z) = sat (rnd (B2R a + B2R z)))).
    { intros z Nz. destruct (nan_cases z Nz) as [Fz|[s ->]].
      - destruct (fadd_key a z Fa Fz) as [A B]. auto.
      - rewrite E. split; [reflexivity|discriminate]. }
    destruct (K x Nx) as [N1 K1], (K y Ny) as [N2 K2]. apply fle_true; [assumption..|].
    destruct (nan_cases x Nx) as [Fx|[s ->]]; destruct (nan_cases y Ny) as [Fy|[s' ->]].
    - rewrite K1, K2 by assumption. apply sat_le, rnd_le. rewrite !key_fin in H by assumption. lra.
    - rewrite E in *. destruct s'; [|apply key_bnd]. exfalso. cbn [key] in H.
      rewrite key_fin in H by assumption. pose proof (B2R_lt_emax x) as Z. apply Rabs_def2 in Z. lra.
    - rewrite E in *. destruct s; [apply key_bnd|]. exfalso. cbn [key] in H.
      rewrite key_fin in H by assumption. pose proof (B2R_lt_emax y) as Z. apply Rabs_def2 in Z. lra.
    - rewrite !E. exact H.
  Qed.
  Lemma fsub_mono_l (a x y : F) : fin a -> fle x y = true -> fle (fsub x a) (fsub y a) = true.
  Proof.
    intros Fa H. destruct (fle_nan _ _ H) as [Nx Ny]. apply fle_true in H; [|assumption..].
    assert (E : forall s, fsub (B754_infinity s) a = B754_infinity s).
    { intros s. unfold fsub. rewrite erase_correct. destruct a; try discriminate; reflexivity. }
    assert (K : forall z : F, is_nan z = false -> is_nan (fsub z a) = false /\
       (fin z -> key (fsub z a) = sat (rnd (B2R z - B2R a)))).
    { intros z Nz. destruct (nan_cases z Nz) as [Fz|[s ->]].
      - destruct (fsub_key z a Fz Fa) as [A B]. auto.
      - rewrite E. split; [reflexivity|discriminate]. }
    destruct (K x Nx) as [N1 K1], (K y Ny) as [N2 K2]. apply fle_true; [assumption..|].
    destruct (nan_cases x Nx) as [Fx|[s ->]]; destruct (nan_cases y Ny) as [Fy|[s' ->]].
    - rewrite K1, K2 by assumption. apply sat_le, rnd_le. rewrite !key_fin in H by assumption. lra.
    - rewrite E in *. destruct s'; [|apply key_bnd]. exfalso. cbn [key] in H.
      rewrite key_fin in H by assumption. pose proof (B2R_lt_emax x) as Z. apply Rabs_def2 in Z. lra.
    - rewrite E in *. destruct s; [apply key_bnd|]. exfalso. cbn [key] in H.
      rewrite key_fin in H by assumption. pose proof (B2R_lt_emax y) as Z. apply Rabs_def2 in Z. lra.
    - rewrite !E. exact H.
  Qed.
  Lemma pos_sign (a : F) : fin a -> 0 < B2R a -> Bsign a = false.
  Proof.
    intros F0 P. destruct (Bsign a) eqn:S; [|reflexivity]. pose proof (Bsign_neg_R a F0 S). lra.
  Qed.
  Lemma fmul_mono_l (a x y : F) : fin a -> 0 < B2R a -> fle x y = true -> fle (fmul x a) (fmul y a) = true.
  Proof.
    intros Fa Pa H. destruct (fle_nan _ _ H) as [Nx Ny]. apply fle_true in H; [|assumption..].
    pose proof (pos_sign a Fa Pa) as Sa.
    assert (E : forall s, fmul (B754_infinity s) a = B754_infinity s).
    { intros s. unfold fmul. rewrite erase_correct. destruct a; try discriminate; cbn in Sa, Pa |- *; [lra|subst]. now rewrite xorb_false_r. }
    assert (K : forall z : F, is_nan z = false -> is_nan (fmul z a) = false /\
       (fin z -> key (fmul z a) = sat (rnd (B2R z * B2R a)))).
    { intros z Nz. destruct (nan_cases z Nz) as [Fz|[s ->]].
      - destruct (fmul_key z a Fz Fa) as [A B]. auto.
      - rewrite E. split; [reflexivity|discriminate]. }
    destruct (K x Nx) as [N1 K1], (K y Ny) as [N2 K2]. apply fle_true; [assumption..|].
    destruct (nan_cases x Nx) as [Fx|[s ->]]; destruct (nan_cases y Ny) as [Fy|[s' ->]].
    - rewrite K1, K2 by assumption. apply sat_le, rnd_le. rewrite !key_fin in H by assumption. nra.
    - rewrite E in *. destruct s'; [|apply key_bnd]. exfalso. cbn [key] in H.
      rewrite key_fin in H by assumption. pose proof (B2R_lt_emax x) as Z. apply Rabs_def2 in Z. lra.
    - rewrite E in *. destruct s; [apply key_bnd|]. exfalso. cbn [key] in H.
      rewrite key_fin in H by assumption. pose proof (B2R_lt_emax y) as Z. apply Rabs_def2 in Z. lra.
    - rewrite !E. exact H.
  Qed.
  Lemma fdiv_mono_l (a x y : F) : fin a -> 0 < B2R a -> fle x y = true -> fle (fdiv x a) (fdiv y a) = true.
  Proof.
    intros Fa Pa H. destruct (fle_nan _ _ H) as [Nx Ny]. apply fle_true in H; [|assumption..].
    pose proof (pos_sign a Fa Pa) as Sa. assert (Na : B2R a <> 0) by lra.
    assert (E : forall s, fdiv (B754_infinity s) a = B754_infinity s).
    { intros s. unfold fdiv. rewrite erase_correct. destruct a; try discriminate; cbn in Sa, Pa |- *; [lra|subst]. now rewrite xorb_false_r. }
    assert (K : forall z : F, is_nan z = false -> is_nan (fdiv z a) = false /\
       (fin z -> key (fdiv z a) = sat (rnd (B2R z / B2R a)))).
    { intros z Nz. destruct (nan_cases z Nz) as [Fz|[s ->]].
      - destruct (fdiv_key z a Fz Fa Na) as [A B]. auto.
      - rewrite E. split; [reflexivity|discriminate]. }
    destruct (K x Nx) as [N1 K1], (K y Ny) as [N2 K2]. apply fle_true; [assumption..|].
    destruct (nan_cases x Nx) as [Fx|[s ->]]; destruct (nan_cases y Ny) as [Fy|[s' ->]].
    - rewrite K1, K2 by assumption. apply sat_le, rnd_le. rewrite !key_fin in H by assumption.
      apply Rmult_le_compat_r; [left; now apply Rinv_0_lt_compat|lra].
    - rewrite E in *. destruct s'; [|apply key_bnd]. exfalso. cbn [key] in H.
      rewrite key_fin in H by assumption. pose proof (B2R_lt_emax x) as Z. apply Rabs_def2 in Z. lra.
    - rewrite E in *. destruct s; [apply key_bnd|]. exfalso. cbn [key] in H.
      rewrite key_fin in H by assumption. pose proof (B2R_lt_emax y) as Z. apply Rabs_def2 in Z. lra.
    - rewrite !E. exact H.
  Qed.
End Key.
