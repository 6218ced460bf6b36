(** Float arithmetic patterns that recur in the unit generators. *)
From Coq Require Import ZArith Reals Lra Lia Bool Psatz.
From Flocq Require Import Core BinarySingleNaN Relative Sterbenz.
From Verif Require Import Flt FltFacts FltMore FltKey.
Local Open Scope R_scope.

Section Arith.
  Context {prec emax : Z} {Hp : Prec_gt_0 prec} {Hm : Prec_lt_emax prec emax}.
  Local Notation F := (binary_float prec emax).
  Local Notation fexp := (SpecFloat.fexp prec emax).
  Local Notation emin := (SpecFloat.emin prec emax).
  Local Notation rnd := (@rnd prec emax).
  #[local] Instance vexp2 : Valid_exp fexp.
  Proof. apply fexp_correct. exact Hp. Qed.

  Lemma rnd_rel x : Rabs (rnd x - x) <= bpow radix2 (- prec) * Rabs x + bpow radix2 (emin - 1).
  Proof.
    destruct (error_N_FLT radix2 emin prec Hp (fun t => negb (Z.even t)) x) as (eps & eta & He & Ht & _ & E).
    unfold rnd, FltFacts.rnd. change fexp with (FLT_exp emin prec). rewrite E.
    replace (x * (1 + eps) + eta - x) with (eps * x + eta) by ring.
    eapply Rle_trans; [apply Rabs_triang|]. rewrite Rabs_mult. apply Rplus_le_compat.
    - apply Rmult_le_compat_r; [apply Rabs_pos|]. eapply Rle_trans; [exact He|]; unfold u_ro.
      replace (bpow radix2 (- prec)) with (bpow radix2 (-1 + (- prec + 1))) by (f_equal; lia). set (z := (- prec + 1)%Z). rewrite bpow_plus. change (bpow radix2 (-1)) with (/ 2). lra.
    - eapply Rle_trans; [exact Ht|]. replace (emin - 1)%Z with (-1 + emin)%Z by lia. rewrite bpow_plus. change (bpow radix2 (-1)) with (/ 2). lra.
  Qed.

  Lemma rnd_abs_le x m : dy (prec:=prec) (emax:=emax) m -> Rabs x <= m -> Rabs (rnd x) <= m.
  Proof. intros [G _] H. rewrite rnd_abs. rewrite <- (rnd_fmt m G). now apply rnd_le. Qed.

  (** a + t * (b - a) *)
  Lemma lerp_abs k (a b t : F) : (1 < prec)%Z -> (emin <= k - prec)%Z -> (k + 1 < emax)%Z ->
    fin a -> fin b -> fin t -> 0 <= B2R t <= 1 ->
    Rabs (B2R a) <= bpow radix2 k -> Rabs (B2R b) <= bpow radix2 k ->
    fin (fadd a (fmul t (fsub b a))) /\ Rabs (B2R (fadd a (fmul t (fsub b a)))) <= bpow radix2 k.
  Proof.
    intros P1 Hk Hke Fa Fb Ft Ht Ha Hb.
    set (m := bpow radix2 k) in *. set (e := bpow radix2 (k - prec)).
    assert (Em : bpow radix2 (k + 1) = 2 * m) by (unfold m; rewrite bpow_plus; change (bpow radix2 1) with 2; ring).
    assert (Hm0 : 0 < m) by apply bpow_gt_0.
    assert (Dm : dy (prec:=prec) (emax:=emax) m) by (apply dy_bpow; lia).
    assert (D2 : dy (prec:=prec) (emax:=emax) (2 * m)) by (rewrite <- Em; apply dy_bpow; lia).
    apply Rabs_le_inv in Ha. apply Rabs_le_inv in Hb.
    destruct (fsub_b (- (2 * m)) (2 * m) b a (dy_opp _ D2) D2 Fb Fa ltac:(lra)) as (Fd & Ed & Bd).
    set (d := fsub b a) in *.
    assert (Err : Rabs (B2R d - (B2R b - B2R a)) <= e).
    { rewrite Ed. unfold e. replace (k - prec)%Z with (k + 1 - prec - 1)%Z by lia. apply rnd_err_le; [lia|].
      rewrite Em. apply Rabs_le. lra. }
    apply Rabs_le_inv in Err.
    assert (Dd : dy (prec:=prec) (emax:=emax) (B2R d)) by apply dy_B2R.
    assert (D0 : dy (prec:=prec) (emax:=emax) 0) by apply dy_0.
    assert (Fin_r : forall r, Rabs r <= m + e -> Rabs (rnd r) <= m).
    { intros r Hr. apply rnd_tie_pow_abs; assumption. }
    destruct (Rle_lt_dec (B2R a) (B2R b)) as [C|C].
    - assert (0 <= B2R d) by (rewrite Ed; apply rnd_nonneg; lra).
      destruct (fmul_b 0 (B2R d) t d D0 Dd Ft Fd ltac:(split; nra)) as (Fp & _ & Bp).
      assert (Rb : Rabs (B2R a + B2R (fmul t d)) <= m + e).
      { assert (0 < e) by apply bpow_gt_0. apply Rabs_le. lra. }
      assert (Lt : Rabs (rnd (B2R a + B2R (fmul t d))) < bpow radix2 emax).
      { eapply Rle_lt_trans; [apply Fin_r, Rb|]. apply bpow_lt. lia. }
      destruct (fadd_ok a (fmul t d) Fa Fp Lt) as [A ->]. split; [exact A|]. now apply Fin_r.
    - assert (B2R d <= 0) by (rewrite Ed; apply rnd_nonpos; lra).
      destruct (fmul_b (B2R d) 0 t d Dd D0 Ft Fd ltac:(split; nra)) as (Fp & _ & Bp).
      assert (Rb : Rabs (B2R a + B2R (fmul t d)) <= m + e).
      { assert (0 < e) by apply bpow_gt_0. apply Rabs_le. lra. }
      assert (Lt : Rabs (rnd (B2R a + B2R (fmul t d))) < bpow radix2 emax).
      { eapply Rle_lt_trans; [apply Fin_r, Rb|]. apply bpow_lt. lia. }
      destruct (fadd_ok a (fmul t d) Fa Fp Lt) as [A ->]. split; [exact A|]. now apply Fin_r.
  Qed.

  (** Scaling a float by a power of two >= 1 is exact. *)
  Lemma fmt_scale k (c : F) : (0 <= k)%Z -> generic_format radix2 fexp (B2R c * bpow radix2 k).
  Proof.
    intros Hk. pose proof (fmt_B2R c) as G. apply FLT_format_generic in G; [|exact Hp].
    destruct G as [[n e] E Hn He]. cbn [Defs.Fnum Defs.Fexp] in *.
    rewrite E. unfold F2R. cbn [Defs.Fnum Defs.Fexp]. rewrite Rmult_assoc, <- bpow_plus.
    apply dy_F2R; [exact Hn|lia].
  Qed.

  (** c * y + (1 - c) * x and the same with the products exchanged stay in
      [-2^k, 2^k]; [q] is any float with c + q <= 1 + 2^-prec. *)
  Lemma mix_abs k (c q x y : F) : (1 < prec)%Z -> (0 <= k)%Z -> (k + 1 < emax)%Z -> (emin <= - prec)%Z ->
    fin c -> fin q -> fin x -> fin y -> 0 <= B2R c -> 0 <= B2R q ->
    B2R c + B2R q <= 1 + bpow radix2 (- prec) ->
    Rabs (B2R x) <= bpow radix2 k -> Rabs (B2R y) <= bpow radix2 k ->
    fin (fadd (fmul c y) (fmul q x)) /\ Rabs (B2R (fadd (fmul c y) (fmul q x))) <= bpow radix2 k.
  Proof.
    intros P1 Hk Hke Hem Fc Fq Fx Fy Hc Hq Hcq Hx Hy.
    set (m := bpow radix2 k) in *.
    assert (Hm0 : 0 < m) by apply bpow_gt_0.
    assert (Hpr : 0 < bpow radix2 (- prec) < 1).
    { split; [apply bpow_gt_0|]. change 1 with (bpow radix2 0). apply bpow_lt. lia. }
    assert (Em : bpow radix2 (k + 1) = 2 * m) by (unfold m; rewrite bpow_plus; change (bpow radix2 1) with 2; ring).
    assert (Bnd : forall z : F, 0 <= B2R z -> B2R z <= 1 + bpow radix2 (- prec) -> dy (prec:=prec) (emax:=emax) (B2R z * m)).
    { intros z Z0 Z1. split; [now apply fmt_scale|]. rewrite Rabs_pos_eq by nra.
      apply Rlt_trans with (bpow radix2 (k + 1)); [rewrite Em; nra|apply bpow_lt; lia]. }
    apply Rabs_le_inv in Hx. apply Rabs_le_inv in Hy.
    pose proof (Bnd c Hc ltac:(lra)) as Dc. pose proof (Bnd q Hq ltac:(lra)) as Dq.
    destruct (fmul_b _ _ c y (dy_opp _ Dc) Dc Fc Fy ltac:(split; nra)) as (F1 & _ & B1).
    destruct (fmul_b _ _ q x (dy_opp _ Dq) Dq Fq Fx ltac:(split; nra)) as (F2 & _ & B2).
    assert (Rb : Rabs (B2R (fmul c y) + B2R (fmul q x)) <= m + bpow radix2 (k - prec)).
    { replace (k - prec)%Z with (k + - prec)%Z by lia. rewrite bpow_plus. fold m. apply Rabs_le. nra. }
    assert (Fr : Rabs (rnd (B2R (fmul c y) + B2R (fmul q x))) <= m) by (apply rnd_tie_pow_abs; [exact P1|lia|exact Rb]).
    assert (Lt : Rabs (rnd (B2R (fmul c y) + B2R (fmul q x))) < bpow radix2 emax).
    { eapply Rle_lt_trans; [exact Fr|]. apply bpow_lt. lia. }
    destruct (fadd_ok _ _ F1 F2 Lt) as [A ->]. auto.
  Qed.

  Lemma one_minus (c : F) (one : F) : fin c -> fin one -> B2R one = 1 -> 0 <= B2R c <= 1 -> (1 < prec)%Z -> (1 < emax)%Z ->
    (emin <= - prec)%Z ->
    fin (fsub one c) /\ 0 <= B2R (fsub one c) <= 1 /\ B2R c + B2R (fsub one c) <= 1 + bpow radix2 (- prec).
  Proof.
    intros Fc Fo Eo Hc P1 He Hem.
    assert (D1 : dy (prec:=prec) (emax:=emax) 1) by (change 1 with (bpow radix2 0); apply dy_bpow; lia).
    destruct (fsub_b 0 1 one c dy_0 D1 Fo Fc ltac:(lra)) as (A & B & C).
    split; [exact A|]. split; [exact C|].
    assert (Er : Rabs (rnd (B2R one - B2R c) - (B2R one - B2R c)) <= bpow radix2 (0 - prec - 1)).
    { apply rnd_err_le; [lia|]. change (bpow radix2 0) with 1. apply Rabs_le. lra. }
    rewrite <- B in Er. apply Rabs_le_inv in Er.
    assert (bpow radix2 (0 - prec - 1) <= bpow radix2 (- prec)) by (apply bpow_le; lia). lra.
  Qed.

  (** ** Multiplying a positive normal number by a factor below one strictly decreases it. *)
  Lemma rnd_mul_lt (c v : F) : (1 < prec)%Z -> 0 <= B2R c < 1 -> bpow radix2 (emin + prec) <= B2R v ->
    (emin <= - prec)%Z ->
    rnd (B2R c * B2R v) < B2R v.
  Proof.
    intros P1 Hc Hv Hem.
    set (x := B2R v) in *.
    assert (Hx0 : 0 < x) by (eapply Rlt_le_trans; [apply bpow_gt_0|exact Hv]).
    assert (Gx : generic_format radix2 fexp x) by apply fmt_B2R.
    assert (G1 : generic_format radix2 fexp 1) by (change 1 with (bpow radix2 0); apply fmt_bpow; lia).
    (* c <= 1 - 2^-prec *)
    assert (Hc1 : B2R c <= 1 - bpow radix2 (- prec)).
    { pose proof (pred_ge_gt radix2 fexp _ 1 (fmt_B2R c) G1 (proj2 Hc)) as H.
      eapply Rle_trans; [exact H|]. change 1 with (bpow radix2 0) at 1. rewrite pred_bpow.
      replace (fexp 0) with (- prec)%Z by (unfold SpecFloat.fexp; lia). change (bpow radix2 0) with 1. lra. }
    apply Rle_lt_trans with (pred radix2 fexp x).
    2:{ apply pred_lt_id. lra. }
    set (e := (mag radix2 x : Z)).
    assert (He : bpow radix2 (e - 1) <= x < bpow radix2 e).
    { unfold e. clear e. destruct (mag radix2 x) as [e' H']. cbn [mag_val]. specialize (H' ltac:(lra)). rewrite Rabs_pos_eq in H' by lra. exact H'. }
    assert (Hel : (emin + prec < e)%Z).
    { apply (lt_bpow radix2). lra. }
    assert (Hcx : B2R c * x <= x - bpow radix2 (- prec) * x) by nra.
    destruct (Req_dec x (bpow radix2 (e - 1))) as [E|NE].
    - (* power of two: the predecessor is at least c*x *)
      assert (Ep : pred radix2 fexp x = x - bpow radix2 (e - 1 - prec)).
      { rewrite E, pred_bpow. f_equal. f_equal. unfold SpecFloat.fexp. lia. }
      rewrite <- (rnd_fmt (pred radix2 fexp x)) by (apply generic_format_pred; [apply vexp2|exact Gx]).
      apply rnd_le. rewrite Ep. eapply Rle_trans; [exact Hcx|].
      replace (e - 1 - prec)%Z with (- prec + (e - 1))%Z by lia. rewrite bpow_plus, <- E. lra.
    - assert (Hlt : bpow radix2 (e - 1) < x) by (destruct (proj1 He); [assumption|congruence]).
      assert (Ep : pred radix2 fexp x = x - bpow radix2 (e - prec)).
      { rewrite pred_eq_pos by lra. unfold pred_pos. fold e.
        rewrite Req_bool_false by exact NE.
        rewrite ulp_neq_0 by lra. unfold cexp. fold e. f_equal. f_equal. unfold SpecFloat.fexp. lia. }
      apply round_N_le_midp; [apply vexp2|apply generic_format_pred; [apply vexp2|exact Gx]|].
      rewrite succ_pred by (apply vexp2 || exact Gx). rewrite Ep.
      apply Rle_lt_trans with (x - bpow radix2 (- prec) * x); [exact Hcx|].
      assert (Eb : bpow radix2 (e - prec) = bpow radix2 (- prec) * bpow radix2 (e - 1) * 2).
      { change 2 with (bpow radix2 1). rewrite <- !bpow_plus. f_equal. lia. }
      rewrite Eb. pose proof (bpow_gt_0 radix2 (- prec)). nra.
  Qed.
End Arith.
