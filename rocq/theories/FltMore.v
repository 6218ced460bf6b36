(** More facts about the floating-point operations: bounds given as real
    numbers, exactness of [fmod], rounding at powers of two, strict decrease
    under multiplication by a factor below one. *)
From Coq Require Import ZArith Reals Lra Lia Bool Psatz.
From Flocq Require Import Core BinarySingleNaN Relative Sterbenz.
From Verif Require Import Flt FltFacts.
Local Open Scope R_scope.

Section More.
  Context {prec emax : Z} {Hp : Prec_gt_0 prec} {Hm : Prec_lt_emax prec emax}.
  Local Notation F := (binary_float prec emax).
  Local Notation fexp := (SpecFloat.fexp prec emax).
  Local Notation rnd := (@rnd prec emax).

  #[local] Instance vexp' : Valid_exp fexp.
  Proof. apply fexp_correct. exact Hp. Qed.

  (** A representable real in range. *)
  Definition dy (r : R) : Prop := generic_format radix2 fexp r /\ Rabs r < bpow radix2 emax.

  Lemma dy_B2R (x : F) : dy (B2R x).
  Proof. split; [apply fmt_B2R|apply B2R_lt_emax]. Qed.
  Lemma dy_opp r : dy r -> dy (- r).
  Proof. intros [A B]. split; [now apply generic_format_opp|now rewrite Rabs_Ropp]. Qed.
  Lemma dy_IZR n : (Z.abs n <= 2 ^ prec)%Z -> dy (IZR n).
  Proof. intros H. split; [now apply fmt_IZR|now apply IZR_lt_emax]. Qed.
  Lemma dy_bpow k : (SpecFloat.emin prec emax <= k < emax)%Z -> dy (bpow radix2 k).
  Proof.
    intros H. split; [apply fmt_bpow; lia|].
    rewrite Rabs_pos_eq by apply bpow_ge_0. apply bpow_lt. lia.
  Qed.
  Lemma dy_0 : dy 0.
  Proof. split; [apply generic_format_0|]. rewrite Rabs_R0. apply bpow_gt_0. Qed.

  Lemma dy_rnd_bnd l h r : dy l -> dy h -> l <= r <= h ->
    Rabs (rnd r) < bpow radix2 emax /\ l <= rnd r <= h.
  Proof.
    intros [Gl Bl] [Gh Bh] [A B].
    assert (l <= rnd r) by (rewrite <- (rnd_fmt l Gl); now apply rnd_le).
    assert (rnd r <= h) by (rewrite <- (rnd_fmt h Gh); now apply rnd_le).
    apply Rabs_def2 in Bl. apply Rabs_def2 in Bh. split; [apply Rabs_def1; lra|lra].
  Qed.

  Lemma fadd_b (l h : R) (x y : F) : dy l -> dy h -> fin x -> fin y ->
    l <= B2R x + B2R y <= h ->
    fin (fadd x y) /\ B2R (fadd x y) = rnd (B2R x + B2R y) /\ l <= B2R (fadd x y) <= h.
  Proof.
    intros Dl Dh Fx Fy H. destruct (dy_rnd_bnd l h _ Dl Dh H) as [A B].
    destruct (fadd_ok x y Fx Fy A) as [C D]. rewrite D. auto.
  Qed.
  Lemma fsub_b (l h : R) (x y : F) : dy l -> dy h -> fin x -> fin y ->
    l <= B2R x - B2R y <= h ->
    fin (fsub x y) /\ B2R (fsub x y) = rnd (B2R x - B2R y) /\ l <= B2R (fsub x y) <= h.
  Proof.
    intros Dl Dh Fx Fy H. destruct (dy_rnd_bnd l h _ Dl Dh H) as [A B].
    destruct (fsub_ok x y Fx Fy A) as [C D]. rewrite D. auto.
  Qed.
  Lemma fmul_b (l h : R) (x y : F) : dy l -> dy h -> fin x -> fin y ->
    l <= B2R x * B2R y <= h ->
    fin (fmul x y) /\ B2R (fmul x y) = rnd (B2R x * B2R y) /\ l <= B2R (fmul x y) <= h.
  Proof.
    intros Dl Dh Fx Fy H. destruct (dy_rnd_bnd l h _ Dl Dh H) as [A B].
    destruct (fmul_ok x y Fx Fy A) as [C D]. rewrite D. auto.
  Qed.
  Lemma fdiv_b (l h : R) (x y : F) : dy l -> dy h -> fin x -> fin y -> B2R y <> 0 ->
    l <= B2R x / B2R y <= h ->
    fin (fdiv x y) /\ B2R (fdiv x y) = rnd (B2R x / B2R y) /\ l <= B2R (fdiv x y) <= h.
  Proof.
    intros Dl Dh Fx Fy Hy H. destruct (dy_rnd_bnd l h _ Dl Dh H) as [A B].
    destruct (fdiv_ok x y Fx Fy Hy A) as [C D]. rewrite D. auto.
  Qed.

  (** Exact results. *)
  Lemma fadd_exact (x y : F) : fin x -> fin y -> dy (B2R x + B2R y) ->
    fin (fadd x y) /\ B2R (fadd x y) = B2R x + B2R y.
  Proof.
    intros Fx Fy [G B]. pose proof (rnd_fmt _ G) as E.
    destruct (fadd_ok x y Fx Fy) as [C D]; [now rewrite E|]. rewrite D. auto.
  Qed.
  Lemma fsub_exact (x y : F) : fin x -> fin y -> dy (B2R x - B2R y) ->
    fin (fsub x y) /\ B2R (fsub x y) = B2R x - B2R y.
  Proof.
    intros Fx Fy [G B]. pose proof (rnd_fmt _ G) as E.
    destruct (fsub_ok x y Fx Fy) as [C D]; [now rewrite E|]. rewrite D. auto.
  Qed.
  Lemma fmul_exact (x y : F) : fin x -> fin y -> dy (B2R x * B2R y) ->
    fin (fmul x y) /\ B2R (fmul x y) = B2R x * B2R y.
  Proof.
    intros Fx Fy [G B]. pose proof (rnd_fmt _ G) as E.
    destruct (fmul_ok x y Fx Fy) as [C D]; [now rewrite E|]. rewrite D. auto.
  Qed.
  Lemma fdiv_exact (x y : F) : fin x -> fin y -> B2R y <> 0 -> dy (B2R x / B2R y) ->
    fin (fdiv x y) /\ B2R (fdiv x y) = B2R x / B2R y.
  Proof.
    intros Fx Fy Hy [G B]. pose proof (rnd_fmt _ G) as E.
    destruct (fdiv_ok x y Fx Fy Hy) as [C D]; [now rewrite E|]. rewrite D. auto.
  Qed.

  (** m * 2^e with |m| <= 2^prec. *)
  Lemma dy_F2R m e : (Z.abs m < 2 ^ prec)%Z -> (SpecFloat.emin prec emax <= e)%Z ->
    generic_format radix2 fexp (IZR m * bpow radix2 e).
  Proof.
    intros H1 H2. apply generic_format_FLT with (emin := SpecFloat.emin prec emax).
    exists (Float radix2 m e); [reflexivity|exact H1|exact H2].
  Qed.

  (** ** Every finite float is an integer multiple of the smallest subnormal. *)
  Lemma B2R_grid (x : F) : exists n : Z, B2R x = IZR n * bpow radix2 (SpecFloat.emin prec emax).
  Proof.
    pose proof (fmt_B2R x) as G.
    apply FLT_format_generic in G; [|exact Hp].
    destruct G as [[m e] E _ He]. cbn [Defs.Fnum Defs.Fexp] in *.
    exists (m * 2 ^ (e - SpecFloat.emin prec emax))%Z.
    rewrite E. unfold F2R. cbn [Defs.Fnum Defs.Fexp].
    rewrite mult_IZR. change 2%Z with (radix2 : Z) at 1.
    rewrite IZR_Zpower by lia. rewrite Rmult_assoc, <- bpow_plus. f_equal. f_equal. lia.
  Qed.

  (** ** Rounding next to a power of two: ties go to the power itself. *)
  Lemma rnd_tie_pow k x : (1 < prec)%Z -> (SpecFloat.emin prec emax <= k - prec)%Z ->
    x <= bpow radix2 k + bpow radix2 (k - prec) -> rnd x <= bpow radix2 k.
  Proof.
    intros P1 Hk Hx. apply Rle_trans with (rnd (bpow radix2 k + bpow radix2 (k - prec))).
    { now apply rnd_le. }
    set (y := bpow radix2 k + bpow radix2 (k - prec)).
    assert (Hy1 : bpow radix2 k < y) by (unfold y; pose proof (bpow_gt_0 radix2 (k - prec)); lra).
    assert (Hy2 : y < bpow radix2 (k + 1)).
    { unfold y. rewrite bpow_plus. change (bpow radix2 1) with 2.
      assert (bpow radix2 (k - prec) < bpow radix2 k) by (apply bpow_lt; lia). lra. }
    assert (Hmag : mag radix2 y = (k + 1)%Z :> Z).
    { apply mag_unique_pos. replace (k + 1 - 1)%Z with k by lia. lra. }
    unfold rnd, FltFacts.rnd, round, scaled_mantissa, cexp. rewrite Hmag.
    replace (fexp (k + 1)) with (k + 1 - prec)%Z by (unfold SpecFloat.fexp; lia).
    assert (Esm : y * bpow radix2 (- (k + 1 - prec)) = IZR (2 ^ (prec - 1)) + / 2).
    { unfold y. rewrite Rmult_plus_distr_r, <- !bpow_plus.
      replace (k + - (k + 1 - prec))%Z with (prec - 1)%Z by lia.
      replace (k - prec + - (k + 1 - prec))%Z with (-1)%Z by lia.
      change 2%Z with (radix2 : Z) at 1. rewrite IZR_Zpower by lia. reflexivity. }
    rewrite Esm.
    assert (Ef : Zfloor (IZR (2 ^ (prec - 1)) + / 2) = (2 ^ (prec - 1))%Z).
    { apply Zfloor_imp. rewrite plus_IZR. lra. }
    assert (Ez : ZnearestE (IZR (2 ^ (prec - 1)) + / 2) = (2 ^ (prec - 1))%Z).
    { unfold Znearest. rewrite Ef.
      replace (IZR (2 ^ (prec - 1)) + / 2 - IZR (2 ^ (prec - 1))) with (/ 2) by lra.
      rewrite Rcompare_Eq by reflexivity.
      replace (2 ^ (prec - 1))%Z with (2 * 2 ^ (prec - 2))%Z.
      - rewrite Z.even_mul. reflexivity.
      - rewrite <- Z.pow_succ_r by lia. f_equal. lia. }
    rewrite Ez. unfold F2R. cbn [Defs.Fnum Defs.Fexp].
    change 2%Z with (radix2 : Z) at 1. rewrite IZR_Zpower by lia.
    rewrite <- bpow_plus. right. f_equal. lia.
  Qed.

  Lemma rnd_tie_pow_abs k x : (1 < prec)%Z -> (SpecFloat.emin prec emax <= k - prec)%Z ->
    Rabs x <= bpow radix2 k + bpow radix2 (k - prec) -> Rabs (rnd x) <= bpow radix2 k.
  Proof. intros P1 Hk Hx. rewrite rnd_abs. now apply rnd_tie_pow. Qed.

  (** ** fmod is exact. *)
  Lemma ffmod_R (x y : F) : fin x -> fin y -> B2R y <> 0 ->
    fin (ffmod x y) /\ B2R (ffmod x y) = B2R x - B2R y * IZR (Ztrunc (B2R x / B2R y)).
  Proof.
    intros Fx Fy Hy.
    destruct x as [sx|sx| |sx mx ex Hx]; try discriminate.
    { destruct y as [sy|sy| |sy my ey Hby]; try discriminate; [cbn in Hy; lra|].
      cbn [ffmod B2R]. split; [reflexivity|].
      replace (0 / _) with 0 by (field; exact Hy). rewrite Ztrunc_IZR with (n := 0%Z). ring. }
    destruct y as [sy|sy| |sy my ey Hby]; try discriminate; [cbn in Hy; lra|].
    cbn [ffmod]. set (e := Z.min ex ey).
    set (a := (Zpos mx * 2 ^ (ex - e))%Z). set (b := (Zpos my * 2 ^ (ey - e))%Z).
    assert (Hb : (0 < b)%Z) by (unfold b; apply Z.mul_pos_pos; [lia|apply Z.pow_pos_nonneg; lia]).
    assert (Ha : (0 < a)%Z) by (unfold a; apply Z.mul_pos_pos; [lia|apply Z.pow_pos_nonneg; lia]).
    set (r := (a mod b)%Z).
    assert (Hr : (0 <= r < b)%Z) by (apply Z.mod_pos_bound; exact Hb).
    assert (Hra : (r <= a)%Z) by (apply Z.mod_le; lia).
    assert (EX : B2R (B754_finite sx mx ex Hx : F) = (if sx then -1 else 1) * (IZR a * bpow radix2 e)).
    { cbn [B2R]. unfold F2R. cbn [Defs.Fnum Defs.Fexp]. unfold a. rewrite mult_IZR.
      change 2%Z with (radix2 : Z) at 1. rewrite IZR_Zpower by (unfold e; lia).
      rewrite Rmult_assoc, <- bpow_plus. replace (ex - e + e)%Z with ex by lia.
      destruct sx; cbn [SpecFloat.cond_Zopp]; [rewrite opp_IZR|]; ring. }
    assert (EY : B2R (B754_finite sy my ey Hby : F) = (if sy then -1 else 1) * (IZR b * bpow radix2 e)).
    { cbn [B2R]. unfold F2R. cbn [Defs.Fnum Defs.Fexp]. unfold b. rewrite mult_IZR.
      change 2%Z with (radix2 : Z) at 1. rewrite IZR_Zpower by (unfold e; lia).
      rewrite Rmult_assoc, <- bpow_plus. replace (ey - e + e)%Z with ey by lia.
      destruct sy; cbn [SpecFloat.cond_Zopp]; [rewrite opp_IZR|]; ring. }
    assert (Bx : (Zpos mx < 2 ^ prec)%Z /\ (SpecFloat.emin prec emax <= ex)%Z).
    { pose proof Hx as Hx'. unfold SpecFloat.bounded in Hx'. apply andb_prop in Hx'. destruct Hx' as [C _].
      unfold SpecFloat.canonical_mantissa in C. apply Zeq_bool_eq in C.
      unfold SpecFloat.fexp in C. split; [|lia].
      pose proof (Digits.digits2_Pnat_correct mx). 
      rewrite Digits.Zpos_digits2_pos in C.
      apply (Digits.Zpower_gt_Zdigits radix2 prec (Zpos mx)). lia. }
    assert (By : (Zpos my < 2 ^ prec)%Z /\ (SpecFloat.emin prec emax <= ey)%Z).
    { pose proof Hby as Hx'. unfold SpecFloat.bounded in Hx'. apply andb_prop in Hx'. destruct Hx' as [C _].
      unfold SpecFloat.canonical_mantissa in C. apply Zeq_bool_eq in C.
      unfold SpecFloat.fexp in C. split; [|lia].
      rewrite Digits.Zpos_digits2_pos in C.
      apply (Digits.Zpower_gt_Zdigits radix2 prec (Zpos my)). lia. }
    assert (Hr2 : (r < 2 ^ prec)%Z).
    { destruct (Z.min_spec ex ey) as [[L E]|[L E]].
      - assert (a = Zpos mx). { unfold a, e. rewrite E, Z.sub_diag, Z.mul_1_r. reflexivity. } lia.
      - assert (b = Zpos my). { unfold b, e. rewrite E, Z.sub_diag, Z.mul_1_r. reflexivity. } lia. }
    set (sr := if sx then (- r)%Z else r).
    assert (Hfmt : generic_format radix2 fexp (IZR sr * bpow radix2 e)).
    { apply dy_F2R; [unfold sr; destruct sx; lia|unfold e; lia]. }
    assert (Hval : B2R (B754_finite sx mx ex Hx : F) - B2R (B754_finite sy my ey Hby : F) *
        IZR (Ztrunc (B2R (B754_finite sx mx ex Hx : F) / B2R (B754_finite sy my ey Hby : F)))
        = IZR sr * bpow radix2 e).
    { rewrite EX, EY.
      assert (Hpe : bpow radix2 e <> 0) by (apply Rgt_not_eq, bpow_gt_0).
      assert (HbR : IZR b <> 0) by (apply IZR_neq; lia).
      set (q := (a / b)%Z).
      assert (Hq : a = (b * q + r)%Z) by (apply Z.div_mod; lia).
      assert (Hq0 : (0 <= q)%Z) by (apply Z.div_pos; lia).
      assert (Hdiv : IZR a / IZR b = IZR q + IZR r / IZR b).
      { rewrite Hq, plus_IZR, mult_IZR. field. exact HbR. }
      assert (Hfr : 0 <= IZR r / IZR b < 1).
      { assert (0 < IZR b) by (apply IZR_lt; lia). split.
        - apply Rmult_le_pos; [apply IZR_le; lia|]. left. now apply Rinv_0_lt_compat.
        - apply Rmult_lt_reg_r with (IZR b); [assumption|]. unfold Rdiv. rewrite Rmult_assoc, Rinv_l, Rmult_1_r, Rmult_1_l by exact HbR.
          apply IZR_lt. lia. }
      assert (Hqf : Zfloor (IZR a / IZR b) = q).
      { apply Zfloor_imp. rewrite plus_IZR, Hdiv. lra. }
      assert (HqR : 0 <= IZR q) by (apply IZR_le; lia).
      set (tx := if sx then -1 else 1). set (ty := if sy then -1 else 1).
      assert (Equo : tx * (IZR a * bpow radix2 e) / (ty * (IZR b * bpow radix2 e)) = tx * ty * (IZR a / IZR b)).
      { unfold tx, ty. destruct sx, sy; field; auto. }
      rewrite Equo.
      assert (Et : Ztrunc (tx * ty * (IZR a / IZR b)) = (if xorb sx sy then - q else q)%Z).
      { unfold tx, ty. destruct sx, sy; cbn [xorb].
        - replace (-1 * -1 * _) with (IZR a / IZR b) by ring. rewrite Ztrunc_floor by lra. exact Hqf.
        - replace (-1 * 1 * _) with (- (IZR a / IZR b)) by ring. rewrite Ztrunc_opp, Ztrunc_floor by lra. now rewrite Hqf.
        - replace (1 * -1 * _) with (- (IZR a / IZR b)) by ring. rewrite Ztrunc_opp, Ztrunc_floor by lra. now rewrite Hqf.
        - replace (1 * 1 * _) with (IZR a / IZR b) by ring. rewrite Ztrunc_floor by lra. exact Hqf. }
      rewrite Et.
      assert (HaR : IZR a = IZR b * IZR q + IZR r) by (rewrite Hq, plus_IZR, mult_IZR; reflexivity).
      rewrite HaR. unfold tx, ty, sr. destruct sx, sy; cbn [xorb]; rewrite ?opp_IZR; ring. }
    assert (Hlt : Rabs (rnd (IZR sr * bpow radix2 e)) < bpow radix2 emax).
    { rewrite rnd_fmt by exact Hfmt.
      apply Rle_lt_trans with (Rabs (B2R (B754_finite sx mx ex Hx : F))).
      - rewrite EX. rewrite !Rabs_mult.
        replace (Rabs (if sx then -1 else 1)) with 1 by (destruct sx; [rewrite Rabs_left by lra; lra|now rewrite Rabs_R1]).
        rewrite Rmult_1_l. apply Rmult_le_compat_r; [apply Rabs_pos|].
        rewrite <- !abs_IZR. apply IZR_le. unfold sr. destruct sx; lia.
      - apply B2R_lt_emax. }
    rewrite Hval.
    pose proof (binary_normalize_correct prec emax Hp Hm mode_NE sr e sx) as N.
    cbn [round_mode] in N. unfold F2R in N. cbn [Defs.Fnum Defs.Fexp] in N.
    fold (rnd (IZR sr * bpow radix2 e)) in N.
    change (round radix2 fexp ZnearestE (IZR sr * bpow radix2 e)) with (rnd (IZR sr * bpow radix2 e)) in N.
    rewrite Rlt_bool_true in N by exact Hlt. unfold fin. rewrite erase_correct.
    destruct N as (N1 & N2 & _). split; [exact N2|]. rewrite N1. now apply rnd_fmt.
  Qed.

  Lemma ffmod_bound (x y : F) : fin x -> fin y -> B2R y <> 0 ->
    Rabs (B2R (ffmod x y)) < Rabs (B2R y) /\ Rabs (B2R (ffmod x y)) <= Rabs (B2R x) /\
    0 <= B2R (ffmod x y) * B2R x.
  Proof.
    intros Fx Fy Hy. destruct (ffmod_R x y Fx Fy Hy) as [_ ->].
    set (X := B2R x). set (Y := B2R y) in *. set (q := X / Y).
    assert (EX : X = q * Y) by (unfold q; field; exact Hy).
    assert (E : X - Y * IZR (Ztrunc q) = (q - IZR (Ztrunc q)) * Y) by (rewrite EX at 1; ring).
    rewrite E.
    assert (HYp : 0 < Rabs Y) by now apply Rabs_pos_lt.
    destruct (Rle_lt_dec 0 q) as [Q|Q].
    - rewrite Ztrunc_floor by exact Q.
      pose proof (Zfloor_lb q). pose proof (Zfloor_ub q).
      assert (0 <= IZR (Zfloor q)) by (apply IZR_le; apply Zfloor_lub; exact Q).
      rewrite Rabs_mult, (Rabs_pos_eq (q - _)) by lra.
      split; [|split].
      + rewrite <- (Rmult_1_l (Rabs Y)) at 2. apply Rmult_lt_compat_r; lra.
      + rewrite EX, Rabs_mult. apply Rmult_le_compat_r; [lra|]. rewrite Rabs_pos_eq by lra. lra.
      + rewrite EX. replace ((q - IZR (Zfloor q)) * Y * (q * Y)) with ((q - IZR (Zfloor q)) * q * (Y * Y)) by ring.
        apply Rmult_le_pos; [apply Rmult_le_pos; lra|]. apply Rle_0_sqr.
    - rewrite Ztrunc_ceil by lra.
      pose proof (Zceil_ub q). pose proof (Zceil_lb q).
      assert (IZR (Zceil q) <= 0) by (apply IZR_le; apply Zceil_glb; lra).
      rewrite Rabs_mult, (Rabs_left1 (q - _)) by lra.
      split; [|split].
      + rewrite <- (Rmult_1_l (Rabs Y)) at 2. apply Rmult_lt_compat_r; lra.
      + rewrite EX, Rabs_mult. apply Rmult_le_compat_r; [lra|]. rewrite Rabs_left1 by lra. lra.
      + rewrite EX. replace ((q - IZR (Zceil q)) * Y * (q * Y)) with ((IZR (Zceil q) - q) * (- q) * (Y * Y)) by ring.
        apply Rmult_le_pos; [apply Rmult_le_pos; lra|]. apply Rle_0_sqr.
  Qed.
End More.
