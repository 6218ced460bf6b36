(** The resonant lowpass over the reals, with disturbances: bounds on its state through its poles. *)
From Coq Require Import Reals Lra Lia Psatz.
From Flocq Require Import Core.
From Coquelicot Require Import Complex.
Local Open Scope R_scope.

(** One step of the filter (b0, 2 b0, b0; a1, a2) in transposed form with disturbances e0, e1, e2. *)
Definition rstep (b0 a1 a2 x e0 e1 e2 z1 z2 y z1' z2' : R) : Prop :=
  y = b0 * x + z1 + e0 /\ z1' = 2 * b0 * x - a1 * y + z2 + e1 /\ z2' = b0 * x - a2 * y + e2.
Definition wv (p : C) (z1 z2 : R) : C := (p * z1 + z2)%C.

Lemma CR (a b : R) : (RtoC (a + b) = a + b)%C. Proof. apply RtoC_plus. Qed.
Lemma w_step (p : C) (b0 a1 a2 x e0 e1 e2 z1 z2 y z1' z2' : R) : (p * p = - a1 * p - a2)%C -> rstep b0 a1 a2 x e0 e1 e2 z1 z2 y z1' z2' ->
  (wv p z1' z2' = p * wv p z1 z2 + b0 * ((1 + p) * (1 + p)) * x + (p * p * e0 + p * e1 + e2))%C.
Proof.
  intros H (-> & -> & ->). unfold wv.
  rewrite ?RtoC_plus, ?RtoC_minus, ?RtoC_mult, ?RtoC_plus, ?RtoC_mult. change (RtoC 2) with (RtoC (1 + 1)). rewrite RtoC_plus.
  assert (E : (RtoC a2 = - a1 * p - p * p)%C) by (rewrite H; ring). rewrite E. ring.
Qed.
Lemma z_step (p q : C) (b0 a1 a2 x e0 e1 e2 z1 z2 y z1' z2' : R) : (p + q = - a1)%C -> rstep b0 a1 a2 x e0 e1 e2 z1 z2 y z1' z2' ->
  (RtoC z1' = q * z1 + wv p z1 z2 + b0 * (1 + 1 + p + q) * x + ((p + q) * e0 + e1))%C.
Proof.
  intros H (-> & -> & ->). unfold wv.
  rewrite ?RtoC_plus, ?RtoC_minus, ?RtoC_mult, ?RtoC_plus, ?RtoC_mult. change (RtoC 2) with (RtoC (1 + 1)). rewrite RtoC_plus.
  assert (E : (RtoC a1 = - p - q)%C) by (replace (- p - q)%C with (- (p + q))%C by ring; rewrite H; ring). rewrite E. ring.
Qed.

(** Deviations from the resting point of a constant input obey the same equations. *)
Lemma shift b0 a1 a2 v x e0 e1 e2 z1 z2 y z1' z2' : 4 * b0 = 1 + a1 + a2 -> rstep b0 a1 a2 (v + x) e0 e1 e2 z1 z2 y z1' z2' ->
  rstep b0 a1 a2 x e0 e1 e2 (z1 - (1 - b0) * v) (z2 - (b0 - a2) * v) (y - v) (z1' - (1 - b0) * v) (z2' - (b0 - a2) * v).
Proof.
  intros H (-> & -> & ->). unfold rstep. split; [ring|]. split; [|ring].
  apply Rminus_diag_uniq. match goal with |- ?l - ?r = 0 => replace (l - r) with (v * (4 * b0 - (1 + a1 + a2))) by ring end. rewrite H. ring.
Qed.

Lemma wv_im p z1 z2 : Rabs (snd p) * Rabs z1 <= Cmod (wv p z1 z2).
Proof.
  rewrite <- Rabs_mult. replace (snd p * z1) with (snd (wv p z1 z2)).
  - eapply Rle_trans; [|apply Rmax_Cmod]. apply Rmax_r.
  - unfold wv, RtoC, Cplus, Cmult. cbn [fst snd]. ring.
Qed.
Lemma wv_z2 p z1 z2 : Rabs z2 <= Cmod (wv p z1 z2) + Cmod p * Rabs z1.
Proof.
  rewrite <- !Cmod_R, <- Cmod_mult, <- (Cmod_opp (p * z1)%C). replace (RtoC z2) with (wv p z1 z2 + - (p * z1))%C by (unfold wv; ring). apply Cmod_triangle.
Qed.
Lemma wv_le p z1 z2 : Cmod (wv p z1 z2) <= Cmod p * Rabs z1 + Rabs z2.
Proof. rewrite <- !Cmod_R, <- Cmod_mult. apply Cmod_triangle. Qed.
Lemma cm3 a b c : Cmod (a + b + c)%C <= Cmod a + Cmod b + Cmod c.
Proof. eapply Rle_trans; [apply Cmod_triangle|]. apply Rplus_le_compat_r, Cmod_triangle. Qed.
Lemma w_bound (p : C) (b0 a1 a2 x e0 e1 e2 z1 z2 y z1' z2' : R) : (p * p = - a1 * p - a2)%C -> Cmod p <= 1 -> 0 <= b0 -> rstep b0 a1 a2 x e0 e1 e2 z1 z2 y z1' z2' ->
  Cmod (wv p z1' z2') <= Cmod p * Cmod (wv p z1 z2) + b0 * (Cmod (1 + p)%C * Cmod (1 + p)%C) * Rabs x + (Rabs e0 + Rabs e1 + Rabs e2).
Proof.
  intros H P B S. rewrite (w_step _ _ _ _ _ _ _ _ _ _ _ _ _ H S). eapply Rle_trans; [apply cm3|]. rewrite !Cmod_mult, !Cmod_R, (Rabs_pos_eq b0) by exact B.
  apply Rplus_le_compat; [lra|]. eapply Rle_trans; [apply cm3|]. rewrite !Cmod_mult, !Cmod_R. pose proof (Cmod_ge_0 p).
  assert (Cmod p * Cmod p <= 1) by nra. pose proof (Rabs_pos e0). pose proof (Rabs_pos e1).
  assert (Cmod p * Cmod p * Rabs e0 <= 1 * Rabs e0) by (apply Rmult_le_compat_r; lra). assert (Cmod p * Rabs e1 <= 1 * Rabs e1) by (apply Rmult_le_compat_r; lra). lra.
Qed.
Lemma z_bound (p q : C) (b0 a1 a2 x e0 e1 e2 z1 z2 y z1' z2' : R) : (p + q = - a1)%C -> Rabs a1 <= 2 -> 0 <= b0 -> rstep b0 a1 a2 x e0 e1 e2 z1 z2 y z1' z2' ->
  Rabs z1' <= Cmod q * Rabs z1 + Cmod (wv p z1 z2) + b0 * (2 - a1) * Rabs x + (2 * Rabs e0 + Rabs e1).
Proof.
  intros H A B S. rewrite <- Cmod_R. rewrite (z_step _ _ _ _ _ _ _ _ _ _ _ _ _ _ H S).
  assert (E : (1 + 1 + p + q)%C = RtoC (2 - a1)) by (rewrite RtoC_minus; change (RtoC 2) with (RtoC (1 + 1)); rewrite RtoC_plus; replace (1 + 1 + p + q)%C with (1 + 1 + (p + q))%C by ring; rewrite H; ring).
  rewrite E. eapply Rle_trans; [apply Cmod_triangle|]. apply Rplus_le_compat.
  - eapply Rle_trans; [apply Cmod_triangle|]. apply Rplus_le_compat; [eapply Rle_trans; [apply Cmod_triangle|]; rewrite Cmod_mult, Cmod_R; lra|].
    rewrite !Cmod_mult, !Cmod_R, (Rabs_pos_eq b0) by exact B. rewrite (Rabs_pos_eq (2 - a1)) by (apply Rabs_le_inv in A; lra). lra.
  - eapply Rle_trans; [apply Cmod_triangle|]. rewrite H, Cmod_mult, Cmod_opp, !Cmod_R. apply Rplus_le_compat_r. apply Rmult_le_compat_r; [apply Rabs_pos|exact A].
Qed.

(** ** The poles of the cookbook lowpass *)
Section Poles.
  Variables c s Q : R.
  Hypothesis CS : c * c + s * s = 1.
  Hypothesis S0 : 0 < s.
  Hypothesis HQ : / 10 <= Q <= 30.
  Let al := s / (2 * Q).
  Let b0 := (1 - c) / 2 / (1 + al).
  Let a1 := - 2 * c / (1 + al).
  Let a2 := (1 - al) / (1 + al).
  Lemma s_le1 : s <= 1. Proof. nra. Qed.
  Lemma c_lt1 : -1 < c < 1. Proof. nra. Qed.
  Lemma al_s : al * (2 * Q) = s. Proof. unfold al. field. lra. Qed.
  Lemma al_pos : 0 < al. Proof. unfold al. apply Rmult_lt_0_compat; [exact S0|]. apply Rinv_0_lt_compat. lra. Qed.
  Lemma al_le : al <= 5. Proof. pose proof al_s. pose proof s_le1. pose proof al_pos. nra. Qed.
  Lemma dc : 4 * b0 = 1 + a1 + a2. Proof. unfold b0, a1, a2. pose proof al_pos. field. lra. Qed.
  Lemma nyq : 1 - a1 + a2 = 2 * (1 + c) / (1 + al). Proof. unfold a1, a2. pose proof al_pos. field. lra. Qed.
  Lemma b0_pos : 0 < b0. Proof. pose proof al_pos. pose proof c_lt1. unfold b0, Rdiv. apply Rmult_lt_0_compat; [lra|]. apply Rinv_0_lt_compat. lra. Qed.
  Lemma b0_le1 : b0 <= 1.
  Proof. pose proof al_pos. pose proof c_lt1. unfold b0. apply Rmult_le_reg_r with (1 + al); [lra|]. unfold Rdiv. rewrite Rmult_assoc, Rinv_l by lra. lra. Qed.
  Lemma a1_le : Rabs a1 <= 2.
  Proof.
    pose proof al_pos. pose proof c_lt1. unfold a1, Rdiv. rewrite Rabs_mult, Rabs_inv, (Rabs_pos_eq (1 + al)) by lra.
    apply Rmult_le_reg_r with (1 + al); [lra|]. rewrite Rmult_assoc, Rinv_l by lra. rewrite Rmult_1_r, Rabs_mult. replace (Rabs (-2)) with 2 by (rewrite Rabs_left; lra).
    assert (Rabs c <= 1) by (apply Rabs_le; lra). nra.
  Qed.
  Lemma a2_lt : -1 < a2 < 1.
  Proof.
    pose proof al_pos. assert (E : a2 * (1 + al) = 1 - al) by (unfold a2; field; lra). split; nra.
  Qed.
  (** the discriminant *)
  Lemma disc : a2 - a1 * a1 / 4 = (s * s - al * al) / ((1 + al) * (1 + al)).
  Proof. unfold a1, a2. pose proof al_pos. replace (s * s) with (1 - c * c) by lra. field. lra. Qed.
  Lemma F1_eq (m : R) : m = 1 - a1 + a2 -> b0 * m = s * s / ((1 + al) * (1 + al)).
  Proof. intros ->. rewrite nyq. unfold b0. replace (s * s) with ((1 - c) * (1 + c)) by (ring_simplify; lra). pose proof al_pos. field. lra. Qed.

  (** Complex poles. *)
  Lemma complex_poles : al < s -> exists p q : C, (p * p = - a1 * p - a2)%C /\ (p + q = - a1)%C /\ Cmod p = Cmod q /\ Cmod p * Cmod p = a2 /\
    0 < snd p /\ snd p * snd p = (s * s - al * al) / ((1 + al) * (1 + al)) /\ Cmod (1 + p)%C * Cmod (1 + p)%C = 1 - a1 + a2 /\ al / (1 + al) <= 1 - Cmod p.
  Proof.
    intros Hal. pose proof al_pos. pose proof disc as D. set (d := (s * s - al * al) / ((1 + al) * (1 + al))) in *.
    assert (Pd : 0 < d) by (unfold d; apply Rmult_lt_0_compat; [nra|apply Rinv_0_lt_compat; nra]).
    assert (Sd := sqrt_lt_R0 d Pd). assert (Qd := sqrt_sqrt d (Rlt_le _ _ Pd)). set (i := sqrt d) in *.
    assert (Sq : forall x : C, Cmod x * Cmod x = fst x * fst x + snd x * snd x).
    { intros x. unfold Cmod. rewrite sqrt_sqrt; [ring|]. apply Rplus_le_le_0_compat; apply pow2_ge_0. }
    exists (- a1 / 2, i), (- a1 / 2, - i).
    assert (M2 : Cmod (- a1 / 2, i) * Cmod (- a1 / 2, i) = a2) by (rewrite Sq; cbn [fst snd]; rewrite Qd; lra).
    split. { unfold Cmult, Cminus, Cplus, Copp, RtoC. cbn [fst snd]. f_equal; nra. }
    split. { unfold Cmult, Cminus, Cplus, Copp, RtoC. cbn [fst snd]. f_equal; field. }
    split. { unfold Cmod. cbn [fst snd]. f_equal. ring. }
    split; [exact M2|]. cbn [snd]. split; [exact Sd|]. split; [exact Qd|].
    split. { rewrite Sq. unfold Cplus, RtoC. cbn [fst snd]. nra. }
    pose proof (Cmod_ge_0 (- a1 / 2, i)). set (r := Cmod (- a1 / 2, i)) in *. pose proof a2_lt. assert (r <= 1) by nra.
    assert (E : al / (1 + al) = (1 - a2) / 2) by (unfold a2; field; lra). rewrite E. nra.
  Qed.
  (** Real poles. *)
  Lemma real_poles : s <= al -> exists p q : R, p + q = - a1 /\ p * p = - a1 * p - a2 /\ p <= q /\ -1 < p /\ q < 1 /\ (1 - p) * (1 - q) = 4 * b0 /\ (1 + p) * (1 + q) = 1 - a1 + a2.
  Proof.
    intros Hal. pose proof al_pos. pose proof disc as D. set (d := (s * s - al * al) / ((1 + al) * (1 + al))) in *.
    assert (Pd : 0 <= - d). { unfold d. replace (- ((s * s - al * al) / ((1 + al) * (1 + al)))) with ((al * al - s * s) / ((1 + al) * (1 + al))) by (field; lra). apply Rmult_le_pos; [nra|left; apply Rinv_0_lt_compat; nra]. }
    assert (Qd := sqrt_sqrt (- d) Pd). assert (Sd := sqrt_pos (- d)). set (i := sqrt (- d)) in *.
    exists (- a1 / 2 - i), (- a1 / 2 + i). pose proof dc. pose proof b0_pos. pose proof a2_lt. pose proof nyq as N. pose proof c_lt1.
    assert (0 < 1 - a1 + a2) by (rewrite N; apply Rmult_lt_0_compat; [lra|apply Rinv_0_lt_compat; lra]).
    set (p := - a1 / 2 - i). set (q := - a1 / 2 + i). assert (PQ : p + q = - a1) by (unfold p, q; lra). assert (PM : p * q = a2) by (unfold p, q; nra). assert (L : p <= q) by (unfold p, q; lra).
    assert (M1 : (1 - p) * (1 - q) = 4 * b0) by (rewrite dc, <- PM; nra). assert (M2 : (1 + p) * (1 + q) = 1 - a1 + a2) by (rewrite <- PM; nra).
    split; [exact PQ|]. split; [nra|]. split; [exact L|].
    assert (p < 1) by (destruct (Rlt_le_dec p 1); [assumption|]; nra). assert (-1 < q) by (destruct (Rlt_le_dec (-1) q); [assumption|]; nra).
    split; [nra|]. split; [nra|]. split; assumption.
  Qed.
End Poles.
