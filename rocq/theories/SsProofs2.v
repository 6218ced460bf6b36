(** SuperSaw: the mix, bounds and silence. *)
From Coq Require Import ZArith Reals Bool List Lra Lia Psatz.
From Flocq Require Import Core BinarySingleNaN.
From Verif Require Import Flt FltFacts FltMore FltKey FltArith Libm UtilModel UtilProofs FltClose FltRel Ln2 RealBounds
  OscModel OscSpec OscProofs OscProofs2 OscProofs3 EnvModel EnvSpec EnvProofs EnvProofs2 PanModel PanSpec PanProofs VcModel VcSpec VcProofs SsSpec SsProofs.
Import ListNotations.
Local Open Scope R_scope.

(** ** Pan positions *)
Lemma side_R i sp : unit_sample sp -> fin (side i sp) /\ B2R (side i sp) = (if (i mod 2 =? 0)%Z then - B2R sp else B2R sp).
Proof.
  intros [F B]. unfold side. destruct (Z.mod_pos_bound i 2 ltac:(lia)) as [A C].
  assert (E : (i mod 2 = 0)%Z \/ (i mod 2 = 1)%Z) by lia. destruct E as [-> | ->]; cbn [Z.eqb].
  - assert (K : fin (fsub (fmul (fofZ 0) two) one : f32) /\ B2R (fsub (fmul (fofZ 0) two) one : f32) = -1).
    { split; [ffin|]. fval (fsub (fmul (fofZ 0) two) one : f32). lra. }
    destruct K as [Fk Ek]. set (k := fsub (fmul (fofZ 0) two) one : f32) in *. clearbody k.
    destruct (fmul_exact k sp Fk F) as [G E]; rewrite Ek in *; [replace (-1 * B2R sp) with (- B2R sp) by ring; apply dy_opp, dy_B2R|]. split; [exact G|]. rewrite E. ring.
  - assert (K : fin (fsub (fmul (fofZ 1) two) one : f32) /\ B2R (fsub (fmul (fofZ 1) two) one : f32) = 1).
    { split; [ffin|]. fval (fsub (fmul (fofZ 1) two) one : f32). lra. }
    destruct K as [Fk Ek]. set (k := fsub (fmul (fofZ 1) two) one : f32) in *. clearbody k.
    destruct (fmul_exact k sp Fk F) as [G E]; rewrite Ek, Rmult_1_l in *; [apply dy_B2R|]. split; [exact G|exact E].
Qed.
Lemma angle_close (pos : f32) : fin pos -> -1 <= B2R pos <= 1 -> Rabs (B2R (pan_angle pos) - (B2R pos + 1) * (PI / 4)) <= 0.0000002.
Proof.
  intros F B. unfold pan_angle. destruct (clamp_unit_R pos F) as [Fc Ec].
  assert (E : B2R (clamp pos (fneg one) one) = B2R pos).
  { rewrite Ec. unfold clampR, Rmax, Rmin. destruct (Rle_dec (B2R pos) 1); [|lra]. destruct (Rle_dec (-1) (B2R pos)); lra. }
  set (c := clamp pos (fneg one) one) in *. clearbody c.
  assert (C1 := cl_add 1 0 0 c one _ _ ltac:(lia) (cl_self c Fc) (cl_self one one_fin)). rewrite one_R, E in C1.
  specialize (C1 ltac:(change (bpow radix2 1) with 2; rewrite Rabs_pos_eq; lra)). change (bpow radix2 (1 - 25)) with (/ 16777216) in C1.
  pose proof PI_bounds as P.
  assert (C2 : cl 0.00000003 PI4 (PI / 4)).
  { split; [exact PI4_fin|]. rewrite PI4_R. apply Rabs_le. lra. }
  assert (C3 := cl_mul 1 _ _ 2 0.8 _ _ _ _ ltac:(lia) C1 C2 ltac:(rewrite Rabs_pos_eq; lra) ltac:(rewrite Rabs_pos_eq; lra) ltac:(change (bpow radix2 1) with 2; lra)).
  destruct C3 as [_ C3]. change (bpow radix2 (1 - 25)) with (/ 16777216) in C3. eapply Rle_trans; [exact C3|]. lra.
Qed.
(** Real gains of the even and the odd voices. *)
Lemma five c s : c * c + s * s = 1 -> 4 * c + 3 * s <= 5.
Proof.
  intros H. destruct (Rle_dec (4 * c + 3 * s) 5) as [G|G]; [exact G|]. exfalso. pose proof (Rle_0_sqr (3 * c - 4 * s)) as Q. unfold Rsqr in Q.
  assert (K : 25 < (4 * c + 3 * s) * (4 * c + 3 * s)) by nra. lra.
Qed.
Lemma gain_sum (te to : R) : 0 <= te -> 0 <= to -> te <= 1.5707964 -> to <= 1.5707964 -> Rabs (te + to - PI / 2) <= 0.0000004 ->
  4 * Rabs (cos te) + 3 * Rabs (cos to) <= 5.00001 /\ 4 * Rabs (sin te) + 3 * Rabs (sin to) <= 5.00001.
Proof.
  intros H0 H1 H2 H3 H. pose proof PI_bounds as P.
  assert (C : forall a, 0 <= a -> a <= 1.5707964 -> Rabs (cos a) <= cos a + 0.0000003).
  { intros a A B. pose proof (cos_lip a (PI / 2)) as L. rewrite cos_PI2, Rminus_0_r in L.
    destruct (Rle_dec a (PI / 2)) as [G|G]; [rewrite Rabs_pos_eq by (apply cos_ge_0; lra); lra|].
    assert (Rabs (a - PI / 2) <= 0.0000001) by (apply Rabs_le; lra). pose proof (Rabs_pos (cos a)). unfold Rabs in L |- *. destruct (Rcase_abs (cos a)); destruct (Rcase_abs (a - PI / 2)); lra. }
  assert (S : forall a, 0 <= a -> a <= 1.5707964 -> Rabs (sin a) = sin a).
  { intros a A B. apply Rabs_pos_eq. apply sin_ge_0; lra. }
  assert (E1 : Rabs (cos to - sin te) <= 0.0000004).
  { rewrite <- (sin_shift to). eapply Rle_trans; [apply sin_lip|]. replace (PI / 2 - to - te) with (- (te + to - PI / 2)) by ring. now rewrite Rabs_Ropp. }
  assert (E2 : Rabs (sin to - cos te) <= 0.0000004).
  { rewrite <- (cos_shift to). eapply Rle_trans; [apply cos_lip|]. replace (PI / 2 - to - te) with (- (te + to - PI / 2)) by ring. now rewrite Rabs_Ropp. }
  apply Rabs_le_inv in E1. apply Rabs_le_inv in E2. pose proof (C te H0 H2). pose proof (C to H1 H3). rewrite (S te H0 H2), (S to H1 H3).
  pose proof (five (cos te) (sin te) (cs1 te)). assert (Q : sin te * sin te + cos te * cos te = 1) by (pose proof (cs1 te); lra). pose proof (five (sin te) (cos te) Q). split; lra.
Qed.
Definition gl (L : libm) (sp : f32) (i : Z) : R := Rabs (B2R (m_cos L (pan_angle (side i sp)))).
Definition gr (L : libm) (sp : f32) (i : Z) : R := Rabs (B2R (m_sin L (pan_angle (side i sp)))).
Lemma side_parity i sp : side i sp = side (i mod 2) sp.
Proof. unfold side. now rewrite Z.mod_mod by lia. Qed.
Lemma gains L sp : trig_acc L -> unit_sample sp -> 4 * gl L sp 0 + 3 * gl L sp 1 <= 5.00002 /\ 4 * gr L sp 0 + 3 * gr L sp 1 <= 5.00002.
Proof.
  intros T U. destruct (side_R 0 sp U) as [F0 E0]. destruct (side_R 1 sp U) as [F1 E1].
  change (0 mod 2 =? 0)%Z with true in E0. change (1 mod 2 =? 0)%Z with false in E1. cbv iota in E0, E1. destruct U as [Fu Bu].
  destruct (gains_acc L (side 0 sp) T (fin_nan _ F0)) as [[_ S0] [_ C0]]. destruct (gains_acc L (side 1 sp) T (fin_nan _ F1)) as [[_ S1] [_ C1]].
  destruct (angle_bnd _ (fin_nan _ F0)) as [_ A0]. destruct (angle_bnd _ (fin_nan _ F1)) as [_ A1']. pose proof A1_bnd as AB.
  pose proof (angle_close _ F0 ltac:(lra)) as D0. pose proof (angle_close _ F1 ltac:(lra)) as D1. unfold gl, gr.
  set (te := B2R (pan_angle (side 0 sp))) in *. set (to := B2R (pan_angle (side 1 sp))) in *. rewrite E0 in D0. rewrite E1 in D1.
  assert (D : Rabs (te + to - PI / 2) <= 0.0000004).
  { apply Rabs_le_inv in D0. apply Rabs_le_inv in D1. apply Rabs_le.
    assert (Q : (- B2R sp + 1) * (PI / 4) + (B2R sp + 1) * (PI / 4) = PI / 2) by field. lra. }
  destruct (gain_sum te to ltac:(lra) ltac:(lra) ltac:(lra) ltac:(lra) D) as [G1 G2].
  assert (X : forall x y, Rabs (x - y) <= bpow radix2 (-23) * Rabs y + bpow radix2 (-149) -> Rabs y <= 1 -> Rabs x <= Rabs y + 0.0000003).
  { intros x y H Y. assert (Z : bpow radix2 (-149) <= bpow radix2 (-25)) by (apply bpow_le; lia). revert H Z.
    change (bpow radix2 (-23)) with (/ 8388608). change (bpow radix2 (-25)) with (/ 33554432). intros H Z.
    replace x with (y + (x - y)) by ring. eapply Rle_trans; [apply Rabs_triang|]. lra. }
  pose proof (X _ _ C0 (cos1 te)). pose proof (X _ _ C1 (cos1 to)). pose proof (X _ _ S0 (sin1 te)). pose proof (X _ _ S1 (sin1 to)). split; lra.
Qed.

(** ** The mix *)
Section Mix.
  Variables (L : libm) (sr f d sp : f32).
  Hypothesis HP : pow2_acc L. Hypothesis HT : sin_unit L. Hypothesis HC : cos_unit L.
  Hypothesis HR : saw_rate sr. Hypothesis Ff : fin f. Hypothesis Bf : B2R sr / 4096 <= B2R f <= B2R sr / 5.
  Hypothesis Fd : fin d. Hypothesis Bd : Rabs (B2R d) <= 6. Hypothesis U : unit_sample sp.

  Lemma pan_gain i : (fin (m_cos L (pan_angle (side i sp))) /\ gl L sp i <= 1) /\ (fin (m_sin L (pan_angle (side i sp))) /\ gr L sp i <= 1).
  Proof.
    destruct (side_R i sp U) as [F _]. destruct (angle_bnd _ (fin_nan _ F)) as [Fa _]. destruct (HC _ Fa) as [A B]. destruct (HT _ Fa) as [C D].
    unfold gl, gr. split; (split; [assumption|now apply unit_abs]).
  Qed.
  Definition room (n : Z) (m : f32) : Prop := fin m /\ Rabs (B2R m) <= IZR (n * 8192).
  Lemma room_add n m (x : f32) : (0 <= n <= 100)%Z -> room n m -> fin x -> Rabs (B2R x) <= bpow radix2 13 -> room (n + 1) (fadd m x).
  Proof.
    intros N [Fm Bm] Fx Bx. change (bpow radix2 13) with 8192 in Bx.
    assert (D : dy32 (IZR ((n + 1) * 8192))) by (apply dyZ; lia).
    assert (A : Rabs (B2R m + B2R x) <= IZR ((n + 1) * 8192)).
    { eapply Rle_trans; [apply Rabs_triang|]. rewrite mult_IZR, plus_IZR. rewrite mult_IZR in Bm. lra. }
    destruct (fadd_b _ _ m x (dy_opp _ D) D Fm Fx (abs_dn _ _ A)) as (F & _ & B). split; [exact F|now apply Rabs_le].
  Qed.
  Lemma mix_ok l : forall n ml mr, Forall (fun p => sv_inv sr (snd p)) l -> (0 <= n)%Z -> (n + Z.of_nat (length l) <= 100)%Z -> room n ml -> room n mr ->
    let r := ss_mix L f d sp l (ml, mr) in
    Forall (fun v => sv_inv sr v /\ warm L sr f d v) (fst r) /\ length (fst r) = length l /\
    room (n + Z.of_nat (length l)) (fst (snd r)) /\ room (n + Z.of_nat (length l)) (snd (snd r)).
  Proof.
    induction l as [|[i v] t IH]; intros n ml mr H N M R1 R2.
    - cbn. rewrite Z.add_0_r. auto.
    - inversion H as [|? ? Hv Ht]; subst. cbn [snd] in Hv.
      destruct (sv_tick_ok L sr f d sp i v HP HR Ff Bf Fd Bd Hv) as (A & B & _ & x & Fx & Bx & E & _).
      cbv zeta. cbn [ss_mix]. destruct (sv_tick L f d sp i v) as [v' p]. cbn [fst snd] in A, B, E. subst p. unfold pan2_process. cbn [fst snd].
      destruct (pan_gain i) as [[Fc Gc] [Fs Gs]].
      destruct (bp_dy 13 ltac:(lia)) as [D1 _].
      destruct (shrink _ x (bpow radix2 13) Fc Gc Fx Bx D1) as [Fl Bl]. destruct (shrink _ x (bpow radix2 13) Fs Gs Fx Bx D1) as [Fr Br].
      change (length ((i, v) :: t)) with (S (length t)) in M |- *.
      assert (Q1 := room_add n ml _ ltac:(lia) R1 Fl Bl). assert (Q2 := room_add n mr _ ltac:(lia) R2 Fr Br).
      specialize (IH (n + 1)%Z _ _ Ht ltac:(lia) ltac:(lia) Q1 Q2). cbv zeta in IH.
      destruct (ss_mix L f d sp t _) as [vs m]. cbn [fst snd] in *.
      destruct IH as (I1 & I2 & I3 & I4). split; [constructor; auto|]. split; [cbn; now rewrite I2|].
      replace (n + Z.of_nat (S (length t)))%Z with (n + 1 + Z.of_nat (length t))%Z by lia. auto.
  Qed.
  (** The sharp bound, once every voice has been running. *)
  Lemma peak_le : 0 <= peak d <= 4.1.
  Proof.
    unfold peak. assert (P : Rpower 2 (Rabs (B2R d) / 6) <= 2).
    { apply Rle_trans with (Rpower 2 1); [apply Rle_Rpower; lra|]. rewrite Rpower_1; lra. }
    pose proof (pow_pos 2 (Rabs (B2R d) / 6)). change (bpow radix2 (-7)) with (/ 128). lra.
  Qed.
  Definition gsum (g : Z -> R) (l : list (Z * svoice)) : R := fold_right (fun p a => peak d * g (fst p) + / 262144 + a) 0 l.
  Lemma gsum_nonneg (g : Z -> R) l : (forall i, 0 <= g i) -> 0 <= gsum g l.
  Proof.
    intros G. induction l as [|p t IH]; cbn; [lra|]. pose proof peak_le. specialize (G (fst p)). fold (gsum g t).
    assert (0 <= peak d * g (fst p)) by (apply Rmult_le_pos; lra). lra.
  Qed.
  Lemma fine_step (m x c : f32) g : fin m -> fin x -> fin c -> Rabs (B2R x) <= peak d -> Rabs (B2R c) = g -> g <= 1 -> Rabs (B2R m) <= 32 ->
    fin (fadd m (fmul x c)) /\ Rabs (B2R (fadd m (fmul x c))) <= Rabs (B2R m) + (peak d * g + / 262144).
  Proof.
    intros Fm Fx Fc Bx Eg G Bm. pose proof peak_le as PK. pose proof (Rabs_pos (B2R c)) as C0. rewrite Eg in C0.
    assert (Cm := cl_mul 3 0 0 4.1 1 x c _ _ ltac:(lia) (cl_self x Fx) (cl_self c Fc) ltac:(lra) ltac:(lra) ltac:(change (bpow radix2 3) with 8; lra)).
    change (bpow radix2 (3 - 25)) with (/ 4194304) in Cm.
    assert (Xc : Rabs (B2R x * B2R c) <= peak d * g) by (rewrite Rabs_mult, Eg; apply Rmult_le_compat_r; lra).
    assert (Pg : peak d * g <= 4.1) by nra.
    assert (Ca := cl_add 6 0 _ m (fmul x c) _ _ ltac:(lia) (cl_self m Fm) Cm).
    specialize (Ca ltac:(change (bpow radix2 6) with 64; pose proof (Rabs_triang (B2R m) (B2R x * B2R c)); lra)).
    change (bpow radix2 (6 - 25)) with (/ 524288) in Ca. split; [apply Ca|]. pose proof (cl_abs _ _ _ Ca) as A.
    pose proof (Rabs_triang (B2R m) (B2R x * B2R c)). lra.
  Qed.
  Lemma mix_fine l : forall ml mr, Forall (fun p => sv_inv sr (snd p) /\ warm L sr f d (snd p)) l -> fin ml -> fin mr ->
    Rabs (B2R ml) + gsum (gl L sp) l <= 32 -> Rabs (B2R mr) + gsum (gr L sp) l <= 32 ->
    let r := ss_mix L f d sp l (ml, mr) in
    (fin (fst (snd r)) /\ Rabs (B2R (fst (snd r))) <= Rabs (B2R ml) + gsum (gl L sp) l) /\
    (fin (snd (snd r)) /\ Rabs (B2R (snd (snd r))) <= Rabs (B2R mr) + gsum (gr L sp) l).
  Proof.
    induction l as [|[i v] t IH]; intros ml mr H F1 F2 B1 B2.
    - cbn [ss_mix fst snd gsum fold_right]. rewrite !Rplus_0_r. split; (split; [assumption|apply Rle_refl]).
    - inversion H as [|? ? [Hv Hw] Ht]; subst. cbn [snd] in Hv, Hw.
      destruct (sv_tick_ok L sr f d sp i v HP HR Ff Bf Fd Bd Hv) as (A & B & _ & x & Fx & _ & E & PK). specialize (PK Hw).
      cbv zeta. cbn [ss_mix]. destruct (sv_tick L f d sp i v) as [v' p]. cbn [fst snd] in A, B, E. subst p. unfold pan2_process. cbn [fst snd].
      destruct (pan_gain i) as [[Fc Gc] [Fs Gs]].
      change (gsum (gl L sp) ((i, v) :: t)) with (peak d * gl L sp i + / 262144 + gsum (gl L sp) t) in B1 |- *.
      change (gsum (gr L sp) ((i, v) :: t)) with (peak d * gr L sp i + / 262144 + gsum (gr L sp) t) in B2 |- *.
      pose proof (gsum_nonneg (gl L sp) t (fun i => Rabs_pos _)) as N1. pose proof (gsum_nonneg (gr L sp) t (fun i => Rabs_pos _)) as N2.
      pose proof peak_le as PL. pose proof (Rabs_pos (B2R (m_cos L (pan_angle (side i sp))))) as Q1. fold (gl L sp i) in Q1. pose proof (Rabs_pos (B2R (m_sin L (pan_angle (side i sp))))) as Q2. fold (gr L sp i) in Q2.
      assert (0 <= peak d * gl L sp i) by (apply Rmult_le_pos; lra). assert (0 <= peak d * gr L sp i) by (apply Rmult_le_pos; lra).
      destruct (fine_step ml x _ (gl L sp i) F1 Fx Fc PK eq_refl Gc ltac:(lra)) as [Fl Bl].
      destruct (fine_step mr x _ (gr L sp i) F2 Fx Fs PK eq_refl Gs ltac:(lra)) as [Fr Br].
      specialize (IH _ _ Ht Fl Fr ltac:(lra) ltac:(lra)). cbv zeta in IH.
      destruct (ss_mix L f d sp t _) as [vs m]. cbn [fst snd] in *. destruct IH as [[I1 I2] [I3 I4]]. split; (split; [assumption|lra]).
  Qed.
End Mix.

(** ** The instrument *)
Lemma saw_rate_ok sr : saw_rate sr -> rate_ok sr.
Proof. intros [Fs Bs]. split; [exact Fs|]. split; [lra|]. apply Rle_trans with (bpow radix2 21); [change (bpow radix2 21) with 2097152; lra|apply bpow_le; lia]. Qed.
Lemma saw_rate_sr sr : saw_rate sr -> sr_ok sr.
Proof. intros [Fs Bs]. apply flt_R; [reflexivity|exact Fs|]. rewrite fzero_R. lra. Qed.
Lemma rate_440 sr : saw_rate sr -> freq_ok sr (fofZ 440).
Proof. intros [Fs Bs]. destruct (fofZ_R (prec:=24) (emax:=128) 440 ltac:(lia)) as [A B]. split; [exact A|]. rewrite B. lra. Qed.

Definition ss_set_inv (sr : f32) (s : ssaw) : Prop :=
  (fin (ss_freq s) /\ B2R sr / 4096 <= B2R (ss_freq s) <= B2R sr / 5) /\ (fin (ss_vdepth s) /\ Rabs (B2R (ss_vdepth s)) <= 6) /\ unit_sample (ss_spread s).
Definition ss_inv (sr : f32) (s : ssaw) : Prop :=
  (Forall (sv_inv sr) (ss_voices s) /\ length (ss_voices s) = 7%nat) /\ ss_set_inv sr s /\ ad_inv (ss_env s).

Lemma offset_b i (d : f32) : (0 <= i <= 6)%Z -> fin d -> Rabs (B2R d) <= 12 -> fin (ss_offset i d) /\ Rabs (B2R (ss_offset i d)) <= 6.
Proof.
  intros Hi Fd Bd. unfold ss_offset.
  destruct (fofZ_R (prec:=24) (emax:=128) i ltac:(lia)) as [Fi Ei]. destruct (fofZ_R (prec:=24) (emax:=128) 6 ltac:(lia)) as [F6 E6].
  assert (J : 0 <= IZR i <= 6) by (split; apply IZR_le; lia).
  destruct (fdiv_b 0 1 (fofZ i : f32) (fofZ 6) dy0 dy1 Fi F6) as (Fq & _ & Bq); [rewrite E6; lra|rewrite Ei, E6; lra|].
  assert (H : fin (half : f32) /\ B2R (half : f32) = / 2) by (split; [ffin|fval (half : f32); lra]). destruct H as [Fh Eh].
  destruct (fsub_b (- / 2) (/ 2) (fdiv (fofZ i) (fofZ 6)) half (dy_opp _ dy_half) dy_half Fq Fh) as (Fs & _ & Bs); [rewrite Eh; lra|].
  assert (D6 : dy32 6) by (apply (dyZ 6); lia).
  destruct (fmul_b (- 6) 6 (fsub (fdiv (fofZ i) (fofZ 6)) half) d (dy_opp _ D6) D6 Fs Fd) as (F & _ & B).
  - apply Rabs_le_inv. rewrite Rabs_mult. replace 6 with (/ 2 * 12) by lra. apply Rmult_le_compat; try apply Rabs_pos; [apply Rabs_le; lra|exact Bd].
  - split; [exact F|now apply Rabs_le].
Qed.
Lemma idx_range i : In i idx -> (0 <= i <= 6)%Z.
Proof. unfold idx. cbn. intuition lia. Qed.
Lemma ss_init_inv L sr rnd : exp_unit L -> saw_rate sr -> (forall k, unit_sample (rnd k)) -> ss_inv sr (ss_init L sr rnd).
Proof.
  intros HE R U. pose proof (saw_rate_ok _ R) as R1. pose proof (rate_440 _ R) as Q.
  refine (conj (conj _ eq_refl) (conj (conj _ (conj _ _)) _)).
  - unfold ss_init. cbn [ss_voices]. apply Forall_map. apply Forall_forall. intros i Hi. apply idx_range in Hi.
    destruct (U (2 * i + 1)%Z) as [F1 B1]. destruct (U (2 * i)%Z) as [F2 B2].
    destruct (fofZ_R (prec:=24) (emax:=128) 4 ltac:(lia)) as [F4 E4]. destruct (fofZ_R (prec:=24) (emax:=128) 6 ltac:(lia)) as [F6 E6].
    assert (D4 : dy32 4) by (apply (dyZ 4); lia). assert (D2 : dy32 2) by (apply (dyZ 2); lia).
    assert (T : fin (two : f32) /\ B2R (two : f32) = 2) by (split; [ffin|fval (two : f32); lra]). destruct T as [Ft Et].
    destruct (fmul_b 0 4 (rnd (2 * i)%Z) (fofZ 4) dy0 D4 F2 F4) as (G & _ & _); [rewrite E4; lra|].
    destruct (fmul_b 0 2 (rnd (2 * i + 1)%Z) two dy0 D2 F1 Ft) as (G1 & _ & G2); [rewrite Et; lra|].
    destruct (fsub_b (- (1)) 1 _ one (dy_opp _ dy1) dy1 G1 one_fin) as (G3 & _ & _); [rewrite one_R; lra|].
    refine (conj _ (conj _ _)); cbn [sv_saw sv_vib sv_det].
    + apply sw_init_inv; auto using fin_nan.
    + apply (lt_op_inv sr (lt_init sr _) (OFreq (fofZ 6)) R1); [now apply lt_init_inv|]. destruct R as [_ R]. split; [exact F6|]. rewrite E6. lra.
    + apply offset_b; [lia|ffin|]. fval (fdec 2 10 : f32). apply Rabs_le. lra.
  - cbn [ss_init ss_freq]. destruct (fofZ_R (prec:=24) (emax:=128) 400 ltac:(lia)) as [A B]. split; [exact A|]. rewrite B. destruct R as [_ R]. lra.
  - cbn [ss_init ss_vdepth]. split; [ffin|]. fval (fdec 3 10 : f32). apply Rabs_le. lra.
  - cbn [ss_init ss_spread]. split; [ffin|]. fval (fdec 6 10 : f32). lra.
  - cbn [ss_init ss_env]. pose proof (ad_init_inv L sr HE (saw_rate_sr _ R)) as A0.
    pose proof (proj1 (ad_step_inv L _ (AdAttack (fdec 1 100)) HE Logic.I A0)) as A1. pose proof (proj1 (ad_step_inv L _ (AdDecay (fdec 1 10)) HE Logic.I A1)) as A2.
    pose proof (proj1 (ad_step_inv L _ (AdSustain (fdec 7 10)) HE eq_refl A2)) as A3. exact (proj1 (ad_step_inv L _ (AdRelease (fdec 3 10)) HE Logic.I A3)).
Qed.
Lemma norm_b : fin ss_norm /\ 0 <= B2R ss_norm <= 0.377965.
Proof. split; [ffin|]. fval ss_norm. lra. Qed.
Lemma zip_fwd {A} (P : A -> Prop) (l : list Z) vs : Forall P vs -> Forall (fun p => P (snd p)) (combine l vs).
Proof. intros H. apply Forall_forall. intros [i v] Hi. apply in_combine_r in Hi. rewrite Forall_forall in H. exact (H v Hi). Qed.
Lemma zip_len (vs : list svoice) : length vs = 7%nat -> length (combine idx vs) = 7%nat.
Proof. intros H. rewrite combine_length, H. reflexivity. Qed.
Lemma room0 : room 0 zero.
Proof. split; [reflexivity|]. change (B2R (zero : f32)) with 0. change (IZR (0 * 8192)) with 0. rewrite Rabs_R0. lra. Qed.
Definition ss_warm (L : libm) (sr : f32) (s : ssaw) : Prop := Forall (warm L sr (ss_freq s) (ss_vdepth s)) (ss_voices s).

(** One sample, and the state after it. *)
Lemma ss_tick_ok L sr s : pow2_acc L -> sin_unit L -> cos_unit L -> saw_rate sr -> ss_inv sr s ->
  (ss_inv sr (fst (ss_tick L s)) /\ ss_warm L sr (fst (ss_tick L s))) /\
  exists e ml mr, snd (ss_tick L s) = (fmul (fmul ml ss_norm) e, fmul (fmul mr ss_norm) e) /\ e = snd (ad_tick (ss_env s)) /\ unit_sample e /\ room 7 ml /\ room 7 mr /\
    (ml, mr) = snd (ss_mix L (ss_freq s) (ss_vdepth s) (ss_spread s) (combine idx (ss_voices s)) (zero, zero)).
Proof.
  intros HP HT HC R ([Hv Hn] & (Hf & Hd & Hs) & He). unfold ss_tick. destruct (ad_tick_inv _ He) as [A U].
  destruct Hf as [Ff Bf]. destruct Hd as [Fd Bd].
  pose proof (mix_ok L sr _ _ _ HP HT HC R Ff Bf Fd Bd Hs (combine idx (ss_voices s)) 0 zero zero (zip_fwd _ idx _ Hv) ltac:(lia)
    ltac:(rewrite zip_len by exact Hn; cbn; lia) room0 room0) as M. cbv zeta in M. rewrite zip_len in M by exact Hn.
  destruct (ad_tick (ss_env s)) as [env e]. destruct (ss_mix L _ _ _ _ _) as [vs [ml mr]]. cbn [fst snd] in *.
  destruct M as (M1 & M2 & M3 & M4). split.
  - split.
    + refine (conj (conj _ M2) (conj _ A)); [|exact (conj (conj Ff Bf) (conj (conj Fd Bd) Hs))]. cbn [ss_voices]. eapply Forall_impl; [|exact M1]. cbn. tauto.
    + unfold ss_warm. cbn [ss_voices ss_freq ss_vdepth]. eapply Forall_impl; [|exact M1]. cbn. tauto.
  - exists e, ml, mr. change (Z.of_nat 7) with 7%Z in *. tauto.
Qed.
Lemma ss_call_inv L sr s o : exp_unit L -> pow2_acc L -> sin_unit L -> cos_unit L -> saw_rate sr -> ss_ok sr o -> ss_inv sr s -> ss_inv sr (fst (ss_call L s o)).
Proof.
  intros HE HP HT HC R O I. pose proof (saw_rate_ok _ R) as R1. pose proof I as ([Hv Hn] & (Hf & Hd & Hs) & He). destruct o; cbn [ss_call fst].
  - destruct O as [-> O]. now apply ss_init_inv.
  - exact (conj (conj Hv Hn) (conj (conj O (conj Hd Hs)) He)).
  - refine (conj (conj _ _) (conj (conj Hf (conj Hd Hs)) He)); [|cbn [ss_setVibratoRate ss_voices]; now rewrite map_length].
    cbn [ss_setVibratoRate ss_voices]. apply Forall_map. eapply Forall_impl; [|exact Hv]. intros v (V1 & V2 & V3). refine (conj V1 (conj _ V3)).
    exact (lt_op_inv sr _ (OFreq r) R1 V2 O).
  - exact (conj (conj Hv Hn) (conj (conj Hf (conj O Hs)) He)).
  - refine (conj (conj _ _) (conj (conj Hf (conj Hd Hs)) He)); [|cbn [ss_setDetune ss_voices]; now rewrite map_length, zip_len].
    cbn [ss_setDetune ss_voices]. apply Forall_map. apply Forall_forall. intros [i v] Hi. cbn [fst snd]. destruct O as [Fo Bo].
    pose proof (idx_range i (in_combine_l _ _ _ _ Hi)) as Ri. apply in_combine_r in Hi. rewrite Forall_forall in Hv. destruct (Hv v Hi) as (V1 & V2 & _).
    refine (conj V1 (conj V2 _)). cbn [sv_det]. now apply offset_b.
  - refine (conj (conj Hv Hn) (conj (conj Hf (conj Hd _)) He)). now apply clamp01.
  - exact (conj (conj Hv Hn) (conj (conj Hf (conj Hd Hs)) (proj1 (ad_step_inv L _ (AdAttack t) HE Logic.I He)))).
  - exact (conj (conj Hv Hn) (conj (conj Hf (conj Hd Hs)) (proj1 (ad_step_inv L _ (AdDecay t) HE Logic.I He)))).
  - exact (conj (conj Hv Hn) (conj (conj Hf (conj Hd Hs)) (proj1 (ad_step_inv L _ (AdSustain l) HE O He)))).
  - exact (conj (conj Hv Hn) (conj (conj Hf (conj Hd Hs)) (proj1 (ad_step_inv L _ (AdRelease t) HE Logic.I He)))).
  - exact (conj (conj Hv Hn) (conj (conj Hf (conj Hd Hs)) (proj1 (ad_step_inv L _ (AdGate g) HE Logic.I He)))).
  - pose proof (proj1 (proj1 (ss_tick_ok L sr s HP HT HC R I))) as T. destruct (ss_tick L s). exact T.
  - refine (conj (conj _ _) (conj (conj Hf (conj Hd Hs)) (proj1 (ad_step_inv L _ AdReset HE Logic.I He)))); [|cbn [ss_reset ss_voices]; now rewrite map_length].
    cbn [ss_reset ss_voices]. apply Forall_map. eapply Forall_impl; [|exact Hv]. intros v (V1 & V2 & V3). refine (conj _ (conj V2 V3)).
    exact (sw_op_inv sr _ (OReset zero) R1 V1 Logic.I).
Qed.
Lemma ss_run_fst L o t s : fst (ss_run L s (o :: t)) = fst (ss_run L (fst (ss_call L s o)) t).
Proof. cbn [ss_run]. destruct (ss_call L s o) as [s1 r]. cbn [fst]. destruct (ss_run L s1 t). reflexivity. Qed.
Lemma ss_run_app L a : forall b s, fst (ss_run L s (a ++ b)) = fst (ss_run L (fst (ss_run L s a)) b).
Proof. induction a as [|o t IH]; intros b s; [reflexivity|]. cbn [app]. rewrite !ss_run_fst. apply IH. Qed.
Lemma ss_run_inv L sr ops : exp_unit L -> pow2_acc L -> sin_unit L -> cos_unit L -> saw_rate sr -> Forall (ss_ok sr) ops ->
  forall s, ss_inv sr s -> ss_inv sr (fst (ss_run L s ops)).
Proof.
  intros HE HP HT HC R H. induction H as [|o t Ho Ht IH]; intros s I; [exact I|]. rewrite ss_run_fst. apply IH. now apply ss_call_inv.
Qed.

(** *** Silence when the envelope is idle *)
Lemma ss_tick_silent L sr s : pow2_acc L -> sin_unit L -> cos_unit L -> saw_rate sr -> ss_inv sr s -> ss_isActive s = false ->
  silent (snd (ss_tick L s)) /\ ss_isActive (fst (ss_tick L s)) = false.
Proof.
  intros HP HT HC R I Q.
  assert (S : ad_state (ss_env s) = Idle) by (unfold ss_isActive, ad_isActive in Q; destruct (ad_state (ss_env s)); congruence).
  assert (T : ad_tick (ss_env s) = (ad_with (ss_env s) fzero Idle (ad_gate (ss_env s)) (ad_done (ss_env s)), fzero)) by (unfold ad_tick; now rewrite S).
  destruct (ss_tick_ok L sr s HP HT HC R I) as [_ (e & ml & mr & E & Ee & _ & M1 & M2 & _)]. rewrite T in Ee. cbn [snd] in Ee. subst e.
  split.
  - rewrite E. unfold silent. cbn [fst snd].
    assert (Z : forall m, room 7 m -> fin (fmul (fmul m ss_norm) fzero) /\ B2R (fmul (fmul m ss_norm) fzero) = 0).
    { intros m [Fm Bm]. destruct norm_b as [Fn Bn]. change (IZR (7 * 8192)) with 57344 in Bm.
      assert (D : dy32 57344) by (apply (dyZ 57344); lia).
      destruct (shrink ss_norm m 57344 Fn ltac:(apply unit_abs; lra) Fm Bm D) as [F1 _]. now apply mul_zero_fin. }
    exact (conj (Z ml M1) (Z mr M2)).
  - unfold ss_tick, ss_isActive. rewrite T. destruct (ss_mix L _ _ _ _ _) as [vs [a b]]. reflexivity.
Qed.
Lemma ss_quiet_call L s o : ss_quiet o -> ss_isActive s = false -> ss_isActive (fst (ss_call L s o)) = false.
Proof.
  intros Hq Q. destruct o; try exact Q; try reflexivity.
  - cbn [ss_quiet] in Hq. cbn [ss_call fst]. unfold ss_gate, ss_isActive, ss_with_env in *. cbn [ss_env]. unfold ad_setgate. change (flt fzero g) with (flt zero g).
    rewrite Hq, andb_false_r. destruct (_ && _); unfold ad_isActive, ad_with in *; cbn [ad_state]; destruct (ad_state (ss_env s)); congruence.
  - assert (S : ad_state (ss_env s) = Idle) by (unfold ss_isActive, ad_isActive in Q; destruct (ad_state (ss_env s)); congruence).
    cbn [ss_call]. unfold ss_tick. replace (ad_tick (ss_env s)) with (ad_with (ss_env s) fzero Idle (ad_gate (ss_env s)) (ad_done (ss_env s)), (fzero : f32)) by (unfold ad_tick; now rewrite S).
    destruct (ss_mix L _ _ _ _ _) as [vs [a b]]. reflexivity.
Qed.
Lemma ss_silent L sr rnd ops post : exp_unit L -> pow2_acc L -> sin_unit L -> cos_unit L -> saw_rate sr -> (forall k, unit_sample (rnd k)) ->
  Forall (ss_ok sr) (ops ++ post) -> ss_isActive (ss_after L sr rnd ops) = false -> Forall ss_quiet post ->
  Forall silent (ss_samples L (ss_after L sr rnd ops) post).
Proof.
  intros HE HP HT HC R U H Q Hq. apply Forall_app in H. destruct H as [H1 H2].
  pose proof (ss_run_inv L sr ops HE HP HT HC R H1 _ (ss_init_inv L sr rnd HE R U)) as I. fold (ss_after L sr rnd ops) in I. revert Q I. generalize (ss_after L sr rnd ops) as s.
  induction Hq as [|o t Ho Ht IH]; intros s Q I; [constructor|].
  inversion H2 as [|? ? H3 H4]; subst.
  pose proof (ss_call_inv L sr s o HE HP HT HC R H3 I) as I'. pose proof (ss_quiet_call L s o Ho Q) as Q'.
  assert (X : forall y, snd (ss_call L s o) = Some y -> silent y).
  { destruct o; cbn [ss_call snd]; try discriminate. pose proof (proj1 (ss_tick_silent L sr s HP HT HC R I Q)) as T.
    destruct (ss_tick L s). cbn [snd] in *. intros y E. injection E as <-. exact T. }
  unfold ss_samples in *. cbn [ss_run]. specialize (IH H4 _ Q' I'). destruct (ss_call L s o) as [s1 r]. cbn [fst snd] in *.
  destruct (ss_run L s1 t) as [s2 rs]. cbn [snd flat_map] in *. apply Forall_app. split; [|exact IH].
  destruct r as [y|]; [|constructor]. constructor; [now apply X|constructor].
Qed.

(** *** The bound on a running note *)
Lemma warm_call L sr s o : pow2_acc L -> sin_unit L -> cos_unit L -> saw_rate sr -> ss_steady o -> ss_inv sr s -> ss_warm L sr s -> ss_warm L sr (fst (ss_call L s o)).
Proof.
  intros HP HT HC R S I W. destruct o; try contradiction; try exact W.
  - unfold ss_warm. cbn [ss_call fst ss_setVibratoRate ss_voices ss_freq ss_vdepth]. apply Forall_map. eapply Forall_impl; [|exact W].
    intros v (s0 & y & A). exists s0, y. exact A.
  - pose proof (proj2 (proj1 (ss_tick_ok L sr s HP HT HC R I))) as T. cbn [ss_call]. destruct (ss_tick L s). exact T.
Qed.
Lemma steady_set L s o : ss_steady o -> ss_freq (fst (ss_call L s o)) = ss_freq s /\ ss_vdepth (fst (ss_call L s o)) = ss_vdepth s.
Proof.
  intros S. destruct o; try contradiction; try (split; reflexivity). cbn [ss_call]. unfold ss_tick. destruct (ad_tick _) as [a b]. destruct (ss_mix L _ _ _ _ _) as [c [u w]]. split; reflexivity.
Qed.
Definition seven {A} (vs : list A) : length vs = 7%nat -> exists a b c d e f g, vs = [a; b; c; d; e; f; g].
Proof. intros H. do 7 (destruct vs as [|? vs]; [discriminate|]). destruct vs; [|discriminate]. repeat eexists. Qed.
Lemma gsum7 d (g : Z -> R) vs : length vs = 7%nat -> (forall i, g i = g (i mod 2)%Z) ->
  gsum d g (combine idx vs) = peak d * (4 * g 0%Z + 3 * g 1%Z) + 7 * / 262144.
Proof.
  intros H G. destruct (seven vs H) as (v0 & v1 & v2 & v3 & v4 & v5 & v6 & ->). unfold gsum, idx. cbn [combine fold_right fst].
  rewrite (G 2%Z), (G 3%Z), (G 4%Z), (G 5%Z), (G 6%Z). change (2 mod 2)%Z with 0%Z. change (3 mod 2)%Z with 1%Z. change (4 mod 2)%Z with 0%Z. change (5 mod 2)%Z with 1%Z. change (6 mod 2)%Z with 0%Z. ring.
Qed.
Definition full (d : f32) : R := 3.78 * Rpower 2 (Rabs (B2R d) / 6) + 0.02.
Lemma out_bound d (m e : f32) g : fin d -> Rabs (B2R d) <= 6 -> fin m -> Rabs (B2R m) <= peak d * g + 7 * / 262144 -> 0 <= g -> g <= 5.00002 -> unit_sample e ->
  fin (fmul (fmul m ss_norm) e) /\ Rabs (B2R (fmul (fmul m ss_norm) e)) <= full d.
Proof.
  intros Fd Bd Fm Bm G0 G [Fe Be]. destruct norm_b as [Fn Bn]. pose proof (peak_le d Bd) as PK.
  assert (Pg : peak d * g <= peak d * 5.00002) by (apply Rmult_le_compat_l; lra).
  assert (Cm := cl_mul 4 0 0 21 0.377965 m ss_norm _ _ ltac:(lia) (cl_self m Fm) (cl_self ss_norm Fn) ltac:(lra) ltac:(rewrite Rabs_pos_eq; lra) ltac:(change (bpow radix2 4) with 16; lra)).
  change (bpow radix2 (4 - 25)) with (/ 2097152) in Cm.
  assert (Mn : Rabs (B2R m * B2R ss_norm) <= (peak d * 5.00002 + 7 * / 262144) * 0.377965).
  { rewrite Rabs_mult. apply Rmult_le_compat; try apply Rabs_pos; [lra|rewrite Rabs_pos_eq; lra]. }
  assert (Ce := cl_mul 4 _ 0 8 1 (fmul m ss_norm) e _ _ ltac:(lia) Cm (cl_self e Fe) ltac:(lra) ltac:(rewrite Rabs_pos_eq; lra) ltac:(change (bpow radix2 4) with 16; lra)).
  change (bpow radix2 (4 - 25)) with (/ 2097152) in Ce. split; [apply Ce|]. pose proof (cl_abs _ _ _ Ce) as A.
  assert (Me : Rabs (B2R m * B2R ss_norm * B2R e) <= (peak d * 5.00002 + 7 * / 262144) * 0.377965).
  { rewrite Rabs_mult, (Rabs_pos_eq (B2R e)) by lra. pose proof (Rabs_pos (B2R m * B2R ss_norm)). nra. }
  unfold full, peak in *. change (bpow radix2 (-7)) with (/ 128) in *. pose proof (pow_pos 2 (Rabs (B2R d) / 6)). lra.
Qed.
Lemma ss_steady_bound L sr rnd pre mid : exp_unit L -> pow2_acc L -> trig_acc L -> sin_unit L -> cos_unit L -> saw_rate sr -> (forall k, unit_sample (rnd k)) ->
  Forall (ss_ok sr) (pre ++ SsTick :: mid) -> Forall ss_steady mid ->
  let y := ss_next L (ss_after L sr rnd (pre ++ SsTick :: mid)) in let M := full (ss_vdepth (ss_after L sr rnd pre)) in
  (fin (fst y) /\ Rabs (B2R (fst y)) <= M) /\ (fin (snd y) /\ Rabs (B2R (snd y)) <= M).
Proof.
  intros HE HP HA HT HC R U H Hm. cbv zeta. unfold ss_after. rewrite ss_run_app. apply Forall_app in H. destruct H as [H1 H2]. inversion H2 as [|? ? _ H3]; subst.
  pose proof (ss_run_inv L sr pre HE HP HT HC R H1 _ (ss_init_inv L sr rnd HE R U)) as I. set (s := fst (ss_run L (ss_init L sr rnd) pre)) in *. clearbody s.
  rewrite ss_run_fst. destruct (ss_tick_ok L sr s HP HT HC R I) as [[I1 W1] _].
  assert (E1 : fst (ss_call L s SsTick) = fst (ss_tick L s)) by (cbn [ss_call]; destruct (ss_tick L s); reflexivity).
  assert (D1 : ss_vdepth (fst (ss_call L s SsTick)) = ss_vdepth s) by (apply (steady_set L s SsTick Logic.I)). rewrite <- D1. rewrite E1 in *. clear D1 E1.
  set (t := fst (ss_tick L s)) in *. clearbody t. clear I s.
  assert (X : forall ops, Forall (ss_ok sr) ops -> Forall ss_steady ops -> forall s, ss_inv sr s -> ss_warm L sr s ->
    (ss_inv sr (fst (ss_run L s ops)) /\ ss_warm L sr (fst (ss_run L s ops))) /\ ss_vdepth (fst (ss_run L s ops)) = ss_vdepth s).
  { induction ops as [|o ops IH]; intros A B s I W; [auto|]. inversion A; inversion B; subst. rewrite ss_run_fst.
    destruct (steady_set L s o ltac:(assumption)) as [_ E]. rewrite <- E. apply IH; auto; [now apply ss_call_inv|now apply warm_call]. }
  destruct (X mid H3 Hm t I1 W1) as [[I2 W2] E]. rewrite <- E. set (z := fst (ss_run L t mid)) in *. clearbody z. clear X E I1 W1 t.
  destruct (ss_tick_ok L sr z HP HT HC R I2) as [_ (e & ml & mr & Ey & _ & Ue & _ & _ & Em)]. unfold ss_next. rewrite Ey. cbn [fst snd].
  destruct I2 as ([Hv Hn] & ([Ff Bf] & [Fd Bd] & Hs) & _).
  assert (PL : forall i, gl L (ss_spread z) i = gl L (ss_spread z) (i mod 2)) by (intros i; unfold gl; now rewrite (side_parity i)).
  assert (PR : forall i, gr L (ss_spread z) i = gr L (ss_spread z) (i mod 2)) by (intros i; unfold gr; now rewrite (side_parity i)).
  destruct (gains L _ HA Hs) as [GL GR]. pose proof (peak_le _ Bd) as PK.
  assert (N : forall i, 0 <= gl L (ss_spread z) i /\ 0 <= gr L (ss_spread z) i) by (intros i; split; apply Rabs_pos).
  pose proof (N 0%Z) as [N1 N2]. pose proof (N 1%Z) as [N3 N4].
  pose proof (mix_fine L sr _ _ _ HP HT HC R Ff Bf Fd Bd Hs (combine idx (ss_voices z)) zero zero) as M. cbv zeta in M.
  match type of M with context [ss_mix ?a ?b ?c ?d ?e ?f] => change ((ml, mr) = snd (ss_mix a b c d e f)) in Em end. rewrite <- Em in M. cbn [fst snd] in M.
  rewrite !gsum7 in M by assumption. change (B2R (zero : f32)) with 0 in M. rewrite Rabs_R0, !Rplus_0_l in M.
  assert (ZB : forall g, 0 <= g -> g <= 5.00002 -> peak (ss_vdepth z) * g + 7 * / 262144 <= 32) by (intros g A B; nra).
  destruct M as [[M1 M2] [M3 M4]]; try reflexivity; try (apply ZB; lra).
  - apply Forall_forall. intros [i v] Hi. apply in_combine_r in Hi. cbn [snd]. rewrite Forall_forall in Hv. unfold ss_warm in W2. rewrite Forall_forall in W2. split; auto.
  - split.
    + apply (out_bound _ ml e _ Fd Bd M1 M2); auto; lra.
    + apply (out_bound _ mr e _ Fd Bd M3 M4); auto; lra.
Qed.
