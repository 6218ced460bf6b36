(** FVerb: whole histories of calls; when the program is defined. *)
From Coq Require Import ZArith Reals Bool List Lra Lia Psatz.
From Flocq Require Import Core BinarySingleNaN.
From Verif Require Import Flt FltFacts FltMore FltKey FltArith Libm UtilModel UtilProofs FvModel FvSpec FvProofs FvProofs2.
Import ListNotations.

Lemma frames_refine L w xs : forall d e, rel d e ->
  match ideal_frames L w e xs with
  | None => fv_frames L w d xs = None
  | Some (e', ys) =>
      if (d_iota d + Z.of_nat (length xs) <? 2 ^ 31)%Z
      then exists d', fv_frames L w d xs = Some (d', ys) /\ rel d' e' /\ d_iota d' = (d_iota d + Z.of_nat (length xs))%Z
      else fv_frames L w d xs = None
  end.
Proof.
  induction xs as [|[xl xr] t IH]; intros d e H.
  - cbn [ideal_frames fv_frames length]. replace (d_iota d + Z.of_nat 0)%Z with (d_iota d) by lia.
    destruct H as (A & B & C & I & D). destruct (Z.ltb_spec (d_iota d) (2 ^ 31)) as [N|N]; [|unfold i31 in I; lia].
    eexists. split; [reflexivity|]. split; [exact (conj A (conj B (conj C (conj I D))))|reflexivity].
  - cbn [ideal_frames fv_frames]. pose proof (frame_refines L w d e xl xr H) as R.
    destruct (ctl_step L (e_k e) w (e_c e)) as [[c pre]|]; [|now rewrite R].
    destruct (net_step (rate (e_sr e)) (t_par c) pre (t_R c) (t_L c) xl xr (e_n e)) as [[n o0] o1].
    destruct (Z.ltb_spec (d_iota d + 1) (2 ^ 31)) as [N|N].
    + destruct R as (d1 & E1 & R1 & I1). rewrite E1. specialize (IH d1 _ R1).
      destruct (ideal_frames L w (Ideal (e_sr e) (e_k e) (e_sl e) c n) t) as [[e' os]|]; [|now rewrite IH].
      rewrite I1 in IH. replace (d_iota d + Z.of_nat (length ((xl, xr) :: t)))%Z with (d_iota d + 1 + Z.of_nat (length t))%Z by (cbn [length]; lia).
      destruct (d_iota d + 1 + Z.of_nat (length t) <? 2 ^ 31)%Z; [|now rewrite IH].
      destruct IH as (d' & E' & R' & I'). rewrite E'. eexists. split; [reflexivity|]. split; assumption.
    + rewrite R. destruct (ideal_frames L w (Ideal (e_sr e) (e_k e) (e_sl e) c n) t) as [[e' os]|]; [|reflexivity].
      destruct (Z.ltb_spec (d_iota d + Z.of_nat (length ((xl, xr) :: t))) (2 ^ 31)) as [N'|N']; [|reflexivity].
      cbn [length] in N'. lia.
Qed.

(** ** Calls *)
Definition frel (on buf : bool) (n : Z) (f : fverb) (e : option ideal) : Prop :=
  fv_bufs f = buf /\ (0 <= fv_alloc f)%Z /\ (buf = false -> fv_alloc f = 0%Z) /\
  match fv_dsp f, e with
  | None, None => on = false
  | Some d, Some i => on = true /\ rel d i /\ d_iota d = n
  | _, _ => False
  end.

Lemma rel0 (n : Z) k sl : taps_ok (rate n) k -> rel (FvDsp k sl 0 fv_par0 zero fv_in0 fv_R0 fv_in0 fv_L0) (Ideal n k sl ctl0 net0).
Proof.
  intros H. unfold rel. cbn [d_k d_sl d_iota d_par d_ph d_inR d_R d_inL d_L e_sr e_k e_sl e_c e_n].
  assert (Z0 : forall D, in_rel D 0 fv_in0 side0).
  { intros D. unfold in_rel, fv_in0, side0. cbn [i_pre i_lp i_hp i_v1 i_r1 i_v2 i_r2 i_v3 i_r3 i_v4 i_r4 n_pre n_lp n_hp n_1 n_2 n_3 n_4].
    assert (A : forall j, zero = ago j []) by (intros j; unfold ago; now destruct (Z.to_nat j)).
    repeat split; try apply keeps0; apply A. }
  assert (A : forall j, zero = ago j []) by (intros j; unfold ago; now destruct (Z.to_nat j)).
  split; [reflexivity|]. split; [exact H|]. split; [reflexivity|]. split; [unfold i31; lia|]. split; [reflexivity|]. split; [reflexivity|].
  split; [apply Z0|]. split; [|split; [apply Z0|]];
    unfold half_rel, fv_R0, fv_L0, net0, side0, ctl0; cbn [h_v5 h_mod h_r10 h_v7 h_r9 h_v8 h_r6 h_out h_damp h_diff nR nL t_R t_L n_5 n_z n_7 n_d n_8 n_out n_damp n_diff];
    repeat split; try apply keeps0; apply A.
Qed.

Lemma sl_init : fv_setp INPUT_DIFFUSION_2 (fv_clamp INPUT_DIFFUSION_2 (fofZ 75)) (fv_setp INPUT_DIFFUSION_1 (fv_clamp INPUT_DIFFUSION_1 (fofZ 70))
  (fv_setp TAIL_DENSITY (fv_clamp TAIL_DENSITY (fofZ 80)) (fv_setp DECAY (fv_clamp DECAY (fofZ 82)) (fv_setp PREDELAY (fv_clamp PREDELAY (fofZ 150)) fv_sl0)))) =
  FvSl (fofZ 5500) (fofZ 80) (fofZ 75) (fofZ 70) (fofZ 100) (fofZ 10000) (fofZ 100) (fofZ 150) (fofZ 82) one half.
Proof. vm_compute. reflexivity. Qed.

Lemma to_int_abs x n : to_int x = Some n -> (Z.abs n <= 2 ^ 31)%Z.
Proof. intros H. apply ftoZ_some in H. unfold INT_MIN, INT_MAX in H. lia. Qed.

(** What one call needs and what it leaves. *)
Definition ok1 (o : fvop) (on buf : bool) (n : Z) : Prop :=
  match o with FvProc xs => on = true -> (n + Z.of_nat (length xs) < 2 ^ 31)%Z /\ (buf = true \/ xs <> []) | _ => True end.
Definition on1 (o : fvop) (on : bool) : bool := match o with FvInit _ => true | _ => on end.
Definition buf1 (o : fvop) (on buf : bool) : bool := match o with FvProc _ => if on then true else buf | _ => buf end.
Definition n1 (o : fvop) (on : bool) (n : Z) : Z :=
  match o with FvInit _ | FvReset => 0 | FvSet _ _ => n | FvProc xs => if on then n + Z.of_nat (length xs) else n end.
Lemma lasts_opens o h on buf n : lasts on n (o :: h) /\ opens on buf (o :: h) <->
  ok1 o on buf n /\ lasts (on1 o on) (n1 o on n) h /\ opens (on1 o on) (buf1 o on buf) h.
Proof. destruct o; destruct on; cbn [lasts opens ok1 on1 n1 buf1]; intuition congruence. Qed.

Lemma op_refines L o f e on buf n : frel on buf n f e -> ok1 o on buf n ->
  match ideal_op L o e with
  | None => fv_op L o f = None
  | Some (e', ys) => exists f', fv_op L o f = Some (f', ys) /\ frel (on1 o on) (buf1 o on buf) (n1 o on n) f' e'
  end.
Proof.
  intros (EB & A0 & AB & F) OK. destruct o as [sr|p x| |xs]; cbn [ideal_op fv_op on1 n1 buf1].
  - unfold fv_init. destruct (to_int sr) as [z|] eqn:EZ; [|reflexivity]. unfold fv_dinit.
    destruct (consts_ok z (to_int_abs _ _ EZ)) as (k & EK & _ & TK & _). rewrite EK.
    eexists. split; [reflexivity|].
    unfold fv_set. cbn [fv_dsp d_k d_sl d_iota d_par d_ph d_inR d_R d_inL d_L fv_alloc fv_bufs]. rewrite sl_init.
    unfold frel. cbn [fv_dsp fv_bufs fv_alloc]. split; [exact EB|]. split; [exact A0|]. split; [exact AB|]. split; [reflexivity|]. split; [now apply rel0|reflexivity].
  - eexists. split; [reflexivity|]. unfold fv_set.
    destruct f as [[d|] al bu]; destruct e as [i|]; cbn [fv_dsp fv_alloc fv_bufs] in *; try contradiction; try (now repeat split).
    destruct F as (ON & R & EN). unfold frel. cbn [fv_dsp fv_bufs fv_alloc]. split; [exact EB|]. split; [exact A0|]. split; [exact AB|]. split; [exact ON|]. split; [|exact EN].
    destruct R as (R1 & R2 & R3 & R4). unfold rel. cbn [d_k d_sl d_iota d_par d_ph d_inR d_R d_inL d_L e_sr e_k e_sl e_c e_n]. rewrite R3. split; [exact R1|]. split; [exact R2|]. split; [reflexivity|exact R4].
  - eexists. split; [reflexivity|]. unfold fv_reset.
    destruct f as [[d|] al bu]; destruct e as [i|]; cbn [fv_dsp fv_alloc fv_bufs] in *; try contradiction; try (now repeat split).
    destruct F as (ON & R & EN). unfold frel. cbn [fv_dsp fv_bufs fv_alloc]. split; [exact EB|]. split; [exact A0|]. split; [exact AB|]. split; [exact ON|]. split; [|reflexivity].
    destruct R as (R1 & R2 & R3 & R4). unfold fv_clear. rewrite R1, R3. now apply rel0.
  - unfold fv_process. destruct f as [[d|] al bu]; destruct e as [i|]; cbn [fv_dsp fv_alloc fv_bufs] in *; try contradiction.
    + destruct F as (-> & R & EN). cbn [ok1] in OK. destruct (OK eq_refl) as [HN HB].
      assert (BT : fv_bufs (fv_allocate (Z.of_nat (length xs)) (FVerb (Some d) al bu)) = true).
      { unfold fv_allocate. cbn [fv_alloc fv_dsp]. destruct (Z.geb_spec al (Z.of_nat (length xs))) as [G|G]; [|reflexivity]. cbn [fv_bufs].
        destruct bu; [reflexivity|]. subst buf. specialize (AB eq_refl). destruct HB as [HB|HB]; [discriminate|].
        destruct xs; [contradiction|]. cbn [length] in G. lia. }
      rewrite BT. unfold fv_compute. pose proof (frames_refine L (fv_slow L (d_k d) (d_sl d)) xs d i R) as Q.
      assert (EKS : d_k d = e_k i /\ d_sl d = e_sl i) by (destruct R as (R1 & R2 & R3 & _); now split). destruct EKS as [EK ES].
      rewrite EK, ES in Q |- *.
      destruct (ideal_frames L (fv_slow L (e_k i) (e_sl i)) i xs) as [[i' ys]|]; [|now rewrite Q].
      rewrite EN in Q. destruct (Z.ltb_spec (n + Z.of_nat (length xs)) (2 ^ 31)) as [N|N]; [|lia].
      destruct Q as (d' & E' & R' & I'). rewrite E'. eexists. split; [reflexivity|].
      unfold frel. cbn [fv_dsp fv_bufs fv_alloc]. split; [reflexivity|]. split; [|split; [discriminate|split; [reflexivity|split; [exact R'|exact I']]]].
      unfold fv_allocate. cbn [fv_alloc fv_dsp]. destruct (Z.geb_spec al (Z.of_nat (length xs))); cbn [fv_alloc]; lia.
    + subst on. eexists. split; [reflexivity|]. unfold frel. cbn [fv_dsp fv_bufs fv_alloc]. now repeat split.
Qed.

Lemma op_needs L o f e on buf n r : frel on buf n f e -> fv_op L o f = Some r -> ok1 o on buf n.
Proof.
  intros (EB & A0 & AB & F) H. destruct o as [sr|p x| |xs]; cbn [ok1]; try exact I. intros ->.
  cbn [fv_op] in H. unfold fv_process in H. destruct f as [[d|] al bu]; destruct e as [i|]; cbn [fv_dsp fv_alloc fv_bufs] in *; try contradiction; [|discriminate].
  destruct F as (_ & R & EN). destruct (fv_bufs (fv_allocate (Z.of_nat (length xs)) (FVerb (Some d) al bu))) eqn:BT; [|discriminate]. split.
  - unfold fv_compute in H. pose proof (frames_refine L (fv_slow L (d_k d) (d_sl d)) xs d i R) as Q.
    destruct (ideal_frames L (fv_slow L (d_k d) (d_sl d)) i xs) as [[i' ys]|]; [|rewrite Q in H; discriminate].
    rewrite EN in Q. destruct (Z.ltb_spec (n + Z.of_nat (length xs)) (2 ^ 31)) as [N|N]; [exact N|]. rewrite Q in H. discriminate.
  - destruct buf; [now left|]. right. intros ->. unfold fv_allocate in BT. cbn [fv_alloc length] in BT. rewrite (AB eq_refl) in BT. cbn in BT. congruence.
Qed.

(** ** Histories *)
Lemma run_refines L h : forall f e on buf n, frel on buf n f e -> lasts on n h -> opens on buf h ->
  match ideal_run L h e with
  | None => fv_run L h f = None
  | Some (e', ys) => exists f', fv_run L h f = Some (f', ys)
  end.
Proof.
  induction h as [|o h IH]; intros f e on buf n F HL HO.
  - cbn [ideal_run fv_run]. now exists f.
  - cbn [ideal_run fv_run]. destruct (proj1 (lasts_opens o h on buf n) (conj HL HO)) as (OK & HL1 & HO1).
    pose proof (op_refines L o f e on buf n F OK) as R.
    destruct (ideal_op L o e) as [[e1 a]|]; [|now rewrite R].
    destruct R as (f1 & E1 & F1). rewrite E1.
    specialize (IH f1 e1 _ _ _ F1 HL1 HO1).
    destruct (ideal_run L h e1) as [[e2 b]|]; [|now rewrite IH]. destruct IH as (f2 & E2). rewrite E2. now exists f2.
Qed.
(** Conversely, the program only survives such histories. *)
Lemma run_needs L h : forall f e on buf n r, frel on buf n f e -> fv_run L h f = Some r -> lasts on n h /\ opens on buf h.
Proof.
  induction h as [|o h IH]; intros f e on buf n r F HR; [now split|].
  cbn [fv_run] in HR. destruct (fv_op L o f) as [[f1 a]|] eqn:E1; [|discriminate].
  destruct (fv_run L h f1) as [[f2 b]|] eqn:E2; [|discriminate].
  pose proof (op_needs L o f e on buf n _ F E1) as OK. pose proof (op_refines L o f e on buf n F OK) as R. rewrite E1 in R.
  destruct (ideal_op L o e) as [[e1 a1]|]; [|discriminate]. destruct R as (f1' & EQ & F1). injection EQ as EQ _. subst f1'.
  apply lasts_opens. split; [exact OK|]. exact (IH f1 e1 _ _ _ _ F1 E2).
Qed.
Lemma frel_new : frel false false 0 fv_new None.
Proof. unfold frel, fv_new. cbn. repeat split. lia. Qed.

Lemma history_exact L h :
  match fv_run L h fv_new with
  | Some (_, ys) => lasts false 0 h /\ opens false false h /\ exists e, ideal_run L h None = Some (e, ys)
  | None => ~ (lasts false 0 h /\ opens false false h /\ ideal_run L h None <> None)
  end.
Proof.
  destruct (fv_run L h fv_new) as [[f ys]|] eqn:E.
  - destruct (run_needs L h _ _ _ _ _ _ frel_new E) as [A B]. split; [exact A|]. split; [exact B|].
    pose proof (run_refines L h _ _ _ _ _ frel_new A B) as R. destruct (ideal_run L h None) as [[e ys']|]; [|congruence].
    destruct R as (f' & E'). rewrite E in E'. injection E' as _ <-. now exists e.
  - intros (A & B & N). pose proof (run_refines L h _ _ _ _ _ frel_new A B) as R. destruct (ideal_run L h None) as [[e ys']|]; [|now apply N].
    destruct R as (f' & E'). congruence.
Qed.
