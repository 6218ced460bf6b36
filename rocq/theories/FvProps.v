(** Properties of FVerb: C46-C48 and C80-C86. *)
From Coq Require Import ZArith Reals Bool List Lra Lia.
From Flocq Require Import Core BinarySingleNaN.
From Verif Require Import Flt FltFacts Libm LibmInst UtilModel UtilProofs EnvSpec EnvInst OscSpec OscInst FvModel FvSpec FvSpec2 FvProofs FvProofs3 FvProofs4 FvProofs5 FvProofs6 FvProofs7 FvProofs8 FvProofs9.
Import ListNotations.

(** A library for the examples: exp is 1/2, sin is 0. *)
Definition verb_libm : libm := {|
  m_exp := fun x => if is_nan x then B754_nan else half; m_sin := fun _ => zero; m_cos := fun _ => one; m_tan := fun x => x; m_tanh := fun x => x;
  m_log := fun x => x; m_atan := fun x => x; m_pow := fun x _ => x;
  d_exp := fun x => x; d_sin := fun x => x; d_cos := fun x => x; d_tan := fun x => x; d_tanh := fun x => x; d_pow := fun x _ => x |}.
Lemma verb_sin : sin_unit verb_libm.
Proof. intros x F. cbn [verb_libm m_sin]. split; [reflexivity|]. rewrite zero_R. lra. Qed.
Lemma verb_exp : exp_unit verb_libm.
Proof.
  intros x H. cbn [verb_libm m_exp]. replace (is_nan x) with false; [|symmetry; destruct x; try reflexivity; discriminate H].
  split; [ffin|]. fval half. lra.
Qed.
Lemma verb_nan : exp_nan verb_libm.
Proof. intros x H. cbn [verb_libm m_exp]. now rewrite H. Qed.
Lemma exact_exp_nan : exp_nan exact_libm.
Proof. intros x H. destruct x; try discriminate H. reflexivity. Qed.
Lemma sr200 : fin (fofZ 200 : f32) /\ (45 <= B2R (fofZ 200 : f32) < 2147483648)%R.
Proof. destruct (fofZ_R (prec:=24) (emax:=128) 200 ltac:(cbn; lia)) as [F E]. split; [exact F|]. rewrite E. lra. Qed.
(** Blocks: a click on one channel followed by silence. *)
Definition clickR (n : nat) : list (f32 * f32) := (zero, one) :: repeat (zero, zero) n.
Definition clickL (n : nat) : list (f32 * f32) := (one, zero) :: repeat (zero, zero) n.
Definition show (r : option (list (f32 * f32))) : option (list (bool * bool)) :=
  match r with Some ys => Some (map (fun y => (negb (feq (fst y) zero), negb (feq (snd y) zero))) ys) | None => None end.

(** ** C46: settings *)
(** After any history of calls every setting is what was last asked for since the last [init], moved to the nearer end of the documented range
    if outside it, or the default of [init]. *)
Theorem C46_settings : forall L h f ys d p, fv_run L h fv_new = Some (f, ys) -> fv_dsp f = Some d ->
  match last_set p None (tuning [] h) with
  | None => fin (slider p (d_sl d)) /\ B2R (slider p (d_sl d)) = default p
  | Some x => is_nan x = false -> fin (slider p (d_sl d)) /\ B2R (slider p (d_sl d)) = held p x
  end.
Proof.
  intros L h f ys d p HR HD. pose proof (settings L h f ys d p HR HD) as S. unfold shows in S. destruct (last_set p None (tuning [] h)) as [x|]; [|exact S].
  intros N. now rewrite N in S.
Qed.
Print Assumptions C46_settings.
Theorem C46_range : forall p x, is_nan x = false -> (range_lo p <= held p x <= range_hi p)%R /\ (range_lo p <= default p <= range_hi p)%R /\
  (fin x -> (range_lo p <= B2R x <= range_hi p)%R -> held p x = B2R x).
Proof.
  intros p x N. assert (LH : (range_lo p <= default p <= range_hi p)%R) by (destruct p; cbn [range_lo range_hi default]; lra).
  unfold held. split; [|split; [exact LH|]].
  - assert (M : (range_lo p <= Rmax (range_lo p) (Rmin (range_hi p) (B2R x)) <= range_hi p)%R) by (split; [apply Rmax_l|apply Rmax_lub; [lra|apply Rmin_l]]).
    destruct x as [s|[|]| |s m e B]; try exact M; lra.
  - intros F B. destruct x as [s|[|]| |s m e HB]; try discriminate F; (rewrite Rmin_right by lra; now rewrite Rmax_right by lra).
Qed.
Print Assumptions C46_range.
(** No setter keeps a NaN out. *)
Theorem C46_nan_refuted : forall L h f ys d p, fv_run L h fv_new = Some (f, ys) -> fv_dsp f = Some d -> last_set p None (tuning [] h) = Some nan32 ->
  is_nan (slider p (d_sl d)) = true.
Proof. intros L h f ys d p HR HD E. pose proof (settings L h f ys d p HR HD) as S. rewrite E in S. exact S. Qed.
Print Assumptions C46_nan_refuted.
Example ex_C46 :
  (* the usage example of FVerb.h asks for a decay of 0.82: that is 0.82 percent; a predelay of 500 ms becomes 300 *)
  exists f ys d, fv_run verb_libm [FvInit (fofZ 48000); FvSet DECAY (fdec 82 100); FvSet PREDELAY (fofZ 500); FvReset; FvSet DECAY nan32; FvSet DECAY (fofZ 40)] fv_new = Some (f, ys) /\
    fv_dsp f = Some d /\ B2R (slider DECAY (d_sl d)) = 40%R /\ B2R (slider PREDELAY (d_sl d)) = 300%R /\ B2R (slider DAMPING (d_sl d)) = 5500%R.
Proof.
  eexists _, _, _. split; [vm_compute; reflexivity|]. split; [reflexivity|].
  match goal with |- B2R (slider _ ?s) = _ /\ _ => set (sl := s) end.
  assert (E : slider DECAY sl = fofZ 40 /\ slider PREDELAY sl = fofZ 300 /\ slider DAMPING sl = fofZ 5500) by (vm_compute; repeat split). destruct E as (-> & -> & ->).
  assert (Z : forall n, (Z.abs n <= 2 ^ 24)%Z -> B2R (fofZ n : f32) = IZR n) by (intros n Hn; apply (fofZ_R (prec:=24) (emax:=128) n Hn)).
  rewrite !Z by lia. repeat split.
Qed.

(** ** C47: the program is the network *)
(** For every history of calls: the program runs exactly if the history keeps below 2^31 frames per start, begins with a non-empty block, and no control
    value leaves the range of [int]; and then it delivers, frame by frame, what the network of ideal delay lines delivers. *)
Theorem C47_network : forall L h,
  match fv_run L h fv_new with
  | Some (_, ys) => lasts false 0 h /\ opens false false h /\ exists e, ideal_run L h None = Some (e, ys)
  | None => ~ (lasts false 0 h /\ opens false false h /\ ideal_run L h None <> None)
  end.
Proof. exact history_exact. Qed.
Print Assumptions C47_network.
(** The sine table holds the sines. *)
Theorem C47_table : forall L n i, (i < n)%nat -> (Z.of_nat n <= 65536)%Z ->
  nth i (fv_fill L n 0 0) zero = m_sin L (fmul (flit 13176795 (-37)) (fofZ (Z.of_nat i))).
Proof. exact fill_table. Qed.
Print Assumptions C47_table.
Example ex_C47 :
  (* a click on the right at 200 Hz: program and network agree, and something comes out *)
  let h := [FvInit (fofZ 200); FvSet PREDELAY zero; FvProc (clickR 15)] in
  outs verb_libm h fv_new = match ideal_run verb_libm h None with Some (_, ys) => Some ys | None => None end /\
  show (outs verb_libm h fv_new) = Some ([(false, false)] ++ repeat (true, false) 13 ++ repeat (true, true) 2).
Proof. vm_compute. split; reflexivity. Qed.

(** ** C48: empty blocks *)
(** An empty block changes nothing, unless it is the first block of an initialised reverb. *)
Theorem C48_empty : forall L h t, opens false false (h ++ [FvProc []]) -> outs L (h ++ FvProc [] :: t) fv_new = outs L (h ++ t) fv_new.
Proof. exact empty_block. Qed.
Print Assumptions C48_empty.
Theorem C48_first_refuted : forall L h sr t, Forall (fun o => match o with FvProc (_ :: _) => False | _ => True end) h ->
  fv_run L (h ++ FvInit sr :: FvProc [] :: t) fv_new = None.
Proof. exact init_empty. Qed.
Print Assumptions C48_first_refuted.
Theorem C48_only_first : forall L h, opens false false (h ++ [FvProc []]) \/ fv_run L (h ++ [FvProc []]) fv_new = None.
Proof. exact first_empty. Qed.
Print Assumptions C48_only_first.
(** Before [init] the input passes through. *)
Theorem C48_bypass : forall L h, Forall (fun o => match o with FvInit _ => False | _ => True end) h -> outs L h fv_new = Some (ins h).
Proof. exact bypass. Qed.
Print Assumptions C48_bypass.
Example ex_C48 :
  opens false false [FvInit (fofZ 200); FvProc [(one, half)]; FvProc []] /\
  outs verb_libm [FvInit (fofZ 200); FvProc [(one, half)]; FvProc []; FvProc [(one, one)]] fv_new <> None /\
  fv_run verb_libm [FvInit (fofZ 200); FvProc []; FvProc [(one, half)]] fv_new = None /\
  outs verb_libm [FvProc []; FvSet DECAY one; FvProc [(one, half)]; FvReset] fv_new = Some [(one, half)].
Proof.
  split; [cbn; repeat split; (now left) || (right; discriminate)|].
  assert (E : match outs verb_libm [FvInit (fofZ 200); FvProc [(one, half)]; FvProc []; FvProc [(one, one)]] fv_new with Some _ => true | None => false end = true) by (vm_compute; reflexivity).
  split; [intros N; rewrite N in E; discriminate E|]. split; vm_compute; reflexivity.
Qed.

(** ** C80: no undefined behaviour *)
Theorem C80_defined : forall L h, sin_unit L -> Forall op_good h -> lasts false 0 h -> opens false false h -> exists f ys, fv_run L h fv_new = Some (f, ys).
Proof. exact run_defined. Qed.
Print Assumptions C80_defined.
Theorem C80_nan_refuted : forall L h p x xs t fs, p = PREDELAY \/ p = MODULATOR_FREQUENCY \/ p = MODULATOR_DEPTH -> rate_in_force None h = Some fs ->
  fv_run L (h ++ FvSet p nan32 :: FvProc (x :: xs) :: t) fv_new = None.
Proof. exact nan_undefined. Qed.
Print Assumptions C80_nan_refuted.
(** At a rate of 1 Hz the second modulated line is read outside its buffer. *)
Theorem C80_low_rate_refuted : exists xs, length xs = 7%nat /\ fv_run verb_libm [FvInit one; FvProc xs] fv_new = None.
Proof. exists (repeat (zero, zero) 7). split; [reflexivity|]. vm_compute. reflexivity. Qed.
Print Assumptions C80_low_rate_refuted.
Example ex_C80 : exists f ys, fv_run exact_libm
  [FvInit (fofZ 48000); FvSet PREDELAY (B754_infinity true); FvProc [(one, one); (B754_nan, B754_infinity false)]; FvInit (fofZ 192000); FvReset; FvProc [(half, zero)]] fv_new = Some (f, ys).
Proof.
  assert (Z : forall n, (45 <= n <= 2 ^ 24)%Z -> fin (fofZ n : f32) /\ (45 <= B2R (fofZ n : f32) < 2147483648)%R).
  { intros n Hn. destruct (fofZ_R (prec:=24) (emax:=128) n ltac:(cbn; lia)) as [F E]. split; [exact F|]. rewrite E.
    split; [apply IZR_le|apply IZR_lt]; [lia|]. apply (Z.le_lt_trans _ (2 ^ 24)); [lia|reflexivity]. }
  apply C80_defined.
  - exact exact_sin_unit.
  - repeat (apply Forall_cons || apply Forall_nil); cbn [op_good]; try exact Logic.I; try reflexivity; apply Z; lia.
  - cbn. lia.
  - cbn. repeat split; (now left) || (right; discriminate).
Qed.

(** ** C81: when sound comes out *)
(** Nothing is heard before the first taps: 8.9 ms on the left, 11.9 ms on the right. *)
Theorem C81_onset : forall L h o t f a f' b fs, sin_unit L -> exp_unit L -> Forall op_good (h ++ [o]) -> restarts o ->
  rate_in_force None (h ++ [o]) = Some fs -> fv_run L (h ++ [o]) fv_new = Some (f, a) -> Forall (plays (fun _ => True)) t -> fv_run L t f = Some (f', b) ->
  forall i y, nth_error b i = Some y ->
  ((Z.of_nat i < span fs sL1)%Z -> is_zero (fst y)) /\ ((Z.of_nat i < span fs sR1)%Z -> is_zero (snd y)).
Proof. exact onset. Qed.
Print Assumptions C81_onset.
(** An input reaches the output of its own side only after 66.9 ms (left) or 70.9 ms (right). *)
Theorem C81_own_left : forall L h o t f a f' b fs, sin_unit L -> exp_unit L -> Forall op_good (h ++ [o]) -> restarts o ->
  rate_in_force None (h ++ [o]) = Some fs -> fv_run L (h ++ [o]) fv_new = Some (f, a) -> Forall (plays (fun x => is_zero (snd x))) t -> fv_run L t f = Some (f', b) ->
  forall i y, nth_error b i = Some y -> (Z.of_nat i < span fs sL2)%Z -> is_zero (fst y).
Proof. exact (crossing true). Qed.
Print Assumptions C81_own_left.
Theorem C81_own_right : forall L h o t f a f' b fs, sin_unit L -> exp_unit L -> Forall op_good (h ++ [o]) -> restarts o ->
  rate_in_force None (h ++ [o]) = Some fs -> fv_run L (h ++ [o]) fv_new = Some (f, a) -> Forall (plays (fun x => is_zero (fst x))) t -> fv_run L t f = Some (f', b) ->
  forall i y, nth_error b i = Some y -> (Z.of_nat i < span fs sR2)%Z -> is_zero (snd y).
Proof. exact (crossing false). Qed.
Print Assumptions C81_own_right.
(** The bounds are met with equality at 200 Hz: left 1 and 13 frames, right 2 and 14. *)
Example ex_C81 :
  (span (fofZ 200) sL1, span (fofZ 200) sR1, span (fofZ 200) sL2, span (fofZ 200) sR2) = (1, 2, 13, 14)%Z /\
  show (outs verb_libm [FvInit (fofZ 200); FvSet PREDELAY zero; FvProc (clickR 15)] fv_new) = Some ([(false, false)] ++ repeat (true, false) 13 ++ repeat (true, true) 2) /\
  show (outs verb_libm [FvInit (fofZ 200); FvSet PREDELAY zero; FvProc (clickL 15)] fv_new) = Some (repeat (false, false) 2 ++ repeat (false, true) 11 ++ repeat (true, true) 3).
Proof. split; [vm_compute; reflexivity|]. split; vm_compute; reflexivity. Qed.

(** ** C82: silence in, silence out *)
Theorem C82_silence : forall L h o t f a f' b fs, sin_unit L -> exp_unit L -> Forall op_good (h ++ [o]) -> restarts o ->
  rate_in_force None (h ++ [o]) = Some fs -> fv_run L (h ++ [o]) fv_new = Some (f, a) ->
  Forall (plays (fun x => is_zero (fst x) /\ is_zero (snd x))) t -> fv_run L t f = Some (f', b) -> Forall (fun y => is_zero (fst y) /\ is_zero (snd y)) b.
Proof. exact silence. Qed.
Print Assumptions C82_silence.
Example ex_C82 : exists ys, outs verb_libm [FvInit (fofZ 200); FvSet PREDELAY zero; FvProc (clickR 20); FvReset; FvSet DECAY (fofZ 100); FvProc (repeat (zero, fneg zero) 20)] fv_new = Some ys /\
  Forall (fun y => is_zero (fst y) /\ is_zero (snd y)) (skipn 21 ys) /\ ~ Forall (fun y => is_zero (fst y) /\ is_zero (snd y)) ys.
Proof.
  assert (E : match outs verb_libm [FvInit (fofZ 200); FvSet PREDELAY zero; FvProc (clickR 20); FvReset; FvSet DECAY (fofZ 100); FvProc (repeat (zero, fneg zero) 20)] fv_new with
    Some ys => forallb (fun y => feq (fst y) zero && feq (snd y) zero) (skipn 21 ys) && negb (forallb (fun y => feq (fst y) zero && feq (snd y) zero) ys) | None => false end = true) by (vm_compute; reflexivity).
  destruct (outs _ _ _) as [ys|]; [|discriminate E]. exists ys. split; [reflexivity|]. apply andb_prop in E. destruct E as [E1 E2].
  assert (Q : forall x : f32, feq x zero = true <-> is_zero x).
  { intros x. split; [|intros [s ->]; destruct s; reflexivity]. destruct x as [s|s| |s m e B]; intros H; try discriminate H; [now exists s|destruct s; discriminate H..]. }
  split.
  - apply Forall_forall. intros y Hy. apply (proj1 (forallb_forall _ _) E1) in Hy. apply andb_prop in Hy. now rewrite <- !Q.
  - intros A. apply negb_true_iff in E2. enough (C : forallb (fun y => feq (fst y) zero && feq (snd y) zero) ys = true) by (rewrite C in E2; discriminate E2).
    apply forallb_forall. intros y Hy. apply (proj1 (Forall_forall _ _) A) in Hy. apply andb_true_intro. now rewrite !Q.
Qed.

(** ** C83: reset *)
Theorem C83_reset : forall L h t f a, fv_run L (h ++ [FvReset]) fv_new = Some (f, a) -> opens false false (tuning [] h ++ t) ->
  outs L t f = outs L (tuning [] h ++ t) fv_new.
Proof. exact reset_fresh. Qed.
Print Assumptions C83_reset.
Example ex_C83 :
  let h := [FvInit (fofZ 100); FvSet DECAY (fofZ 9); FvInit (fofZ 200); FvProc (clickL 20); FvSet PREDELAY zero; FvProc (clickR 20)] in
  tuning [] h = [FvInit (fofZ 200); FvSet PREDELAY zero] /\
  show (outs verb_libm (h ++ [FvReset; FvProc (clickR 15)]) fv_new) <> None /\
  match fv_run verb_libm (h ++ [FvReset]) fv_new with Some (f, _) => outs verb_libm [FvProc (clickR 15)] f | None => None end =
    outs verb_libm [FvInit (fofZ 200); FvSet PREDELAY zero; FvProc (clickR 15)] fv_new.
Proof. intros h. split; [reflexivity|]. split; [|vm_compute; reflexivity]. vm_compute. discriminate. Qed.

(** ** C84: block sizes *)
Theorem C84_blocks : forall L h xs ys t, xs <> [] -> outs L (h ++ FvProc (xs ++ ys) :: t) fv_new = outs L (h ++ FvProc xs :: FvProc ys :: t) fv_new.
Proof. exact split_block. Qed.
Print Assumptions C84_blocks.
Example ex_C84 :
  outs verb_libm [FvInit (fofZ 200); FvSet PREDELAY (fofZ 5); FvProc (clickR 15)] fv_new =
  outs verb_libm [FvInit (fofZ 200); FvSet PREDELAY (fofZ 5); FvProc [(zero, one)]; FvProc (repeat (zero, zero) 10); FvProc []; FvProc (repeat (zero, zero) 5)] fv_new.
Proof. vm_compute. reflexivity. Qed.

(** ** C85: endurance *)
Theorem C85_frame_limit_refuted : forall L h sr t, Forall (fun o => match o with FvInit _ | FvReset => False | _ => True end) t -> (2 ^ 31 <= frames_of t)%Z ->
  fv_run L (h ++ FvInit sr :: t) fv_new = None.
Proof. exact frame_limit. Qed.
Print Assumptions C85_frame_limit_refuted.
(** A reset every 2^30 frames keeps it going for any length of time. *)
Theorem C85_reset_helps : forall L sr bs, sin_unit L -> fin sr -> (45 <= B2R sr < 2147483648)%R ->
  Forall (fun b => b <> [] /\ (Z.of_nat (length b) < 2 ^ 31)%Z) bs ->
  exists f ys, fv_run L (FvInit sr :: flat_map (fun b => [FvProc b; FvReset]) bs) fv_new = Some (f, ys).
Proof.
  intros L sr bs HS F B Hb. apply run_defined; [exact HS|constructor; [now split|]| |].
  - induction Hb; [constructor|]. cbn [flat_map app]. repeat constructor. exact IHHb.
  - cbn [lasts]. induction Hb as [|b bs [N Lb] Hb IH]; [exact Logic.I|]. cbn [flat_map app lasts]. rewrite Z.add_0_l. now split.
  - cbn [opens]. enough (forall g, opens true g (flat_map (fun b => [FvProc b; FvReset]) bs)) as E by apply E.
    induction Hb as [|b bs [N Lb] Hb IH]; intros g; [exact Logic.I|]. cbn [flat_map app opens]. split; [now right|apply IH].
Qed.
Print Assumptions C85_reset_helps.
(** Twelve and a half hours at 48 kHz in blocks of 64 frames. *)
Example ex_C85 : fv_run exact_libm ([] ++ FvInit (fofZ 48000) :: repeat (FvProc (repeat (zero, zero) 64)) (Z.to_nat (2 ^ 25))) fv_new = None.
Proof.
  apply C85_frame_limit_refuted; [apply Forall_forall; intros o Ho; apply repeat_spec in Ho; now subst o|].
  generalize (eq_refl (Z.to_nat (2 ^ 25))). generalize (Z.to_nat (2 ^ 25)) at 2 3 as n. intros n En.
  assert (K : forall k, frames_of (repeat (FvProc (repeat (zero, zero) 64)) k) = (64 * Z.of_nat k)%Z).
  { set (b := repeat (zero, zero) 64 : list (f32 * f32)). assert (Hb : length b = 64%nat) by apply repeat_length. clearbody b.
    induction k as [|k IH]; [reflexivity|]. change (frames_of (repeat (FvProc b) (Datatypes.S k))) with (Z.of_nat (length b) + frames_of (repeat (FvProc b) k))%Z.
    rewrite IH, Hb. lia. }
  rewrite K, <- En, Z2Nat.id by lia. lia.
Qed.

(** ** C86: NaN *)
(** A NaN setting of a gain of the network ruins the output for good, whatever is set afterwards. *)
Theorem C86_setting_refuted : forall L h p t xs x t' f a f' b fs, exp_nan L -> audible p -> rate_in_force None h = Some fs ->
  fv_run L (h ++ [FvSet p nan32]) fv_new = Some (f, a) -> t = FvProc (x :: xs) :: t' -> Forall going t' -> fv_run L t f = Some (f', b) ->
  forall i y, nth_error b i = Some y -> (span fs sR1 <= Z.of_nat i)%Z -> is_nan (fst y) = true /\ is_nan (snd y) = true.
Proof. exact nan_setting. Qed.
Print Assumptions C86_setting_refuted.
(** So does one NaN sample. *)
Theorem C86_sample_right_refuted : forall L h o z t f a f' b fs, sin_unit L -> Forall op_good (h ++ [o]) -> restarts o ->
  rate_in_force None (h ++ [o]) = Some fs -> is_nan z = false -> flt zero z = false -> fv_run L (h ++ [o; FvSet PREDELAY z]) fv_new = Some (f, a) ->
  Forall no_predelay t -> fv_run L t f = Some (f', b) -> forall j x, nth_error (ins t) j = Some x -> is_nan (snd x) = true ->
  forall i y, nth_error b i = Some y -> (j <= i)%nat ->
  ((span fs sL1 <= Z.of_nat (i - j))%Z -> is_nan (fst y) = true) /\ ((span fs sR2 <= Z.of_nat (i - j))%Z -> is_nan (snd y) = true).
Proof. exact (nan_sample true). Qed.
Print Assumptions C86_sample_right_refuted.
Theorem C86_sample_left_refuted : forall L h o z t f a f' b fs, sin_unit L -> Forall op_good (h ++ [o]) -> restarts o ->
  rate_in_force None (h ++ [o]) = Some fs -> is_nan z = false -> flt zero z = false -> fv_run L (h ++ [o; FvSet PREDELAY z]) fv_new = Some (f, a) ->
  Forall no_predelay t -> fv_run L t f = Some (f', b) -> forall j x, nth_error (ins t) j = Some x -> is_nan (fst x) = true ->
  forall i y, nth_error b i = Some y -> (j <= i)%nat ->
  ((span fs sL2 <= Z.of_nat (i - j))%Z -> is_nan (fst y) = true) /\ ((span fs sR1 <= Z.of_nat (i - j))%Z -> is_nan (snd y) = true).
Proof. exact (nan_sample false). Qed.
Print Assumptions C86_sample_left_refuted.
Definition nans (r : option (list (f32 * f32))) : option (list (bool * bool)) :=
  match r with Some ys => Some (map (fun y => (is_nan (fst y), is_nan (snd y))) ys) | None => None end.
Example ex_C86 :
  nans (outs verb_libm [FvInit (fofZ 200); FvSet DAMPING nan32; FvProc (clickR 3); FvSet DAMPING (fofZ 100); FvProc (clickR 10)] fv_new) =
    Some ([(false, true)] ++ repeat (true, true) 14) /\
  nans (outs verb_libm [FvInit (fofZ 200); FvSet PREDELAY zero; FvProc ([(one, one); (zero, nan32)] ++ repeat (one, one) 16)] fv_new) =
    Some (repeat (false, false) 2 ++ repeat (true, false) 13 ++ repeat (true, true) 3) /\
  (* reset cures both *)
  nans (outs verb_libm [FvInit (fofZ 200); FvSet PREDELAY zero; FvProc [(nan32, nan32)]; FvReset; FvProc (clickR 16)] fv_new) = Some (repeat (false, false) 18).
Proof. split; [vm_compute; reflexivity|]. split; vm_compute; reflexivity. Qed.
