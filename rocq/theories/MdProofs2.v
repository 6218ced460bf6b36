(** MusicDSP ladder: run-away at full resonance and 20 kHz. *)
From Coq Require Import ZArith Reals Lra Lia Bool Psatz List.
From Flocq Require Import Core BinarySingleNaN.
From Verif Require Import Flt FltFacts FltMore FltKey FltArith Libm UtilModel UtilProofs Dbl RealBounds LpSpec MgModel MgSpec MgBase MdModel LaSpec LaProofs.
Import ListNotations.
Local Open Scope R_scope.

Lemma sin_term_S a i : sin_term a (S i) = - sin_term a i * (a * a) / (INR (2 * i + 2) * INR (2 * i + 3)).
Proof.
  unfold sin_term. replace (2 * S i + 1)%nat with (S (S (2 * i + 1))) by lia. rewrite !fact_simpl, !mult_INR. rewrite <- !tech_pow_Rmult. replace (S (S (2 * i + 1))) with (2 * i + 3)%nat by lia. replace (S (2 * i + 1)) with (2 * i + 2)%nat by lia.
  field. repeat split; try apply INR_fact_neq_0; apply not_0_INR; lia.
Qed.
Lemma sum_S f n : sum_f_R0 f (S n) = sum_f_R0 f n + f (S n). Proof. reflexivity. Qed.
Definition arg : R := 21961325 / 16777216.
Lemma sin_arg : 8700286467603891 / 9007199254740992 < sin arg < 8700286467603892 / 9007199254740992.
Proof.
  assert (A : 0 <= arg <= PI) by (pose proof PI_bounds; unfold arg; lra). destruct (sin_bound arg 5 (proj1 A) (proj2 A)) as [B C]. unfold sin_approx in *.
  change (2 * 5 + 1)%nat with 11%nat in B. change (2 * (5 + 1))%nat with 12%nat in C.
  assert (T0 : sin_term arg 0 = arg) by (unfold sin_term; simpl; field).
  assert (Z : sum_f_R0 (sin_term arg) 0 = arg) by exact T0.
  do 11 rewrite sum_S in B. do 12 rewrite sum_S in C. rewrite Z in B, C. clear Z.
  rewrite !sin_term_S, T0 in B. rewrite !sin_term_S, T0 in C. rewrite !INR_IZR_INZ in B. rewrite !INR_IZR_INZ in C. cbn [Nat.mul Nat.add Z.of_nat Pos.of_succ_nat Pos.succ] in B, C. unfold arg in B, C |- *. split; lra.
Qed.
Lemma grid x : generic_format radix2 (SpecFloat.fexp 53 1024) x -> / 2 <= x < 1 -> exists m : Z, x = IZR m * bpow radix2 (-53).
Proof.
  intros F H. assert (M : mag radix2 x = 0%Z :> Z) by (apply mag_unique_pos; change (bpow radix2 (0 - 1)) with (/ 2); change (bpow radix2 0) with 1; lra).
  red in F. unfold cexp in F. rewrite M in F. change (SpecFloat.fexp 53 1024 0) with (-53)%Z in F. eexists. exact F.
Qed.
(** The only two doubles an accurate library can return for the sine at 20 kHz of 48 kHz. *)
Lemma two_sines L : sincos_acc L -> let w := fmul (fmul (md_fc (fofZ 48000) (fofZ 20000)) dPI) (ddec 1 2) in d_sin L w = flit 8700286467603891 (-53) \/ d_sin L w = flit 8700286467603892 (-53).
Proof.
  intros HL w. assert (E : B2R w = arg) by (unfold arg; fval w; lra). assert (Fw : fin w) by ffin. destruct (HL w Fw ltac:(rewrite E; unfold arg; lra)) as [[F S] _]. rewrite E in S. pose proof sin_arg as A. clear E Fw.
  set (d := d_sin L w) in *. clearbody d. clear w. change (bpow radix2 (-53)) with (/ 9007199254740992) in S. apply Rabs_le_inv in S.
  destruct (grid (B2R d) (generic_format_B2R 53 1024 d) ltac:(lra)) as [m Em]. change (bpow radix2 (-53)) with (/ 9007199254740992) in Em.
  assert (L1 : (8700286467603890 < m)%Z) by (apply lt_IZR; lra). assert (L2 : (m < 8700286467603893)%Z) by (apply lt_IZR; lra).
  assert (D : m = 8700286467603891%Z \/ m = 8700286467603892%Z) by lia. 
  assert (P : 0 < B2R d) by lra. assert (SF : is_finite_strict d = true) by (destruct d; try discriminate F; [cbn in P; lra|reflexivity]).
  destruct D as [-> | ->]; [left|right]; apply B2R_inj; try exact SF; try reflexivity; rewrite Em; [fval (flit 8700286467603891 (-53) : f64)|fval (flit 8700286467603892 (-53) : f64)]; lra.
Qed.
(** The filter at 20 kHz and full resonance, where [v] is the sine. *)
Definition md_at (sr c r : f32) (v : f64) : md :=
  let fc := md_fc sr c in
  let p := fmul fc (fsub (ddec 18 10) (fmul (ddec 8 10) fc)) in
  let t1 := fmul (fsub (dz 1) p) (ddec 1386249 1000000) in
  let t2 := fadd (dz 12) (fmul t1 t1) in
  md_setResonance (Md sr c fzero p (fsub (fmul (dz 2) v) (dz 1)) t1 t2 fzero fzero fzero fzero fzero fzero fzero fzero fzero) r.
Definition md_still (s : md) : Prop := md_s0 s = fzero /\ md_s1 s = fzero /\ md_s2 s = fzero /\ md_s3 s = fzero /\ md_y0 s = fzero /\ md_y1 s = fzero /\ md_y2 s = fzero /\ md_y3 s = fzero.
Lemma md_put L s c r : md_still s -> fst (mg_run (md_call L) s [MdCut c; MdRes r]) = md_at (md_sr s) c r (d_sin L (fmul (fmul (md_fc (md_sr s) c) dPI) (ddec 1 2))).
Proof. destruct s as [sr cu re p k t1 t2 rc s0 s1 s2 s3 y0 y1 y2 y3]. unfold md_still. cbn [md_s0 md_s1 md_s2 md_s3 md_y0 md_y1 md_y2 md_y3 md_sr]. intros (-> & -> & -> & -> & -> & -> & -> & ->). reflexivity. Qed.
Lemma md_at_eq L r0 sr c r : fst (mg_run (md_call L) (md_init L r0 sr) [MdCut c; MdRes r]) = md_at sr c r (d_sin L (fmul (fmul (md_fc sr c) dPI) (ddec 1 2))).
Proof. apply (md_put L (md_init L r0 sr)). repeat split. Qed.
Fixpoint md_ticks (s : md) (xs : list f32) : md := match xs with [] => s | x :: r => md_ticks (fst (md_tick s x)) r end.
Lemma md_ticks_run L xs : forall s, fst (mg_run (md_call L) s (map MdTick xs)) = md_ticks s xs.
Proof.
  induction xs as [|x r IH]; intros s; [reflexivity|]. cbn [map mg_run md_call md_ticks]. destruct (md_tick s x) as [s' y]. cbn [fst]. specialize (IH s'). destruct (mg_run (md_call L) s' (map MdTick r)). exact IH.
Qed.
Definition kick : list f32 := fneg one :: one :: fneg one :: one :: repeat (fneg one) 11.
Lemma kick_nan v : v = flit 8700286467603891 (-53) \/ v = flit 8700286467603892 (-53) -> is_nan (md_s3 (md_ticks (md_at (fofZ 48000) (fofZ 20000) one v) kick)) = true.
Proof. intros [-> | ->]; vm_compute; reflexivity. Qed.
Lemma md_stays L s os : md_sick s -> Forall md_on os -> Forall (fun y => is_nan y = true) (snd (mg_run (md_call L) s os)).
Proof.
  apply sticks. intros t [c|r|z|] H K; cbn [md_call]; [split; [exact H|discriminate]|split; [exact H|discriminate]| |destruct K]; pose proof (md_tick_sick t z (or_intror H)) as [C D]; destruct (md_tick t z); cbn [fst snd] in *; split; [exact C|]; now intros ? [= <-].
Qed.
Lemma md_kicked L r0 sr c r xs v : d_sin L (fmul (fmul (md_fc sr c) dPI) (ddec 1 2)) = v -> fst (mg_run (md_call L) (md_init L r0 sr) (MdCut c :: MdRes r :: map MdTick xs)) = md_ticks (md_at sr c r v) xs.
Proof. intros <-. rewrite <- (md_ticks_run L), <- (md_at_eq L r0). apply (run_app (md_call L) [MdCut c; MdRes r]). Qed.
Lemma md_runaway L r0 os : sincos_acc L -> Forall md_on os ->
  Forall (fun y => is_nan y = true) (snd (mg_run (md_call L) (fst (mg_run (md_call L) (md_init L r0 (fofZ 48000)) (MdCut (fofZ 20000) :: MdRes one :: map MdTick kick))) os)).
Proof.
  intros HL Ho. apply md_stays; [|exact Ho]. pose proof (two_sines L HL) as T. cbv zeta in T. pose proof (md_kicked L r0 (fofZ 48000) (fofZ 20000) one kick _ eq_refl) as K.
  set (s := fst _) in *. clearbody s. set (v := d_sin L _) in *. clearbody v. subst s. exact (kick_nan v T).
Qed.
