(** Shared lemmas for the ladders. *)
From Coq Require Import ZArith Reals Lra Lia Bool Psatz List.
From Flocq Require Import Core BinarySingleNaN.
From Verif Require Import Flt FltFacts FltMore FltKey FltArith Libm UtilModel UtilProofs Dbl MgModel MgSpec.
Import ListNotations.
Local Open Scope R_scope.

Section Run.
  Context {S O : Type} (call : S -> O -> S * option f32) (I : S -> Prop) (ok : O -> Prop) (P : f32 -> Prop).
  Hypothesis step : forall s o, I s -> ok o -> I (fst (call s o)) /\ (forall y, snd (call s o) = Some y -> P y).
  Lemma run_inv os : forall s, I s -> Forall ok os -> I (fst (mg_run call s os)) /\ Forall P (snd (mg_run call s os)).
  Proof.
    induction os as [|o r IH]; intros s Hs Ho; [split; [exact Hs|constructor]|]. inversion_clear Ho as [|? ? H1 H2]. destruct (step s o Hs H1) as [A B].
    cbn [mg_run]. destruct (call s o) as [s' y]. cbn [fst snd] in *. destruct (IH s' A H2) as [C D]. destruct (mg_run call s' r) as [t ys]. cbn [fst snd] in *. split; [exact C|].
    destruct y as [v|]; [constructor; [now apply B|exact D]|exact D].
  Qed.
End Run.
Lemma run_app {S O : Type} (call : S -> O -> S * option f32) a : forall s b, fst (mg_run call s (a ++ b)) = fst (mg_run call (fst (mg_run call s a)) b).
Proof.
  induction a as [|o r IH]; intros s b; [reflexivity|]. cbn [mg_run app]. destruct (call s o) as [s' y]. specialize (IH s' b). destruct (mg_run call s' r) as [t ys]. destruct (mg_run call s' (r ++ b)) as [t' ys']. exact IH.
Qed.

Lemma dadd_comm (x y : f64) : fadd x y = fadd y x.
Proof.
  unfold fadd. f_equal. destruct x as [s|s| |s m e H], y as [s'|s'| |s' m' e' H']; cbn [Bplus]; try reflexivity; try (destruct s, s'; reflexivity).
  rewrite (Z.min_comm e' e). f_equal. unfold Fplus_naive. apply Z.add_comm.
Qed.

Lemma unit_clamp_R (r : f32) : is_nan r = false -> fin (unit_clamp r) /\ 0 <= B2R (unit_clamp r) <= 1.
Proof.
  intros N. unfold unit_clamp. destruct (flt r fzero) eqn:A; [split; [reflexivity|]; change (B2R (fzero : f32)) with 0; lra|]. destruct (flt one r) eqn:B; [split; [reflexivity|]; rewrite one_R; lra|].
  destruct (nan_cases r N) as [F|[s ->]]; [|destruct s; discriminate]. split; [exact F|].
  apply (proj1 (flt_R_false _ _ F (eq_refl : fin (fzero : f32)))) in A. apply (proj1 (flt_R_false _ _ one_fin F)) in B. rewrite one_R in B. change (B2R (fzero : f32)) with 0 in A. lra.
Qed.
Lemma unit_clamp_in (r : f32) : fin r -> 0 <= B2R r <= 1 -> unit_clamp r = r.
Proof.
  intros F B. unfold unit_clamp. rewrite (proj2 (flt_R_false r fzero F (eq_refl : fin (fzero : f32)))) by (change (B2R (fzero : f32)) with 0; lra).
  rewrite (proj2 (flt_R_false one r one_fin F)) by (rewrite one_R; lra). reflexivity.
Qed.
Lemma unit_clamp_twice (r : f32) : unit_clamp (unit_clamp r) = unit_clamp r.
Proof.
  destruct (is_nan r) eqn:N; [destruct r; try discriminate; reflexivity|]. destruct (unit_clamp_R r N) as [F B]. now apply unit_clamp_in.
Qed.

(** ** Error counting for expressions of magnitude up to 16: [ex k x r] says that [x] is within k 2^-48 of [r]. *)
Definition ex (k : R) (x : f64) (r : R) : Prop := 0 <= k <= 1000000 /\ ap (k * bpow radix2 (-48)) x r.
Definition eps : R := / 281474976710656.
Lemma eps_bp : bpow radix2 (-48) = eps. Proof. reflexivity. Qed.
Lemma du_eps : 16 * du <= / 2 * eps + / 100 * eps.
Proof. unfold eps, du. change (bpow radix2 (-53)) with (/ 9007199254740992). lra. Qed.
Lemma mid16 : mid64 16.
Proof. change 16 with (bpow radix2 4). split; apply bpow_le; lia. Qed.
Lemma ex_weak k k' x r : ex k x r -> k <= k' <= 1000000 -> ex k' x r.
Proof. intros [H1 H2] H. split; [lra|]. apply ap_weak with (1 := H2). apply Rmult_le_compat_r; [apply bpow_ge_0|lra]. Qed.
Lemma ex_eq k x r r' : ex k x r -> r = r' -> ex k x r'. Proof. intros H <-. exact H. Qed.
Lemma ex_self x : fin x -> ex 0 x (B2R x).
Proof. intros F. split; [lra|]. rewrite Rmult_0_l. now apply ap_self. Qed.
Lemma ex_fin k x r : ex k x r -> fin x. Proof. intros [_ [F _]]. exact F. Qed.
Lemma ex_R k x r : ex k x r -> r - k * eps <= B2R x <= r + k * eps.
Proof. intros [_ [_ E]]. rewrite eps_bp in E. apply Rabs_le_inv in E. lra. Qed.
Lemma ex_add a b x y r1 r2 : ex a x r1 -> ex b y r2 -> Rabs (r1 + r2) <= 15 -> a + b <= 999999 -> ex (a + b + 1) (fadd x y) (r1 + r2).
Proof.
  intros [A1 A2] [B1 B2] R1 S. split; [lra|]. rewrite eps_bp in *. eapply ap_weak; [apply (ap_add _ _ 16 _ _ _ _ A2 B2 mid16)|]. - unfold eps. lra. - pose proof du_eps. unfold eps in *. lra.
Qed.
Lemma ex_sub a b x y r1 r2 : ex a x r1 -> ex b y r2 -> Rabs (r1 - r2) <= 15 -> a + b <= 999999 -> ex (a + b + 1) (fsub x y) (r1 - r2).
Proof.
  intros [A1 A2] [B1 B2] R1 S. split; [lra|]. rewrite eps_bp in *. eapply ap_weak; [apply (ap_sub _ _ 16 _ _ _ _ A2 B2 mid16)|]. - unfold eps. lra. - pose proof du_eps. unfold eps in *. lra.
Qed.
Lemma ex_mul a b c1 c2 x y r1 r2 : ex a x r1 -> ex b y r2 -> Rabs r1 <= c1 -> Rabs r2 <= c2 -> c1 * c2 <= 15 -> a * c2 + b * c1 <= 99999 -> ex (a * c2 + b * c1 + 1) (fmul x y) (r1 * r2).
Proof.
  intros [A1 A2] [B1 B2] R1 R2 S K. assert (C1 : 0 <= c1) by (pose proof (Rabs_pos r1); lra). assert (C2 : 0 <= c2) by (pose proof (Rabs_pos r2); lra).
  assert (P1 : 0 <= a * c2) by (apply Rmult_le_pos; lra). assert (P2 : 0 <= b * c1) by (apply Rmult_le_pos; lra).
  split; [lra|]. rewrite eps_bp in *.
  assert (P3 : a * b <= 1000000000000). { apply Rle_trans with (1000000 * 1000000); [apply Rmult_le_compat; lra|lra]. }
  assert (E0 : 0 < eps) by (unfold eps; lra).
  assert (P4 : a * eps * (b * eps) <= / 200 * eps). { replace (a * eps * (b * eps)) with (a * b * eps * eps) by ring. apply Rmult_le_compat_r; [lra|]. apply Rle_trans with (1000000000000 * eps); [apply Rmult_le_compat_r; lra|unfold eps; lra]. }
  assert (P5 : 0 <= a * eps * (b * eps)) by (apply Rmult_le_pos; apply Rmult_le_pos; lra).
  assert (P6 : (a * c2 + b * c1) * eps <= 99999 * eps) by (apply Rmult_le_compat_r; lra).
  pose proof (ap_mul _ _ c1 c2 16 _ _ _ _ A2 B2 R1 R2 mid16) as T. eapply ap_weak; [apply T|].
  - replace (a * eps * c2 + c1 * (b * eps)) with ((a * c2 + b * c1) * eps) by ring. unfold eps in *. lra.
  - replace (a * eps * c2 + c1 * (b * eps)) with ((a * c2 + b * c1) * eps) by ring. pose proof du_eps. replace ((a * c2 + b * c1 + 1) * eps) with ((a * c2 + b * c1) * eps + eps) by ring. lra.
Qed.
Lemma ex_div a b c m x y r1 r2 : ex a x r1 -> ex b y r2 -> Rabs (r1 / r2) <= c -> c <= 15 -> m <= Rabs r2 -> / 100 <= m -> (a + c * b) / m <= 99999 -> ex ((a + c * b) / m * (1001 / 1000) + 1) (fdiv x y) (r1 / r2).
Proof.
  intros [A1 A2] [B1 B2] R1 C Hm Hm2 K. assert (C0 : 0 <= c) by (pose proof (Rabs_pos (r1 / r2)); lra). rewrite eps_bp in *. assert (E0 : 0 < eps) by (unfold eps; lra).
  set (m' := m * (1000 / 1001)). assert (Hm' : 0 < m') by (unfold m'; lra).
  assert (P0 : 0 <= (a + c * b) / m). { apply Rmult_le_pos; [|left; apply Rinv_0_lt_compat; lra]. assert (0 <= c * b) by (apply Rmult_le_pos; lra). lra. }
  split; [lra|]. assert (Q : (a * eps + c * (b * eps)) / m' = (a + c * b) / m * (1001 / 1000) * eps) by (unfold m'; field; lra).
  pose proof (ap_div _ _ c m' 16 _ _ _ _ A2 B2 R1) as T. rewrite Q in T.
  assert (P6 : (a + c * b) / m * (1001 / 1000) * eps <= 99999 * (1001 / 1000) * eps) by (apply Rmult_le_compat_r; lra).
  assert (P7 : b * eps <= 1000000 * eps) by (apply Rmult_le_compat_r; lra).
  eapply ap_weak; [apply T; [|exact Hm'|exact mid16|]|].
  - unfold m', eps in *. lra.
  - unfold eps in *. lra.
  - rewrite eps_bp. pose proof du_eps. replace (((a + c * b) / m * (1001 / 1000) + 1) * eps) with ((a + c * b) / m * (1001 / 1000) * eps + eps) by ring. lra.
Qed.
Lemma ex_neg k x r : ex k x r -> ex k (fneg x) (- r).
Proof. intros [A B]. split; [exact A|now apply ap_neg]. Qed.
Ltac exc t := match t with ?c => fval c end; split; [lra|split; [ffin|apply Rabs_le; rewrite eps_bp; unfold eps; lra]].

(** The angular frequency 2 pi f / sr. *)
Lemma omega_R sr f : mg_rate sr -> mg_cut (/ 2) sr f -> let w := fdiv (fmul (fmul (dz 2) dPI) (f2d f)) (f2d sr) in
  fin w /\ / 262144 <= B2R f / B2R sr <= / 2 /\ 62831 / 10000 * (B2R f / B2R sr) <= B2R w <= 62833 / 10000 * (B2R f / B2R sr).
Proof.
  intros [Fs Hs] [Ff Hf] w. assert (A1 : ap 0 (fmul (dz 2) dPI) (2 * (13176795 / 4194304))). { split; [ffin|]. fval (fmul (dz 2) dPI). apply Rabs_le. lra. }
  destruct (f2d_R f Ff) as [Fd Ed]. destruct (f2d_R sr Fs) as [Sd Es].
  pose proof (ap_self _ Fd) as A2. rewrite Ed in A2. pose proof (ap_self _ Sd) as A3. rewrite Es in A3.
  set (F := B2R f) in *. set (S := B2R sr) in *. assert (F1 : Rabs F <= 132000) by (rewrite Rabs_pos_eq; lra).
  assert (T : mid64 1000000). { split; [apply Rle_trans with (bpow radix2 0); [apply bpow_le; lia|change (bpow radix2 0) with 1; lra]|]. apply Rle_trans with (bpow radix2 20); [change (bpow radix2 20) with 1048576; lra|apply bpow_le; lia]. }
  assert (P7 : Rabs (2 * (13176795 / 4194304)) <= 63 / 10) by (rewrite Rabs_pos_eq; lra).
  pose proof (ap_mul 0 0 (63 / 10) 132000 1000000 _ _ _ _ A1 A2 P7 F1 T ltac:(lra)) as A4.
  assert (U : du = 1025 / 9223372036854775808) by (unfold du; change (bpow radix2 (-53)) with (/ 9007199254740992); lra).
  assert (Q : / 262144 <= F / S <= / 2).
  { split; apply Rmult_le_reg_r with S; try lra; unfold Rdiv; rewrite Rmult_assoc, Rinv_l by lra; lra. }
  assert (E : 2 * (13176795 / 4194304) * F / S = 2 * (13176795 / 4194304) * (F / S)) by (unfold Rdiv; ring).
  pose proof (ap_div _ 0 4 4000 16 _ _ _ _ A4 A3) as A5. fold w in A5. rewrite E in A5.
  specialize (A5 ltac:(rewrite Rabs_pos_eq; lra) ltac:(rewrite Rabs_pos_eq; lra) ltac:(lra) mid16 ltac:(rewrite U; lra)).
  destruct A5 as [Fo Eo]. split; [exact Fo|]. rewrite U in Eo. apply Rabs_le_inv in Eo. split; [exact Q|]. split; lra.
Qed.

(** ** Plain magnitude bounds *)
Definition bd (q : R) (x : f64) : Prop := fin x /\ Rabs (B2R x) <= q.
Lemma bd_weak q q' x : bd q x -> q <= q' -> bd q' x. Proof. intros [F B] H. split; [exact F|lra]. Qed.
Lemma dyp k : (-1000 <= k <= 1000)%Z -> dy64 (bpow radix2 k). Proof. intros H. apply dy_bpow. cbn. lia. Qed.
Lemma bd_add a b c x y : bd a x -> bd b y -> a + b <= c -> dy64 c -> bd c (fadd x y).
Proof.
  intros [F1 B1] [F2 B2] H D. assert (T : Rabs (B2R x + B2R y) <= c) by (eapply Rle_trans; [apply Rabs_triang|]; lra). apply Rabs_le_inv in T.
  destruct (fadd_b (- c) c x y (dy_opp _ D) D F1 F2 T) as (F & _ & B). split; [exact F|now apply Rabs_le].
Qed.
Lemma bd_sub a b c x y : bd a x -> bd b y -> a + b <= c -> dy64 c -> bd c (fsub x y).
Proof.
  intros [F1 B1] [F2 B2] H D. assert (T : Rabs (B2R x - B2R y) <= c) by (unfold Rminus; eapply Rle_trans; [apply Rabs_triang|]; rewrite Rabs_Ropp; lra). apply Rabs_le_inv in T.
  destruct (fsub_b (- c) c x y (dy_opp _ D) D F1 F2 T) as (F & _ & B). split; [exact F|now apply Rabs_le].
Qed.
Lemma bd_mul a b c x y : bd a x -> bd b y -> a * b <= c -> dy64 c -> bd c (fmul x y).
Proof.
  intros [F1 B1] [F2 B2] H D. assert (T : Rabs (B2R x * B2R y) <= c) by (rewrite Rabs_mult; eapply Rle_trans; [apply Rmult_le_compat; [apply Rabs_pos|apply Rabs_pos|exact B1|exact B2]|exact H]). apply Rabs_le_inv in T.
  destruct (fmul_b (- c) c x y (dy_opp _ D) D F1 F2 T) as (F & _ & B). split; [exact F|now apply Rabs_le].
Qed.
Lemma bd_f2d (x : f32) q : fin x -> Rabs (B2R x) <= q -> bd q (f2d x).
Proof. intros F B. destruct (f2d_R x F) as [G E]. split; [exact G|]. now rewrite E. Qed.
Lemma bd_f2d_any (x : f32) : fin x -> bd (bpow radix2 128) (f2d x).
Proof. intros F. apply bd_f2d; [exact F|]. left. apply B2R_lt_emax. Qed.
Ltac bdc t := match t with ?c => fval c end; split; [ffin|apply Rabs_le; lra].
