(** SuperSaw's random numbers: the engine keeps to 624 words of 32 bits, the draws lie in [0,1). *)
From Coq Require Import ZArith Reals Bool List Lra Lia.
From Flocq Require Import Core BinarySingleNaN.
From Verif Require Import Flt FltFacts FltMore FltClose Libm UtilModel UtilProofs EnvSpec OscModel VcModel RnModel.
Import ListNotations.
Local Open Scope Z_scope.

(** A 32-bit word. *)
Definition w32 (x : Z) : Prop := 0 <= x < 4294967296.
Lemma w32_u x : w32 (u32 x).
Proof. apply Z.mod_pos_bound. lia. Qed.
Lemma w32_iff x : w32 x <-> 0 <= x /\ Z.shiftr x 32 = 0.
Proof.
  unfold w32. rewrite Z.shiftr_div_pow2 by lia. change (2 ^ 32) with 4294967296. split; intros [A B]; (split; [lia|]).
  - apply Z.div_small. lia.
  - apply Z.div_small_iff in B; lia.
Qed.
Lemma w32_xor x y : w32 x -> w32 y -> w32 (Z.lxor x y).
Proof.
  rewrite !w32_iff. intros [A B] [C D]. split; [apply Z.lxor_nonneg; tauto|]. rewrite Z.shiftr_lxor, B, D. reflexivity.
Qed.
Lemma w32_or x y : w32 x -> w32 y -> w32 (Z.lor x y).
Proof.
  rewrite !w32_iff. intros [A B] [C D]. split; [apply Z.lor_nonneg; tauto|]. rewrite Z.shiftr_lor, B, D. reflexivity.
Qed.
Lemma w32_and x y : w32 y -> w32 (Z.land x y).
Proof.
  rewrite !w32_iff. intros [C D]. split; [apply Z.land_nonneg; tauto|]. rewrite Z.shiftr_land, D. apply Z.land_0_r.
Qed.
Lemma w32_shr x k : 0 <= k -> w32 x -> w32 (Z.shiftr x k).
Proof.
  intros K. rewrite !w32_iff. intros [A B]. split; [apply Z.shiftr_nonneg; exact A|]. rewrite Z.shiftr_shiftr, Z.add_comm, <- Z.shiftr_shiftr, B by lia. apply Z.shiftr_0_l.
Qed.
Lemma fill_words n : forall i x, length (mt_fill n i x) = n /\ Forall w32 (mt_fill n i x).
Proof.
  induction n as [|n IH]; intros i x; cbn [mt_fill length]; [split; [reflexivity|constructor]|]. cbv zeta. cbn [length].
  set (y := u32 _). assert (Y : w32 y) by apply w32_u. clearbody y. destruct (IH (i + 1) y) as [A B]. split; [now rewrite A|]. constructor; assumption.
Qed.
Lemma seed_words s : length (mt_seed s) = 624%nat /\ Forall w32 (mt_seed s).
Proof.
  unfold mt_seed. cbv zeta. pose proof (w32_u s) as W. set (x := u32 s) in *. clearbody x. destruct (fill_words 623 1 x) as [A B].
  split; [apply (f_equal S) in A; exact A|]. constructor; assumption.
Qed.
Lemma twist_word x y z : w32 z -> w32 (mt_twist x y z).
Proof.
  intros Z. unfold mt_twist. cbv zeta. apply w32_xor; [apply w32_xor; [exact Z|]|].
  - apply w32_shr; [lia|]. apply w32_or; apply w32_and; unfold w32; lia.
  - destruct (Z.odd _); unfold w32; lia.
Qed.
Lemma temper_word x : w32 x -> w32 (mt_temper x).
Proof.
  intros X. unfold mt_temper. cbv zeta.
  assert (A : w32 (Z.lxor x (Z.land (Z.shiftr x 11) 4294967295))) by (apply w32_xor; [exact X|apply w32_and; unfold w32; lia]).
  set (a := Z.lxor x _) in *. clearbody a.
  assert (B : w32 (Z.lxor a (Z.land (u32 (Z.shiftl a 7)) 2636928640))) by (apply w32_xor; [exact A|apply w32_and; unfold w32; lia]).
  set (b := Z.lxor a _) in *. clearbody b.
  assert (C : w32 (Z.lxor b (Z.land (u32 (Z.shiftl b 15)) 4022730752))) by (apply w32_xor; [exact B|apply w32_and; unfold w32; lia]).
  set (c := Z.lxor b _) in *. clearbody c. apply w32_xor; [exact C|]. apply w32_shr; [lia|exact C].
Qed.
Lemma next_words w : length w = 624%nat /\ Forall w32 w -> let (w', z) := mt_next w in length w' = 624%nat /\ Forall w32 w' /\ w32 z.
Proof.
  intros [A B]. unfold mt_next. cbv zeta.
  assert (N : w32 (nth 397 w 0)) by (rewrite Forall_forall in B; apply B, nth_In; rewrite A; apply Nat.ltb_lt; reflexivity).
  pose proof (twist_word (nth 0 w 0) (nth 1 w 0) _ N) as T. set (x := mt_twist _ _ _) in *. clearbody x. clear N.
  destruct w as [|w0 w]; [discriminate A|]. cbn [tl]. cbn [length] in A. apply Nat.succ_inj in A. inversion B as [|? ? B1 B2]; subst.
  rewrite app_length, A. cbn [length]. split; [reflexivity|]. split; [|apply temper_word; exact T]. apply Forall_app. split; [exact B2|]. constructor; [exact T|constructor].
Qed.
Lemma draws_words n : forall w, length w = 624%nat /\ Forall w32 w -> length (mt_words n w) = n /\ Forall w32 (mt_words n w).
Proof.
  induction n as [|n IH]; intros w W; cbn [mt_words]; [split; [reflexivity|constructor]|]. pose proof (next_words w W) as N. destruct (mt_next w) as [w1 z]. destruct N as (N1 & N2 & N3).
  cbn [length]. destruct (IH w1 (conj N1 N2)) as [A B]. split; [now rewrite A|]. constructor; assumption.
Qed.
(** The word behind draw number [k]. *)
Definition rn_word (seed k : Z) : Z := nth (Z.to_nat k) (mt_words (S (Z.to_nat k)) (mt_seed seed)) 0.
Lemma word_ok s k : w32 (rn_word s k).
Proof.
  unfold rn_word. destruct (draws_words (S (Z.to_nat k)) (mt_seed s) (seed_words s)) as [A B]. rewrite Forall_forall in B. apply B, nth_In. rewrite A. lia.
Qed.
Lemma words_nth m n : forall w, (m < n)%nat -> nth m (mt_words n w) 0 = nth m (mt_words (S m) w) 0.
Proof.
  revert n. induction m as [|m IH]; intros [|n] w H; try lia; cbn [mt_words]; destruct (mt_next w) as [w1 z]; [reflexivity|]. cbn [nth]. rewrite (IH n w1) by lia. cbn [mt_words]. reflexivity.
Qed.

Local Open Scope R_scope.
Local Notation rnd32 := (@rnd 24 128).
Lemma canon_ok z : w32 z -> fin (rn_canon z) /\ 0 <= B2R (rn_canon z) <= 16777215 / 16777216 /\ Rabs (B2R (rn_canon z) - IZR z / 4294967296) <= / 16777216.
Proof.
  intros [Z0 Z1]. unfold rn_canon. cbv zeta.
  assert (Y0 : 0 <= IZR z) by (apply IZR_le; exact Z0). assert (Y1 : IZR z <= 4294967296) by (apply IZR_le; lia).
  assert (D0 : dy (prec:=24) (emax:=128) 0) by apply dy_0.
  assert (D1 : dy (prec:=24) (emax:=128) 4294967296) by (change 4294967296 with (bpow radix2 32); apply dy_bpow; cbn; lia).
  assert (D2 : dy (prec:=24) (emax:=128) 1) by (change 1 with (bpow radix2 0); apply dy_bpow; cbn; lia).
  assert (A : fin (fofZ z : f32) /\ 0 <= B2R (fofZ z : f32) <= 4294967296 /\ Rabs (B2R (fofZ z : f32) - IZR z) <= 128).
  { destruct (dy_rnd_bnd _ _ (IZR z * bpow radix2 0) D0 D1) as [B1 B2]; [cbn [bpow]; lra|]. destruct (flit_R (prec:=24) (emax:=128) z 0 B1) as [Fz Ez]. unfold fofZ. rewrite Ez.
    split; [exact Fz|]. split; [exact B2|]. cbn [bpow]. rewrite Rmult_1_r. apply (rnd_err1 32); [lia|]. change (bpow radix2 32) with 4294967296. rewrite Rabs_pos_eq; lra. }
  destruct A as (A1 & A2 & A3). set (y := fofZ z : f32) in *. clearbody y.
  assert (F1 : fin (one : f32)) by ffin. pose proof one_R as O.
  destruct (fmul_exact y one A1 F1) as [M1 M2]; [rewrite O, Rmult_1_r; apply dy_B2R|]. rewrite O, Rmult_1_r in M2.
  destruct (fadd_exact (zero : f32) (fmul y one)) as [N1 N2]; [reflexivity|exact M1|rewrite zero_R, M2, Rplus_0_l; apply dy_B2R|]. rewrite zero_R, M2, Rplus_0_l in N2.
  set (s := fadd zero (fmul y one)) in *. clearbody s. clear M1 M2.
  assert (T : fin (fmul one (fofZ 4294967296) : f32) /\ B2R (fmul one (fofZ 4294967296) : f32) = 4294967296) by (split; [ffin|fval (fmul one (fofZ 4294967296) : f32); lra]).
  destruct T as [T1 T2]. set (t := fmul one (fofZ 4294967296) : f32) in *. clearbody t.
  assert (Q : 0 <= B2R s / B2R t <= 1) by (rewrite T2, N2; lra).
  destruct (fdiv_b 0 1 s t D0 D2 N1 T1) as (V1 & V2 & V3); [rewrite T2; lra|exact Q|].
  assert (V4 : Rabs (B2R (fdiv s t) - B2R s / 4294967296) <= / 33554432).
  { rewrite V2, T2. apply (rnd_err1 0); [lia|]. change (bpow radix2 0) with 1. rewrite <- T2. rewrite Rabs_pos_eq; lra. }
  rewrite N2 in V4. set (v := fdiv s t) in *. clearbody v.
  apply Rabs_le_inv in A3, V4.
  destruct (fle one v) eqn:K.
  - apply (fle_R _ _ F1 V1) in K. rewrite O in K. assert (G : fin (flit 16777215 (-24) : f32)) by ffin. split; [exact G|]. fval (flit 16777215 (-24) : f32). split; [lra|]. apply Rabs_le. lra.
  - apply (fle_R_false _ _ F1 V1) in K. rewrite O in K. split; [exact V1|]. split; [split; [lra|]|apply Rabs_le; lra].
    assert (P : B2R v <= pred radix2 (SpecFloat.fexp 24 128) 1).
    { apply pred_ge_gt; [apply fexp_correct; reflexivity|apply fmt_B2R|apply D2|exact K]. }
    replace (pred radix2 (SpecFloat.fexp 24 128) 1) with (16777215 / 16777216) in P; [exact P|].
    change 1 with (bpow radix2 0). rewrite pred_bpow. cbn. lra.
Qed.
Lemma unit_ok z : w32 z -> fin (rn_unit z) /\ 0 <= B2R (rn_unit z) <= 16777215 / 16777216 /\ Rabs (B2R (rn_unit z) - IZR z / 4294967296) <= / 16777216.
Proof.
  intros W. destruct (canon_ok z W) as (A & B & C). unfold rn_unit. set (c := rn_canon z) in *. clearbody c.
  assert (F1 : fin (fsub one zero : f32)) by ffin. assert (O : B2R (fsub one zero : f32) = 1) by (fval (fsub one zero : f32); lra).
  destruct (fmul_exact c (fsub one zero) A F1) as [M1 M2]; [rewrite O, Rmult_1_r; apply dy_B2R|]. rewrite O, Rmult_1_r in M2.
  destruct (fadd_exact (fmul c (fsub one zero)) (zero : f32)) as [N1 N2]; [exact M1|reflexivity|rewrite zero_R, M2, Rplus_0_r; apply dy_B2R|]. rewrite zero_R, M2, Rplus_0_r in N2.
  rewrite N2. auto.
Qed.
Lemma draw_ok s k : fin (rn_draw s k) /\ 0 <= B2R (rn_draw s k) <= 16777215 / 16777216 /\ Rabs (B2R (rn_draw s k) - IZR (rn_word s k) / 4294967296) <= / 16777216.
Proof. exact (unit_ok _ (word_ok s k)). Qed.
