(** SuperSaw's random starting phases: the property theorems C114. *)
From Coq Require Import ZArith Reals Bool List Lra Lia.
From Flocq Require Import Core BinarySingleNaN.
From Verif Require Import Flt FltFacts FltMore FltClose FltArith Libm LibmInst UtilModel UtilProofs EnvSpec EnvInst OscSpec OscInst LineSpec LineInst PanSpec PanInst OscModel SmoothModel RkModel VcModel VcSpec VcInst SsSpec FvModel FvSpec
  MxModel SxModel SxSpec SxProofs SxProofs2 SxProps RnModel RnProofs.
Import ListNotations.
Local Open Scope R_scope.

(** The starting phase of saw and of vibrato number [i] of a SuperSaw. *)
Definition saw_at (s : ssaw) (i : nat) : R := B2R (nth i (map (fun v => sw_phase (sv_saw v)) (ss_voices s)) fzero).
Definition vib_at (s : ssaw) (i : nat) : R := B2R (nth i (map (fun v => lt_phase (sv_vib v)) (ss_voices s)) fzero).

Lemma mt_unit : draws rn_draw.
Proof. intros s k. destruct (draw_ok s k) as (A & B & _). split; [exact A|lra]. Qed.
Lemma saw_top r sr : fin r -> 0 <= B2R r <= 16777215 / 16777216 -> 0 <= B2R (sw_phase (sw_init sr (fsub (fmul r two) one))) <= 16777215 / 16777216.
Proof.
  intros F B. unfold sw_init. cbv zeta. cbn [sw_phase].
  assert (F2 : fin (two : f32)) by ffin. assert (E2 : B2R (two : f32) = 2) by (fval (two : f32); lra).
  assert (F1 : fin (one : f32)) by ffin. pose proof one_R as E1. assert (Fh : fin (half : f32)) by ffin. assert (Eh : B2R (half : f32) = / 2) by (fval (half : f32); lra).
  assert (D0 : dy (prec:=24) (emax:=128) 0) by apply dy_0. assert (Dm : dy (prec:=24) (emax:=128) (-1)) by (apply (dy_opp 1); change 1 with (bpow radix2 0); apply dy_bpow; cbn; lia).
  assert (D2 : dy (prec:=24) (emax:=128) (16777215 / 8388608)) by (replace (16777215 / 8388608) with (IZR 16777215 * bpow radix2 (-23)) by (cbn; lra); apply dyq; lia).
  assert (D3 : dy (prec:=24) (emax:=128) (8388607 / 8388608)) by (replace (8388607 / 8388608) with (IZR 8388607 * bpow radix2 (-23)) by (cbn; lra); apply dyq; lia).
  assert (D4 : dy (prec:=24) (emax:=128) (16777215 / 16777216)) by (replace (16777215 / 16777216) with (IZR 16777215 * bpow radix2 (-24)) by (cbn; lra); apply dyq; lia).
  destruct (fmul_b 0 (16777215 / 8388608) r two D0 D2 F F2) as (A1 & _ & A2); [rewrite E2; lra|]. set (a := fmul r two) in *. clearbody a.
  destruct (fsub_b (-1) (8388607 / 8388608) a one Dm D3 A1 F1) as (C1 & _ & C2); [rewrite E1; lra|]. set (c := fsub a one) in *. clearbody c.
  destruct (fadd_b 0 (16777215 / 8388608) c one D0 D2 C1 F1) as (G1 & _ & G2); [rewrite E1; lra|]. set (g := fadd c one) in *. clearbody g.
  destruct (fmul_b 0 (16777215 / 16777216) g half D0 D4 G1 Fh) as (H1 & _ & H2); [rewrite Eh; lra|]. set (h := fmul g half) in *. clearbody h.
  assert (K : flt h zero = false) by (apply flt_R_false; [exact H1|reflexivity|rewrite zero_R; lra]). rewrite K.
  assert (K' : flt one h = false) by (apply flt_R_false; [exact F1|exact H1|rewrite E1; lra]). rewrite K'. exact H2.
Qed.
Lemma vib_exact r sr : fin r -> 0 <= B2R r <= 16777215 / 16777216 -> fin (lt_phase (lt_init sr (fmul r (fofZ 4)))) /\ B2R (lt_phase (lt_init sr (fmul r (fofZ 4)))) = B2R r.
Proof.
  intros F B. unfold lt_init. cbv zeta. cbn [lt_phase].
  destruct (fofZ_R (prec:=24) (emax:=128) 4 ltac:(lia)) as [F4 E4]. change (IZR 4) with 4 in E4.
  assert (Fq : fin (flit 1 (-2) : f32)) by ffin. assert (Eq : B2R (flit 1 (-2) : f32) = / 4) by (fval (flit 1 (-2) : f32); lra).
  pose proof (dy_B2R r) as [Dr Dl].
  assert (D : dy (prec:=24) (emax:=128) (B2R r * 4)).
  { split.
    - change 4 with (bpow radix2 2). apply fmt_scale. lia.
    - rewrite Rabs_pos_eq by lra. apply Rlt_trans with 8; [lra|]. change 8 with (bpow radix2 3). apply bpow_lt. lia. }
  destruct (fmul_exact r (fofZ 4) F F4) as [A1 A2]; [rewrite E4; exact D|]. rewrite E4 in A2. set (a := fmul r (fofZ 4)) in *. clearbody a.
  assert (Q : B2R a * / 4 = B2R r) by (rewrite A2; lra).
  destruct (fmul_exact a (flit 1 (-2)) A1 Fq) as [C1 C2]; [rewrite Eq, Q; apply dy_B2R|]. rewrite Eq, Q in C2. set (c := fmul a (flit 1 (-2))) in *. clearbody c.
  destruct (ffloor_R c C1) as [G1 G2]. assert (Z0 : Zfloor (B2R c) = 0%Z) by (apply Zfloor_imp; rewrite C2; cbn; lra). rewrite Z0 in G2.
  destruct (fsub_exact c (ffloor c) C1 G1) as [H1 H2]; [rewrite G2, Rminus_0_r; apply dy_B2R|]. rewrite G2, Rminus_0_r, C2 in H2. auto.
Qed.

Lemma start_at L sr s i : (i < 7)%nat ->
  saw_at (ss_start L sr s) i = B2R (sw_phase (sw_init sr (fsub (fmul (rn_draw s (2 * Z.of_nat i + 1)) two) one))) /\
  vib_at (ss_start L sr s) i = B2R (lt_phase (lt_init sr (fmul (rn_draw s (2 * Z.of_nat i)) (fofZ 4)))).
Proof.
  intros H. unfold saw_at, vib_at, ss_start, ss_init. cbv zeta. cbn [ss_voices]. rewrite !map_map. unfold idx.
  do 7 (destruct i as [|i]; [split; reflexivity|]). exfalso. lia.
Qed.
(** Every draw is a number in [0,1), whatever the seed and however many were drawn before. *)
Theorem C114_draws : forall seed k, fin (rn_draw seed k) /\ 0 <= B2R (rn_draw seed k) < 1.
Proof. intros s k. destruct (draw_ok s k) as (A & B & _). split; [exact A|lra]. Qed.
Print Assumptions C114_draws.
(** So each of the seven saws and vibratos starts within its cycle, at a phase in [0,1). *)
Theorem C114_start : forall L sr seed i, (i < 7)%nat -> 0 <= saw_at (ss_start L sr seed) i < 1 /\ 0 <= vib_at (ss_start L sr seed) i < 1.
Proof.
  intros L sr s i H. destruct (start_at L sr s i H) as [E1 E2]. rewrite E1, E2.
  destruct (draw_ok s (2 * Z.of_nat i + 1)) as (A & B & _). pose proof (saw_top _ sr A B) as S.
  destruct (draw_ok s (2 * Z.of_nat i)) as (C & D & _). destruct (vib_exact _ sr C D) as [_ V]. rewrite V. lra.
Qed.
Print Assumptions C114_start.

(** The word behind the phase of saw [i]. *)
Lemma saw_word L sr s i : (i < 7)%nat -> Rabs (saw_at (ss_start L sr s) i - IZR (rn_word s (2 * Z.of_nat i + 1)) / 4294967296) <= / 2097152.
Proof.
  intros H. destruct (start_at L sr s i H) as [E _]. rewrite E. destruct (draw_ok s (2 * Z.of_nat i + 1)) as (A & B & C).
  destruct (phase_acc sr _ (mt_unit s (2 * Z.of_nat i + 1)%Z)) as [_ P]. change (bpow radix2 (-22)) with (/ 4194304) in P.
  apply Rabs_le_inv in C, P. apply Rabs_le. lra.
Qed.
Definition odds (l : list Z) : list Z := map (fun i => nth (2 * i + 1) l 0%Z) (seq 0 7).
Definition saw_words (s : Z) : list Z := odds (mt_words 14 (mt_seed s)).
Lemma saw_words_nth s i : (i < 7)%nat -> nth i (saw_words s) 0%Z = rn_word s (2 * Z.of_nat i + 1).
Proof.
  intros H. unfold saw_words, odds. rewrite (nth_indep _ 0%Z (nth (2 * 0 + 1) (mt_words 14 (mt_seed s)) 0%Z)) by (rewrite map_length, seq_length; exact H).
  rewrite (map_nth (fun i => nth (2 * i + 1) (mt_words 14 (mt_seed s)) 0%Z) (seq 0 7) 0%nat i), seq_nth by exact H. cbn [plus].
  unfold rn_word. replace (Z.to_nat (2 * Z.of_nat i + 1)) with (2 * i + 1)%nat by lia. apply words_nth. lia.
Qed.
(** Some voice more than 2^17 words apart. *)
Definition far (a b : list Z) : bool := existsb (fun p => Z.ltb 131072 (Z.abs (fst p - snd p))) (combine a b).
Fixpoint all_far (l : list (list Z)) : bool := match l with [] => true | a :: t => forallb (far a) t && all_far t end.
Lemma table_far : all_far (map saw_words (map Z.of_nat (seq 0 64))) = true.
Proof. vm_compute. reflexivity. Qed.
Lemma all_far_nth l : all_far l = true -> forall m n, (m < n < length l)%nat -> far (nth m l []) (nth n l []) = true.
Proof.
  induction l as [|a l IH]; intros H m n Hn; cbn [length] in Hn; [lia|]. cbn [all_far] in H. apply andb_prop in H as [H1 H2].
  destruct n as [|n]; [lia|]. destruct m as [|m]; cbn [nth].
  - rewrite forallb_forall in H1. apply H1, nth_In. lia.
  - apply (IH H2). lia.
Qed.
Lemma far_nth n : forall l m, length l = n -> length m = n -> far l m = true -> exists i, (i < n)%nat /\ (131072 < Z.abs (nth i l 0 - nth i m 0))%Z.
Proof.
  unfold far. induction n as [|n IH]; intros [|x l] [|y m] A B; try discriminate A; try discriminate B; cbn [combine existsb]; [discriminate|]. cbn [length] in A, B. intros G. apply orb_prop in G as [G|G].
  - exists 0%nat. apply Z.ltb_lt in G. split; [lia|exact G].
  - destruct (IH l m ltac:(lia) ltac:(lia) G) as (i & I1 & I2). exists (S i). split; [lia|exact I2].
Qed.
Lemma saw_words_len s : length (saw_words s) = 7%nat.
Proof. unfold saw_words, odds. now rewrite map_length, seq_length. Qed.
Lemma far_saws L sr a b : far (saw_words a) (saw_words b) = true -> exists i, (i < 7)%nat /\ / 65536 < Rabs (saw_at (ss_start L sr a) i - saw_at (ss_start L sr b) i).
Proof.
  intros G. destruct (far_nth 7 _ _ (saw_words_len a) (saw_words_len b) G) as (i & Hi & G'). clear G. exists i. split; [exact Hi|].
  rewrite (saw_words_nth a i Hi), (saw_words_nth b i Hi) in G'. pose proof (saw_word L sr a i Hi) as A. pose proof (saw_word L sr b i Hi) as B.
  set (x := rn_word a _) in *. set (y := rn_word b _) in *. clearbody x y. rename G' into G.
  set (u := saw_at (ss_start L sr a) i) in *. set (v := saw_at (ss_start L sr b) i) in *. clearbody u v. apply Rabs_le_inv in A, B.
  destruct (Z_lt_le_dec (x - y) 0) as [N|N].
  - assert (J : (x + 131073 <= y)%Z) by lia. apply IZR_le in J. rewrite plus_IZR in J. apply Rlt_le_trans with (v - u); [lra|]. rewrite Rabs_minus_sym. apply Rle_abs.
  - assert (J : (y + 131073 <= x)%Z) by lia. apply IZR_le in J. rewrite plus_IZR in J. apply Rlt_le_trans with (u - v); [lra|]. apply Rle_abs.
Qed.
(** Two different seeds below 64 start at least one voice at different phases (more than 2^-16 of a cycle apart). *)
Theorem C114_seeds : forall L sr a b, (0 <= a < 64)%Z -> (0 <= b < 64)%Z -> a <> b ->
  exists i, (i < 7)%nat /\ / 65536 < Rabs (saw_at (ss_start L sr a) i - saw_at (ss_start L sr b) i).
Proof.
  assert (K : forall L sr a b, (0 <= a < b)%Z -> (b < 64)%Z -> exists i, (i < 7)%nat /\ / 65536 < Rabs (saw_at (ss_start L sr a) i - saw_at (ss_start L sr b) i)).
  { intros L sr a b A B. apply far_saws. pose proof (all_far_nth _ table_far (Z.to_nat a) (Z.to_nat b)) as T.
    assert (Ln : length (map saw_words (map Z.of_nat (seq 0 64))) = 64%nat) by (rewrite !map_length; apply seq_length). rewrite Ln in T.
    assert (Q : forall s, (0 <= s < 64)%Z -> nth (Z.to_nat s) (map saw_words (map Z.of_nat (seq 0 64))) [] = saw_words s).
    { intros s S. rewrite (nth_indep _ [] (saw_words (Z.of_nat 0))) by (rewrite Ln; lia). rewrite map_nth, map_nth, seq_nth by lia. cbn [plus]. now rewrite Z2Nat.id by lia. }
    rewrite !Q in T by lia. apply T. lia. }
  intros L sr a b A B N. destruct (Z_lt_le_dec a b) as [H|H]; [apply K; lia|]. destruct (K L sr b a ltac:(lia) ltac:(lia)) as (i & I1 & I2). exists i. split; [exact I1|]. rewrite Rabs_minus_sym. exact I2.
Qed.
Print Assumptions C114_seeds.

Lemma phased_at k v i : phased (rn_draw k) v -> (i < 7)%nat -> Rabs (saw_at v i - IZR (nth i (saw_words k) 0%Z) / 4294967296) <= / 2097152.
Proof.
  intros P H. rewrite (saw_words_nth k i H). destruct (draw_ok k (2 * Z.of_nat i + 1)) as (_ & _ & C).
  assert (N : forall l l', Forall2 (fun u j => fin (sw_phase (sv_saw u)) /\ Rabs (B2R (sw_phase (sv_saw u)) - B2R (rn_draw k (2 * j + 1)%Z)) <= bpow radix2 (-22)) l l' ->
    forall n, (n < length l')%nat -> Rabs (B2R (nth n (map (fun v => sw_phase (sv_saw v)) l) fzero) - B2R (rn_draw k (2 * nth n l' 0 + 1)%Z)) <= / 4194304).
  { induction 1 as [|x y l l' [_ A] B IH]; intros n Hn; cbn [length] in Hn; [lia|]. destruct n as [|n]; cbn [map nth]; [exact A|]. apply IH. lia. }
  specialize (N _ _ P i H). replace (nth i [0; 1; 2; 3; 4; 5; 6] 0)%Z with (Z.of_nat i) in N by (do 7 (destruct i as [|i]; [reflexivity|]); lia).
  unfold saw_at. apply Rabs_le_inv in N, C. apply Rabs_le. lra.
Qed.
Lemma note_words : saw_words 42 = [3421126067; 787846414; 3348747335; 2563451924; 1914837113; 429389014; 1972458954]%Z /\
  saw_words 43 = [2134003008; 442015537; 638974010; 739303731; 3483374779; 321011650; 193500574]%Z /\
  saw_words 44 = [1857752483; 136471725; 2696597379; 792072276; 1272924911; 1103667320; 2920255799]%Z.
Proof. vm_compute. repeat split. Qed.
(** The supersaw example's three notes, seeded 42, 43 and 44, start apart in each of their seven voices: by at least a hundredth of a cycle, either way round. *)
Theorem C114_notes_apart : forall L sr s a b i, sx_start L rn_draw sr = Some s -> (a < b < 3)%nat -> (i < 7)%nat ->
  / 100 <= Rabs (saw_at (nth a (sx_v s) (ss_start L (fofZ sr) 42)) i - saw_at (nth b (sx_v s) (ss_start L (fofZ sr) 42)) i) <= 99 / 100.
Proof.
  intros L sr s a b i E H Hi. pose proof (C109_seeds L rn_draw sr s mt_unit E) as P. set (d := ss_start _ _ _). clearbody d. clear E.
  assert (M : exists p q, (p < 4294967296 /\ q < 4294967296 /\ (42949673 + 8192 <= p - q <= 4252000000 \/ 42949673 + 8192 <= q - p <= 4252000000))%Z /\
    Rabs (saw_at (nth a (sx_v s) d) i - IZR p / 4294967296) <= / 2097152 /\ Rabs (saw_at (nth b (sx_v s) d) i - IZR q / 4294967296) <= / 2097152).
  { destruct note_words as (T0 & T1 & T2).
    destruct (sx_v s) as [|v0 [|v1 [|v2 [|? ?]]]]; repeat match goal with X : Forall2 _ _ _ |- _ => inversion X; clear X; subst end.
    match goal with X : phased (rn_draw 42) _, Y : phased (rn_draw 43) _, Z : phased (rn_draw 44) _ |- _ =>
      pose proof (phased_at _ _ i X Hi) as A; pose proof (phased_at _ _ i Y Hi) as B; pose proof (phased_at _ _ i Z Hi) as C end.
    rewrite T0 in A. rewrite T1 in B. rewrite T2 in C.
    assert (W : (a = 0 /\ b = 1 \/ a = 0 /\ b = 2 \/ a = 1 /\ b = 2)%nat) by lia.
    destruct W as [[-> ->]|[[-> ->]|[-> ->]]]; cbn [nth]; (eexists; eexists; split; [|split; eassumption]);
    do 7 (destruct i as [|i]; [cbn [nth]; lia|]); exfalso; lia. }
  destruct M as (p & q & (_ & _ & M) & A & B). set (u := saw_at (nth a _ _) i) in *. set (v := saw_at (nth b _ _) i) in *. clearbody u v. apply Rabs_le_inv in A, B.
  destruct M as [[M N]|[M N]]; apply IZR_le in M, N; rewrite plus_IZR, minus_IZR in M; rewrite minus_IZR in N.
  - rewrite Rabs_pos_eq; lra.
  - rewrite Rabs_minus_sym, Rabs_pos_eq; lra.
Qed.
Print Assumptions C114_notes_apart.
(** With these random numbers the bound on the dry signal of the example (C108) holds without any assumption on them. *)
Theorem C114_example_bounded : forall L sr os s ys,
  exp_unit L -> exp_acc L -> exp_rel L -> log_rel L -> pow2_acc L -> pow1e4_acc L -> sin_unit L -> cos_unit L -> sx_hz sr -> Forall sx_ok os -> sx_session L rn_draw sr os = Some (s, ys) ->
  exists dry wet, map (@length _) dry = sx_sizes os /\ fv_run L (FvInit (fofZ sr) :: room_set ++ room_calls os dry) fv_new = Some (sx_rev s, wet) /\ blended (concat dry) wet ys /\
    Forall (fun x => (fin (fst x) /\ Rabs (B2R (fst x)) <= 512) /\ (fin (snd x) /\ Rabs (B2R (snd x)) <= 512)) (concat dry).
Proof. intros L sr os s ys H1 H2 H3 H4 H5 H6 H7 H8 HZ HO E. exact (C108_dry_bounded L rn_draw sr os s ys H1 H2 H3 H4 H5 H6 H7 H8 mt_unit HZ HO E). Qed.
Print Assumptions C114_example_bounded.
(** The C++ standard's check of the engine: the 10000th number from seed 5489 is 4123659995.  The first draw from seed 42 is 0.37454...; a word that would
    round to 1 gives the float below 1.  The session of C107 with the real random numbers is defined. *)
Example ex_C114 : nth 0 (rev (mt_words (100 * 100) (mt_seed 5489))) 0%Z = 4123659995%Z /\ hd 0%Z (mt_words 1 (mt_seed 42)) = 1608637542%Z /\ rn_unit 4294967295 = flit 16777215 (-24) /\
  mt_seed (42 + 4294967296) = mt_seed 42 /\ 1 / 2 < saw_at (ss_start exact_libm (fofZ 48000) 42) 0 < 1 /\
  (exists s, sx_start exact_libm rn_draw 48000 = Some s) /\ (exists s ys, sx_session exact_libm rn_draw 48000 session = Some (s, ys)).
Proof.
  split; [vm_compute; reflexivity|]. split; [vm_compute; reflexivity|]. split; [vm_compute; reflexivity|]. split; [vm_compute; reflexivity|]. split; [|split].
  - pose proof (C114_start exact_libm (fofZ 48000) 42 0 ltac:(lia)) as [[_ S] _]. split; [|exact S]. pose proof (saw_word exact_libm (fofZ 48000) 42 0 ltac:(lia)) as W.
    rewrite <- saw_words_nth in W by lia. replace (nth 0 (saw_words 42) 0%Z) with 3421126067%Z in W by (vm_compute; reflexivity). apply Rabs_le_inv in W. lra.
  - destruct (C107_defined exact_libm rn_draw 48000 [] exact_sin_unit ltac:(lia) (Forall_nil _) Logic.I) as (s & ys & E). unfold sx_session in E.
    destruct (sx_start exact_libm rn_draw 48000) as [t|]; [eexists; reflexivity|discriminate E].
  - destruct session_plain as (P & _ & Q). exact (C107_defined exact_libm rn_draw 48000 session exact_sin_unit ltac:(lia) P Q).
Qed.
