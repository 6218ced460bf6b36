(** FVerb: ring buffers hold the last samples; tap lengths for every sample rate. *)
From Coq Require Import ZArith Reals Bool List Lra Lia Psatz.
From Flocq Require Import Core BinarySingleNaN.
From Verif Require Import Flt FltFacts FltMore FltKey FltArith Libm UtilModel UtilProofs PhasorProofs FvModel FvSpec.
Import ListNotations.

(** ** Rings *)
Definition pow2 (len : Z) : Prop := exists m, (0 <= m)%Z /\ len = (2 ^ m)%Z.
Definition mask_of (len : Z) : Z := (len - 1)%Z.
Lemma land_mask a len : pow2 len -> Z.land a (mask_of len) = (a mod len)%Z.
Proof.
  intros (m & M & ->). unfold mask_of. replace (2 ^ m - 1)%Z with (Z.ones m) by (rewrite Z.ones_equiv; lia).
  now apply Z.land_ones.
Qed.
Lemma pow2_pos len : pow2 len -> (0 < len)%Z.
Proof. intros (m & M & ->). apply Z.pow_pos_nonneg; lia. Qed.

(** The ring [r] of length [len], about to be written at position [iota], holds the last [len] samples of the line [h]. *)
Definition keeps (len iota : Z) (r : ring) (h : line) : Prop :=
  r_len r = len /\ forall j, (0 <= j < len)%Z -> r_mem r ((iota - 1 - j) mod len)%Z = ago j h.

Lemma keeps0 len iota : keeps len iota (ring0 len) [].
Proof. split; [reflexivity|]. intros j _. unfold ago. cbn [ring0 r_mem]. now destruct (Z.to_nat j). Qed.

Lemma in_mod r len a : pow2 len -> r_len r = len -> r_in r (a mod len)%Z = true.
Proof.
  intros P E. unfold r_in. rewrite E. pose proof (Z.mod_pos_bound a len (pow2_pos len P)) as B.
  destruct (Z.leb_spec 0 (a mod len)); [|lia]. destruct (Z.ltb_spec (a mod len) len); [reflexivity|lia].
Qed.

Lemma keeps_put len iota r h x : pow2 len -> keeps len iota r h ->
  exists r', put r iota (mask_of len) x = Some r' /\ keeps len (iota + 1) r' (x :: h).
Proof.
  intros P [E K]. unfold put, wr. rewrite land_mask, (in_mod r len) by assumption. eexists. split; [reflexivity|].
  split; [exact E|]. intros j J. cbn [r_mem].
  destruct (Z.eq_dec j 0) as [->|N].
  - replace (iota + 1 - 1 - 0)%Z with iota by lia. now rewrite Z.eqb_refl.
  - destruct (Z.eqb_spec ((iota + 1 - 1 - j) mod len) (iota mod len)) as [C|C].
    + exfalso. pose proof (pow2_pos _ P) as LP.
      assert (Q : (j mod len = 0)%Z).
      { replace j with (iota - (iota + 1 - 1 - j))%Z by lia. rewrite Zminus_mod, C, Z.sub_diag. apply Zmod_0_l. }
      rewrite Z.mod_small in Q by lia. lia.
    + replace (iota + 1 - 1 - j)%Z with (iota - 1 - (j - 1))%Z by lia. rewrite K by lia.
      unfold ago. replace (Z.to_nat j) with (Datatypes.S (Z.to_nat (j - 1))) by lia. reflexivity.
Qed.

Definition i31 (iota : Z) : Prop := (0 <= iota < 2 ^ 31)%Z.
Lemma i32_sub iota k : i31 iota -> (0 <= k <= 2 ^ 20)%Z -> i32 (iota - k) = Some (iota - k)%Z.
Proof.
  intros H K. unfold i32, i31, INT_MIN, INT_MAX in *.
  destruct (Z.leb_spec (- 2 ^ 31) (iota - k)); [|lia]. destruct (Z.leb_spec (iota - k) (2 ^ 31 - 1)); [reflexivity|lia].
Qed.
(** A tap after this frame's write. *)
Lemma keeps_tap len iota r h k : pow2 len -> (len <= 2 ^ 20)%Z -> i31 iota -> keeps len (iota + 1) r h -> (0 <= k < len)%Z ->
  tap r iota k (mask_of len) = Some (ago k h).
Proof.
  intros P B I [E K] H. unfold tap. rewrite i32_sub by (auto; lia). rewrite land_mask by exact P. unfold rd.
  rewrite (in_mod r len) by assumption. f_equal. rewrite <- K by exact H. f_equal. f_equal. lia.
Qed.
(** A tap before this frame's write. *)
Lemma keeps_tap_old len iota r h k : pow2 len -> (len <= 2 ^ 20)%Z -> i31 iota -> keeps len iota r h -> (1 <= k <= len)%Z ->
  tap r iota k (mask_of len) = Some (ago (k - 1) h).
Proof.
  intros P B I [E K] H. unfold tap. rewrite i32_sub by (auto; lia). rewrite land_mask by exact P. unfold rd.
  rewrite (in_mod r len) by assumption. f_equal. rewrite <- K by lia. f_equal. f_equal. lia.
Qed.

(** ** The rate *)
Local Open Scope R_scope.
Definition top : f32 := fofZ 192000.
Lemma top_R : fin top /\ B2R top = 192000.
Proof. split; [ffin|]. fval top. lra. Qed.

Lemma rate_bounds sr : fin (rate sr) /\ 1 <= B2R (rate sr) <= 192000 /\ B2R (rate sr) = IZR (Z.max 1 (Z.min 192000 sr)).
Proof.
  unfold rate. destruct (fofZ_R (prec:=24) (emax:=128) (Z.max 1 (Z.min 192000 sr))) as [F E]; [lia|].
  split; [exact F|]. rewrite E. split; [|reflexivity]. split; [apply (IZR_le 1)|apply (IZR_le _ 192000)]; lia.
Qed.

Lemma fofZ_rnd n : (Z.abs n <= 2 ^ 31)%Z -> fin (fofZ n : f32) /\ B2R (fofZ n : f32) = rnd32 (IZR n).
Proof.
  intros H. unfold fofZ. destruct (flit_R (prec:=24) (emax:=128) n 0) as [F E].
  - change (bpow radix2 0) with 1. rewrite Rmult_1_r.
    destruct (dy_rnd_bnd (prec:=24) (emax:=128) (- bpow radix2 31) (bpow radix2 31) (IZR n)) as [A _]; [apply bdy; lia|apply bdy; lia| |exact A].
    change (bpow radix2 31) with (IZR (2 ^ 31)). rewrite <- opp_IZR. split; apply IZR_le; lia.
  - change (bpow radix2 0) with 1 in E. rewrite Rmult_1_r in E. now split.
Qed.
Lemma k0_rate sr : (Z.abs sr <= 2 ^ 31)%Z -> fv_k0 sr = rate sr.
Proof.
  intros H. unfold fv_k0, rate, fmaxf, fminf. destruct (fofZ_rnd sr H) as [F E]. fold top. destruct top_R as [Ft Et].
  destruct (Z_le_gt_dec sr 1) as [A|A].
  - replace (flt one (fofZ sr)) with false.
    + replace (Z.max 1 (Z.min 192000 sr)) with 1%Z by lia. vm_compute. reflexivity.
    + symmetry. apply flt_R_false; [exact one_fin|exact F|]. rewrite E, one_R. rewrite <- one_R. apply rnd_le_B2R. rewrite one_R. apply (IZR_le _ 1). lia.
  - destruct (Z_lt_le_dec sr 192000) as [B|B].
    + destruct (fofZ_R (prec:=24) (emax:=128) sr) as [F' E']; [lia|].
      replace (flt one (fofZ sr)) with true.
      * replace (flt (fofZ sr) top) with true; [f_equal; lia|]. symmetry. apply flt_R; auto. rewrite E', Et. apply (IZR_lt _ 192000). lia.
      * symmetry. apply flt_R; auto using one_fin. rewrite E', one_R. apply (IZR_lt 1). lia.
    + replace (flt one (fofZ sr)) with true.
      * replace (flt (fofZ sr) top) with false; [replace (Z.max 1 (Z.min 192000 sr)) with 192000%Z by lia; reflexivity|].
        symmetry. apply flt_R_false; auto. rewrite E. apply rnd_ge_B2R. rewrite Et. apply (IZR_le 192000). lia.
      * symmetry. apply flt_R; auto using one_fin. rewrite E, one_R. assert (B2R top <= rnd32 (IZR sr)) by (apply rnd_ge_B2R; rewrite Et; apply (IZR_le 192000); lia). lra.
Qed.

(** ** Tap lengths *)
Lemma span_ok (fs c : f32) : fin fs -> 1 <= B2R fs <= 192000 -> fin c -> 0 <= B2R c <= 1 ->
  to_int (fmul c fs) = Some (span fs c) /\ (0 <= span fs c <= span top c)%Z.
Proof.
  intros Ff Rf Fc Rc. destruct top_R as [Ft Et].
  assert (D : dy32 192000) by (apply dyZ; lia).
  destruct (fmul_b 0 192000 c fs) as (F & E & B); auto; [apply dy0|nra|].
  destruct (fmul_b 0 192000 c top) as (F' & E' & B'); auto; [apply dy0|rewrite Et; nra|].
  assert (S : (0 <= span fs c <= span top c)%Z).
  { unfold span. rewrite !Btrunc_R. split; [replace 0%Z with (Ztrunc (IZR 0)) by apply Ztrunc_IZR; apply Ztrunc_le|].
    - lra.
    - apply Ztrunc_le. rewrite E, E'. apply rnd_le. rewrite Et. nra. }
  split; [|exact S]. unfold to_int, ftoZ. change (is_finite (fmul c fs)) with (is_finite (fmul c fs)). unfold fin in F. rewrite F.
  fold (span fs c). assert (T : (span top c <= 192000)%Z).
  { unfold span. rewrite Btrunc_R. replace 192000%Z with (Ztrunc (IZR 192000)) by apply Ztrunc_IZR. apply Ztrunc_le. exact (proj2 B'). }
  unfold INT_MIN, INT_MAX. destruct (Z.leb_spec (- 2 ^ 31) (span fs c)); [|lia]. destruct (Z.leb_spec (span fs c) (2 ^ 31 - 1)); [reflexivity|lia].
Qed.
Lemma lim_small n : (0 <= n <= 65536)%Z -> lim n = n. Proof. unfold lim. lia. Qed.
Lemma lim_range n : (0 <= lim n <= 65536)%Z. Proof. unfold lim. lia. Qed.

(** Every tap of the constants [k] at the rate [fs]: the delay meant, shorter than its ring. *)
Definition taps_ok (fs : f32) (k : fvk) : Prop :=
  (c6 k = loop fs (flit 4969497 (-30)) - 1)%Z /\ (0 <= c6 k < 1024)%Z /\
  (c7 k = loop fs (flit 3976247 (-30)) - 1)%Z /\ (0 <= c7 k < 1024)%Z /\
  (c8 k = loop fs (flit 7042045 (-29)) - 1)%Z /\ (0 <= c8 k < 4096)%Z /\
  (c9 k = loop fs (flit 9694019 (-30)) - 1)%Z /\ (0 <= c9 k < 2048)%Z /\
  (c10 k = span fs (flit 1783083 (-24)) + 1)%Z /\ (1 <= c10 k < 32768)%Z /\
  c13 k = span fs (flit 9509025 (-26)) /\ (0 <= c13 k < 32768)%Z /\
  (c14 k = loop fs (flit 11978169 (-27)) - 1)%Z /\ (0 <= c14 k < 32768)%Z /\
  (c15 k = loop fs (flit 10553777 (-31)) - 1)%Z /\ (0 <= c15 k < 1024)%Z /\
  (c16 k = loop fs (flit 3744621 (-30)) - 1)%Z /\ (0 <= c16 k < 1024)%Z /\
  (c17 k = loop fs (flit 13263657 (-30)) - 1)%Z /\ (0 <= c17 k < 4096)%Z /\
  (c18 k = loop fs (flit 10293649 (-30)) - 1)%Z /\ (0 <= c18 k < 2048)%Z /\
  (c19 k = span fs (flit 4194163 (-25)) + 1)%Z /\ (1 <= c19 k < 32768)%Z /\
  c20 k = span fs (flit 10041187 (-26)) /\ (0 <= c20 k < 32768)%Z /\
  (c21 k = loop fs (flit 8117735 (-27)) - 1)%Z /\ (0 <= c21 k < 16384)%Z /\
  c22 k = span fs (flit 4807503 (-27)) /\ (0 <= c22 k < 32768)%Z /\
  c23 k = span fs (flit 13493479 (-31)) /\ (0 <= c23 k < 8192)%Z /\
  c24 k = span fs (flit 8974607 (-27)) /\ (0 <= c24 k < 32768)%Z /\
  c25 k = span fs (flit 2156837 (-25)) /\ (0 <= c25 k < 16384)%Z /\
  c26 k = span fs (flit 4500833 (-26)) /\ (0 <= c26 k < 32768)%Z /\
  c27 k = span fs (flit 6706151 (-26)) /\ (0 <= c27 k < 32768)%Z /\
  c28 k = span fs (flit 9596967 (-30)) /\ (0 <= c28 k < 32768)%Z /\
  c29 k = span fs (flit 8731075 (-31)) /\ (0 <= c29 k < 32768)%Z /\
  c30 k = span fs (flit 12086405 (-30)) /\ (0 <= c30 k < 16384)%Z /\
  c31 k = span fs (flit 9520299 (-27)) /\ (0 <= c31 k < 32768)%Z /\
  c32 k = span fs (flit 5538099 (-27)) /\ (0 <= c32 k < 8192)%Z /\
  c33 k = span fs (flit 3013709 (-25)) /\ (0 <= c33 k < 32768)%Z /\
  c34 k = span fs (flit 4089309 (-25)) /\ (0 <= c34 k < 32768)%Z /\
  c35 k = span fs (flit 795989 (-26)) /\ (0 <= c35 k < 32768)%Z.

Ltac tapped fs F B c :=
  let H := fresh "T" in let R := fresh "R" in
  destruct (span_ok fs c F B) as [H R]; [vm_compute; reflexivity|let v := fresh "V" in pose proof (fq_R c) as v;
    let p := eval vm_compute in (fq c) in change (fq c) with p in v; cbn [fst snd] in v; lra|];
  let z := eval vm_compute in (span top c) in change (span top c) with z in R; rewrite H; clear H.
Lemma consts_ok sr : (Z.abs sr <= 2 ^ 31)%Z -> exists k, fv_consts sr = Some k /\ k0 k = rate sr /\ taps_ok (rate sr) k /\
  k1 k = fdiv (flit 5780275 (-17)) (rate sr) /\ k2 k = fsub one (k1 k) /\ k3 k = fdiv (flit 13176795 (-21)) (rate sr) /\
  k4 k = fdiv (flit 14797505 (-25)) (rate sr) /\ k5 k = fdiv (flit 2959501 (-26)) (rate sr) /\ k11 k = fdiv one (rate sr) /\
  k12 k = fdiv one (fofZ (span (rate sr) (flit 5368709 (-29)))).
Proof.
  intros H. unfold fv_consts. cbv zeta. rewrite (k0_rate sr H). destruct (rate_bounds sr) as (F & B & _). set (fs := rate sr) in *. clearbody fs.
  tapped fs F B (flit 5368709 (-29) : f32).
  tapped fs F B ((flit 4969497 (-30)) : f32).
  tapped fs F B ((flit 3976247 (-30)) : f32).
  tapped fs F B ((flit 7042045 (-29)) : f32).
  tapped fs F B ((flit 9694019 (-30)) : f32).
  tapped fs F B ((flit 1783083 (-24)) : f32).
  tapped fs F B ((flit 9509025 (-26)) : f32).
  tapped fs F B ((flit 11978169 (-27)) : f32).
  tapped fs F B ((flit 10553777 (-31)) : f32).
  tapped fs F B ((flit 3744621 (-30)) : f32).
  tapped fs F B ((flit 13263657 (-30)) : f32).
  tapped fs F B ((flit 10293649 (-30)) : f32).
  tapped fs F B ((flit 4194163 (-25)) : f32).
  tapped fs F B ((flit 10041187 (-26)) : f32).
  tapped fs F B ((flit 8117735 (-27)) : f32).
  tapped fs F B ((flit 4807503 (-27)) : f32).
  tapped fs F B ((flit 13493479 (-31)) : f32).
  tapped fs F B ((flit 8974607 (-27)) : f32).
  tapped fs F B ((flit 2156837 (-25)) : f32).
  tapped fs F B ((flit 4500833 (-26)) : f32).
  tapped fs F B ((flit 6706151 (-26)) : f32).
  tapped fs F B ((flit 9596967 (-30)) : f32).
  tapped fs F B ((flit 8731075 (-31)) : f32).
  tapped fs F B ((flit 12086405 (-30)) : f32).
  tapped fs F B ((flit 9520299 (-27)) : f32).
  tapped fs F B ((flit 5538099 (-27)) : f32).
  tapped fs F B ((flit 3013709 (-25)) : f32).
  tapped fs F B ((flit 4089309 (-25)) : f32).
  tapped fs F B ((flit 795989 (-26)) : f32).
  eexists. split; [reflexivity|]. cbn [k0 k1 k2 k3 k4 k5 k11 k12].
  split; [reflexivity|]. split; [|repeat split; reflexivity].
  unfold taps_ok, loop. cbn [c6 c7 c8 c9 c10 c13 c14 c15 c16 c17 c18 c19 c20 c21 c22 c23 c24 c25 c26 c27 c28 c29 c30 c31 c32 c33 c34 c35]. unfold lim. repeat split; lia.
Qed.
