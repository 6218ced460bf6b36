(** BufRd: interpolators and positions. *)
From Coq Require Import ZArith Reals Bool List Lra Lia Psatz.
From Flocq Require Import Core BinarySingleNaN.
From Verif Require Import Flt FltFacts FltMore FltKey FltArith FltClose FltScale UtilModel UtilProofs OscSpec OscProofs3 PhasorProofs RdModel RdSpec.
Import ListNotations.
Local Open Scope R_scope.

Ltac al := apply Rabs_le; split; lra.
Ltac an := apply Rabs_le; split; nra.
(** [st H L k e]: name the bound [L] gives, express it in units [uu], weaken it to [e]. *)
Tactic Notation "st" ident(H) constr(L) constr(e) := pose proof L as H; rewrite buu in H by lia; apply (cs_weak _ _ (e * uu)) in H; [|pose proof uu_b; cbn; nra].
Lemma cubic_acc j (y0 y1 y2 y3 t : f32) : (-100 <= j <= 96)%Z -> bnd j y0 -> bnd j y1 -> bnd j y2 -> bnd j y3 -> fin t -> 0 <= B2R t <= 1 ->
  fin (rd_cubic y0 y1 y2 y3 t) /\
  Rabs (B2R (rd_cubic y0 y1 y2 y3 t) - spline (B2R t) (B2R y0) (B2R y1) (B2R y2) (B2R y3)) <= bpow radix2 (j - 17).
Proof.
  intros J [F0 B0] [F1 B1] [F2 B2] [F3 B3] Ft Bt. unfold rd_cubic.
  pose proof (cs_self j _ F0) as S0. pose proof (cs_self j _ F1) as S1. pose proof (cs_self j _ F2) as S2. pose proof (cs_self j _ F3) as S3.
  apply sc_abs in B0, B1, B2, B3. pose proof (bpow_gt_0 radix2 j) as PJ.
  assert (E : spline (B2R t) (B2R y0) (B2R y1) (B2R y2) (B2R y3) =
    spline (B2R t) (B2R y0 / bpow radix2 j) (B2R y1 / bpow radix2 j) (B2R y2 / bpow radix2 j) (B2R y3 / bpow radix2 j) * bpow radix2 j) by (unfold spline; field; lra).
  rewrite E. clear E. set (p0 := B2R y0 / bpow radix2 j) in *. set (p1 := B2R y1 / bpow radix2 j) in *. set (p2 := B2R y2 / bpow radix2 j) in *. set (p3 := B2R y3 / bpow radix2 j) in *.
  clearbody p0 p1 p2 p3. apply Rabs_le_inv in B0, B1, B2, B3. pose proof uu_b as U.
  assert (CH : cl 0 half (/ 2)) by (apply cl_const; [ffin|apply half_R]). assert (CNH : cl 0 (fneg half) (- / 2)) by (apply cl_neg, CH).
  assert (C15 : cl 0 (fdec 3 2) (3 / 2)) by (apply cl_const; [ffin|apply c15_R]). assert (C25 : cl 0 (fdec 5 2) (5 / 2)) by (apply cl_const; [ffin|apply c25_R]).
  assert (C2 : cl 0 two 2) by (apply cl_const; [ffin|apply two_R]).
  pose proof (cl_self _ Ft) as CT. set (x := B2R t) in *. clearbody x.
  assert (Hxx : 0 <= x * x <= 1) by nra. assert (Hxxx : 0 <= x * x * x <= 1) by nra.
  pose proof (cl_mul 0 0 0 1 1 t t x x ltac:(lia) CT CT ltac:(al) ltac:(al) ltac:(bp; lra)) as T2. rewrite buu in T2 by lia.
  apply (cl_weak _ (1 * uu)) in T2; [|cbn; lra].
  pose proof (cl_mul 1 (1 * uu) 0 1 1 _ t (x * x) x ltac:(lia) T2 CT ltac:(al) ltac:(al) ltac:(bp; lra)) as T3. rewrite buu in T3 by lia.
  apply (cl_weak _ (3 * uu)) in T3; [|cbn; lra].
  set (t2 := fmul t t) in *. set (t3 := fmul t2 t) in *. clearbody t2 t3.
  st M0 (cs_mul j 0 0 0 (/2) 1 _ _ _ _ ltac:(lia) CNH S0 ltac:(al) ltac:(al) ltac:(bp; lra)) 1.
  st M1 (cs_mul j 1 0 0 (3/2) 1 _ _ _ _ ltac:(lia) C15 S1 ltac:(al) ltac:(al) ltac:(bp; lra)) 2.
  st A1 (cs_add j 2 _ _ _ _ _ _ ltac:(lia) M0 M1 ltac:(bp; assert (Rabs (- / 2 * p0 + 3 / 2 * p1) <= 2) by al; lra)) 7.
  st M2 (cs_mul j 1 0 0 (3/2) 1 _ _ _ _ ltac:(lia) C15 S2 ltac:(al) ltac:(al) ltac:(bp; lra)) 2.
  st A2 (cs_sub j 2 _ _ _ _ _ _ ltac:(lia) A1 M2 ltac:(bp; assert (Rabs (- / 2 * p0 + 3 / 2 * p1 - 3 / 2 * p2) <= 7 / 2) by al; lra)) 13.
  st M3 (cs_mul j 0 0 0 (/2) 1 _ _ _ _ ltac:(lia) CH S3 ltac:(al) ltac:(al) ltac:(bp; lra)) 1.
  assert (K0 : Rabs (- / 2 * p0 + 3 / 2 * p1 - 3 / 2 * p2 + / 2 * p3) <= 4) by al.
  st A3 (cs_add j 3 _ _ _ _ _ _ ltac:(lia) A2 M3 ltac:(bp; lra)) 22.
  st N1 (cs_mul j 2 0 0 (5/2) 1 _ _ _ _ ltac:(lia) C25 S1 ltac:(al) ltac:(al) ltac:(bp; lra)) 4.
  st B1' (cs_sub j 2 _ _ _ _ _ _ ltac:(lia) S0 N1 ltac:(bp; assert (Rabs (p0 - 5 / 2 * p1) <= 7 / 2) by al; lra)) 8.
  st N2 (cs_mul j 1 0 0 2 1 _ _ _ _ ltac:(lia) C2 S2 ltac:(al) ltac:(al) ltac:(bp; lra)) 2.
  st B2' (cs_add j 3 _ _ _ _ _ _ ltac:(lia) B1' N2 ltac:(bp; assert (Rabs (p0 - 5 / 2 * p1 + 2 * p2) <= 11 / 2) by al; lra)) 18.
  assert (K1 : Rabs (p0 - 5 / 2 * p1 + 2 * p2 - / 2 * p3) <= 6) by al.
  st B3' (cs_sub j 3 _ _ _ _ _ _ ltac:(lia) B2' M3 ltac:(bp; lra)) 27.
  st D2 (cs_mul j 0 0 0 (/2) 1 _ _ _ _ ltac:(lia) CH S2 ltac:(al) ltac:(al) ltac:(bp; lra)) 1.
  assert (K2 : Rabs (- / 2 * p0 + / 2 * p2) <= 1) by al.
  st D3 (cs_add j 1 _ _ _ _ _ _ ltac:(lia) M0 D2 ltac:(bp; lra)) 4.
  set (a0 := - / 2 * p0 + 3 / 2 * p1 - 3 / 2 * p2 + / 2 * p3) in *. set (a1 := p0 - 5 / 2 * p1 + 2 * p2 - / 2 * p3) in *. set (a2 := - / 2 * p0 + / 2 * p2) in *.
  st P0 (cs_mulr j 3 _ _ 4 1 _ _ _ _ ltac:(lia) A3 T3 K0 ltac:(al) ltac:(bp; nra)) 43.
  st P1 (cs_mulr j 3 _ _ 6 1 _ _ _ _ ltac:(lia) B3' T2 K1 ltac:(al) ltac:(bp; nra)) 42.
  st P2 (cs_mulr j 1 _ _ 1 1 _ _ _ _ ltac:(lia) D3 CT K2 ltac:(al) ltac:(bp; nra)) 7.
  assert (KK : Rabs (a0 * (x * x * x)) <= 4 /\ Rabs (a1 * (x * x)) <= 6 /\ Rabs (a2 * x) <= 1).
  { rewrite !(Rabs_mult _ (_ * x)), (Rabs_mult a2), (Rabs_pos_eq (x * x * x)), (Rabs_pos_eq (x * x)), (Rabs_pos_eq x) by lra.
    pose proof (Rabs_pos a0). pose proof (Rabs_pos a1). pose proof (Rabs_pos a2). repeat split; nra. }
  destruct KK as (KA & KB & KC). set (q0 := a0 * (x * x * x)) in *. set (q1 := a1 * (x * x)) in *. set (q2 := a2 * x) in *.
  apply Rabs_le_inv in KA, KB, KC.
  st R1 (cs_add j 4 _ _ _ _ _ _ ltac:(lia) P0 P1 ltac:(bp; assert (Rabs (q0 + q1) <= 10) by al; lra)) 101.
  st R2 (cs_add j 4 _ _ _ _ _ _ ltac:(lia) R1 P2 ltac:(bp; assert (Rabs (q0 + q1 + q2) <= 11) by al; lra)) 124.
  st R3 (cs_add j 4 _ _ _ _ _ _ ltac:(lia) R2 S1 ltac:(bp; assert (Rabs (q0 + q1 + q2 + p1) <= 12) by al; lra)) 140.
  apply cs_out in R3. destruct R3 as [FR ER]. split; [exact FR|].
  replace (spline x p0 p1 p2 p3) with (q0 + q1 + q2 + p1) by (unfold q0, q1, q2, a0, a1, a2, spline; field).
  eapply Rle_trans; [exact ER|]. replace (j - 17)%Z with (-17 + j)%Z by lia. rewrite bpow_plus. apply Rmult_le_compat_r; [lra|]. unfold uu. bp. lra.
Qed.
Lemma lerp_acc j (a b t : f32) : (-100 <= j <= 96)%Z -> bnd j a -> bnd j b -> fin t -> 0 <= B2R t <= 1 ->
  fin (lerp a b t) /\ Rabs (B2R (lerp a b t) - linear (B2R t) (B2R a) (B2R b)) <= bpow radix2 (j - 22).
Proof.
  intros J [F0 B0] [F1 B1] Ft Bt. unfold lerp, linear.
  pose proof (cs_self j _ F0) as S0. pose proof (cs_self j _ F1) as S1.
  apply sc_abs in B0, B1. pose proof (bpow_gt_0 radix2 j) as PJ.
  assert (E : (1 - B2R t) * B2R a + B2R t * B2R b = (B2R a / bpow radix2 j + B2R t * (B2R b / bpow radix2 j - B2R a / bpow radix2 j)) * bpow radix2 j) by (field; lra).
  rewrite E. clear E. set (p0 := B2R a / bpow radix2 j) in *. set (p1 := B2R b / bpow radix2 j) in *. clearbody p0 p1.
  apply Rabs_le_inv in B0, B1. pose proof uu_b as U. pose proof (cl_self _ Ft) as CT. set (x := B2R t) in *. clearbody x.
  assert (K0 : Rabs (p1 - p0) <= 2) by al.
  pose proof (cs_sub j 1 _ _ _ _ _ _ ltac:(lia) S1 S0 ltac:(bp; lra)) as D. rewrite buu in D by lia. apply (cs_weak _ _ (2 * uu)) in D; [|cbn; lra].
  assert (K1 : Rabs (x * (p1 - p0)) <= 2) by (rewrite Rabs_mult, (Rabs_pos_eq x) by lra; pose proof (Rabs_pos (p1 - p0)); nra).
  pose proof (cs_mul j 2 _ _ 1 2 _ _ _ _ ltac:(lia) CT D ltac:(al) K0 ltac:(bp; lra)) as M. rewrite buu in M by lia. apply (cs_weak _ _ (6 * uu)) in M; [|cbn; lra].
  assert (K2 : Rabs (p0 + x * (p1 - p0)) <= 1) by (apply Rabs_le; split; nra).
  pose proof (cs_add j 1 _ _ _ _ _ _ ltac:(lia) S0 M ltac:(bp; lra)) as R. rewrite buu in R by lia. apply (cs_weak _ _ (8 * uu)) in R; [|cbn; lra].
  apply cs_out in R. destruct R as [FR ER]. split; [exact FR|]. eapply Rle_trans; [exact ER|].
  replace (j - 22)%Z with (-22 + j)%Z by lia. rewrite bpow_plus. apply Rmult_le_compat_r; [lra|]. unfold uu. bp. lra.
Qed.
