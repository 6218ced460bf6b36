(** FVerb: the program computes the network of ideal delay lines. *)
From Coq Require Import ZArith Reals Bool List Lra Lia Psatz.
From Flocq Require Import Core BinarySingleNaN.
From Verif Require Import Flt FltFacts FltMore FltKey FltArith Libm UtilModel UtilProofs FvModel FvSpec FvProofs.
Import ListNotations.
Local Open Scope flt_scope.

Lemma q17 : pow2 131072. Proof. exists 17%Z. split; [lia|reflexivity]. Qed.
Lemma q15 : pow2 32768. Proof. exists 15%Z. split; [lia|reflexivity]. Qed.
Lemma q14 : pow2 16384. Proof. exists 14%Z. split; [lia|reflexivity]. Qed.
Lemma q13 : pow2 8192. Proof. exists 13%Z. split; [lia|reflexivity]. Qed.
Lemma q12 : pow2 4096. Proof. exists 12%Z. split; [lia|reflexivity]. Qed.
Lemma q11 : pow2 2048. Proof. exists 11%Z. split; [lia|reflexivity]. Qed.
Lemma q10 : pow2 1024. Proof. exists 10%Z. split; [lia|reflexivity]. Qed.

Lemma kput len mask iota r h x : mask = mask_of len -> pow2 len -> keeps len iota r h ->
  exists r', put r iota mask x = Some r' /\ keeps len (iota + 1) r' (x :: h).
Proof. intros ->. apply keeps_put. Qed.
Lemma ktap len mask iota r h k : mask = mask_of len -> pow2 len -> (len <= 2 ^ 20)%Z -> i31 iota -> keeps len (iota + 1) r h -> (0 <= k < len)%Z ->
  tap r iota k mask = Some (ago k h).
Proof. intros ->. apply keeps_tap. Qed.
Lemma ktap_old len mask iota r h k : mask = mask_of len -> pow2 len -> (len <= 2 ^ 20)%Z -> i31 iota -> keeps len iota r h -> (1 <= k <= len)%Z ->
  tap r iota k mask = Some (ago (k - 1) h).
Proof. intros ->. apply keeps_tap_old. Qed.

(** ** The two parts of a side *)
Definition in_rel (D : lens) (iota : Z) (s : fvin) (n : side) : Prop :=
  keeps 131072 iota (i_pre s) (n_pre n) /\ i_lp s = n_lp n /\ i_hp s = n_hp n /\
  keeps 1024 iota (i_v1 s) (n_1 n) /\ i_r1 s = ago (l1 D - 1) (n_1 n) /\
  keeps 1024 iota (i_v2 s) (n_2 n) /\ i_r2 s = ago (l2 D - 1) (n_2 n) /\
  keeps 4096 iota (i_v3 s) (n_3 n) /\ i_r3 s = ago (l3 D - 1) (n_3 n) /\
  keeps 2048 iota (i_v4 s) (n_4 n) /\ i_r4 s = ago (l4 D - 1) (n_4 n).
Definition half_rel (D : lens) (len8 lend iota : Z) (m : fvmod) (s : fvhalf) (n : side) : Prop :=
  keeps 131072 iota (h_v5 s) (n_5 n) /\ h_mod s = m /\ h_r10 s = n_z n /\
  keeps 32768 iota (h_v7 s) (n_7 n) /\ h_r9 s = n_d n /\
  keeps len8 iota (h_v8 s) (n_8 n) /\ h_r6 s = ago (l8 D - 1) (n_8 n) /\
  keeps 32768 iota (h_out s) (n_out n) /\ keeps lend iota (h_damp s) (n_damp n) /\ keeps 32768 iota (h_diff s) (n_diff n).
Definition lens_ok (len8 : Z) (D : lens) : Prop :=
  (1 <= l1 D <= 1024)%Z /\ (1 <= l2 D <= 1024)%Z /\ (1 <= l3 D <= 4096)%Z /\ (1 <= l4 D <= 2048)%Z /\
  (0 <= l7 D < 32768)%Z /\ (1 <= l8 D <= len8)%Z.

(** Carry out the next write; [tac] names the ring's facts. *)
Ltac putting P K := let v := fresh "v" in let E := fresh "E" in let K' := fresh "K" in
  match type of K with keeps ?len ?iota ?r ?h =>
    match goal with |- context [put r iota ?m ?x] =>
      destruct (kput len m iota r h x eq_refl P K) as (v & E & K'); rewrite E; clear E end end.
Ltac tapping P I := match goal with K : keeps ?len (?iota + 1) ?v ?h |- context [tap ?v ?iota ?k ?m] =>
  rewrite (ktap len m iota v h k eq_refl P) by (first [exact I | exact K | lia]) end.

Lemma input_step D len8 p pre iota x s n r13 r14 dm m cross :
  lens_ok len8 D -> i31 iota -> (0 <= pre <= 65536)%Z -> in_rel D iota s n ->
  r13 = ago (l4 D - 1) (n_4 n) ->
  r14 = p15 p * hd zero (n_4 (side_step p dm D pre m x cross n)) ->
  exists s', fv_input p pre (l1 D - 1) (l2 D - 1) (l3 D - 1) (l4 D - 1) iota x s = Some (s', r13, r14) /\
    in_rel D (iota + 1) s' (side_step p dm D pre m x cross n).
Proof.
  intros (B1 & B2 & B3 & B4 & _ & _) I PR (K0 & E1 & E2 & K1 & E3 & K2 & E4 & K3 & E5 & K4 & E6) R13 R14.
  assert (R14' := R14). unfold side_step in R14'. cbn [diffuse diffuse2 n_4 hd] in R14'.
  unfold fv_input.
  putting q17 K0. tapping q17 I.
  rewrite E1, E2, E3, E4, E5, E6.
  putting q10 K1. tapping q10 I.
  putting q10 K2. tapping q10 I.
  putting q12 K3. tapping q12 I.
  putting q11 K4. tapping q11 I.
  eexists. split.
  - rewrite R14', R13. reflexivity.
  - unfold in_rel, side_step. cbn [diffuse diffuse2 n_pre n_lp n_hp n_1 n_2 n_3 n_4 i_pre i_lp i_hp i_v1 i_r1 i_v2 i_r2 i_v3 i_r3 i_v4 i_r4].
    repeat (split; [first [eassumption | reflexivity]|]). reflexivity.
Qed.

Lemma t14 p : fminf half (fmaxf (flit 1 (-2)) (p29 p + (flit 5033165 (-25) : f32))) = fminf half (fmaxf (fdec 1 4) (p29 p + fdec 3 20)).
Proof. replace (fdec 1 4) with (flit 1 (-2) : f32) by (vm_compute; reflexivity). replace (fdec 3 20) with (flit 5033165 (-25) : f32) by (vm_compute; reflexivity). reflexivity. Qed.

Lemma half_step D len8 lend k p dm pre iota d m x cross s n r13 r14 m8 md :
  lens_ok len8 D -> i31 iota -> pow2 len8 -> pow2 lend -> (len8 <= 2 ^ 20)%Z -> m8 = mask_of len8 -> md = mask_of lend ->
  half_rel D len8 lend iota m s n ->
  r13 = ago (l4 D - 1) (n_4 n) ->
  r14 = p15 p * hd zero (n_4 (side_step p dm D pre (fv_modstep k d m) x cross n)) ->
  exists s', fv_half k p dm (l7 D) (l8 D - 1) m8 md iota d r13 r14 cross s = Some s' /\
    half_rel D len8 lend (iota + 1) (fv_modstep k d m) s' (side_step p dm D pre (fv_modstep k d m) x cross n).
Proof.
  intros (_ & _ & _ & _ & B7 & B8) I P8 PD B8' M8 MD (K5 & EM & E1 & K7 & E2 & K8 & E3 & KO & KD & KF) R13 R14.
  unfold side_step in R14. cbn [diffuse diffuse2 n_4 hd] in R14.
  unfold fv_half. rewrite R13, R14, EM, E1, E2, E3, t14.
  putting q17 K5. pose proof (lim_range (x_a (fv_modstep k d m))). pose proof (lim_range (x_b (fv_modstep k d m))).
  tapping q17 I. tapping q17 I.
  putting q15 K7. tapping q15 I.
  match goal with |- context [put (h_v8 s) iota m8 ?t] => destruct (kput len8 m8 iota (h_v8 s) _ t M8 P8 K8) as (w8 & EE & K8'); rewrite EE; clear EE end.
  rewrite (ktap len8 m8 iota w8 _ (l8 D - 1) M8 P8) by (first [exact I | exact K8' | lia]).
  putting q15 KO.
  match goal with |- context [put (h_damp s) iota md ?t] => destruct (kput lend md iota (h_damp s) _ t MD PD KD) as (wd & EE & KD'); rewrite EE; clear EE end.
  putting q15 KF.
  eexists. split; [reflexivity|].
  unfold half_rel, side_step. cbn [diffuse diffuse2 n_5 n_z n_7 n_d n_8 n_out n_damp n_diff h_v5 h_mod h_r10 h_v7 h_r9 h_v8 h_r6 h_out h_damp h_diff].
  repeat (split; [first [eassumption | reflexivity]|]). eassumption.
Qed.

(** ** One frame *)
Definition rel (d : fvdsp) (e : ideal) : Prop :=
  d_k d = e_k e /\ taps_ok (rate (e_sr e)) (e_k e) /\ d_sl d = e_sl e /\ i31 (d_iota d) /\
  d_par d = t_par (e_c e) /\ d_ph d = t_ph (e_c e) /\
  in_rel (lensR (rate (e_sr e))) (d_iota d) (d_inR d) (nR (e_n e)) /\
  half_rel (lensR (rate (e_sr e))) 32768 16384 (d_iota d) (t_R (e_c e)) (d_R d) (nR (e_n e)) /\
  in_rel (lensL (rate (e_sr e))) (d_iota d) (d_inL d) (nL (e_n e)) /\
  half_rel (lensL (rate (e_sr e))) 16384 8192 (d_iota d) (t_L (e_c e)) (d_L d) (nL (e_n e)).

Lemma i32_next i : i31 i -> i32 (i + 1) = if (i + 1 <? 2 ^ 31)%Z then Some (i + 1)%Z else None.
Proof.
  unfold i31, i32, INT_MIN, INT_MAX. intros H.
  destruct (Z.ltb_spec (i + 1) (2 ^ 31)); destruct (Z.leb_spec (- 2 ^ 31) (i + 1)); destruct (Z.leb_spec (i + 1) (2 ^ 31 - 1)); cbn [andb]; try lia; reflexivity.
Qed.

Lemma looped c n b : (c = n - 1)%Z -> (0 <= c < b)%Z -> (1 <= n <= b)%Z. Proof. lia. Qed.
Lemma spanned c n b : c = n -> (0 <= c < b)%Z -> (0 <= n < b)%Z. Proof. lia. Qed.
Lemma before c b : (1 <= c < b)%Z -> (1 <= c <= b)%Z. Proof. lia. Qed.
Lemma within c b : (1 <= c < b)%Z -> (0 <= c < b)%Z. Proof. lia. Qed.
Lemma b20 : (32768 <= 2 ^ 20)%Z. Proof. lia. Qed.
Lemma b20' : (16384 <= 2 ^ 20)%Z. Proof. lia. Qed.
Lemma b20'' : (8192 <= 2 ^ 20)%Z. Proof. lia. Qed.
Lemma frame_refines L w d e xl xr : rel d e ->
  match ctl_step L (e_k e) w (e_c e) with
  | None => fv_frame L w d xl xr = None
  | Some (c, pre) =>
      let '(n, o0, o1) := net_step (rate (e_sr e)) (t_par c) pre (t_R c) (t_L c) xl xr (e_n e) in
      if (d_iota d + 1 <? 2 ^ 31)%Z
      then exists d', fv_frame L w d xl xr = Some (d', o0, o1) /\ rel d' (Ideal (e_sr e) (e_k e) (e_sl e) c n) /\ d_iota d' = (d_iota d + 1)%Z
      else fv_frame L w d xl xr = None
  end.
Proof.
  intros (EK & TK & ES & I & EP & EH & KIR & KR & KIL & KL).
  unfold ctl_step, fv_frame. rewrite EK, EP, EH.
  set (k := e_k e) in *. set (p := fv_smooth k w (t_par (e_c e))) in *. set (fs := rate (e_sr e)) in *. clearbody p.
  destruct (to_int (fmul (k0 k) (p28 p))) as [n2|]; [|reflexivity].
  change (Z.min 65536 (Z.max 0 n2)) with (lim n2). pose proof (lim_range n2) as PR.
  set (pre := lim n2) in *. clearbody pre. clear n2.
  assert (TK' := TK). unfold taps_ok in TK'.
  destruct TK' as (Q6 & G6 & Q7 & G7 & Q8 & G8 & Q9 & G9 & Q10 & G10 & Q13 & G13 & Q14 & G14 & Q15 & G15 & Q16 & G16 & Q17 & G17 & Q18 & G18 & Q19 & G19 & Q20 & G20 & Q21 & G21 & Q22 & G22 & Q23 & G23 & Q24 & G24 & Q25 & G25 & Q26 & G26 & Q27 & G27 & Q28 & G28 & Q29 & G29 & Q30 & G30 & Q31 & G31 & Q32 & G32 & Q33 & G33 & Q34 & G34 & Q35 & G35).
  assert (LR : lens_ok 32768 (lensR fs)).
  { unfold lens_ok, lensR. cbn [l1 l2 l3 l4 l7 l8].
    exact (conj (looped _ _ _ Q6 G6) (conj (looped _ _ _ Q7 G7) (conj (looped _ _ _ Q8 G8) (conj (looped _ _ _ Q9 G9) (conj (spanned _ _ _ Q13 G13) (looped _ _ _ Q14 G14)))))). }
  assert (LL : lens_ok 16384 (lensL fs)).
  { unfold lens_ok, lensL. cbn [l1 l2 l3 l4 l7 l8].
    exact (conj (looped _ _ _ Q15 G15) (conj (looped _ _ _ Q16 G16) (conj (looped _ _ _ Q17 G17) (conj (looped _ _ _ Q18 G18) (conj (spanned _ _ _ Q20 G20) (looped _ _ _ Q21 G21)))))). }
  rewrite Q6, Q7, Q8, Q9, Q13, Q14, Q15, Q16, Q17, Q18, Q20, Q21.
  destruct (fv_phase k p (t_ph (e_c e))) as [ph|] eqn:EPh.
  2:{ destruct (input_step (lensR fs) 32768 p pre (d_iota d) xr (d_inR d) (nR (e_n e)) _ _ fv_dampR fv_mod0 zero LR I PR KIR eq_refl eq_refl) as (iR & EI & _).
      unfold lensR in EI. cbn [l1 l2 l3 l4 l7 l8] in EI. rewrite EI.
      destruct KL as (_ & _ & _ & _ & _ & _ & _ & KO & _ & _). rewrite (ktap_old 32768 32767 _ _ _ _ eq_refl q15 b20 I KO (before _ _ G10)). reflexivity. }
  destruct (fv_dR L k p ph) as [dR|] eqn:EdR.
  2:{ destruct (input_step (lensR fs) 32768 p pre (d_iota d) xr (d_inR d) (nR (e_n e)) _ _ fv_dampR fv_mod0 zero LR I PR KIR eq_refl eq_refl) as (iR & EI & _).
      unfold lensR in EI. cbn [l1 l2 l3 l4 l7 l8] in EI. rewrite EI.
      destruct KL as (_ & _ & _ & _ & _ & _ & _ & KO & _ & _). rewrite (ktap_old 32768 32767 _ _ _ _ eq_refl q15 b20 I KO (before _ _ G10)). reflexivity. }
  set (mR := fv_modstep k dR (t_R (e_c e))) in *.
  set (crossR := ago (span fs (flit 1783083 (-24))) (n_out (nL (e_n e)))).
  destruct (input_step (lensR fs) 32768 p pre (d_iota d) xr (d_inR d) (nR (e_n e)) _ _ fv_dampR mR crossR LR I PR KIR eq_refl eq_refl) as (iR & EI & KIR').
  unfold lensR in EI at 1 2 3 4. cbn [l1 l2 l3 l4 l7 l8] in EI. rewrite EI. clear EI.
  assert (EX : tap (h_out (d_L d)) (d_iota d) (c10 k) 32767 = Some crossR).
  { destruct KL as (_ & _ & _ & _ & _ & _ & _ & KO & _ & _). rewrite (ktap_old 32768 32767 _ _ _ _ eq_refl q15 b20 I KO (before _ _ G10)).
    rewrite Q10. unfold crossR. f_equal. f_equal. clear. lia. }
  rewrite EX. clear EX.
  destruct (half_step (lensR fs) 32768 16384 k p fv_dampR pre (d_iota d) dR (t_R (e_c e)) xr crossR (d_R d) (nR (e_n e)) _ _ 32767 16383
    LR I q15 q14 b20 eq_refl eq_refl KR eq_refl eq_refl) as (hR & EHR & KR').
  unfold lensR in EHR at 1 2. cbn [l7 l8] in EHR. fold mR in EHR, KR'. rewrite EHR. clear EHR.
  cbn [t_par t_R t_L]. unfold net_step. cbv zeta. fold crossR.
  set (sR := side_step p fv_dampR (lensR fs) pre mR xr crossR (nR (e_n e))) in *.
  set (crossL := ago (span fs (flit 4194163 (-25)) + 1) (n_out sR)).
  destruct (fv_dL L k p ph) as [dL|] eqn:EdL.
  2:{ destruct (input_step (lensL fs) 16384 p pre (d_iota d) xl (d_inL d) (nL (e_n e)) _ _ fv_dampL fv_mod0 zero LL I PR KIL eq_refl eq_refl) as (iL & EIL & _).
      unfold lensL in EIL. cbn [l1 l2 l3 l4 l7 l8] in EIL. rewrite EIL.
      destruct KR' as (_ & _ & _ & _ & _ & _ & _ & KO & _ & _). rewrite (ktap 32768 32767 _ _ _ _ eq_refl q15 b20 I KO (within _ _ G19)). reflexivity. }
  set (mL := fv_modstep k dL (t_L (e_c e))) in *.
  destruct (input_step (lensL fs) 16384 p pre (d_iota d) xl (d_inL d) (nL (e_n e)) _ _ fv_dampL mL crossL LL I PR KIL eq_refl eq_refl) as (iL & EIL & KIL').
  unfold lensL in EIL at 1 2 3 4. cbn [l1 l2 l3 l4 l7 l8] in EIL. rewrite EIL. clear EIL.
  assert (EX : tap (h_out hR) (d_iota d) (c19 k) 32767 = Some crossL).
  { destruct KR' as (_ & _ & _ & _ & _ & _ & _ & KO & _ & _). rewrite (ktap 32768 32767 _ _ _ _ eq_refl q15 b20 I KO (within _ _ G19)).
    rewrite Q19. reflexivity. }
  rewrite EX. clear EX.
  destruct (half_step (lensL fs) 16384 8192 k p fv_dampL pre (d_iota d) dL (t_L (e_c e)) xl crossL (d_L d) (nL (e_n e)) _ _ 16383 8191
    LL I q14 q13 b20' eq_refl eq_refl KL eq_refl eq_refl) as (hL & EHL & KL').
  unfold lensL in EHL at 1 2. cbn [l7 l8] in EHL. fold mL in EHL, KL'. rewrite EHL. clear EHL.
  cbn [t_par t_R t_L]. fold mL.
  set (sL := side_step p fv_dampL (lensL fs) pre mL xl crossL (nL (e_n e))) in *.
  assert (KR2 := KR'). assert (KL2 := KL').
  destruct KR2 as (_ & _ & _ & _ & _ & _ & _ & KOR & KDR & KFR). destruct KL2 as (_ & _ & _ & _ & _ & _ & _ & KOL & KDL & KFL).
  rewrite (ktap 32768 32767 _ _ _ (c28 k) eq_refl q15 b20 I KFR G28).
  rewrite (ktap 32768 32767 _ _ _ (c27 k) eq_refl q15 b20 I KFR G27).
  rewrite (ktap 32768 32767 _ _ _ (c26 k) eq_refl q15 b20 I KOR G26).
  rewrite (ktap 16384 16383 _ _ _ (c25 k) eq_refl q14 b20' I KDR G25).
  rewrite (ktap 32768 32767 _ _ _ (c24 k) eq_refl q15 b20 I KFL G24).
  rewrite (ktap 8192 8191 _ _ _ (c23 k) eq_refl q13 b20'' I KDL G23).
  rewrite (ktap 32768 32767 _ _ _ (c22 k) eq_refl q15 b20 I KOL G22).
  rewrite (ktap 32768 32767 _ _ _ (c35 k) eq_refl q15 b20 I KFL G35).
  rewrite (ktap 32768 32767 _ _ _ (c34 k) eq_refl q15 b20 I KFL G34).
  rewrite (ktap 32768 32767 _ _ _ (c33 k) eq_refl q15 b20 I KOL G33).
  rewrite (ktap 8192 8191 _ _ _ (c32 k) eq_refl q13 b20'' I KDL G32).
  rewrite (ktap 32768 32767 _ _ _ (c31 k) eq_refl q15 b20 I KFR G31).
  rewrite (ktap 16384 16383 _ _ _ (c30 k) eq_refl q14 b20' I KDR G30).
  rewrite (ktap 32768 32767 _ _ _ (c29 k) eq_refl q15 b20 I KOR G29).
  rewrite Q22, Q23, Q24, Q25, Q26, Q27, Q28, Q29, Q30, Q31, Q32, Q33, Q34, Q35.
  rewrite (i32_next (d_iota d) I). unfold i31 in I.
  destruct (Z.ltb_spec (d_iota d + 1) (2 ^ 31)) as [NX|NX]; [|reflexivity].
  eexists. split; [reflexivity|]. cbn [d_iota]. split; [|reflexivity].
  unfold rel. cbn [d_k d_sl d_iota d_par d_ph d_inR d_R d_inL d_L e_sr e_k e_sl e_c e_n t_par t_ph t_R t_L nR nL].
  fold fs. repeat (split; [first [eassumption | reflexivity | (unfold i31; lia)]|]). exact KL'.
Qed.
