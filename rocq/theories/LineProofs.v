(** XLine: the sample counter, the endpoints and the curve. *)
From Coq Require Import ZArith Reals Bool List Lra Lia Psatz.
From Flocq Require Import Core BinarySingleNaN.
From Verif Require Import Flt FltFacts FltMore FltKey FltArith Libm UtilModel UtilProofs PanSpec PanProofs OscSpec OscProofs2 SmoothProofs3 LineModel LineSpec.
Import ListNotations.
Local Open Scope R_scope.

(** ** Endpoints *)
Lemma gt0_key (x : f32) : flt zero x = true <-> is_nan x = false /\ 0 < key x.
Proof.
  split.
  - intros H. destruct (flt_nan _ _ H) as [_ N]. split; [exact N|]. apply flt_true in H; [exact H|reflexivity|exact N].
  - intros [N H]. apply flt_true; [reflexivity|exact N|exact H].
Qed.
Lemma lt0_key (x : f32) : flt x zero = true <-> is_nan x = false /\ key x < 0.
Proof.
  split.
  - intros H. destruct (flt_nan _ _ H) as [N _]. split; [exact N|]. apply flt_true in H; [exact H|exact N|reflexivity].
  - intros [N H]. apply flt_true; [exact N|reflexivity|exact H].
Qed.
Lemma sign_cases (x : f32) : is_nan x = false -> feq x zero = false -> (flt zero x = true /\ flt x zero = false) \/ (flt zero x = false /\ flt x zero = true).
Proof.
  intros N E. destruct x as [s|s| |s m e B]; try discriminate; try (destruct s; vm_compute; auto; fail).
Qed.
Lemma abs_pos (x : f32) : is_nan x = false -> feq x zero = false -> flt zero (fabs x) = true.
Proof.
  intros N E. destruct x as [s|s| |s m e B]; try discriminate; try (destruct s; vm_compute; auto; fail).
Qed.
Lemma ends_ok s e : is_nan s = false -> is_nan e = false ->
  let s' := if feq s zero then fdec 1 10000 else s in let e' := if feq e zero then fdec 1 10000 else e in
  same_sign (fst (xl_ends s e)) (snd (xl_ends s e)) /\
  fabs (fst (xl_ends s e)) = fabs s' /\ fabs (snd (xl_ends s e)) = fabs e'.
Proof.
  intros Ns Ne s' e'.
  assert (H : forall x, is_nan x = false -> let x' := if feq x zero then fdec 1 10000 else x in is_nan x' = false /\ feq x' zero = false).
  { intros x N. cbv zeta. destruct (feq x zero) eqn:E; [split; vm_compute; reflexivity|auto]. }
  destruct (H s Ns) as [Ns' Es']. destruct (H e Ne) as [Ne' Ee']. fold s' in Ns', Es'. fold e' in Ne', Ee'.
  assert (A : forall x : f32, fabs (fabs x) = fabs x) by (intros [[]|[]| |[] ? ? ?]; reflexivity).
  unfold xl_ends. fold s'. fold e'. clearbody s' e'. unfold same_sign.
  destruct (sign_cases s' Ns' Es') as [[P Q]|[P Q]], (sign_cases e' Ne' Ee') as [[P' Q']|[P' Q']]; rewrite P, P';
    cbn [Bool.eqb negb fst snd]; rewrite ?A; auto using abs_pos.
Qed.
Lemma ends_same s e : same_sign s e -> xl_ends s e = (s, e).
Proof.
  intros H. unfold xl_ends.
  assert (Z : forall x : f32, flt zero x = true \/ flt x zero = true -> feq x zero = false /\ (flt x zero = true -> flt zero x = false)).
  { intros x Hx. destruct x as [b|b| |b m ex B]; try destruct b; vm_compute in Hx |- *; destruct Hx as [Hx|Hx]; try discriminate Hx; auto. }
  destruct H as [[A B]|[A B]].
  - destruct (Z s (or_introl A)) as [-> _]. destruct (Z e (or_introl B)) as [-> _]. rewrite A, B. reflexivity.
  - destruct (Z s (or_intror A)) as [-> C]. destruct (Z e (or_intror B)) as [-> D]. rewrite (C A), (D B). reflexivity.
Qed.

(** ** The counter *)
Lemma xl_tick_const x : let y := fst (xl_tick x) in
  xl_start y = xl_start x /\ xl_end y = xl_end x /\ xl_mul y = xl_mul x /\ xl_add y = xl_add x /\ xl_growth y = xl_growth x /\ xl_n y = xl_n x /\
  xl_dur y = xl_dur x /\ xl_sr y = xl_sr x.
Proof. unfold xl_tick. destruct (xl_done x); [|destruct (fle (xl_n x) _)]; repeat split. Qed.
Lemma xl_out x : snd (xl_tick x) = fadd (fmul (xl_value x) (xl_mul x)) (xl_add x).
Proof. unfold xl_tick. destruct (xl_done x); [|destruct (fle (xl_n x) _)]; reflexivity. Qed.
Lemma xl_const n : forall x, let y := after xl_tick n x in
  xl_start y = xl_start x /\ xl_end y = xl_end x /\ xl_mul y = xl_mul x /\ xl_add y = xl_add x /\ xl_growth y = xl_growth x /\ xl_n y = xl_n x /\
  xl_dur y = xl_dur x /\ xl_sr y = xl_sr x.
Proof.
  induction n as [|n IH]; intros x; [repeat split|]. cbn [after]. pose proof (xl_tick_const x) as T. specialize (IH (fst (xl_tick x))).
  cbv zeta in *. intuition congruence.
Qed.
Lemma xl_done_stays n : forall x, xl_done x = true -> after xl_tick n x = x.
Proof.
  induction n as [|n IH]; intros x D; [reflexivity|]. cbn [after]. unfold xl_tick at 2. rewrite D. now apply IH.
Qed.
Lemma count_step (c : f32) k : fin c -> B2R c = IZR k -> (0 <= k < 2 ^ 24)%Z -> fin (fadd c one) /\ B2R (fadd c one) = IZR (k + 1).
Proof.
  intros F E K. destruct (fadd_exact c one F one_fin) as [A B].
  - rewrite E, one_R. rewrite <- plus_IZR. apply dyZ. lia.
  - split; [exact A|]. rewrite B, E, one_R, plus_IZR. reflexivity.
Qed.
Lemma count_sat (c : f32) : fin c -> B2R c = IZR (2 ^ 24) -> fin (fadd c one) /\ B2R (fadd c one) = IZR (2 ^ 24).
Proof.
  intros F E. assert (X : c = fofZ 16777216).
  { apply B2R_inj; [destruct c; try discriminate F; [cbn in E; lra|reflexivity]|vm_compute; reflexivity|].
    rewrite E. destruct (fofZ_R (prec:=24) (emax:=128) 16777216) as [_ ->]; [vm_compute; discriminate|]. reflexivity. }
  rewrite X. split; [ffin|]. fval (fadd (fofZ 16777216) one). lra.
Qed.
Lemma xl_go n : forall x k, xl_done x = false -> fin (xl_n x) -> B2R (xl_n x) <= IZR (2 ^ 24) -> fin (xl_count x) -> B2R (xl_count x) = IZR k -> (0 <= k < 2 ^ 24)%Z ->
  let M := Z.max (k + 1) (Zceil (B2R (xl_n x))) in
  xl_done (after xl_tick n x) = (M <=? k + Z.of_nat n)%Z /\ ((M <= k + Z.of_nat n)%Z -> xl_value (after xl_tick n x) = xl_end x).
Proof.
  induction n as [|n IH]; intros x k D Fn Bn Fc Ec K M.
  - cbn [after]. rewrite D. split; [symmetry; apply Z.leb_gt; lia|lia].
  - destruct (count_step _ k Fc Ec K) as [Fa Ea]. cbn [after].
    assert (HZ : (Zceil (B2R (xl_n x)) <= k + 1)%Z <-> B2R (xl_n x) <= IZR (k + 1)).
    { split; [intros Q; eapply Rle_trans; [apply Zceil_ub|now apply IZR_le]|apply Zceil_glb]. }
    unfold xl_tick at 2 4. rewrite D. destruct (fle (xl_n x) (fadd (xl_count x) one)) eqn:E.
    + apply fle_R in E; [|exact Fn|exact Fa]. rewrite Ea in E. cbn [fst].
      rewrite xl_done_stays by reflexivity. cbn [xl_done xl_value].
      assert (HM : M = (k + 1)%Z) by (apply HZ in E; unfold M; lia). rewrite HM. split; [symmetry; apply Z.leb_le; lia|reflexivity].
    + apply fle_R_false in E; [|exact Fn|exact Fa]. rewrite Ea in E. cbn [fst].
      assert (Q : (k + 1 < Zceil (B2R (xl_n x)))%Z) by (destruct (Z_lt_le_dec (k + 1) (Zceil (B2R (xl_n x)))) as [L|L]; [exact L|apply HZ in L; lra]).
      assert (Q2 : (Zceil (B2R (xl_n x)) <= 2 ^ 24)%Z) by (apply Zceil_glb; exact Bn).
      match goal with |- context [after xl_tick n ?y] => specialize (IH y (k + 1)%Z) end.
      cbn [xl_done xl_n xl_count xl_end] in IH. destruct (IH eq_refl Fn Bn Fa Ea ltac:(lia)) as [A B].
      assert (HM : M = Z.max (k + 1 + 1) (Zceil (B2R (xl_n x)))) by (unfold M; lia).
      rewrite HM. replace (k + Z.of_nat (S n))%Z with (k + 1 + Z.of_nat n)%Z by lia. split; assumption.
Qed.
Lemma set_fields L x s e d mul add : same_sign s e -> flt zero d = true ->
  let y := xl_set L x s e d mul add in
  xl_value y = s /\ xl_start y = s /\ xl_end y = e /\ xl_mul y = mul /\ xl_add y = add /\ xl_n y = fmul d (xl_sr x) /\ xl_count y = zero /\ xl_done y = false /\
  xl_growth y = xl_growthof L s e (fmul d (xl_sr x)).
Proof. intros S D. unfold xl_set. rewrite (ends_same s e S), D. repeat split. Qed.

Lemma xl_on_time L x s e d mul add i : same_sign s e -> flt zero d = true -> fin (fmul d (xl_sr x)) -> B2R (fmul d (xl_sr x)) <= IZR (2 ^ 24) ->
  let y := xl_set L x s e d mul add in
  xl_done (after xl_tick i y) = (line_len d (xl_sr x) <=? Z.of_nat i)%Z /\
  ((line_len d (xl_sr x) <= Z.of_nat i)%Z -> nth_sample xl_tick i y = fadd (fmul e mul) add).
Proof.
  intros S D Fn Bn y. destruct (set_fields L x s e d mul add S D) as (_ & _ & Ee & Em & Ea & En & Ec & Ed & _). fold y in Ee, Em, Ea, En, Ec, Ed.
  destruct (xl_go i y 0%Z) as [A B]; rewrite ?En, ?Ec; auto; try lia; try reflexivity.
  rewrite En in A, B. change (0 + 1)%Z with 1%Z in A, B. change (0 + Z.of_nat i)%Z with (Z.of_nat i) in A, B. fold (line_len d (xl_sr x)) in A, B.
  split; [exact A|]. intros H. unfold nth_sample. rewrite xl_out.
  destruct (xl_const i y) as (_ & _ & C1 & C2 & _). rewrite (B H), C1, C2, Ee, Em, Ea. reflexivity.
Qed.

Lemma xl_never_go n : forall x k, xl_done x = false -> (is_nan (xl_n x) = true \/ flt (fofZ 16777216) (xl_n x) = true) -> fin (xl_count x) -> B2R (xl_count x) = IZR k -> (0 <= k <= 2 ^ 24)%Z ->
  xl_done (after xl_tick n x) = false.
Proof.
  induction n as [|n IH]; intros x k D Hn Fc Ec K; [exact D|]. cbn [after]. unfold xl_tick at 2. rewrite D.
  assert (C : exists k', (0 <= k' <= 2 ^ 24)%Z /\ fin (fadd (xl_count x) one) /\ B2R (fadd (xl_count x) one) = IZR k').
  { destruct (Z.eq_dec k (2 ^ 24)) as [->|Q].
    - exists (2 ^ 24)%Z. split; [lia|]. now apply count_sat.
    - exists (k + 1)%Z. split; [lia|]. apply count_step; auto. lia. }
  destruct C as (k' & K' & Fa & Ea).
  assert (E : fle (xl_n x) (fadd (xl_count x) one) = false).
  { destruct Hn as [Hn|Hn].
    - destruct (fle _ _) eqn:E; [|reflexivity]. apply fle_nan in E. destruct E as [E _]. congruence.
    - destruct (flt_nan _ _ Hn) as [_ N]. destruct (fle _ _) eqn:E; [|reflexivity].
      apply flt_true in Hn; [|reflexivity|exact N]. apply fle_true in E; [|exact N|now apply fin_nan].
      rewrite (key_fin (fadd _ _) Fa), Ea in E. rewrite key_fin in Hn by ffin.
      destruct (fofZ_R (prec:=24) (emax:=128) 16777216) as [_ W]; [vm_compute; discriminate|]. rewrite W in Hn.
      pose proof (IZR_le _ _ (proj2 K')) as U. change (2 ^ 24)%Z with 16777216%Z in U. lra. }
  rewrite E. cbn [fst]. apply IH with k'; auto.
Qed.
Lemma xl_never L x s e d mul add i : same_sign s e -> flt zero d = true ->
  (is_nan (fmul d (xl_sr x)) = true \/ flt (fofZ 16777216) (fmul d (xl_sr x)) = true) ->
  xl_done (after xl_tick i (xl_set L x s e d mul add)) = false.
Proof.
  intros S D H. destruct (set_fields L x s e d mul add S D) as (_ & _ & _ & _ & _ & En & Ec & Ed & _).
  apply xl_never_go with 0%Z; rewrite ?En, ?Ec; auto; try reflexivity; lia.
Qed.
(** Restarting replays the same line. *)
Lemma xl_replay L x s e d mul add i : xl_reset (after xl_tick i (xl_set L x s e d mul add)) = xl_set L x s e d mul add.
Proof.
  destruct (xl_const i (xl_set L x s e d mul add)) as (A & B & C & D & E & F & G & H). unfold xl_reset. rewrite A, B, C, D, E, F, G, H.
  unfold xl_set. destruct (xl_ends s e). reflexivity.
Qed.
