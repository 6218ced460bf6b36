(** FVerb: definedness of whole histories; onset; silence; NaN. *)
From Coq Require Import ZArith Reals Bool List Lra Lia Psatz.
From Flocq Require Import Core BinarySingleNaN.
From Verif Require Import Flt FltFacts FltMore FltKey FltArith FltClose Libm UtilModel UtilProofs PhasorProofs EnvSpec OscSpec FvModel FvSpec FvSpec2 FvProofs FvProofs2 FvProofs3 FvProofs4.
Import ListNotations.

(** ** From the program to the ideal network *)
Lemma run_ideal L h : forall f e on buf n f' ys, frel on buf n f e -> fv_run L h f = Some (f', ys) ->
  exists e' on' buf' n', ideal_run L h e = Some (e', ys) /\ frel on' buf' n' f' e'.
Proof.
  induction h as [|o h IH]; intros f e on buf n f' ys F HR.
  - injection HR as <- <-. eexists _, _, _, _. split; [reflexivity|exact F].
  - cbn [fv_run] in HR. destruct (fv_op L o f) as [[f1 a]|] eqn:E1; [|discriminate].
    destruct (fv_run L h f1) as [[f2 b]|] eqn:E2; [|discriminate]. injection HR as <- <-.
    pose proof (op_needs L o f e on buf n _ F E1) as OK. pose proof (op_refines L o f e on buf n F OK) as R. rewrite E1 in R.
    cbn [ideal_run]. destruct (ideal_op L o e) as [[e1 a1]|]; [|discriminate]. destruct R as (f1' & EQ & F1). injection EQ as <- <-.
    destruct (IH _ _ _ _ _ _ _ F1 E2) as (e' & on' & buf' & n' & E' & F'). rewrite E'. eexists _, _, _, _. split; [reflexivity|exact F'].
Qed.
Lemma ideal_app L h t : forall e, ideal_run L (h ++ t) e =
  match ideal_run L h e with Some (e1, a) => match ideal_run L t e1 with Some (e2, b) => Some (e2, a ++ b) | None => None end | None => None end.
Proof.
  induction h as [|o h IH]; intros e; cbn [ideal_run app].
  - destruct (ideal_run L t e) as [[e2 b]|]; reflexivity.
  - destruct (ideal_op L o e) as [[e1 a]|]; [|reflexivity]. rewrite IH. destruct (ideal_run L h e1) as [[e2 b]|]; [|reflexivity].
    destruct (ideal_run L t e2) as [[e3 c]|]; [|reflexivity]. now rewrite app_assoc.
Qed.

(** ** Every call is defined *)
Definition einv (e : ideal) : Prop :=
  good_rate (rate (e_sr e)) /\ kgood (rate (e_sr e)) (e_k e) /\ sl_ok (e_sl e) /\ ctl_int (e_c e).
Definition oinv (e : option ideal) : Prop := match e with Some i => einv i | None => True end.
Lemma ctl0_int : ctl_int ctl0.
Proof.
  split; [|split; [reflexivity|cbn [ctl0 t_ph]; rewrite zero_R; lra]].
  split; [|split]; cbn [ctl0 t_par fv_par0 p28 p36 p37]; apply soft0; lra.
Qed.
Lemma frames_defined L w xs : sin_unit L -> forall e, einv e -> w = fv_slow L (e_k e) (e_sl e) ->
  exists e' ys, ideal_frames L w e xs = Some (e', ys) /\ einv e' /\ length ys = length xs /\ e_k e' = e_k e /\ e_sl e' = e_sl e /\ e_sr e' = e_sr e.
Proof.
  intros S. induction xs as [|[xl xr] t IH]; intros e E W.
  - eexists _, _. split; [reflexivity|]. repeat split; try reflexivity; apply E.
  - cbn [ideal_frames]. destruct E as (G & K & SL & C). subst w. destruct (ctl_defined L _ _ _ _ G K S SL C) as (c' & pre & EC & C' & _ & _). rewrite EC.
    destruct (net_step (rate (e_sr e)) (t_par c') pre (t_R c') (t_L c') xl xr (e_n e)) as [[n o0] o1].
    destruct (IH (Ideal (e_sr e) (e_k e) (e_sl e) c' n) (conj G (conj K (conj SL C'))) eq_refl) as (e' & ys & EQ & R1 & R2 & R3 & R4 & R5). rewrite EQ.
    eexists _, _. split; [reflexivity|]. cbn [length]. split; [exact R1|]. split; [now rewrite R2|]. now split.
Qed.
Lemma op_defined L o e : sin_unit L -> oinv e -> op_good o -> exists e' ys, ideal_op L o e = Some (e', ys) /\ oinv e'.
Proof.
  intros S E OK. destruct o as [sr|p x| |xs]; cbn [ideal_op op_good] in *.
  - destruct OK as [F B]. assert (Z : to_int sr = Some (Ztrunc (B2R sr)) /\ (45 <= Ztrunc (B2R sr) <= 2 ^ 31 - 1)%Z).
    { rewrite Ztrunc_floor by lra. assert (Q : (45 <= Zfloor (B2R sr) <= 2 ^ 31 - 1)%Z).
      { split; [apply Zfloor_lub; apply B|]. apply Z.lt_succ_r. apply lt_IZR. eapply Rle_lt_trans; [apply Zfloor_lb|]. change (Z.succ (2 ^ 31 - 1)) with 2147483648%Z. apply B. }
      split; [|exact Q]. apply ftoZ_some. split; [exact F|]. split; [symmetry; apply Ztrunc_floor; lra|]. unfold INT_MIN, INT_MAX. lia. }
    destruct Z as [EZ BZ]. rewrite EZ. destruct (consts_ok (Ztrunc (B2R sr)) ltac:(lia)) as (k & EK & _). rewrite EK.
    destruct (consts_good (Ztrunc (B2R sr)) k ltac:(lia) EK) as [G K]. eexists _, _. split; [reflexivity|]. cbn [oinv]. split; [exact G|]. split; [exact K|]. split; [apply sl_start_ok|apply ctl0_int].
  - eexists _, _. split; [reflexivity|]. destruct e as [i|]; [|exact I]. destruct E as (G & K & SL & C). split; [exact G|]. split; [exact K|]. split; [now apply sl_set|exact C].
  - eexists _, _. split; [reflexivity|]. destruct e as [i|]; [|exact I]. destruct E as (G & K & SL & C). split; [exact G|]. split; [exact K|]. split; [exact SL|apply ctl0_int].
  - destruct e as [i|]; [|eexists _, _; split; [reflexivity|exact I]].
    destruct (frames_defined L _ xs S i E eq_refl) as (e' & ys & EQ & R & _). rewrite EQ. eexists _, _. split; [reflexivity|exact R].
Qed.
Lemma ideal_defined L h : sin_unit L -> Forall op_good h -> forall e, oinv e -> exists e' ys, ideal_run L h e = Some (e', ys) /\ oinv e'.
Proof.
  intros S. induction 1 as [|o t O T IH]; intros e E.
  - eexists _, _. split; [reflexivity|exact E].
  - cbn [ideal_run]. destruct (op_defined L o e S E O) as (e1 & a & -> & E1). destruct (IH e1 E1) as (e2 & b & -> & E2). eexists _, _. split; [reflexivity|exact E2].
Qed.
Lemma run_defined L h : sin_unit L -> Forall op_good h -> lasts false 0 h -> opens false false h -> exists f ys, fv_run L h fv_new = Some (f, ys).
Proof.
  intros S G A B. destruct (ideal_defined L h S G None I) as (e & ys & E & _).
  pose proof (run_refines L h _ _ _ _ _ frel_new A B) as R. rewrite E in R. destruct R as (f & R). now exists f, ys.
Qed.

(** ** Tap lengths grow with the time *)
Lemma span_mono fs (c c' : f32) : fin fs -> (1 <= B2R fs <= 192000)%R -> fin c -> fin c' -> (0 <= B2R c <= B2R c')%R -> (B2R c' <= 1)%R -> (span fs c <= span fs c')%Z.
Proof.
  intros Ff Bf F F' B B'. assert (D : dy32 192000) by (apply dyZ; lia).
  destruct (fmul_b 0 192000 c fs dy0 D F Ff ltac:(nra)) as (_ & E & _). destruct (fmul_b 0 192000 c' fs dy0 D F' Ff ltac:(nra)) as (_ & E' & _).
  unfold span. rewrite !Btrunc_R. apply Ztrunc_le. rewrite E, E'. apply rnd_le. nra.
Qed.
