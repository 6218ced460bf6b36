(** FVerb: the statements about whole histories of calls. *)
From Coq Require Import ZArith Reals Bool List Lra Lia Psatz.
From Flocq Require Import Core BinarySingleNaN.
From Verif Require Import Flt FltFacts FltMore FltKey FltArith FltClose Libm UtilModel UtilProofs PhasorProofs EnvSpec OscSpec FvModel FvSpec FvSpec2 FvProofs FvProofs2 FvProofs3 FvProofs4 FvProofs5 FvProofs6.
Import ListNotations.

(** ** States that behave alike *)
Lemma run_app L h t : forall f, fv_run L (h ++ t) f =
  match fv_run L h f with Some (f1, a) => match fv_run L t f1 with Some (f2, b) => Some (f2, a ++ b) | None => None end | None => None end.
Proof.
  induction h as [|o h IH]; intros f; cbn [fv_run app].
  - destruct (fv_run L t f) as [[f2 b]|]; reflexivity.
  - destruct (fv_op L o f) as [[f1 a]|]; [|reflexivity]. rewrite IH. destruct (fv_run L h f1) as [[f2 b]|]; [|reflexivity].
    destruct (fv_run L t f2) as [[f3 c]|]; [|reflexivity]. now rewrite app_assoc.
Qed.
Lemma outs_exact L h f e on buf n : frel on buf n f e ->
  match outs L h f with
  | Some ys => lasts on n h /\ opens on buf h /\ exists e', ideal_run L h e = Some (e', ys)
  | None => ~ (lasts on n h /\ opens on buf h /\ ideal_run L h e <> None)
  end.
Proof.
  intros F. unfold outs. destruct (fv_run L h f) as [[f' ys]|] eqn:E.
  - destruct (run_needs L h _ _ _ _ _ _ F E) as [A B]. split; [exact A|]. split; [exact B|].
    pose proof (run_refines L h _ _ _ _ _ F A B) as R. destruct (ideal_run L h e) as [[e' ys']|]; [|congruence].
    destruct R as (f2 & E'). rewrite E in E'. injection E' as _ <-. now exists e'.
  - intros (A & B & N). pose proof (run_refines L h _ _ _ _ _ F A B) as R. destruct (ideal_run L h e) as [[e' ys']|]; [|now apply N].
    destruct R as (f' & E'). congruence.
Qed.
Lemma alike L h1 h2 f1 f2 e1 e2 on1 on2 buf1 buf2 n1 n2 : frel on1 buf1 n1 f1 e1 -> frel on2 buf2 n2 f2 e2 ->
  (lasts on1 n1 h1 /\ opens on1 buf1 h1 <-> lasts on2 n2 h2 /\ opens on2 buf2 h2) ->
  (match ideal_run L h1 e1 with Some (_, ys) => Some ys | None => None end = match ideal_run L h2 e2 with Some (_, ys) => Some ys | None => None end) ->
  outs L h1 f1 = outs L h2 f2.
Proof.
  intros F1 F2 LO E. pose proof (outs_exact L h1 f1 e1 _ _ _ F1) as A. pose proof (outs_exact L h2 f2 e2 _ _ _ F2) as B.
  destruct (outs L h1 f1) as [y1|], (outs L h2 f2) as [y2|].
  - destruct A as (_ & _ & e1' & A). destruct B as (_ & _ & e2' & B). rewrite A, B in E. exact E.
  - exfalso. destruct A as (A1 & A2 & e' & A). apply B. destruct (proj1 LO (conj A1 A2)) as [B1 B2]. split; [exact B1|]. split; [exact B2|]. rewrite A in E. destruct (ideal_run L h2 e2); [discriminate|discriminate].
  - exfalso. destruct B as (B1 & B2 & e' & B). apply A. destruct (proj2 LO (conj B1 B2)) as [A1 A2]. split; [exact A1|]. split; [exact A2|]. rewrite B in E. destruct (ideal_run L h1 e1); [discriminate|discriminate].
  - reflexivity.
Qed.

(** ** Rate and settings in force *)
Definition rate_of (e : option ideal) : option f32 := match e with Some i => Some (rate (e_sr i)) | None => None end.
Lemma frames_same L w xs : forall e e' ys, ideal_frames L w e xs = Some (e', ys) -> e_sr e' = e_sr e /\ e_k e' = e_k e /\ e_sl e' = e_sl e.
Proof.
  induction xs as [|[xl xr] t IH]; intros e e' ys H.
  - now injection H as <- <-.
  - cbn [ideal_frames] in H. destruct (ctl_step L (e_k e) w (e_c e)) as [[c pre]|]; [|discriminate].
    destruct (net_step (rate (e_sr e)) (t_par c) pre (t_R c) (t_L c) xl xr (e_n e)) as [[n o0] o1].
    destruct (ideal_frames L w (Ideal (e_sr e) (e_k e) (e_sl e) c n) t) as [[e2 os]|] eqn:EF; [|discriminate]. injection H as <- <-.
    exact (IH _ _ _ EF).
Qed.
Lemma rate_run L h : forall e e' ys, ideal_run L h e = Some (e', ys) -> rate_of e' = rate_in_force (rate_of e) h.
Proof.
  induction h as [|o h IH]; intros e e' ys H.
  - now injection H as <- <-.
  - cbn [ideal_run] in H. destruct (ideal_op L o e) as [[e1 a]|] eqn:EO; [|discriminate]. destruct (ideal_run L h e1) as [[e2 b]|] eqn:ER; [|discriminate]. injection H as <- <-.
    rewrite (IH _ _ _ ER). destruct o as [sr|p x| |xs]; cbn [rate_in_force]; cbn [ideal_op] in EO.
    + destruct (to_int sr) as [n|]; [|discriminate]. destruct (fv_consts n); [|discriminate]. injection EO as <- <-. reflexivity.
    + injection EO as <- <-. destruct e; reflexivity.
    + injection EO as <- <-. destruct e; reflexivity.
    + destruct e as [i|]; [|injection EO as <- <-; reflexivity]. destruct (ideal_frames L _ i xs) as [[i' ys]|] eqn:EF; [|discriminate]. injection EO as <- <-. cbn [rate_of].
      destruct (frames_same _ _ _ _ _ _ EF) as (-> & _). reflexivity.
Qed.

(** After [init] or [reset] the network is empty. *)
Lemma fresh L h o fs f a : sin_unit L -> Forall op_good (h ++ [o]) -> restarts o -> rate_in_force None (h ++ [o]) = Some fs -> fv_run L (h ++ [o]) fv_new = Some (f, a) ->
  exists i on buf n, frel on buf n f (Some i) /\ egood i /\ rate (e_sr i) = fs /\ e_n i = net0 /\ e_c i = ctl0.
Proof.
  intros S G RS RT HR. destruct (run_ideal L _ _ _ _ _ _ _ _ frel_new HR) as (e & on & buf & n & EI & F).
  pose proof (rate_run L _ _ _ _ EI) as ER. cbn [rate_of] in ER. rewrite RT in ER. destruct e as [i|]; [|discriminate]. injection ER as ER.
  exists i, on, buf, n. split; [exact F|]. 
  destruct (ideal_defined L _ S G None I) as (e' & ys & EI' & OI). rewrite EI in EI'. injection EI' as <- _. cbn [oinv] in OI.
  rewrite ideal_app in EI. destruct (ideal_run L h None) as [[e1 b]|]; [|discriminate]. cbn [ideal_run] in EI.
  destruct o as [sr|p x| |xs]; try contradiction; cbn [ideal_op] in EI.
  - destruct (to_int sr) as [z|]; [|discriminate]. destruct (fv_consts z); [|discriminate]. injection EI as <- _. cbn [e_n]. split; [split; [exact OI|apply sp_ok0]|]. now split.
  - injection EI as EI _. destruct e1 as [i1|]; [|discriminate]. injection EI as <-. cbn [e_n]. split; [split; [exact OI|apply sp_ok0]|]. now split.
Qed.
Lemma quiet0 : quiet side0. Proof. unfold quiet, side0. cbn. repeat split; try constructor; apply isz0. Qed.
Lemma tail0 : tail 0 side0. Proof. unfold tail, side0. cbn. repeat split; try constructor; apply isz0. Qed.

Section Fresh.
  Variables (L : libm) (h : list fvop) (o : fvop) (t : list fvop) (fs : f32) (f : fverb) (a : list (f32 * f32)) (f' : fverb) (b : list (f32 * f32)) (X : f32 * f32 -> Prop).
  Hypothesis S : sin_unit L.
  Hypothesis E : exp_unit L.
  Hypothesis G : Forall op_good (h ++ [o]).
  Hypothesis RS : restarts o.
  Hypothesis RT : rate_in_force None (h ++ [o]) = Some fs.
  Hypothesis H1 : fv_run L (h ++ [o]) fv_new = Some (f, a).
  Hypothesis PL : Forall (plays X) t.
  Hypothesis H2 : fv_run L t f = Some (f', b).

  Lemma fs_ok : fin fs /\ (1 <= B2R fs <= 192000)%R.
  Proof using S G RS RT H1. destruct (fresh L h o fs f a S G RS RT H1) as (i & on & buf & n & F & EG & <- & _). destruct (rate_bounds (e_sr i)) as (A & B & _). split; [exact A|lra]. Qed.
  Lemma keep_fresh (P : nat -> net -> Prop) (Q : nat -> f32 * f32 -> Prop) : P 0%nat net0 ->
    (forall c pre xl xr n m n' o0 o1, good_ctl c -> X (xl, xr) -> P m n -> net_step fs (t_par c) pre (t_R c) (t_L c) xl xr n = (n', o0, o1) -> P (Datatypes.S m) n' /\ Q m (o0, o1)) ->
    forall i y, nth_error b i = Some y -> Q i y.
  Proof using S E G RS RT H1 PL H2.
    intros P0 ST i y Hy. destruct (fresh L h o fs f a S G RS RT H1) as (e & on & buf & n & F & EG & ER & EN & _).
    destruct (run_ideal L t _ _ _ _ _ _ _ F H2) as (e' & _ & _ & _ & EI & _).
    pose proof (keep_run L fs P X Q S E ST t PL e 0%nat e' b EG ER ltac:(rewrite EN; exact P0) EI i y Hy) as R. now rewrite Nat.add_0_r in R.
  Qed.
End Fresh.

Lemma silence L h o t f a f' b fs : sin_unit L -> exp_unit L -> Forall op_good (h ++ [o]) -> restarts o -> rate_in_force None (h ++ [o]) = Some fs ->
  fv_run L (h ++ [o]) fv_new = Some (f, a) -> Forall (plays (fun x => is_zero (fst x) /\ is_zero (snd x))) t -> fv_run L t f = Some (f', b) ->
  Forall (fun y => is_zero (fst y) /\ is_zero (snd y)) b.
Proof.
  intros S E G RS RT H1 PL H2. apply Forall_forall. intros y Hy. apply In_nth_error in Hy. destruct Hy as [i Hy].
  refine (keep_fresh L h o t fs f a f' b _ S E G RS RT H1 PL H2 (fun _ n => quiet (nR n) /\ quiet (nL n)) (fun _ y => is_zero (fst y) /\ is_zero (snd y)) _ _ i y Hy).
  - split; apply quiet0.
  - intros c pre xl xr n m n' o0 o1 GC HX HP HN. cbn [fst snd] in *. exact (silent_step fs c pre xl xr n n' o0 o1 GC HX HP HN).
Qed.
Lemma onset L h o t f a f' b fs : sin_unit L -> exp_unit L -> Forall op_good (h ++ [o]) -> restarts o -> rate_in_force None (h ++ [o]) = Some fs ->
  fv_run L (h ++ [o]) fv_new = Some (f, a) -> Forall (plays (fun _ => True)) t -> fv_run L t f = Some (f', b) ->
  forall i y, nth_error b i = Some y -> ((Z.of_nat i < span fs sL1)%Z -> is_zero (fst y)) /\ ((Z.of_nat i < span fs sR1)%Z -> is_zero (snd y)).
Proof.
  intros S E G RS RT H1 PL H2. destruct (fs_ok L h o fs f a S G RS RT H1) as [Ff Bf].
  refine (keep_fresh L h o t fs f a f' b _ S E G RS RT H1 PL H2 (fun m n => (Z.of_nat m <= span fs sLong)%Z -> tail m (nR n) /\ tail m (nL n))
    (fun i y => ((Z.of_nat i < span fs sL1)%Z -> is_zero (fst y)) /\ ((Z.of_nat i < span fs sR1)%Z -> is_zero (snd y))) _ _).
  - intros _. split; apply tail0.
  - intros c pre xl xr n m n' o0 o1 GC _ HP HN. exact (onset_step fs Ff Bf c pre xl xr n m n' o0 o1 GC HP HN).
Qed.
Lemma crossing (r : bool) L h o t f a f' b fs : sin_unit L -> exp_unit L -> Forall op_good (h ++ [o]) -> restarts o -> rate_in_force None (h ++ [o]) = Some fs ->
  fv_run L (h ++ [o]) fv_new = Some (f, a) -> Forall (plays (fun x => is_zero (if r then snd x else fst x))) t -> fv_run L t f = Some (f', b) ->
  forall i y, nth_error b i = Some y -> (Z.of_nat i < span fs (if r then sL2 else sR2))%Z -> is_zero (if r then fst y else snd y).
Proof.
  intros S E G RS RT H1 PL H2. destruct (fs_ok L h o fs f a S G RS RT H1) as [Ff Bf].
  refine (keep_fresh L h o t fs f a f' b _ S E G RS RT H1 PL H2 (fun m n => (Z.of_nat m <= span fs sLong)%Z -> quiet (if r then nR n else nL n) /\ tail m (nR n) /\ tail m (nL n))
    (fun i y => (Z.of_nat i < span fs (if r then sL2 else sR2))%Z -> is_zero (if r then fst y else snd y)) _ _).
  - intros _. split; [destruct r; apply quiet0|]. split; apply tail0.
  - intros c pre xl xr n m n' o0 o1 GC HX HP HN. exact (cross_step fs Ff Bf r c pre xl xr n m n' o0 o1 GC HX HP HN).
Qed.

(** ** Reset *)
Lemma tuning_run L h : forall e e' ys acc, ideal_run L h e = Some (e', ys) ->
  (match e with None => acc = [] | Some i => acc <> [] /\ ideal_run L acc None = Some (Some (Ideal (e_sr i) (e_k i) (e_sl i) ctl0 net0), []) end) ->
  (match e' with None => tuning acc h = [] | Some i => tuning acc h <> [] /\ ideal_run L (tuning acc h) None = Some (Some (Ideal (e_sr i) (e_k i) (e_sl i) ctl0 net0), []) end).
Proof.
  induction h as [|o h IH]; intros e e' ys acc H A.
  - now injection H as <- <-.
  - cbn [ideal_run] in H. destruct (ideal_op L o e) as [[e1 b]|] eqn:EO; [|discriminate]. destruct (ideal_run L h e1) as [[e2 c]|] eqn:ER; [|discriminate]. injection H as <- <-.
    destruct o as [sr|p x| |xs]; cbn [tuning]; apply (IH _ _ _ _ ER); cbn [ideal_op] in EO.
    + destruct (to_int sr) as [n|] eqn:EN; [|discriminate]. destruct (fv_consts n) as [k|] eqn:EK; [|discriminate]. injection EO as <- <-. split; [discriminate|].
      cbn [ideal_run ideal_op]. rewrite EN, EK. reflexivity.
    + injection EO as <- <-. destruct e as [i|]; [|now rewrite A]. destruct A as [A1 A2]. destruct acc as [|a0 acc]; [contradiction|]. split; [now destruct acc|].
      rewrite ideal_app, A2. reflexivity.
    + injection EO as <- <-. destruct e as [i|]; exact A.
    + destruct e as [i|]; [|injection EO as <- <-; exact A]. destruct (ideal_frames L _ i xs) as [[i' zs]|] eqn:EF; [|discriminate]. injection EO as <- <-.
      destruct (frames_same _ _ _ _ _ _ EF) as (-> & -> & ->). exact A.
Qed.
Lemma tuning_ops acc h : Forall (fun o => match o with FvInit _ | FvSet _ _ => True | _ => False end) acc ->
  Forall (fun o => match o with FvInit _ | FvSet _ _ => True | _ => False end) (tuning acc h).
Proof.
  revert acc. induction h as [|o h IH]; intros acc A; [exact A|]. destruct o as [sr|p x| |xs]; cbn [tuning]; apply IH; try exact A.
  - now repeat constructor.
  - destruct acc; [constructor|]. apply Forall_app. split; [exact A|now repeat constructor].
Qed.
Lemma tune_lasts h t : Forall (fun o => match o with FvInit _ | FvSet _ _ => True | _ => False end) h -> h <> [] -> forall on buf, (match h with FvInit _ :: _ => True | _ => on = true end) ->
  (lasts on 0 (h ++ t) <-> lasts true 0 t) /\ (opens on buf (h ++ t) <-> opens true buf t).
Proof.
  induction 1 as [|o h HO HH IH]; intros NE on buf C; [contradiction|].
  destruct h as [|o2 h].
  - destruct o as [sr|p x| |xs]; try contradiction; cbn [app lasts opens]; [tauto|]. rewrite C. tauto.
  - destruct o as [sr|p x| |xs]; try contradiction; cbn [lasts opens app].
    + apply (IH ltac:(discriminate) true buf). destruct o2; reflexivity || exact I.
    + rewrite C. apply (IH ltac:(discriminate) true buf). destruct o2; reflexivity || exact I.
Qed.
Lemma tuning_head acc h : match acc with [] => True | FvInit _ :: _ => True | _ => False end -> match tuning acc h with [] => True | FvInit _ :: _ => True | _ => False end.
Proof.
  revert acc. induction h as [|o h IH]; intros acc A; [exact A|]. destruct o as [sr|p x| |xs]; cbn [tuning]; apply IH; try exact A; try exact I.
  destruct acc as [|[] acc]; exact A.
Qed.
Lemma opens_more t : forall on b, opens on b t -> opens on true t.
Proof.
  induction t as [|o t IH]; intros on b OP; [exact I|]. destruct o as [sr|p x| |xs]; cbn [opens] in *; try exact (IH _ _ OP).
  destruct on; [|exact (IH _ _ OP)]. destruct OP as [_ OP]. split; [now left|exact OP].
Qed.
Lemma reset_fresh L h t f a : fv_run L (h ++ [FvReset]) fv_new = Some (f, a) -> opens false false (tuning [] h ++ t) -> outs L t f = outs L (tuning [] h ++ t) fv_new.
Proof.
  intros HR OP. destruct (run_ideal L _ _ _ _ _ _ _ _ frel_new HR) as (e & on & buf & n & EI & F).
  rewrite ideal_app in EI. destruct (ideal_run L h None) as [[e1 b]|] eqn:E1; [|discriminate]. cbn [ideal_run ideal_op] in EI. injection EI as EI _.
  pose proof (tuning_run L h None e1 b [] E1 eq_refl) as T.
  pose proof (tuning_ops [] h ltac:(constructor)) as TO. pose proof (tuning_head [] h I) as TH.
  rewrite run_app in HR. destruct (fv_run L h fv_new) as [[f0 b0]|] eqn:R0; [|discriminate]. cbn [fv_run fv_op] in HR. injection HR as HR _.
  assert (N0 : frel on buf 0 f e).
  { destruct F as (F1 & F2 & F3 & F4). split; [exact F1|]. split; [exact F2|]. split; [exact F3|]. rewrite <- HR in *. unfold fv_reset in *. destruct (fv_dsp f0) as [d|] eqn:D0; cbn [fv_dsp] in *.
    - destruct e as [i|]; [|exact F4]. destruct F4 as (A & B & _). split; [exact A|]. split; [exact B|reflexivity].
    - rewrite D0 in *. destruct e; exact F4. }
  destruct e1 as [i|].
  - destruct T as [T1 T2]. subst e. assert (ON : on = true) by (destruct N0 as (_ & _ & _ & N0); destruct (fv_dsp f); [apply N0|contradiction]). subst on.
    assert (C : match tuning [] h with FvInit _ :: _ => True | _ => false = true end) by (destruct (tuning [] h) as [|[] ?]; try exact I; contradiction).
    destruct (tune_lasts (tuning [] h) t TO T1 false false C) as [LL OO].
    apply (alike L _ _ _ _ _ _ _ _ _ _ _ _ N0 frel_new).
    + apply OO in OP. assert (OB : opens true buf t) by (destruct buf; [exact (opens_more _ _ _ OP)|exact OP]).
      split; intros [A B]; split; try tauto.
    + rewrite ideal_app, T2. destruct (ideal_run L t _) as [[e2 y]|]; reflexivity.
  - rewrite T in *. subst e. assert (ON : on = false) by (destruct N0 as (_ & _ & _ & N0); destruct (fv_dsp f); [contradiction|exact N0]). subst on. cbn [app] in *.
    apply (alike L _ _ _ _ _ _ _ _ _ _ _ _ N0 frel_new); [|reflexivity].
    assert (OB : opens false buf t) by (destruct buf; [exact (opens_more _ _ _ OP)|exact OP]).
    split; intros [A B]; split; assumption.
Qed.
