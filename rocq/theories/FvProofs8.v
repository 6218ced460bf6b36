(** FVerb: splitting of blocks, empty blocks, the frame limit, settings. *)
From Coq Require Import ZArith Reals Bool List Lra Lia Psatz.
From Flocq Require Import Core BinarySingleNaN.
From Verif Require Import Flt FltFacts FltMore FltKey FltArith FltClose Libm UtilModel UtilProofs PhasorProofs EnvSpec OscSpec FvModel FvSpec FvSpec2 FvProofs FvProofs2 FvProofs3 FvProofs4 FvProofs5 FvProofs6 FvProofs7.
Import ListNotations.

(** ** Splitting *)
Lemma frames_app L w xs ys : forall e, ideal_frames L w e (xs ++ ys) =
  match ideal_frames L w e xs with Some (e1, a) => match ideal_frames L w e1 ys with Some (e2, b) => Some (e2, a ++ b) | None => None end | None => None end.
Proof.
  induction xs as [|[xl xr] t IH]; intros e; cbn [ideal_frames app].
  - destruct (ideal_frames L w e ys) as [[e2 b]|]; reflexivity.
  - destruct (ctl_step L (e_k e) w (e_c e)) as [[c pre]|]; [|reflexivity].
    destruct (net_step (rate (e_sr e)) (t_par c) pre (t_R c) (t_L c) xl xr (e_n e)) as [[n o0] o1]. rewrite IH.
    destruct (ideal_frames L w (Ideal (e_sr e) (e_k e) (e_sl e) c n) t) as [[e1 a]|]; [|reflexivity].
    destruct (ideal_frames L w e1 ys) as [[e2 b]|]; reflexivity.
Qed.
Lemma op_split L xs ys e : ideal_op L (FvProc (xs ++ ys)) e = ideal_run L [FvProc xs; FvProc ys] e.
Proof.
  cbn [ideal_run ideal_op]. destruct e as [i|]; [|now rewrite app_nil_r]. rewrite frames_app. destruct (ideal_frames L _ i xs) as [[e1 a]|] eqn:E1; [|reflexivity].
  destruct (frames_same _ _ _ _ _ _ E1) as (_ & -> & ->). destruct (ideal_frames L _ e1 ys) as [[e2 b]|]; [|reflexivity]. now rewrite app_nil_r.
Qed.
Lemma run_split L h xs ys t : forall e, ideal_run L (h ++ FvProc (xs ++ ys) :: t) e = ideal_run L (h ++ FvProc xs :: FvProc ys :: t) e.
Proof.
  intros e. rewrite !ideal_app. destruct (ideal_run L h e) as [[e1 a]|]; [|reflexivity].
  change (FvProc xs :: FvProc ys :: t) with ([FvProc xs; FvProc ys] ++ t). rewrite ideal_app, <- op_split. reflexivity.
Qed.
(** The conditions after a history only depend on where it leaves off. *)
Lemma cond_app h t1 t2 : (forall on buf n, lasts on n t1 /\ opens on buf t1 <-> lasts on n t2 /\ opens on buf t2) ->
  forall on buf n, lasts on n (h ++ t1) /\ opens on buf (h ++ t1) <-> lasts on n (h ++ t2) /\ opens on buf (h ++ t2).
Proof.
  intros H. induction h as [|o h IH]; intros on buf n; [apply H|]. cbn [app]. rewrite !lasts_opens. specialize (IH (on1 o on) (buf1 o on buf) (n1 o on n)). tauto.
Qed.
Lemma split_block L h xs ys t : xs <> [] -> outs L (h ++ FvProc (xs ++ ys) :: t) fv_new = outs L (h ++ FvProc xs :: FvProc ys :: t) fv_new.
Proof.
  intros NE. apply (alike L _ _ _ _ _ _ _ _ _ _ _ _ frel_new frel_new); [|now rewrite run_split].
  apply cond_app. intros on buf n. assert (NE2 : xs ++ ys <> []) by (destruct xs; [contradiction|discriminate]).
  cbn [lasts opens]. rewrite app_length, Nat2Z.inj_add. destruct on; [|tauto].
  replace (n + (Z.of_nat (length xs) + Z.of_nat (length ys)))%Z with (n + Z.of_nat (length xs) + Z.of_nat (length ys))%Z by lia.
  intuition lia.
Qed.

(** ** Empty blocks *)
Lemma run_empty L h t : forall e, ideal_run L (h ++ FvProc [] :: t) e = ideal_run L (h ++ t) e.
Proof.
  intros e. rewrite !ideal_app. destruct (ideal_run L h e) as [[e1 a]|]; [|reflexivity]. cbn [ideal_run ideal_op ideal_frames]. destruct e1 as [i|]; cbn [app]; destruct (ideal_run L t _) as [[e2 b]|]; reflexivity.
Qed.
Lemma empty_block L h t : opens false false (h ++ [FvProc []]) -> outs L (h ++ FvProc [] :: t) fv_new = outs L (h ++ t) fv_new.
Proof.
  intros O. apply (alike L _ _ _ _ _ _ _ _ _ _ _ _ frel_new frel_new); [|now rewrite run_empty].
  assert (Q : forall on buf n, (n < 2 ^ 31)%Z -> opens on buf (h ++ [FvProc []]) ->
    (lasts on n (h ++ FvProc [] :: t) /\ opens on buf (h ++ FvProc [] :: t) <-> lasts on n (h ++ t) /\ opens on buf (h ++ t))); [|apply Q; [reflexivity|exact O]].
  clear O. induction h as [|o h IH]; intros on buf n N O.
  - cbn [app lasts opens length] in *. change (Z.of_nat 0) with 0%Z. rewrite Z.add_0_r. destruct on; [|tauto]. destruct O as [[->|C] _]; [|contradiction]. tauto.
  - cbn [app] in *. rewrite !lasts_opens. assert (O' : opens (on1 o on) (buf1 o on buf) (h ++ [FvProc []])) by (destruct o, on; cbn [opens on1 buf1] in *; tauto).
    destruct (Z.lt_ge_cases (n1 o on n) (2 ^ 31)) as [N1|N1].
    + specialize (IH _ _ _ N1 O'). tauto.
    + assert (F : ~ ok1 o on buf n); [|tauto]. destruct o as [sr|p x| |xs]; cbn [n1] in N1; try lia. destruct on; [|lia]. cbn [ok1]. intros K. specialize (K eq_refl). lia.
Qed.

(** ** The frame limit *)
Lemma lasts_sum t : forall n, Forall (fun o => match o with FvSet _ _ | FvProc _ => True | _ => False end) t -> lasts true n t -> (0 < frames_of t)%Z -> (n + frames_of t < 2 ^ 31)%Z.
Proof.
  induction t as [|o t IH]; intros n A H P; [cbn in P; lia|]. inversion A as [|? ? A1 A2]; subst.
  destruct o as [sr|p x| |xs]; try contradiction; cbn [lasts] in H; cbn [frames_of fold_right] in *; fold (frames_of t) in *.
  - apply IH; assumption.
  - destruct H as [H1 H2]. destruct (Z.lt_ge_cases 0 (frames_of t)) as [L0|L0]; [specialize (IH _ A2 H2 L0); lia|lia].
Qed.
Lemma lasts_tail h t : forall on n, lasts on n (h ++ t) -> exists on' n', lasts on' n' t.
Proof.
  induction h as [|o h IH]; intros on n H; [now exists on, n|]. cbn [app] in H. destruct o as [sr|p x| |xs]; cbn [lasts] in H; try exact (IH _ _ H).
  destruct on; [|exact (IH _ _ H)]. destruct H as [_ H]. exact (IH _ _ H).
Qed.
Lemma frame_limit L h sr t : Forall (fun o => match o with FvSet _ _ | FvProc _ => True | _ => False end) t -> (2 ^ 31 <= frames_of t)%Z ->
  fv_run L (h ++ FvInit sr :: t) fv_new = None.
Proof.
  intros A B. destruct (fv_run L (h ++ FvInit sr :: t) fv_new) as [r|] eqn:E; [|reflexivity]. exfalso.
  destruct (run_needs L _ _ _ _ _ _ _ frel_new E) as [C _]. apply lasts_tail in C. destruct C as (on & n & C). cbn [lasts] in C.
  pose proof (lasts_sum t 0 A C ltac:(lia)). lia.
Qed.
Lemma first_empty L h : opens false false (h ++ [FvProc []]) \/ fv_run L (h ++ [FvProc []]) fv_new = None.
Proof.
  destruct (fv_run L (h ++ [FvProc []]) fv_new) as [r|] eqn:E; [left|now right]. exact (proj2 (run_needs L _ _ _ _ _ _ _ frel_new E)).
Qed.
Lemma init_empty L h sr t : Forall (fun o => match o with FvProc (_ :: _) => False | _ => True end) h -> fv_run L (h ++ FvInit sr :: FvProc [] :: t) fv_new = None.
Proof.
  intros A. destruct (fv_run L (h ++ FvInit sr :: FvProc [] :: t) fv_new) as [r|] eqn:E; [|reflexivity]. exfalso.
  pose proof (proj2 (run_needs L _ _ _ _ _ _ _ frel_new E)) as O. clear E. revert O. assert (G : forall on, opens on false (h ++ FvInit sr :: FvProc [] :: t) -> False); [|apply G].
  induction A as [|o h HO A IH]; intros on O.
  - cbn [app opens] in O. destruct O as [[C|C] _]; [discriminate|contradiction].
  - cbn [app opens] in O. destruct o as [s|p x| |[|x xs]]; try contradiction; try exact (IH _ O). destruct on; [|exact (IH _ O)]. destruct O as [[C|C] _]; [discriminate|contradiction].
Qed.

(** ** Settings *)
Lemma last_app p a o : forall r, last_set p r (a ++ [o]) = last_set p (last_set p r a) [o].
Proof. induction a as [|q a IH]; intros r; [reflexivity|]. cbn [app]. destruct q; cbn [last_set]; apply IH. Qed.
Lemma clamp_held p x : is_nan x = false -> fin (fv_clamp p x) /\ B2R (fv_clamp p x) = held p x.
Proof.
  intros N. destruct (clamp_range p x N) as [F B]. split; [exact F|]. destruct (lo_hi p) as (FL & FH & LH).
  assert (EL : B2R (fv_lo p) = range_lo p /\ B2R (fv_hi p) = range_hi p).
  { pose proof (lohi_R p) as Q. pose proof (f_equal fst Q) as Q1. pose proof (f_equal snd Q) as Q2. cbn [fst snd] in Q1, Q2. rewrite Q1, Q2. destruct p; cbn [range_lo range_hi]; split; try reflexivity; fval (fdec 1 100); lra. }
  destruct EL as [EL EH]. unfold held. rewrite <- EL, <- EH. unfold fv_clamp in *.
  destruct x as [s|[|]| |s m e HB]; try discriminate N.
  - destruct (flt _ (fv_lo p)) eqn:C1.
    + apply flt_R in C1; [|reflexivity|exact FL]. rewrite Rmax_left; [reflexivity|]. apply Rle_trans with (1 := Rmin_r _ _). lra.
    + apply flt_R_false in C1; [|reflexivity|exact FL]. destruct (flt (fv_hi p) _) eqn:C2.
      * apply flt_R in C2; [|exact FH|reflexivity]. rewrite Rmin_left, Rmax_right by lra. reflexivity.
      * apply flt_R_false in C2; [|exact FH|reflexivity]. rewrite Rmin_right, Rmax_right by lra. reflexivity.
  - assert (C1 : flt (B754_infinity true) (fv_lo p) = true) by (destruct p; vm_compute; reflexivity). now rewrite C1.
  - assert (C1 : flt (B754_infinity false) (fv_lo p) = false) by (destruct p; vm_compute; reflexivity).
    assert (C2 : flt (fv_hi p) (B754_infinity false) = true) by (destruct p; vm_compute; reflexivity). now rewrite C1, C2.
  - set (x := B754_finite s m e HB : f32) in *. assert (Fx : fin x) by reflexivity. clearbody x. destruct (flt x (fv_lo p)) eqn:C1.
    + apply flt_R in C1; [|exact Fx|exact FL]. rewrite Rmax_left; [reflexivity|]. apply Rle_trans with (1 := Rmin_r _ _). lra.
    + apply flt_R_false in C1; [|exact Fx|exact FL]. destruct (flt (fv_hi p) x) eqn:C2.
      * apply flt_R in C2; [|exact FH|exact Fx]. rewrite Rmin_left, Rmax_right by lra. reflexivity.
      * apply flt_R_false in C2; [|exact FH|exact Fx]. rewrite Rmin_right, Rmax_right by lra. reflexivity.
Qed.
Definition shows (p : fvparam) (r : option f32) (v : f32) : Prop :=
  match r with None => fin v /\ B2R v = default p | Some x => if is_nan x then is_nan v = true else fin v /\ B2R v = held p x end.
Lemma clamp_shows p x : shows p (Some x) (fv_clamp p x).
Proof.
  unfold shows. destruct (is_nan x) eqn:N; [|now apply clamp_held]. destruct x; try discriminate N. destruct p; vm_compute; reflexivity.
Qed.
Lemma start_shows p : shows p None (slider p sl_start).
Proof.
  unfold shows. assert (Z : forall n, (Z.abs n <= 2 ^ 24)%Z -> fin (fofZ n : f32) /\ B2R (fofZ n : f32) = IZR n) by (intros n Hn; apply (fofZ_R (prec:=24) (emax:=128) n Hn)).
  destruct p; cbn [slider sl_start s_damp s_dens s_dif2 s_dif1 s_hp s_lp s_amt s_pre s_dec s_mf s_md default]; try (apply Z; lia).
  - split; [ffin|]. fval half. lra.
Qed.
Lemma sets_run L p h : forall e e' ys acc, ideal_run L h e = Some (e', ys) ->
  (match e with None => acc = [] | Some i => acc <> [] /\ shows p (last_set p None acc) (slider p (e_sl i)) end) ->
  (match e' with None => True | Some i => shows p (last_set p None (tuning acc h)) (slider p (e_sl i)) end).
Proof.
  induction h as [|o h IH]; intros e e' ys acc H A.
  - injection H as <- <-. destruct e as [i|]; [apply A|exact I].
  - cbn [ideal_run] in H. destruct (ideal_op L o e) as [[e1 b]|] eqn:EO; [|discriminate]. destruct (ideal_run L h e1) as [[e2 c]|] eqn:ER; [|discriminate]. injection H as <- <-.
    destruct o as [sr|q x| |xs]; cbn [tuning]; apply (IH _ _ _ _ ER); cbn [ideal_op] in EO.
    + destruct (to_int sr) as [n|] eqn:EN; [|discriminate]. destruct (fv_consts n) as [k|] eqn:EK; [|discriminate]. injection EO as <- <-. split; [discriminate|]. apply start_shows.
    + injection EO as <- <-. destruct e as [i|]; [|now rewrite A]. destruct A as [A1 A2]. destruct acc as [|a0 acc]; [contradiction|]. split; [now destruct acc|].
      rewrite last_app. cbn [last_set e_sl]. rewrite slider_set. destruct (fvparam_eq_dec q p) as [->|D].
      * destruct p; apply clamp_shows.
      * destruct q, p; try exact A2; contradiction.
    + injection EO as <- <-. destruct e as [i|]; exact A.
    + destruct e as [i|]; [|injection EO as <- <-; exact A]. destruct (ideal_frames L _ i xs) as [[i' zs]|] eqn:EF; [|discriminate]. injection EO as <- <-.
      destruct (frames_same _ _ _ _ _ _ EF) as (_ & _ & ->). exact A.
Qed.
Lemma settings L h f ys d p : fv_run L h fv_new = Some (f, ys) -> fv_dsp f = Some d -> shows p (last_set p None (tuning [] h)) (slider p (d_sl d)).
Proof.
  intros HR HD. destruct (run_ideal L _ _ _ _ _ _ _ _ frel_new HR) as (e & on & buf & n & EI & F).
  pose proof (sets_run L p h None e ys [] EI eq_refl) as S. destruct F as (_ & _ & _ & F). rewrite HD in F. destruct e as [i|]; [|contradiction].
  destruct F as (_ & (_ & _ & ES & _) & _). rewrite ES. exact S.
Qed.

(** ** Before [init] *)
Lemma bypass L h : Forall (fun o => match o with FvInit _ => False | _ => True end) h -> outs L h fv_new = Some (ins h).
Proof.
  intros H. unfold outs. assert (E : fv_run L h fv_new = Some (fv_new, ins h)); [|now rewrite E].
  induction H as [|o h HO HH IH]; [reflexivity|]. destruct o as [sr|p x| |xs]; try contradiction; cbn [fv_run fv_op]; unfold fv_set, fv_reset, fv_process; cbn [fv_new fv_dsp]; fold fv_new; rewrite IH; reflexivity.
Qed.

(** ** The sine table *)
Lemma fill_from L n : forall c i, (0 <= c)%Z -> (i < n)%nat -> nth i (fv_fill L n 1 c) zero = fv_sin L (Z.rem (c + 1 + Z.of_nat i) 65536).
Proof.
  induction n as [|n IH]; intros c i C H; [lia|]. cbn [fv_fill]. rewrite Z.rem_mod_nonneg by lia. destruct i as [|i].
  - cbn [nth]. rewrite Z.rem_mod_nonneg by lia. f_equal. f_equal. lia.
  - cbn [nth]. rewrite IH; [|apply Z.mod_pos_bound; lia|lia]. rewrite Z.rem_mod_nonneg by (try lia; pose proof (Z.mod_pos_bound (1 + c) 65536); lia). rewrite Z.rem_mod_nonneg by lia.
    f_equal. replace (((1 + c) mod 65536 + 1 + Z.of_nat i))%Z with ((1 + c) mod 65536 + (1 + Z.of_nat i))%Z by lia. rewrite Zplus_mod_idemp_l. f_equal. lia.
Qed.
Lemma fill_table L n i : (i < n)%nat -> (Z.of_nat n <= 65536)%Z -> nth i (fv_fill L n 0 0) zero = fv_sin L (Z.of_nat i).
Proof.
  intros H N. destruct n as [|n]; [lia|]. cbn [fv_fill]. change (Z.rem (0 + 0) 65536) with 0%Z. destruct i as [|i]; [reflexivity|]. cbn [nth].
  rewrite fill_from by lia. f_equal. rewrite Z.rem_mod_nonneg by lia. rewrite Z.mod_small by lia. lia.
Qed.
