(** All seven ladders: [reset]; four of them: a NaN stays. *)
From Coq Require Import ZArith Reals Lra Lia Bool Psatz List.
From Flocq Require Import Core BinarySingleNaN.
From Verif Require Import Flt FltFacts FltMore FltKey FltArith Libm Res UtilModel UtilProofs Dbl MgModel MgSpec MgBase KjModel StModel StProofs MtModel MdModel ImModel ObModel RkModel LaSpec.
Import ListNotations.
Local Open Scope R_scope.

(** ** reset *)
Section Fresh.
  Context {S O : Type} (call : S -> O -> S * option f32) (sets : O -> bool) (rst : S -> S) (init : S) (Reset : O).
  Hypothesis isreset : forall s, call s Reset = (rst s, None).
  Hypothesis keep : forall s o, sets o = false -> rst (fst (call s o)) = rst s.
  Hypothesis put : forall s o, sets o = true -> rst (fst (call s o)) = fst (call (rst s) o) /\ snd (call (rst s) o) = None.
  Hypothesis start : rst init = init.
  Lemma fresh_settings pre : forall s, rst (fst (mg_run call s pre)) = fst (mg_run call (rst s) (filter sets pre)) /\ snd (mg_run call (rst s) (filter sets pre)) = [].
  Proof.
    induction pre as [|o r IH]; intros s; [split; reflexivity|]. cbn [mg_run filter]. destruct (sets o) eqn:E.
    - destruct (put s o E) as [P Q]. cbn [mg_run]. destruct (call s o) as [s' y]. cbn [fst snd] in P. destruct (call (rst s) o) as [t z]. cbn [fst snd] in P, Q. subst t z.
      destruct (IH s') as [A B]. destruct (mg_run call s' r) as [u ys]. cbn [fst] in A. destruct (mg_run call (rst s') (filter sets r)) as [v zs]. cbn [fst snd] in *. now split.
    - pose proof (keep s o E) as K. destruct (call s o) as [s' y]. cbn [fst] in K. destruct (IH s') as [A B]. rewrite K in A, B. destruct (mg_run call s' r) as [u ys]. cbn [fst] in *. now split.
  Qed.
  Lemma fresh_run pre post : snd (mg_run call (fst (mg_run call init (pre ++ [Reset]))) post) = snd (mg_run call init (filter sets pre ++ post)).
  Proof.
    destruct (fresh_settings pre init) as [A B]. rewrite start in A, B. rewrite run_app. cbn [mg_run]. rewrite isreset. cbn [fst]. rewrite A. clear A.
    clear start. revert B. generalize init. induction (filter sets pre) as [|o r IH]; intros i B; [reflexivity|]. revert B. cbn [mg_run app]. destruct (call i o) as [i' y].
    destruct (mg_run call i' r) as [u ys] eqn:E. cbn [fst snd]. intros B. specialize (IH i'). rewrite E in IH. cbn [fst snd] in IH. destruct y; [discriminate B|].
    specialize (IH B). destruct (mg_run call i' (r ++ post)). cbn [snd] in *. exact IH.
  Qed.
End Fresh.
Ltac afresh r := apply fresh_run with (rst := r); [reflexivity|intros ? [] H; first [discriminate H|reflexivity]|intros ? [] H; first [discriminate H|split; reflexivity]|reflexivity].
Lemma kj_fresh L sr pre post : snd (mg_run (kj_call L) (fst (mg_run (kj_call L) (kj_init L sr) (pre ++ [KjReset]))) post) = snd (mg_run (kj_call L) (kj_init L sr) (filter kj_sets pre ++ post)).
Proof. afresh kj_reset. Qed.
Lemma mt_fresh sr pre post : snd (mg_run mt_call (fst (mg_run mt_call (mt_init sr) (pre ++ [MtReset]))) post) = snd (mg_run mt_call (mt_init sr) (filter mt_sets pre ++ post)).
Proof. afresh mt_reset. Qed.
Lemma md_fresh L r0 sr pre post : snd (mg_run (md_call L) (fst (mg_run (md_call L) (md_init L r0 sr) (pre ++ [MdReset]))) post) = snd (mg_run (md_call L) (md_init L r0 sr) (filter md_sets pre ++ post)).
Proof. afresh md_reset. Qed.
Lemma im_fresh L sr pre post : snd (mg_run (im_call L) (fst (mg_run (im_call L) (im_init sr) (pre ++ [ImReset]))) post) = snd (mg_run (im_call L) (im_init sr) (filter im_sets pre ++ post)).
Proof. afresh im_reset. Qed.
Lemma ob_fresh L sr pre post : snd (mg_run (ob_call L) (fst (mg_run (ob_call L) (ob_init L sr) (pre ++ [ObReset]))) post) = snd (mg_run (ob_call L) (ob_init L sr) (filter ob_sets pre ++ post)).
Proof. afresh ob_reset. Qed.
Lemma rk_fresh sr pre post : snd (mg_run rk_call (fst (mg_run rk_call (rk_init sr) (pre ++ [RkReset]))) post) = snd (mg_run rk_call (rk_init sr) (filter rk_sets pre ++ post)).
Proof. afresh rk_reset. Qed.

(** ** NaN *)
Lemma nan_l (x y : f64) : is_nan x = true -> is_nan (fadd x y) = true /\ is_nan (fsub x y) = true /\ is_nan (fmul x y) = true /\ is_nan (fdiv x y) = true.
Proof. intros N. destruct x; try discriminate N. repeat split; destruct y; reflexivity. Qed.
Lemma nan_r (x y : f64) : is_nan y = true -> is_nan (fadd x y) = true /\ is_nan (fsub x y) = true /\ is_nan (fmul x y) = true /\ is_nan (fdiv x y) = true.
Proof. intros N. destruct y; try discriminate N. repeat split; destruct x; reflexivity. Qed.
Lemma nan_neg (x : f64) : is_nan x = true -> is_nan (fneg x) = true.
Proof. intros N. destruct x; try discriminate N. reflexivity. Qed.
Lemma nan_d2f (x : f64) : is_nan x = true -> is_nan (d2f x) = true.
Proof. intros N. destruct x; try discriminate N. reflexivity. Qed.
Lemma nan_flt_l (x y : f64) : is_nan x = true -> flt x y = false /\ flt y x = false.
Proof. intros N. destruct x; try discriminate N. split; [reflexivity|]. destruct y as [[]|[]| |]; reflexivity. Qed.
Ltac nn := match goal with
  | H : is_nan ?x = true |- is_nan ?x = true => exact H
  | |- is_nan (fadd _ _) = true => first [apply nan_l; nn|apply nan_r; nn]
  | |- is_nan (fsub _ _) = true => first [apply nan_l; nn|apply nan_r; nn]
  | |- is_nan (fmul _ _) = true => first [apply nan_l; nn|apply nan_r; nn]
  | |- is_nan (fdiv _ _) = true => first [apply nan_l; nn|apply nan_r; nn]
  | |- is_nan (fneg _) = true => apply nan_neg; nn
  | |- is_nan (d2f _) = true => apply nan_d2f; nn
  | |- is_nan (f2d _) = true => apply f2d_nan; nn
  end.

Section Sticks.
  Context {S O : Type} (call : S -> O -> S * option f32) (sick : S -> Prop) (on : O -> Prop).
  Hypothesis step : forall s o, sick s -> on o -> sick (fst (call s o)) /\ (forall y, snd (call s o) = Some y -> is_nan y = true).
  Lemma sticks os s : sick s -> Forall on os -> Forall (fun y => is_nan y = true) (snd (mg_run call s os)).
  Proof. intros Hs Ho. exact (proj2 (run_inv call sick on (fun y => is_nan y = true) step os s Hs Ho)). Qed.
End Sticks.

Definition mt_sick (s : mt) : Prop := is_nan (mt_p0 s) = true /\ is_nan (mt_p1 s) = true /\ is_nan (mt_p2 s) = true /\ is_nan (mt_p3 s) = true.
Lemma mt_tanh_nan x : is_nan x = true -> is_nan (mt_tanh x) = true.
Proof. intros N. unfold mt_tanh. nn. Qed.
Lemma mt_stage_nan c x p : is_nan x = true \/ is_nan p = true -> is_nan (mt_stage c x p) = true.
Proof. unfold mt_stage. intros [N|N]; [|nn]. apply mt_tanh_nan in N. set (a := mt_tanh x) in *. nn. Qed.
Lemma mt_tick_sick s x : is_nan x = true \/ mt_sick s -> mt_sick (fst (mt_tick s x)).
Proof.
  intros H. unfold mt_tick. cbv zeta. cbn [fst]. unfold mt_sick. cbn [mt_p0 mt_p1 mt_p2 mt_p3].
  assert (A : is_nan (mt_stage (mt_c s) (fsub (f2d x) (fmul (f2d (fmul (mt_res s) (fofZ 4))) (mt_mix s))) (mt_p0 s)) = true).
  { apply mt_stage_nan. destruct H as [H|[H _]]; [left; nn|now right]. }
  set (a := mt_stage _ _ (mt_p0 s)) in *. clearbody a.
  assert (B : is_nan (mt_stage (mt_c s) a (mt_p1 s)) = true) by (apply mt_stage_nan; now left). set (b := mt_stage _ _ (mt_p1 s)) in *. clearbody b.
  assert (C : is_nan (mt_stage (mt_c s) b (mt_p2 s)) = true) by (apply mt_stage_nan; now left). set (c := mt_stage _ _ (mt_p2 s)) in *. clearbody c.
  repeat split; auto. apply mt_stage_nan. now left.
Qed.
Lemma mt_nan s x os : is_nan x = true -> Forall mt_on os -> Forall (fun y => is_nan y = true) (snd (mg_run mt_call (fst (mt_call s (MtTick x))) os)).
Proof.
  intros N. apply sticks with (sick := mt_sick).
  - intros t [c|r|z|] H K; cbn [mt_call].
    + split; [exact H|discriminate].
    + split; [exact H|discriminate].
    + pose proof (mt_tick_sick t z (or_intror H)) as A. assert (B : is_nan (snd (mt_tick t z)) = true).
      { unfold mt_tick. cbv zeta. cbn [snd]. unfold mt_mix. destruct H as (_ & _ & _ & H). nn. }
      destruct (mt_tick t z) as [t' y]. cbn [fst snd] in *. split; [exact A|]. intros y' [= <-]. exact B.
    + destruct K.
  - cbn [mt_call]. pose proof (mt_tick_sick s x (or_introl N)) as A. destruct (mt_tick s x). exact A.
Qed.

Definition md_sick (s : md) : Prop := is_nan (md_s3 s) = true.
Lemma md_tick_sick s x : is_nan x = true \/ md_sick s -> md_sick (fst (md_tick s x)) /\ is_nan (snd (md_tick s x)) = true.
Proof.
  intros H. unfold md_tick. cbv zeta. cbn [fst snd]. unfold md_sick. cbn [md_s3].
  assert (A : is_nan (fsub (f2d x) (fmul (md_rc s) (md_s3 s))) = true) by (destruct H as [H|H]; unfold md_sick in *; nn).
  set (a := fsub (f2d x) _) in *. clearbody a. split; nn.
Qed.
Lemma md_nan L s x os : is_nan x = true -> Forall md_on os -> Forall (fun y => is_nan y = true) (snd (mg_run (md_call L) s (MdTick x :: os))).
Proof.
  intros N Ho. cbn [mg_run md_call]. pose proof (md_tick_sick s x (or_introl N)) as [A B]. destruct (md_tick s x) as [s' y]. cbn [fst snd] in *.
  pose proof (sticks (md_call L) md_sick md_on) as T. specialize (T ltac:(intros t [c|r|z|] H K; cbn [md_call]; [split; [exact H|discriminate]|split; [exact H|discriminate]| |destruct K];
    pose proof (md_tick_sick t z (or_intror H)) as [C D]; destruct (md_tick t z); cbn [fst snd] in *; split; [exact C|]; now intros ? [= <-]) os s' A Ho).
  destruct (mg_run (md_call L) s' os) as [t ys]. constructor; [exact B|exact T].
Qed.

Definition im_sick (s : im) : Prop := is_nan (im_V (im_0 s)) = true.
Lemma im_move_nan L sr c d : dtanh_nan L -> is_nan d = true \/ is_nan (im_V c) = true -> is_nan (im_V (im_move L sr c d)) = true /\ is_nan (im_tV (im_move L sr c d)) = true.
Proof.
  intros HL H. unfold im_move. cbv zeta. cbn [im_V im_tV]. assert (A : is_nan (fadd (im_V c) (fdiv (fadd d (im_dV c)) (fmul (dz 2) (f2d sr)))) = true) by (destruct H as [H|H]; nn).
  set (a := fadd (im_V c) _) in *. clearbody a. split; [exact A|]. apply HL. nn.
Qed.
Lemma im_tick_sick L s x : dtanh_nan L -> is_nan x = true \/ im_sick s -> im_sick (fst (im_tick L s x)) /\ is_nan (snd (im_tick L s x)) = true.
Proof.
  intros HL H. unfold im_tick. cbv zeta. cbn [fst snd]. unfold im_sick. cbn [im_0].
  match goal with |- is_nan (im_V (im_move L ?sr ?c ?d)) = true /\ _ => assert (A : is_nan (im_V (im_move L sr c d)) = true /\ is_nan (im_tV (im_move L sr c d)) = true) end.
  { apply im_move_nan; [exact HL|]. destruct H as [H|H]; [left|now right]. apply nan_r. apply nan_l. apply HL. nn. }
  match goal with |- is_nan (im_V ?c) = true /\ _ => set (c0 := c) in *; clearbody c0 end. destruct A as [A0 A].
  match goal with |- _ /\ is_nan (d2f (fmul (im_V (im_move L _ _ (fmul _ (fsub (im_tV (im_move L _ _ (fmul _ (fsub (im_tV ?c) _)))) _)))) _)) = true => assert (B : is_nan (im_V c) = true /\ is_nan (im_tV c) = true) by (apply im_move_nan; [exact HL|left; nn]); set (c1 := c) in *; clearbody c1 end.
  destruct B as [_ B].
  match goal with |- _ /\ is_nan (d2f (fmul (im_V (im_move L _ _ (fmul _ (fsub (im_tV ?c) _)))) _)) = true => assert (C : is_nan (im_V c) = true /\ is_nan (im_tV c) = true) by (apply im_move_nan; [exact HL|left; nn]); set (c2 := c) in *; clearbody c2 end.
  destruct C as [_ C].
  match goal with |- _ /\ is_nan (d2f (fmul (im_V ?c) _)) = true => assert (D : is_nan (im_V c) = true /\ is_nan (im_tV c) = true) by (apply im_move_nan; [exact HL|left; nn]); set (c3 := c) in *; clearbody c3 end.
  destruct D as [D _]. split; [exact A0|nn].
Qed.
Lemma im_nan L s x os : dtanh_nan L -> is_nan x = true -> Forall im_on os -> Forall (fun y => is_nan y = true) (snd (mg_run (im_call L) s (ImTick x :: os))).
Proof.
  intros HL N Ho. cbn [mg_run im_call]. pose proof (im_tick_sick L s x HL (or_introl N)) as [A B]. destruct (im_tick L s x) as [s' y]. cbn [fst snd] in *.
  pose proof (sticks (im_call L) im_sick im_on) as T. specialize (T ltac:(intros t [c|r|d|z|] H K; cbn [im_call]; [split; [exact H|discriminate]|split; [exact H|discriminate]|split; [exact H|discriminate]| |destruct K];
    pose proof (im_tick_sick L t z HL (or_intror H)) as [C D]; destruct (im_tick L t z); cbn [fst snd] in *; split; [exact C|]; now intros ? [= <-]) os s' A Ho).
  destruct (mg_run (im_call L) s' os) as [t ys]. constructor; [exact B|exact T].
Qed.

Lemma rk_clip_nan x : is_nan x = true -> is_nan (rk_clip x) = true.
Proof.
  intros N. unfold rk_clip. cbv zeta. assert (A : is_nan (fmul x rk_third) = true) by nn. set (v := fmul x rk_third) in *. clearbody v.
  destruct (nan_flt_l v (dz 1) A) as [_ ->]. destruct (nan_flt_l v (fneg (dz 1)) A) as [-> _]. nn.
Qed.
(** Whether the input or the first stage is a NaN, after one solver step the first and the last stage are. *)
Lemma rk_deriv_nan s x q : is_nan (fmul x (rk_drive s)) = true \/ is_nan (q_0 q) = true -> is_nan (q_0 (rk_deriv s x q)) = true.
Proof.
  intros H. unfold rk_deriv. cbv zeta. cbn [q_0]. destruct H as [H|H].
  - apply nan_r, nan_l, rk_clip_nan. nn.
  - apply nan_r, nan_r. now apply rk_clip_nan.
Qed.
Lemma rk_deriv_nan1 s x q : is_nan (q_0 q) = true -> is_nan (q_1 (rk_deriv s x q)) = true.
Proof. intros H. unfold rk_deriv. cbv zeta. cbn [q_1]. apply nan_r, nan_l. now apply rk_clip_nan. Qed.
Lemma rk_deriv_nan2 s x q : is_nan (q_1 q) = true -> is_nan (q_2 (rk_deriv s x q)) = true.
Proof. intros H. unfold rk_deriv. cbv zeta. cbn [q_2]. apply nan_r, nan_l. now apply rk_clip_nan. Qed.
Lemma rk_deriv_nan3 s x q : is_nan (q_2 q) = true -> is_nan (q_3 (rk_deriv s x q)) = true.
Proof. intros H. unfold rk_deriv. cbv zeta. cbn [q_3]. apply nan_r, nan_l. now apply rk_clip_nan. Qed.
Lemma rk_solve_nan s x q : is_nan (fmul x (rk_drive s)) = true \/ is_nan (q_0 q) = true -> is_nan (q_0 (rk_solve s x q)) = true /\ is_nan (q_3 (rk_solve s x q)) = true.
Proof.
  intros H. unfold rk_solve. cbv zeta.
  pose proof (rk_deriv_nan s x q H) as K1. set (k1 := rk_deriv s x q) in *. clearbody k1.
  set (a := q_map2 _ q k1). assert (A : is_nan (q_0 a) = true) by (unfold a, q_map2; cbn [q_0]; nn). clearbody a.
  pose proof (rk_deriv_nan s x a (or_intror A)) as K20. pose proof (rk_deriv_nan1 s x a A) as K21. set (k2 := rk_deriv s x a) in *. clearbody k2.
  set (b := q_map2 _ q k2). assert (B0 : is_nan (q_0 b) = true) by (unfold b, q_map2; cbn [q_0]; nn). assert (B1 : is_nan (q_1 b) = true) by (unfold b, q_map2; cbn [q_1]; nn). clearbody b.
  pose proof (rk_deriv_nan2 s x b B1) as K32. set (k3 := rk_deriv s x b) in *. clearbody k3.
  set (c := q_map2 _ q k3). assert (C2 : is_nan (q_2 c) = true) by (unfold c, q_map2; cbn [q_2]; nn). clearbody c.
  pose proof (rk_deriv_nan3 s x c C2) as K43. set (k4 := rk_deriv s x c) in *. clearbody k4.
  unfold q_map2. cbn [q_0 q_1 q_2 q_3]. split; nn.
Qed.
Definition rk_sick (s : rk) : Prop := is_nan (q_0 (rk_state s)) = true /\ (1 <= rk_over s)%Z.
Lemma rk_iter_nan s x : forall n q, is_nan (fmul x (rk_drive s)) = true \/ is_nan (q_0 q) = true -> (n <> 0)%nat ->
  is_nan (q_0 (Nat.iter n (rk_solve s x) q)) = true /\ is_nan (q_3 (Nat.iter n (rk_solve s x) q)) = true.
Proof.
  induction n as [|n IH]; intros q H N; [now destruct N|]. cbn [Nat.iter nat_rect]. destruct n as [|n]; [now apply rk_solve_nan|].
  destruct (IH q H ltac:(discriminate)) as [A _]. apply rk_solve_nan. now right.
Qed.
Lemma rk_tick_sick s x : is_nan x = true \/ rk_sick s -> (1 <= rk_over s)%Z -> rk_sick (fst (rk_tick s x)) /\ is_nan (snd (rk_tick s x)) = true.
Proof.
  intros H O1. unfold rk_tick. cbv zeta. cbn [fst snd]. unfold rk_sick. cbn [rk_state rk_over].
  destruct (rk_iter_nan s (f2d x) (Z.to_nat (rk_over s)) (rk_state s)) as [A B].
  - destruct H as [H|[H _]]; [left; nn|now right].
  - lia.
  - set (q := Nat.iter _ _ _) in *. clearbody q. repeat split; [exact A|exact O1|nn].
Qed.
Lemma rk_over_call s o : (1 <= rk_over s)%Z -> (1 <= rk_over (fst (rk_call s o)))%Z.
Proof. intros H. destruct o as [c|r|d|n|x|]; cbn [rk_call]; try exact H. cbn [fst rk_setOversample rk_over]. destruct (n <? 1)%Z eqn:E; [lia|apply Z.ltb_ge in E; exact E]. Qed.
Lemma rk_nan sr pre x os : is_nan x = true -> Forall rk_on os -> let s := fst (mg_run rk_call (rk_init sr) pre) in Forall (fun y => is_nan y = true) (snd (mg_run rk_call s (RkTick x :: os))).
Proof.
  intros N Ho s. assert (O1 : (1 <= rk_over s)%Z).
  { unfold s. apply (run_inv rk_call (fun s => (1 <= rk_over s)%Z) (fun _ => True) (fun _ => True)); [intros t o H _; split; [now apply rk_over_call|auto]|reflexivity|]. apply Forall_forall. auto. }
  clearbody s. cbn [mg_run rk_call]. pose proof (rk_tick_sick s x (or_introl N) O1) as [A B]. destruct (rk_tick s x) as [s' y]. cbn [fst snd] in *.
  pose proof (sticks rk_call rk_sick rk_on) as T. specialize (T ltac:(intros t [c|r|d|n|z|] H K; cbn [rk_call]; [split; [exact H|discriminate]|split; [exact H|discriminate]|split; [exact H|discriminate]|split; [split; [exact (proj1 H)|exact (rk_over_call t (RkOver n) (proj2 H))]|discriminate]| |destruct K];
    pose proof (rk_tick_sick t z (or_intror H) (proj2 H)) as [C D]; destruct (rk_tick t z); cbn [fst snd] in *; split; [exact C|]; now intros ? [= <-]) os s' A Ho).
  destruct (mg_run rk_call s' os) as [t ys]. constructor; [exact B|exact T].
Qed.

Lemma st_put s o s' y : st_sets o = true -> st_call s o = Val (s', y) -> y = None /\ st_call (st_reset s) o = Val (st_reset s', None).
Proof.
  destruct o as [c|r|x|]; intros H E; try discriminate H; cbn [st_call] in *.
  - unfold st_setCutoff, st_setResonance in *. cbn [st_reset st_sr st_cut st_res st_p st_Q st_s0 st_s1 st_s2 st_s3 st_out] in *.
    destruct (st_gain (unit_clamp (st_res s)) (st_pole (st_sr s) c)) as [q| |]; cbn [rbind] in *; try discriminate E. injection E as <- <-. now split.
  - unfold st_setResonance in *. cbn [st_reset st_sr st_cut st_res st_p st_Q st_s0 st_s1 st_s2 st_s3 st_out] in *.
    destruct (st_gain (unit_clamp r) (st_p s)) as [q| |]; cbn [rbind] in *; try discriminate E. injection E as <- <-. now split.
Qed.
Lemma st_keep s o s' y : st_sets o = false -> st_call s o = Val (s', y) -> st_reset s' = st_reset s.
Proof. destruct o as [c|r|x|]; intros H E; try discriminate H; cbn [st_call] in *; [|injection E as <- <-; reflexivity]. assert (K : st_reset (fst (st_tick s x)) = st_reset s) by reflexivity. destruct (st_tick s x). injection E as <- <-. exact K. Qed.
Lemma st_settings pre : forall s s' ys, st_run s pre = Val (s', ys) -> st_run (st_reset s) (filter st_sets pre) = Val (st_reset s', []).
Proof.
  induction pre as [|o r IH]; intros s s' ys E; cbn [st_run filter] in *; [injection E as <- <-; reflexivity|].
  destruct (st_call s o) as [[s1 y]| |] eqn:C; cbn [rbind fst snd] in E; try discriminate E. destruct (st_run s1 r) as [[s2 zs]| |] eqn:R; cbn [rbind fst snd] in E; try discriminate E. injection E as <- <-.
  specialize (IH _ _ _ R). destruct (st_sets o) eqn:H.
  - destruct (st_put s o s1 y H C) as [_ P]. cbn [st_run]. rewrite P. cbn [rbind fst snd]. rewrite IH. reflexivity.
  - now rewrite <- (st_keep s o s1 y H C).
Qed.
Lemma st_run_app a : forall s b s' ys, st_run s a = Val (s', ys) -> st_run s (a ++ b) = (v <~ st_run s' b ;; Val (fst v, ys ++ snd v)).
Proof.
  induction a as [|o r IH]; intros s b s' ys E; cbn [st_run app] in *; [injection E as <- <-; destruct (st_run s b) as [[]| |]; reflexivity|].
  destruct (st_call s o) as [[s1 y]| |]; cbn [rbind fst snd] in *; try discriminate E. destruct (st_run s1 r) as [[s2 zs]| |] eqn:R; cbn [rbind fst snd] in *; try discriminate E. injection E as <- <-.
  rewrite (IH _ b _ _ R). destruct (st_run s2 b) as [[s3 ws]| |]; cbn [rbind fst snd]; try reflexivity. now destruct y.
Qed.
Lemma st_init_reset r0 sr i : st_init r0 sr = Val i -> st_reset i = i.
Proof.
  unfold st_init. unfold st_setCutoff, st_setResonance. cbn [st_sr st_cut st_res st_p st_Q st_s0 st_s1 st_s2 st_s3 st_out]. destruct (st_gain (unit_clamp r0) _) as [q| |]; cbn [rbind]; try discriminate.
  cbn [st_sr st_cut st_res st_p st_Q st_s0 st_s1 st_s2 st_s3 st_out]. destruct (st_gain _ _) as [q'| |]; cbn [rbind]; try discriminate. intros [= <-]. reflexivity.
Qed.
Lemma st_run_reset a : forall s t ys, st_run s (a ++ [StReset]) = Val (t, ys) -> exists s1, st_run s a = Val (s1, ys) /\ t = st_reset s1.
Proof.
  induction a as [|o r IH]; intros s t ys E; cbn [st_run app] in *; [injection E as <- <-; exists s; now split|].
  destruct (st_call s o) as [[s1 y]| |]; cbn [rbind fst snd] in *; try discriminate E. destruct (st_run s1 (r ++ [StReset])) as [[s2 zs]| |] eqn:R; cbn [rbind fst snd] in *; try discriminate E. injection E as <- <-.
  destruct (IH _ _ _ R) as (s3 & A & ->). exists s3. rewrite A. cbn [rbind fst snd]. now split.
Qed.
Lemma st_fresh r0 sr i pre s ys post : st_init r0 sr = Val i -> st_run i (pre ++ [StReset]) = Val (s, ys) -> st_run s post = st_run i (filter st_sets pre ++ post).
Proof.
  intros Hi E. destruct (st_run_reset pre i s ys E) as (s1 & R & ->). apply st_settings in R. rewrite (st_init_reset _ _ _ Hi) in R.
  rewrite (st_run_app _ _ post _ _ R). destruct (st_run (st_reset s1) post) as [[]| |]; reflexivity.
Qed.
