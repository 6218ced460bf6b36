(** The XPlay example: its player is driven by a fixed list of calls. *)
From Coq Require Import ZArith Reals Bool List Lra Lia Psatz.
From Flocq Require Import Core BinarySingleNaN.
From Verif Require Import Flt FltFacts FltMore FltKey FltRel FltArith FltClose FltScale Libm EnvModel EnvSpec Res UtilModel UtilProofs OscSpec PhasorProofs
  SmoothModel RdModel RdSpec PanModel PanSpec AllocModel PbModel XpModel XpSpec XpProofs XpProofs2 XpProofs3 XpProofs4 XxModel.
Import ListNotations.
Local Open Scope R_scope.

(** What a session plays. *)
Definition xx_heard (L : libm) (fuel : nat) (b : rbuf) (junk : bufrd * lagl * adsr) (sr : Z) (os : list xx_call) : res (list (f32 * f32)) :=
  q <~ xx_session L fuel b junk sr os ;; Val (snd q).
Definition xx_moves (o : xx_call) : bool := match o with XxPoint _ _ _ _ => true | _ => false end.
Definition xx_asked (os : list xx_call) : nat := fold_right (fun o n => match o with XxBlock k => k + n | _ => n end)%nat 0%nat os.
(** Sample rates of the sound card and of the file. *)
Definition card_rate (r : Z) : Prop := (1 <= r <= 2 ^ 18)%Z.
Definition xx_ok (o : xx_call) : Prop := match o with XxRate sr => card_rate sr | _ => True end.
(** The rate in force at the end. *)
Fixpoint xx_last (sr : Z) (os : list xx_call) : Z := match os with [] => sr | XxRate r :: os => xx_last r os | _ :: os => xx_last sr os end.

(** ** The calls made on the player *)
Definition xx_calls (b : rbuf) (o : xx_call) : list x_op :=
  match o with XxRate sr => xx_setup b (fofZ sr) | XxPoint _ _ _ _ => [] | XxBlock n => repeat XTick n end.
Definition xx_flat (b : rbuf) (os : list xx_call) : list x_op := flat_map (xx_calls b) os.
Definition xx_player (r : res (looper * list (f32 * f32))) : res (xplay * list (f32 * f32)) := q <~ r ;; Val (xx_x (fst q), snd q).

Lemma run_split L fuel a : forall b x, x_run L fuel x (a ++ b) = (q <~ x_run L fuel x a ;; r <~ x_run L fuel (fst q) b ;; Val (fst r, snd q ++ snd r)).
Proof.
  induction a as [|o a IH]; intros b x; cbn [app x_run].
  - cbn [rbind fst snd app]. destruct (x_run L fuel x b) as [[]| |]; reflexivity.
  - destruct (x_call L fuel x o) as [[y out]| |]; cbn [rbind fst snd]; [|reflexivity|reflexivity]. rewrite IH.
    destruct (x_run L fuel y a) as [[z ys]| |]; cbn [rbind fst snd]; [|reflexivity|reflexivity]. destruct (x_run L fuel z b) as [[w zs]| |]; cbn [rbind fst snd]; [|reflexivity|reflexivity].
    destruct out; reflexivity.
Qed.
Lemma setup_mute L fuel b sr x y zs : x_run L fuel x (xx_setup b sr) = Val (y, zs) -> zs = [].
Proof.
  unfold xx_setup. cbn [x_run x_call]. destruct (x_init L fuel x sr) as [x1| |]; cbn [rbind fst snd]; try discriminate.
  destruct (x_setBuffer fuel x1 (Some b)) as [x2| |]; cbn [rbind fst snd]; try discriminate.
  destruct (x_setFadeTime L _ half) as [x3| |]; cbn [rbind fst snd]; try discriminate.
  destruct (x_setStartEnd fuel _ (fdec 25 100) (fdec 75 100) false) as [x4| |]; cbn [rbind fst snd]; try discriminate.
  intros H. injection H as _ <-. reflexivity.
Qed.
Lemma block_player L fuel n : forall s, xx_player (xx_block L s n) = x_run L fuel (xx_x s) (repeat XTick n).
Proof.
  induction n as [|n IH]; intros s; cbn [repeat xx_block x_run x_call]; [reflexivity|]. unfold xx_frame. destruct (lg_tick (xx_sl s) (xx_s s)) as [sl u]. destruct (lg_tick (xx_el s) (xx_e s)) as [el v].
  destruct (x_tick L (xx_x s)) as [[y x']| |]; cbn [rbind fst snd xx_player]; [|reflexivity|reflexivity].
  pose proof (IH (Looper x' sl el (xx_s s) (xx_e s))) as E. cbn [xx_x] in E. rewrite <- E. unfold xx_player. destruct (xx_block L _ n) as [[t ys]| |]; reflexivity.
Qed.
Lemma configure_player L fuel b s sr : (t <~ xx_configure L fuel b s sr ;; Val (xx_x t, [])) = x_run L fuel (xx_x s) (xx_setup b sr).
Proof.
  unfold xx_configure. cbv zeta. destruct (x_run L fuel (xx_x s) (xx_setup b sr)) as [[y zs]| |] eqn:E; cbn [rbind fst snd xx_x]; [|reflexivity|reflexivity].
  now rewrite (setup_mute _ _ _ _ _ _ _ E).
Qed.
Lemma op_player L fuel b s o : xx_player (xx_op L fuel b s o) = x_run L fuel (xx_x s) (xx_calls b o).
Proof.
  destruct o as [sr|x y w h|n]; cbn [xx_op xx_calls].
  - rewrite <- configure_player. unfold xx_player. destruct (xx_configure L fuel b s (fofZ sr)); reflexivity.
  - reflexivity.
  - apply block_player.
Qed.
Lemma run_player L fuel b os : forall s, xx_player (xx_run L fuel b s os) = x_run L fuel (xx_x s) (xx_flat b os).
Proof.
  induction os as [|o os IH]; intros s; [reflexivity|]. cbn [xx_run xx_flat flat_map]. rewrite run_split, <- op_player. unfold xx_player.
  destruct (xx_op L fuel b s o) as [[t ys]| |]; cbn [rbind fst snd]; [|reflexivity|reflexivity]. fold (xx_flat b os). rewrite <- IH. unfold xx_player.
  destruct (xx_run L fuel b t os) as [[t' zs]| |]; reflexivity.
Qed.
Definition xx_rest (b : rbuf) : list x_op := tl (xx_setup b zero).
Lemma session_player L fuel b junk sr os : xx_player (xx_session L fuel b junk sr os) = x_session L fuel junk (fofZ sr) (xx_rest b ++ xx_flat b os).
Proof.
  unfold xx_session, x_session, xx_start. destruct junk as [[rd lg] env]. change (XInit (fofZ sr) :: xx_rest b ++ xx_flat b os) with (xx_setup b (fofZ sr) ++ xx_flat b os).
  rewrite run_split. set (s0 := Looper _ _ _ _ _). change (x_new rd lg env) with (xx_x s0). rewrite <- configure_player.
  destruct (xx_configure L fuel b s0 (fofZ sr)) as [t| |]; cbn [rbind fst snd]; [|reflexivity|reflexivity]. rewrite <- run_player. unfold xx_player.
  destruct (xx_run L fuel b t os) as [[t' ys]| |]; reflexivity.
Qed.
Lemma heard_player L fuel b junk sr os : xx_heard L fuel b junk sr os = (q <~ x_session L fuel junk (fofZ sr) (xx_rest b ++ xx_flat b os) ;; Val (snd q)).
Proof. rewrite <- session_player. unfold xx_heard, xx_player. destruct (xx_session L fuel b junk sr os) as [[s ys]| |]; reflexivity. Qed.
Lemma flat_moves b os : xx_flat b os = xx_flat b (filter (fun o => negb (xx_moves o)) os).
Proof. induction os as [|o os IH]; [reflexivity|]. cbn [xx_flat flat_map filter]. fold (xx_flat b os). rewrite IH. destruct o; reflexivity. Qed.
Lemma pointer_ignored L fuel b junk sr os : xx_heard L fuel b junk sr os = xx_heard L fuel b junk sr (filter (fun o => negb (xx_moves o)) os).
Proof. rewrite !heard_player, <- flat_moves. reflexivity. Qed.

(** ** Safety and level *)
Lemma card_sr sr : card_rate sr -> fin (fofZ sr : f32) /\ B2R (fofZ sr : f32) = IZR sr /\ 1 <= IZR sr <= 262144.
Proof. intros H. unfold card_rate in H. destruct (fofZ_R (prec:=24) (emax:=128) sr ltac:(lia)) as [F E]. split; [exact F|]. split; [exact E|]. split; apply IZR_le; lia. Qed.
Lemma card_xsr sr : card_rate sr -> xsr_ok (fofZ sr).
Proof. intros H. destruct (card_sr sr H) as (F & E & B). split; [exact F|]. rewrite E. bp. lra. Qed.
Lemma half_rate : xrate_ok half.
Proof. split; [reflexivity|]. fval (half : f32). bp. rewrite Rabs_pos_eq; lra. Qed.
Lemma rest_ok (K : x_op -> Prop) b : K (XBuffer (Some b)) -> K (XInterp 4) -> K (XWrap true) -> K (XFadeTime half) -> K (XGate one) -> K (XRate half) -> K (XStartEnd (fdec 25 100) (fdec 75 100) false) -> Forall K (xx_rest b).
Proof. intros. unfold xx_rest, xx_setup. cbn [tl]. repeat (apply Forall_cons; [assumption|]). apply Forall_nil. Qed.
Lemma flat_ok (K : x_op -> Prop) b os : (forall sr, card_rate sr -> K (XInit (fofZ sr))) -> Forall K (xx_rest b) -> K XTick -> Forall xx_ok os -> Forall K (xx_flat b os).
Proof.
  intros A B C H. induction H as [|o os O H IH]; [apply Forall_nil|]. cbn [xx_flat flat_map]. apply Forall_app. split; [|exact IH].
  destruct o as [sr|x y w h|n]; cbn [xx_calls]; [|apply Forall_nil|].
  - change (xx_setup b (fofZ sr)) with (XInit (fofZ sr) :: xx_rest b). apply Forall_cons; [exact (A sr O)|exact B].
  - apply Forall_forall. intros o Ho. apply repeat_spec in Ho. subst o. exact C.
Qed.
Lemma all_ok b os : xbuf_ok (Some b) -> Forall xx_ok os -> Forall (x_op_ok 3) (xx_rest b ++ xx_flat b os).
Proof.
  intros B O. assert (R : Forall (x_op_ok 3) (xx_rest b)).
  { apply rest_ok; try exact I; [exact B| |exact half_rate|split; reflexivity]. intros _. split; [reflexivity|]. fval (half : f32). bp. lra. }
  apply Forall_app. split; [exact R|]. apply flat_ok; [exact card_xsr|exact R|exact I|exact O].
Qed.
Lemma all_K (K : x_op -> Prop) b os : K (XBuffer (Some b)) -> (forall o, match o with XBuffer _ => False | XStartEnd _ _ true => False | _ => True end -> K o) -> Forall xx_ok os -> Forall K (xx_rest b ++ xx_flat b os).
Proof.
  intros B C O. assert (R : Forall K (xx_rest b)) by (apply rest_ok; try exact B; apply C; exact I).
  apply Forall_app. split; [exact R|]. apply flat_ok; [intros; apply C; exact I|exact R|apply C; exact I|exact O].
Qed.
Lemma run_length L fuel ops : forall x y ys, x_run L fuel x ops = Val (y, ys) -> length ys = length (filter (fun o => match o with XTick => true | _ => false end) ops).
Proof.
  induction ops as [|o ops IH]; intros x y ys H; cbn [x_run] in H; [injection H as _ <-; reflexivity|].
  destruct (x_call L fuel x o) as [[z out]| |] eqn:C; cbn [rbind fst snd] in H; try discriminate. destruct (x_run L fuel z ops) as [[w zs]| |] eqn:R; cbn [rbind fst snd] in H; try discriminate.
  injection H as _ <-. pose proof (IH _ _ _ R) as E.
  assert (Q : match o with XTick => True | _ => out = None end).
  { destruct o; cbn [x_call] in C; try exact I; try (injection C as _ <-; reflexivity); match type of C with rbind ?e _ = _ => destruct e; cbn [rbind] in C; try discriminate; injection C as _ <-; reflexivity end. }
  destruct o; cbn [filter length]; try (rewrite Q; exact E). cbn [x_call] in C. destruct (x_tick L x) as [[q t]| |]; cbn [rbind fst snd] in C; try discriminate. injection C as _ <-. cbn [length]. now rewrite E.
Qed.
Lemma flat_ticks b os : length (filter (fun o => match o with XTick => true | _ => false end) (xx_flat b os)) = xx_asked os.
Proof.
  induction os as [|o os IH]; [reflexivity|]. cbn [xx_flat flat_map xx_asked fold_right]. rewrite filter_app, app_length. fold (xx_flat b os). rewrite IH.
  destruct o as [sr|x y w h|n]; cbn [xx_calls]; [reflexivity|reflexivity|]. f_equal. clear. induction n as [|n E]; [reflexivity|]. cbn [repeat filter length]. now rewrite E.
Qed.
Lemma session_fine j L fuel b junk sr os : (-100 <= j <= 95)%Z -> trig_acc L -> exp_unit L -> xbuf_ok (Some b) -> loud j b 0 -> loud j b 1 -> card_rate sr -> Forall xx_ok os ->
  exists s ys, xx_session L fuel b junk sr os = Val (s, ys) /\ length ys = xx_asked os /\ Forall (within2 (1.769 * bpow radix2 j)) ys /\ x_inv 3 (xx_x s).
Proof.
  intros Hj HT HL B L0 L1 Hs O. set (ops := xx_rest b ++ xx_flat b os). assert (A : Forall (x_op_ok 3) ops) by now apply all_ok.
  assert (P : Forall x_op_plain ops) by (apply all_K; auto; [exact I|intros [] H; cbn in *; auto]).
  assert (K : Forall (x_op_loud j) ops) by (apply all_K; auto; [cbn; auto|intros [] H; cbn in *; auto; contradiction]).
  pose proof (session_ok 3 L fuel junk (fofZ sr) ops ltac:(lia) (card_xsr sr Hs) A) as S. pose proof (session_player L fuel b junk sr os) as E. fold ops in E.
  destruct (x_session L fuel junk (fofZ sr) ops) as [[x ys]| |] eqn:X; [|contradiction|contradiction].
  destruct (xx_session L fuel b junk sr os) as [[s zs]| |]; cbn [xx_player rbind fst snd] in E; try discriminate. injection E as Ex <-. exists s, zs. split; [reflexivity|]. split; [|split; [|now rewrite Ex]].
  - unfold x_session in X. destruct junk as [[rd lg] env]. rewrite (run_length _ _ _ _ _ _ X). cbn [filter]. unfold ops. rewrite filter_app, app_length, flat_ticks. reflexivity.
  - eapply Forall_impl; [|exact (session_level_any 3 j L fuel junk (fofZ sr) ops x zs ltac:(lia) Hj HT HL (card_xsr sr Hs) A K X)].
    intros y [[C1 C2] [C3 C4]]. pose proof (bpow_gt_0 radix2 j). split; (split; [assumption|lra]).
Qed.
