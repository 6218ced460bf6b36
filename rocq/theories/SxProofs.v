(** Supersaw example: definedness, and what the reverb gets and gives. *)
From Coq Require Import ZArith Reals Bool List Lra Lia.
From Flocq Require Import Core BinarySingleNaN.
From Verif Require Import Flt FltFacts FltMore FltArith Libm UtilModel EnvSpec OscSpec SmoothModel DsModel MgModel RkModel VcModel FvModel FvSpec FvSpec2 FvProofs3 FvProofs5 MxModel SxModel SxSpec.
Import ListNotations.

(** ** Lengths *)
Lemma frames_len L w xs : forall d d' ys, fv_frames L w d xs = Some (d', ys) -> length ys = length xs.
Proof.
  induction xs as [|[a b] t IH]; intros d d' ys E; cbn [fv_frames] in E; [injection E as <- <-; reflexivity|].
  destruct (fv_frame L w d a b) as [[[d1 y0] y1]|]; [|discriminate]. destruct (fv_frames L w d1 t) as [[d2 zs]|] eqn:E2; [|discriminate]. injection E as <- <-. cbn [length]. f_equal. now apply IH in E2.
Qed.
Lemma process_len L f xs g ys : fv_process L f xs = Some (g, ys) -> length ys = length xs.
Proof.
  unfold fv_process. destruct (fv_dsp f) as [d|]; [|intros E; injection E as <- <-; reflexivity]. cbv zeta. destruct (fv_bufs _); [|discriminate].
  destruct (fv_compute L d xs) as [[d' zs]|] eqn:E; [|discriminate]. intros H. injection H as <- <-. unfold fv_compute in E. eapply frames_len. exact E.
Qed.
Lemma put_rev L ps : forall s, sx_rev (fold_left (sx_put L) ps s) = sx_rev s.
Proof. induction ps as [|p t IH]; intros s; [reflexivity|]. cbn [fold_left]. rewrite IH. destruct p; reflexivity. Qed.
Lemma tick_rev L s : sx_rev (fst (sx_tick L s)) = sx_rev s.
Proof.
  unfold sx_tick. destruct (lg_tick (sx_cl s) _) as [cl c]. destruct (lg_tick (sx_dl s) _) as [dl d]. cbv zeta. destruct (sx_mix L (sx_v s) _) as [vs m].
  destruct (rk_tick _ _) as [fl yl]. destruct (rk_tick _ _) as [fr yr]. destruct (ds2_read _) as [e y]. destruct (op_tickmod L (sx_pl s) _ _) as [pl zl]. destruct (op_tickmod L (sx_pr s) _ _) as [pr zr]. reflexivity.
Qed.
Lemma ticks_some L fs : forall s i, (0 <= i)%Z -> (i + Z.of_nat (length fs) <= 8192)%Z -> exists s' ys, sx_ticks L s i fs = Some (s', ys) /\ sx_rev s' = sx_rev s /\ length ys = length fs.
Proof.
  induction fs as [|ps t IH]; intros s i I N; [exists s, []; auto|]. cbn [sx_ticks length] in *. pose proof (tick_rev L (fold_left (sx_put L) ps s)) as R. rewrite put_rev in R.
  destruct (sx_tick L _) as [s1 y]. cbn [fst] in R. destruct (Z.ltb_spec i 8192); [|lia]. destruct (IH s1 (i + 1)%Z ltac:(lia) ltac:(lia)) as (s' & ys & E & Er & En). rewrite E.
  exists s', (y :: ys). split; [reflexivity|]. split; [now rewrite Er|]. cbn [length]. now f_equal.
Qed.
Lemma ticks_none L fs : forall s i, (0 <= i)%Z -> fs <> [] -> (8192 < i + Z.of_nat (length fs))%Z -> sx_ticks L s i fs = None.
Proof.
  induction fs as [|ps t IH]; intros s i I E N; [contradiction|]. cbn [sx_ticks length] in *. destruct (sx_tick L _) as [s1 y]. destruct (Z.ltb_spec i 8192) as [H|H]; [|reflexivity].
  destruct t as [|q t]; [cbn [length] in N; lia|]. rewrite IH; [reflexivity|lia|discriminate|cbn [length] in *; lia].
Qed.
Lemma block_inv L s fs s' ys : sx_block L s fs = Some (s', ys) ->
  exists s1 dry wet, sx_ticks L s 0 fs = Some (s1, dry) /\ sx_rev s1 = sx_rev s /\ length dry = length fs /\ fv_process L (sx_rev s) dry = Some (sx_rev s', wet) /\ length wet = length dry /\
    s' = sx_setrev s1 (sx_rev s') /\ ys = sx_blends dry wet.
Proof.
  unfold sx_block. intros E. destruct (Z.leb_spec (Z.of_nat (length fs)) 8192) as [N|N].
  - destruct (ticks_some L fs s 0 ltac:(lia) ltac:(lia)) as (s1 & dry & E1 & R1 & N1). rewrite E1, R1 in E. destruct (fv_process L (sx_rev s) dry) as [[g wet]|] eqn:E2; [|discriminate]. injection E as <- <-.
    exists s1, dry, wet. split; [exact E1|]. split; [exact R1|]. split; [exact N1|]. split; [exact E2|]. split; [now apply process_len in E2|]. auto.
  - rewrite ticks_none in E; [discriminate|lia|intros ->; cbn in N; lia|lia].
Qed.

(** ** What reaches the reverb *)
Lemma rev_start L sr f g : sx_reverb sr f = Some g -> fv_run L (FvInit sr :: room_set) f = Some (g, []).
Proof.
  unfold sx_reverb. intros E. cbn [fv_run fv_op room_set]. destruct (fv_init sr f) as [k|]; [|discriminate]. injection E as <-. reflexivity.
Qed.
Lemma fv_app L a : forall f b, fv_run L (a ++ b) f = match fv_run L a f with Some (g, x) => match fv_run L b g with Some (h, y) => Some (h, x ++ y) | None => None end | None => None end.
Proof.
  induction a as [|o t IH]; intros f b; cbn [app fv_run]; [destruct (fv_run L b f) as [[h y]|]; reflexivity|]. destruct (fv_op L o f) as [[g x]|]; [|reflexivity]. rewrite IH.
  destruct (fv_run L t g) as [[k z]|]; [|reflexivity]. destruct (fv_run L b k) as [[h y]|]; [|reflexivity]. now rewrite app_assoc.
Qed.
Lemma blends_ok dry wet : length wet = length dry -> blended dry wet (sx_blends dry wet).
Proof.
  intros N. unfold blended, sx_blends. split; [rewrite map_length, combine_length; lia|]. split; [exact N|]. revert wet N.
  induction dry as [|d t IH]; intros [|w r] N i x z y; destruct i; cbn; try discriminate; intros A B C; [now injection A as <-; injection B as <-; injection C as <-|]. cbn [length] in N. injection N as N. exact (IH r N i x z y A B C).
Qed.
Lemma blended_app d1 w1 y1 d2 w2 y2 : blended d1 w1 y1 -> blended d2 w2 y2 -> blended (d1 ++ d2) (w1 ++ w2) (y1 ++ y2).
Proof.
  intros (A1 & B1 & C1) (A2 & B2 & C2). unfold blended. rewrite !app_length. split; [lia|]. split; [lia|]. intros i d w y. destruct (Nat.ltb_spec i (length d1)) as [H|H].
  - rewrite !nth_error_app1 by lia. apply C1.
  - rewrite !nth_error_app2 by lia. rewrite A1, B1. apply C2.
Qed.
(** [P]: any property of the dry frames kept by the part of the program before the reverb. *)
Section Chain.
  Context (L : libm) (gen : Z -> Z -> f32) (I : choir -> Prop) (P : f32 * f32 -> Prop) (G : sx_call -> Prop).
  Context (Irate : forall s n t, I s -> G (SxRate n) -> sx_rate L gen s n = Some t -> I t) (Iput : forall s p, I s -> I (sx_put L s p)) (Irev : forall s g, I s -> I (sx_setrev s g))
    (Itick : forall s, I s -> I (fst (sx_tick L s)) /\ P (snd (sx_tick L s))).
  Lemma puts_I ps : forall s, I s -> I (fold_left (sx_put L) ps s).
  Proof. induction ps as [|p t IH]; intros s H; [exact H|]. cbn [fold_left]. apply IH. now apply Iput. Qed.
  Lemma ticks_P fs : forall s i s' ys, I s -> sx_ticks L s i fs = Some (s', ys) -> I s' /\ Forall P ys.
  Proof.
    induction fs as [|ps t IH]; intros s i s' ys H E; cbn [sx_ticks] in E; [injection E as <- <-; auto|]. destruct (Itick _ (puts_I ps s H)) as [A B]. destruct (sx_tick L _) as [s1 y]. cbn [fst snd] in *.
    destruct (i <? 8192)%Z; [|discriminate]. destruct (sx_ticks L s1 (i + 1) t) as [[s2 zs]|] eqn:E2; [|discriminate]. injection E as <- <-. destruct (IH s1 _ _ _ A E2) as [C D]. auto.
  Qed.
  Lemma chain os : forall s s' ys, I s -> Forall G os -> sx_run L gen s os = Some (s', ys) ->
    I s' /\ exists dry wet, map (@length _) dry = sx_sizes os /\ fv_run L (room_calls os dry) (sx_rev s) = Some (sx_rev s', wet) /\ blended (concat dry) wet ys /\ Forall P (concat dry).
  Proof.
    induction os as [|o t IH]; intros s s' ys H HG E; cbn [sx_run] in E.
    { injection E as <- <-. split; [exact H|]. exists [], []. split; [reflexivity|]. split; [reflexivity|]. split; [apply (blends_ok [] []); reflexivity|constructor]. }
    inversion HG as [|? ? Go Gt]; subst. destruct (sx_op L gen s o) as [[s1 y1]|] eqn:E1; [|discriminate]. destruct (sx_run L gen s1 t) as [[s2 y2]|] eqn:E2; [|discriminate]. injection E as <- <-.
    destruct o as [n|p|fs]; cbn [sx_op] in E1.
    - destruct (sx_rate L gen s n) as [s0|] eqn:E0; [|discriminate]. injection E1 as <- <-. pose proof (Irate s n s0 H Go E0) as H0.
      destruct (IH s0 s2 y2 H0 Gt E2) as (H2 & dry & wet & A & B & C & D). split; [exact H2|]. exists dry, wet. split; [exact A|]. split; [|auto]. cbn [room_calls].
      change (FvInit (fofZ n) :: room_set ++ room_calls t dry) with ((FvInit (fofZ n) :: room_set) ++ room_calls t dry). rewrite fv_app.
      unfold sx_rate in E0. cbv zeta in E0. destruct (sx_reverb (fofZ n) (sx_rev s)) as [g|] eqn:Eg; [|discriminate]. injection E0 as <-. cbn [sx_rev] in B. rewrite (rev_start L _ _ _ Eg), B. reflexivity.
    - injection E1 as <- <-. destruct (IH _ s2 y2 (Iput s p H) Gt E2) as (H2 & dry & wet & A & B & C & D). split; [exact H2|]. exists dry, wet. split; [exact A|]. split; [|auto]. destruct p; exact B.
    - destruct (block_inv L s fs s1 y1 E1) as (s0 & d & w & T & R & N & F & M & S & Y). destruct (ticks_P fs s 0 s0 d H T) as [H0 Pd].
      assert (H1 : I s1) by (rewrite S; now apply Irev). destruct (IH s1 s2 y2 H1 Gt E2) as (H2 & dry & wet & A & B & C & D). split; [exact H2|]. exists (d :: dry), (w ++ wet). cbn [map sx_sizes room_calls concat].
      split; [now rewrite A, N|]. cbn [fv_run fv_op]. rewrite F, B. split; [reflexivity|]. split; [subst y1; apply blended_app; [now apply blends_ok|exact C]|now apply Forall_app].
  Qed.
End Chain.

(** ** No undefined behaviour *)
Lemma init_run L sr f r : fv_run L (FvInit sr :: room_set ++ r) f <> None -> exists g, sx_reverb sr f = Some g /\ fv_run L r g <> None.
Proof.
  intros H. destruct (sx_reverb sr f) as [g|] eqn:E.
  - exists g. split; [reflexivity|]. intros Hn. apply H. change (FvInit sr :: room_set ++ r) with ((FvInit sr :: room_set) ++ r). now rewrite fv_app, (rev_start L _ _ _ E), Hn.
  - exfalso. apply H. unfold sx_reverb in E. cbn [fv_run fv_op]. destruct (fv_init sr f); [discriminate|reflexivity].
Qed.
Definition short (o : sx_call) : Prop := match o with SxBlock fs => (Z.of_nat (length fs) <= 8192)%Z | _ => True end.
Lemma sx_defined L gen os : forall s, Forall short os -> (forall dry, map (@length _) dry = sx_sizes os -> fv_run L (room_calls os dry) (sx_rev s) <> None) -> sx_run L gen s os <> None.
Proof.
  induction os as [|o t IH]; intros s HS H; [discriminate|]. inversion HS as [|? ? Ho Ht]; subst. cbn [sx_run]. destruct o as [n|p|fs]; cbn [sx_op].
  - assert (D : exists dry : list (list (f32 * f32)), map (@length _) dry = sx_sizes t).
    { exists (map (fun k => repeat (zero, zero) k) (sx_sizes t)). rewrite map_map. rewrite <- (map_id (sx_sizes t)) at 2. apply map_ext. intros k. apply repeat_length. }
    destruct D as [d0 D0]. destruct (init_run L (fofZ n) (sx_rev s) _ (H d0 D0)) as (g & Eg & _). unfold sx_rate. cbv zeta. rewrite Eg.
    match goal with |- context [sx_run L gen ?z t] => set (s1 := z) end. assert (R1 : sx_rev s1 = g) by reflexivity. clearbody s1.
    assert (X : sx_run L gen s1 t <> None). { apply IH; [exact Ht|]. intros dry Hd. rewrite R1. destruct (init_run L (fofZ n) (sx_rev s) _ (H dry Hd)) as (g2 & Eg2 & Q). rewrite Eg in Eg2. injection Eg2 as <-. exact Q. }
    destruct (sx_run L gen s1 t) as [[a b]|]; [discriminate|congruence].
  - assert (R1 : sx_rev (sx_put L s p) = sx_rev s) by (destruct p; reflexivity). assert (X : sx_run L gen (sx_put L s p) t <> None) by (apply IH; [exact Ht|]; now rewrite R1). destruct (sx_run L gen _ t) as [[a b]|]; [discriminate|congruence].
  - unfold sx_block. destruct (ticks_some L fs s 0 ltac:(lia) Ho) as (s1 & d & E1 & R1 & N1). rewrite E1, R1.
    assert (Q : forall dry, map (@length _) dry = sx_sizes t -> fv_run L (FvProc d :: room_calls t dry) (sx_rev s) <> None) by (intros dry Hd; apply (H (d :: dry)); cbn [map sx_sizes]; congruence).
    cbn [fv_run fv_op] in Q. destruct (fv_process L (sx_rev s) d) as [[g w]|].
    + assert (X : sx_run L gen (sx_setrev s1 g) t <> None). { apply IH; [exact Ht|]. intros dry Hd Hn. apply (Q dry Hd). cbn [sx_setrev sx_rev] in Hn. now rewrite Hn. } destruct (sx_run L gen _ t) as [[a b]|]; [discriminate|congruence].
    + exfalso. apply (Q (map (fun k => repeat (zero, zero) k) (sx_sizes t))); [|reflexivity]. rewrite map_map. rewrite <- (map_id (sx_sizes t)) at 2. apply map_ext. intros k. apply repeat_length.
Qed.
Lemma set_good : Forall op_good room_set. Proof. repeat constructor. Qed.
Lemma rate_good (n : Z) : (45 <= n <= 2 ^ 24)%Z -> op_good (FvInit (fofZ n)).
Proof.
  intros H. destruct (fofZ_R (prec:=24) (emax:=128) n ltac:(lia)) as [F E]. cbn [op_good]. rewrite E. split; [exact F|]. split; [apply IZR_le; lia|]. apply (IZR_lt n 2147483648). lia.
Qed.
Lemma calls_good os : Forall sx_plain os -> forall dry, Forall op_good (room_calls os dry).
Proof.
  induction 1 as [|o t O T IH]; intros dry; [constructor|]. destruct o as [n|p|fs]; cbn [room_calls].
  - constructor; [now apply rate_good|]. apply Forall_app. split; [apply set_good|apply IH].
  - apply IH.
  - destruct dry as [|d r]; [constructor|]. constructor; [exact Logic.I|apply IH].
Qed.
Lemma calls_last os : Forall sx_plain os -> forall n dry, sx_lasts n os -> map (@length _) dry = sx_sizes os -> lasts true n (room_calls os dry).
Proof.
  induction 1 as [|o t O T IH]; intros n dry H E; [exact Logic.I|]. destruct o as [r|p|fs]; cbn [room_calls sx_lasts sx_sizes] in *.
  - cbn [lasts room_set app]. now apply IH.
  - now apply IH.
  - destruct dry as [|d q]; [discriminate|]. cbn [map] in E. injection E as E1 E2. cbn [lasts]. rewrite E1. destruct H as [H1 H2]. split; [exact H1|now apply IH].
Qed.
Lemma calls_open os : Forall sx_plain os -> forall b dry, map (@length _) dry = sx_sizes os -> opens true b (room_calls os dry).
Proof.
  induction 1 as [|o t O T IH]; intros b dry E; [exact Logic.I|]. destruct o as [r|p|fs]; cbn [room_calls sx_sizes] in *.
  - cbn [opens room_set app]. now apply IH.
  - now apply IH.
  - destruct dry as [|d q]; [discriminate|]. cbn [map] in E. injection E as E1 E2. cbn [opens]. split; [|now apply IH]. right. intros ->. cbn [length] in E1. cbn [sx_plain] in O. rewrite <- E1 in O. cbn in O. lia.
Qed.
Lemma start_inv L gen sr s : sx_start L gen sr = Some s -> sx_reverb (fofZ sr) fv_new = Some (sx_rev s).
Proof. unfold sx_start. cbv zeta. destruct (sx_reverb (fofZ sr) fv_new) as [g|]; [|discriminate]. intros E. injection E as <-. reflexivity. Qed.
Lemma session_defined L gen sr os : sin_unit L -> (45 <= sr <= 2 ^ 24)%Z -> Forall sx_plain os -> sx_lasts 0 os -> exists s ys, sx_session L gen sr os = Some (s, ys).
Proof.
  intros HS Hr HP HL. assert (A : forall dry, map (@length _) dry = sx_sizes os -> fv_run L (FvInit (fofZ sr) :: room_set ++ room_calls os dry) fv_new <> None).
  { intros dry Hd. destruct (run_defined L (FvInit (fofZ sr) :: room_set ++ room_calls os dry) HS) as (f & ys & E); [| | |now rewrite E].
    - constructor; [now apply rate_good|]. apply Forall_app. split; [apply set_good|now apply calls_good].
    - cbn [lasts room_set app]. now apply calls_last.
    - cbn [opens room_set app]. now apply calls_open. }
  assert (D : map (@length _) (map (fun k => repeat (zero, zero) k : list (f32 * f32)) (sx_sizes os)) = sx_sizes os).
  { rewrite map_map. rewrite <- (map_id (sx_sizes os)) at 2. apply map_ext. intros k. apply repeat_length. }
  destruct (init_run L _ _ _ (A _ D)) as (g & Eg & _). unfold sx_session, sx_start. cbv zeta. rewrite Eg.
  match goal with |- context [sx_run L gen ?z os] => set (s1 := z) end. assert (R1 : sx_rev s1 = g) by reflexivity. clearbody s1.
  assert (X : sx_run L gen s1 os <> None).
  { apply sx_defined; [eapply Forall_impl; [|exact HP]; intros [n|p|fs]; cbn; lia|]. intros dry Hd. rewrite R1. destruct (init_run L _ _ _ (A dry Hd)) as (g2 & Eg2 & Q). rewrite Eg in Eg2. injection Eg2 as <-. exact Q. }
  destruct (sx_run L gen s1 os) as [[a b]|]; [now exists a, b|congruence].
Qed.
(** A block longer than the buffers. *)
Lemma run_app L gen a : forall s b, sx_run L gen s (a ++ b) = match sx_run L gen s a with Some (s1, x) => match sx_run L gen s1 b with Some (s2, y) => Some (s2, x ++ y) | None => None end | None => None end.
Proof.
  induction a as [|o t IH]; intros s b; cbn [app sx_run]; [destruct (sx_run L gen s b) as [[h y]|]; reflexivity|]. destruct (sx_op L gen s o) as [[g x]|]; [|reflexivity]. rewrite IH.
  destruct (sx_run L gen g t) as [[k z]|]; [|reflexivity]. destruct (sx_run L gen k b) as [[h y]|]; [|reflexivity]. now rewrite app_assoc.
Qed.
Lemma long_block L gen sr os fs t : (8192 < Z.of_nat (length fs))%Z -> sx_session L gen sr (os ++ SxBlock fs :: t) = None.
Proof.
  intros H. unfold sx_session. destruct (sx_start L gen sr) as [s|]; [|reflexivity]. rewrite run_app. destruct (sx_run L gen s os) as [[s1 x]|]; [|reflexivity]. cbn [sx_run sx_op]. unfold sx_block.
  rewrite ticks_none; [reflexivity|lia| |lia]. intros ->. cbn in H. lia.
Qed.
Lemma plays_chain L gen sr os s ys : sx_session L gen sr os = Some (s, ys) ->
  exists dry wet, map (@length _) dry = sx_sizes os /\ fv_run L (FvInit (fofZ sr) :: room_set ++ room_calls os dry) fv_new = Some (sx_rev s, wet) /\ blended (concat dry) wet ys.
Proof.
  unfold sx_session. destruct (sx_start L gen sr) as [s0|] eqn:E0; [|discriminate]. intros E.
  destruct (chain L gen (fun _ => True) (fun _ => True) (fun _ => True) ltac:(auto) ltac:(auto) ltac:(auto) ltac:(auto) os s0 s ys Logic.I (proj2 (Forall_forall _ _) (fun _ _ => Logic.I)) E) as (_ & dry & wet & A & B & C & _).
  exists dry, wet. split; [exact A|]. split; [|exact C]. change (FvInit (fofZ sr) :: room_set ++ room_calls os dry) with ((FvInit (fofZ sr) :: room_set) ++ room_calls os dry).
  rewrite fv_app, (rev_start L _ _ _ (start_inv _ _ _ _ E0)), B. reflexivity.
Qed.
(** Where it is undefined. *)
Lemma empty_first L gen sr os t : Forall (fun o => match o with SxBlock (_ :: _) => False | _ => True end) os -> sx_session L gen sr (os ++ SxBlock [] :: t) = None.
Proof.
  intros H. destruct (sx_session L gen sr _) as [[s ys]|] eqn:E; [exfalso|reflexivity]. destruct (plays_chain L gen sr _ s ys E) as (dry & wet & A & B & _).
  destruct (run_needs L _ _ _ _ _ _ _ frel_new B) as [_ O]. clear - H A O. change (opens false false (FvInit (fofZ sr) :: room_set ++ room_calls (os ++ SxBlock [] :: t) dry)) with (opens true false (room_calls (os ++ SxBlock [] :: t) dry)) in O.
  revert dry A O. induction H as [|o os Ho Hs IH]; intros dry A O; cbn [app room_calls sx_sizes] in *.
  - destruct dry as [|d r]; [discriminate|]. cbn [map] in A. injection A as A _. destruct d; [|discriminate]. cbn [opens] in O. destruct O as [[O|O] _]; [discriminate|contradiction].
  - destruct o as [n|p|[|f fs]]; [| | |destruct Ho].
    + change (opens true false (FvInit (fofZ n) :: room_set ++ room_calls (os ++ SxBlock [] :: t) dry)) with (opens true false (room_calls (os ++ SxBlock [] :: t) dry)) in O. now apply (IH dry).
    + now apply (IH dry).
    + destruct dry as [|d r]; [discriminate|]. cbn [map] in A. injection A as A _. destruct d; [|discriminate]. cbn [opens] in O. destruct O as [[O|O] _]; [discriminate|contradiction].
Qed.
Definition played (os : list sx_call) : Z := fold_right (fun o n => match o with SxBlock fs => (Z.of_nat (length fs) + n)%Z | _ => n end) 0%Z os.
Lemma endurance L gen sr os : Forall (fun o => match o with SxRate _ => False | _ => True end) os -> (2 ^ 31 <= played os)%Z -> sx_session L gen sr os = None.
Proof.
  intros H N. destruct (sx_session L gen sr _) as [[s ys]|] eqn:E; [exfalso|reflexivity]. destruct (plays_chain L gen sr _ s ys E) as (dry & wet & A & B & _).
  destruct (run_needs L _ _ _ _ _ _ _ frel_new B) as [O _]. clear - H A O N. change (lasts false 0 (FvInit (fofZ sr) :: room_set ++ room_calls os dry)) with (lasts true 0 (room_calls os dry)) in O.
  assert (X : forall n dry, (0 <= n < 2 ^ 31)%Z -> map (@length _) dry = sx_sizes os -> lasts true n (room_calls os dry) -> (n + played os < 2 ^ 31)%Z).
  { clear - H. induction H as [|o os Ho Hs IH]; intros n dry N A O; cbn [played fold_right]; [lia|]. destruct o as [r|p|fs]; [destruct Ho| |]; cbn [room_calls sx_sizes] in *.
    - exact (IH n dry N A O).
    - destruct dry as [|d q]; [discriminate|]. cbn [map] in A. injection A as A1 A2. cbn [lasts] in O. destruct O as [O1 O2]. rewrite A1 in *. specialize (IH (n + Z.of_nat (length fs))%Z q ltac:(lia) A2 O2). fold (played os). lia. }
  specialize (X 0%Z dry ltac:(lia) A O). lia.
Qed.
