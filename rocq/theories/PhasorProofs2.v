(** Phasor: call sequences, exactness on a grid, trigger, drift. *)
From Coq Require Import ZArith Reals Bool List Lra Lia Psatz.
From Flocq Require Import Core BinarySingleNaN.
From Verif Require Import Flt FltFacts FltMore FltKey FltArith UtilModel UtilProofs OscSpec OscProofs OscProofs2 SmoothProofs3 LineModel LineSpec PhasorProofs.
Import ListNotations.
Local Open Scope R_scope.

(** ** Every call sequence *)
Definition ph_inv (p : phasor) : Prop := ph_par (ph_rate p) /\ ph_par (ph_start p) /\ ph_par (ph_end p) /\ ph_par (ph_pos p) /\ big (ph_value p).
Lemma par_big x : ph_par x -> big x.
Proof. intros [F B]. split; [exact F|]. eapply Rle_trans; [exact B|apply bpow_le; lia]. Qed.
Lemma par_01 : ph_par zero /\ ph_par one.
Proof. split; (split; [reflexivity|]). - rewrite zero_R, Rabs_R0. apply bpow_ge_0. - rewrite one_R, Rabs_pos_eq by lra. apply (bpow_le radix2 0 100); lia. Qed.
Lemma slop_big a b : ph_par a -> ph_par b -> bpow radix2 (-22) * (Rabs (B2R a) + Rabs (B2R b)) + bpow radix2 (-148) <= bpow radix2 100.
Proof.
  intros [_ A] [_ B]. assert (bpow radix2 (-22) * (Rabs (B2R a) + Rabs (B2R b)) <= bpow radix2 (-22) * bpow radix2 101).
  { apply Rmult_le_compat_l; [apply bpow_ge_0|]. change 101%Z with (100 + 1)%Z. rewrite bp2. lra. }
  rewrite <- bpow_plus in H. pose proof (bpow_le radix2 (-148) 79 ltac:(lia)). pose proof (bpow_le radix2 (79 + 1) 100 ltac:(lia)) as K. rewrite bp2 in K. change (-22 + 101)%Z with 79%Z in H. lra.
Qed.
Lemma wrap_big s e v : ph_par s -> ph_par e -> big v -> big (ph_wrap s e v).
Proof.
  intros Ps Pe Bv. pose proof (slop_big _ _ Ps Pe) as SB. pose proof (bpow_le radix2 (100 + 1) 125 ltac:(lia)) as K. rewrite bp2 in K.
  pose proof (proj2 Ps) as A. pose proof (proj2 Pe) as B. apply Rabs_le_inv in A, B.
  destruct (Rtotal_order (B2R s) (B2R e)) as [H|[H|H]].
  - destruct (wrap_fwd s e v Ps Pe Bv H) as (F & X & _). split; [exact F|]. apply Rabs_le. unfold slop in X. lra.
  - rewrite (wrap_same s e v (proj1 Ps) (proj1 Pe) H). exact Bv.
  - destruct (wrap_bwd s e v Ps Pe Bv H) as (F & X & _). split; [exact F|]. apply Rabs_le. unfold slop in X. lra.
Qed.
Lemma ph_tick_inv p : ph_inv p -> ph_inv (fst (ph_tick p)).
Proof.
  intros (A & B & C & D & E). unfold ph_tick. cbn [fst]. unfold ph_inv, ph_at. cbn [ph_rate ph_start ph_end ph_pos ph_value].
  repeat (split; [assumption|]). apply big_adv; [|exact A]. now apply wrap_big.
Qed.
Lemma ph_trig_inv p t : ph_inv p -> ph_inv (fst (ph_tickTrig p t)).
Proof.
  intros (A & B & C & D & E). apply ph_tick_inv. unfold ph_inv. cbn [ph_rate ph_start ph_end ph_pos ph_value].
  repeat (split; [assumption|]). destruct (fle (ph_trig p) zero && flt zero t); [now apply par_big|exact E].
Qed.
Lemma ph_op_inv p o : ph_inv p -> ph_ok o -> ph_inv (fst (ph_op p o)).
Proof.
  intros I O. pose proof I as (A & B & C & D & E). destruct o; cbn [ph_op ph_ok] in *.
  - pose proof (ph_tick_inv p I) as T. destruct (ph_tick p). exact T.
  - pose proof (ph_trig_inv p t I) as T. destruct (ph_tickTrig p t). exact T.
  - destruct O as (O1 & O2 & O3 & O4). unfold ph_inv. cbn. repeat (split; [assumption|]). now apply par_big.
  - unfold ph_inv; cbn; auto.
  - unfold ph_inv; cbn; auto.
  - unfold ph_inv; cbn; auto.
  - unfold ph_inv; cbn; auto.
  - unfold ph_inv; cbn. repeat (split; [assumption|]). now apply par_big.
  - unfold ph_inv; cbn. repeat (split; [assumption|]). now apply par_big.
Qed.
Lemma ph_run_inv sr l : Forall ph_ok l -> ph_inv (fst (run ph_op (ph_init sr) l)).
Proof.
  intros H. destruct (run_inv ph_op ph_inv ph_ok (fun _ => True)) with (l := l) (s := ph_init sr) as [I _]; auto.
  - intros s o. apply ph_op_inv.
  - destruct par_01 as [Z O]. unfold ph_inv, ph_init. cbn [ph_rate ph_start ph_end ph_pos ph_value]. repeat (split; [assumption|]). now apply par_big.
Qed.

(** Documented use: range [0,end), non-negative rate. *)
Definition up_inv (e : f32) (p : phasor) : Prop :=
  ph_start p = zero /\ ph_end p = e /\ ph_par e /\ 0 < B2R e /\ ph_par (ph_rate p) /\ 0 <= B2R (ph_rate p) /\
  ph_par (ph_pos p) /\ 0 <= B2R (ph_pos p) /\ big (ph_value p) /\ 0 <= B2R (ph_value p).
Lemma up_tick e p : up_inv e p -> up_inv e (fst (ph_tick p)) /\ fin (snd (ph_tick p)) /\ 0 <= B2R (snd (ph_tick p)) < B2R e.
Proof.
  intros (A & B & C & D & E & F & G & H & I & J). unfold ph_tick. cbn [fst snd]. rewrite A, B.
  destruct par_01 as [P0 _].
  destruct (wrap_fwd zero e (ph_value p) P0 C I ltac:(rewrite zero_R; exact D)) as (W1 & W2 & _ & _ & W5). rewrite zero_R in *.
  specialize (W5 eq_refl J). pose proof (wrap_big zero e (ph_value p) P0 C I) as WB. set (y := ph_wrap zero e (ph_value p)) in *.
  pose proof (big_adv y (ph_rate p) WB E) as BA. split; [|split; [exact W1|lra]].
  unfold up_inv, ph_at. cbn [ph_rate ph_start ph_end ph_pos ph_value]. do 8 (split; [assumption|]). split; [exact BA|].
  destruct (fadd_b 0 (bpow radix2 126) y (ph_rate p)) as (_ & _ & R); try assumption; [apply dy0|apply bdy; lia|apply E| |apply R].
  destruct WB as [_ WB]. destruct E as [_ E]. apply Rabs_le_inv in WB, E. change 126%Z with (125 + 1)%Z. rewrite bp2. pose proof (bpow_le radix2 100 125 ltac:(lia)). lra.
Qed.
Lemma up_trig e p t : up_inv e p -> up_inv e (fst (ph_tickTrig p t)) /\ fin (snd (ph_tickTrig p t)) /\ 0 <= B2R (snd (ph_tickTrig p t)) < B2R e.
Proof.
  intros (A & B & C & D & E & F & G & H & I & J). apply up_tick. unfold up_inv. cbn [ph_rate ph_start ph_end ph_pos ph_value].
  do 8 (split; [assumption|]). destruct (fle (ph_trig p) zero && flt zero t); [split; [now apply par_big|exact H]|split; assumption].
Qed.
Lemma up_op e p o : up_inv e p -> up_ok o -> up_inv e (fst (ph_op p o)) /\ forall x, snd (ph_op p o) = Some x -> fin x /\ 0 <= B2R x < B2R e.
Proof.
  intros U O. pose proof U as (A & B & C & D & E & F & G & H & I & J). destruct o; cbn [ph_op up_ok] in *; try contradiction.
  - pose proof (up_tick e p U) as [T1 T2]. destruct (ph_tick p). cbn [fst snd] in *. split; [exact T1|]. intros x X. injection X as <-. exact T2.
  - pose proof (up_trig e p t U) as [T1 T2]. destruct (ph_tickTrig p t). cbn [fst snd] in *. split; [exact T1|]. intros x X. injection X as <-. exact T2.
  - split; [|discriminate]. unfold up_inv. cbn. tauto.
  - split; [|discriminate]. unfold up_inv. cbn. tauto.
  - split; [|discriminate]. unfold up_inv. cbn [fst ph_reset ph_resetTo ph_rate ph_start ph_end ph_pos ph_value]. rewrite A, zero_R. destruct par_01 as [Z _]. apply par_big in Z. intuition lra.
  - split; [|discriminate]. unfold up_inv. cbn. destruct O as [O1 O2]. pose proof (par_big x O1). tauto.
Qed.
Lemma up_run e rate pos p l : ph_par e -> 0 < B2R e -> ph_par rate -> 0 <= B2R rate -> ph_par pos -> 0 <= B2R pos -> Forall up_ok l ->
  forall x, In (Some x) (snd (run ph_op (ph_set p rate zero e pos) l)) -> fin x /\ 0 <= B2R x < B2R e.
Proof.
  intros A B C D E F H. apply (run_inv ph_op (up_inv e) up_ok (fun x => fin x /\ 0 <= B2R x < B2R e)); auto.
  - intros s o I O. now apply up_op.
  - intros s o x I O X. now apply (up_op e s o).
  - unfold up_inv, ph_set. cbn [ph_rate ph_start ph_end ph_pos ph_value]. destruct par_01 as [Z _]. pose proof (par_big _ Z). rewrite zero_R. intuition lra.
Qed.

(** ** Exact on a grid *)
Lemma dyz n e : (Z.abs n < 2 ^ 24)%Z -> (-149 <= e <= 104)%Z -> dy32 (IZR n * bpow radix2 e).
Proof.
  intros Hn He. split; [apply dy_F2R; [exact Hn|cbn; lia]|].
  rewrite Rabs_mult, (Rabs_pos_eq (bpow _ _)) by apply bpow_ge_0. rewrite <- abs_IZR.
  apply Rlt_le_trans with (bpow radix2 24 * bpow radix2 e).
  - apply Rmult_lt_compat_r; [apply bpow_gt_0|]. change (bpow radix2 24) with (IZR (2 ^ 24)). now apply IZR_lt.
  - rewrite <- bpow_plus. apply bpow_le. lia.
Qed.
Section Grid.
  Variable e : Z.
  Hypothesis He : (-149 <= e <= 104)%Z.
  Lemma q_add x y n m : isq e x n -> isq e y m -> (Z.abs (n + m) < 2 ^ 24)%Z -> isq e (fadd x y) (n + m).
  Proof.
    intros [Fx Ex] [Fy Ey] H. assert (E : B2R x + B2R y = IZR (n + m) * bpow radix2 e) by (rewrite Ex, Ey, plus_IZR; ring).
    destruct (fadd_exact x y Fx Fy) as [A B]; [rewrite E; now apply dyz|]. split; [exact A|]. now rewrite B.
  Qed.
  Lemma q_sub x y n m : isq e x n -> isq e y m -> (Z.abs (n - m) < 2 ^ 24)%Z -> isq e (fsub x y) (n - m).
  Proof.
    intros [Fx Ex] [Fy Ey] H. assert (E : B2R x - B2R y = IZR (n - m) * bpow radix2 e) by (rewrite Ex, Ey, minus_IZR; ring).
    destruct (fsub_exact x y Fx Fy) as [A B]; [rewrite E; now apply dyz|]. split; [exact A|]. now rewrite B.
  Qed.
  Lemma q_neg x n : isq e x n -> isq e (fneg x) (- n).
  Proof. intros [F E]. split; [now apply fneg_fin|]. rewrite fneg_R, E, opp_IZR. ring. Qed.
  Lemma q_0 : isq e zero 0. Proof. split; [reflexivity|]. rewrite zero_R. ring. Qed.
  Lemma q_lt x y n m : isq e x n -> isq e y m -> flt x y = (n <? m)%Z.
  Proof.
    intros [Fx Ex] [Fy Ey]. pose proof (bpow_gt_0 radix2 e) as P. destruct (Z.ltb_spec n m) as [K|K].
    - apply flt_R; auto. rewrite Ex, Ey. apply Rmult_lt_compat_r; [exact P|now apply IZR_lt].
    - apply flt_R_false; auto. rewrite Ex, Ey. apply Rmult_le_compat_r; [now left|now apply IZR_le].
  Qed.
  Lemma q_le x y n m : isq e x n -> isq e y m -> fle x y = (n <=? m)%Z.
  Proof.
    intros [Fx Ex] [Fy Ey]. pose proof (bpow_gt_0 radix2 e) as P. destruct (Z.leb_spec n m) as [K|K].
    - apply fle_R; auto. rewrite Ex, Ey. apply Rmult_le_compat_r; [now left|now apply IZR_le].
    - apply fle_R_false; auto. rewrite Ex, Ey. apply Rmult_lt_compat_r; [exact P|now apply IZR_lt].
  Qed.
  Lemma q_mod x y n m : isq e x n -> isq e y m -> (0 < m)%Z -> exists k r, (r = n - m * k)%Z /\ (Z.abs r < m)%Z /\ isq e (ffmod x y) r.
  Proof.
    intros [Fx Ex] [Fy Ey] M. pose proof (bpow_gt_0 radix2 e) as P. assert (M' : 0 < IZR m) by now apply IZR_lt.
    assert (Y : 0 < B2R y) by (rewrite Ey; now apply Rmult_lt_0_compat).
    destruct (ffmod_R x y Fx Fy ltac:(lra)) as [F E]. destruct (ffmod_bound x y Fx Fy ltac:(lra)) as (B & _ & _).
    set (k := Ztrunc (B2R x / B2R y)) in *. assert (E2 : B2R (ffmod x y) = IZR (n - m * k) * bpow radix2 e).
    { rewrite E, minus_IZR, mult_IZR, Ex, Ey. ring. }
    exists k, (n - m * k)%Z. split; [reflexivity|]. split; [|split; assumption].
    rewrite E2, Rabs_mult, (Rabs_pos_eq (bpow _ _)), Ey, Rabs_mult, (Rabs_pos_eq (bpow _ _)), <- !abs_IZR in B by now left.
    apply Rmult_lt_reg_r in B; [|exact P]. apply lt_IZR in B. lia.
  Qed.
  Lemma q_wrap s en v a b n : isq e s a -> isq e en b -> isq e v n -> (Z.abs a <= 2 ^ 22)%Z -> (Z.abs b <= 2 ^ 22)%Z -> (Z.abs n <= 2 ^ 23)%Z ->
    isq e (ph_wrap s en v) (zwrap a b n).
  Proof.
    intros Qs Qe Qv Ba Bb Bn. change (2 ^ 22)%Z with 4194304%Z in *. change (2 ^ 23)%Z with 8388608%Z in *.
    assert (Q24 : (2 ^ 24 = 16777216)%Z) by reflexivity.
    pose proof (q_sub en s b a Qe Qs ltac:(lia)) as Qr. pose proof q_0 as Q0. unfold ph_wrap, zwrap.
    rewrite (q_lt _ _ _ _ Q0 Qr), (q_lt _ _ _ _ Qr Q0). destruct (Z.ltb_spec a b) as [K|K].
    - replace (0 <? b - a)%Z with true by (symmetry; apply Z.ltb_lt; lia).
      rewrite (q_le _ _ _ _ Qe Qv), (q_lt _ _ _ _ Qv Qs).
      destruct ((b <=? n)%Z || (n <? a)%Z) eqn:C.
      + pose proof (q_sub v s n a Qv Qs ltac:(lia)) as Qw. destruct (q_mod _ _ _ _ Qw Qr ltac:(lia)) as (k & r & Er & Br & Qm).
        rewrite (q_lt _ _ _ _ Qm Q0). destruct (Z.ltb_spec r 0) as [N|N].
        * pose proof (q_add _ _ _ _ Qm Qr ltac:(lia)) as Qp. pose proof (q_add _ _ _ _ Qp Qs ltac:(lia)) as Qz.
          replace (a + (n - a) mod (b - a))%Z with (r + (b - a) + a)%Z; [exact Qz|].
          rewrite <- (Z.mod_unique_pos (n - a) (b - a) (k - 1) (r + (b - a))); lia.
        * pose proof (q_add _ _ _ _ Qm Qs ltac:(lia)) as Qz.
          replace (a + (n - a) mod (b - a))%Z with (r + a)%Z; [exact Qz|].
          rewrite <- (Z.mod_unique_pos (n - a) (b - a) k r); lia.
      + apply orb_false_iff in C. rewrite Z.leb_gt, Z.ltb_ge in C. rewrite Z.mod_small by lia. replace (a + (n - a))%Z with n by lia. exact Qv.
    - replace (0 <? b - a)%Z with false by (symmetry; apply Z.ltb_ge; lia).
      destruct (Z.ltb_spec b a) as [K2|K2].
      + replace (b - a <? 0)%Z with true by (symmetry; apply Z.ltb_lt; lia).
        rewrite (q_le _ _ _ _ Qv Qe), (q_lt _ _ _ _ Qs Qv). pose proof (q_neg _ _ Qr) as Qn.
        destruct ((n <=? b)%Z || (a <? n)%Z) eqn:C.
        * pose proof (q_sub v en n b Qv Qe ltac:(lia)) as Qw. destruct (q_mod _ _ _ _ Qw Qn ltac:(lia)) as (k & r & Er & Br & Qm).
          rewrite (q_le _ _ _ _ Qm Q0). destruct (Z.leb_spec r 0) as [N|N].
          -- pose proof (q_add _ _ _ _ Qm Qn ltac:(lia)) as Qp. pose proof (q_add _ _ _ _ Qe Qp ltac:(lia)) as Qz.
             replace (a - (a - n) mod (a - b))%Z with (b + (r + - (b - a)))%Z; [exact Qz|].
             rewrite <- (Z.mod_unique_pos (a - n) (a - b) (1 - k) (- r)); lia.
          -- pose proof (q_add _ _ _ _ Qe Qm ltac:(lia)) as Qz.
             replace (a - (a - n) mod (a - b))%Z with (b + r)%Z; [exact Qz|].
             rewrite <- (Z.mod_unique_pos (a - n) (a - b) (- k) (a - b - r)); lia.
        * apply orb_false_iff in C. rewrite Z.leb_gt, Z.ltb_ge in C. rewrite Z.mod_small by lia. replace (a - (a - n))%Z with n by lia. exact Qv.
      + replace (b - a <? 0)%Z with false by (symmetry; apply Z.ltb_ge; lia). exact Qv.
  Qed.
End Grid.
Lemma zwrap_bnd a b v : a <> b -> (Z.min a b <= zwrap a b v <= Z.max a b)%Z.
Proof.
  intros H. unfold zwrap. destruct (Z.ltb_spec a b) as [K|K]; [pose proof (Z.mod_pos_bound (v - a) (b - a) ltac:(lia)); lia|].
  destruct (Z.ltb_spec b a); [|lia]. pose proof (Z.mod_pos_bound (a - v) (a - b) ltac:(lia)). lia.
Qed.
Lemma zwrap_add a b v r : zwrap a b (zwrap a b v + r) = zwrap a b (v + r).
Proof.
  unfold zwrap. destruct (Z.ltb_spec a b) as [K|K].
  - f_equal. replace (a + (v - a) mod (b - a) + r - a)%Z with ((v - a) mod (b - a) + r)%Z by lia. rewrite Zplus_mod_idemp_l. f_equal. lia.
  - destruct (Z.ltb_spec b a); [|reflexivity]. f_equal.
    replace (a - (a - (a - v) mod (a - b) + r))%Z with ((a - v) mod (a - b) + - r)%Z by lia. rewrite Zplus_mod_idemp_l. f_equal. lia.
Qed.
(** [i] ticks on a grid. *)
Lemma grid_run e a b r n p i : (-149 <= e <= 104)%Z -> a <> b -> (Z.abs a <= 2 ^ 22)%Z -> (Z.abs b <= 2 ^ 22)%Z -> (Z.abs r <= 2 ^ 22)%Z -> (Z.abs n <= 2 ^ 23)%Z ->
  isq e (ph_start p) a -> isq e (ph_end p) b -> isq e (ph_rate p) r -> isq e (ph_value p) n ->
  isq e (nth_sample ph_tick i p) (zwrap a b (n + Z.of_nat i * r)).
Proof.
  intros He Hab Ba Bb Br Bn Qs Qe Qr Qv.
  assert (I : let q := after ph_tick i p in ph_start q = ph_start p /\ ph_end q = ph_end p /\ ph_rate q = ph_rate p /\
             exists m, isq e (ph_value q) m /\ (Z.abs m <= 2 ^ 23)%Z /\ zwrap a b m = zwrap a b (n + Z.of_nat i * r)).
  { induction i as [|i IH].
    - cbn zeta. repeat (split; [reflexivity|]). exists n. split; [exact Qv|]. split; [exact Bn|]. f_equal. lia.
    - cbn zeta in *. rewrite after_S. set (q := after ph_tick i p) in *. destruct IH as (S1 & S2 & S3 & m & Qm & Bm & Em).
      unfold ph_tick. cbn [fst]. cbn [ph_at ph_start ph_end ph_rate ph_value]. repeat (split; [assumption|]).
      rewrite S1, S2, S3. pose proof (q_wrap e He _ _ _ _ _ _ Qs Qe Qm Ba Bb Bm) as W. pose proof (zwrap_bnd a b m Hab) as Z1.
      exists (zwrap a b m + r)%Z. split; [|split].
      + apply (q_add e He _ _ _ _ W Qr). change (2 ^ 24)%Z with 16777216%Z. change (2 ^ 22)%Z with 4194304%Z in *. lia.
      + change (2 ^ 23)%Z with 8388608%Z. change (2 ^ 22)%Z with 4194304%Z in *. lia.
      + rewrite Em, zwrap_add. f_equal. lia. }
  cbn zeta in I. unfold nth_sample, ph_tick at 1. cbn [snd]. destruct I as (S1 & S2 & S3 & m & Qm & Bm & Em).
  rewrite S1, S2, <- Em. now apply q_wrap.
Qed.
