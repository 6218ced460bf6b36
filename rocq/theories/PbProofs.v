(** Playback example: loading a file. *)
From Coq Require Import ZArith Bool List Lia ZifyBool.
From Verif Require Import Flt AllocModel AllocSpec AllocProofs AllocProofs2 AllocProofs3 UtilModel RdModel RdSpec PbModel.
Import ListNotations.
Local Open Scope Z_scope.

(** What libsndfile can announce. *)
Definition file_ok (f : sfile) : Prop := 0 <= sf_frames f < 2 ^ 63 /\ 1 <= sf_ch f.

Lemma store_ok P item base : forall todo m i, 0 <= base + i -> base + i + Z.of_nat todo <= P ->
  exists m', sf_store P m base item i todo = Some m' /\ forall k, m' k = if (base + i <=? k) && (k <? base + i + Z.of_nat todo) then item (k - base) else m k.
Proof.
  induction todo as [|t IH]; intros m i A B; cbn [sf_store].
  - exists m. split; [reflexivity|]. intros k. destruct (_ && _) eqn:E; [lia|reflexivity].
  - unfold pset. destruct ((0 <=? base + i) && (base + i <? P)) eqn:E; [|lia]. cbn [AllocModel.bind].
    destruct (IH (fun k => if k =? base + i then item i else m k) (i + 1)) as (m' & H1 & H2); [lia|lia|].
    exists m'. split; [exact H1|]. intros k. rewrite H2.
    destruct ((base + (i + 1) <=? k) && (k <? base + (i + 1) + Z.of_nat t)) eqn:E1; destruct ((base + i <=? k) && (k <? base + i + Z.of_nat (S t))) eqn:E2; try lia; try reflexivity.
    + destruct (k =? base + i) eqn:E3; [|lia]. f_equal. lia.
    + destruct (k =? base + i) eqn:E3; [lia|]. reflexivity.
Qed.
Lemma pget_in P m x : 0 <= x < P -> pget P m x = Some (m x).
Proof. intros H. unfold pget. destruct (_ && _) eqn:E; [reflexivity|lia]. Qed.
Lemma w64' i : 0 <= i < 2 ^ 64 -> wrap64 i = i. Proof. intros. now apply Z.mod_small. Qed.
Lemma store_out P item base : forall todo m i, 0 <= base + i -> P < base + i + Z.of_nat todo -> (0 < todo)%nat -> sf_store P m base item i todo = None.
Proof.
  induction todo as [|t IH]; intros m i A B C; [lia|]. cbn [sf_store]. unfold pset.
  destruct ((0 <=? base + i) && (base + i <? P)) eqn:E; cbn [AllocModel.bind]; [|reflexivity]. apply IH; lia.
Qed.
Lemma alloc_pool P st n ch st' b : allocate P st n ch = Some (st', b) -> pool st' = pool st.
Proof.
  unfold allocate. intros H. destruct (negb (inited st) || (n =? 0) || (negb (ch =? 1) && negb (ch =? 2))); [injection H as <- _; reflexivity|].
  destruct (find_fit _ _ _ _) as [[i|]|]; cbn [AllocModel.bind] in H; [|injection H as <- _; reflexivity|discriminate].
  destruct (aget _ _) as [bl|]; cbn [AllocModel.bind] in H; [|discriminate].
  match type of H with AllocModel.bind ?x _ = _ => destruct x as [bs|]; cbn [AllocModel.bind] in H; [|discriminate] end.
  destruct (_ && _); [|discriminate]. injection H as <- _. reflexivity.
Qed.

Section Load.
  Variable P : Z.
  Variable MB : nat.
  Hypothesis HPM : params_ok P MB.
  Let HP : 0 < P < 2 ^ 64 := proj1 HPM.
  Let HMB : (1 <= MB)%nat := proj2 HPM.
  Lemma load_args f : file_ok f -> args_ok (OAlloc (sf_frames f) (load_channels f)).
  Proof. intros [A B]. unfold args_ok, load_channels. destruct (2 <=? sf_ch f); lia. Qed.
  (** What allocate did. *)
  Lemma load_alloc st L f : reachable P MB st L -> file_ok f ->
    exists st' b, allocate P st (sf_frames f) (load_channels f) = Some (st', b) /\ pool st' = pool st /\
      (isValid b = true <-> inited st = true /\ sf_frames f <> 0 /\ exists o, free_run P st o (sf_frames f * load_channels f)) /\
      (isValid b = false -> st' = st) /\
      (isValid b = true -> exists o, b = Buffer (PPool o) (load_channels f) (srate st) (sf_frames f) /\ inside P (o, sf_frames f * load_channels f) /\
         forall a, In a L -> disjoint (o, sf_frames f * load_channels f) a).
  Proof.
    intros R F. pose proof (load_args f F) as A.
    destruct (f_defined P MB HPM st L (OAlloc (sf_frames f) (load_channels f)) R) as (st' & r & S & _); [split; [exact A|exact I]|].
    pose proof S as S0. cbn [step] in S. destruct (allocate P st (sf_frames f) (load_channels f)) as [[st2 b]|] eqn:E; cbn [AllocModel.bind fst snd] in S; [|discriminate].
    injection S as <- <-. exists st2, b. split; [reflexivity|]. split; [eapply alloc_pool; eauto|].
    destruct (f_first_fit P MB HPM st L _ _ st2 b R A E) as [W1 W2]. split; [|split].
    - rewrite W1. assert (load_channels f = 1 \/ load_channels f = 2) by (unfold load_channels; destruct (2 <=? sf_ch f); auto). tauto.
    - intros V. apply (failed_unchanged P st _ st2 _ S0); [exact V|exact A].
    - intros V. destruct (W2 V) as (o & -> & _ & _). exists o. split; [reflexivity|].
      assert (J : inv P MB st2 (live_step L (OAlloc (sf_frames f) (load_channels f)) (RBuffer (Buffer (PPool o) (load_channels f) (srate st) (sf_frames f))))).
      { eapply (step_inv P MB HP HMB); [apply (reachable_inv P MB HP HMB); exact R|split; [exact A|exact I]|exact S0]. }
      cbn [live_step data] in J. destruct J as [Ht HL]. split.
      + eapply (linv_inside P MB); eauto. now left.
      + pose proof (linv_pairwise P MB HMB st2 _ Ht HL) as PW. inversion PW as [|x l Q1 Q2]; subst. rewrite Forall_forall in Q1. exact Q1.
  Qed.

  (** One or two channels: never undefined; a refused file changes nothing; a loaded one is in the buffer frame by frame, and no other live buffer is touched. *)
  Lemma load_fine st L f : reachable P MB st L -> file_ok f -> sf_ch f <= 2 ->
    exists st' r, load P st f = Some (st', r) /\
      ((exists b, r = Some b) <-> inited st = true /\ sf_frames f <> 0 /\ exists o, free_run P st o (sf_frames f * sf_ch f)) /\
      (r = None -> st' = st) /\
      (forall a i, In a L -> covers a i -> pool st' i = pool st i) /\
      forall b, r = Some b -> numSamples b = sf_frames f /\ channels b = sf_ch f /\
        forall i, 0 <= i < sf_frames f -> getStereoSample P (pool st') b i = Some (sf_item f (i * sf_ch f), sf_item f (i * sf_ch f + sf_ch f - 1)).
  Proof.
    intros R F C. destruct (load_alloc st L f R F) as (st2 & b & E & PL & V & N & Y). destruct F as [F1 F2].
    assert (CH : load_channels f = sf_ch f) by (unfold load_channels; destruct (2 <=? sf_ch f) eqn:K; lia). rewrite CH in *.
    unfold load. rewrite CH, E. cbn [AllocModel.bind]. destruct (isValid b) eqn:VB; cbn [negb].
    - destruct (Y eq_refl) as (o & -> & (I1 & I2 & I3) & D). cbn [fst snd] in I1, I2, I3. cbn [data].
      set (items := if sf_ch f =? 1 then sf_frames f else sf_frames f * sf_ch f).
      assert (IT : items = sf_frames f * sf_ch f) by (unfold items; destruct (sf_ch f =? 1) eqn:K; lia).
      destruct (store_ok P (sf_item f) o (Z.to_nat items) (pool st2) 0) as (m & S1 & S2); [lia|lia|]. rewrite S1. cbn [AllocModel.bind].
      assert (ST : forall j, 0 <= j < items -> m (o + j) = sf_item f j) by (intros j Hj; rewrite S2; destruct (_ && _) eqn:K; [apply f_equal; lia|lia]).
      eexists _, _. split; [reflexivity|]. split; [|split; [discriminate|split]].
      + rewrite <- V. split; eauto.
      + intros a i Ha Hc. cbn [pool]. rewrite S2, PL. specialize (D a Ha). unfold disjoint, covers in *. cbn [fst snd] in D.
        destruct (_ && _) eqn:K; [lia|reflexivity].
      + intros b Hb. injection Hb as <-. cbn [numSamples channels pool]. split; [reflexivity|]. split; [reflexivity|]. intros i Hi.
        assert (B1 : i * sf_ch f <= (sf_frames f - 1) * sf_ch f) by (apply Z.mul_le_mono_nonneg_r; lia).
        assert (B2 : (sf_frames f - 1) * sf_ch f = sf_frames f * sf_ch f - sf_ch f) by ring.
        assert (B3 : 0 <= i * sf_ch f) by (apply Z.mul_nonneg_nonneg; lia).
        unfold getStereoSample. cbn [data numSamples channels]. destruct (sf_frames f <=? i) eqn:K; [lia|].
        destruct (sf_ch f =? 1) eqn:K1.
        * assert (Q : sf_ch f = 1) by lia. rewrite Q in *. rewrite pget_in by lia. cbn [AllocModel.bind]. rewrite ST by lia. apply (f_equal Some), f_equal2; apply (f_equal (sf_item f)); lia.
        * assert (Q : sf_ch f = 2) by lia. rewrite Q in *. rewrite !w64' by lia. rewrite !pget_in by lia. cbn [AllocModel.bind]. rewrite !ST by lia. apply (f_equal Some), f_equal2; apply (f_equal (sf_item f)); lia.
    - rewrite (N eq_refl). eexists _, _. split; [reflexivity|]. split; [|split; [auto|split; [auto|discriminate]]].
      rewrite <- V. split; [intros [b' Q]; discriminate|discriminate].
  Qed.
  (** More channels, with room for two: either the stores run out of the pool, or they run past the buffer and frame [i] holds samples 2i and 2i+1 of the stream. *)
  Lemma load_overflow st L f : reachable P MB st L -> file_ok f -> 3 <= sf_ch f -> inited st = true -> sf_frames f <> 0 ->
    (exists o, free_run P st o (sf_frames f * 2)) ->
    (P < sf_frames f * sf_ch f -> load P st f = None) /\
    (forall st' r, load P st f = Some (st', r) -> exists base b, r = Some b /\ data b = PPool base /\ numSamples b = sf_frames f /\ channels b = 2 /\
       (forall i, 0 <= i < sf_frames f -> getStereoSample P (pool st') b i = Some (sf_item f (2 * i), sf_item f (2 * i + 1))) /\
       forall i, sf_frames f * 2 <= i < sf_frames f * sf_ch f -> pool st' (base + i) = sf_item f i).
  Proof.
    intros R F C IN FR RUN. destruct (load_alloc st L f R F) as (st2 & b & E & PL & V & N & Y). destruct F as [F1 F2].
    assert (CH : load_channels f = 2) by (unfold load_channels; destruct (2 <=? sf_ch f) eqn:K; lia). rewrite CH in *.
    assert (VB : isValid b = true) by (apply V; auto). destruct (Y VB) as (o & -> & (I1 & I2 & I3) & D). cbn [fst snd] in I1, I2, I3.
    unfold load. rewrite CH, E. cbn [AllocModel.bind]. rewrite VB. cbn [negb data]. change (2 =? 1) with false. cbv iota.
    assert (M1 : sf_frames f * 3 <= sf_frames f * sf_ch f) by (apply Z.mul_le_mono_nonneg_l; lia).
    split.
    - intros B. rewrite store_out; [reflexivity|lia|lia|lia].
    - intros st' r H. destruct (Z_lt_le_dec P (o + sf_frames f * sf_ch f)) as [K|K].
      + exfalso. rewrite store_out in H; [discriminate|lia|lia|lia].
      + destruct (store_ok P (sf_item f) o (Z.to_nat (sf_frames f * sf_ch f)) (pool st2) 0) as (m & S1 & S2); [lia|lia|]. rewrite S1 in H. cbn [AllocModel.bind] in H. injection H as <- <-.
        assert (ST : forall j, 0 <= j < sf_frames f * sf_ch f -> m (o + j) = sf_item f j) by (intros j Hj; rewrite S2; destruct (_ && _) eqn:K4; [apply f_equal; lia|lia]).
        exists o. eexists. split; [reflexivity|]. cbn [data numSamples channels pool]. do 3 (split; [reflexivity|]). split.
        * intros i Hi. unfold getStereoSample. cbn [data numSamples channels]. destruct (sf_frames f <=? i) eqn:K0; [lia|]. change (2 =? 1) with false. cbv iota.
          rewrite !w64' by lia. rewrite !pget_in by lia. cbn [AllocModel.bind]. rewrite !ST by lia. apply (f_equal Some), f_equal2; apply (f_equal (sf_item f)); lia.
        * intros i Hi. apply ST. lia.
  Qed.
  (** What the reader then sees. *)
  Lemma load_view st L f st' b : reachable P MB st L -> file_ok f -> sf_ch f <= 2 -> P < 2 ^ 62 -> load P st f = Some (st', Some b) ->
    rb_ok (view P st' b) /\ rb_n (view P st' b) = sf_frames f /\
    forall c i, 0 <= c <= 1 -> 0 <= i < sf_frames f -> smp (view P st' b) c i = sf_item f (if sf_ch f =? 1 then i else 2 * i + c).
  Proof.
    intros R F C PB E0. destruct (load_alloc st L f R F) as (st2 & b2 & E & PL & V & N & Y). destruct F as [F1 F2].
    assert (CH : load_channels f = sf_ch f) by (unfold load_channels; destruct (2 <=? sf_ch f) eqn:K; lia). rewrite CH in *.
    unfold load in E0. rewrite CH, E in E0. cbn [AllocModel.bind] in E0. destruct (isValid b2) eqn:VB; cbn [negb] in E0; [|discriminate].
    destruct (Y eq_refl) as (o & -> & (I1 & I2 & I3) & D). cbn [fst snd] in I1, I2, I3. cbn [data] in E0.
    set (items := if sf_ch f =? 1 then sf_frames f else sf_frames f * sf_ch f) in E0.
    assert (IT : items = sf_frames f * sf_ch f) by (unfold items; destruct (sf_ch f =? 1) eqn:K; lia).
    destruct (store_ok P (sf_item f) o (Z.to_nat items) (pool st2) 0) as (m & S1 & S2); [lia|lia|]. rewrite S1 in E0. cbn [AllocModel.bind] in E0. injection E0 as <- <-.
    assert (ST : forall j, 0 <= j < items -> m (o + j) = sf_item f j) by (intros j Hj; rewrite S2; destruct (_ && _) eqn:K; [apply f_equal; lia|lia]).
    assert (FP : 0 < sf_frames f) by (destruct (proj1 V eq_refl) as (_ & Q & _); lia).
    unfold view. cbn [data channels bufRate numSamples pool]. split; [|split; [reflexivity|]].
    - unfold rb_ok. cbn [rb_data rb_n rb_ch rb_len]. eexists. split; [reflexivity|]. lia.
    - intros c i Hc Hi. unfold smp. cbn [rb_data rb_ch]. apply ST. rewrite IT. destruct (sf_ch f =? 1) eqn:K; [|assert (sf_ch f = 2) by lia; nia]. assert (Q : sf_ch f = 1) by lia. rewrite Q. lia.
  Qed.
End Load.
