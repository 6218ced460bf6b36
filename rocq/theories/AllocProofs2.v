(** Consequences of the allocator invariant: whole histories, the first-fit
    criterion, accounting, releasing everything, fills. *)
From Coq Require Import ZArith Bool List Lia ZifyBool ZifyNat Permutation.
From Verif Require Import Flt AllocModel AllocSpec AllocProofs.
Import ListNotations.
Local Open Scope Z_scope.
Ltac Zify.zify_post_hook ::= Z.div_mod_to_equations.

(** ** Copy loops *)
Lemma sget_some src i : 0 <= i < Z.of_nat (length src) -> exists x, sget src i = Some x.
Proof.
  intros H. unfold sget. replace (i <? 0) with false by lia.
  destruct (nth_error src (Z.to_nat i)) eqn:E; [eauto|].
  apply nth_error_None in E. lia.
Qed.

Lemma copy_loop_spec P src base todo : forall m i,
  0 <= i -> 0 <= base -> base + i + Z.of_nat todo <= P -> i + Z.of_nat todo <= Z.of_nat (length src) ->
  exists m', copy_loop P m base src i todo = Some m' /\
    (forall k, base + i <= k < base + i + Z.of_nat todo -> sget src (k - base) = Some (m' k)) /\
    (forall k, ~ (base + i <= k < base + i + Z.of_nat todo) -> m' k = m k).
Proof.
  induction todo as [|t IH]; intros m i Hi Hb HP Hs.
  - exists m. cbn [copy_loop]. split; [reflexivity|]. split; [lia|auto].
  - cbn [copy_loop].
    destruct (sget_some src i ltac:(lia)) as [x Hx]. rewrite Hx. cbn [bind].
    unfold pset. replace ((0 <=? base + i) && (base + i <? P)) with true by lia. cbn [bind].
    destruct (IH (fun k => if k =? base + i then x else m k) (i + 1)) as (m' & E & A & B); try lia.
    exists m'. split; [exact E|]. split.
    + intros k Hk. destruct (Z.eq_dec k (base + i)) as [->|Hne].
      * rewrite B by lia. rewrite Z.eqb_refl. rewrite <- Hx. f_equal. lia.
      * apply A. lia.
    + intros k Hk. rewrite B by lia. replace (k =? base + i) with false by lia. reflexivity.
Qed.

Lemma copy2_loop_spec P l r base todo : forall m i,
  P < 2 ^ 64 -> 0 <= i -> 0 <= base -> base + 2 * (i + Z.of_nat todo) <= P ->
  i + Z.of_nat todo <= Z.of_nat (length l) -> i + Z.of_nat todo <= Z.of_nat (length r) ->
  exists m', copy2_loop P m base l r i todo = Some m' /\
    (forall j, i <= j < i + Z.of_nat todo ->
       sget l j = Some (m' (base + 2 * j)) /\ sget r j = Some (m' (base + 2 * j + 1))) /\
    (forall k, ~ (base + 2 * i <= k < base + 2 * (i + Z.of_nat todo)) -> m' k = m k).
Proof.
  induction todo as [|t IH]; intros m i HP64 Hi Hb HP Hl Hr.
  - exists m. cbn [copy2_loop]. split; [reflexivity|]. split; [lia|auto].
  - cbn [copy2_loop].
    destruct (sget_some l i ltac:(lia)) as [x Hx]. rewrite Hx. cbn [bind].
    rewrite (wrap64_small (i * 2)) by lia. unfold pset at 1.
    replace ((0 <=? base + i * 2) && (base + i * 2 <? P)) with true by lia. cbn [bind].
    destruct (sget_some r i ltac:(lia)) as [y Hy]. rewrite Hy. cbn [bind].
    rewrite (wrap64_small (i * 2 + 1)) by lia. unfold pset.
    replace ((0 <=? base + (i * 2 + 1)) && (base + (i * 2 + 1) <? P)) with true by lia. cbn [bind].
    match goal with |- context [copy2_loop P ?M base l r (i + 1) t] =>
      destruct (IH M (i + 1)) as (m' & E & A & B); try lia end.
    exists m'. split; [exact E|]. split.
    + intros j Hj. destruct (Z.eq_dec j i) as [->|Hne].
      * rewrite !B by lia.
        replace (base + 2 * i =? base + (i * 2 + 1)) with false by lia.
        replace (base + 2 * i =? base + i * 2) with true by lia.
        replace (base + 2 * i + 1 =? base + (i * 2 + 1)) with true by lia. auto.
      * apply A. lia.
    + intros k Hk. rewrite B by lia.
      replace (k =? base + (i * 2 + 1)) with false by lia.
      replace (k =? base + i * 2) with false by lia. reflexivity.
Qed.

Section Hist.
  Variable P : Z.
  Variable MB : nat.
  Hypothesis HP : 0 < P < 2 ^ 64.
  Hypothesis HMB : (1 <= MB)%nat.

  Definition inv (st : astate) (L : list region) : Prop := tinv P MB st /\ linv st L.

  (** What a fill with a live destination does. *)
  Definition written (o : op) : option region :=
    match o with
    | OFillMono b (Some _) c =>
        if isValid b && (channels b =? 1) then
          match data b with PPool base => Some (base, frames b c) | _ => None end else None
    | OFillStereo b (Some _) (Some _) c =>
        if isValid b && (channels b =? 2) then
          match data b with PPool base => Some (base, 2 * frames b c) | _ => None end else None
    | OFillInter b (Some _) c =>
        if isValid b && (channels b =? 2) then
          match data b with PPool base => Some (base, 2 * frames b c) | _ => None end else None
    | _ => None
    end.

  Lemma frames_eq b c : (if c <? numSamples b then c else numSamples b) = frames b c.
  Proof. unfold frames. destruct (Z.ltb_spec c (numSamples b)); lia. Qed.

  Lemma live_region st L b base : inv st L -> live_buffer L b -> data b = PPool base ->
    inside P (base, numSamples b * channels b).
  Proof.
    intros (Ht & HL) Hb Ed. unfold live_buffer in Hb. rewrite Ed in Hb.
    eapply linv_inside; eauto.
  Qed.

  Ltac nofill :=
    match goal with |- context [step P ?st _] => exists (pool st), false | |- context [setpool ?st _] => exists (pool st), false end; cbn [bind fst snd];
    split; [reflexivity|]; split; [reflexivity|]; split; [split; [discriminate|congruence]|];
    split; [auto|]; auto; intros; discriminate.

  Lemma fill_defined st L o : inv st L -> client_ok L o ->
    match o with OFillMono _ _ _ | OFillStereo _ _ _ _ | OFillInter _ _ _ => True | _ => False end ->
    exists m' ok, step P st o = Some (setpool st m', RBool ok) /\
      (ok = false -> m' = pool st) /\
      (ok = true <-> written o <> None) /\
      (forall k, (forall a, written o = Some a -> ~ covers a k) -> m' k = pool st k) /\
      match o with
      | OFillMono b (Some s) c =>
          forall base, data b = PPool base -> ok = true ->
          forall i, 0 <= i < frames b c -> sget s i = Some (m' (base + i))
      | OFillStereo b (Some l) (Some r) c =>
          forall base, data b = PPool base -> ok = true ->
          forall i, 0 <= i < frames b c ->
            sget l i = Some (m' (base + 2 * i)) /\ sget r i = Some (m' (base + 2 * i + 1))
      | OFillInter b (Some s) c =>
          forall base, data b = PPool base -> ok = true ->
          forall i, 0 <= i < 2 * frames b c -> sget s i = Some (m' (base + i))
      | _ => True
      end.
  Proof.
    intros Hinv (_ & Hok) Ho. destruct o; try contradiction.
    - (* mono *)
      destruct Hok as (Hlb & Hc & Hlen).
      cbn [step fillMono written]. unfold fillMono.
      destruct src as [s|].
      2:{ nofill. }
      destruct (isValid b && (channels b =? 1)) eqn:Ev.
      2:{ nofill. }
      assert (Hch : channels b = 1) by lia.
      assert (Hns : 0 < numSamples b) by (unfold isValid in Ev; lia).
      destruct (data b) as [|base|] eqn:Ed.
      { unfold isValid in Ev. rewrite Ed in Ev. discriminate. }
      2:{ unfold live_buffer in Hlb. rewrite Ed in Hlb. contradiction. }
      destruct (live_region st L b base Hinv Hlb Ed) as (I1 & I2 & I3). cbn [fst snd] in *.
      rewrite Hch in *.
      rewrite frames_eq. cbn [long_enough] in Hlen.
      assert (Hf : 0 <= frames b count <= numSamples b) by (unfold frames; lia).
      destruct (copy_loop_spec P s base (Z.to_nat (frames b count)) (pool st) 0) as (m' & E & A & B); try lia.
      rewrite E. cbn [bind fst snd]. exists m', true.
      split; [reflexivity|]. split; [discriminate|]. split; [split; [discriminate|auto]|]. split.
      + intros k Hk. apply B. intros C. apply (Hk _ eq_refl). unfold covers; cbn. lia.
      + intros base' Eb _ i Hi. injection Eb as <-. specialize (A (base + i) ltac:(lia)).
        replace (base + i - base) with i in A by lia. exact A.
    - (* stereo *)
      destruct Hok as (Hlb & Hc & Hll & Hlr).
      cbn [step written]. unfold fillStereo.
      destruct l as [l|]; [destruct r as [r|]|].
      2-3: nofill.
      destruct (isValid b && (channels b =? 2)) eqn:Ev.
      2:{ nofill. }
      assert (Hch : channels b = 2) by lia.
      assert (Hns : 0 < numSamples b) by (unfold isValid in Ev; lia).
      destruct (data b) as [|base|] eqn:Ed.
      { unfold isValid in Ev. rewrite Ed in Ev. discriminate. }
      2:{ unfold live_buffer in Hlb. rewrite Ed in Hlb. contradiction. }
      destruct (live_region st L b base Hinv Hlb Ed) as (I1 & I2 & I3). cbn [fst snd] in *.
      rewrite Hch in *.
      rewrite frames_eq. cbn [long_enough] in Hll, Hlr.
      assert (Hf : 0 <= frames b count <= numSamples b) by (unfold frames; lia).
      destruct (copy2_loop_spec P l r base (Z.to_nat (frames b count)) (pool st) 0) as (m' & E & A & B); try lia.
      rewrite E. cbn [bind fst snd]. exists m', true.
      split; [reflexivity|]. split; [discriminate|]. split; [split; [discriminate|auto]|]. split.
      + intros k Hk. apply B. intros C. apply (Hk _ eq_refl). unfold covers; cbn [fst snd]. lia.
      + intros base' Eb _ i Hi. injection Eb as <-. apply A. lia.
    - (* interleaved *)
      destruct Hok as (Hlb & Hc & Hlen).
      cbn [step written]. unfold fillStereoInterleaved.
      destruct src as [s|].
      2:{ nofill. }
      destruct (isValid b && (channels b =? 2)) eqn:Ev.
      2:{ nofill. }
      assert (Hch : channels b = 2) by lia.
      assert (Hns : 0 < numSamples b) by (unfold isValid in Ev; lia).
      destruct (data b) as [|base|] eqn:Ed.
      { unfold isValid in Ev. rewrite Ed in Ev. discriminate. }
      2:{ unfold live_buffer in Hlb. rewrite Ed in Hlb. contradiction. }
      destruct (live_region st L b base Hinv Hlb Ed) as (I1 & I2 & I3). cbn [fst snd] in *.
      rewrite Hch in *.
      rewrite frames_eq. cbn [long_enough] in Hlen.
      assert (Hf : 0 <= frames b count <= numSamples b) by (unfold frames; lia).
      rewrite (wrap64_small (frames b count * 2)) by lia.
      destruct (copy_loop_spec P s base (Z.to_nat (frames b count * 2)) (pool st) 0) as (m' & E & A & B); try lia.
      rewrite E. cbn [bind fst snd]. exists m', true.
      split; [reflexivity|]. split; [discriminate|]. split; [split; [discriminate|auto]|]. split.
      + intros k Hk. apply B. intros C. apply (Hk _ eq_refl). unfold covers; cbn [fst snd]. lia.
      + intros base' Eb _ i Hi. injection Eb as <-. specialize (A (base + i) ltac:(lia)).
        replace (base + i - base) with i in A by lia. exact A.
  Qed.

  Lemma inv_setpool st L m : inv st L -> inv (setpool st m) L.
  Proof. intros [H1 H2]. split; [exact H1|exact H2]. Qed.

  Lemma inv_init st sr st' : length (blocks st) = MB -> init P st sr = Some st' -> inv st' [].
  Proof.
    intros Hl E. destruct (init_spec P MB HP HMB st sr Hl) as (st2 & E2 & Ht & Hi & Hv & _).
    rewrite E in E2. injection E2 as <-. split; [exact Ht|].
    split; [auto|]. split; [constructor|]. split; [intros ? ? []|].
    intros o s H. rewrite Hv in H. destruct H as [H|[]]. discriminate.
  Qed.

  Lemma step_defined st L o : inv st L -> client_ok L o -> step P st o <> None.
  Proof.
    intros Hinv Hok.
    assert (Hl : length (blocks st) = MB) by (destruct Hinv as [[? _] _]; auto).
    destruct o; cbn [step].
    - destruct (init_spec P MB HP HMB st sr Hl) as (st2 & E2 & _). rewrite E2. discriminate.
    - unfold reset. destruct (inited st); [|discriminate].
      destruct (init_spec P MB HP HMB st (srate st) Hl) as (st2 & E2 & _). rewrite E2. discriminate.
    - destruct Hok as [Ha _]. destruct Hinv as [Ht _].
      pose proof (allocate_defined P MB HP HMB st n ch Ht Ha) as D.
      destruct (allocate P st n ch); [discriminate|congruence].
    - destruct Hinv as [Ht _]. pose proof (release_defined P MB HMB st p Ht) as D.
      destruct (release P st p); [discriminate|congruence].
    - destruct (fill_defined st L _ Hinv Hok I) as (m' & ok & E & _).
      cbn [step] in E. rewrite E. discriminate.
    - destruct (fill_defined st L _ Hinv Hok I) as (m' & ok & E & _).
      cbn [step] in E. rewrite E. discriminate.
    - destruct (fill_defined st L _ Hinv Hok I) as (m' & ok & E & _).
      cbn [step] in E. rewrite E. discriminate.
  Qed.

  Lemma step_inv st L o st' r :
    inv st L -> client_ok L o -> step P st o = Some (st', r) -> inv st' (live_step L o r).
  Proof.
    intros Hinv Hok E.
    assert (Hl : length (blocks st) = MB) by (destruct Hinv as [[? _] _]; auto).
    destruct o.
    - cbn [step] in E. destruct (init P st sr) eqn:Ei; [|discriminate]. injection E as <- <-.
      cbn [live_step]. eapply inv_init; eauto.
    - cbn [step] in E. unfold reset in E.
      destruct (inited st) eqn:Hi.
      + destruct (init P st (srate st)) eqn:Ei; [|discriminate]. injection E as <- <-.
        cbn [live_step]. eapply inv_init; eauto.
      + injection E as <- <-. cbn [live_step].
        destruct Hinv as [Ht (H0 & HL)]. rewrite (H0 Hi) in HL. split; [exact Ht|]. split; auto.
    - cbn [step] in E. destruct Hok as [Ha _]. destruct Hinv as [Ht HL].
      destruct (allocate P st n ch) as [[st2 b]|] eqn:Ea; [|discriminate]. injection E as <- <-.
      split; [eapply allocate_tinv; eauto | eapply alloc_linv; eauto].
    - cbn [step] in E. destruct Hinv as [Ht HL].
      destruct (release P st p) as [[st2 b]|] eqn:Ea; [|discriminate]. injection E as <- <-.
      split; [eapply release_tinv; eauto | eapply rel_linv; eauto].
    - destruct (fill_defined st L _ Hinv Hok I) as (m' & ok & E2 & _).
      rewrite E in E2. injection E2 as -> ->. apply inv_setpool. exact Hinv.
    - destruct (fill_defined st L _ Hinv Hok I) as (m' & ok & E2 & _).
      rewrite E in E2. injection E2 as -> ->. apply inv_setpool. exact Hinv.
    - destruct (fill_defined st L _ Hinv Hok I) as (m' & ok & E2 & _).
      rewrite E in E2. injection E2 as -> ->. apply inv_setpool. exact Hinv.
  Qed.

  Lemma run_inv ops : forall st L, inv st L -> history_ok P st L ops ->
    exists st' L', run P st L ops = Some (st', L') /\ inv st' L'.
  Proof.
    induction ops as [|o t IH]; intros st L Hinv Hh; cbn [run].
    - exists st, L. auto.
    - destruct Hh as [Hok Hh].
      destruct (step P st o) as [[st1 r]|] eqn:E; [|exfalso; eapply step_defined; eauto].
      cbn [bind fst snd]. apply IH; [eapply step_inv; eauto | apply Hh; reflexivity].
  Qed.

  Lemma construct_inv garbage gpool : length garbage = MB -> inv (construct garbage gpool) [].
  Proof.
    intros H. split.
    - split; [exact H|reflexivity].
    - split; [auto|]. split; [constructor|]. split; [intros ? ? []|intros ? ? []].
  Qed.

  Lemma reachable_inv st L : reachable P MB st L -> inv st L.
  Proof.
    intros (g & gp & ops & Hg & Hh & Hr).
    destruct (run_inv ops _ _ (construct_inv g gp Hg) Hh) as (st' & L' & E & Hi).
    rewrite Hr in E. injection E as <- <-. exact Hi.
  Qed.

  (** ** C02: free runs *)
  Lemma in_split_coalesced l : forall b s e, coalesced l -> tiles s l e -> In b l -> b_used b = false ->
    b_off b + b_size b < e -> exists b', In b' l /\ b_used b' = true /\ b_off b' = b_off b + b_size b /\ 0 < b_size b'.
  Proof.
    induction l as [|a t IH]; intros b s e Hc Ht Hb Hu He; [destruct Hb|].
    cbn [tiles] in Ht. destruct Ht as (Ho & Hs & Ht).
    destruct Hb as [->|Hb].
    - destruct t as [|c t].
      + cbn [tiles] in Ht. lia.
      + rewrite coalesced_cons in Hc. cbn [tiles] in Ht.
        exists c. split; [cbn; auto|]. destruct Hc as [[Hc|Hc] _]; [congruence|].
        split; [exact Hc|]. split; [destruct Ht; lia|tauto].
    - destruct (IH b _ _ (coalesced_tail _ _ Hc) Ht Hb Hu He) as (b' & A & B). exists b'. split; [cbn; auto|exact B].
  Qed.

  Lemma free_run_block st o n : tinv P MB st -> inited st = true -> 0 < n ->
    free_run P st o n ->
    exists b, In b (view st) /\ b_used b = false /\ b_off b <= o /\ o + n <= b_off b + b_size b.
  Proof.
    intros (_ & Hr) Hi Hn (H0 & H1 & Hf). rewrite Hi in Hr. destruct Hr as (_ & Ht & Hc).
    destruct (tiles_cover _ _ _ o Ht ltac:(lia)) as (b & Hb & Hbo).
    assert (Hu : b_used b = false).
    { destruct b as [bo bs bu]; cbn in *. destruct bu; [|reflexivity]. exfalso.
      destruct (Hf o ltac:(lia)) as (_ & _ & C). apply (C (bo, bs)); [split; assumption|].
      unfold covers; cbn; lia. }
    exists b. repeat split; auto; try lia.
    destruct (Z_le_gt_dec (o + n) (b_off b + b_size b)); [assumption|exfalso].
    destruct (in_split_coalesced _ b _ _ Hc Ht Hb Hu ltac:(lia)) as ([bo bs bu] & B1 & B2 & B3 & B4).
    cbn in *. subst bu.
    destruct (Hf bo ltac:(lia)) as (_ & _ & C). apply (C (bo, bs)); [split; assumption|].
    unfold covers; cbn; lia.
  Qed.

  Lemma block_free_run st o s n k : tinv P MB st -> inited st = true -> In (Block o s false) (view st) ->
    o <= k -> k + n <= o + s -> free_run P st k n.
  Proof.
    intros (_ & Hr) Hi Hb Hk1 Hk2. rewrite Hi in Hr. destruct Hr as (_ & Ht & Hc).
    destruct (tiles_in _ _ _ _ Ht Hb) as (A & B & C). cbn in *.
    split; [lia|]. split; [lia|]. intros i Hi'. split; [exact Hi|]. split; [lia|].
    intros [o' s'] (_ & D) E. unfold covers in E. cbn [fst snd] in *.
    fold (view st) in D.
    pose proof (tiles_uniq _ _ _ _ _ i Ht Hb D) as U. cbn in U.
    assert (X : Block o s false = Block o' s' true) by (apply U; lia). discriminate.
  Qed.

  Definition granted (b : buffer) : Prop := data b <> PNull.

  Lemma allocate_iff st L n ch st' b :
    inv st L -> args_ok (OAlloc n ch) -> allocate P st n ch = Some (st', b) ->
    (granted b <-> inited st = true /\ n <> 0 /\ (ch = 1 \/ ch = 2) /\ exists o, free_run P st o (n * ch)) /\
    (granted b -> exists o, b = Buffer (PPool o) ch (srate st) n /\ free_run P st o (n * ch) /\
                   forall o', free_run P st o' (n * ch) -> o <= o') /\
    (~ granted b -> b = buffer0 /\ st' = st).
  Proof.
    intros [Ht HL] (Hn0 & Hc & Hw) E. unfold granted.
    destruct (negb (inited st) || (n =? 0) || (negb (ch =? 1) && negb (ch =? 2))) eqn:Hg.
    { rewrite allocate_fail_guard in E by exact Hg. injection E as <- <-. cbn [data buffer0].
      split; [|split; [congruence|auto]].
      split; [congruence|]. intros (A & B & C & _). rewrite A in Hg. lia. }
    assert (Hi : inited st = true) by (destruct (inited st); [reflexivity|discriminate]).
    assert (Hch : ch = 1 \/ ch = 2) by lia. assert (Hn : n <> 0) by lia.
    assert (Hpos : 0 < n * ch) by nia.
    pose proof (allocate_shape P MB HP HMB st n ch Ht Hi Hn Hch Hn0 Hw) as Sh.
    destruct (lfind _ _) eqn:El.
    - destruct Sh as (l1 & o & s & l2 & st2 & Ev & Hs & Hpre & Ea & _).
      rewrite Ea in E. injection E as <- <-. cbn [data].
      assert (Hin : In (Block o s false) (view st)) by (rewrite Ev; apply in_elt).
      assert (Hfr : free_run P st o (n * ch)) by (eapply block_free_run; eauto; lia).
      split; [|split].
      + split; [|discriminate]. intros _. repeat split; auto. exists o. exact Hfr.
      + intros _. exists o. split; [reflexivity|]. split; [exact Hfr|].
        intros o' Hr'. destruct (free_run_block st o' _ Ht Hi Hpos Hr') as ([bo bs bu] & B1 & B2 & B3 & B4).
        cbn in *. subst bu.
        rewrite Ev in B1. apply in_app_iff in B1.
        pose proof Ht as (_ & Hr). rewrite Hi in Hr. destruct Hr as (_ & Htl & _).
        rewrite Ev, tiles_app in Htl. destruct Htl as (m & T1 & T2). cbn [tiles b_off b_size] in T2.
        destruct B1 as [B1|[B1|B1]].
        * specialize (Hpre _ B1). unfold fits in Hpre. cbn in Hpre. lia.
        * injection B1 as -> ->. exact B3.
        * destruct T2 as (-> & T2 & T3). destruct (tiles_in _ _ _ _ T3 B1). cbn in *. lia.
      + intros C. exfalso. apply C. discriminate.
    - rewrite Sh in E. injection E as <- <-. cbn [data buffer0].
      split; [|split; [congruence|auto]].
      split; [congruence|]. intros (_ & _ & _ & o & Hr).
      destruct (free_run_block st o _ Ht Hi Hpos Hr) as (b & B1 & B2 & B3 & B4). exfalso.
      rewrite lfind_none in El. specialize (El b B1). unfold fits in El. rewrite B2 in El. lia.
  Qed.

  (** Which cells an allocation takes. *)
  Lemma allocate_reserved st L n ch st' b o :
    inv st L -> args_ok (OAlloc n ch) -> allocate P st n ch = Some (st', b) -> data b = PPool o ->
    exists s, n * ch <= s /\ ((bcount st < MB)%nat -> s = n * ch) /\
      forall a, reserved st' a <-> reserved st a \/ a = (o, s).
  Proof.
    intros [Ht HL] (Hn0 & Hc & Hw) E Ed.
    destruct (negb (inited st) || (n =? 0) || (negb (ch =? 1) && negb (ch =? 2))) eqn:Hg.
    { rewrite allocate_fail_guard in E by exact Hg. injection E as <- <-. discriminate. }
    assert (Hi : inited st = true) by (destruct (inited st); [reflexivity|discriminate]).
    assert (Hch : ch = 1 \/ ch = 2) by lia. assert (Hn : n <> 0) by lia.
    pose proof (allocate_shape P MB HP HMB st n ch Ht Hi Hn Hch Hn0 Hw) as Sh.
    destruct (lfind _ _) eqn:El.
    2:{ rewrite Sh in E. injection E as <- <-. discriminate. }
    destruct Sh as (l1 & o1 & s & l2 & st2 & Ev & Hs & Hpre & Ea & Hi2 & _ & _ & _ & _ & Ev2).
    rewrite Ea in E. injection E as <- <-. cbn in Ed. injection Ed as <-.
    destruct ((0 <? s - n * ch) && (bcount st <? MB)%nat) eqn:Esp.
    - exists (n * ch). split; [lia|]. split; [auto|].
      intros [a s']. unfold reserved. fold (view st2). fold (view st). rewrite Ev2, Ev, !in_app_iff. cbn [In fst snd].
      rewrite Hi, Hi2. split.
      + intros (_ & [H|[H|[H|H]]]); auto; [injection H as -> ->; auto|discriminate].
      + intros [(_ & [H|[H|H]])|H]; auto; [discriminate|injection H as -> ->; auto].
    - exists s. split; [lia|]. split; [lia|].
      intros [a s']. unfold reserved. fold (view st2). fold (view st). rewrite Ev2, Ev, !in_app_iff. cbn [In fst snd].
      rewrite Hi, Hi2. split.
      + intros (_ & [H|[H|H]]); auto. injection H as -> ->; auto.
      + intros [(_ & [H|[H|H]])|H]; auto; [discriminate|injection H as -> ->; auto].
  Qed.

  (** ** C05: release *)
  Lemma release_spec st L p st' b :
    inv st L -> release P st p = Some (st', b) ->
    (b = true <-> exists o n, p = PPool o /\ In (o, n) L) /\
    (b = false -> st' = st) /\
    (b = true -> exists o s, p = PPool o /\ reserved st (o, s) /\
        pool st' = pool st /\ srate st' = srate st /\ inited st' = true /\
        (forall a, reserved st' a <-> reserved st a /\ a <> (o, s)) /\
        (forall i, free_cell P st' i <-> free_cell P st i \/ covers (o, s) i)).
  Proof.
    intros [Ht HL] E.
    assert (Hno : forall o n, In (o, n) L -> 0 <= o < P).
    { intros o n H. destruct (linv_inside P MB HMB st L _ Ht HL H) as (A & B & C). cbn in *. lia. }
    destruct (inited st) eqn:Hi.
    2:{ destruct (release_false_other P MB HMB st p st' b E (or_introl Hi)) as [-> ->].
        split; [|split; [auto|discriminate]]. split; [discriminate|].
        intros (o & n & _ & H). destruct HL as (H0 & _). rewrite (H0 Hi) in H. destruct H. }
    destruct p as [|o|].
    - destruct (release_false_other P MB HMB st PNull st' b E (or_intror I)) as [-> ->].
      split; [|split; [auto|discriminate]]. split; [discriminate|]. intros (o & n & H & _). discriminate.
    - destruct (Z_le_dec 0 o) as [A|A]; [destruct (Z_lt_dec o P) as [B|B]|].
      2-3: assert (N : ~ (0 <= o < P)) by lia; destruct (release_false_other P MB HMB st (PPool o) st' b E (or_intror N)) as [-> ->];
        (split; [|split; [auto|discriminate]]); (split; [discriminate|]);
        intros (o' & n & H1 & H2); injection H1 as <-; specialize (Hno _ _ H2); lia.
      pose proof (release_shape P MB HMB st o Ht Hi (conj A B)) as Sh.
      pose proof Ht as (Hl & Hrest). rewrite Hi in Hrest. destruct Hrest as (Hcnt & Htl & Hco).
      destruct (lfind _ _) eqn:El.
      + destruct Sh as (l1 & s & l2 & st2 & Ev & Er & Hi2 & Hsr & Hpl & Hl2 & Hc2 & Ev2).
        assert (Hino : In (Block o s true) (view st)) by (rewrite Ev; apply in_elt).
        pose proof (release_tinv P MB HP HMB st (PPool o) st2 true Ht Er) as Ht2.
        rewrite Er in E. injection E as <- <-.
        split; [|split; [discriminate|]].
        * split; [|reflexivity]. intros _. destruct HL as (_ & _ & _ & Hfrom).
          destruct (Hfrom _ _ Hino) as [n' Hn']. exists o, n'. auto.
        * intros _. exists o, s. split; [reflexivity|]. split; [split; assumption|].
          split; [exact Hpl|]. split; [exact Hsr|]. split; [exact Hi2|].
          assert (Hres : forall a, reserved st2 a <-> reserved st a /\ a <> (o, s)).
          { intros [o' s']. unfold reserved. fold (view st2). fold (view st). cbn [fst snd].
            rewrite Hi, Hi2, Ev2, lmerge_all_used, Ev, !in_app_iff. cbn [In].
            assert (Hni : forall o2 s2, In (Block o2 s2 true) l1 \/ In (Block o2 s2 true) l2 -> o2 <> o).
            { intros o2 s2 C ->. rewrite Ev, tiles_app in Htl. destruct Htl as (m & T1 & T2).
              cbn [tiles b_off b_size] in T2. destruct T2 as (Em & Hsp & T2).
              destruct C as [C|C].
              - destruct (tiles_in _ _ _ _ T1 C). cbn in *. lia.
              - destruct (tiles_in _ _ _ _ T2 C). cbn in *. lia. }
            split.
            - intros (_ & [H|[H|H]]); [|discriminate|]; (split; [auto|]); intros C; injection C as -> ->;
                eapply Hni; eauto.
            - intros ((_ & [H|[H|H]]) & Hne); auto. injection H as -> ->. congruence. }
          split; [exact Hres|].
          intros i. unfold free_cell. rewrite Hi, Hi2. split.
          { intros (_ & Hr & Hf).
            destruct (Z_le_dec o i); [destruct (Z_lt_dec i (o + s))|].
            - right. unfold covers; cbn; lia.
            - left. split; [reflexivity|]. split; [exact Hr|]. intros a Ha Hcv.
              apply (Hf a); [|exact Hcv]. apply Hres. split; [exact Ha|]. intros ->.
              unfold covers in Hcv; cbn in Hcv; lia.
            - left. split; [reflexivity|]. split; [exact Hr|]. intros a Ha Hcv.
              apply (Hf a); [|exact Hcv]. apply Hres. split; [exact Ha|]. intros ->.
              unfold covers in Hcv; cbn in Hcv; lia. }
          { intros [(_ & Hr & Hf)|Hcv].
            - split; [reflexivity|]. split; [exact Hr|]. intros a Ha. apply Hres in Ha. apply Hf. tauto.
            - destruct (tiles_in _ _ _ _ Htl Hino) as (T1 & T2 & T3). cbn in *.
              unfold covers in Hcv; cbn in Hcv.
              split; [reflexivity|]. split; [lia|]. intros [o' s'] Ha Hcv'. apply Hres in Ha.
              destruct Ha as ((_ & Ha) & Hne). fold (view st) in Ha. unfold covers in Hcv'. cbn in *.
              pose proof (tiles_uniq _ _ _ _ _ i Htl Hino Ha) as U. cbn in U.
              assert (X : Block o s true = Block o' s' true) by (apply U; lia).
              injection X as <- <-. congruence. }
      + rewrite Sh in E. injection E as <- <-.
        split; [|split; [auto|discriminate]]. split; [discriminate|].
        intros (o' & n & H1 & H2). injection H1 as <-.
        destruct HL as (_ & _ & Hto & _). destruct (Hto _ _ H2) as (s & Hin & _).
        rewrite lfind_none in El. specialize (El _ Hin). unfold isat in El. cbn in El. lia.
    - destruct (release_false_other P MB HMB st PForeign st' b E (or_intror I)) as [-> ->].
      split; [|split; [auto|discriminate]]. split; [discriminate|]. intros (o & n & H & _). discriminate.
  Qed.

  (** ** C04: accounting *)
  Definition sumz (l : list Z) : Z := fold_right Z.add 0 l.
  Definition used_of (l : list block) : list block := filter b_used l.

  Lemma free_fold l : forall s e acc, tiles s l e -> 0 <= acc -> acc + (e - s) < 2 ^ 64 -> 0 <= s ->
    fold_left (fun acc b => if b_used b then acc else wrap64 (acc + b_size b)) l acc
    = acc + (e - s) - sumz (map b_size (used_of l)).
  Proof.
    induction l as [|b t IH]; intros s e acc Ht Ha Hb Hs; cbn [fold_left used_of filter map sumz fold_right tiles] in *.
    - cbn. lia.
    - destruct Ht as (Ho & Hp & Ht). pose proof (tiles_le _ _ _ Ht).
      destruct (b_used b) eqn:Eu.
      + rewrite (IH _ _ acc Ht) by lia. unfold used_of. cbn [map sumz fold_right].
        unfold sumz. lia.
      + rewrite wrap64_small by lia. rewrite (IH _ _ _ Ht) by lia. unfold used_of, sumz. lia.
  Qed.

  Lemma sum_used_bound l : forall s e, tiles s l e -> 0 <= sumz (map b_size (used_of l)) <= e - s.
  Proof.
    induction l as [|b t IH]; intros s e Ht; cbn [used_of filter map sumz fold_right tiles] in *.
    - cbn. lia.
    - destruct Ht as (Ho & Hp & Ht). specialize (IH _ _ Ht). unfold used_of, sumz in *.
      destruct (b_used b); cbn [map fold_right]; lia.
  Qed.

  Lemma accounting st L : inv st L ->
    (inited st = true ->
       freeSpace st + usedSpace P st = P /\ 0 <= freeSpace st <= P /\
       usedSpace P st = sumz (map b_size (used_of (view st)))) /\
    (inited st = false -> freeSpace st = 0 /\ usedSpace P st = P).
  Proof.
    intros [Ht HL]. split; intros Hi.
    - pose proof Ht as (Hl & Hrest). rewrite Hi in Hrest. destruct Hrest as (Hcnt & Htl & Hco).
      unfold usedSpace, freeSpace. fold (view st).
      pose proof (sum_used_bound _ _ _ Htl) as Hb.
      rewrite (free_fold _ 0 P 0 Htl) by lia.
      rewrite wrap64_small by lia. lia.
    - pose proof Ht as (Hl & Hrest). rewrite Hi in Hrest.
      unfold usedSpace, freeSpace. rewrite Hrest. cbn [firstn fold_left]. rewrite Z.sub_0_r. split; [reflexivity|].
      apply wrap64_small. lia.
  Qed.

  (** Live lengths against used space. *)
  Lemma used_regions st L : inv st L ->
    exists g, Permutation (map (fun b => (b_off b, b_size b)) (used_of (view st))) (map g L) /\
      (forall a, In a L -> fst (g a) = fst a /\ snd a <= snd (g a)).
  Proof.
    intros [Ht HL].
    set (U := map (fun b => (b_off b, b_size b)) (used_of (view st))).
    set (g := fun a : region => match find (fun u : region => fst u =? fst a) U with Some u => u | None => a end).
    destruct (inited st) eqn:Hi.
    2:{ pose proof Ht as (Hl & Hrest). rewrite Hi in Hrest.
        destruct HL as (H0 & _). rewrite (H0 Hi).
        exists g. unfold U, view. rewrite Hrest. cbn. split; [constructor|intros a []]. }
    pose proof Ht as (Hl & Hrest). rewrite Hi in Hrest. destruct Hrest as (Hcnt & Htl & Hco).
    assert (HU : forall o s, In (o, s) U <-> In (Block o s true) (view st)).
    { intros o s. unfold U, used_of. rewrite in_map_iff. split.
      - intros ([bo bs bu] & X & Y). apply filter_In in Y. cbn in *. destruct Y as [Y ->].
        injection X as -> ->. exact Y.
      - intros Y. exists (Block o s true). split; [reflexivity|]. apply filter_In. auto. }
    assert (Huniq : forall o s s', In (o, s) U -> In (o, s') U -> s = s').
    { intros o s s' A B. apply HU in A. apply HU in B. eapply (used_offsets_unique P MB HMB); eauto. }
    destruct HL as (_ & Hnd & Hto & Hfrom).
    assert (Hg : forall a, In a L -> In (g a) U /\ fst (g a) = fst a /\ snd a <= snd (g a)).
    { intros [o n] Ha. destruct (Hto _ _ Ha) as (s & A & B). apply HU in A.
      unfold g. cbn [fst snd].
      destruct (find (fun u : region => fst u =? o) U) as [[o' s']|] eqn:Ef.
      - apply find_some in Ef. cbn in Ef. destruct Ef as [F1 F2].
        assert (o' = o) by lia. subst o'. rewrite (Huniq _ _ _ F1 A) in *. cbn.
        split; [exact A|]. split; [reflexivity|]. lia.
      - exfalso. apply (find_none _ _ Ef) in A. cbn in A. lia. }
    exists g. split.
    - apply NoDup_Permutation.
      + (* U has no duplicates *)
        assert (forall l s e, tiles s l e -> NoDup (map (fun b => (b_off b, b_size b)) (used_of l))).
        { clear. induction l as [|b t IH]; intros s e H; cbn [used_of filter]; [constructor|].
          destruct H as (Ho & Hp & H). unfold used_of in IH.
          destruct (b_used b); [|eauto]. cbn [map]. constructor; [|eauto].
          intros C. apply in_map_iff in C. destruct C as (c & X & Y). apply filter_In in Y.
          destruct Y as [Y _]. destruct (tiles_in _ _ _ _ H Y). injection X as X1 X2. lia. }
        eauto.
      + apply (NoDup_map_inv fst). rewrite map_map.
        replace (map (fun x => fst (g x)) L) with (map fst L); [exact Hnd|].
        apply map_ext_in. intros a Ha. symmetry. apply Hg. exact Ha.
      + intros [o s]. split.
        * intros A. pose proof A as A'. apply HU in A'. destruct (Hfrom _ _ A') as [n Hn].
          destruct (Hg _ Hn) as (B1 & B2 & _). cbn in B2. destruct (g (o, n)) as [o' s'] eqn:Eg. cbn in B2. subst o'.
          rewrite <- (Huniq _ _ _ A B1) in Eg. rewrite <- Eg. now apply in_map.
        * intros A. apply in_map_iff in A. destruct A as (a & <- & Ha). apply Hg. exact Ha.
    - intros a Ha. destruct (Hg a Ha) as (_ & A & B). auto.
  Qed.

  Lemma sumz_perm a b : Permutation a b -> sumz a = sumz b.
  Proof. unfold sumz. induction 1; cbn [fold_right]; lia. Qed.

  Lemma sumz_le {A} (f g : A -> Z) l : (forall a, In a l -> f a <= g a) -> sumz (map f l) <= sumz (map g l).
  Proof.
    induction l as [|a t IH]; intros H; cbn in *; [lia|].
    specialize (IH (fun b Hb => H b (or_intror Hb))). specialize (H a (or_introl eq_refl)).
    unfold sumz in *. lia.
  Qed.

  Lemma used_ge_live st L : inv st L -> inited st = true ->
    sumz (map snd L) <= usedSpace P st.
  Proof.
    intros Hinv Hi. destruct (accounting st L Hinv) as [A _]. destruct (A Hi) as (_ & _ & ->).
    destruct (used_regions st L Hinv) as (g & Hp & Hg).
    apply (Permutation_map snd) in Hp. rewrite !map_map in Hp. cbn [snd] in Hp.
    apply sumz_perm in Hp. change (map (fun x : block => b_size x)) with (map b_size) in Hp. rewrite Hp. apply sumz_le. intros a Ha. apply Hg. exact Ha.
  Qed.

  (** Exactness while the table is not full. *)
  Definition linv_exact (st : astate) (L : list region) : Prop :=
    forall o n, In (o, n) L -> In (Block o n true) (view st).

  Lemma used_eq_live st L : inv st L -> inited st = true -> linv_exact st L ->
    usedSpace P st = sumz (map snd L).
  Proof.
    intros Hinv Hi Hex. destruct (accounting st L Hinv) as [A _]. destruct (A Hi) as (_ & _ & ->).
    destruct Hinv as [Ht (H0 & Hnd & Hto & Hfrom)].
    assert (Hp : Permutation (map (fun b => (b_off b, b_size b)) (used_of (view st))) L).
    { pose proof Ht as (Hl & Hrest). rewrite Hi in Hrest. destruct Hrest as (Hcnt & Htl & Hco).
      apply NoDup_Permutation.
      - assert (forall l s e, tiles s l e -> NoDup (map (fun b => (b_off b, b_size b)) (used_of l))).
        { clear. induction l as [|b t IH]; intros s e H; cbn [used_of filter]; [constructor|].
          destruct H as (Ho & Hp & H). unfold used_of in IH.
          destruct (b_used b); [|eauto]. cbn [map]. constructor; [|eauto].
          intros C. apply in_map_iff in C. destruct C as (c & X & Y). apply filter_In in Y.
          destruct Y as [Y _]. destruct (tiles_in _ _ _ _ H Y). injection X as X1 X2. lia. }
        eauto.
      - eapply NoDup_map_inv; eauto.
      - intros [o s]. unfold used_of. rewrite in_map_iff. split.
        + intros ([bo bs bu] & X & Y). apply filter_In in Y. cbn in *. destruct Y as [Y ->].
          injection X as -> ->. destruct (Hfrom _ _ Y) as [n Hn].
          pose proof (Hex _ _ Hn) as Hn'.
          rewrite (used_offsets_unique P MB HMB st o s n Ht Hi Y Hn'). exact Hn.
        + intros Y. exists (Block o s true). split; [reflexivity|]. apply filter_In. split; [|reflexivity].
          now apply Hex. }
    apply (Permutation_map snd) in Hp. rewrite map_map in Hp. cbn [snd] in Hp.
    apply sumz_perm. exact Hp.
  Qed.

  Lemma alloc_exact st L n ch st' b :
    inv st L -> linv_exact st L -> args_ok (OAlloc n ch) -> (bcount st < MB)%nat ->
    allocate P st n ch = Some (st', b) -> linv_exact st' (live_step L (OAlloc n ch) (RBuffer b)).
  Proof.
    intros Hinv Hex Ha Hfull E. cbn [live_step].
    destruct (data b) as [|o|] eqn:Ed.
    - pose proof (allocate_iff _ _ _ _ _ _ Hinv Ha E) as (_ & _ & H).
      destruct H as [-> ->]; [unfold granted; congruence|]. exact Hex.
    - destruct (allocate_reserved _ _ _ _ _ _ o Hinv Ha E Ed) as (s & _ & Hs & Hr).
      rewrite (Hs Hfull) in Hr. intros o' n' [X|X].
      + injection X as <- <-. apply (Hr (o, n * ch)). right; reflexivity.
      + apply (Hr (o', n')). left. split; [|apply Hex; exact X].
        destruct (inited st) eqn:Hi; [reflexivity|]. destruct Hinv as [_ (H0 & _)]. rewrite (H0 Hi) in X. destruct X.
    - pose proof (allocate_iff _ _ _ _ _ _ Hinv Ha E) as (_ & H & _).
      destruct H as (o & -> & _); [unfold granted; congruence|]. discriminate.
  Qed.

  Lemma rel_exact st L p st' b :
    inv st L -> linv_exact st L -> release P st p = Some (st', b) ->
    linv_exact st' (live_step L (ORelease p) (RBool b)).
  Proof.
    intros Hinv Hex E. destruct (release_spec _ _ _ _ _ Hinv E) as (_ & Hf & Ht).
    destruct b.
    - destruct (Ht eq_refl) as (o & s & -> & _ & _ & _ & Hi2 & Hr & _). cbn [live_step].
      intros o' n' X. apply filter_In in X. destruct X as [X1 X2]. cbn in X2.
      assert (Hi : inited st = true).
      { destruct (inited st) eqn:Hi; [reflexivity|]. destruct Hinv as [_ (H0 & _)]. rewrite (H0 Hi) in X1. destruct X1. }
      apply (Hr (o', n')). split; [split; [exact Hi|apply Hex; exact X1]|].
      intros C. injection C as -> ->. lia.
    - rewrite (Hf eq_refl). destruct p; exact Hex.
  Qed.

  (** ** C06: releasing everything *)
  Lemma all_free_single l : forall s e, coalesced l -> tiles s l e -> s < e ->
    (forall b, In b l -> b_used b = false) -> l = [Block s (e - s) false].
  Proof.
    intros s e Hc Ht Hlt Hf. destruct l as [|[o z u] t]; cbn [tiles] in Ht; [lia|].
    destruct Ht as (Ho & Hz & Ht). cbn [b_off b_size] in *.
    destruct t as [|c t].
    - cbn [tiles] in Ht. pose proof (Hf _ (or_introl eq_refl)) as Hu. cbn in Hu. subst. f_equal. f_equal. lia.
    - exfalso. rewrite coalesced_cons in Hc. destruct Hc as [[C|C] _].
      + rewrite (Hf _ (or_introl eq_refl)) in C. discriminate.
      + rewrite (Hf c (or_intror (or_introl eq_refl))) in C. discriminate.
  Qed.

  Lemma run_releases ps : forall st L, inv st L ->
    exists st' L', run P st L (map ORelease ps) = Some (st', L') /\ inv st' L' /\
      inited st' = inited st /\ pool st' = pool st /\
      (forall a, In a L' <-> In a L /\ ~ In (PPool (fst a)) ps).
  Proof.
    induction ps as [|p t IH]; intros st L Hinv; cbn [map run].
    - exists st, L. split; [reflexivity|]. repeat split; auto; try apply Hinv; tauto.
    - cbn [step].
      destruct (release P st p) as [[st1 b]|] eqn:E.
      2:{ exfalso. destruct Hinv as [Ht _]. eapply release_defined; eauto. }
      cbn [bind fst snd].
      assert (Hinv1 : inv st1 (live_step L (ORelease p) (RBool b))).
      { eapply (step_inv st L (ORelease p)); eauto; [split; exact I|]. cbn [step]. rewrite E. reflexivity. }
      destruct (IH st1 _ Hinv1) as (st' & L' & Er & Hinv' & Hi' & Hp' & HL').
      exists st', L'. split; [exact Er|]. split; [exact Hinv'|].
      destruct (release_spec _ _ _ _ _ Hinv E) as (Hb & Hf & Ht).
      split; [|split].
      + rewrite Hi'. destruct b; [|rewrite (Hf eq_refl); reflexivity].
        destruct (Ht eq_refl) as (o & s & _ & (Hi & _) & _ & _ & Hi1 & _). congruence.
      + rewrite Hp'. destruct b; [|rewrite (Hf eq_refl); reflexivity].
        destruct (Ht eq_refl) as (o & s & _ & _ & Hp & _). exact Hp.
      + intros a. rewrite HL'. cbn [In].
        destruct b.
        * destruct (proj1 Hb eq_refl) as (o & n & -> & Hin). cbn [live_step]. rewrite filter_In.
          destruct (Z.eq_dec (fst a) o) as [Ea|Ea].
          -- subst o. rewrite Z.eqb_refl. cbn. intuition congruence.
          -- replace (fst a =? o) with false by lia. cbn.
             assert (PPool o <> PPool (fst a)) by congruence. tauto.
        * assert (Hnot : forall o, p = PPool o -> ~ exists n, In (o, n) L).
          { intros o -> (n & Hin). assert (false = true) by (apply Hb; eauto). discriminate. }
          assert (Hls : live_step L (ORelease p) (RBool false) = L) by (destruct p; reflexivity).
          rewrite Hls. split; [|tauto]. intros [Ha Hn]. split; [exact Ha|].
          intros [->|C]; [|tauto]. apply (Hnot (fst a) eq_refl). exists (snd a). now destruct a.
  Qed.

  Lemma empty_live_pristine st L : inv st L -> inited st = true -> L = [] ->
    view st = [Block 0 P false] /\ bcount st = 1%nat.
  Proof.
    intros [Ht HL] Hi ->.
    pose proof Ht as (Hl & Hrest). rewrite Hi in Hrest. destruct Hrest as (Hcnt & Htl & Hco).
    assert (V : view st = [Block 0 (P - 0) false]).
    { apply all_free_single; auto; [lia|].
      intros [o s u] Hb. destruct u; [|reflexivity].
      destruct HL as (_ & _ & _ & Hfrom). destruct (Hfrom _ _ Hb) as [n []]. }
    rewrite Z.sub_0_r in V. split; [exact V|].
    destruct (tinv_split P MB HMB st Ht Hi) as (post & _ & Lv & _). rewrite V in Lv. cbn in Lv. lia.
  Qed.

  Lemma release_all_pristine st L ps : inv st L -> inited st = true ->
    (forall a, In a L -> In (PPool (fst a)) ps) ->
    exists st', run P st L (map ORelease ps) = Some (st', []) /\
      inited st' = true /\ bcount st' = 1%nat /\ freeSpace st' = P /\ usedSpace P st' = 0 /\
      forall n ch, args_ok (OAlloc n ch) -> n <> 0 -> (ch = 1 \/ ch = 2) -> n * ch <= P ->
        exists st2, allocate P st' n ch = Some (st2, Buffer (PPool 0) ch (srate st') n).
  Proof.
    intros Hinv Hi Hall.
    destruct (run_releases ps st L Hinv) as (st' & L' & Er & Hinv' & Hi' & Hp' & HL').
    assert (L' = []).
    { destruct L' as [|a t]; [reflexivity|]. exfalso.
      assert (In a (a :: t)) as Ha by (cbn; auto). apply HL' in Ha. destruct Ha as [A B]. apply B. auto. }
    subst L'. exists st'. split; [exact Er|]. rewrite Hi in Hi'. split; [exact Hi'|].
    destruct (empty_live_pristine st' [] Hinv' Hi' eq_refl) as [V C]. split; [exact C|].
    destruct (accounting st' [] Hinv') as [A _]. destruct (A Hi') as (A1 & A2 & A3).
    rewrite V in A3. cbn in A3. split; [lia|]. split; [exact A3|].
    intros n ch Ha Hn Hch Hle.
    destruct (allocate P st' n ch) as [[st2 b]|] eqn:E.
    2:{ exfalso. destruct Hinv' as [Ht _]. eapply allocate_defined; eauto. }
    destruct (allocate_iff _ _ _ _ _ _ Hinv' Ha E) as (G1 & G2 & _).
    assert (Hn0 : 0 <= n) by (destruct Ha; lia).
    assert (Hr : free_run P st' 0 (n * ch)).
    { destruct Hinv' as [Ht _]. eapply (block_free_run st' 0 P); eauto; try lia. rewrite V. cbn; auto. }
    assert (Hgr : granted b) by (apply G1; repeat split; eauto).
    destruct (G2 Hgr) as (o & -> & Ho & Hmin). exists st2.
    specialize (Hmin 0 Hr). destruct Ho as (Ho & _). replace o with 0 by lia. reflexivity.
  Qed.

  (** ** C10: isolation *)
  Lemma written_target o a : written o = Some a -> target o = Some (fst a).
  Proof.
    destruct o; cbn [written target]; try discriminate.
    - destruct src; [|discriminate]. destruct (_ && _); [|discriminate]. destruct (data b); congruence || (intros H; injection H as <-; reflexivity).
    - destruct l; [|discriminate]. destruct r; [|discriminate]. destruct (_ && _); [|discriminate]. destruct (data b); congruence || (intros H; injection H as <-; reflexivity).
    - destruct src; [|discriminate]. destruct (_ && _); [|discriminate]. destruct (data b); congruence || (intros H; injection H as <-; reflexivity).
  Qed.

  (** The written region is part of the live region of the target. *)
  Lemma written_live st L o w : inv st L -> client_ok L o -> written o = Some w ->
    exists n, In (fst w, n) L /\ snd w <= n.
  Proof.
    intros Hinv (_ & Hok) Hw. destruct o; cbn [written] in Hw; try discriminate.
    - destruct src; [|discriminate]. destruct (isValid b && (channels b =? 1)) eqn:Ev; [|discriminate].
      destruct Hok as (Hlb & _). unfold live_buffer in Hlb.
      destruct (data b); try discriminate. injection Hw as <-. cbn.
      exists (numSamples b * channels b). split; [exact Hlb|]. assert (C : channels b = 1) by lia. rewrite C. unfold frames. lia.
    - destruct l; [|discriminate]. destruct r; [|discriminate].
      destruct (isValid b && (channels b =? 2)) eqn:Ev; [|discriminate].
      destruct Hok as (Hlb & _). unfold live_buffer in Hlb.
      destruct (data b) as [|base|]; try discriminate. assert (Ew : w = (base, 2 * frames b count)) by congruence. subst w. cbn [fst snd].
      exists (numSamples b * channels b). split; [exact Hlb|]. assert (C : channels b = 2) by lia. rewrite C. unfold frames. lia.
    - destruct src; [|discriminate]. destruct (isValid b && (channels b =? 2)) eqn:Ev; [|discriminate].
      destruct Hok as (Hlb & _). unfold live_buffer in Hlb.
      destruct (data b) as [|base|]; try discriminate. assert (Ew : w = (base, 2 * frames b count)) by congruence. subst w. cbn [fst snd].
      exists (numSamples b * channels b). split; [exact Hlb|]. assert (C : channels b = 2) by lia. rewrite C. unfold frames. lia.
  Qed.

  Lemma isolation st L o st' r a :
    inv st L -> client_ok L o -> step P st o = Some (st', r) ->
    In a L -> In a (live_step L o r) -> target o <> Some (fst a) ->
    forall i, covers a i -> pool st' i = pool st i.
  Proof.
    intros Hinv Hok E Ha Ha' Htg i Hi.
    assert (Hfill : forall m' ok,
       step P st o = Some (setpool st m', RBool ok) ->
       (forall k, (forall w, written o = Some w -> ~ covers w k) -> m' k = pool st k) ->
       pool st' i = pool st i).
    { intros m' ok E2 Hm. rewrite E in E2. injection E2 as -> _. cbn [setpool pool].
      apply Hm. intros w Hw Hcw.
      destruct (written_live st L o w Hinv Hok Hw) as (n & Hn & Hle).
      pose proof (written_target _ _ Hw) as Htw.
      destruct Hinv as [Ht HL].
      destruct (linv_disjoint P MB HMB st L a (fst w, n) Ht HL Ha Hn) as [D|D].
      - cbn. congruence.
      - unfold covers in *. cbn [fst snd] in *. lia.
      - unfold covers in *. cbn [fst snd] in *. lia. }
    destruct o.
    - cbn [live_step] in Ha'. destruct Ha'.
    - cbn [live_step] in Ha'. destruct Ha'.
    - cbn [step] in E. destruct (allocate P st n ch) as [[st2 b]|] eqn:Ea; [|discriminate].
      injection E as <- <-.
      destruct Hinv as [Ht HL]. destruct Hok as ((Hn0 & Hc & Hw) & _).
      destruct (negb (inited st) || (n =? 0) || (negb (ch =? 1) && negb (ch =? 2))) eqn:Hg.
      { rewrite allocate_fail_guard in Ea by exact Hg. injection Ea as <- <-. reflexivity. }
      assert (Hin : inited st = true) by (destruct (inited st); [reflexivity|discriminate]).
      pose proof (allocate_shape P MB HP HMB st n ch Ht Hin ltac:(lia) ltac:(lia) Hn0 Hw) as Sh.
      destruct (lfind _ _).
      + destruct Sh as (? & ? & ? & ? & st3 & _ & _ & _ & Ea2 & _ & _ & Hp & _).
        rewrite Ea in Ea2. injection Ea2 as -> _. cbn. now rewrite Hp.
      + rewrite Ea in Sh. injection Sh as -> _. reflexivity.
    - cbn [step] in E. destruct (release P st p) as [[st2 b]|] eqn:Ea; [|discriminate].
      injection E as <- <-. cbn [fst].
      destruct (release_spec _ _ _ _ _ Hinv Ea) as (_ & Hf & Htr).
      destruct b; [|rewrite (Hf eq_refl); reflexivity].
      destruct (Htr eq_refl) as (? & ? & _ & _ & Hp & _). now rewrite Hp.
    - destruct (fill_defined st L _ Hinv Hok I) as (m' & ok & E2 & _ & _ & Hm & _). eauto.
    - destruct (fill_defined st L _ Hinv Hok I) as (m' & ok & E2 & _ & _ & Hm & _). eauto.
    - destruct (fill_defined st L _ Hinv Hok I) as (m' & ok & E2 & _ & _ & Hm & _). eauto.
  Qed.

  (** ** C11: reads *)
  Lemma getSample_safe st L b i : inv st L -> live_buffer L b -> 0 <= i < 2 ^ 64 ->
    0 <= numSamples b -> (channels b = 1 \/ channels b = 2) ->
    exists x, getSample P (pool st) b i = Some x /\
      (numSamples b <= i \/ data b = PNull -> x = fzero) /\
      (forall base, data b = PPool base -> i < numSamples b -> x = pool st (base + i * channels b)).
  Proof.
    intros Hinv Hb Hi Hn Hch. unfold getSample.
    destruct (data b) as [|base|] eqn:Ed.
    - exists fzero. repeat split; auto. intros ? C; discriminate.
    - destruct (live_region st L b base Hinv Hb Ed) as (I1 & I2 & I3). cbn [fst snd] in *.
      destruct (Z.leb_spec (numSamples b) i).
      + exists fzero. repeat split; auto. lia.
      + rewrite wrap64_small by nia. unfold pget.
        replace ((0 <=? base + i * channels b) && (base + i * channels b <? P)) with true by nia.
        eexists. split; [reflexivity|]. split; [intros [C|C]; [lia|discriminate]|].
        intros base' X _. injection X as <-. reflexivity.
    - unfold live_buffer in Hb. rewrite Ed in Hb. contradiction.
  Qed.

  Lemma getStereo_safe st L b i : inv st L -> live_buffer L b -> 0 <= i < 2 ^ 64 ->
    0 <= numSamples b -> (channels b = 1 \/ channels b = 2) ->
    exists x y, getStereoSample P (pool st) b i = Some (x, y) /\
      (numSamples b <= i \/ data b = PNull -> x = fzero /\ y = fzero) /\
      (forall base, data b = PPool base -> i < numSamples b ->
         x = pool st (base + i * channels b) /\
         y = pool st (base + i * channels b + (channels b - 1))).
  Proof.
    intros Hinv Hb Hi Hn Hch. unfold getStereoSample.
    destruct (data b) as [|base|] eqn:Ed.
    - exists fzero, fzero. repeat split; auto; discriminate.
    - destruct (live_region st L b base Hinv Hb Ed) as (I1 & I2 & I3). cbn [fst snd] in *.
      destruct (Z.leb_spec (numSamples b) i).
      + exists fzero, fzero. repeat split; auto; lia.
      + destruct (Z.eqb_spec (channels b) 1) as [E1|E1].
        * unfold pget. replace ((0 <=? base + i) && (base + i <? P)) with true by nia. cbn [bind].
          do 2 eexists. split; [reflexivity|]. split; [intros [C|C]; [lia|discriminate]|].
          intros base' X _. injection X as <-. rewrite E1. split; f_equal; lia.
        * assert (E2 : channels b = 2) by lia. rewrite E2 in *.
          rewrite (wrap64_small (i * 2)) by lia. rewrite (wrap64_small (i * 2 + 1)) by lia.
          unfold pget. replace ((0 <=? base + i * 2) && (base + i * 2 <? P)) with true by lia. cbn [bind].
          replace ((0 <=? base + (i * 2 + 1)) && (base + (i * 2 + 1) <? P)) with true by lia. cbn [bind].
          do 2 eexists. split; [reflexivity|]. split; [intros [C|C]; [lia|discriminate]|].
          intros base' X _. injection X as <-. split; f_equal; lia.
    - unfold live_buffer in Hb. rewrite Ed in Hb. contradiction.
  Qed.

  (** ** Histories with a non-full table *)
  Lemma run_exact ops : forall st L, inv st L -> linv_exact st L ->
    history_ok P st L ops -> roomy P MB st L ops ->
    exists st' L', run P st L ops = Some (st', L') /\ inv st' L' /\ linv_exact st' L'.
  Proof.
    induction ops as [|o t IH]; intros st L Hinv Hex Hh Hro; cbn [run].
    - exists st, L. auto.
    - destruct Hh as [Hok Hh]. destruct Hro as [Hfull Hro].
      destruct (step P st o) as [[st1 r]|] eqn:E; [|exfalso; eapply step_defined; eauto].
      cbn [bind fst snd].
      apply IH; [eapply step_inv; eauto | | apply Hh; reflexivity | apply Hro; reflexivity].
      clear IH Hh Hro.
      assert (Hfill : forall m' ok, step P st o = Some (setpool st m', RBool ok) ->
        live_step L o (RBool ok) = L -> linv_exact st1 (live_step L o r)).
      { intros m' ok E2 El. rewrite E in E2. injection E2 as -> ->. rewrite El. exact Hex. }
      destruct o.
      + intros ? ? [].
      + intros ? ? [].
      + cbn [step] in E. destruct (allocate P st n ch) as [[st2 b]|] eqn:Ea; [|discriminate].
        injection E as <- <-. eapply alloc_exact; eauto. apply Hok.
      + cbn [step] in E. destruct (release P st p) as [[st2 b]|] eqn:Ea; [|discriminate].
        injection E as <- <-. eapply rel_exact; eauto.
      + destruct (fill_defined st L _ Hinv Hok I) as (m' & ok & E2 & _). eapply Hfill; eauto.
      + destruct (fill_defined st L _ Hinv Hok I) as (m' & ok & E2 & _). eapply Hfill; eauto.
      + destruct (fill_defined st L _ Hinv Hok I) as (m' & ok & E2 & _). eapply Hfill; eauto.
  Qed.

  Lemma reachable_roomy_inv st L : reachable_roomy P MB st L -> inv st L /\ linv_exact st L.
  Proof.
    intros (g & gp & ops & Hg & Hh & Hro & Hr).
    destruct (run_exact ops _ _ (construct_inv g gp Hg)) as (st' & L' & E & Hi & Hx); auto.
    { intros ? ? []. }
    rewrite Hr in E. injection E as <- <-. auto.
  Qed.

  Lemma roomy_free_run st L o n : inv st L -> linv_exact st L -> inited st = true ->
    free_run P st o n <-> unclaimed_run P L o n.
  Proof.
    intros Hinv Hex Hi. pose proof Hinv as [Ht (H0 & Hnd & Hto & Hfrom)].
    assert (Hres : forall a, reserved st a <-> In a L).
    { intros [p s]. split.
      - intros (_ & H). cbn [fst snd] in H. fold (view st) in H. destruct (Hfrom _ _ H) as [m Hm].
        pose proof (Hex _ _ Hm) as Hm'.
        rewrite (used_offsets_unique P MB HMB st p s m Ht Hi H Hm'). exact Hm.
      - intros H. split; [exact Hi|]. apply (Hex _ _ H). }
    unfold free_run, unclaimed_run, free_cell. split.
    - intros (A & B & C). repeat split; auto. intros i a Hia Ha. apply (C i Hia). apply Hres. exact Ha.
    - intros (A & B & C). split; [exact A|]. split; [exact B|]. intros i Hia.
      split; [exact Hi|]. split; [lia|]. intros a Ha. apply (C i a Hia). apply Hres. exact Ha.
  Qed.

  Lemma allocate_roomy st L n ch st' b :
    inv st L -> linv_exact st L -> args_ok (OAlloc n ch) -> allocate P st n ch = Some (st', b) ->
    (isValid b = true <-> inited st = true /\ n <> 0 /\ (ch = 1 \/ ch = 2) /\ exists o, unclaimed_run P L o (n * ch)) /\
    (isValid b = true -> exists o, b = Buffer (PPool o) ch (srate st) n /\ unclaimed_run P L o (n * ch) /\
                   forall o', unclaimed_run P L o' (n * ch) -> o <= o').
  Proof.
    intros Hinv Hex Ha E.
    destruct (allocate_iff st L n ch st' b Hinv Ha E) as (A & B & C).
    assert (G : isValid b = true <-> granted b).
    { unfold granted. split.
      - unfold isValid. destruct (data b); discriminate || (intros _ X; discriminate X).
      - intros Hg. destruct (B Hg) as (o & -> & _). apply A in Hg. destruct Hg as (_ & Hn & Hch & _).
        unfold isValid. cbn [data channels numSamples]. destruct Ha as (Hn0 & _). lia. }
    split.
    - rewrite G, A. split; intros (Hi & H1 & H2 & o & Ho); (split; [auto|]); (split; [auto|]); (split; [auto|]);
        exists o; apply (roomy_free_run st L o (n * ch) Hinv Hex Hi); exact Ho.
    - rewrite G. intros Hg. pose proof (proj1 A Hg) as (Hi & _). destruct (B Hg) as (o & -> & Ho & Hm).
      exists o. split; [reflexivity|]. split; [apply (roomy_free_run st L o (n * ch) Hinv Hex Hi); exact Ho|].
      intros o' Ho'. apply Hm. apply (roomy_free_run st L o' (n * ch) Hinv Hex Hi). exact Ho'.
  Qed.

  Lemma isValid_granted st L n ch st' b :
    inv st L -> args_ok (OAlloc n ch) -> allocate P st n ch = Some (st', b) ->
    isValid b = true <-> granted b.
  Proof.
    intros Hinv Ha E. destruct (allocate_iff st L n ch st' b Hinv Ha E) as (A & B & C).
    unfold granted. split.
    - unfold isValid. destruct (data b); discriminate || (intros _ X; discriminate X).
    - intros Hg. destruct (B Hg) as (o & -> & _). apply A in Hg. destruct Hg as (_ & Hn & Hch & _).
      unfold isValid. cbn [data channels numSamples]. destruct Ha as (Hn0 & _). lia.
  Qed.

  Lemma allocate_first_fit st L n ch st' b :
    inv st L -> args_ok (OAlloc n ch) -> allocate P st n ch = Some (st', b) ->
    (isValid b = true <-> inited st = true /\ n <> 0 /\ (ch = 1 \/ ch = 2) /\ exists o, free_run P st o (n * ch)) /\
    (isValid b = true -> exists o, b = Buffer (PPool o) ch (srate st) n /\ free_run P st o (n * ch) /\
                   forall o', free_run P st o' (n * ch) -> o <= o').
  Proof.
    intros Hinv Ha E. rewrite (isValid_granted _ _ _ _ _ _ Hinv Ha E).
    destruct (allocate_iff st L n ch st' b Hinv Ha E) as (A & B & C). split; assumption.
  Qed.

  (** ** C07: full table *)
  Lemma bcount_le st L : inv st L -> (bcount st <= MB)%nat.
  Proof.
    intros [Ht _]. destruct (inited st) eqn:Hi.
    - destruct (tinv_split P MB HMB st Ht Hi) as (post & _ & A & B). lia.
    - destruct Ht as (_ & Hr). rewrite Hi in Hr. lia.
  Qed.

  Lemma full_allocate st L n ch st' b o :
    inv st L -> args_ok (OAlloc n ch) -> bcount st = MB ->
    allocate P st n ch = Some (st', b) -> data b = PPool o ->
    bcount st' = MB /\
    exists s, n * ch <= s /\ reserved st' (o, s) /\ free_run P st o s /\ ~ free_cell P st (o + s).
  Proof.
    intros Hinv (Hn0 & Hc & Hw) Hfull E Ed. pose proof Hinv as [Ht HL].
    destruct (negb (inited st) || (n =? 0) || (negb (ch =? 1) && negb (ch =? 2))) eqn:Hg.
    { rewrite allocate_fail_guard in E by exact Hg. injection E as <- <-. discriminate. }
    assert (Hi : inited st = true) by (destruct (inited st); [reflexivity|discriminate]).
    pose proof (allocate_shape P MB HP HMB st n ch Ht Hi ltac:(lia) ltac:(lia) Hn0 Hw) as Sh.
    destruct (lfind _ _) eqn:El.
    2:{ rewrite Sh in E. injection E as <- <-. discriminate. }
    destruct Sh as (l1 & o1 & s & l2 & st2 & Ev & Hs & Hpre & Ea & Hi2 & _ & _ & Hl2 & Hc2 & Ev2).
    rewrite Ea in E. injection E as <- <-. cbn in Ed. injection Ed as <-.
    replace ((0 <? s - n * ch) && (bcount st <? MB)%nat) with false in Ev2 by lia.
    assert (Hin : In (Block o1 s false) (view st)) by (rewrite Ev; apply in_elt).
    split.
    { rewrite Hc2, Ev2. destruct (tinv_split P MB HMB st Ht Hi) as (post & _ & A & B).
      rewrite Ev in A. rewrite <- Hfull, <- A. rewrite !app_length. reflexivity. }
    exists s. split; [exact Hs|]. split; [|split].
    - split; [exact Hi2|]. fold (view st2). rewrite Ev2. apply in_elt.
    - eapply block_free_run; eauto; lia.
    - intros (_ & Hr & Hf).
      destruct Ht as (_ & Hrest). rewrite Hi in Hrest. destruct Hrest as (_ & Htl & Hco).
      destruct (in_split_coalesced _ _ _ _ Hco Htl Hin eq_refl) as ([bo bs bu] & B1 & B2 & B3 & B4).
      { cbn. lia. }
      cbn in *. subst bu. apply (Hf (bo, bs)); [split; assumption|]. unfold covers. cbn. lia.
  Qed.

  (** ** C08: oversized requests *)
  Lemma oversized_rejected st L n ch st' b :
    inv st L -> args_ok (OAlloc n ch) -> P < n * ch -> allocate P st n ch = Some (st', b) ->
    isValid b = false /\ st' = st.
  Proof.
    intros Hinv Ha Hbig E. destruct (allocate_iff st L n ch st' b Hinv Ha E) as (A & B & C).
    destruct (data b) eqn:Ed.
    - destruct C as [-> ->]; [unfold granted; congruence|]. auto.
    - exfalso. destruct B as (p & _ & (F1 & F2 & _) & _); [unfold granted; congruence|]. lia.
    - exfalso. destruct B as (p & _ & (F1 & F2 & _) & _); [unfold granted; congruence|]. lia.
  Qed.
End Hist.

(** ** C03: failing calls, in every state *)
Lemma setpool_same st : setpool st (pool st) = st.
Proof. destruct st; reflexivity. Qed.

Lemma failed_unchanged P st o st' r :
  step P st o = Some (st', r) -> failed r -> args_ok o -> st' = st.
Proof.
  intros E Hf Hargs. destruct o; cbn [step] in E.
  - destruct (init P st sr); [|discriminate]. injection E as <- <-. destruct Hf.
  - destruct (reset P st); [|discriminate]. injection E as <- <-. destruct Hf.
  - unfold allocate in E.
    destruct (negb (inited st) || (n =? 0) || (negb (ch =? 1) && negb (ch =? 2))) eqn:Hg.
    { cbn in E. injection E as <- <-. reflexivity. }
    destruct (find_fit _ _ _ _) as [[i|]|]; cbn [bind] in E; [| injection E as <- <-; reflexivity | discriminate].
    destruct (aget (blocks st) i) as [b|]; cbn [bind] in E; [|discriminate].
    exfalso.
    match type of E with context [bind (bind ?X ?Y) ?F] => destruct X as [q|]; cbn [bind] in E; [|discriminate] end.
    match type of E with context [if ?c then _ else _] => destruct c; cbn [bind] in E; [|discriminate] end.
    injection E as <- <-. cbn [failed] in Hf. unfold isValid in Hf. cbn [snd data channels numSamples] in Hf.
    destruct Hargs as (A & _). lia.
  - unfold release in E.
    destruct (negb (inited st)); [cbn in E; injection E as <- <-; reflexivity|].
    destruct p; [cbn in E; injection E as <- <-; reflexivity| |cbn in E; injection E as <- <-; reflexivity].
    destruct ((off <? 0) || (P <=? off)); [cbn in E; injection E as <- <-; reflexivity|].
    destruct (find_used _ _ _ _) as [[i|]|]; cbn [bind] in E; [| injection E as <- <-; reflexivity | discriminate].
    destruct (aget _ _); cbn [bind] in E; [|discriminate].
    destruct (aset _ _ _); cbn [bind] in E; [|discriminate].
    destruct (merge_adjacent _ _); cbn [bind] in E; [|discriminate].
    injection E as <- <-. discriminate Hf.
  - unfold fillMono in E. destruct src; [|cbn in E; injection E as <- <-; apply setpool_same].
    destruct (_ && _); [|cbn in E; injection E as <- <-; apply setpool_same].
    destruct (data b); [discriminate| |discriminate].
    destruct (copy_loop _ _ _ _ _ _); cbn [bind] in E; [|discriminate]. injection E as <- <-. discriminate Hf.
  - unfold fillStereo in E. destruct l; [|cbn in E; injection E as <- <-; apply setpool_same].
    destruct r0; [|cbn in E; injection E as <- <-; apply setpool_same].
    destruct (_ && _); [|cbn in E; injection E as <- <-; apply setpool_same].
    destruct (data b); [discriminate| |discriminate].
    destruct (copy2_loop _ _ _ _ _ _ _); cbn [bind] in E; [|discriminate]. injection E as <- <-. discriminate Hf.
  - unfold fillStereoInterleaved in E. destruct src; [|cbn in E; injection E as <- <-; apply setpool_same].
    destruct (_ && _); [|cbn in E; injection E as <- <-; apply setpool_same].
    destruct (data b); [discriminate| |discriminate].
    destruct (copy_loop _ _ _ _ _ _); cbn [bind] in E; [|discriminate]. injection E as <- <-. discriminate Hf.
Qed.

(** ** C10: init and reset clear the pool *)
Lemma init_zero P st o st' r : step P st o = Some (st', r) ->
  match o with OInit _ => True | OReset => inited st = true | _ => False end ->
  forall i, 0 <= i < P -> pool st' i = fzero.
Proof.
  assert (H : forall sr st2, init P st sr = Some st2 -> forall i, 0 <= i < P -> pool st2 i = fzero).
  { intros sr st2 E i Hi. unfold init in E. destruct (aset _ _ _); [|discriminate].
    cbn [bind] in E. injection E as <-. cbn [pool].
    replace ((0 <=? i) && (i <? P)) with true by lia. reflexivity. }
  intros E Ho. destruct o; try contradiction; cbn [step] in E.
  - destruct (init P st sr) eqn:E1; [|discriminate]. injection E as <- <-. eauto.
  - unfold reset in E. rewrite Ho in E. destruct (init P st (srate st)) eqn:E1; [|discriminate].
    injection E as <- <-. eauto.
Qed.
