(** Final forms of the allocator facts, with reachability as hypothesis. *)
From Coq Require Import ZArith Bool List Lia ZifyBool.
From Verif Require Import Flt AllocModel AllocSpec AllocProofs AllocProofs2.
Import ListNotations.
Local Open Scope Z_scope.

Section Final.
  Variable P : Z.
  Variable MB : nat.
  Hypothesis HPM : params_ok P MB.
  Let HP : 0 < P < 2 ^ 64 := proj1 HPM.
  Let HMB : (1 <= MB)%nat := proj2 HPM.

  Lemma f_disjoint st L : reachable P MB st L ->
    Forall (inside P) L /\ ForallOrdPairs disjoint L.
  Proof.
    intros H. apply (reachable_inv P MB HP HMB) in H. destruct H as [Ht HL]. split.
    - apply Forall_forall. intros a Ha. eapply linv_inside; eauto.
    - eapply linv_pairwise; eauto.
  Qed.

  Lemma f_first_fit st L n ch st' b : reachable P MB st L -> args_ok (OAlloc n ch) ->
    allocate P st n ch = Some (st', b) ->
    (isValid b = true <-> inited st = true /\ n <> 0 /\ (ch = 1 \/ ch = 2) /\ exists o, free_run P st o (n * ch)) /\
    (isValid b = true -> exists o, b = Buffer (PPool o) ch (srate st) n /\ free_run P st o (n * ch) /\
                   forall o', free_run P st o' (n * ch) -> o <= o').
  Proof. intros H. apply (allocate_first_fit P MB HP HMB st L). now apply reachable_inv. Qed.

  Lemma f_first_fit_roomy st L n ch st' b : reachable_roomy P MB st L -> args_ok (OAlloc n ch) ->
    allocate P st n ch = Some (st', b) ->
    (isValid b = true <-> inited st = true /\ n <> 0 /\ (ch = 1 \/ ch = 2) /\ exists o, unclaimed_run P L o (n * ch)) /\
    (isValid b = true -> exists o, b = Buffer (PPool o) ch (srate st) n /\ unclaimed_run P L o (n * ch) /\
                   forall o', unclaimed_run P L o' (n * ch) -> o <= o').
  Proof.
    intros H. apply (reachable_roomy_inv P MB HP HMB) in H. destruct H.
    apply (allocate_roomy P MB HP HMB st L); auto.
  Qed.

  Lemma f_accounting st L : reachable P MB st L ->
    (inited st = true -> freeSpace st + usedSpace P st = P /\ 0 <= freeSpace st <= P /\ total L <= usedSpace P st) /\
    (inited st = false -> freeSpace st = 0 /\ L = []).
  Proof.
    intros H. apply (reachable_inv P MB HP HMB) in H.
    destruct (accounting P MB HP HMB st L H) as [A B]. split; intros Hi.
    - destruct (A Hi) as (A1 & A2 & _). repeat split; auto; try lia.
      exact (used_ge_live P MB HP HMB st L H Hi).
    - destruct (B Hi). split; auto. destruct H as [_ (HN & _)]. auto.
  Qed.

  Lemma f_accounting_exact st L : reachable_roomy P MB st L -> inited st = true ->
    usedSpace P st = total L.
  Proof.
    intros H Hi. apply (reachable_roomy_inv P MB HP HMB) in H. destruct H.
    apply (used_eq_live P MB HP HMB st L); auto.
  Qed.

  Lemma f_release st L p st' b : reachable P MB st L -> release P st p = Some (st', b) ->
    (b = true <-> exists o n, p = PPool o /\ In (o, n) L) /\
    (b = true -> exists o s, p = PPool o /\ reserved st (o, s) /\ pool st' = pool st /\
        (forall a, reserved st' a <-> reserved st a /\ a <> (o, s)) /\
        (forall i, free_cell P st' i <-> free_cell P st i \/ covers (o, s) i)).
  Proof.
    intros H E. apply (reachable_inv P MB HP HMB) in H.
    destruct (release_spec P MB HP HMB st L p st' b H E) as (A & B & C). split; [exact A|].
    intros Hb. destruct (C Hb) as (o & s & C1 & C2 & C3 & _ & _ & C4 & C5). exists o, s. auto.
  Qed.

  Lemma f_release_all st L ps : reachable P MB st L -> inited st = true ->
    (forall a, In a L -> In (PPool (fst a)) ps) ->
    exists st', run P st L (map ORelease ps) = Some (st', []) /\
      bcount st' = 1%nat /\ freeSpace st' = P /\ usedSpace P st' = 0 /\
      forall n ch, 0 < n -> (ch = 1 \/ ch = 2) -> n * ch <= P ->
        exists st2, allocate P st' n ch = Some (st2, Buffer (PPool 0) ch (srate st') n).
  Proof.
    intros H Hi Hall. apply (reachable_inv P MB HP HMB) in H.
    destruct (release_all_pristine P MB HP HMB st L ps H Hi Hall) as (st' & A & B & C & D & E & F).
    exists st'. repeat split; auto. intros n ch Hn Hc Hle. apply F; auto; try lia.
    repeat split; lia.
  Qed.

  Lemma f_defined st L o : reachable P MB st L -> client_ok L o ->
    exists st' r, step P st o = Some (st', r) /\ (bcount st' <= MB)%nat.
  Proof.
    intros H Hok. apply (reachable_inv P MB HP HMB) in H.
    destruct (step P st o) as [[st' r]|] eqn:E.
    - exists st', r. split; [reflexivity|].
      eapply (bcount_le P MB HMB). eapply (step_inv P MB HP HMB); eauto.
    - exfalso. eapply (step_defined P MB HP HMB); eauto.
  Qed.

  Lemma f_full st L n ch st' b o : reachable P MB st L -> args_ok (OAlloc n ch) -> bcount st = MB ->
    allocate P st n ch = Some (st', b) -> data b = PPool o ->
    bcount st' = MB /\
    exists s, n * ch <= s /\ reserved st' (o, s) /\ free_run P st o s /\ ~ free_cell P st (o + s).
  Proof.
    intros H. apply (full_allocate P MB HP HMB st L). now apply (reachable_inv P MB HP HMB).
  Qed.

  Lemma f_oversized st L n ch st' b : reachable P MB st L -> args_ok (OAlloc n ch) -> P < n * ch ->
    allocate P st n ch = Some (st', b) -> isValid b = false /\ st' = st.
  Proof. intros H. apply (oversized_rejected P MB HP HMB st L). now apply reachable_inv. Qed.

  Lemma f_isolation st L o st' r a : reachable P MB st L -> client_ok L o ->
    step P st o = Some (st', r) -> In a L -> In a (live_step L o r) -> target o <> Some (fst a) ->
    forall i, covers a i -> pool st' i = pool st i.
  Proof. intros H. apply (isolation P MB HP HMB st L). now apply reachable_inv. Qed.

  (** Fill read-back, stated through the public read functions. *)
  Lemma f_fill_mono st L b s c : reachable P MB st L ->
    live_buffer L b -> isValid b = true -> channels b = 1 -> 0 <= c < 2 ^ 64 -> frames b c <= Z.of_nat (length s) ->
    exists st', step P st (OFillMono b (Some s) c) = Some (st', RBool true) /\
      (forall i, 0 <= i < frames b c -> getSample P (pool st') b i = nth_error s (Z.to_nat i)) /\
      (forall i, frames b c <= i -> getSample P (pool st') b i = getSample P (pool st) b i) /\
      (forall k, (forall base, data b = PPool base -> ~ (base <= k < base + frames b c)) -> pool st' k = pool st k).
  Proof.
    intros H Hb Hv Hc Hcnt Hlen. apply (reachable_inv P MB HP HMB) in H.
    assert (Hok : client_ok L (OFillMono b (Some s) c)) by (split; [exact I|]; auto).
    destruct (fill_defined P MB HP HMB st L _ H Hok I) as (m' & ok & E & _ & Hiff & Hfr & Hrb).
    assert (Hw : exists base, data b = PPool base /\ written (OFillMono b (Some s) c) = Some (base, frames b c)).
    { cbn [written]. rewrite Hv, Hc. cbn [Z.eqb andb Pos.eqb].
      unfold live_buffer in Hb. destruct (data b) as [|base|] eqn:Ed.
      - unfold isValid in Hv. rewrite Ed in Hv. discriminate.
      - eauto.
      - contradiction. }
    destruct Hw as (base & Ed & Hw).
    assert (ok = true) by (apply Hiff; congruence). subst ok.
    pose proof (live_region P MB HMB st L b base H Hb Ed) as (I1 & I2 & I3). cbn [fst snd] in *. rewrite Hc in *.
    assert (Hns : 0 < numSamples b) by (unfold isValid in Hv; lia).
    assert (Hf : 0 <= frames b c <= numSamples b) by (unfold frames; lia).
    exists (setpool st m'). split; [exact E|]. cbn [pool setpool]. split; [|split].
    - intros i Hi. specialize (Hrb base Ed eq_refl i Hi). unfold sget in Hrb.
      replace (i <? 0) with false in Hrb by lia. rewrite Hrb.
      unfold getSample. rewrite Ed, Hc. replace (numSamples b <=? i) with false by lia.
      rewrite wrap64_small by lia. unfold pget.
      replace ((0 <=? base + i * 1) && (base + i * 1 <? P)) with true by lia. do 2 f_equal. lia.
    - intros i Hi. unfold getSample. rewrite Ed, Hc. destruct (Z.leb_spec (numSamples b) i); [reflexivity|].
      rewrite wrap64_small by lia. unfold pget.
      destruct ((0 <=? base + i * 1) && (base + i * 1 <? P)); [|reflexivity]. f_equal.
      apply Hfr. intros a Ha. rewrite Hw in Ha. injection Ha as <-. unfold covers. cbn [fst snd]. lia.
    - intros k Hk. apply Hfr. intros a Ha. rewrite Hw in Ha. injection Ha as <-. unfold covers. cbn [fst snd]. auto.
  Qed.

  Lemma f_fill_stereo st L b l r c : reachable P MB st L ->
    live_buffer L b -> isValid b = true -> channels b = 2 -> 0 <= c < 2 ^ 64 ->
    frames b c <= Z.of_nat (length l) -> frames b c <= Z.of_nat (length r) ->
    exists st', step P st (OFillStereo b (Some l) (Some r) c) = Some (st', RBool true) /\
      (forall i, 0 <= i < frames b c -> exists x y,
         getStereoSample P (pool st') b i = Some (x, y) /\
         nth_error l (Z.to_nat i) = Some x /\ nth_error r (Z.to_nat i) = Some y) /\
      (forall i, frames b c <= i -> getStereoSample P (pool st') b i = getStereoSample P (pool st) b i) /\
      (forall k, (forall base, data b = PPool base -> ~ (base <= k < base + 2 * frames b c)) -> pool st' k = pool st k).
  Proof.
    intros H Hb Hv Hc Hcnt Hll Hlr. apply (reachable_inv P MB HP HMB) in H.
    assert (Hok : client_ok L (OFillStereo b (Some l) (Some r) c)) by (split; [exact I|]; auto).
    destruct (fill_defined P MB HP HMB st L _ H Hok I) as (m' & ok & E & _ & Hiff & Hfr & Hrb).
    assert (Hw : exists base, data b = PPool base /\ written (OFillStereo b (Some l) (Some r) c) = Some (base, 2 * frames b c)).
    { cbn [written]. rewrite Hv, Hc. change (true && (2 =? 2)) with true. cbv iota.
      unfold live_buffer in Hb. destruct (data b) as [|base|] eqn:Ed.
      - unfold isValid in Hv. rewrite Ed in Hv. discriminate.
      - eauto.
      - contradiction. }
    destruct Hw as (base & Ed & Hw).
    assert (ok = true) by (apply Hiff; congruence). subst ok.
    pose proof (live_region P MB HMB st L b base H Hb Ed) as (I1 & I2 & I3). cbn [fst snd] in *. rewrite Hc in *.
    assert (Hns : 0 < numSamples b) by (unfold isValid in Hv; lia).
    assert (Hf : 0 <= frames b c <= numSamples b) by (unfold frames; lia).
    exists (setpool st m'). split; [exact E|]. cbn [pool setpool]. split; [|split].
    - intros i Hi. destruct (Hrb base Ed eq_refl i Hi) as [R1 R2]. unfold sget in R1, R2.
      replace (i <? 0) with false in R1, R2 by lia. do 2 eexists. split; [|split; [exact R1|exact R2]].
      unfold getStereoSample. rewrite Ed, Hc. replace (numSamples b <=? i) with false by lia.
      change (2 =? 1) with false. cbv iota.
      rewrite !wrap64_small by (rewrite ?wrap64_small by lia; lia). unfold pget.
      replace ((0 <=? base + i * 2) && (base + i * 2 <? P)) with true by lia. cbn [bind].
      replace ((0 <=? base + (i * 2 + 1)) && (base + (i * 2 + 1) <? P)) with true by lia. cbn [bind].
      do 3 f_equal; lia.
    - intros i Hi. unfold getStereoSample. rewrite Ed, Hc. destruct (Z.leb_spec (numSamples b) i); [reflexivity|].
      change (2 =? 1) with false. cbv iota.
      rewrite !wrap64_small by (rewrite ?wrap64_small by lia; lia). unfold pget.
      replace ((0 <=? base + i * 2) && (base + i * 2 <? P)) with true by lia. cbn [bind].
      replace ((0 <=? base + (i * 2 + 1)) && (base + (i * 2 + 1) <? P)) with true by lia. cbn [bind].
      do 2 f_equal; apply Hfr; intros a Ha; rewrite Hw in Ha;
        (assert (a = (base, 2 * frames b c)) by congruence); subst a; unfold covers; cbn [fst snd]; lia.
    - intros k Hk. apply Hfr. intros a Ha. rewrite Hw in Ha.
      assert (a = (base, 2 * frames b c)) by congruence. subst a. unfold covers. cbn [fst snd]. auto.
  Qed.

  Lemma f_fill_inter st L b s c : reachable P MB st L ->
    live_buffer L b -> isValid b = true -> channels b = 2 -> 0 <= c < 2 ^ 64 ->
    2 * frames b c <= Z.of_nat (length s) ->
    exists st', step P st (OFillInter b (Some s) c) = Some (st', RBool true) /\
      (forall i, 0 <= i < frames b c -> exists x y,
         getStereoSample P (pool st') b i = Some (x, y) /\
         nth_error s (Z.to_nat (2 * i)) = Some x /\ nth_error s (Z.to_nat (2 * i + 1)) = Some y) /\
      (forall i, frames b c <= i -> getStereoSample P (pool st') b i = getStereoSample P (pool st) b i) /\
      (forall k, (forall base, data b = PPool base -> ~ (base <= k < base + 2 * frames b c)) -> pool st' k = pool st k).
  Proof.
    intros H Hb Hv Hc Hcnt Hlen. apply (reachable_inv P MB HP HMB) in H.
    assert (Hok : client_ok L (OFillInter b (Some s) c)) by (split; [exact I|]; auto).
    destruct (fill_defined P MB HP HMB st L _ H Hok I) as (m' & ok & E & _ & Hiff & Hfr & Hrb).
    assert (Hw : exists base, data b = PPool base /\ written (OFillInter b (Some s) c) = Some (base, 2 * frames b c)).
    { cbn [written]. rewrite Hv, Hc. change (true && (2 =? 2)) with true. cbv iota.
      unfold live_buffer in Hb. destruct (data b) as [|base|] eqn:Ed.
      - unfold isValid in Hv. rewrite Ed in Hv. discriminate.
      - eauto.
      - contradiction. }
    destruct Hw as (base & Ed & Hw).
    assert (ok = true) by (apply Hiff; congruence). subst ok.
    pose proof (live_region P MB HMB st L b base H Hb Ed) as (I1 & I2 & I3). cbn [fst snd] in *. rewrite Hc in *.
    assert (Hns : 0 < numSamples b) by (unfold isValid in Hv; lia).
    assert (Hf : 0 <= frames b c <= numSamples b) by (unfold frames; lia).
    exists (setpool st m'). split; [exact E|]. cbn [pool setpool]. split; [|split].
    - intros i Hi. pose proof (Hrb base Ed eq_refl (2 * i) ltac:(lia)) as R1.
      pose proof (Hrb base Ed eq_refl (2 * i + 1) ltac:(lia)) as R2. unfold sget in R1, R2.
      replace (2 * i <? 0) with false in R1 by lia. replace (2 * i + 1 <? 0) with false in R2 by lia.
      do 2 eexists. split; [|split; [exact R1|exact R2]].
      unfold getStereoSample. rewrite Ed, Hc. replace (numSamples b <=? i) with false by lia.
      change (2 =? 1) with false. cbv iota.
      rewrite !wrap64_small by (rewrite ?wrap64_small by lia; lia). unfold pget.
      replace ((0 <=? base + i * 2) && (base + i * 2 <? P)) with true by lia. cbn [bind].
      replace ((0 <=? base + (i * 2 + 1)) && (base + (i * 2 + 1) <? P)) with true by lia. cbn [bind].
      do 3 f_equal; lia.
    - intros i Hi. unfold getStereoSample. rewrite Ed, Hc. destruct (Z.leb_spec (numSamples b) i); [reflexivity|].
      change (2 =? 1) with false. cbv iota.
      rewrite !wrap64_small by (rewrite ?wrap64_small by lia; lia). unfold pget.
      replace ((0 <=? base + i * 2) && (base + i * 2 <? P)) with true by lia. cbn [bind].
      replace ((0 <=? base + (i * 2 + 1)) && (base + (i * 2 + 1) <? P)) with true by lia. cbn [bind].
      do 2 f_equal; apply Hfr; intros a Ha; rewrite Hw in Ha;
        (assert (a = (base, 2 * frames b c)) by congruence); subst a; unfold covers; cbn [fst snd]; lia.
    - intros k Hk. apply Hfr. intros a Ha. rewrite Hw in Ha.
      assert (a = (base, 2 * frames b c)) by congruence. subst a. unfold covers. cbn [fst snd]. auto.
  Qed.

  Lemma f_reads st L b i : reachable P MB st L -> live_buffer L b -> 0 <= i < 2 ^ 64 ->
    0 <= numSamples b -> (channels b = 1 \/ channels b = 2) ->
    exists x l r, getSample P (pool st) b i = Some x /\ getStereoSample P (pool st) b i = Some (l, r) /\
      l = x /\ (channels b = 1 -> r = x) /\
      (numSamples b <= i \/ data b = PNull -> x = fzero /\ r = fzero) /\
      (forall base, data b = PPool base -> i < numSamples b ->
         base <= base + i * channels b < base + numSamples b * channels b /\
         x = pool st (base + i * channels b) /\ r = pool st (base + i * channels b + (channels b - 1))).
  Proof.
    intros H Hb Hi Hn Hc. apply (reachable_inv P MB HP HMB) in H.
    destruct (getSample_safe P MB HP HMB st L b i H Hb Hi Hn Hc) as (x & E1 & A1 & B1).
    destruct (getStereo_safe P MB HP HMB st L b i H Hb Hi Hn Hc) as (l & r & E2 & A2 & B2).
    exists x, l, r. split; [exact E1|]. split; [exact E2|].
    destruct (data b) as [|base|] eqn:Ed.
    - destruct (A2 (or_intror eq_refl)) as [-> ->]. rewrite (A1 (or_intror eq_refl)).
      repeat split; auto; discriminate.
    - destruct (Z_le_gt_dec (numSamples b) i).
      + destruct (A2 (or_introl l0)) as [-> ->]. rewrite (A1 (or_introl l0)).
        repeat split; auto; lia.
      + specialize (B1 base eq_refl ltac:(lia)). destruct (B2 base eq_refl ltac:(lia)) as [-> ->]. subst x.
        split; [reflexivity|]. split; [intros ->; f_equal; lia|].
        split; [intros [C|C]; [lia|discriminate]|].
        intros base' X _. injection X as <-. repeat split; nia.
    - unfold live_buffer in Hb. rewrite Ed in Hb. contradiction.
  Qed.
End Final.

(** For witnesses: the value of a defined result. *)
Definition unsome {A} (d : A) (x : option A) : A := match x with Some a => a | None => d end.
Definition is_some {A} (x : option A) : bool := match x with Some _ => true | None => false end.
Lemma unsome_eq {A} (d : A) x : is_some x = true -> x = Some (unsome d x).
Proof. destruct x; [reflexivity|discriminate]. Qed.

Lemma step_rate P st o st' r : step P st o = Some (st', r) -> srate st' = rate_step (srate st) o.
Proof.
  intros E.
  assert (HI : forall sr st2, init P st sr = Some st2 -> srate st2 = sr).
  { intros sr st2 Ei. unfold init in Ei. destruct (aset _ _ _); [|discriminate].
    cbn [bind] in Ei. injection Ei as <-. reflexivity. }
  assert (HF : forall (x : option ((Z -> f32) * bool)),
    (bind x (fun x => Some (setpool st (fst x), RBool (snd x)))) = Some (st', r) -> srate st' = srate st).
  { intros [x|] Hx; [|discriminate]. cbn in Hx. injection Hx as <- _. reflexivity. }
  destruct o; cbn [step rate_step] in *; try (apply HF in E; exact E).
  - destruct (init P st sr) eqn:Ei; [|discriminate]. injection E as <- _. eauto.
  - unfold reset in E. destruct (inited st); [|injection E as <- _; reflexivity].
    destruct (init P st (srate st)) eqn:Ei; [|discriminate]. injection E as <- _. eauto.
  - destruct (allocate P st n ch) as [[st2 b]|] eqn:Ea; [|discriminate].
    injection E as <- _. cbn [fst]. unfold allocate in Ea.
    destruct (_ || _); [injection Ea as <- _; reflexivity|].
    destruct (find_fit _ _ _ _) as [[i|]|]; cbn [bind] in Ea; [|injection Ea as <- _; reflexivity|discriminate].
    destruct (aget _ _); cbn [bind] in Ea; [|discriminate].
    match type of Ea with bind ?X _ = _ => destruct X; cbn [bind] in Ea; [|discriminate] end.
    match type of Ea with (if ?c then _ else _) = _ => destruct c; [|discriminate] end.
    injection Ea as <- _. reflexivity.
  - destruct (release P st p) as [[st2 b]|] eqn:Ea; [|discriminate].
    injection E as <- _. cbn [fst]. unfold release in Ea.
    destruct (negb (inited st)); [injection Ea as <- _; reflexivity|].
    destruct p; [injection Ea as <- _; reflexivity| |injection Ea as <- _; reflexivity].
    destruct (_ || _); [injection Ea as <- _; reflexivity|].
    destruct (find_used _ _ _ _) as [[i|]|]; cbn [bind] in Ea; [|injection Ea as <- _; reflexivity|discriminate].
    destruct (aget _ _); cbn [bind] in Ea; [|discriminate].
    destruct (aset _ _ _); cbn [bind] in Ea; [|discriminate].
    destruct (merge_adjacent _ _); cbn [bind] in Ea; [|discriminate].
    injection Ea as <- _. reflexivity.
Qed.

Lemma run_rate P ops : forall st L st' L', run P st L ops = Some (st', L') ->
  srate st' = fold_left rate_step ops (srate st).
Proof.
  induction ops as [|o t IH]; intros st L st' L' E; cbn [run fold_left] in *.
  - injection E as <- _. reflexivity.
  - destruct (step P st o) as [[st1 r]|] eqn:Es; [|discriminate]. cbn [bind fst snd] in E.
    rewrite (IH _ _ _ _ E), (step_rate _ _ _ _ _ Es). reflexivity.
Qed.

Lemma alloc_rate P garbage gpool ops st L n ch st' b :
  run P (construct garbage gpool) [] ops = Some (st, L) ->
  allocate P st n ch = Some (st', b) -> isValid b = true ->
  bufRate b = fold_left rate_step ops DEFAULT_SR.
Proof.
  intros Hr Ea Hv. pose proof (run_rate _ _ _ _ _ _ Hr) as Hs. cbn [srate construct] in Hs. rewrite <- Hs.
  unfold allocate in Ea.
  destruct (_ || _); [injection Ea as _ <-; discriminate|].
  destruct (find_fit _ _ _ _) as [[i|]|]; cbn [bind] in Ea; [|injection Ea as _ <-; discriminate|discriminate].
  destruct (aget _ _); cbn [bind] in Ea; [|discriminate].
  match type of Ea with bind ?X _ = _ => destruct X; cbn [bind] in Ea; [|discriminate] end.
  match type of Ea with (if ?c then _ else _) = _ => destruct c; [|discriminate] end.
  injection Ea as _ <-. reflexivity.
Qed.
