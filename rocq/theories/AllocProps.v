(** Theorems about BufferAllocator and Buffer (C01-C11).  Only statements,
    one-line proofs, examples meeting the hypotheses, assumption listings. *)
From Coq Require Import ZArith Bool List Lia.
From Verif Require Import Flt AllocModel AllocSpec AllocProofs AllocProofs2 AllocProofs3.
Import ListNotations.
Local Open Scope Z_scope.

(** A concrete history used to show that the hypotheses can be met: pool of 16
    floats, 3 descriptors; allocate 4 mono and 3 stereo, fill the latter,
    release the first, then a bogus release. *)
Definition ex_P : Z := 16.
Definition ex_MB : nat := 3.
Definition ex_garbage : list block := repeat (Block 7 9 true) 3.
Definition ex_src : list f32 := map (@fofZ 24 128 _ _) [10; 11; 12; 13; 14; 15].
Definition ex_buf : buffer := Buffer (PPool 4) 2 DEFAULT_SR 3.
Definition ex_ops : list op :=
  [OInit DEFAULT_SR; OAlloc 4 1; OAlloc 3 2; OFillInter ex_buf (Some ex_src) 3;
   ORelease (PPool 0); ORelease (PPool 5)].
Definition ex_L : list region := [(4, 6)].
Definition ex_st : astate :=
  match run ex_P (construct ex_garbage (fun _ => fzero)) [] ex_ops with
  | Some (st, _) => st | None => construct ex_garbage (fun _ => fzero) end.

Example ex_params : params_ok ex_P ex_MB.
Proof. unfold params_ok, ex_P, ex_MB. lia. Qed.

Example ex_history : history_ok ex_P (construct ex_garbage (fun _ => fzero)) [] ex_ops.
Proof.
  repeat first
    [ exact I
    | split; [ cbv - [Z.le Z.lt Z.mul Z.pow length Z.of_nat]; repeat split; cbn; auto; lia
             | intros ?st' ?r ?E; vm_compute in E; injection E as <- <- ] ].
Qed.
Example ex_roomy : roomy ex_P ex_MB (construct ex_garbage (fun _ => fzero)) [] ex_ops.
Proof.
  repeat first [ exact I | split; [ first [exact I | cbn; unfold ex_MB; lia]
             | intros ?st' ?r ?E; vm_compute in E; injection E as <- <- ] ].
Qed.
Example ex_reachable : reachable ex_P ex_MB ex_st ex_L.
Proof.
  exists ex_garbage, (fun _ => fzero), ex_ops. split; [reflexivity|]. split; [exact ex_history|].
  vm_compute; reflexivity.
Qed.
Example ex_reachable_roomy : reachable_roomy ex_P ex_MB ex_st ex_L.
Proof.
  exists ex_garbage, (fun _ => fzero), ex_ops. split; [reflexivity|]. split; [exact ex_history|].
  split; [exact ex_roomy|]. vm_compute; reflexivity.
Qed.
Example ex_inited : inited ex_st = true. Proof. vm_compute. reflexivity. Qed.

(** C01: handed-out regions are inside the pool and pairwise disjoint. *)
Theorem C01_live_buffers_disjoint : forall P MB st L, params_ok P MB -> reachable P MB st L ->
  Forall (inside P) L /\ ForallOrdPairs disjoint L.
Proof. exact (fun P MB st L H => f_disjoint P MB H st L). Qed.
Print Assumptions C01_live_buffers_disjoint.

(** C02: success criterion and placement, with "free" read off the allocator. *)
Theorem C02_first_fit : forall P MB st L n ch st' b, params_ok P MB -> reachable P MB st L ->
  args_ok (OAlloc n ch) -> allocate P st n ch = Some (st', b) ->
  (isValid b = true <->
     inited st = true /\ n <> 0 /\ (ch = 1 \/ ch = 2) /\ exists o, free_run P st o (n * ch)) /\
  (isValid b = true -> exists o, b = Buffer (PPool o) ch (srate st) n /\ free_run P st o (n * ch) /\
     forall o', free_run P st o' (n * ch) -> o <= o').
Proof. exact (fun P MB st L n ch st' b H => f_first_fit P MB H st L n ch st' b). Qed.
Print Assumptions C02_first_fit.

(** C02, in terms of calls and answers only, while the descriptor table has room. *)
Theorem C02_first_fit_observable : forall P MB st L n ch st' b, params_ok P MB -> reachable_roomy P MB st L ->
  args_ok (OAlloc n ch) -> allocate P st n ch = Some (st', b) ->
  (isValid b = true <->
     inited st = true /\ n <> 0 /\ (ch = 1 \/ ch = 2) /\ exists o, unclaimed_run P L o (n * ch)) /\
  (isValid b = true -> exists o, b = Buffer (PPool o) ch (srate st) n /\ unclaimed_run P L o (n * ch) /\
     forall o', unclaimed_run P L o' (n * ch) -> o <= o').
Proof. exact (fun P MB st L n ch st' b H => f_first_fit_roomy P MB H st L n ch st' b). Qed.
Print Assumptions C02_first_fit_observable.
(** C02: new buffers carry the sample rate of the last init, for every history. *)
Theorem C02_sample_rate : forall P garbage gpool ops st L n ch st' b,
  run P (construct garbage gpool) [] ops = Some (st, L) ->
  allocate P st n ch = Some (st', b) -> isValid b = true ->
  bufRate b = fold_left rate_step ops DEFAULT_SR.
Proof. exact alloc_rate. Qed.
Print Assumptions C02_sample_rate.
(** Both outcomes occur: 6 floats at offset 10 fit, 7 do not although 10 floats are free in total. *)
Example ex_C02_yes : exists st' b, allocate ex_P ex_st 6 1 = Some (st', b) /\ isValid b = true /\ data b = PPool 10.
Proof. do 2 eexists. split; [vm_compute; reflexivity|]. vm_compute. auto. Qed.
Example ex_C02_no : exists st' b, allocate ex_P ex_st 7 1 = Some (st', b) /\ isValid b = false /\ freeSpace ex_st = 10.
Proof. do 2 eexists. split; [vm_compute; reflexivity|]. vm_compute. auto. Qed.

(** C03: a call answered with failure leaves the whole state unchanged, in every state. *)
Theorem C03_failed_calls_change_nothing : forall P st o st' r,
  step P st o = Some (st', r) -> failed r -> args_ok o -> st' = st.
Proof. exact failed_unchanged. Qed.
Print Assumptions C03_failed_calls_change_nothing.
Example ex_C03 : exists st' r, step ex_P ex_st (ORelease (PPool 5)) = Some (st', r) /\ failed r.
Proof. do 2 eexists. split; [vm_compute; reflexivity|]. vm_compute. auto. Qed.

(** C04: accounting. *)
Theorem C04_accounting : forall P MB st L, params_ok P MB -> reachable P MB st L ->
  (inited st = true ->
     freeSpace st + usedSpace P st = P /\ 0 <= freeSpace st <= P /\ total L <= usedSpace P st) /\
  (inited st = false -> freeSpace st = 0 /\ L = []).
Proof. exact (fun P MB st L H => f_accounting P MB H st L). Qed.
Print Assumptions C04_accounting.
Theorem C04_accounting_exact : forall P MB st L, params_ok P MB -> reachable_roomy P MB st L ->
  inited st = true -> usedSpace P st = total L.
Proof. exact (fun P MB st L H => f_accounting_exact P MB H st L). Qed.
Print Assumptions C04_accounting_exact.
Example ex_C04 : usedSpace ex_P ex_st = 6 /\ total ex_L = 6.
Proof. vm_compute. auto. Qed.
(** The roomy hypothesis is needed: with a one-entry table a 1-float buffer accounts for the whole pool. *)
Theorem C04_exact_without_room_refuted : exists P MB st L, params_ok P MB /\ reachable P MB st L /\
  inited st = true /\ usedSpace P st <> total L.
Proof.
  exists 16, 1%nat.
  eexists (match run 16 (construct [Block 0 0 false] (fun _ => fzero)) [] [OInit DEFAULT_SR; OAlloc 1 1] with
           | Some (st, _) => st | None => construct [] (fun _ => fzero) end), [(0, 1)].
  split; [unfold params_ok; lia|]. split; [|split; [vm_compute; reflexivity|vm_compute; discriminate]].
  exists [Block 0 0 false], (fun _ => fzero), [OInit DEFAULT_SR; OAlloc 1 1].
  split; [reflexivity|]. split; [|vm_compute; reflexivity].
  repeat first
    [ exact I
    | split; [ cbv - [Z.le Z.lt Z.mul Z.pow]; repeat split; auto; lia
             | intros ?st' ?r ?E; vm_compute in E; injection E as <- <- ] ].
Qed.
Print Assumptions C04_exact_without_room_refuted.

(** C05: release answers true exactly for starts of live buffers and frees exactly that region. *)
Theorem C05_release : forall P MB st L p st' b, params_ok P MB -> reachable P MB st L ->
  release P st p = Some (st', b) ->
  (b = true <-> exists o n, p = PPool o /\ In (o, n) L) /\
  (b = true -> exists o s, p = PPool o /\ reserved st (o, s) /\ pool st' = pool st /\
     (forall a, reserved st' a <-> reserved st a /\ a <> (o, s)) /\
     (forall i, free_cell P st' i <-> free_cell P st i \/ covers (o, s) i)).
Proof. exact (fun P MB st L p st' b H => f_release P MB H st L p st' b). Qed.
Print Assumptions C05_release.
Example ex_C05 : exists st', release ex_P ex_st (PPool 4) = Some (st', true).
Proof. eexists. vm_compute. reflexivity. Qed.

(** C06: releasing all live buffers (any order, repetitions and junk allowed)
    gives one free block; the full pool can be allocated again at offset 0. *)
Theorem C06_release_all_pristine : forall P MB st L ps, params_ok P MB -> reachable P MB st L ->
  inited st = true -> (forall a, In a L -> In (PPool (fst a)) ps) ->
  exists st', run P st L (map ORelease ps) = Some (st', []) /\
    bcount st' = 1%nat /\ freeSpace st' = P /\ usedSpace P st' = 0 /\
    forall n ch, 0 < n -> (ch = 1 \/ ch = 2) -> n * ch <= P ->
      exists st2, allocate P st' n ch = Some (st2, Buffer (PPool 0) ch (srate st') n).
Proof. exact (fun P MB st L ps H => f_release_all P MB H st L ps). Qed.
Print Assumptions C06_release_all_pristine.
Example ex_C06 : forall a, In a ex_L -> In (PPool (fst a)) [PForeign; PPool 4].
Proof. intros a [<-|[]]. cbn. auto. Qed.

(** C07: every contract-respecting call is free of out-of-bounds accesses and
    keeps blockCount() within the table; a full table hands out the whole free run. *)
Theorem C07_no_overrun : forall P MB st L o, params_ok P MB -> reachable P MB st L -> client_ok L o ->
  exists st' r, step P st o = Some (st', r) /\ (bcount st' <= MB)%nat.
Proof. exact (fun P MB st L o H => f_defined P MB H st L o). Qed.
Print Assumptions C07_no_overrun.
Theorem C07_full_table : forall P MB st L n ch st' b o, params_ok P MB -> reachable P MB st L ->
  args_ok (OAlloc n ch) -> bcount st = MB -> allocate P st n ch = Some (st', b) -> data b = PPool o ->
  bcount st' = MB /\
  exists s, n * ch <= s /\ reserved st' (o, s) /\ free_run P st o s /\ ~ free_cell P st (o + s).
Proof. exact (fun P MB st L n ch st' b o H => f_full P MB H st L n ch st' b o). Qed.
Print Assumptions C07_full_table.
Example ex_C07 : bcount ex_st = ex_MB /\
  exists st' b, allocate ex_P ex_st 2 1 = Some (st', b) /\ data b = PPool 0 /\ usedSpace ex_P st' = 10.
Proof. split; [vm_compute; reflexivity|]. do 2 eexists. split; [vm_compute; reflexivity|]. vm_compute. auto. Qed.

(** C08: requests larger than the pool are rejected when numSamples*channels
    does not overflow ... *)
Theorem C08_oversized_rejected : forall P MB st L n ch st' b, params_ok P MB -> reachable P MB st L ->
  args_ok (OAlloc n ch) -> P < n * ch -> allocate P st n ch = Some (st', b) ->
  isValid b = false /\ st' = st.
Proof. exact (fun P MB st L n ch st' b H => f_oversized P MB H st L n ch st' b). Qed.
Print Assumptions C08_oversized_rejected.
Example ex_C08 : args_ok (OAlloc 9 2) /\ ex_P < 9 * 2.
Proof. unfold args_ok, ex_P. lia. Qed.
(** ... but not otherwise: allocate(2^63, 2) on a fresh pool of 28800000 floats
    succeeds, and the next buffer starts at the same address. *)
Definition w_P : Z := 28800000.
Definition w_st0 := unsome (construct [] (fun _ => fzero))
  (init w_P (construct (repeat (Block 0 0 false) 256) (fun _ => fzero)) DEFAULT_SR).
Definition w_r1 := unsome (w_st0, buffer0) (allocate w_P w_st0 (2 ^ 63) 2).
Definition w_r2 := unsome (w_st0, buffer0) (allocate w_P (fst w_r1) 100 1).
Theorem C08_oversized_rejected_refuted : exists st0 st1 st2 b1 b2,
  let P := 28800000 in
  init P (construct (repeat (Block 0 0 false) 256) (fun _ => fzero)) DEFAULT_SR = Some st0 /\
  allocate P st0 (2 ^ 63) 2 = Some (st1, b1) /\ isValid b1 = true /\ P < numSamples b1 * channels b1 /\
  allocate P st1 100 1 = Some (st2, b2) /\ isValid b2 = true /\ data b1 = data b2.
Proof.
  exists w_st0, (fst w_r1), (fst w_r2), (snd w_r1), (snd w_r2). cbv zeta.
  split; [apply unsome_eq; vm_compute; reflexivity|].
  split; [rewrite <- surjective_pairing; apply unsome_eq; vm_compute; reflexivity|].
  split; [vm_compute; reflexivity|]. split; [vm_compute; reflexivity|].
  split; [rewrite <- surjective_pairing; apply unsome_eq; vm_compute; reflexivity|].
  split; vm_compute; reflexivity.
Qed.
Print Assumptions C08_oversized_rejected_refuted.

(** C09: fills. *)
Theorem C09_fill_mono : forall P MB st L b s c, params_ok P MB -> reachable P MB st L ->
  live_buffer L b -> isValid b = true -> channels b = 1 -> 0 <= c < 2 ^ 64 ->
  frames b c <= Z.of_nat (length s) ->
  exists st', step P st (OFillMono b (Some s) c) = Some (st', RBool true) /\
    (forall i, 0 <= i < frames b c -> getSample P (pool st') b i = nth_error s (Z.to_nat i)) /\
    (forall i, frames b c <= i -> getSample P (pool st') b i = getSample P (pool st) b i) /\
    (forall k, (forall base, data b = PPool base -> ~ (base <= k < base + frames b c)) ->
       pool st' k = pool st k).
Proof. exact (fun P MB st L b s c H => f_fill_mono P MB H st L b s c). Qed.
Print Assumptions C09_fill_mono.
Theorem C09_fill_stereo : forall P MB st L b l r c, params_ok P MB -> reachable P MB st L ->
  live_buffer L b -> isValid b = true -> channels b = 2 -> 0 <= c < 2 ^ 64 ->
  frames b c <= Z.of_nat (length l) -> frames b c <= Z.of_nat (length r) ->
  exists st', step P st (OFillStereo b (Some l) (Some r) c) = Some (st', RBool true) /\
    (forall i, 0 <= i < frames b c -> exists x y,
       getStereoSample P (pool st') b i = Some (x, y) /\
       nth_error l (Z.to_nat i) = Some x /\ nth_error r (Z.to_nat i) = Some y) /\
    (forall i, frames b c <= i -> getStereoSample P (pool st') b i = getStereoSample P (pool st) b i) /\
    (forall k, (forall base, data b = PPool base -> ~ (base <= k < base + 2 * frames b c)) ->
       pool st' k = pool st k).
Proof. exact (fun P MB st L b l r c H => f_fill_stereo P MB H st L b l r c). Qed.
Print Assumptions C09_fill_stereo.
Theorem C09_fill_interleaved : forall P MB st L b s c, params_ok P MB -> reachable P MB st L ->
  live_buffer L b -> isValid b = true -> channels b = 2 -> 0 <= c < 2 ^ 64 ->
  2 * frames b c <= Z.of_nat (length s) ->
  exists st', step P st (OFillInter b (Some s) c) = Some (st', RBool true) /\
    (forall i, 0 <= i < frames b c -> exists x y,
       getStereoSample P (pool st') b i = Some (x, y) /\
       nth_error s (Z.to_nat (2 * i)) = Some x /\ nth_error s (Z.to_nat (2 * i + 1)) = Some y) /\
    (forall i, frames b c <= i -> getStereoSample P (pool st') b i = getStereoSample P (pool st) b i) /\
    (forall k, (forall base, data b = PPool base -> ~ (base <= k < base + 2 * frames b c)) ->
       pool st' k = pool st k).
Proof. exact (fun P MB st L b s c H => f_fill_inter P MB H st L b s c). Qed.
Print Assumptions C09_fill_interleaved.
Example ex_C09 : live_buffer ex_L ex_buf /\ isValid ex_buf = true /\ channels ex_buf = 2 /\
  2 * frames ex_buf 2 <= Z.of_nat (length ex_src).
Proof. cbn. repeat split; auto. unfold frames. cbn. lia. Qed.
Example ex_C09_mono : exists st L b, reachable ex_P ex_MB st L /\ live_buffer L b /\ isValid b = true /\
  channels b = 1 /\ frames b 2 <= Z.of_nat (length ex_src).
Proof.
  exists (match run ex_P (construct ex_garbage (fun _ => fzero)) [] [OInit DEFAULT_SR; OAlloc 4 1] with
           | Some (st, _) => st | None => ex_st end), [(0, 4)], (Buffer (PPool 0) 1 DEFAULT_SR 4).
  repeat split; cbn; auto; try (unfold frames; cbn; lia).
  exists ex_garbage, (fun _ => fzero), [OInit DEFAULT_SR; OAlloc 4 1].
  split; [reflexivity|]. split; [|vm_compute; reflexivity].
  repeat first
    [ exact I
    | split; [ cbv - [Z.le Z.lt Z.mul Z.pow]; repeat split; auto; lia
             | intros ?st' ?r ?E; vm_compute in E; injection E as <- <- ] ].
Qed.

(** C10: a call that does not fill buffer [a] leaves its contents alone while
    it stays live; init and reset zero the pool. *)
Theorem C10_isolation : forall P MB st L o st' r a, params_ok P MB -> reachable P MB st L -> client_ok L o ->
  step P st o = Some (st', r) -> In a L -> In a (live_step L o r) -> target o <> Some (fst a) ->
  forall i, covers a i -> pool st' i = pool st i.
Proof. exact (fun P MB st L o st' r a H => f_isolation P MB H st L o st' r a). Qed.
Print Assumptions C10_isolation.
Theorem C10_init_zeroes : forall P st o st' r, step P st o = Some (st', r) ->
  match o with OInit _ => True | OReset => inited st = true | _ => False end ->
  forall i, 0 <= i < P -> pool st' i = fzero.
Proof. exact init_zero. Qed.
Print Assumptions C10_init_zeroes.
Example ex_C10 : exists st' r, step ex_P ex_st (OAlloc 6 1) = Some (st', r) /\ In (4, 6) ex_L /\
  In (4, 6) (live_step ex_L (OAlloc 6 1) r) /\ pool st' 5 = nth 1 ex_src fzero.
Proof. do 2 eexists. split; [vm_compute; reflexivity|]. vm_compute. auto. Qed.

(** C11: reads. *)
Theorem C11_reads_safe : forall P MB st L b i, params_ok P MB -> reachable P MB st L ->
  live_buffer L b -> 0 <= i < 2 ^ 64 -> 0 <= numSamples b -> (channels b = 1 \/ channels b = 2) ->
  exists x l r, getSample P (pool st) b i = Some x /\ getStereoSample P (pool st) b i = Some (l, r) /\
    l = x /\ (channels b = 1 -> r = x) /\
    (numSamples b <= i \/ data b = PNull -> x = fzero /\ r = fzero) /\
    (forall base, data b = PPool base -> i < numSamples b ->
       base <= base + i * channels b < base + numSamples b * channels b /\
       x = pool st (base + i * channels b) /\ r = pool st (base + i * channels b + (channels b - 1))).
Proof. exact (fun P MB st L b i H => f_reads P MB H st L b i). Qed.
Print Assumptions C11_reads_safe.
Example ex_C11 : getStereoSample ex_P (pool ex_st) ex_buf 2 = Some (nth 4 ex_src fzero, nth 5 ex_src fzero).
Proof. vm_compute. reflexivity. Qed.
