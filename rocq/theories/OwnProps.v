(** C112: memory of [FVerb] and [CombC] objects. *)
From Coq Require Import NArith Bool List Lia PeanoNat.
From Verif Require Import OwnModel OwnSpec OwnProofs OwnProofs2.
Import ListNotations.

(** Without copies, a program touches memory correctly exactly when it follows the rules of [note]. *)
Theorem C112_exact : forall xs, uncopied xs ->
  (exists w, run empty_world xs = Fine w) <-> (exists b, books xs = Some b).
Proof.
  intros xs U. pose proof (run_ok xs _ _ inv0) as R. unfold books. destruct (tally (Book [] 0 0) xs) as [b |].
  - destruct R as (w & E & _). split; intros _; [exists b | exists w]; [reflexivity | exact E].
  - destruct (R U) as (e & E). split; [intros (w & Ew); congruence | intros (b & Eb); discriminate].
Qed.
(** The live memory is what the objects hold and what was lost, to the block and the sample. *)
Theorem C112_accounts : forall xs b, books xs = Some b ->
  exists w, run empty_world xs = Fine w
    /\ live_blocks w = held (b_objs b) + b_lost b /\ live_samples w = (held_n (b_objs b) + b_lostn b)%N.
Proof.
  intros xs b E. pose proof (run_ok xs _ _ inv0) as R. unfold books in E. rewrite E in R. destruct R as (w & Ew & I).
  exists w. split; [exact Ew | apply inv_count; exact I].
Qed.
(** Nothing is lost unless a comb is initialised again. *)
Definition no_comb_init (xs : list op) : Prop := Forall (fun x => match x with CInit _ _ => False | _ => True end) xs.
Lemma lost_const : forall xs b b', tally b xs = Some b' -> uncopied xs -> no_comb_init xs -> b_lost b' = b_lost b /\ b_lostn b' = b_lostn b.
Proof.
  induction xs as [| x xs IH]; intros b b' E U NC; [inversion E; split; reflexivity |]. cbn [tally] in E. inversion U as [| ? ? UX UT]; subst. inversion NC as [| ? ? NX NT]; subst.
  destruct (note b x) as [b1 |] eqn:E1; [| discriminate]. destruct (IH b1 b' E UT NT) as [-> ->].
  destruct x as [k | k | k n | k | k z | k n | k | k | k | k j | k j]; try destruct UX; try destruct NX; cbn [note] in E1; unfold entered in E1;
    destruct (find (b_objs b) k) as [[on big | z' i' n'] |]; try discriminate; try (inversion E1; split; reflexivity).
  - destruct on; [| inversion E1; split; reflexivity]. destruct (N.max big n =? 0)%N; [discriminate | inversion E1; split; reflexivity].
  - destruct i'; [discriminate | inversion E1; split; reflexivity].
  - destruct (z' || negb (Nat.eqb i' 0)); [inversion E1; split; reflexivity | discriminate].
  - destruct (z' || negb (Nat.eqb i' 0)); [inversion E1; split; reflexivity | discriminate].
Qed.
(** Reverbs alone: once all objects are gone, so is all their memory, and while they live it is one block each and six more once they have processed. *)
Theorem C112_reverbs_clean : forall xs b, books xs = Some b -> uncopied xs -> no_comb_init xs ->
  exists w, run empty_world xs = Fine w /\ live_blocks w = held (b_objs b) /\ live_samples w = held_n (b_objs b)
    /\ (b_objs b = [] -> m_live (w_mem w) = []).
Proof.
  intros xs b E U NC. destruct (C112_accounts xs b E) as (w & Ew & A & B). destruct (lost_const xs _ b E U NC) as [L LN]. cbn in L, LN.
  exists w. split; [exact Ew |]. split; [lia |]. split; [lia |]. intro Z. rewrite Z in A. cbn in A. unfold live_blocks in A. destruct (m_live (w_mem w)); [reflexivity | cbn in A; lia].
Qed.
(** A comb initialised again loses its line for good. *)
Lemma lost_grows : forall xs b b', tally b xs = Some b' -> b_lost b <= b_lost b'.
Proof.
  induction xs as [| x xs IH]; intros b b' E; [inversion E; lia |]. cbn [tally] in E. destruct (note b x) as [b1 |] eqn:E1; [| discriminate].
  specialize (IH b1 b' E). enough (b_lost b <= b_lost b1) by lia. clear - E1.
  destruct x as [k | k | k n | k | k z | k n | k | k | k | k j | k j]; cbn [note] in E1; unfold entered in E1.
  all: try (destruct (find (b_objs b) k) as [[on big | z' i' n'] |]; try discriminate; try (inversion E1; cbn; lia)).
  - destruct on; [| inversion E1; lia]. destruct (N.max big n =? 0)%N; [discriminate | inversion E1; cbn; lia].
  - destruct i'; [discriminate | inversion E1; lia].
  - destruct (z' || negb (Nat.eqb i' 0)); [inversion E1; lia | discriminate].
  - destruct (z' || negb (Nat.eqb i' 0)); [inversion E1; cbn; lia | discriminate].
  - destruct (find (b_objs b) j) as [s |]; [| discriminate]. destruct (bare s); discriminate.
  - destruct (find (b_objs b) j) as [s |]; [| discriminate]. destruct (bare s); discriminate.
  - destruct (find (b_objs b) j) as [s |]; [| discriminate]. destruct (bare s); [inversion E1; cbn; lia | discriminate].
  - destruct (find (b_objs b) j) as [[on' big' | ? ? ?] |]; try discriminate. destruct (bare _); [inversion E1; cbn; lia | discriminate].
  - destruct (find (b_objs b) j) as [[on' big' | ? ? ?] |]; try discriminate. destruct (bare _); [inversion E1; cbn; lia | discriminate].
Qed.
Lemma tally_app : forall xs ys b, tally b (xs ++ ys) = match tally b xs with Some b' => tally b' ys | None => None end.
Proof. induction xs as [| x xs IH]; intros ys b; [reflexivity |]. cbn [app tally]. destruct (note b x); [apply IH | reflexivity]. Qed.
Theorem C112_reinit_refuted : forall pre k n rest z i old bp b,
  books pre = Some bp -> find (b_objs bp) k = Some (SComb z (S i) old) -> books (pre ++ CInit k n :: rest) = Some b ->
  exists w, run empty_world (pre ++ CInit k n :: rest) = Fine w /\ live_blocks w > held (b_objs b).
Proof.
  intros pre k n rest z i old bp b E F EB. destruct (C112_accounts _ b EB) as (w & Ew & A & _). exists w. split; [exact Ew |].
  unfold books in *. rewrite tally_app, E in EB. cbn [tally note] in EB. rewrite F in EB. pose proof (lost_grows rest _ b EB) as L. cbn in L. lia.
Qed.
(** A plain [CombC c;] that is never initialised cannot be destroyed. *)
Theorem C112_plain_comb_refuted : forall pre b k, books pre = Some b -> find (b_objs b) k = None ->
  run empty_world (pre ++ [NewComb k false; Destroy k]) = Wrong Heap.
Proof.
  intros pre b k E F. pose proof (run_ok pre _ _ inv0) as R. unfold books in E. rewrite E in R. destruct R as (w & Ew & I).
  rewrite run_app, Ew. cbn [bind run step]. unfold fresh. destruct I as (L & lost & RS & _).
  rewrite (proj2 (reps_none _ _ _ k RS) F). cbn. rewrite Nat.eqb_refl. reflexivity.
Qed.
(** Two objects of which one was copied from the other, initialised, cannot both be destroyed, whatever else happens in between. *)
Theorem C112_copies_refuted : forall pre b j k s x rest,
  books pre = Some b -> find (b_objs b) j = Some s ->
  (exists big, s = SVerb true big) \/ (exists z i n, s = SComb z (S i) n /\ uninit k rest /\ uninit j rest) ->
  k <> j -> x = Copy k j \/ x = Assign k j -> unassigned k rest -> unassigned j rest ->
  In (Destroy k) rest -> In (Destroy j) rest -> lives [] (pre ++ x :: rest) <> None ->
  run empty_world (pre ++ x :: rest) = Wrong Heap.
Proof.
  intros pre b j k s x rest E F S NE X UK UJ IK IJ LV.
  assert (O : owner s = true /\ calm k (sort s) rest /\ calm j (sort s) rest).
  { destruct S as [(big & ->) | (z & i & n & -> & CK & CJ)]; cbn; (split; [reflexivity |]); split; (split; [assumption |]); try discriminate; intros _; assumption. }
  destruct O as (O & CK & CJ). destruct (copied pre b j k s x rest E F O NE X CK CJ IK IJ) as (e & Ee). rewrite Ee.
  destruct (lives [] (pre ++ x :: rest)) as [l |] eqn:EL; [| destruct (LV eq_refl)].
  pose proof (lives_hp (pre ++ x :: rest) empty_world l EL) as H. destruct e; [reflexivity |]. exfalso. apply H. exact Ee.
Qed.
Print Assumptions C112_exact.
Print Assumptions C112_accounts.
Print Assumptions C112_reverbs_clean.
Print Assumptions C112_reinit_refuted.
Print Assumptions C112_plain_comb_refuted.
Print Assumptions C112_copies_refuted.

(** Two reverbs with growing and shrinking blocks, one initialised again: 7 + 7 blocks and 4 x 512 + 4 x 64 samples; nothing after the destructors. *)
Definition two_verbs : list op :=
  [NewVerb 0; VInit 0; VProcess 0 64; VSet 0; NewVerb 1; VProcess 1 64; VInit 1; VProcess 0 512; VProcess 0 32; VInit 0; VProcess 1 64].
Example ex_C112_two : match books two_verbs, run empty_world two_verbs with
  | Some b, Fine w => live_blocks w = 14 /\ live_samples w = 2304%N /\ held (b_objs b) = 14
  | _, _ => False end /\ match run empty_world (two_verbs ++ [Destroy 0; Destroy 1]) with Fine w => m_live (w_mem w) = [] | _ => False end.
Proof. vm_compute. repeat split; reflexivity. Qed.
(** The usage shown in CombC.h:31-42, and the same with a second [init] (the first line of 52004 samples stays behind). *)
Definition comb_use : list op := [NewComb 0 false; CInit 0 48004; CTick 0; CReset 0; Destroy 0].
Definition comb_again : list op := [NewComb 0 false; CInit 0 52004; CTick 0; CInit 0 48004; CTick 0; Destroy 0].
Example ex_C112_comb : match run empty_world comb_use, run empty_world comb_again with
  | Fine w, Fine w' => m_live (w_mem w) = [] /\ live_blocks w' = 1 /\ live_samples w' = 52004%N | _, _ => False end.
Proof. vm_compute. repeat split; reflexivity. Qed.
(** An empty first block, a comb used before [init], and a reverb handed to a function by value. *)
Example ex_C112_bad :
  run empty_world [NewVerb 0; VInit 0; VProcess 0 0] = Wrong Heap
  /\ run empty_world [NewComb 0 true; CTick 0] = Wrong Heap
  /\ run empty_world ([NewVerb 0; VInit 0] ++ Copy 1 0 :: [VProcess 1 64; Destroy 1; Destroy 0]) = Wrong Heap
  /\ run empty_world ([NewVerb 0; VInit 0] ++ Copy 1 0 :: [Destroy 1; VProcess 0 64]) = Wrong Heap
  /\ lives [] ([NewVerb 0; VInit 0] ++ Copy 1 0 :: [VProcess 1 64; Destroy 1; Destroy 0]) = Some [].
Proof. vm_compute. repeat split; reflexivity. Qed.
(** Copies of reverbs that were never initialised are harmless. *)
Example ex_C112_bare : match run empty_world [NewVerb 0; Copy 1 0; VInit 1; VInit 0; Destroy 1; VProcess 0 64; Destroy 0] with
  Fine w => m_live (w_mem w) = [] | _ => False end /\ books [NewVerb 0; Copy 1 0; VInit 1; VInit 0; Destroy 1; VProcess 0 64; Destroy 0] = Some (Book [] 0 0).
Proof. vm_compute. split; reflexivity. Qed.
