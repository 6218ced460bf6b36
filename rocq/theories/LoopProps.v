(** Property theorems for [AudioLoop] (C12). *)
From Coq Require Import ZArith Bool List.
From Verif Require Import Flt AllocModel LoopModel LoopSpec LoopProofs.
Import ListNotations.

(** C12: what is on show is exactly what the writer had prepared at the last
    swap, whatever has been stored, cleared or loaded since. *)
Theorem C12_output_is_last_swap : forall N st ops st' rs, started N st -> lrun st ops = Some (st', rs) ->
  writer_ok N None (combine ops rs) ->
  shows st' (getOutputBuffer st') (snd (sems N ops)) /\
  shows st' (getProcessingBuffer st') (fst (sems N ops)).
Proof. exact p_refines. Qed.
Print Assumptions C12_output_is_last_swap.
Example ex_C12 : exists st' rs,
  lrun ex0 [LFetchP; LStore SA 0 (fofZ 7); LSwap; LFetchP; LStore SB 0 (fofZ 9); LFetchO; LLoad SA 0] = Some (st', rs) /\
  rs = [RPtr SA; RUnit; RUnit; RPtr SB; RUnit; RPtr SA; RVal (fofZ 7)].
Proof. do 2 eexists. split; [vm_compute; reflexivity|]. vm_compute. reflexivity. Qed.

(** C12: the two pointers handed out in one state never alias. *)
Theorem C12_no_alias : forall st, getOutputBuffer st <> getProcessingBuffer st.
Proof. exact no_alias. Qed.
Print Assumptions C12_no_alias.

(** C12: a block stored in full is what the reader gets after the swap. *)
Theorem C12_full_block : forall N st before p xs s1 r1, started N st -> length xs = N ->
  lrun st (before ++ LFetchP :: stores p xs ++ [LSwap]) = Some (s1, r1) ->
  writer_ok N None (combine (before ++ LFetchP :: stores p xs ++ [LSwap]) r1) ->
  shows s1 (getOutputBuffer s1) xs.
Proof. exact p_full_block. Qed.
Print Assumptions C12_full_block.
Example ex_C12_full : exists s1 r1,
  lrun ex0 ([LSwap] ++ LFetchP :: stores SB [fofZ 3; fofZ 4] ++ [LSwap]) = Some (s1, r1) /\
  load s1 (getOutputBuffer s1) 1 = Some (fofZ 4).
Proof. do 2 eexists. split; [vm_compute; reflexivity|]. vm_compute. reflexivity. Qed.

(** C12: a reader that fetched the output pointer keeps reading the block
    committed at that time, across any steps of the writer up to its next
    swap, and across a swap as long as the writer does not start a new block. *)
Theorem C12_reader_consistent : forall N st before after s1 r1 s2 r2, started N st ->
  lrun st before = Some (s1, r1) -> lrun s1 after = Some (s2, r2) ->
  writer_ok N None (combine (before ++ after) (r1 ++ r2)) ->
  Forall no_swap after \/ undisturbed false after ->
  shows s2 (getOutputBuffer s1) (snd (sems N before)).
Proof.
  exact (fun N st b a s1 r1 s2 r2 H E1 E2 W U =>
    p_reader N st b a s1 r1 s2 r2 H E1 E2 W (match U with or_introl u => undisturbed_no_swap a u | or_intror u => u end)).
Qed.
Print Assumptions C12_reader_consistent.
Example ex_C12_reader : undisturbed false [LFetchP; LStore SB 0 (fofZ 9); LSwap; LFetchP; LLoad SA 1; LSwap; LStore SB 1 (fofZ 1)]
  /\ ~ undisturbed false [LSwap; LStore SA 0 (fofZ 9)].
Proof. cbn. repeat split. intros [H _]. discriminate H. Qed.

(** Without that restriction the read tears: a reader still holding the pointer
    while the writer swaps and starts the next block sees a mixture. *)
Theorem C12_torn_read_refuted : exists st before after s1 r1 s2 r2, started 2 st /\
  lrun st before = Some (s1, r1) /\ lrun s1 after = Some (s2, r2) /\
  writer_ok 2 None (combine (before ++ after) (r1 ++ r2)) /\
  snd (sems 2 before) = [fofZ 1; fofZ 2] /\
  load s2 (getOutputBuffer s1) 0 = Some (fofZ 9) /\ load s2 (getOutputBuffer s1) 1 = Some (fofZ 2).
Proof.
  exists ex0, [LFetchP; LStore SA 0 (fofZ 1); LStore SA 1 (fofZ 2); LSwap], [LSwap; LFetchP; LStore SA 0 (fofZ 9)].
  do 4 eexists. split; [exact ex0_started|]. split; [vm_compute; reflexivity|]. split; [vm_compute; reflexivity|].
  vm_compute. repeat split; repeat constructor.
Qed.
Print Assumptions C12_torn_read_refuted.

(** A writer that keeps its pointer across a swap overwrites the block on show. *)
Theorem C12_stale_writer_refuted : exists st ops st' rs, started 2 st /\ lrun st ops = Some (st', rs) /\
  ~ writer_ok 2 None (combine ops rs) /\ load st' (getOutputBuffer st') 0 = Some (fofZ 5) /\
  nth_error (fst (sems 2 ops)) 0 = Some (fofZ 5) /\ nth_error (snd (sems 2 ops)) 0 = Some (fofZ 1).
Proof.
  exists ex0, [LFetchP; LStore SA 0 (fofZ 1); LSwap; LStore SA 0 (fofZ 5)].
  do 2 eexists. split; [exact ex0_started|]. split; [vm_compute; reflexivity|].
  split; [cbn; intuition discriminate|]. vm_compute. auto.
Qed.
Print Assumptions C12_stale_writer_refuted.
