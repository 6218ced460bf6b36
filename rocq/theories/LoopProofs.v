From Coq Require Import ZArith Bool List Lia.
From Verif Require Import Flt AllocModel LoopModel LoopSpec.
Import ListNotations.

Lemma aset_upd (l : list f32) i x : (i < length l)%nat -> aset l i x = Some (upd l i x).
Proof.
  revert i. induction l as [|h t IH]; intros i H; cbn in H; [lia|].
  destruct i as [|i]; [reflexivity|]. cbn [aset]. rewrite IH by lia. reflexivity.
Qed.
Lemma upd_length l i x : (i < length l)%nat -> length (upd l i x) = length l.
Proof. intros H. unfold upd. rewrite app_length. cbn [length]. rewrite firstn_length, skipn_length. lia. Qed.
Lemma clear_silence l : buf_clear l = silence (length l).
Proof. induction l as [|h t IH]; cbn; [reflexivity|]. now rewrite IH. Qed.

(** Refinement relation. *)
Definition R (N : nat) (bf : list f32 * list f32) (st : lstate) : Prop :=
  length (bufA st) = N /\ length (bufB st) = N /\
  bf = if cur0 st then (bufA st, bufB st) else (bufB st, bufA st).
Definition heldok (h : option side) (st : lstate) : Prop :=
  match h with None => True | Some p => p = getProcessingBuffer st end.

Lemma R_init N s0 sr : length (bufA s0) = N -> length (bufB s0) = N ->
  R N (silence N, silence N) (loop_init s0 sr).
Proof.
  intros <- E. unfold R, loop_init. cbn. rewrite !clear_silence. unfold silence.
  rewrite !repeat_length, E. auto.
Qed.

Lemma R_step N bf st o st' r h t : R N bf st -> heldok h st -> lstep st o = Some (st', r) ->
  writer_ok N h ((o, r) :: t) ->
  R N (sem N bf o) st' /\ exists h', heldok h' st' /\ writer_ok N h' t.
Proof.
  intros (LA & LB & E) Hh S W. destruct st as [a b c sr]. cbn in LA, LB, E.
  destruct o; cbn in S.
  - injection S as <- <-. split; [destruct bf; apply (R_init N (LState a b c sr)); auto|]. now exists None.
  - injection S as <- <-. split; [subst bf; destruct c; repeat split; auto|].
    cbn in W. eexists; split; [|exact W]. reflexivity.
  - injection S as <- <-. split; [subst bf; destruct c; repeat split; auto|].
    cbn in W. exists h. auto.
  - cbn in W. destruct W as (-> & Hi & W). cbn in Hh.
    destruct p; unfold getProcessingBuffer in Hh; cbn in Hh; destruct c; try discriminate Hh; cbn in S.
    + rewrite aset_upd in S by lia. cbn in S. injection S as <- <-. subst bf.
      split; [unfold R; cbn; rewrite upd_length by lia; auto|]. exists (Some SA). auto.
    + rewrite aset_upd in S by lia. cbn in S. injection S as <- <-. subst bf.
      split; [unfold R; cbn; rewrite upd_length by lia; auto|]. exists (Some SB). auto.
  - destruct (load _ p i); cbn in S; [|discriminate]. injection S as <- <-.
    split; [subst bf; destruct c; repeat split; auto|]. exists h. auto.
  - injection S as <- <-. subst bf.
    split; [destruct c; cbn; unfold R; cbn; rewrite clear_silence; unfold silence; rewrite repeat_length; subst; auto;
            rewrite LB; auto|].
    exists h. split; [|exact W]. destruct h; [|exact I]. destruct c; exact Hh.
  - injection S as <- <-. subst bf. split; [destruct c; cbn; repeat split; auto|]. now exists None.
Qed.

Lemma R_run N ops : forall bf st h st' rs, R N bf st -> heldok h st ->
  lrun st ops = Some (st', rs) -> writer_ok N h (combine ops rs) ->
  R N (fold_left (sem N) ops bf) st'.
Proof.
  induction ops as [|o t IH]; intros bf st h st' rs HR Hh E W; cbn in E.
  - injection E as <- <-. exact HR.
  - destruct (lstep st o) as [[s1 r1]|] eqn:S; [|discriminate]. cbn in E.
    destruct (lrun s1 t) as [[s2 r2]|] eqn:T; [|discriminate]. cbn in E. injection E as <- <-.
    cbn [combine] in W.
    destruct (R_step _ _ _ _ _ _ _ _ HR Hh S W) as (HR' & h' & Hh' & W').
    cbn. eapply IH; eauto.
Qed.

(** Every disciplined history runs without undefined behaviour as far as stores go. *)
Lemma shows_out N bf st : R N bf st -> shows st (getOutputBuffer st) (snd bf).
Proof. intros (A & B & ->) i. unfold getOutputBuffer. destruct (cur0 st); reflexivity. Qed.
Lemma shows_proc N bf st : R N bf st -> shows st (getProcessingBuffer st) (fst bf).
Proof. intros (A & B & ->) i. unfold getProcessingBuffer. destruct (cur0 st); reflexivity. Qed.

Lemma p_refines N st ops st' rs : started N st -> lrun st ops = Some (st', rs) ->
  writer_ok N None (combine ops rs) ->
  shows st' (getOutputBuffer st') (snd (sems N ops)) /\
  shows st' (getProcessingBuffer st') (fst (sems N ops)).
Proof.
  intros (s0 & sr & A & B & ->) E W.
  pose proof (R_run N ops _ _ None _ _ (R_init N s0 sr A B) I E W) as HR.
  split; [eapply shows_out|eapply shows_proc]; exact HR.
Qed.

Lemma no_alias st : getOutputBuffer st <> getProcessingBuffer st.
Proof. unfold getOutputBuffer, getProcessingBuffer. destruct (cur0 st); discriminate. Qed.

Definition other (p : side) := match p with SA => SB | SB => SA end.
Lemma store_other st p i x st' q j : store st p i x = Some st' -> q <> p ->
  load st' q j = load st q j /\ cur0 st' = cur0 st.
Proof.
  intros S D. destruct p; cbn in S; destruct (aset _ i x); try discriminate; cbn in S; injection S as <-;
    destruct q; try congruence; auto.
Qed.

Lemma stable_gen N : forall ops st h st' rs (odd : bool) q, heldok h st ->
  length (bufA st) = N -> length (bufB st) = N ->
  q = (if odd then getProcessingBuffer st else getOutputBuffer st) ->
  lrun st ops = Some (st', rs) -> writer_ok N h (combine ops rs) -> undisturbed odd ops ->
  forall i, load st' q i = load st q i.
Proof.
  induction ops as [|o t IH]; intros st h st' rs odd q Hh LA LB Hq E W U i; cbn in E.
  - injection E as <- <-. reflexivity.
  - destruct (lstep st o) as [[s1 r1]|] eqn:S; [|discriminate]. cbn in E.
    destruct (lrun s1 t) as [[s2 r2]|] eqn:T; [|discriminate]. cbn in E. injection E as <- <-.
    cbn [combine] in W.
    assert (HR0 : R N (if cur0 st then (bufA st, bufB st) else (bufB st, bufA st)) st) by (repeat split; auto).
    destruct (R_step _ _ _ _ _ _ _ _ HR0 Hh S W) as ((LA' & LB' & _) & h' & Hh' & W').
    assert (step_case : forall odd' : bool, undisturbed odd' t ->
              q = (if odd' then getProcessingBuffer s1 else getOutputBuffer s1) ->
              (forall j, load s1 q j = load st q j) -> load s2 q i = load st q i).
    { intros odd' U' Hq' L. rewrite <- L. eapply IH; eauto. }
    destruct o; cbn in S, U.
    + contradiction.
    + injection S as <- <-. eapply step_case; eauto.
    + injection S as <- <-. eapply step_case; eauto.
    + destruct U as [-> U]. cbn in W. destruct W as (-> & Hi & W). cbn in Hh.
      destruct (store st p i0 x) as [s|] eqn:St; [|discriminate]. cbn in S. injection S as <- <-.
      assert (D : q <> p) by (subst; apply no_alias).
      assert (C : cur0 s = cur0 st) by (apply (store_other _ _ _ _ _ _ 0%nat St D)).
      apply (step_case false U).
      * subst q. unfold getOutputBuffer. now rewrite C.
      * intros j. apply (store_other _ _ _ _ _ _ j St D).
    + destruct (load st p i0); cbn in S; [|discriminate]. injection S as <- <-. eapply step_case; eauto.
    + destruct U as [-> U]. injection S as <- <-. apply (step_case false U).
      * subst q. unfold getOutputBuffer, clearProcessingBuffer. destruct (cur0 st) eqn:C; cbn; reflexivity.
      * intros j. subst q. unfold getOutputBuffer, clearProcessingBuffer. destruct (cur0 st); reflexivity.
    + injection S as <- <-. apply (step_case (negb odd) U).
      * subst q. unfold getOutputBuffer, getProcessingBuffer, swapBuffers.
        destruct odd, (cur0 st); reflexivity.
      * intros j. unfold swapBuffers. destruct q; reflexivity.
Qed.

Lemma R_run_held N ops : forall bf st h st' rs, R N bf st -> heldok h st ->
  lrun st ops = Some (st', rs) -> writer_ok N h (combine ops rs) ->
  forall ops2 rs2, writer_ok N h (combine ops rs ++ combine ops2 rs2) ->
  exists h', heldok h' st' /\ writer_ok N h' (combine ops2 rs2).
Proof.
  induction ops as [|o t IH]; intros bf st h st' rs HR Hh E W ops2 rs2 W2; cbn in E.
  - injection E as <- <-. exists h. auto.
  - destruct (lstep st o) as [[s1 r1]|] eqn:S; [|discriminate]. cbn in E.
    destruct (lrun s1 t) as [[s2 r2]|] eqn:T; [|discriminate]. cbn in E. injection E as <- <-.
    cbn [combine] in W, W2. rewrite <- app_comm_cons in W2.
    destruct (R_step _ _ _ _ _ _ _ _ HR Hh S W2) as (HR' & h' & Hh' & W').
    eapply IH; eauto.
    clear - W'. revert h' W'. generalize (combine t r2) as l. induction l as [|[o r] l IHl]; intros h W; [exact I|].
    cbn in W |- *. destruct o, r; cbn in *; intuition eauto.
Qed.

Lemma lrun_app st a b st' rs : lrun st (a ++ b) = Some (st', rs) ->
  exists s1 r1 r2, lrun st a = Some (s1, r1) /\ lrun s1 b = Some (st', r2) /\ rs = r1 ++ r2 /\ length r1 = length a.
Proof.
  revert st st' rs. induction a as [|o t IH]; intros st st' rs E.
  - exists st, [], rs. auto.
  - cbn in E. destruct (lstep st o) as [[s1 r1]|] eqn:S; [|discriminate]. cbn in E.
    destruct (lrun s1 (t ++ b)) as [[s2 r2]|] eqn:T; [|discriminate]. cbn in E. injection E as <- <-.
    destruct (IH _ _ _ T) as (s3 & q1 & q2 & A & B & -> & L).
    exists s3, (r1 :: q1), q2. cbn. rewrite S. cbn. rewrite A. cbn. auto.
Qed.
Lemma writer_app_l N l : forall h m, writer_ok N h (l ++ m) -> writer_ok N h l.
Proof.
  induction l as [|[o r] l IHl]; intros h m W; [exact I|].
  cbn in W |- *. destruct o, r; cbn in *; intuition eauto.
Qed.
Lemma combine_app {A B} (a : list A) : forall (x : list B) b y, length x = length a ->
  combine (a ++ b) (x ++ y) = combine a x ++ combine b y.
Proof. induction a; intros [|h x] b y L; cbn in *; try lia; [reflexivity|]. f_equal. apply IHa. lia. Qed.

(** A reader that fetched the output pointer after [before] reads the block
    committed by [before] as long as nothing disturbs it. *)
Lemma p_reader N st before after s1 r1 s2 r2 : started N st ->
  lrun st before = Some (s1, r1) -> lrun s1 after = Some (s2, r2) ->
  writer_ok N None (combine (before ++ after) (r1 ++ r2)) -> undisturbed false after ->
  shows s2 (getOutputBuffer s1) (snd (sems N before)).
Proof.
  intros (s0 & sr & A & B & ->) E1 E2 W U i.
  assert (L : length r1 = length before).
  { destruct (lrun_app (loop_init s0 sr) before [] s1 r1) as (x & y & z & P & Q & Z1 & L).
    - now rewrite app_nil_r.
    - rewrite P in E1. congruence. }
  rewrite combine_app in W by exact L.
  pose proof (writer_app_l _ _ _ _ W) as W1.
  pose proof (R_run N before _ _ None _ _ (R_init N s0 sr A B) I E1 W1) as HR.
  destruct (R_run_held N before _ _ None _ _ (R_init N s0 sr A B) I E1 W1 _ _ W) as (h & Hh & W2).
  pose proof HR as (LA & LB & _).
  rewrite (stable_gen N after s1 h s2 r2 false _ Hh LA LB eq_refl E2 W2 U i).
  apply (shows_out N _ _ HR).
Qed.

Lemma undisturbed_no_swap ops : Forall no_swap ops -> undisturbed false ops.
Proof. induction 1 as [|o t H _ IH]; [exact I|]. destruct o; cbn in *; auto; contradiction. Qed.

Definition block_ops (p : side) (xs : list f32) : list lop := LFetchP :: stores p xs ++ [LSwap].

Lemma stores_sem N p : forall xs k back front, (k + length xs = length back)%nat ->
  fold_left (sem N) (map (fun ix => LStore p (fst ix) (snd ix)) (combine (seq k (length xs)) xs)) (back, front)
  = (firstn k back ++ xs, front).
Proof.
  induction xs as [|x xs IH]; intros k back front L; cbn [length combine seq map fold_left fst snd sem] in L |- *.
  - rewrite app_nil_r, firstn_all2 by lia. reflexivity.
  - rewrite IH.
    + f_equal. unfold upd. rewrite firstn_app, firstn_firstn, firstn_length.
      replace (Init.Nat.min (S k) k) with k by lia.
      replace (S k - Nat.min k (length back))%nat with 1%nat by lia. cbn [firstn].
      rewrite <- app_assoc. reflexivity.
    + rewrite upd_length; lia.
Qed.

Lemma sems_len N ops : forall bf, length (fst bf) = N -> length (snd bf) = N ->
  (forall p i x, In (LStore p i x) ops -> (i < N)%nat) ->
  length (fst (fold_left (sem N) ops bf)) = N /\ length (snd (fold_left (sem N) ops bf)) = N.
Proof.
  induction ops as [|o t IH]; intros [b f] A B H; cbn in A, B; [auto|]. cbn [fold_left].
  apply IH; destruct o; cbn; unfold silence; rewrite ?repeat_length, ?upd_length; auto;
    try (rewrite A; eapply H; left; reflexivity); intros; eapply H; right; eauto.
Qed.

Lemma writer_bounds N tr : forall h, writer_ok N h tr -> forall p i x r, In (LStore p i x, r) tr -> (i < N)%nat.
Proof.
  induction tr as [|[o q] t IH]; intros h W p i x r Hin; [contradiction|]. destruct Hin as [E|E].
  - injection E as -> ->. cbn in W. tauto.
  - destruct o, q; cbn in W; try (eapply IH; eauto; fail); destruct W as (_ & _ & W); eapply IH; eauto.
Qed.

Lemma p_full_block N st before p xs s1 r1 : started N st -> length xs = N ->
  lrun st (before ++ block_ops p xs) = Some (s1, r1) ->
  writer_ok N None (combine (before ++ block_ops p xs) r1) ->
  shows s1 (getOutputBuffer s1) xs.
Proof.
  intros H L E W.
  destruct (p_refines _ _ _ _ _ H E W) as [S _].
  assert (X : snd (sems N (before ++ block_ops p xs)) = xs); [|now rewrite X in S].
  unfold sems. rewrite fold_left_app.
  destruct (lrun_app _ _ _ _ _ E) as (s2 & q1 & q2 & E1 & E2 & -> & L1).
  rewrite combine_app in W by exact L1. pose proof (writer_app_l _ _ _ _ W) as W1.
  assert (LL : length (fst (fold_left (sem N) before (silence N, silence N))) = N /\
               length (snd (fold_left (sem N) before (silence N, silence N))) = N).
  { apply sems_len; cbn; unfold silence; rewrite ?repeat_length; auto.
    intros p0 i x Hin. destruct (In_nth_error _ _ Hin) as [k Hk].
    assert (exists r, nth_error q1 k = Some r) as [r Hr].
    { destruct (nth_error q1 k) eqn:Z; [eauto|]. apply nth_error_None in Z.
      assert (nth_error before k = None) by (apply nth_error_None; lia). congruence. }
    eapply writer_bounds; [exact W1|]. 
    assert (nth_error (combine before q1) k = Some (LStore p0 i x, r)).
    { clear -Hk Hr. revert q1 k Hk Hr. induction before; intros [|h q1] [|k]; cbn; intros; try discriminate; try congruence.
      apply IHbefore; auto. }
    eapply nth_error_In. eassumption. }
  destruct (fold_left (sem N) before (silence N, silence N)) as [b f]. cbn in LL.
  unfold block_ops. cbn [fold_left sem]. rewrite fold_left_app. unfold stores.
  rewrite stores_sem by (cbn; lia). reflexivity.
Qed.

(** ** Concrete states for the examples and the refuted variants. *)
Definition ex0 : lstate := loop_init (LState [fzero; fzero] [fzero; fzero] true fzero) (fofZ 48000).
Lemma ex0_started : started 2 ex0.
Proof. exists (LState [fzero; fzero] [fzero; fzero] true fzero), (fofZ 48000). auto. Qed.
