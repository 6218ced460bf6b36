(** Proofs about AllocModel.v. *)
From Coq Require Import ZArith Bool List Lia ZifyBool ZifyNat.
From Verif Require Import Flt AllocModel AllocSpec.
Import ListNotations.
Local Open Scope Z_scope.

(** ** Arrays *)
Lemma aget_app {A} (l1 : list A) x l2 i : i = length l1 -> aget (l1 ++ x :: l2) i = Some x.
Proof. intros ->. unfold aget. rewrite nth_error_app2, Nat.sub_diag by lia. reflexivity. Qed.

Lemma aset_app {A} (l1 : list A) x y l2 i :
  i = length l1 -> aset (l1 ++ x :: l2) i y = Some (l1 ++ y :: l2).
Proof.
  intros ->. induction l1 as [|h t IH]; simpl; [reflexivity|]. now rewrite IH.
Qed.

Lemma aset_length {A} (l l' : list A) i x : aset l i x = Some l' -> length l' = length l.
Proof.
  revert l' i. induction l as [|h t IH]; intros l' i H; simpl in H; [discriminate|].
  destruct i; [injection H as <-; reflexivity|].
  destruct (aset t i x) eqn:E; [|discriminate]. injection H as <-. simpl. f_equal. eauto.
Qed.

Lemma split_view {A} (l : list A) n :
  (n <= length l)%nat -> exists v post, l = v ++ post /\ length v = n.
Proof.
  intros H. exists (firstn n l), (skipn n l).
  split; [symmetry; apply firstn_skipn | now apply firstn_length_le].
Qed.

Lemma firstn_exact {A} (l1 l2 : list A) n : n = length l1 -> firstn n (l1 ++ l2) = l1.
Proof. intros ->. rewrite firstn_app, Nat.sub_diag, firstn_all. simpl. apply app_nil_r. Qed.

(** ** Searching *)
Fixpoint lfind {A} (p : A -> bool) (l : list A) : option nat :=
  match l with
  | [] => None
  | x :: t => if p x then Some 0%nat else option_map S (lfind p t)
  end.

Lemma lfind_none {A} (p : A -> bool) l : lfind p l = None <-> (forall x, In x l -> p x = false).
Proof.
  induction l as [|h t IH]; simpl; split; intros H; try tauto.
  - intros x [<-|Hx]; destruct (p h) eqn:E; try discriminate; [reflexivity|].
    destruct (lfind p t); [discriminate|]. apply IH; auto.
  - rewrite (H h) by auto. destruct IH as [_ IH]. rewrite IH by auto. reflexivity.
Qed.

Lemma lfind_some {A} (p : A -> bool) l k :
  lfind p l = Some k ->
  exists l1 x l2, l = l1 ++ x :: l2 /\ length l1 = k /\ p x = true /\ (forall y, In y l1 -> p y = false).
Proof.
  revert k. induction l as [|h t IH]; intros k H; simpl in H; [discriminate|].
  destruct (p h) eqn:E.
  - injection H as <-. exists [], h, t. simpl. tauto.
  - destruct (lfind p t) as [k'|] eqn:F; [|discriminate]. injection H as <-.
    destruct (IH k' eq_refl) as (l1 & x & l2 & -> & <- & Hx & Hy).
    exists (h :: l1), x, l2. simpl. repeat split; auto.
    intros y [<-|]; auto.
Qed.

Definition fits (need : Z) (b : block) : bool := negb (b_used b) && (need <=? b_size b).
Definition isat (offset : Z) (b : block) : bool := (b_off b =? offset) && b_used b.

Lemma find_fit_spec need pre l post :
  find_fit (pre ++ l ++ post) need (length pre) (length l)
  = Some (option_map (fun k => (length pre + k)%nat) (lfind (fits need) l)).
Proof.
  revert pre. induction l as [|h t IH]; intros pre; [reflexivity|].
  cbn [length find_fit lfind app]. rewrite aget_app by reflexivity. cbn [bind].
  fold (fits need h).
  destruct (fits need h) eqn:E; cbn [option_map]; [f_equal; f_equal; lia|].
  specialize (IH (pre ++ [h])). rewrite app_length in IH. cbn [length] in IH.
  rewrite <- app_assoc in IH. cbn [app] in IH.
  replace (length pre + 1)%nat with (S (length pre)) in IH by lia. rewrite IH.
  destruct (lfind (fits need) t); cbn [option_map]; [f_equal; f_equal; lia|reflexivity].
Qed.

Lemma find_used_spec off pre l post :
  find_used (pre ++ l ++ post) off (length pre) (length l)
  = Some (option_map (fun k => (length pre + k)%nat) (lfind (isat off) l)).
Proof.
  revert pre. induction l as [|h t IH]; intros pre; [reflexivity|].
  cbn [length find_used lfind app]. rewrite aget_app by reflexivity. cbn [bind].
  fold (isat off h).
  destruct (isat off h) eqn:E; cbn [option_map]; [f_equal; f_equal; lia|].
  specialize (IH (pre ++ [h])). rewrite app_length in IH. cbn [length] in IH.
  rewrite <- app_assoc in IH. cbn [app] in IH.
  replace (length pre + 1)%nat with (S (length pre)) in IH by lia. rewrite IH.
  destruct (lfind (isat off) t); cbn [option_map]; [f_equal; f_equal; lia|reflexivity].
Qed.

(** ** Shifting *)
Lemma shift_up_spec l2 : forall l1 x j0 post,
  exists j', shift_up (l1 ++ x :: l2 ++ j0 :: post) (length l1) (length l2)
             = Some (l1 ++ x :: j' :: l2 ++ post).
Proof.
  induction l2 as [|z l2 IH] using rev_ind; intros l1 x j0 post.
  - exists j0. reflexivity.
  - rewrite app_length. cbn [length]. replace (length l2 + 1)%nat with (S (length l2)) by lia.
    cbn [shift_up].
    replace (l1 ++ x :: (l2 ++ [z]) ++ j0 :: post) with ((l1 ++ x :: l2) ++ z :: j0 :: post)
      by (rewrite <- !app_assoc; reflexivity).
    rewrite aget_app by (rewrite app_length; simpl; lia). cbn [bind].
    replace ((l1 ++ x :: l2) ++ z :: j0 :: post) with ((l1 ++ x :: l2 ++ [z]) ++ j0 :: post)
      by (rewrite <- !app_assoc; simpl; rewrite <- app_assoc; reflexivity).
    rewrite aset_app by (rewrite app_length; simpl; rewrite app_length; simpl; lia). cbn [bind].
    replace ((l1 ++ x :: l2 ++ [z]) ++ z :: post) with (l1 ++ x :: l2 ++ z :: z :: post)
      by (rewrite <- !app_assoc; simpl; rewrite <- app_assoc; reflexivity).
    destruct (IH l1 x z (z :: post)) as [j' ->]. exists j'.
    rewrite <- app_assoc. reflexivity.
Qed.

Lemma shift_down_spec l : forall pre j0 post,
  exists jl, shift_down (pre ++ j0 :: l ++ post) (length pre) (length l)
             = Some (pre ++ l ++ jl :: post).
Proof.
  induction l as [|h t IH]; intros pre j0 post.
  - exists j0. reflexivity.
  - cbn [length shift_down app].
    replace (pre ++ j0 :: h :: t ++ post) with ((pre ++ [j0]) ++ h :: t ++ post)
      by (rewrite <- app_assoc; reflexivity).
    rewrite aget_app by (rewrite app_length; simpl; lia). cbn [bind].
    rewrite <- app_assoc. cbn [app]. rewrite aset_app by reflexivity. cbn [bind].
    replace (pre ++ h :: h :: t ++ post) with ((pre ++ [h]) ++ h :: t ++ post)
      by (rewrite <- app_assoc; reflexivity).
    replace (S (length pre)) with (length (pre ++ [h])) by (rewrite app_length; simpl; lia).
    destruct (IH (pre ++ [h]) h post) as [jl ->]. exists jl.
    rewrite <- app_assoc. reflexivity.
Qed.

(** ** Merging, at list level *)
Fixpoint lmerge (a : block) (rest : list block) : list block :=
  match rest with
  | [] => [a]
  | b :: t =>
      if negb (b_used a) && negb (b_used b)
      then lmerge (Block (b_off a) (wrap64 (b_size a + b_size b)) (b_used a)) t
      else a :: lmerge b t
  end.

Lemma lmerge_length rest : forall a, (1 <= length (lmerge a rest) <= S (length rest))%nat.
Proof.
  induction rest as [|b t IH]; intros a; cbn [lmerge length]; [lia|].
  destruct (_ && _); [specialize (IH (Block (b_off a) (wrap64 (b_size a + b_size b)) (b_used a))); lia|].
  cbn [length]. specialize (IH b). lia.
Qed.

Lemma merge_loop_spec rest : forall dn a post,
  exists post',
    merge_loop (dn ++ a :: rest ++ post) (length dn + 1 + length rest) (length dn) (length rest)
    = Some ((dn ++ lmerge a rest) ++ post', (length dn + length (lmerge a rest))%nat)
    /\ (length (dn ++ lmerge a rest) + length post' = length dn + 1 + length rest + length post)%nat.
Proof.
  induction rest as [|b t IH]; intros dn a post.
  - exists post. cbn [length merge_loop lmerge app]. rewrite <- app_assoc. cbn [app].
    split; [f_equal; f_equal; lia| rewrite app_length; simpl; lia].
  - cbn [length merge_loop app].
    rewrite aget_app by reflexivity. cbn [bind].
    replace (dn ++ a :: b :: t ++ post) with ((dn ++ [a]) ++ b :: t ++ post)
      by (rewrite <- app_assoc; reflexivity).
    rewrite aget_app by (rewrite app_length; simpl; lia). cbn [bind lmerge].
    rewrite <- app_assoc. cbn [app].
    destruct (negb (b_used a) && negb (b_used b)) eqn:E.
    + rewrite aset_app by reflexivity. cbn [bind].
      set (a' := Block (b_off a) (wrap64 (b_size a + b_size b)) (b_used a)).
      replace (length dn + 1 + S (length t) - 1 - (length dn + 1))%nat with (length t) by lia.
      replace (dn ++ a' :: b :: t ++ post) with ((dn ++ [a']) ++ b :: t ++ post)
        by (rewrite <- app_assoc; reflexivity).
      destruct (shift_down_spec t (dn ++ [a']) b post) as [jl Ej].
      rewrite app_length in Ej. cbn [length] in Ej. rewrite Ej. cbn [bind].
      rewrite <- app_assoc. cbn [app].
      replace (length dn + 1 + S (length t) - 1)%nat with (length dn + 1 + length t)%nat by lia.
      destruct (IH dn a' (jl :: post)) as (post' & -> & L). exists post'.
      split; [reflexivity|]. rewrite L. simpl. lia.
    + replace (dn ++ a :: b :: t ++ post) with ((dn ++ [a]) ++ b :: t ++ post)
        by (rewrite <- app_assoc; reflexivity).
      replace (length dn + 1 + S (length t))%nat with (length (dn ++ [a]) + 1 + length t)%nat
        by (rewrite app_length; simpl; lia).
      replace (S (length dn)) with (length (dn ++ [a])) by (rewrite app_length; simpl; lia).
      destruct (IH (dn ++ [a]) b post) as (post' & -> & L). exists post'.
      rewrite <- !app_assoc. cbn [app]. split.
      * do 2 f_equal. rewrite app_length. cbn [length]. lia.
      * rewrite <- app_assoc in L. cbn [app] in L. rewrite L.
        rewrite !app_length. cbn [length]. lia.
Qed.

Definition lmerge_all (l : list block) : list block :=
  match l with [] => [] | a :: t => lmerge a t end.

Lemma merge_adjacent_spec v post :
  exists post', merge_adjacent (v ++ post) (length v)
    = Some (lmerge_all v ++ post', length (lmerge_all v))
    /\ (length (lmerge_all v ++ post') = length (v ++ post))%nat.
Proof.
  unfold merge_adjacent.
  destruct v as [|a t].
  - exists post. split; reflexivity.
  - destruct t as [|b t].
    + exists post. split; reflexivity.
    + cbn [length Nat.leb lmerge_all].
      destruct (merge_loop_spec (b :: t) [] a post) as (post' & E & L).
      exists post'. replace (S (S (length t)) - 1)%nat with (length (b :: t)) by (simpl; lia).
      cbn [app length] in E, L |- *.
      replace (0 + 1 + S (length t))%nat with (S (S (length t))) in E by lia.
      rewrite E. split; [reflexivity|].
      rewrite app_length. rewrite L. cbn [length]. rewrite app_length. lia.
Qed.

(** ** The block-list invariant *)
Fixpoint tiles (s : Z) (l : list block) (e : Z) : Prop :=
  match l with
  | [] => s = e
  | b :: t => b_off b = s /\ 0 < b_size b /\ tiles (s + b_size b) t e
  end.

Fixpoint coalesced (l : list block) : Prop :=
  match l with
  | a :: (b :: _) as t => (b_used a = true \/ b_used b = true) /\ coalesced t
  | _ => True
  end.
Arguments coalesced !l.

Lemma tiles_app l1 : forall s l2 e,
  tiles s (l1 ++ l2) e <-> exists m, tiles s l1 m /\ tiles m l2 e.
Proof.
  induction l1 as [|b t IH]; intros s l2 e; cbn [app tiles].
  - split; [intros H; exists s; auto | intros (m & <- & H); exact H].
  - rewrite IH. split.
    + intros (A & B & m & C & D). exists m. auto.
    + intros (m & (A & B & C) & D). split; [|split]; auto. exists m; auto.
Qed.

Lemma tiles_le l : forall s e, tiles s l e -> s <= e.
Proof.
  induction l as [|b t IH]; intros s e H; cbn [tiles] in H; [lia|].
  destruct H as (_ & Hp & H). apply IH in H. lia.
Qed.

Lemma tiles_in l : forall s e b, tiles s l e -> In b l -> s <= b_off b /\ 0 < b_size b /\ b_off b + b_size b <= e.
Proof.
  induction l as [|a t IH]; intros s e b H Hb; [destruct Hb|].
  destruct H as (Ho & Hp & H). pose proof (tiles_le _ _ _ H).
  destruct Hb as [->|Hb]; [lia|].
  destruct (IH _ _ _ H Hb). lia.
Qed.

Lemma tiles_uniq l : forall s e b b' i, tiles s l e -> In b l -> In b' l ->
  b_off b <= i < b_off b + b_size b -> b_off b' <= i < b_off b' + b_size b' -> b = b'.
Proof.
  induction l as [|a t IH]; intros s e b b' i H Hb Hb' Hi Hi'; [destruct Hb|].
  destruct H as (Ho & Hp & H).
  destruct Hb as [<-|Hb], Hb' as [<-|Hb']; auto.
  - destruct (tiles_in _ _ _ _ H Hb'). lia.
  - destruct (tiles_in _ _ _ _ H Hb). lia.
  - eapply IH; eauto.
Qed.

Lemma tiles_cover l : forall s e i, tiles s l e -> s <= i < e ->
  exists b, In b l /\ b_off b <= i < b_off b + b_size b.
Proof.
  induction l as [|a t IH]; intros s e i H Hi; cbn [tiles] in H; [lia|].
  destruct H as (Ho & Hp & H).
  destruct (Z_lt_dec i (s + b_size a)).
  - exists a. simpl. split; [auto|lia].
  - destruct (IH _ _ i H ltac:(lia)) as (b & Hb & Hbi). exists b. simpl; auto.
Qed.

Lemma coalesced_cons a b t : coalesced (a :: b :: t) <-> (b_used a = true \/ b_used b = true) /\ coalesced (b :: t).
Proof. reflexivity. Qed.

Lemma coalesced_tail a t : coalesced (a :: t) -> coalesced t.
Proof. destruct t as [|b t]; [intros _; exact I|]. rewrite coalesced_cons. tauto. Qed.

Lemma coalesced_app l1 l2 : coalesced (l1 ++ l2) -> coalesced l1 /\ coalesced l2.
Proof.
  induction l1 as [|a t IH]; intros H; [split; [exact I|exact H]|].
  cbn [app] in H. pose proof (coalesced_tail _ _ H) as Ht. destruct (IH Ht) as [A B].
  split; [|exact B]. destruct t as [|b t]; [exact I|].
  cbn [app] in H. rewrite coalesced_cons in *. tauto.
Qed.

(** lmerge coalesces and keeps the tiling. *)
Lemma wrap64_small n : 0 <= n < 2 ^ 64 -> wrap64 n = n.
Proof. intros H. unfold wrap64. now apply Z.mod_small. Qed.

Lemma lmerge_tiles rest : forall a s e, e < 2 ^ 64 -> 0 <= s ->
  tiles s (a :: rest) e -> tiles s (lmerge a rest) e.
Proof.
  induction rest as [|b t IH]; intros a s e He Hs H; cbn [lmerge]; [exact H|].
  cbn [tiles] in H. destruct H as (Ho & Hp & Ho' & Hp' & H).
  pose proof (tiles_le _ _ _ H).
  destruct (_ && _).
  - apply IH; [exact He|exact Hs|].
    cbn [tiles b_off b_size]. rewrite wrap64_small by lia.
    replace (s + (b_size a + b_size b)) with (s + b_size a + b_size b) by lia.
    repeat split; auto; lia.
  - cbn [tiles]. repeat split; auto. apply IH; [exact He|lia|]. cbn [tiles]. auto.
Qed.

Lemma lmerge_head rest : forall a, exists z t, lmerge a rest = z :: t /\ b_used z = b_used a /\ b_off z = b_off a.
Proof.
  induction rest as [|b t IH]; intros a; cbn [lmerge].
  - exists a, []. auto.
  - destruct (_ && _) eqn:E.
    + destruct (IH (Block (b_off a) (wrap64 (b_size a + b_size b)) (b_used a))) as (z & u & -> & A & B).
      exists z, u. auto.
    + exists a, (lmerge b t). auto.
Qed.

Lemma lmerge_coalesced rest : forall a, coalesced (lmerge a rest).
Proof.
  induction rest as [|b t IH]; intros a; cbn [lmerge]; [exact I|].
  destruct (negb (b_used a) && negb (b_used b)) eqn:E; [apply IH|].
  specialize (IH b). destruct (lmerge_head t b) as (z & u & Ez & A & _).
  rewrite Ez in *. rewrite coalesced_cons. split; [|exact IH].
  rewrite A. destruct (b_used a), (b_used b); auto; discriminate.
Qed.

(** lmerge keeps exactly the used blocks. *)
Lemma lmerge_used rest : forall a o s, In (Block o s true) (lmerge a rest) <-> In (Block o s true) (a :: rest).
Proof.
  induction rest as [|b t IH]; intros a o s; cbn [lmerge]; [reflexivity|].
  destruct (negb (b_used a) && negb (b_used b)) eqn:E.
  - rewrite IH. cbn [In]. apply andb_prop in E. destruct E as [E1 E2].
    destruct a as [ao as_ au], b as [bo bs bu]; cbn in *.
    destruct au; [discriminate|]. destruct bu; [discriminate|].
    split; intros [H|H]; try discriminate; auto. destruct H as [H|H]; [discriminate|auto].
  - cbn [In]. rewrite IH. cbn [In]. reflexivity.
Qed.

Lemma lmerge_all_tiles l s e : e < 2 ^ 64 -> 0 <= s -> tiles s l e -> tiles s (lmerge_all l) e.
Proof. destruct l; [auto|]. apply lmerge_tiles. Qed.
Lemma lmerge_all_coalesced l : coalesced (lmerge_all l).
Proof. destruct l; [exact I|]. apply lmerge_coalesced. Qed.
Lemma lmerge_all_used l o s : In (Block o s true) (lmerge_all l) <-> In (Block o s true) l.
Proof. destruct l; [reflexivity|]. apply lmerge_used. Qed.
Lemma lmerge_all_length l : (length (lmerge_all l) <= length l)%nat.
Proof. destruct l; [simpl; lia|]. pose proof (lmerge_length l b). simpl. lia. Qed.

(** ** State invariant *)
Section Inv.
  Variable P : Z.
  Variable MB : nat.
  Hypothesis HP : 0 < P < 2 ^ 64.
  Hypothesis HMB : (1 <= MB)%nat.

  Definition view (st : astate) : list block := firstn (bcount st) (blocks st).

  Definition tinv (st : astate) : Prop :=
    length (blocks st) = MB /\
    if inited st
    then (1 <= bcount st <= MB)%nat /\ tiles 0 (view st) P /\ coalesced (view st)
    else bcount st = 0%nat.

  Definition linv (st : astate) (L : list region) : Prop :=
    (inited st = false -> L = []) /\
    NoDup (map fst L) /\
    (forall o n, In (o, n) L -> exists s, In (Block o s true) (view st) /\ 0 < n <= s) /\
    (forall o s, In (Block o s true) (view st) -> exists n, In (o, n) L).

  Lemma view_of (v post : list block) k : k = length v -> firstn k (v ++ post) = v.
  Proof. apply firstn_exact. Qed.

  Lemma tinv_split st : tinv st -> inited st = true ->
    exists post, blocks st = view st ++ post /\ length (view st) = bcount st
      /\ (length (view st) + length post = MB)%nat.
  Proof.
    intros (Hl & Hi) E. rewrite E in Hi. destruct Hi as ((H1 & H2) & _).
    exists (skipn (bcount st) (blocks st)). unfold view.
    rewrite firstn_skipn. split; [reflexivity|].
    rewrite firstn_length, skipn_length. lia.
  Qed.

  Lemma init_spec st sr : length (blocks st) = MB ->
    exists st', init P st sr = Some st' /\ tinv st' /\ inited st' = true
      /\ view st' = [Block 0 P false] /\ srate st' = sr
      /\ (forall i, 0 <= i < P -> pool st' i = fzero)
      /\ (forall i, ~ (0 <= i < P) -> pool st' i = pool st i).
  Proof.
    intros Hl. unfold init. destruct (blocks st) as [|b t] eqn:E; [simpl in Hl; lia|].
    cbn [aset bind]. eexists. split; [reflexivity|].
    unfold tinv, view; cbn. repeat split; auto; try lia.
    - intros i Hi. replace ((0 <=? i) && (i <? P)) with true by lia. reflexivity.
    - intros i Hi. replace ((0 <=? i) && (i <? P)) with false by lia. reflexivity.
  Qed.

  (** Shape of an allocation. *)
  Lemma allocate_fail_guard st n ch :
    negb (inited st) || (n =? 0) || (negb (ch =? 1) && negb (ch =? 2)) = true ->
    allocate P st n ch = Some (st, buffer0).
  Proof. intros E. unfold allocate. rewrite E. reflexivity. Qed.

  Lemma allocate_shape st n ch :
    tinv st -> inited st = true -> n <> 0 -> (ch = 1 \/ ch = 2) -> 0 <= n -> n * ch < 2 ^ 64 ->
    match lfind (fits (n * ch)) (view st) with
    | None => allocate P st n ch = Some (st, buffer0)
    | Some _ =>
        exists l1 o s l2 st',
          view st = l1 ++ Block o s false :: l2 /\ n * ch <= s /\
          (forall b, In b l1 -> fits (n * ch) b = false) /\
          allocate P st n ch = Some (st', Buffer (PPool o) ch (srate st) n) /\
          inited st' = true /\ srate st' = srate st /\ pool st' = pool st /\
          length (blocks st') = MB /\ bcount st' = length (view st') /\
          view st' =
            (if (0 <? s - n * ch) && (bcount st <? MB)%nat
             then l1 ++ Block o (n * ch) true :: Block (o + n * ch) (s - n * ch) false :: l2
             else l1 ++ Block o s true :: l2)
    end.
  Proof.
    intros Ht Hi Hn Hch Hn0 Hw.
    destruct (tinv_split st Ht Hi) as (post & Eb & Lv & Lm).
    pose proof Ht as (Hl & Hrest). rewrite Hi in Hrest. destruct Hrest as (Hc & Htl & Hco).
    assert (Hg : negb (inited st) || (n =? 0) || (negb (ch =? 1) && negb (ch =? 2)) = false)
      by (rewrite Hi; destruct Hch; subst; lia).
    assert (Hwr : wrap64 (n * ch) = n * ch) by (apply wrap64_small; nia).
    pose proof (find_fit_spec (n * ch) [] (view st) post) as Ff.
    cbn [app length] in Ff. rewrite <- Eb, Lv in Ff.
    destruct (lfind (fits (n * ch)) (view st)) as [k|] eqn:E.
    2:{ unfold allocate. rewrite Hg. cbv zeta. rewrite Hwr, Ff. reflexivity. }
    destruct (lfind_some _ _ _ E) as (l1 & [o s u] & l2 & Ev & Lk & Hfit & Hpre).
    unfold fits in Hfit; cbn [b_used b_size] in Hfit.
    assert (u = false) by (destruct u; [discriminate|reflexivity]); subst u.
    assert (Hs : n * ch <= s) by lia. clear Hfit.
    assert (Hin : In (Block o s false) (view st)) by (rewrite Ev; apply in_elt).
    destruct (tiles_in _ _ _ _ Htl Hin) as (Ho1 & Hs1 & Hos). cbn [b_off b_size] in *.
    assert (Hrem : wrap64 (s - n * ch) = s - n * ch) by (apply wrap64_small; nia).
    assert (Hoff : wrap64 (o + n * ch) = o + n * ch) by (apply wrap64_small; nia).
    unfold allocate. rewrite Hg. cbv zeta. rewrite Hwr, Ff. cbn [option_map bind plus].
    rewrite Eb, Ev, <- app_assoc. cbn [app].
    rewrite aget_app by auto. cbn [bind b_off b_size].
    rewrite Hrem, Hoff.
    assert (Hlen : length (l1 ++ Block o s false :: l2 ++ post) = MB).
    { rewrite <- Hl, Eb, Ev, <- app_assoc. reflexivity. }
    rewrite Hlen.
    assert (Hok : (0 <=? o) && (o <? P) = true) by lia.
    assert (Lc : bcount st = (length l1 + S (length l2))%nat).
    { rewrite <- Lv, Ev, app_length. reflexivity. }
    destruct ((0 <? s - n * ch) && (bcount st <? MB)%nat) eqn:Esp.
    - rewrite aset_app by auto. cbn [bind].
      destruct post as [|j0 post].
      { exfalso. rewrite app_nil_r in Eb. rewrite Eb, Ev in Hl. rewrite app_length in Hl.
        cbn [length] in *. lia. }
      replace (bcount st - (k + 1))%nat with (length l2) by lia. subst k.
      destruct (shift_up_spec l2 l1 (Block o (n * ch) true) j0 post) as [j' ->]. cbn [bind].
      replace (l1 ++ Block o (n * ch) true :: j' :: l2 ++ post)
        with ((l1 ++ [Block o (n * ch) true]) ++ j' :: l2 ++ post) by (rewrite <- app_assoc; reflexivity).
      rewrite aset_app by (rewrite app_length; simpl; lia). cbn [bind fst snd]. rewrite Hok.
      exists l1, o, s, l2. eexists. repeat split; cbn [inited srate pool blocks bcount view].
      all: auto.
      + rewrite <- Hlen. repeat (rewrite app_length || cbn [length]). lia.
      + unfold view; cbn [bcount blocks].
        rewrite firstn_length_le; [reflexivity|].
        repeat (rewrite app_length || cbn [length]). lia.
      + rewrite Esp. unfold view; cbn [bcount blocks].
        replace ((l1 ++ [Block o (n * ch) true]) ++ Block (o + n * ch) (s - n * ch) false :: l2 ++ post)
          with ((l1 ++ Block o (n * ch) true :: Block (o + n * ch) (s - n * ch) false :: l2) ++ post)
          by (rewrite <- !app_assoc; reflexivity).
        apply view_of. rewrite app_length. cbn [length]. lia.
    - rewrite aset_app by auto. cbn [bind fst snd]. rewrite Hok.
      exists l1, o, s, l2. eexists. repeat split; cbn [inited srate pool blocks bcount view].
      all: auto.
      + rewrite <- Hlen. repeat (rewrite app_length || cbn [length]). lia.
      + unfold view; cbn [bcount blocks].
        rewrite firstn_length_le; [reflexivity|].
        repeat (rewrite app_length || cbn [length]). lia.
      + rewrite Esp. unfold view; cbn [bcount blocks].
        replace (l1 ++ Block o s true :: l2 ++ post) with ((l1 ++ Block o s true :: l2) ++ post)
          by (rewrite <- app_assoc; reflexivity).
        apply view_of. rewrite app_length. cbn [length]. lia.
  Qed.

  Lemma coalesced_split l1 o s l2 o' s' o'' s'' :
    coalesced (l1 ++ Block o s false :: l2) ->
    coalesced (l1 ++ Block o' s' true :: Block o'' s'' false :: l2).
  Proof.
    induction l1 as [|a t IH]; cbn [app]; intros H.
    - rewrite coalesced_cons. split; [left; reflexivity|].
      destruct l2 as [|b l2]; [exact I|]. rewrite coalesced_cons in *. exact H.
    - destruct t as [|b t]; cbn [app] in *.
      + rewrite coalesced_cons in H. destruct H as [H1 H2].
        rewrite coalesced_cons. split; [right; reflexivity|]. now apply IH.
      + rewrite coalesced_cons in *. split; [tauto|]. apply IH. tauto.
  Qed.

  Lemma coalesced_use l1 o s l2 o' s' u :
    coalesced (l1 ++ Block o s u :: l2) -> coalesced (l1 ++ Block o' s' true :: l2).
  Proof.
    induction l1 as [|a t IH]; cbn [app]; intros H.
    - destruct l2 as [|b l2]; [exact I|]. rewrite coalesced_cons in *. split; [left; reflexivity|tauto].
    - destruct t as [|b t]; cbn [app] in *.
      + rewrite coalesced_cons in *. split; [right; reflexivity|]. apply IH. tauto.
      + rewrite coalesced_cons in *. split; [tauto|]. apply IH. tauto.
  Qed.

  (** Allocation keeps the table invariant. *)
  Lemma allocate_tinv st n ch st' b :
    tinv st -> args_ok (OAlloc n ch) -> allocate P st n ch = Some (st', b) -> tinv st'.
  Proof.
    intros Ht (Hn0 & Hc & Hw) E.
    destruct (negb (inited st) || (n =? 0) || (negb (ch =? 1) && negb (ch =? 2))) eqn:Hg.
    { rewrite allocate_fail_guard in E by exact Hg. injection E as <- _. exact Ht. }
    assert (Hi : inited st = true) by (destruct (inited st); [reflexivity|discriminate]).
    assert (Hch : ch = 1 \/ ch = 2) by lia. assert (Hn : n <> 0) by lia.
    pose proof (allocate_shape st n ch Ht Hi Hn Hch Hn0 Hw) as Sh.
    destruct (lfind _ _).
    2:{ rewrite Sh in E. injection E as <- _. exact Ht. }
    destruct Sh as (l1 & o & s & l2 & st2 & Ev & Hs & Hpre & Ea & Hi2 & _ & _ & Hl2 & Hc2 & Ev2).
    rewrite Ea in E. injection E as <- _.
    pose proof Ht as (Hl & Hrest). rewrite Hi in Hrest. destruct Hrest as (Hcnt & Htl & Hco).
    destruct (tinv_split st Ht Hi) as (post & Eb & Lv & Lm).
    unfold tinv. split; [exact Hl2|]. rewrite Hi2.
    rewrite Ev in Htl, Hco, Lv. rewrite app_length in Lv. cbn [length] in Lv.
    assert (Hn1 : 0 < n * ch) by nia.
    destruct ((0 <? s - n * ch) && (bcount st <? MB)%nat) eqn:Esp.
    - rewrite Hc2, Ev2. split; [rewrite app_length; cbn [length]; lia|]. split.
      + rewrite tiles_app in *. destruct Htl as (m & A & B). exists m. split; [exact A|].
        cbn [tiles b_off b_size] in *. destruct B as (-> & B1 & B2).
        repeat split; try lia. replace (m + n * ch + (s - n * ch)) with (m + s) by lia. exact B2.
      + eapply coalesced_split; eauto.
    - rewrite Hc2, Ev2. split; [rewrite app_length; cbn [length]; lia|]. split.
      + rewrite tiles_app in *. destruct Htl as (m & A & B). exists m. split; [exact A|]. exact B.
      + eapply coalesced_use; eauto.
  Qed.

  (** Shape of a release. *)
  Lemma release_shape st off :
    tinv st -> inited st = true -> 0 <= off < P ->
    match lfind (isat off) (view st) with
    | None => release P st (PPool off) = Some (st, false)
    | Some _ =>
        exists l1 s l2 st',
          view st = l1 ++ Block off s true :: l2 /\
          release P st (PPool off) = Some (st', true) /\
          inited st' = true /\ srate st' = srate st /\ pool st' = pool st /\
          length (blocks st') = MB /\ bcount st' = length (view st') /\
          view st' = lmerge_all (l1 ++ Block off s false :: l2)
    end.
  Proof.
    intros Ht Hi Ho.
    destruct (tinv_split st Ht Hi) as (post & Eb & Lv & Lm).
    pose proof Ht as (Hl & _).
    unfold release. rewrite Hi. cbn [negb].
    replace ((off <? 0) || (P <=? off)) with false by lia.
    pose proof (find_used_spec off [] (view st) post) as Ff.
    cbn [app length] in Ff. rewrite <- Eb, Lv in Ff. rewrite Ff.
    destruct (lfind (isat off) (view st)) as [k|] eqn:E; [|reflexivity].
    destruct (lfind_some _ _ _ E) as (l1 & [o s u] & l2 & Ev & Lk & Hat & Hpre).
    unfold isat in Hat; cbn [b_used b_off] in Hat.
    assert (u = true) by lia; subst u. assert (o = off) by lia; subst o. clear Hat.
    cbn [option_map bind plus].
    rewrite Eb, Ev, <- app_assoc. cbn [app].
    rewrite aget_app by auto. cbn [bind b_off b_size].
    rewrite aset_app by auto. cbn [bind].
    assert (Lc : bcount st = length (l1 ++ Block off s false :: l2)).
    { rewrite <- Lv, Ev, !app_length. reflexivity. }
    replace (l1 ++ Block off s false :: l2 ++ post) with ((l1 ++ Block off s false :: l2) ++ post)
      by (rewrite <- app_assoc; reflexivity).
    rewrite Lc.
    destruct (merge_adjacent_spec (l1 ++ Block off s false :: l2) post) as (post' & -> & Lp).
    cbn [bind fst snd].
    exists l1, s, l2. eexists. repeat split; cbn [inited srate pool blocks bcount]; auto.
    - rewrite Lp. rewrite <- Hl, Eb, Ev, <- !app_assoc. rewrite !app_length. reflexivity.
    - unfold view; cbn [bcount blocks]. rewrite view_of by reflexivity. reflexivity.
    - unfold view; cbn [bcount blocks]. now apply view_of.
  Qed.

  Lemma release_false_other st p st' b :
    release P st p = Some (st', b) ->
    (inited st = false \/ match p with PPool o => ~ (0 <= o < P) | _ => True end) ->
    st' = st /\ b = false.
  Proof.
    unfold release. intros E H.
    destruct (inited st) eqn:Hi; cbn [negb] in E.
    - destruct H as [H|H]; [discriminate|].
      destruct p as [|o|]; try (injection E as <- <-; auto).
      replace ((o <? 0) || (P <=? o)) with true in E by lia. injection E as <- <-; auto.
    - injection E as <- <-; auto.
  Qed.

  Lemma tiles_use_irrel l1 b l2 o s u s0 e : b = Block o s u ->
    tiles s0 (l1 ++ b :: l2) e -> tiles s0 (l1 ++ Block o s (negb u) :: l2) e.
  Proof. intros ->. rewrite !tiles_app. intros (m & A & B). exists m. auto. Qed.

  Lemma release_tinv st p st' b : tinv st -> release P st p = Some (st', b) -> tinv st'.
  Proof.
    intros Ht E.
    destruct (inited st) eqn:Hi.
    2:{ destruct (release_false_other _ _ _ _ E (or_introl Hi)) as [-> _]. exact Ht. }
    destruct p as [|o|].
    - destruct (release_false_other _ _ _ _ E (or_intror I)) as [-> _]. exact Ht.
    - destruct (Z_le_dec 0 o) as [A|A]; [destruct (Z_lt_dec o P) as [B|B]|].
      2-3: assert (N : ~ (0 <= o < P)) by lia; destruct (release_false_other st (PPool o) st' b E (or_intror N)) as [-> _]; exact Ht.
      pose proof (release_shape st o Ht Hi (conj A B)) as Sh.
      destruct (lfind _ _).
      2:{ rewrite Sh in E. injection E as <- _. exact Ht. }
      destruct Sh as (l1 & s & l2 & st2 & Ev & Er & Hi2 & _ & _ & Hl2 & Hc2 & Ev2).
      rewrite Er in E. injection E as <- _.
      pose proof Ht as (Hl & Hrest). rewrite Hi in Hrest. destruct Hrest as (Hcnt & Htl & Hco).
      rewrite Ev in Htl.
      assert (Htl2 : tiles 0 (l1 ++ Block o s false :: l2) P).
      { apply (tiles_use_irrel l1 (Block o s true) l2 o s true 0 P eq_refl Htl). }
      destruct (tinv_split st Ht Hi) as (post & Eb & Lv & Lm).
      rewrite Ev, app_length in Lv. cbn [length] in Lv.
      pose proof (lmerge_all_length (l1 ++ Block o s false :: l2)) as Lml.
      rewrite app_length in Lml. cbn [length] in Lml.
      unfold tinv. split; [exact Hl2|]. rewrite Hi2, Hc2, Ev2. split; [|split].
      + split; [|lia]. destruct (lmerge_all (l1 ++ Block o s false :: l2)) eqn:El; [|simpl; lia].
        exfalso. pose proof (lmerge_all_tiles _ 0 P ltac:(lia) ltac:(lia) Htl2) as C.
        rewrite El in C. cbn [tiles] in C. lia.
      + apply lmerge_all_tiles; auto; lia.
      + apply lmerge_all_coalesced.
    - destruct (release_false_other _ _ _ _ E (or_intror I)) as [-> _]. exact Ht.
  Qed.

  (** No operation of the table ever goes out of bounds. *)
  Lemma allocate_defined st n ch : tinv st -> args_ok (OAlloc n ch) -> allocate P st n ch <> None.
  Proof.
    intros Ht (Hn0 & Hc & Hw).
    destruct (negb (inited st) || (n =? 0) || (negb (ch =? 1) && negb (ch =? 2))) eqn:Hg.
    { rewrite allocate_fail_guard by exact Hg. discriminate. }
    assert (Hi : inited st = true) by (destruct (inited st); [reflexivity|discriminate]).
    assert (Hch : ch = 1 \/ ch = 2) by lia. assert (Hn : n <> 0) by lia.
    pose proof (allocate_shape st n ch Ht Hi Hn Hch Hn0 Hw) as Sh.
    destruct (lfind _ _).
    - destruct Sh as (l1 & o & s & l2 & st2 & _ & _ & _ & Ea & _). rewrite Ea. discriminate.
    - rewrite Sh. discriminate.
  Qed.

  Lemma release_defined st p : tinv st -> release P st p <> None.
  Proof.
    intros Ht.
    destruct (inited st) eqn:Hi; [|unfold release; rewrite Hi; discriminate].
    destruct p as [|o|]; try (unfold release; rewrite Hi; discriminate).
    destruct ((o <? 0) || (P <=? o)) eqn:Eo.
    - unfold release. rewrite Hi, Eo. discriminate.
    - pose proof (release_shape st o Ht Hi ltac:(lia)) as Sh.
      destruct (lfind _ _).
      + destruct Sh as (? & ? & ? & ? & _ & Er & _). rewrite Er. discriminate.
      + rewrite Sh. discriminate.
  Qed.

  (** ** The table and the live set agree *)
  Lemma used_offsets_unique st o s s' : tinv st -> inited st = true ->
    In (Block o s true) (view st) -> In (Block o s' true) (view st) -> s = s'.
  Proof.
    intros (_ & H) Hi A B. rewrite Hi in H. destruct H as (_ & Htl & _).
    destruct (tiles_in _ _ _ _ Htl A) as (A1 & A2 & A3).
    destruct (tiles_in _ _ _ _ Htl B) as (B1 & B2 & B3). cbn in *.
    pose proof (tiles_uniq _ _ _ _ _ o Htl A B) as U. cbn in U.
    assert (E : Block o s true = Block o s' true) by (apply U; lia). now injection E.
  Qed.

  Lemma NoDup_filter_fst (L : list region) f :
    NoDup (map fst L) -> NoDup (map fst (filter f L)).
  Proof.
    induction L as [|a t IH]; cbn [map filter]; intros H; [constructor|].
    inversion H; subst. destruct (f a); cbn [map]; auto.
    constructor; auto. intros C. apply H2. apply in_map_iff in C. destruct C as (x & E & C).
    apply filter_In in C. apply in_map_iff. exists x. tauto.
  Qed.

  Lemma alloc_linv st L n ch st' b :
    tinv st -> linv st L -> args_ok (OAlloc n ch) -> allocate P st n ch = Some (st', b) ->
    linv st' (live_step L (OAlloc n ch) (RBuffer b)).
  Proof.
    intros Ht HL (Hn0 & Hc & Hw) E.
    destruct (negb (inited st) || (n =? 0) || (negb (ch =? 1) && negb (ch =? 2))) eqn:Hg.
    { rewrite allocate_fail_guard in E by exact Hg. injection E as <- <-. exact HL. }
    assert (Hi : inited st = true) by (destruct (inited st); [reflexivity|discriminate]).
    assert (Hch : ch = 1 \/ ch = 2) by lia. assert (Hn : n <> 0) by lia.
    pose proof (allocate_shape st n ch Ht Hi Hn Hch Hn0 Hw) as Sh.
    destruct (lfind _ _).
    2:{ rewrite Sh in E. injection E as <- <-. exact HL. }
    destruct Sh as (l1 & o & s & l2 & st2 & Ev & Hs & Hpre & Ea & Hi2 & _ & _ & Hl2 & Hc2 & Ev2).
    rewrite Ea in E. injection E as <- <-. cbn [live_step data].
    pose proof Ht as (Hl & Hrest). rewrite Hi in Hrest. destruct Hrest as (Hcnt & Htl & Hco).
    assert (Hn1 : 0 < n * ch) by nia.
    destruct HL as (_ & Hnd & Hto & Hfrom).
    assert (Hkeep : forall o' s', In (Block o' s' true) (view st) <->
              In (Block o' s' true) l1 \/ In (Block o' s' true) l2).
    { intros o' s'. rewrite Ev, in_app_iff. cbn [In]. split; [intros [H|[H|H]]|intros [H|H]]; auto.
      discriminate. }
    assert (Hfresh : ~ In o (map fst L)).
    { intros C. apply in_map_iff in C. destruct C as ([o' n'] & Eo & C). cbn in Eo. subst o'.
      destruct (Hto _ _ C) as (s' & Hin & Hs').
      assert (Hfr : In (Block o s false) (view st)) by (rewrite Ev; apply in_elt).
      destruct (tiles_in _ _ _ _ Htl Hin) as (A1 & A2 & A3).
      destruct (tiles_in _ _ _ _ Htl Hfr) as (B1 & B2 & B3). cbn in *.
      pose proof (tiles_uniq _ _ _ _ _ o Htl Hin Hfr) as U. cbn in U.
      assert (X : Block o s' true = Block o s false) by (apply U; lia). discriminate. }
    assert (Hsz : exists s2, In (Block o s2 true) (view st2) /\ n * ch <= s2 /\
       (forall o' s', In (Block o' s' true) (view st2) <->
          (o' = o /\ s' = s2) \/ In (Block o' s' true) l1 \/ In (Block o' s' true) l2)).
    { rewrite Ev2. destruct ((0 <? s - n * ch) && (bcount st <? MB)%nat).
      - exists (n * ch). split; [apply in_elt|]. split; [lia|].
        intros o' s'. rewrite in_app_iff. cbn [In]. split.
        + intros [H|[H|[H|H]]]; auto; [injection H as <- <-; auto|discriminate].
        + intros [[-> ->]|[H|H]]; auto.
      - exists s. split; [apply in_elt|]. split; [lia|].
        intros o' s'. rewrite in_app_iff. cbn [In]. split.
        + intros [H|[H|H]]; auto. injection H as <- <-; auto.
        + intros [[-> ->]|[H|H]]; auto. }
    destruct Hsz as (s2 & Hin2 & Hle2 & Hview).
    split; [congruence|]. split; [|split].
    - cbn [map fst]. constructor; assumption.
    - intros o' n' [X|X].
      + injection X as <- <-. exists s2. split; [exact Hin2|lia].
      + destruct (Hto _ _ X) as (s' & A & B). exists s'. split; [|exact B].
        apply Hview. right. now apply Hkeep.
    - intros o' s' X. apply Hview in X. destruct X as [[-> ->]|X].
      + exists (n * ch). left; reflexivity.
      + apply Hkeep in X. destruct (Hfrom _ _ X) as (n' & Y). exists n'. right; exact Y.
  Qed.

  Lemma rel_linv st L p st' b :
    tinv st -> linv st L -> release P st p = Some (st', b) ->
    linv st' (live_step L (ORelease p) (RBool b)).
  Proof.
    intros Ht HL E.
    destruct (inited st) eqn:Hi.
    2:{ destruct (release_false_other _ _ _ _ E (or_introl Hi)) as [-> ->].
        destruct p; exact HL. }
    destruct p as [|o|].
    - destruct (release_false_other _ _ _ _ E (or_intror I)) as [-> ->]. exact HL.
    - destruct (Z_le_dec 0 o) as [A|A]; [destruct (Z_lt_dec o P) as [B|B]|].
      2-3: assert (N : ~ (0 <= o < P)) by lia; destruct (release_false_other st (PPool o) st' b E (or_intror N)) as [-> ->]; exact HL.
      pose proof (release_shape st o Ht Hi (conj A B)) as Sh.
      destruct (lfind _ _).
      2:{ rewrite Sh in E. injection E as <- <-. exact HL. }
      destruct Sh as (l1 & s & l2 & st2 & Ev & Er & Hi2 & _ & _ & Hl2 & Hc2 & Ev2).
      rewrite Er in E. injection E as <- <-. cbn [live_step].
      destruct HL as (_ & Hnd & Hto & Hfrom).
      assert (Hino : In (Block o s true) (view st)) by (rewrite Ev; apply in_elt).
      assert (Huniq : forall s', ~ In (Block o s' true) (l1 ++ l2)).
      { intros s' C.
        pose proof Ht as (_ & Hr). rewrite Hi in Hr. destruct Hr as (_ & Htl & _).
        rewrite Ev in Htl. rewrite tiles_app in Htl. destruct Htl as (m & T1 & T2).
        cbn [tiles b_off b_size] in T2. destruct T2 as (Em & Hsp & T2).
        apply in_app_iff in C. destruct C as [C|C].
        - destruct (tiles_in _ _ _ _ T1 C). cbn in *. lia.
        - destruct (tiles_in _ _ _ _ T2 C). cbn in *. lia. }
      assert (Hview : forall o' s', In (Block o' s' true) (view st2) <->
                 (In (Block o' s' true) (view st) /\ o' <> o)).
      { intros o' s'. rewrite Ev2, lmerge_all_used, Ev, !in_app_iff. cbn [In]. split.
        - intros [H|[H|H]]; [|discriminate|]; (split; [auto|]); intros ->;
            apply (Huniq s'); apply in_app_iff; auto.
        - intros [[H|[H|H]] Hne]; auto. injection H as -> ->. congruence. }
      split; [congruence|]. split; [|split].
      + now apply NoDup_filter_fst.
      + intros o' n' X. apply filter_In in X. destruct X as [X1 X2]. cbn [fst] in X2.
        destruct (Hto _ _ X1) as (s' & Y & Z). exists s'. split; [|exact Z].
        apply Hview. split; [exact Y|lia].
      + intros o' s' X. apply Hview in X. destruct X as [X1 X2].
        destruct (Hfrom _ _ X1) as (n' & Y). exists n'. apply filter_In. split; [exact Y|]. cbn. lia.
    - destruct (release_false_other _ _ _ _ E (or_intror I)) as [-> ->]. exact HL.
  Qed.

  (** Regions of the live list are disjoint and inside. *)
  Lemma linv_inside st L a : tinv st -> linv st L -> In a L -> inside P a.
  Proof.
    intros Ht (H0 & _ & Hto & _) Ha. destruct a as [o n].
    destruct (inited st) eqn:Hi; [|rewrite H0 in Ha by reflexivity; destruct Ha].
    pose proof Ht as (_ & Hr). rewrite Hi in Hr. destruct Hr as (_ & Htl & _).
    destruct (Hto _ _ Ha) as (s & A & B). destruct (tiles_in _ _ _ _ Htl A). cbn in *.
    unfold inside. cbn. lia.
  Qed.

  Lemma linv_disjoint st L a b : tinv st -> linv st L -> In a L -> In b L -> fst a <> fst b -> disjoint a b.
  Proof.
    intros Ht (H0 & _ & Hto & _) Ha Hb Hne. destruct a as [o n], b as [o' n']. cbn [fst] in Hne.
    destruct (inited st) eqn:Hi; [|rewrite H0 in Ha by reflexivity; destruct Ha].
    pose proof Ht as (_ & Hr). rewrite Hi in Hr. destruct Hr as (_ & Htl & _).
    destruct (Hto _ _ Ha) as (s & A1 & A2). destruct (Hto _ _ Hb) as (s' & B1 & B2).
    pose proof (tiles_in _ _ _ _ Htl A1) as IA. pose proof (tiles_in _ _ _ _ Htl B1) as IB.
    cbn in IA, IB. unfold disjoint. cbn [fst snd].
    destruct (Z_le_gt_dec (o + s) o'); [left; lia|].
    destruct (Z_le_gt_dec (o' + s') o); [right; lia|].
    exfalso. apply Hne.
    pose proof (tiles_uniq _ _ _ _ _ (Z.max o o') Htl A1 B1) as U. cbn in U.
    assert (X : Block o s true = Block o' s' true) by (apply U; lia). now injection X.
  Qed.

  Lemma linv_pairwise st L : tinv st -> linv st L -> ForallOrdPairs disjoint L.
  Proof.
    intros Ht HL.
    assert (D : forall a b, In a L -> In b L -> fst a <> fst b -> disjoint a b)
      by (intros; eapply linv_disjoint; eauto).
    destruct HL as (_ & Hnd & _). clear Ht.
    induction L as [|a t IH]; [constructor|].
    cbn [map] in Hnd. inversion Hnd; subst. constructor.
    - apply Forall_forall. intros b Hb. apply D; cbn; auto.
      intros C. apply H1. rewrite C. now apply in_map.
    - apply IH; auto. intros; apply D; cbn; auto.
  Qed.
End Inv.
