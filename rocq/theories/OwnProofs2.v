(** Proofs about copies: a block held by two objects is given back twice. *)
From Coq Require Import NArith Bool List Permutation Lia PeanoNat.
From Verif Require Import OwnModel OwnSpec OwnProofs.
Import ListNotations.

Definition good (m : mem) : Prop := own m (m_live m) [].
Definition gone (m : mem) (d : nat) : Prop := d < m_next m /\ look (m_live m) d = None.
Definition later (m m' : mem) : Prop := good m -> good m' /\ m_next m <= m_next m' /\ (forall d, gone m d -> gone m' d).
Lemma later_refl : forall m, later m m.
Proof. intros m G. split; [exact G |]. split; [lia | auto]. Qed.
Lemma later_trans : forall a b c, later a b -> later b c -> later a c.
Proof. intros a b c A B G. destruct (A G) as (G1 & L1 & D1). destruct (B G1) as (G2 & L2 & D2). split; [exact G2 |]. split; [lia | auto]. Qed.
Lemma good_in : forall m b v, good m -> look (m_live m) b = Some v -> In (b, v) (m_live m) /\ b < m_next m.
Proof.
  intros m b v (_ & _ & LT) E. assert (IN : In (b, v) (m_live m)).
  { clear LT. induction (m_live m) as [| [c u] h IH]; [discriminate |]. cbn in E. destruct (Nat.eqb_spec c b) as [-> |]; [inversion E; left; reflexivity | right; auto]. }
  split; [exact IN |]. rewrite Forall_forall in LT. exact (LT _ IN).
Qed.
Lemma look_drop_none : forall h b d, look h d = None -> look (drop h b) d = None.
Proof.
  induction h as [| [c u] h IH]; intros b d E; [reflexivity |]. cbn in *. destruct (Nat.eqb_spec c d); [discriminate |].
  destruct (Nat.eqb c b); [exact E |]. cbn. destruct (Nat.eqb_spec c d); [contradiction | auto].
Qed.
Lemma look_put_none : forall h b v d, look h d = None -> look (put h b v) d = None.
Proof.
  induction h as [| [c u] h IH]; intros b v d E; [reflexivity |]. cbn in *. destruct (Nat.eqb_spec c d); [discriminate |].
  destruct (Nat.eqb c b); cbn; destruct (Nat.eqb_spec c d); try contradiction; auto.
Qed.
Lemma look_drop : forall h d, NoDup (names h) -> look (drop h d) d = None.
Proof.
  induction h as [| [c u] h IH]; intros d ND; [reflexivity |]. cbn in *. inversion ND as [| ? ? NI ND']; subst. destruct (Nat.eqb_spec c d) as [-> | NE].
  - clear - NI. induction h as [| [e u'] h IH]; [reflexivity |]. cbn in *. destruct (Nat.eqb_spec e d) as [-> |]; [exfalso; apply NI; left; reflexivity |].
    apply IH. intro. apply NI. right. assumption.
  - cbn. destruct (Nat.eqb_spec c d); [contradiction |]. auto.
Qed.
Lemma good_perm : forall m l, own m l [] -> good m.
Proof. intros m l H. unfold good. eapply own_perm; [exact H |]. destruct H as [P _]. apply Permutation_app_tail. rewrite app_nil_r in P. apply Permutation_sym. exact P. Qed.
Lemma new_later : forall m v, later m (Mem (S (m_next m)) ((m_next m, v) :: m_live m)).
Proof.
  intros m v G. split; [apply (good_perm _ _ (own_new m _ [] v G)) |]. split; [cbn; lia |]. intros d [LT E]. split; [cbn; lia |]. cbn.
  destruct (Nat.eqb_spec (m_next m) d); [lia | exact E].
Qed.
Lemma get_out : forall {A B} (x : out A) (f : A -> out B) r, bind x f = Fine r -> exists a, x = Fine a /\ f a = Fine r.
Proof. intros A B [a | e] f r E; [exists a; split; [reflexivity | exact E] | discriminate]. Qed.
Ltac ob H a E := apply get_out in H; destruct H as (a & E & H).
Lemma del_later : forall m p v m', m_del m p v = Fine m' -> later m m' /\ (forall d, p = At d -> good m -> gone m' d).
Proof.
  intros m p v m' E. unfold m_del in E. destruct p as [| | b]; [inversion E; split; [apply later_refl | discriminate] | discriminate |].
  destruct (look (m_live m) b) as [u |] eqn:EL; [| discriminate]. destruct (same_kind v u); [| discriminate]. inversion E; subst. clear E. split.
  - intro G. destruct (good_in m b u G EL) as [IN LT]. split; [| split; [cbn; lia |]].
    + assert (O : own m ((b, u) :: drop (m_live m) b) []).
      { eapply own_perm; [exact G |]. apply Permutation_app_tail. apply drop_perm; [destruct G as (_ & ND & _); exact ND | exact IN]. }
      apply (good_perm _ _ (own_del _ _ _ _ _ O)).
    + intros d [Ld Ed]. split; [exact Ld |]. apply look_drop_none. exact Ed.
  - intros d Ed G. inversion Ed; subst. destruct (good_in m d u G EL) as [IN LT]. split; [exact LT |]. apply look_drop. destruct G as (_ & ND & _). exact ND.
Qed.
Lemma setrow_later : forall m p i q m', m_setrow m p i q = Fine m' -> later m m'.
Proof.
  intros m p i q m' E. unfold m_setrow in E. ob E v Ev. destruct p as [| | b]; try discriminate. destruct v as [| x y | |]; try discriminate.
  inversion E; subst. clear E. cbn [m_get] in Ev. destruct (look (m_live m) b) as [u |] eqn:EL; [| discriminate]. inversion Ev; subst.
  intro G. destruct (good_in m b _ G EL) as [IN LT]. split; [| split; [cbn; lia |]].
  - assert (O : own m ((b, Ptrs x y) :: drop (m_live m) b) []).
    { eapply own_perm; [exact G |]. apply Permutation_app_tail. apply drop_perm; [destruct G as (_ & ND & _); exact ND | exact IN]. }
    apply (good_perm _ _ (own_put _ _ _ _ _ _ O)).
  - intros d [Ld Ed]. split; [exact Ld |]. apply look_put_none. exact Ed.
Qed.
Lemma freerow_later : forall m p i m', free_row m p i = Fine m' -> later m m'.
Proof.
  intros m p i m' E. unfold free_row in E. ob E q Eq1. ob E t Et. destruct t; [| inversion E; apply later_refl]. ob E m1 E1.
  eapply later_trans; [apply (proj1 (del_later _ _ _ _ E1)) | apply (setrow_later _ _ _ _ _ E)].
Qed.
Lemma freerows_later : forall m p m', free_rows m p = Fine m' -> later m m'.
Proof.
  intros m p m' E. unfold free_rows in E. ob E t Et. destruct t; [| inversion E; apply later_refl]. ob E m1 E1. ob E m2 E2.
  eapply later_trans; [apply (freerow_later _ _ _ _ E1) |]. eapply later_trans; [apply (freerow_later _ _ _ _ E2) | apply (proj1 (del_later _ _ _ _ E))].
Qed.
Lemma free_later : forall m i o m', freeBuffers m i o = Fine m' -> later m m'.
Proof. intros m i o m' E. unfold freeBuffers in E. ob E m1 E1. eapply later_trans; eapply freerows_later; eassumption. Qed.
Lemma fill_later : forall m i o n r m', fill_rows m i o n r = Fine m' -> later m m'.
Proof.
  intros m i o n r m' E. unfold fill_rows, m_new in E. ob E m1 E1. eapply later_trans; [apply new_later |]. eapply later_trans; [apply (setrow_later _ _ _ _ _ E1) |].
  eapply later_trans; [apply new_later | apply (setrow_later _ _ _ _ _ E)].
Qed.
Lemma alloc_later : forall m i o c n m' i' o' c', allocateBuffers m i o c n = Fine (m', i', o', c') -> later m m'.
Proof.
  intros m i o c n m' i' o' c' E. unfold allocateBuffers, m_new in E. destruct (n <=? c)%N; [inversion E; subst; apply later_refl |].
  ob E m1 E1. ob E m2 E2. ob E m3 E3. inversion E; subst. eapply later_trans; [apply (free_later _ _ _ _ E1) |].
  eapply later_trans; [apply new_later |]. eapply later_trans; [apply new_later |].
  eapply later_trans; [apply (fill_later _ _ _ _ _ _ E2) | apply (fill_later _ _ _ _ _ _ E3)].
Qed.
Lemma init_later : forall m d i o c m' o', v_init m d i o c = Fine (m', o') ->
  later m m' /\ (forall x, d = At x -> good m -> gone m' x /\ look (m_live m) x <> None).
Proof.
  intros m d i o c m' o' E. unfold v_init in E. ob E t Et. ob E m1 E1. unfold m_new in E. ob E m4 E4. ob E u Eu. inversion E; subst.
  assert (L : later m m1) by (destruct t; [apply (proj1 (del_later _ _ _ _ E1)) | inversion E1; apply later_refl]).
  assert (L' : later m1 m') by (eapply later_trans; [apply new_later |]; eapply later_trans; [apply new_later | apply (proj1 (del_later _ _ _ _ E4))]).
  split; [eapply later_trans; eassumption |]. intros x -> G. cbn in Et. inversion Et; subst t. destruct (del_later _ _ _ _ E1) as [_ D].
  split; [apply L'; [apply L; exact G | apply (D x eq_refl G)] |]. cbn [m_del] in E1. destruct (look (m_live m) x); [discriminate | discriminate].
Qed.
Lemma proc_later : forall m d i o c n m' o', v_process m d i o c n = Fine (m', o') -> later m m' /\ exists i' o1 c', o' = Verb d i' o1 c'.
Proof.
  intros m d i o c n m' o' E. unfold v_process in E. ob E t Et. destruct t; [| inversion E; subst; split; [apply later_refl | eauto]].
  ob E r Er. destruct r as [[[m1 i1] o1] c1]. ob E u1 E1. ob E u2 E2. ob E u3 E3. ob E u4 E4. ob E u5 E5. inversion E; subst.
  split; [apply (alloc_later _ _ _ _ _ _ _ _ _ Er) | eauto].
Qed.
Lemma vdel_later : forall m d i o m', v_del m d i o = Fine m' ->
  later m m' /\ (forall x, d = At x -> good m -> gone m' x /\ ~ gone m x).
Proof.
  intros m d i o m' E. unfold v_del in E. ob E m1 E1. ob E t Et. pose proof (free_later _ _ _ _ E1) as L. destruct t.
  - destruct (del_later _ _ _ _ E) as [L2 D]. split; [eapply later_trans; eassumption |]. intros x -> G. split; [apply (D x eq_refl); apply L; exact G |].
    intro GN. destruct (L G) as (_ & _ & K). destruct (K x GN) as [_ N]. cbn [m_del] in E. rewrite N in E. discriminate.
  - inversion E; subst. split; [exact L |]. intros x -> G. discriminate.
Qed.
Lemma cdel_later : forall m p m', c_del m p = Fine m' -> later m m' /\ (forall x, p = At x -> good m -> gone m' x /\ ~ gone m x).
Proof.
  intros m p m' E. unfold c_del in E. ob E t Et. destruct t.
  - destruct (del_later _ _ _ _ E) as [L2 D]. split; [exact L2 |]. intros x -> G. split; [apply (D x eq_refl G) |].
    intros [_ N]. cbn [m_del] in E. rewrite N in E. discriminate.
  - inversion E; subst. split; [apply later_refl |]. intros x -> G. discriminate.
Qed.

(** The pointer through which an object is known to hold memory. *)
Definition key (o : obj) : ptr := match o with Verb d _ _ _ => d | Comb p => p end.
Definition isv (o : obj) : bool := match o with Verb _ _ _ _ => true | Comb _ => false end.
Definition holds (w : world) (k d : nat) (v : bool) : Prop := exists o, find (w_objs w) k = Some o /\ key o = At d /\ isv o = v.
Lemma find_upd : forall {A} (l : list (nat * A)) k v j, find (upd l k v) j = if Nat.eqb k j then match find l j with Some _ => Some v | None => None end else find l j.
Proof.
  intros A l k v j. induction l as [| [c u] l IH]; cbn; [destruct (Nat.eqb k j); reflexivity |].
  destruct (Nat.eqb_spec c k) as [-> | NE]; cbn.
  - destruct (Nat.eqb_spec k j); reflexivity.
  - destruct (Nat.eqb_spec c j) as [-> | NJ]; [destruct (Nat.eqb_spec k j); [congruence | reflexivity] | exact IH].
Qed.
Lemma find_del_other : forall {A} (l : list (nat * A)) k j, k <> j -> find (del l k) j = find l j.
Proof.
  intros A l k j NE. induction l as [| [c u] l IH]; [reflexivity |]. cbn. destruct (Nat.eqb_spec c k) as [-> | N]; cbn.
  - destruct (Nat.eqb_spec k j); [contradiction | reflexivity].
  - destruct (Nat.eqb c j); [reflexivity | exact IH].
Qed.
Lemma holds_upd : forall m w k o j d v, holds w j d v -> j <> k -> holds (World m (upd (w_objs w) k o)) j d v.
Proof. intros m w k o j d v (p & F & K) NE. exists p. split; [| exact K]. cbn. rewrite find_upd. destruct (Nat.eqb_spec k j); [congruence | exact F]. Qed.
Lemma holds_upd_same : forall m w k o d v, holds w k d v -> key o = At d -> isv o = v -> holds (World m (upd (w_objs w) k o)) k d v.
Proof. intros m w k o d v (p & F & K) E V. exists o. split; [| split; assumption]. cbn. rewrite find_upd, Nat.eqb_refl, F. reflexivity. Qed.

(** One step: memory only moves forward, and an object keeps what it holds unless it gives it back. *)
Lemma fresh_fwd : forall w k o w', fresh w k o = Fine w' -> later (w_mem w) (w_mem w') /\ (forall j d v, holds w j d v -> holds w' j d v).
Proof.
  intros w k o w' E. unfold fresh in E. destruct (find (w_objs w) k) eqn:F; [discriminate |]. inversion E; subst. cbn. split; [apply later_refl |].
  intros j d v (p & Fp & K). exists p. split; [| exact K]. cbn. destruct (Nat.eqb_spec k j) as [-> |]; [congruence | exact Fp].
Qed.
Definition quits (x : op) (k : nat) (v : bool) : Prop :=
  match x with Destroy i => i = k | VInit i => i = k /\ v = true | CInit i _ => i = k /\ v = false | Assign i _ => i = k | _ => False end.
Lemma keep_same : forall w x w', keep w x = Fine w' -> w' = w.
Proof. intros w x w' E. unfold keep in E. ob E u Eu. inversion E. reflexivity. Qed.
Lemma step_fwd : forall w x w', step w x = Fine w' ->
  later (w_mem w) (w_mem w') /\ (forall k d v, holds w k d v -> ~ quits x k v -> holds w' k d v).
Proof.
  intros w x w' E. destruct x as [k | k | k n | k | k z | k n | k | k | k | k j | k j]; cbn [step] in E.
  - destruct (fresh_fwd _ _ _ _ E) as [A B]. split; [exact A |]. intros. apply B. assumption.
  - destruct (find (w_objs w) k) as [[d i o c | p] |] eqn:F; try discriminate. unfold set in E. ob E r Er. inversion E; subst. destruct r as [m' o'].
    cbn [fst snd w_mem]. split; [apply (proj1 (init_later _ _ _ _ _ _ _ Er)) |]. intros j d' v H Q. cbn in Q. destruct (Nat.eq_dec j k) as [-> | NE].
    + exfalso. apply Q. split; [reflexivity |]. destruct H as (p & Fp & _ & V). rewrite F in Fp. inversion Fp; subst. reflexivity.
    + apply holds_upd; assumption.
  - destruct (find (w_objs w) k) as [[d i o c | p] |] eqn:F; try discriminate. unfold set in E. ob E r Er. inversion E; subst. destruct r as [m' o'].
    cbn [fst snd w_mem]. destruct (proc_later _ _ _ _ _ _ _ _ Er) as (L & i' & o1 & c' & ->). split; [exact L |]. intros j d' v H _.
    destruct (Nat.eq_dec j k) as [-> | NE]; [| apply holds_upd; assumption]. pose proof H as (p & Fp & K & V). rewrite F in Fp. inversion Fp; subst.
    apply holds_upd_same; [exact H | exact K | reflexivity].
  - destruct (find (w_objs w) k) as [[d i o c | p] |] eqn:F; try discriminate. rewrite (keep_same _ _ _ E). split; [apply later_refl | auto].
  - destruct (fresh_fwd _ _ _ _ E) as [A B]. split; [exact A |]. intros. apply B. assumption.
  - destruct (find (w_objs w) k) as [[d i o c | p] |] eqn:F; try discriminate. unfold set, c_init, m_new in E. cbn [bind] in E. inversion E; subst.
    cbn [fst snd w_mem]. split; [apply new_later |]. intros j d' v H Q. cbn in Q. destruct (Nat.eq_dec j k) as [-> | NE].
    + exfalso. apply Q. split; [reflexivity |]. destruct H as (o & Fo & _ & V). rewrite F in Fo. inversion Fo; subst. reflexivity.
    + apply holds_upd; assumption.
  - destruct (find (w_objs w) k) as [[d i o c | p] |] eqn:F; try discriminate. rewrite (keep_same _ _ _ E). split; [apply later_refl | auto].
  - destruct (find (w_objs w) k) as [[d i o c | p] |] eqn:F; try discriminate. rewrite (keep_same _ _ _ E). split; [apply later_refl | auto].
  - assert (K : forall m', Fine (World m' (del (w_objs w) k)) = Fine w' -> later (w_mem w) m' ->
      later (w_mem w) (w_mem w') /\ (forall i d v, holds w i d v -> ~ quits (Destroy k) i v -> holds w' i d v)).
    { intros m' E' L. inversion E'; subst. split; [exact L |]. intros i d v (o & Fo & Ko) Q. exists o. split; [| exact Ko]. cbn.
      rewrite find_del_other by (intro; apply Q; assumption). exact Fo. }
    destruct (find (w_objs w) k) as [[d i o c | p] |] eqn:F; try discriminate.
    + ob E m' Em. apply (K m' E). apply (proj1 (vdel_later _ _ _ _ _ Em)).
    + ob E m' Em. apply (K m' E). apply (proj1 (cdel_later _ _ _ Em)).
  - destruct (find (w_objs w) j) as [[d i o c | p] |] eqn:F; try discriminate.
    + destruct (fresh_fwd _ _ _ _ E) as [A B]. split; [exact A |]. intros. apply B. assumption.
    + destruct p; try discriminate; destruct (fresh_fwd _ _ _ _ E) as [A B]; (split; [exact A |]; intros; apply B; assumption).
  - assert (K : forall o, Fine (World (w_mem w) (upd (w_objs w) k o)) = Fine w' ->
      later (w_mem w) (w_mem w') /\ (forall i d v, holds w i d v -> ~ quits (Assign k j) i v -> holds w' i d v)).
    { intros o E'. inversion E'; subst. split; [apply later_refl |]. intros i d v H Q. apply holds_upd; [exact H |]. intro. apply Q. symmetry. assumption. }
    destruct (find (w_objs w) k) as [[d i o c | p] |]; destruct (find (w_objs w) j) as [[d' i' o' c' | p'] |]; try discriminate; try (apply (K _ E)).
    destruct p'; try discriminate; apply (K _ E).
Qed.
(** Giving back: the block is gone afterwards and was there before. *)
Lemma step_quits : forall w x w' k d v, step w x = Fine w' -> holds w k d v -> good (w_mem w) ->
  x = Destroy k \/ (x = VInit k /\ v = true) -> gone (w_mem w') d /\ ~ gone (w_mem w) d.
Proof.
  intros w x w' k d v E (o & F & K & V) G [-> | [-> ->]]; cbn [step] in E; rewrite F in E; destruct o as [d0 i o c | p]; cbn in K, V; subst; try discriminate.
  - ob E m' Em. inversion E; subst. cbn. apply (proj2 (vdel_later _ _ _ _ _ Em) d eq_refl G).
  - ob E m' Em. inversion E; subst. cbn. apply (proj2 (cdel_later _ _ _ Em) d eq_refl G).
  - unfold set in E. ob E r Er. destruct r as [m' o']. inversion E; subst. cbn. destruct (proj2 (init_later _ _ _ _ _ _ _ Er) d eq_refl G) as [A B].
    split; [exact A |]. intros [_ N]. contradiction.
Qed.

(** A rest of a program that neither assigns to [k] nor, for a comb, initialises it again. *)
Definition calm (k : nat) (v : bool) (xs : list op) : Prop := unassigned k xs /\ (v = false -> uninit k xs).
Lemma calm_cons : forall k v x xs, calm k v (x :: xs) -> calm k v xs /\ (forall j, x = Assign k j -> False) /\ (v = false -> forall n, x = CInit k n -> False).
Proof.
  intros k v x xs [A B]. inversion A as [| ? ? HA TA]; subst. split; [split; [exact TA |] |].
  - intro E. specialize (B E). inversion B; assumption.
  - split.
    + intros j ->. apply HA. reflexivity.
    + intros E n ->. specialize (B E). inversion B as [| ? ? HB TB]; subst. apply HB. reflexivity.
Qed.
Lemma quits_dec : forall x k v xs, calm k v (x :: xs) -> (x = Destroy k \/ (x = VInit k /\ v = true)) \/ ~ quits x k v.
Proof.
  intros x k v xs C. destruct (calm_cons _ _ _ _ C) as (_ & CA & CI).
  destruct x as [i | i | i n | i | i z | i n | i | i | i | i j | i j]; cbn; auto; destruct (Nat.eq_dec i k) as [-> | NE]; auto.
  - destruct v; [left; right; auto | right; intros [_ E]; discriminate].
  - right. intros [E _]. contradiction.
  - right. intros [_ E]. exact (CI E n eq_refl).
  - right. intros [E _]. contradiction.
  - exfalso. exact (CA j eq_refl).
Qed.
Lemma dangling : forall xs w w' k d v, run w xs = Fine w' -> good (w_mem w) -> holds w k d v -> gone (w_mem w) d -> calm k v xs -> ~ In (Destroy k) xs.
Proof.
  induction xs as [| x xs IH]; intros w w' k d v E G H D C; [intros [] |]. cbn [run] in E. ob E w1 E1.
  destruct (step_fwd _ _ _ E1) as [L KP]. destruct (L G) as (G1 & _ & D1).
  destruct (quits_dec x k v xs C) as [Q | Q].
  - exfalso. destruct (step_quits _ _ _ _ _ _ E1 H G Q) as [_ N]. contradiction.
  - intros [-> | IN]; [apply Q; reflexivity |]. apply (IH w1 w' k d v E G1 (KP k d v H Q) (D1 d D) (proj1 (calm_cons _ _ _ _ C)) IN).
Qed.
Lemma sharing : forall xs w w' k j d v, run w xs = Fine w' -> good (w_mem w) -> k <> j -> holds w k d v -> holds w j d v -> calm k v xs -> calm j v xs ->
  ~ (In (Destroy k) xs /\ In (Destroy j) xs).
Proof.
  induction xs as [| x xs IH]; intros w w' k j d v E G NE H HJ C CJ; [intros [[] _] |]. cbn [run] in E. ob E w1 E1.
  destruct (step_fwd _ _ _ E1) as [L KP]. destruct (L G) as (G1 & _ & D1).
  destruct (quits_dec x k v xs C) as [Q | Q].
  - destruct (step_quits _ _ _ _ _ _ E1 H G Q) as [D _].
    assert (QJ : ~ quits x j v) by (destruct Q as [-> | [-> ->]]; cbn; [congruence | intros [? _]; congruence]).
    pose proof (dangling xs w1 w' j d v E G1 (KP _ _ _ HJ QJ) D (proj1 (calm_cons _ _ _ _ CJ))) as N.
    intros [_ [-> | IN]]; [destruct Q as [Q | [Q _]]; inversion Q; congruence | contradiction].
  - destruct (quits_dec x j v xs CJ) as [QJ | QJ].
    + destruct (step_quits _ _ _ _ _ _ E1 HJ G QJ) as [D _].
      pose proof (dangling xs w1 w' k d v E G1 (KP _ _ _ H Q) D (proj1 (calm_cons _ _ _ _ C))) as N.
      intros [[-> | IN] _]; [apply Q; reflexivity | contradiction].
    + intros [[-> | IN] [HX | INJ]]; try (apply Q; reflexivity); try (subst x; apply QJ; reflexivity).
      apply (IH w1 w' k j d v E G1 NE (KP _ _ _ H Q) (KP _ _ _ HJ QJ) (proj1 (calm_cons _ _ _ _ C)) (proj1 (calm_cons _ _ _ _ CJ)) (conj IN INJ)).
Qed.
Lemma run_app : forall xs ys w, run w (xs ++ ys) = (w' <~ run w xs ;; run w' ys).
Proof. induction xs as [| x xs IH]; intros ys w; [reflexivity |]. cbn [app run]. destruct (step w x) as [w1 | e]; [apply IH | reflexivity]. Qed.
Lemma inv_good : forall w b, inv w b -> good (w_mem w).
Proof. intros w b (L & lost & _ & O & _). apply good_perm with (L ++ lost). eapply own_perm; [exact O |]. rewrite app_nil_r. apply Permutation_refl. Qed.
(** A holder by the books. *)
Definition owner (s : status) : bool := match s with SVerb on _ => on | SComb _ i _ => negb (Nat.eqb i 0) end.
Definition sort (s : status) : bool := match s with SVerb _ _ => true | SComb _ _ _ => false end.
Lemma owner_holds : forall w b j s, inv w b -> find (b_objs b) j = Some s -> owner s = true -> exists d, holds w j d (sort s).
Proof.
  intros w b j s I E O. destruct (find (w_objs w) j) as [o |] eqn:F; [| rewrite (inv_none w b j I F) in E; discriminate].
  destruct (open_at w b j _ I F) as (s' & l & Fr & Es & R & _). rewrite E in Es. inversion Es; subst s'. unfold holds. rewrite F.
  inversion R; subst; cbn in O; try discriminate; eexists; eexists; (split; [reflexivity |]; split; reflexivity).
Qed.
Lemma copied : forall pre b j k s x rest,
  books pre = Some b -> find (b_objs b) j = Some s -> owner s = true -> k <> j -> x = Copy k j \/ x = Assign k j ->
  calm k (sort s) rest -> calm j (sort s) rest -> In (Destroy k) rest -> In (Destroy j) rest ->
  exists e, run empty_world (pre ++ x :: rest) = Wrong e.
Proof.
  intros pre b j k s x rest B E O NE X C CJ IK IJ. pose proof (run_ok pre _ _ inv0) as R. unfold books in B. rewrite B in R.
  destruct R as (w & RW & I). rewrite run_app, RW. cbn [bind run]. destruct (step w x) as [w1 | e] eqn:E1; [| exists e; reflexivity]. cbn [bind].
  destruct (run w1 rest) as [w2 | e] eqn:E2; [exfalso | exists e; reflexivity].
  destruct (owner_holds w b j s I E O) as (d & H). destruct (step_fwd _ _ _ E1) as [L KP].
  assert (NQ : ~ quits x j (sort s)) by (destruct X as [-> | ->]; cbn; [tauto | congruence]).
  destruct (L (inv_good w b I)) as (G1 & _). pose proof (KP _ _ _ H NQ) as HJ.
  assert (HK : holds w1 k d (sort s)).
  { destruct H as (o & F & K & V). destruct X as [-> | ->]; cbn [step] in E1; rewrite F in E1.
    - assert (E3 : fresh w k o = Fine w1) by (destruct o as [d0 i o c | p]; [exact E1 |]; cbn in K; subst p; exact E1).
      unfold fresh in E3. destruct (find (w_objs w) k); [discriminate |]. inversion E3; subst. exists o. cbn. rewrite Nat.eqb_refl. auto.
    - destruct (find (w_objs w) k) as [ok |] eqn:FK; [| discriminate]. destruct ok as [d1 i1 o1 c1 | p1]; destruct o as [d2 i2 o2 c2 | p2]; try discriminate;
        cbn in K; subst; try discriminate; inversion E1; subst; eexists; cbn; rewrite find_upd, Nat.eqb_refl, FK; (split; [reflexivity | auto]). }
  apply (sharing rest w1 w2 k j d (sort s) E2 G1 NE HK HJ C CJ). split; assumption.
Qed.

(** With lives respected, the only thing that can go wrong is the heap. *)
Definition heapy {A} (x : out A) : Prop := x <> Wrong Life.
Lemma heapy_bind : forall {A B} (x : out A) (f : A -> out B), heapy x -> (forall a, heapy (f a)) -> heapy (bind x f).
Proof. intros A B [a | [|]] f H K; cbn; [apply K | discriminate | exfalso; apply H; reflexivity]. Qed.
Ltac hp := repeat first
  [ apply heapy_bind; [| intro]
  | match goal with |- heapy (let (_, _) := ?x in _) => destruct x end
  | match goal with |- heapy (if ?x then _ else _) => destruct x end
  | match goal with |- heapy (match ?x with _ => _ end) => destruct x end
  | discriminate ].
Lemma get_hp : forall m p, heapy (m_get m p). Proof. intros. unfold m_get. hp. Qed.
Lemma test_hp : forall p, heapy (m_test p). Proof. intros. unfold m_test. hp. Qed.
Lemma del_hp : forall m p v, heapy (m_del m p v). Proof. intros. unfold m_del. hp. Qed.
Lemma row_hp : forall m p i, heapy (m_row m p i). Proof. intros. unfold m_row. apply heapy_bind; [apply get_hp | intro]. hp. Qed.
Lemma setrow_hp : forall m p i q, heapy (m_setrow m p i q). Proof. intros. unfold m_setrow. apply heapy_bind; [apply get_hp | intro]. hp. Qed.
Lemma frow_hp : forall m p i, heapy (free_row m p i).
Proof. intros. unfold free_row. apply heapy_bind; [apply row_hp | intro]. apply heapy_bind; [apply test_hp | intros []]; [| discriminate]. apply heapy_bind; [apply del_hp | intro]. apply setrow_hp. Qed.
Lemma frows_hp : forall m p, heapy (free_rows m p).
Proof. intros. unfold free_rows. apply heapy_bind; [apply test_hp | intros []]; [| discriminate]. apply heapy_bind; [apply frow_hp | intro]. apply heapy_bind; [apply frow_hp | intro]. apply del_hp. Qed.
Lemma free_hp : forall m i o, heapy (freeBuffers m i o).
Proof. intros. unfold freeBuffers. apply heapy_bind; [apply frows_hp | intro; apply frows_hp]. Qed.
Lemma fill_hp : forall m i o n r, heapy (fill_rows m i o n r).
Proof. intros. unfold fill_rows, m_new. apply heapy_bind; [apply setrow_hp | intro; apply setrow_hp]. Qed.
Lemma alloc_hp : forall m i o c n, heapy (allocateBuffers m i o c n).
Proof.
  intros. unfold allocateBuffers, m_new. destruct (n <=? c)%N; [discriminate |]. apply heapy_bind; [apply free_hp | intro]. apply heapy_bind; [apply fill_hp | intro].
  apply heapy_bind; [apply fill_hp | intro]. discriminate.
Qed.
Lemma touch_hp : forall m p r n, heapy (touch m p r n).
Proof. intros. unfold touch. apply heapy_bind; [apply row_hp | intro]. apply heapy_bind; [apply get_hp | intro]. hp. Qed.
Lemma call_hp : forall m d, heapy (call_dsp m d).
Proof. intros. unfold call_dsp. apply heapy_bind; [apply get_hp | intro]. hp. Qed.
Lemma proc_hp : forall m d i o c n, heapy (v_process m d i o c n).
Proof.
  intros. unfold v_process. apply heapy_bind; [apply test_hp | intros []]; [| discriminate]. apply heapy_bind; [apply alloc_hp | intros [[[m1 i1] o1] c1]].
  repeat (apply heapy_bind; [first [apply touch_hp | apply call_hp] | intro]). discriminate.
Qed.
Lemma vinit_hp : forall m d i o c, heapy (v_init m d i o c).
Proof.
  intros. unfold v_init, m_new. apply heapy_bind; [apply test_hp | intro t]. apply heapy_bind; [destruct t; [apply del_hp | discriminate] | intro].
  apply heapy_bind; [apply del_hp | intro]. apply heapy_bind; [apply call_hp | intro]. discriminate.
Qed.
Definition kinds (l : list (nat * obj)) : list (nat * bool) := map (fun p => (fst p, isv (snd p))) l.
Lemma kinds_find : forall l k, find (kinds l) k = match find l k with Some o => Some (isv o) | None => None end.
Proof. induction l as [| [c o] l IH]; intro k; [reflexivity |]. cbn. destruct (Nat.eqb c k); [reflexivity | apply IH]. Qed.
Lemma kinds_del : forall l k, kinds (del l k) = del (kinds l) k.
Proof. induction l as [| [c o] l IH]; intro k; [reflexivity |]. cbn. destruct (Nat.eqb c k); [reflexivity | cbn; rewrite IH; reflexivity]. Qed.
Lemma kinds_upd : forall l k o o', find l k = Some o -> isv o = isv o' -> kinds (upd l k o') = kinds l.
Proof.
  induction l as [| [c u] l IH]; intros k o o' F V; [discriminate |]. cbn in *. destruct (Nat.eqb c k); cbn; [inversion F; subst; rewrite V; reflexivity |].
  unfold kinds in IH. rewrite (IH k o o' F V). reflexivity.
Qed.
Lemma lives_hp : forall xs w l, lives (kinds (w_objs w)) xs = Some l -> heapy (run w xs).
Proof.
  induction xs as [| x xs IH]; intros w l E; [discriminate |]. cbn [lives run] in *.
  assert (K : forall k o (r : out (mem * obj)), find (w_objs w) k = Some o -> heapy r -> (forall m' o', r = Fine (m', o') -> isv o = isv o') ->
     lives (kinds (w_objs w)) xs = Some l -> heapy (w' <~ set w k r ;; run w' xs)).
  { intros k o r F HR V EL. unfold set. destruct r as [[m' o'] | [|]]; cbn [bind]; [| discriminate | exfalso; apply HR; reflexivity].
    apply (IH _ l). cbn [w_objs fst snd]. rewrite (kinds_upd _ _ o o' F (V m' o' eq_refl)). exact EL. }
  assert (KK : forall (r : out unit), heapy r -> lives (kinds (w_objs w)) xs = Some l -> heapy (w' <~ keep w r ;; run w' xs)).
  { intros r HR EL. unfold keep. destruct r as [u | [|]]; cbn [bind]; [apply (IH _ l EL) | discriminate | exfalso; apply HR; reflexivity]. }
  assert (KF : forall k o, match born (kinds (w_objs w)) k (isv o) with Some l' => lives l' xs | None => None end = Some l -> heapy (w' <~ fresh w k o ;; run w' xs)).
  { intros k o EL. unfold born in EL. rewrite kinds_find in EL. unfold fresh. destruct (find (w_objs w) k); [discriminate |]. cbn [bind]. apply (IH _ l). exact EL. }
  destruct x as [k | k | k n | k | k z | k n | k | k | k | k j | k j]; cbn [step] in *.
  - apply KF. exact E.
  - unfold kind_of in E. rewrite kinds_find in E. destruct (find (w_objs w) k) as [[d i o c | p] |] eqn:F; cbn in E; try discriminate.
    apply (K k _ _ F); [apply vinit_hp | | exact E]. intros m' o' EE. unfold v_init in EE. ob EE t Et. ob EE m1 E1. unfold m_new in EE. ob EE m4 E4. ob EE u Eu.
    inversion EE; reflexivity.
  - unfold kind_of in E. rewrite kinds_find in E. destruct (find (w_objs w) k) as [[d i o c | p] |] eqn:F; cbn in E; try discriminate.
    apply (K k _ _ F); [apply proc_hp | | exact E]. intros m' o' EE. destruct (proc_later _ _ _ _ _ _ _ _ EE) as (_ & i' & o1 & c' & ->). reflexivity.
  - unfold kind_of in E. rewrite kinds_find in E. destruct (find (w_objs w) k) as [[d i o c | p] |] eqn:F; cbn in E; try discriminate.
    apply KK; [| exact E]. unfold v_call. apply heapy_bind; [apply test_hp | intros []]; [apply call_hp | discriminate].
  - apply KF. exact E.
  - unfold kind_of in E. rewrite kinds_find in E. destruct (find (w_objs w) k) as [[d i o c | p] |] eqn:F; cbn in E; try discriminate.
    apply (K k _ _ F); [discriminate | | exact E]. intros m' o' EE. inversion EE; reflexivity.
  - unfold kind_of in E. rewrite kinds_find in E. destruct (find (w_objs w) k) as [[d i o c | p] |] eqn:F; cbn in E; try discriminate.
    apply KK; [| exact E]. unfold c_tick. apply heapy_bind; [apply get_hp | intro]. hp.
  - unfold kind_of in E. rewrite kinds_find in E. destruct (find (w_objs w) k) as [[d i o c | p] |] eqn:F; cbn in E; try discriminate.
    apply KK; [| exact E]. unfold c_reset, c_tick. apply heapy_bind; [apply test_hp | intros []]; [| discriminate]. apply heapy_bind; [apply get_hp | intro]. hp.
  - rewrite kinds_find in E. destruct (find (w_objs w) k) as [[d i o c | p] |] eqn:F; try discriminate; rewrite <- kinds_del in E.
    + assert (H : heapy (v_del (w_mem w) d i o)).
      { unfold v_del. apply heapy_bind; [apply free_hp | intro]. apply heapy_bind; [apply test_hp | intros []]; [apply del_hp | discriminate]. }
      destruct (v_del (w_mem w) d i o) as [m' | [|]]; cbn [bind]; [apply (IH _ l); exact E | discriminate | exfalso; apply H; reflexivity].
    + assert (H : heapy (c_del (w_mem w) p)) by (unfold c_del; apply heapy_bind; [apply test_hp | intros []]; [apply del_hp | discriminate]).
      destruct (c_del (w_mem w) p) as [m' | [|]]; cbn [bind]; [apply (IH _ l); exact E | discriminate | exfalso; apply H; reflexivity].
  - rewrite kinds_find in E. destruct (find (w_objs w) j) as [[d i o c | p] |] eqn:F; try discriminate.
    + apply KF. exact E.
    + destruct p; [apply KF; exact E | discriminate | apply KF; exact E].
  - unfold kind_of in E. rewrite !kinds_find in E. destruct (find (w_objs w) k) as [ok |] eqn:F; [| discriminate]. destruct (find (w_objs w) j) as [oj |] eqn:FJ; [| discriminate].
    destruct (Bool.eqb (isv oj) (isv ok)) eqn:V; [| discriminate]. apply Bool.eqb_prop in V.
    destruct ok as [d i o c | p]; destruct oj as [d' i' o' c' | p']; try discriminate.
    + cbn [bind]. apply (IH _ l). cbn [w_objs]. erewrite kinds_upd; [exact E | exact F | reflexivity].
    + destruct p'; try discriminate; cbn [bind]; apply (IH _ l); cbn [w_objs]; (erewrite kinds_upd; [exact E | exact F | reflexivity]).
Qed.
