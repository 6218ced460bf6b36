(** Proofs about the memory of [FVerb] and [CombC]: the live blocks are those of the objects and the lost ones, block by block. *)
From Coq Require Import NArith Bool List Permutation Lia PeanoNat.
From Verif Require Import OwnModel OwnSpec.
Import ListNotations.

Definition names (h : heap) : list nat := map fst h.
Definition own (m : mem) (l F : heap) : Prop :=
  Permutation (m_live m) (l ++ F) /\ NoDup (names (m_live m)) /\ Forall (fun p => fst p < m_next m) (m_live m).

Lemma look_in : forall h b v, NoDup (names h) -> In (b, v) h -> look h b = Some v.
Proof.
  induction h as [| [c u] h IH]; intros b v ND IN; [destruct IN |]. cbn in *. inversion ND as [| ? ? NI ND']; subst. destruct IN as [E | IN].
  - inversion E; subst. rewrite Nat.eqb_refl. reflexivity.
  - destruct (Nat.eqb_spec c b) as [-> | _]; [| apply IH; assumption]. exfalso. apply NI. change b with (fst (b, v)). apply in_map. exact IN.
Qed.
Lemma drop_perm : forall h b v, NoDup (names h) -> In (b, v) h -> Permutation h ((b, v) :: drop h b).
Proof.
  induction h as [| [c u] h IH]; intros b v ND IN; [destruct IN |]. cbn in *. inversion ND as [| ? ? NI ND']; subst. destruct IN as [E | IN].
  - inversion E; subst. rewrite Nat.eqb_refl. apply Permutation_refl.
  - destruct (Nat.eqb_spec c b) as [-> | _].
    + exfalso. apply NI. change b with (fst (b, v)). apply in_map. exact IN.
    + eapply Permutation_trans; [apply perm_skip; apply (IH b v ND' IN) |]. apply perm_swap.
Qed.
Lemma put_perm : forall h b v v', NoDup (names h) -> In (b, v) h -> Permutation (put h b v') ((b, v') :: drop h b).
Proof.
  induction h as [| [c u] h IH]; intros b v v' ND IN; [destruct IN |]. cbn in *. inversion ND as [| ? ? NI ND']; subst. destruct IN as [E | IN].
  - inversion E; subst. rewrite Nat.eqb_refl. apply Permutation_refl.
  - destruct (Nat.eqb_spec c b) as [-> | _].
    + exfalso. apply NI. change b with (fst (b, v)). apply in_map. exact IN.
    + eapply Permutation_trans; [apply perm_skip; apply (IH b v v' ND' IN) |]. apply perm_swap.
Qed.
Lemma put_names : forall h b v, names (put h b v) = names h.
Proof. induction h as [| [c u] h IH]; intros b v; [reflexivity |]. cbn. destruct (Nat.eqb c b); cbn; [reflexivity |]. unfold names in IH. rewrite IH. reflexivity. Qed.

Lemma own_perm : forall m l l' F F', own m l F -> Permutation (l ++ F) (l' ++ F') -> own m l' F'.
Proof. intros m l l' F F' [P R] Q. split; [| exact R]. eapply Permutation_trans; eassumption. Qed.
Lemma own_nodup : forall m l F, own m l F -> NoDup (names (l ++ F)).
Proof. intros m l F (P & ND & _). unfold names in *. eapply Permutation_NoDup; [apply Permutation_map; exact P | exact ND]. Qed.
Lemma own_new : forall m l F v, own m l F -> own (Mem (S (m_next m)) ((m_next m, v) :: m_live m)) ((m_next m, v) :: l) F.
Proof.
  intros m l F v (P & ND & LT). unfold own. cbn. split; [apply perm_skip; exact P |]. split.
  - constructor; [| exact ND]. intro IN. unfold names in IN. apply in_map_iff in IN. destruct IN as ((c & u) & E & IN). cbn in E. rewrite Forall_forall in LT.
    specialize (LT _ IN). cbn in LT. lia.
  - constructor; [cbn; lia |]. eapply Forall_impl; [| exact LT]. intros a H. cbn in *. lia.
Qed.
Lemma own_look : forall m l F b v, own m l F -> In (b, v) l -> look (m_live m) b = Some v.
Proof.
  intros m l F b v (P & ND & _) IN. apply look_in; [exact ND |]. eapply Permutation_in; [apply Permutation_sym; exact P |]. apply in_or_app. left. exact IN.
Qed.
Lemma own_del : forall m l F b v, own m ((b, v) :: l) F -> own (Mem (m_next m) (drop (m_live m) b)) l F.
Proof.
  intros m l F b v (P & ND & LT).
  assert (IN : In (b, v) (m_live m)) by (eapply Permutation_in; [apply Permutation_sym; exact P |]; left; reflexivity).
  pose proof (drop_perm _ b v ND IN) as Q. unfold own. cbn. split; [| split].
  - apply Permutation_cons_inv with (b, v). eapply Permutation_trans; [apply Permutation_sym; exact Q |]. exact P.
  - unfold names in *. pose proof (Permutation_NoDup (Permutation_map fst Q) ND) as H. cbn in H. inversion H; assumption.
  - pose proof (Permutation_Forall Q LT) as H. inversion H; assumption.
Qed.
Lemma own_put : forall m l F b v v', own m ((b, v) :: l) F -> own (Mem (m_next m) (put (m_live m) b v')) ((b, v') :: l) F.
Proof.
  intros m l F b v v' (P & ND & LT).
  assert (IN : In (b, v) (m_live m)) by (eapply Permutation_in; [apply Permutation_sym; exact P |]; left; reflexivity).
  pose proof (drop_perm _ b v ND IN) as Q. pose proof (put_perm _ b v v' ND IN) as Q'. unfold own. cbn. split; [| split].
  - eapply Permutation_trans; [exact Q' |]. apply perm_skip. apply Permutation_cons_inv with (b, v). eapply Permutation_trans; [apply Permutation_sym; exact Q |]. exact P.
  - rewrite put_names. exact ND.
  - pose proof (Permutation_Forall Q LT) as H. inversion H; subst. eapply Permutation_Forall; [apply Permutation_sym; exact Q' |]. constructor; assumption.
Qed.
(** Bring an entry to the front. *)
Lemma own_front : forall m l1 x l2 F, own m (l1 ++ x :: l2) F -> own m (x :: l1 ++ l2) F.
Proof. intros m l1 x l2 F H. eapply own_perm; [exact H |]. apply Permutation_app_tail. apply Permutation_sym. apply Permutation_middle. Qed.

Ltac front n H :=
  match n with
  | O => idtac
  | S ?k => match type of H with
            | own ?m ?l ?F =>
                let l1 := eval cbn in (firstn n l) in
                let r := eval cbn in (skipn n l) in
                match r with ?x :: ?l2 => let G := fresh "G" in pose proof (own_front m l1 x l2 F H) as G; cbn [app] in G; clear H; rename G into H end
            end
  end.

Ltac perm :=
  cbn [app];
  lazymatch goal with
  | |- Permutation ?l ?l => apply Permutation_refl
  | |- Permutation ?l (?x :: ?r) =>
      let rec go pre suf :=
        lazymatch suf with
        | x :: ?t => apply Permutation_trans with (x :: pre ++ t); [apply Permutation_sym; exact (Permutation_middle pre t x) | cbn [app]; apply perm_skip; perm]
        | ?y :: ?t => let p := eval cbn [app] in (pre ++ [y]) in go p t
        end in
      go (@nil (nat * blk)) l
  end.

(** One array with two rows is given back. *)
Lemma rows_free : forall m F a a0 a1 n l,
  own m ((a, Ptrs (At a0) (At a1)) :: (a0, Smp n) :: (a1, Smp n) :: l) F ->
  exists m', free_rows m (At a) = Fine m' /\ own m' l F.
Proof.
  intros m F a a0 a1 n l H. unfold free_rows, free_row, m_row. cbn [m_test bind m_get].
  rewrite (own_look _ _ _ a _ H) by (left; reflexivity). cbn [bind m_test m_del].
  rewrite (own_look _ _ _ a0 _ H) by (right; left; reflexivity). cbn [bind same_kind].
  front 1%nat H. apply own_del in H. set (m1 := Mem (m_next m) (drop (m_live m) a0)) in *. clearbody m1.
  unfold m_setrow. cbn [m_get]. rewrite (own_look _ _ _ a _ H) by (left; reflexivity). cbn [bind].
  apply own_put with (v' := Ptrs Null (At a1)) in H. set (m2 := Mem (m_next m1) _) in *. clearbody m2.
  unfold m_get. rewrite (own_look _ _ _ a _ H) by (left; reflexivity). cbn [bind m_test m_del].
  rewrite (own_look _ _ _ a1 _ H) by (right; left; reflexivity). cbn [bind same_kind].
  front 1%nat H. apply own_del in H. set (m3 := Mem (m_next m2) _) in *. clearbody m3.
  rewrite (own_look _ _ _ a _ H) by (left; reflexivity). cbn [bind].
  apply own_put with (v' := Ptrs Null Null) in H. set (m4 := Mem (m_next m3) _) in *. clearbody m4.
  rewrite (own_look _ _ _ a _ H) by (left; reflexivity). cbn [bind same_kind].
  apply own_del in H. eexists. split; [reflexivity | exact H].
Qed.
Definition bufs (a a0 a1 c c0 c1 : nat) (n : N) : heap :=
  [(a, Ptrs (At a0) (At a1)); (a0, Smp n); (a1, Smp n); (c, Ptrs (At c0) (At c1)); (c0, Smp n); (c1, Smp n)].
Lemma bufs_free : forall m F a a0 a1 c c0 c1 n l, own m (bufs a a0 a1 c c0 c1 n ++ l) F ->
  exists m', freeBuffers m (At a) (At c) = Fine m' /\ own m' l F.
Proof.
  intros m F a a0 a1 c c0 c1 n l H. unfold freeBuffers. destruct (rows_free _ _ _ _ _ _ _ H) as (m1 & E & H1). rewrite E. cbn [bind].
  apply (rows_free _ _ _ _ _ _ _ H1).
Qed.
Lemma null_free : forall m, freeBuffers m Null Null = Fine m.
Proof. reflexivity. Qed.
Lemma bufs_new : forall m F l n, own m l F ->
  exists m' a a0 a1 c c0 c1,
    (let (i', m2) := m_new m (Ptrs Indet Indet) in
     let (o', m3) := m_new m2 (Ptrs Indet Indet) in
     m4 <~ fill_rows m3 i' o' n false ;; m5 <~ fill_rows m4 i' o' n true ;; Fine (m5, i', o', n)) = Fine (m', At a, At c, n)
    /\ own m' (bufs a a0 a1 c c0 c1 n ++ l) F.
Proof.
  intros m F l n H. unfold m_new. cbv zeta beta iota.
  apply own_new with (v := Ptrs Indet Indet) in H. set (a := m_next m) in *. set (m1 := Mem (S a) _) in *. clearbody a. clearbody m1.
  apply own_new with (v := Ptrs Indet Indet) in H. set (c := m_next m1) in *. set (m2 := Mem (S c) _) in *. clearbody c. clearbody m2.
  unfold fill_rows, m_new, m_setrow. cbv zeta beta iota.
  apply own_new with (v := Smp n) in H. set (a0 := m_next m2) in *. set (m3 := Mem (S a0) _) in *. clearbody a0. clearbody m3.
  unfold m_get. rewrite (own_look _ _ _ a _ H) by (right; right; left; reflexivity). cbn [bind].
  front 2%nat H. apply own_put with (v' := Ptrs (At a0) Indet) in H. set (m4 := Mem (m_next m3) _) in *. clearbody m4.
  apply own_new with (v := Smp n) in H. set (c0 := m_next m4) in *. set (m5 := Mem (S c0) _) in *. clearbody c0. clearbody m5.
  rewrite (own_look _ _ _ c _ H) by (do 3 right; left; reflexivity). cbn [bind].
  front 3%nat H. apply own_put with (v' := Ptrs (At c0) Indet) in H. set (m6 := Mem (m_next m5) _) in *. clearbody m6.
  apply own_new with (v := Smp n) in H. set (a1 := m_next m6) in *. set (m7 := Mem (S a1) _) in *. clearbody a1. clearbody m7.
  rewrite (own_look _ _ _ a _ H) by (do 3 right; left; reflexivity). cbn [bind].
  front 3%nat H. apply own_put with (v' := Ptrs (At a0) (At a1)) in H. set (m8 := Mem (m_next m7) _) in *. clearbody m8.
  apply own_new with (v := Smp n) in H. set (c1 := m_next m8) in *. set (m9 := Mem (S c1) _) in *. clearbody c1. clearbody m9.
  rewrite (own_look _ _ _ c _ H) by (do 3 right; left; reflexivity). cbn [bind].
  front 3%nat H. apply own_put with (v' := Ptrs (At c0) (At c1)) in H. set (m10 := Mem (m_next m9) _) in *. clearbody m10.
  exists m10, a, a0, a1, c, c0, c1. split; [reflexivity |].
  eapply own_perm; [exact H |]. apply Permutation_app_tail. unfold bufs. cbn [app].
  perm.
Qed.

(** What an object holds, given what the calls say about it. *)
Inductive rep : obj -> status -> heap -> Prop :=
| rep_v0 : rep (Verb Null Null Null 0) (SVerb false 0) []
| rep_v1 x : rep (Verb (At x) Null Null 0) (SVerb true 0) [(x, Dsp)]
| rep_v2 x a a0 a1 c c0 c1 n : (0 < n)%N ->
    rep (Verb (At x) (At a) (At c) n) (SVerb true n) ((x, Dsp) :: bufs a a0 a1 c c0 c1 n)
| rep_c0 n : rep (Comb Null) (SComb true 0 n) []
| rep_c1 n : rep (Comb Indet) (SComb false 0 n) []
| rep_c2 x z i n : rep (Comb (At x)) (SComb z (S i) n) [(x, Smp n)].
Lemma rep_blocks : forall o s l, rep o s l -> length l = blocks s /\ total l = samples s.
Proof.
  intros o s l H. destruct H; cbn [blocks samples length total fold_right smp snd bufs Nat.eqb plus]; try (split; [reflexivity |]; cbn; lia).
  split; [| lia]. destruct (N.eqb_spec n 0); [lia | reflexivity].
Qed.

Lemma init_ok : forall m F d i o c b big l, own m l F -> rep (Verb d i o c) (SVerb b big) l ->
  exists m' o' l', v_init m d i o c = Fine (m', o') /\ own m' l' F /\ rep o' (SVerb true big) l'.
Proof.
  intros m F d i o c b big l H R.
  assert (K : forall m1 l1 (t : bool) i' o' c', own m1 l1 F -> (forall x, rep (Verb (At x) i' o' c') (SVerb true big) ((x, Dsp) :: l1)) ->
    exists m' p l', (let (d', m2) := m_new m1 Dsp in let (s, m3) := m_new m2 Sig in m4 <~ m_del m3 s Sig ;; _ <~ call_dsp m4 d' ;; Fine (m4, Verb d' i' o' c')) = Fine (m', p)
      /\ own m' l' F /\ rep p (SVerb true big) l').
  { intros m1 l1 _ i' o' c' H1 R1. unfold m_new. cbv zeta beta iota.
    apply own_new with (v := Dsp) in H1. set (x := m_next m1) in *. set (m2 := Mem (S x) _) in *. clearbody x. clearbody m2.
    apply own_new with (v := Sig) in H1. set (y := m_next m2) in *. set (m3 := Mem (S y) _) in *. clearbody y. clearbody m3.
    unfold m_del. rewrite (own_look _ _ _ y _ H1) by (left; reflexivity). cbn [bind same_kind].
    apply own_del in H1. set (m4 := Mem (m_next m3) _) in *. clearbody m4.
    unfold call_dsp, m_get. rewrite (own_look _ _ _ x _ H1) by (left; reflexivity). cbn [bind].
    eexists m4, _, _. split; [reflexivity |]. split; [exact H1 | apply R1]. }
  unfold v_init. inversion R; subst; cbn [m_test bind].
  - apply (K m [] true Null Null 0%N H). intro x. apply rep_v1.
  - unfold m_del at 1. rewrite (own_look _ _ _ x _ H) by (left; reflexivity). cbn [same_kind bind]. apply own_del in H.
    apply (K _ [] true Null Null 0%N H). intro y. apply rep_v1.
  - unfold m_del at 1. rewrite (own_look _ _ _ x _ H) by (left; reflexivity). cbn [same_kind bind]. apply own_del in H.
    apply (K _ _ true (At a) (At c0) big H). intro y. apply rep_v2. assumption.
Qed.
Lemma touch_ok : forall m F l p a0 a1 r n k, own m l F -> In (p, Ptrs (At a0) (At a1)) l -> In (a0, Smp k) l -> In (a1, Smp k) l -> (n <= k)%N ->
  touch m (At p) r n = Fine tt.
Proof.
  intros m F l p a0 a1 r n k H I0 I1 I2 LE. unfold touch, m_row, m_get. rewrite (own_look _ _ _ p _ H I0). cbn [bind].
  destruct r; [rewrite (own_look _ _ _ a1 _ H I2) | rewrite (own_look _ _ _ a0 _ H I1)]; cbn [bind]; apply N.leb_le in LE; rewrite LE; reflexivity.
Qed.
Lemma proc_tail : forall m F l x a a0 a1 c c0 c1 n k, own m ((x, Dsp) :: bufs a a0 a1 c c0 c1 k ++ l) F -> (n <= k)%N ->
  (_ <~ touch m (At a) false n ;; _ <~ touch m (At a) true n ;; _ <~ call_dsp m (At x) ;; _ <~ touch m (At c) false n ;; _ <~ touch m (At c) true n ;;
   Fine (m, Verb (At x) (At a) (At c) k)) = Fine (m, Verb (At x) (At a) (At c) k).
Proof.
  intros m F l x a a0 a1 c c0 c1 n k H LE.
  rewrite !(touch_ok m F _ a a0 a1 _ n k H) by (cbn; auto 10). cbn [bind].
  unfold call_dsp, m_get at 1. rewrite (own_look _ _ _ x _ H) by (left; reflexivity). cbn [bind].
  rewrite !(touch_ok m F _ c c0 c1 _ n k H) by (cbn; auto 10). reflexivity.
Qed.
Lemma proc_ok : forall m F d i o c b big l n, own m l F -> rep (Verb d i o c) (SVerb b big) l -> (b = true -> N.max big n <> 0%N) ->
  exists m' o' l', v_process m d i o c n = Fine (m', o') /\ own m' l' F /\ rep o' (if b then SVerb true (N.max big n) else SVerb b big) l'.
Proof.
  intros m F d i o c b big l n H R NZ. unfold v_process, allocateBuffers. inversion R; subst; cbn [m_test bind].
  - eexists _, _, _. split; [reflexivity |]. split; [exact H |]. exact R.
  - specialize (NZ eq_refl). rewrite N.max_0_l in *.
    destruct (N.leb_spec n 0) as [LE | LT]; [lia |]. rewrite null_free. cbn [bind].
    destruct (bufs_new m F [(x, Dsp)] n H) as (m' & a & a0 & a1 & c & c0 & c1 & E & H1). rewrite E. cbn [bind].
    assert (H2 : own m' ((x, Dsp) :: bufs a a0 a1 c c0 c1 n ++ []) F) by (eapply own_perm; [exact H1 |]; apply Permutation_app_tail; unfold bufs; perm).
    rewrite (proc_tail m' F [] x a a0 a1 c c0 c1 n n H2) by lia. eexists _, _, _. split; [reflexivity |].
    rewrite app_nil_r in H2. split; [exact H2 |]. apply rep_v2. lia.
  - destruct (N.leb_spec n big) as [LE | LT]; cbn [bind].
    + assert (H2 : own m ((x, Dsp) :: bufs a a0 a1 c0 c1 c2 big ++ []) F) by (rewrite app_nil_r; exact H).
      rewrite (proc_tail m F [] x a a0 a1 c0 c1 c2 n big H2) by lia. eexists _, _, _. split; [reflexivity |]. split; [exact H |]. rewrite N.max_l by lia. exact R.
    + assert (H1 : own m (bufs a a0 a1 c0 c1 c2 big ++ [(x, Dsp)]) F) by (eapply own_perm; [exact H |]; apply Permutation_app_tail; unfold bufs; perm).
      destruct (bufs_free _ _ _ _ _ _ _ _ _ _ H1) as (m1 & E1 & H2). rewrite E1. cbn [bind].
      destruct (bufs_new m1 F [(x, Dsp)] n H2) as (m' & b0 & b1 & b2 & e & e0 & e1 & E & H3). rewrite E. cbn [bind].
      assert (H4 : own m' ((x, Dsp) :: bufs b0 b1 b2 e e0 e1 n ++ []) F) by (eapply own_perm; [exact H3 |]; apply Permutation_app_tail; unfold bufs; perm).
      rewrite (proc_tail m' F [] x b0 b1 b2 e e0 e1 n n H4) by lia. eexists _, _, _. split; [reflexivity |].
      rewrite app_nil_r in H4. split; [exact H4 |]. rewrite N.max_r by lia. apply rep_v2. lia.
Qed.
Lemma vcall_ok : forall m F d i o c b big l, own m l F -> rep (Verb d i o c) (SVerb b big) l -> v_call m d = Fine tt.
Proof.
  intros m F d i o c b big l H R. unfold v_call, call_dsp, m_get. inversion R; subst; cbn [m_test bind]; [reflexivity | |];
  rewrite (own_look _ _ _ x _ H) by (left; reflexivity); reflexivity.
Qed.
Lemma vdel_ok : forall m F d i o c b big l, own m l F -> rep (Verb d i o c) (SVerb b big) l -> exists m', v_del m d i o = Fine m' /\ own m' [] F.
Proof.
  intros m F d i o c b big l H R. unfold v_del. inversion R; subst; cbn [m_test bind].
  - eexists. split; [reflexivity | exact H].
  - rewrite null_free. cbn [bind m_test m_del]. rewrite (own_look _ _ _ x _ H) by (left; reflexivity). cbn [same_kind]. eexists. split; [reflexivity |].
    apply (own_del _ _ _ _ _ H).
  - assert (H1 : own m (bufs a a0 a1 c0 c1 c2 big ++ [(x, Dsp)]) F) by (eapply own_perm; [exact H |]; apply Permutation_app_tail; unfold bufs; perm).
    destruct (bufs_free _ _ _ _ _ _ _ _ _ _ H1) as (m1 & E1 & H2). rewrite E1. cbn [bind m_test m_del].
    rewrite (own_look _ _ _ x _ H2) by (left; reflexivity). cbn [same_kind]. eexists. split; [reflexivity |]. apply (own_del _ _ _ _ _ H2).
Qed.
Lemma cdel_ok : forall m F p z i n l, own m l F -> rep (Comb p) (SComb z i n) l -> z || negb (Nat.eqb i 0) = true -> exists m', c_del m p = Fine m' /\ own m' [] F.
Proof.
  intros m F p z i n l H R Z. unfold c_del. inversion R; subst; cbn [m_test bind]; try discriminate.
  - eexists. split; [reflexivity | exact H].
  - cbn [m_del]. rewrite (own_look _ _ _ x _ H) by (left; reflexivity). cbn [same_kind]. eexists. split; [reflexivity |]. apply (own_del _ _ _ _ _ H).
Qed.

(** All objects together. *)
Inductive reps : list (nat * obj) -> list (nat * status) -> heap -> Prop :=
| reps_nil : reps [] [] []
| reps_cons k o s l os ss L : rep o s l -> reps os ss L -> reps ((k, o) :: os) ((k, s) :: ss) (l ++ L).
Lemma reps_none : forall os ss L k, reps os ss L -> (find os k = None <-> find ss k = None).
Proof. intros os ss L k H. induction H as [| c o s l os ss L R _ IH]; [tauto |]. cbn. destruct (Nat.eqb c k); [split; discriminate | exact IH]. Qed.
Lemma reps_find : forall os ss L k o, reps os ss L -> find os k = Some o ->
  exists s l L', find ss k = Some s /\ rep o s l /\ Permutation L (l ++ L')
  /\ (forall o' s' l', rep o' s' l' -> exists L'', reps (upd os k o') (upd ss k s') L'' /\ Permutation L'' (l' ++ L'))
  /\ (exists L'', reps (del os k) (del ss k) L'' /\ Permutation L'' L').
Proof.
  intros os ss L k o H. induction H as [| c o1 s l os ss L R RS IH]; [discriminate |]. cbn. destruct (Nat.eqb_spec c k) as [-> | NE].
  - intro E. inversion E; subst. exists s, l, L. split; [reflexivity |]. split; [exact R |]. split; [apply Permutation_refl |]. split.
    + intros o' s' l' R'. exists (l' ++ L). split; [constructor; assumption | apply Permutation_refl].
    + exists L. split; [exact RS | apply Permutation_refl].
  - intro E. destruct (IH E) as (s0 & l0 & L0 & E0 & R0 & P0 & U0 & (L1 & D0 & P1)). exists s0, l0, (l ++ L0). split; [exact E0 |]. split; [exact R0 |].
    assert (SW : forall A B : heap, Permutation (l ++ A ++ B) (A ++ l ++ B))
      by (intros A B; rewrite !app_assoc; apply Permutation_app_tail; apply Permutation_app_comm).
    split; [eapply Permutation_trans; [apply Permutation_app_head; exact P0 | apply SW] |]. split.
    + intros o' s' l' R'. destruct (U0 o' s' l' R') as (L2 & D2 & P2). exists (l ++ L2). split; [constructor; assumption |].
      eapply Permutation_trans; [apply Permutation_app_head; exact P2 | apply SW].
    + exists (l ++ L1). split; [constructor; assumption |]. apply Permutation_app_head. exact P1.
Qed.
Definition inv (w : world) (b : book) : Prop :=
  exists L lost, reps (w_objs w) (b_objs b) L /\ own (w_mem w) L lost /\ length lost = b_lost b /\ total lost = b_lostn b.
Lemma total_app : forall a b, total (a ++ b) = (total a + total b)%N.
Proof. induction a as [| x a IH]; intro b; [reflexivity |]. cbn [app]. change (total (x :: a ++ b)) with (smp (snd x) + total (a ++ b))%N.
  change (total (x :: a)) with (smp (snd x) + total a)%N. rewrite IH. lia. Qed.
Lemma total_perm : forall a b, Permutation a b -> total a = total b.
Proof. intros a b P. induction P; [reflexivity | | | congruence]; unfold total in *; cbn [fold_right]; lia. Qed.
Lemma reps_held : forall os ss L, reps os ss L -> length L = held ss /\ total L = held_n ss.
Proof.
  intros os ss L H. induction H as [| k o s l os ss L R _ [A B]]; [split; reflexivity |]. destruct (rep_blocks _ _ _ R) as [C D].
  cbn [held held_n fold_right snd]. rewrite app_length, total_app. unfold held, held_n in *. lia.
Qed.

(** The objects of a world with one of them taken out. *)
Lemma open_at : forall w b k o, inv w b -> find (w_objs w) k = Some o ->
  exists s l F, find (b_objs b) k = Some s /\ rep o s l /\ own (w_mem w) l F
  /\ (forall m' o' s' l', rep o' s' l' -> own m' l' F -> inv (World m' (upd (w_objs w) k o')) (turned b k s'))
  /\ (forall m' o' s' l' x, rep o' s' l' -> own m' (l' ++ x) F -> length x = blocks s -> total x = samples s ->
        inv (World m' (upd (w_objs w) k o')) (turned (losing b s) k s'))
  /\ (forall m', own m' [] F -> inv (World m' (del (w_objs w) k)) (Book (del (b_objs b) k) (b_lost b) (b_lostn b))).
Proof.
  intros w b k o (L & lost & RS & OW & EL & ET) E. destruct (reps_find _ _ _ _ _ RS E) as (s & l & L' & Es & R & P & U & (L2 & D & P2)).
  exists s, l, (L' ++ lost). split; [exact Es |]. split; [exact R |].
  split; [eapply own_perm; [exact OW |]; rewrite app_assoc; apply Permutation_app_tail; exact P |]. split; [| split].
  - intros m' o' s' l' R' O'. destruct (U o' s' l' R') as (L3 & RS3 & P3). exists L3, lost. cbn. split; [exact RS3 |]. split; [| split; assumption].
    eapply own_perm; [exact O' |]. rewrite app_assoc. apply Permutation_app_tail. apply Permutation_sym. exact P3.
  - intros m' o' s' l' x R' O' LX TX. destruct (U o' s' l' R') as (L3 & RS3 & P3). exists L3, (lost ++ x). cbn. split; [exact RS3 |].
    split; [| split; [rewrite app_length, LX, EL; reflexivity | rewrite total_app, TX, ET; reflexivity]].
    eapply own_perm; [exact O' |]. eapply Permutation_trans; [| apply Permutation_app_tail; apply Permutation_sym; exact P3].
    rewrite <- !app_assoc. apply Permutation_app_head. rewrite (app_assoc L' lost x). apply Permutation_app_comm.
  - intros m' O'. exists L2, lost. cbn. split; [exact D |]. split; [| split; assumption]. eapply own_perm; [exact O' |]. cbn [app]. apply Permutation_app_tail.
    apply Permutation_sym. exact P2.
Qed.
Lemma fresh_ok : forall w b k o s, inv w b -> rep o s [] ->
  match entered b k s with Some b' => exists w', fresh w k o = Fine w' /\ inv w' b' | None => fresh w k o = Wrong Life end.
Proof.
  intros w b k o s (L & lost & RS & OW & EL & ET) R. unfold entered, fresh. pose proof (reps_none _ _ _ k RS) as N.
  destruct (find (b_objs b) k) as [u |]; destruct (find (w_objs w) k) as [v |]; try reflexivity.
  - destruct N as [N _]. discriminate (N eq_refl).
  - destruct N as [_ N]. discriminate (N eq_refl).
  - eexists. split; [reflexivity |]. exists L, lost. cbn. split; [apply (reps_cons k o s [] _ _ L R RS) |]. split; [exact OW | split; assumption].
Qed.
Definition copying (x : op) : bool := match x with Copy _ _ | Assign _ _ => true | _ => false end.
Lemma inv_none : forall w b k, inv w b -> find (w_objs w) k = None -> find (b_objs b) k = None.
Proof. intros w b k (L & lost & RS & _) E. apply (reps_none _ _ _ k RS). exact E. Qed.
Lemma own_app_new : forall m l F v, own m l F -> own (Mem (S (m_next m)) ((m_next m, v) :: m_live m)) ([(m_next m, v)] ++ l) F.
Proof. intros m l F v H. apply (own_new m l F v H). Qed.
Lemma same_world : forall w, World (w_mem w) (w_objs w) = w.
Proof. intros [m o]. reflexivity. Qed.

Lemma step_ok : forall w b x, inv w b ->
  match note b x with
  | Some b' => exists w', step w x = Fine w' /\ inv w' b'
  | None => copying x = false -> exists e, step w x = Wrong e
  end.
Proof.
  intros w b x I. destruct x as [k | k | k n | k | k z | k n | k | k | k | k j | k j]; cbn [note step copying].
  - pose proof (fresh_ok w b k _ _ I rep_v0) as F. destruct (entered b k _); [exact F |]. intros _. eexists. exact F.
  - destruct (find (w_objs w) k) as [[d i o c | p] |] eqn:E.
    + destruct (open_at w b k _ I E) as (s & l & F & Es & R & O & K & _). rewrite Es. inversion R; subst.
      * destruct (init_ok _ _ _ _ _ _ _ _ _ O R) as (m' & o' & l' & E' & O' & R'). rewrite E'. eexists. split; [reflexivity |]. apply (K m' o' _ l' R' O').
      * destruct (init_ok _ _ _ _ _ _ _ _ _ O R) as (m' & o' & l' & E' & O' & R'). rewrite E'. eexists. split; [reflexivity |]. apply (K m' o' _ l' R' O').
      * destruct (init_ok _ _ _ _ _ _ _ _ _ O R) as (m' & o' & l' & E' & O' & R'). rewrite E'. eexists. split; [reflexivity |]. apply (K m' o' _ l' R' O').
    + destruct (open_at w b k _ I E) as (s & l & F & Es & R & _). rewrite Es. inversion R; subst; eexists; reflexivity.
    + rewrite (inv_none w b k I E). intros _. eexists. reflexivity.
  - destruct (find (w_objs w) k) as [[d i o c | p] |] eqn:E.
    + destruct (open_at w b k _ I E) as (s & l & F & Es & R & O & K & _). rewrite Es.
      destruct s as [on big | z' i' n']; [| inversion R]. destruct on.
      * destruct (N.eqb_spec (N.max big n) 0) as [Z | NZ].
        -- intros _. assert (big = 0%N /\ n = 0%N) as [-> ->] by lia. inversion R; subst; [| lia].
           unfold v_process, allocateBuffers. cbn. eexists. reflexivity.
        -- destruct (proc_ok _ _ _ _ _ _ _ _ _ n O R (fun _ => NZ)) as (m' & o' & l' & E' & O' & R'). rewrite E'. eexists. split; [reflexivity |]. apply (K m' o' _ l' R' O').
      * inversion R; subst. eexists. split; [reflexivity |]. unfold set. cbn [fst snd bind].
        pose proof (K (w_mem w) _ _ _ R O) as K'.
        assert (TB : turned b k (SVerb false 0) = b).
        { clear - Es. destruct b as [os bl bn]. unfold turned. cbn in *. f_equal. induction os as [| [c s] os IH]; [discriminate |]. cbn in *.
          destruct (Nat.eqb c k); [inversion Es; reflexivity | rewrite (IH Es); reflexivity]. }
        rewrite TB in K'. exact K'.
    + destruct (open_at w b k _ I E) as (s & l & F & Es & R & _). rewrite Es. inversion R; subst; eexists; reflexivity.
    + rewrite (inv_none w b k I E). intros _. eexists. reflexivity.
  - destruct (find (w_objs w) k) as [[d i o c | p] |] eqn:E.
    + destruct (open_at w b k _ I E) as (s & l & F & Es & R & O & K & _). rewrite Es.
      destruct s as [on big | z' i' n']; [| inversion R]. rewrite (vcall_ok _ _ _ _ _ _ _ _ _ O R). exists w. split; [reflexivity | exact I].
    + destruct (open_at w b k _ I E) as (s & l & F & Es & R & _). rewrite Es. inversion R; subst; eexists; reflexivity.
    + rewrite (inv_none w b k I E). intros _. eexists. reflexivity.
  - assert (R : rep (Comb (if z then Null else Indet)) (SComb z 0 0) []) by (destruct z; constructor).
    pose proof (fresh_ok w b k _ _ I R) as F. destruct (entered b k _); [exact F |]. intros _. eexists. exact F.
  - destruct (find (w_objs w) k) as [[d i o c | p] |] eqn:E.
    + destruct (open_at w b k _ I E) as (s & l & F & Es & R & _). rewrite Es. inversion R; subst; eexists; reflexivity.
    + destruct (open_at w b k _ I E) as (s & l & F & Es & R & O & _ & K & _). rewrite Es.
      destruct s as [on big | z' i' n']; [inversion R |]. destruct (rep_blocks _ _ _ R) as [LB TB].
      eexists. split; [reflexivity |]. unfold set, m_new. cbn [fst snd bind].
      apply (K _ _ _ [(m_next (w_mem w), Smp n)] l); [apply rep_c2 | apply own_app_new; exact O | exact LB | exact TB].
    + rewrite (inv_none w b k I E). intros _. eexists. reflexivity.
  - destruct (find (w_objs w) k) as [[d i o c | p] |] eqn:E.
    + destruct (open_at w b k _ I E) as (s & l & F & Es & R & _). rewrite Es. inversion R; subst; eexists; reflexivity.
    + destruct (open_at w b k _ I E) as (s & l & F & Es & R & O & _). rewrite Es. inversion R; subst; try (eexists; reflexivity).
      exists w. unfold c_tick, m_get. rewrite (own_look _ _ _ x _ O) by (left; reflexivity). split; [reflexivity | exact I].
    + rewrite (inv_none w b k I E). intros _. eexists. reflexivity.
  - destruct (find (w_objs w) k) as [[d i o c | p] |] eqn:E.
    + destruct (open_at w b k _ I E) as (s & l & F & Es & R & _). rewrite Es. inversion R; subst; eexists; reflexivity.
    + destruct (open_at w b k _ I E) as (s & l & F & Es & R & O & _). rewrite Es. inversion R; subst; cbn.
      * exists w. split; [reflexivity | exact I].
      * eexists; reflexivity.
      * rewrite Bool.orb_true_r. exists w. unfold c_reset, c_tick, m_get. cbn [m_test bind]. rewrite (own_look _ _ _ x _ O) by (left; reflexivity). split; [reflexivity | exact I].
    + rewrite (inv_none w b k I E). intros _. eexists. reflexivity.
  - destruct (find (w_objs w) k) as [[d i o c | p] |] eqn:E.
    + destruct (open_at w b k _ I E) as (s & l & F & Es & R & O & _ & _ & K). rewrite Es. destruct s as [on big | z' i' n']; [| inversion R].
      destruct (vdel_ok _ _ _ _ _ _ _ _ _ O R) as (m' & E' & O'). rewrite E'. eexists. split; [reflexivity |]. apply K. exact O'.
    + destruct (open_at w b k _ I E) as (s & l & F & Es & R & O & _ & _ & K). rewrite Es. destruct s as [on big | z' i' n']; [inversion R |].
      destruct (z' || negb (Nat.eqb i' 0)) eqn:Z.
      * destruct (cdel_ok _ _ _ _ _ _ _ O R Z) as (m' & E' & O'). rewrite E'. eexists. split; [reflexivity |]. apply K. exact O'.
      * intros _. inversion R; subst; cbn in Z; try discriminate; [eexists; reflexivity |]. rewrite Bool.orb_true_r in Z. discriminate.
    + rewrite (inv_none w b k I E). intros _. eexists. reflexivity.
  - destruct (find (b_objs b) j) as [s |] eqn:Es; [| intro H; discriminate].
    destruct (bare s) eqn:B; [| intro H; discriminate].
    destruct (find (w_objs w) j) as [o |] eqn:E; [| rewrite (inv_none w b j I E) in Es; discriminate].
    destruct (open_at w b j _ I E) as (s' & l & F & Es' & R & _). rewrite Es in Es'. inversion Es'; subst s'.
    assert (R' : rep o s [] /\ o <> Comb Indet).
    { inversion R; subst; cbn in B; try discriminate; try (split; [exact R | discriminate]). rewrite Bool.andb_false_r in B. discriminate. }
    destruct R' as [R' NI]. pose proof (fresh_ok w b k o s I R') as FO. destruct (entered b k s); [| intro H; discriminate].
    destruct o as [d i o c | [| | x]]; try exact FO. destruct (NI eq_refl).
  - destruct (find (b_objs b) k) as [sk |] eqn:Ek; [| intro H; discriminate].
    destruct (find (b_objs b) j) as [sj |] eqn:Ej; [| destruct sk; intro H; discriminate].
    destruct (find (w_objs w) k) as [ok |] eqn:Fk; [| rewrite (inv_none w b k I Fk) in Ek; discriminate].
    destruct (find (w_objs w) j) as [oj |] eqn:Fj; [| rewrite (inv_none w b j I Fj) in Ej; discriminate].
    destruct (open_at w b k _ I Fk) as (s' & l & F & Es' & R & O & _ & K & _). rewrite Ek in Es'. inversion Es'; subst s'.
    destruct (open_at w b j _ I Fj) as (s' & lj & Fj' & Ej' & Rj & _). rewrite Ej in Ej'. inversion Ej'; subst s'.
    destruct (rep_blocks _ _ _ R) as [LB TB].
    destruct sk as [on big | z i n]; destruct sj as [on' big' | z' i' n']; try (intro H; discriminate).
    + destruct (bare (SVerb on' big')) eqn:B; [| intro H; discriminate]. destruct ok as [d1 i1 o1 c1 | p1]; [| inversion R].
      destruct oj as [d2 i2 o2 c2 | p2]; [| inversion Rj]. eexists. split; [reflexivity |].
      apply (K (w_mem w) _ _ [] l); [| exact O | exact LB | exact TB]. inversion Rj; subst; cbn in B; try discriminate. exact Rj.
    + destruct (bare (SComb z' i' n')) eqn:B; [| intro H; discriminate]. destruct ok as [d1 i1 o1 c1 | p1]; [inversion R |].
      destruct oj as [d2 i2 o2 c2 | p2]; [inversion Rj |].
      assert (Q : rep (Comb p2) (SComb z' i' n') [] /\ p2 = Null).
      { inversion Rj; subst; cbn in B; try discriminate; [split; [exact Rj | reflexivity] |]. rewrite Bool.andb_false_r in B. discriminate. }
      destruct Q as [Q ->]. eexists. split; [reflexivity |]. apply (K (w_mem w) _ _ [] l); [exact Q | exact O | exact LB | exact TB].
Qed.
Lemma run_ok : forall xs w b, inv w b ->
  match tally b xs with
  | Some b' => exists w', run w xs = Fine w' /\ inv w' b'
  | None => uncopied xs -> exists e, run w xs = Wrong e
  end.
Proof.
  induction xs as [| x xs IH]; intros w b I; cbn [tally run]; [exists w; split; [reflexivity | exact I] |].
  pose proof (step_ok w b x I) as S. destruct (note b x) as [b' |].
  - destruct S as (w' & E & I'). rewrite E. cbn [bind]. pose proof (IH w' b' I') as T. destruct (tally b' xs); [exact T |].
    intro U. apply T. inversion U; assumption.
  - intro U. inversion U as [| ? ? C U']; subst. assert (CF : copying x = false) by (destruct x; try reflexivity; destruct C).
    destruct (S CF) as (e & E). rewrite E. exists e. reflexivity.
Qed.
Lemma inv0 : inv empty_world (Book [] 0 0).
Proof. exists [], []. split; [constructor |]. split; [| split; reflexivity]. split; [apply Permutation_refl |]. split; constructor. Qed.
Lemma inv_count : forall w b, inv w b -> live_blocks w = held (b_objs b) + b_lost b /\ live_samples w = (held_n (b_objs b) + b_lostn b)%N.
Proof.
  intros w b (L & lost & RS & (P & _) & EL & ET). destruct (reps_held _ _ _ RS) as [A B]. unfold live_blocks, live_samples.
  rewrite (Permutation_length P), (total_perm _ _ P), app_length, total_app. lia.
Qed.
Lemma reps_ends : forall os ss L, reps os ss L -> ss = [] -> os = [].
Proof. intros os ss L H E. destruct H; [reflexivity | discriminate]. Qed.
