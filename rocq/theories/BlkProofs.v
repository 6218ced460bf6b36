(** The block loops are successive ticks. *)
From Coq Require Import List Arith Lia.
From Verif Require Import Flt Res BlkModel BlkSpec.
Import ListNotations.

Lemma rbind_val {A B} (e : res A) (f : A -> res B) v : rbind e f = Val v -> exists a, e = Val a /\ f a = Val v.
Proof. destruct e; cbn; intros H; try discriminate. eauto. Qed.
Lemma rbind_assoc {A B C} (e : res A) (f : A -> res B) (g : B -> res C) : rbind (rbind e f) g = rbind e (fun a => rbind (f a) g).
Proof. destruct e; reflexivity. Qed.

Section Loop.
Context {S : Type}.
Implicit Types (body : nat -> S -> mem -> res (S * mem)).

Lemma blk_app body n k i s m : blk body (n + k) i s m = rbind (blk body n i s m) (fun x => blk body k (i + n) (fst x) (snd x)).
Proof.
  revert i s m. induction n as [|n IH]; intros i s m.
  - cbn. now rewrite Nat.add_0_r.
  - cbn [blk Nat.add]. rewrite rbind_assoc. destruct (body i s m) as [x| |]; cbn [rbind]; [|reflexivity|reflexivity].
    rewrite IH. destruct (blk body n (Datatypes.S i) (fst x) (snd x)) as [y| |]; cbn [rbind]; [|reflexivity|reflexivity].
    f_equal. lia.
Qed.
Lemma blk_shift body body' d n i s m : (forall j s m, body (d + j) s m = body' j s m) -> blk body n (d + i) s m = blk body' n i s m.
Proof.
  intros H. revert i s m. induction n as [|n IH]; intros i s m; [reflexivity|].
  cbn [blk]. rewrite H. destruct (body' i s m) as [x| |]; cbn [rbind]; [|reflexivity|reflexivity].
  rewrite <- IH. f_equal. lia.
Qed.

(** What one round does. *)
Record round (body : nat -> S -> mem -> res (S * mem)) (ins outs : list nat) (tick : S -> list f32 -> res (S * list f32)) : Prop := Round {
  rd_ok : forall i s m, (forall b, In b (ins ++ outs) -> m (b + i) <> None) -> NoDup outs ->
    match tick s (map (fun a => cell m (a + i)) ins) with
    | Val (s', ys) => length ys = length outs /\ exists m', body i s m = Val (s', m') /\
        (forall k b y, nth_error outs k = Some b -> nth_error ys k = Some y -> m' (b + i) = Some y) /\
        (forall q, (forall b, In b outs -> q <> b + i) -> m' q = m q)
    | Undef => body i s m = Undef
    | Spin => body i s m = Spin
    end;
  rd_dom : forall i s m x, body i s m = Val x -> forall q, snd x q = None <-> m q = None;
  rd_need : forall i s m x, body i s m = Val x -> forall b, In b (ins ++ outs) -> m (b + i) <> None }.

Variables (body : nat -> S -> mem -> res (S * mem)) (ins outs : list nat) (tick : S -> list f32 -> res (S * list f32)).
Hypothesis HR : round body ins outs tick.

Lemma apart_nodup i n : apart outs i (Datatypes.S n) -> NoDup outs.
Proof.
  intros H. apply NoDup_nth_error. intros k k' Hk E.
  destruct (nth_error outs k) as [b|] eqn:Ek; [|apply nth_error_None in Ek; lia].
  destruct (Nat.eq_dec k k') as [|N]; [assumption|].
  exfalso. apply (H k k' b b i i Ek (eq_sym E) N); lia.
Qed.

Lemma blk_ok n : forall i s m, room m ins i n -> room m outs i n -> no_overwrite ins outs i n -> apart outs i n ->
  match feed tick s (rows m ins i n) with
  | Val (s', ys) => length ys = n /\ Forall (fun row => length row = length outs) ys /\ exists m', blk body n i s m = Val (s', m') /\ written m outs i ys m'
  | Undef => blk body n i s m = Undef
  | Spin => blk body n i s m = Spin
  end.
Proof.
  induction n as [|n IH]; intros i s m Ri Ro NO AP.
  - cbn. split; [reflexivity|]. split; [constructor|]. exists m. split; [reflexivity|]. split.
    + intros k b j row y _ E _. destruct j; discriminate.
    + intros q _. reflexivity.
  - unfold rows. cbn [seq map feed blk].
    assert (C : forall b, In b (ins ++ outs) -> m (b + i) <> None).
    { intros b Hb. apply in_app_or in Hb. destruct Hb as [Hb|Hb]; [apply (Ri b i Hb)|apply (Ro b i Hb)]; lia. }
    pose proof (rd_ok body ins outs tick HR i s m C (apart_nodup _ _ AP)) as B.
    destruct (tick s (map (fun a => cell m (a + i)) ins)) as [[s1 y1]| |]; cbn [rbind fst snd]; [|rewrite B; reflexivity|rewrite B; reflexivity].
    destruct B as (Ly & m1 & B & Bw & Bo). rewrite B. cbn [rbind fst snd].
    assert (D : forall q, m1 q = None <-> m q = None) by exact (rd_dom _ _ _ _ HR _ _ _ _ B).
    assert (E : rows m ins (Datatypes.S i) n = rows m1 ins (Datatypes.S i) n).
    { unfold rows. apply map_ext_in. intros j Hj. apply in_seq in Hj. apply map_ext_in. intros a Ha.
      unfold cell. rewrite Bo; [reflexivity|]. intros b Hb He. apply (NO a b i j Ha Hb); lia. }
    specialize (IH (Datatypes.S i) s1 m1).
    change (map (fun j => map (fun a => cell m (a + j)) ins) (seq (Datatypes.S i) n)) with (rows m ins (Datatypes.S i) n).
    rewrite E.
    lapply IH; [clear IH; intros IH|intros b j Hb Hj; rewrite D; apply (Ri b j Hb); lia].
    lapply IH; [clear IH; intros IH|intros b j Hb Hj; rewrite D; apply (Ro b j Hb); lia].
    lapply IH; [clear IH; intros IH|intros a b j k Ha Hb H1 H2 H3; apply (NO a b j k Ha Hb); lia].
    lapply IH; [clear IH; intros IH|intros k k' b b' j j' H1 H2 H3 H4 H5; apply (AP k k' b b' j j' H1 H2 H3); lia].
    destruct (feed tick s1 (rows m1 ins (Datatypes.S i) n)) as [[s2 ys]| |]; cbn [rbind fst snd]; [|exact IH|exact IH].
    destruct IH as (Ln & Lr & m2 & IH & W1 & W2).
    split; [cbn; lia|]. split; [constructor; assumption|]. exists m2. split; [exact IH|]. split.
    + intros k b [|j] row y Ek Ej Ey.
      * cbn in Ej. injection Ej as <-. rewrite Nat.add_0_r. rewrite W2; [exact (Bw k b y Ek Ey)|].
        intros b' j Hb' Hj. apply In_nth_error in Hb'. destruct Hb' as [k' Ek'].
        destruct (Nat.eq_dec k k') as [->|N]; [rewrite Ek in Ek'; injection Ek' as <-; lia|].
        apply (AP k k' b b' i (Datatypes.S i + j) Ek Ek' N); lia.
      * cbn in Ej. replace (b + (i + Datatypes.S j)) with (b + (Datatypes.S i + j)) by lia. exact (W1 k b j row y Ek Ej Ey).
    + intros q Hq. rewrite W2, Bo; [reflexivity| |].
      * intros b Hb. specialize (Hq b 0 Hb). cbn in Hq. rewrite Nat.add_0_r in Hq. apply Hq. lia.
      * intros b j Hb Hj. specialize (Hq b (Datatypes.S j) Hb). cbn [length] in Hq. replace (Datatypes.S i + j) with (i + Datatypes.S j) by lia. apply Hq. lia.
Qed.
Lemma blk_need n : forall i s m x, blk body n i s m = Val x -> forall b j, In b (ins ++ outs) -> i <= j < i + n -> m (b + j) <> None.
Proof.
  induction n as [|n IH]; intros i s m x H b j Hb Hj; [lia|].
  cbn [blk] in H. apply rbind_val in H. destruct H as (y & A & B).
  destruct (Nat.eq_dec j i) as [->|N]; [exact (rd_need _ _ _ _ HR _ _ _ _ A b Hb)|].
  rewrite <- (rd_dom _ _ _ _ HR _ _ _ _ A). apply (IH _ _ _ _ B b j Hb). lia.
Qed.
End Loop.

Lemma block_ok {S} (proc : nat -> nat -> S -> mem -> res (S * mem)) (body : nat -> nat -> S -> mem -> res (S * mem)) ins outs tick :
  (forall d n s m, proc d n s m = blk (body d) n 0 s m) ->
  (forall d j s m, body 0 (d + j) s m = body d j s m) ->
  round (body 0) ins outs tick -> is_block proc ins outs tick.
Proof.
  intros HP HB HR. split; [|split].
  - intros n s m A B C D. rewrite HP. exact (blk_ok (body 0) ins outs tick HR n 0 s m A B C D).
  - intros n k s m. rewrite !HP, blk_app. destruct (blk (body 0) n 0 s m) as [x| |]; cbn [rbind]; [|reflexivity|reflexivity].
    rewrite HP. cbn [Nat.add]. replace n with (n + 0) at 1 by lia. apply blk_shift. intros. apply HB.
  - intros n s m b j Hb Hj E x H. rewrite HP in H. apply (blk_need (body 0) ins outs tick HR n 0 s m x H b j Hb); [lia|exact E].
Qed.

Lemma store_val m p v m' : store m p v = Val m' -> m p <> None /\ m' p = Some v /\ (forall q, q <> p -> m' q = m q).
Proof.
  unfold store. destruct (m p) as [o|] eqn:E; [|discriminate]. intros H. injection H as <-.
  split; [discriminate|]. split; [now rewrite Nat.eqb_refl|]. intros q Hq. apply Nat.eqb_neq in Hq. now rewrite Hq.
Qed.
Lemma store_dom m p v m' : store m p v = Val m' -> forall q, m' q = None <-> m q = None.
Proof.
  intros H q. destruct (store_val _ _ _ _ H) as (A & B & C). destruct (Nat.eq_dec q p) as [->|N]; [|now rewrite C].
  rewrite B. split; [discriminate|]. intros E. contradiction.
Qed.
Lemma store_ok m p v : m p <> None -> exists m', store m p v = Val m'.
Proof. unfold store. destruct (m p); [eauto|contradiction]. Qed.
Lemma load_ok m p : m p <> None -> load m p = Val (cell m p).
Proof. unfold load, cell. destruct (m p); [reflexivity|contradiction]. Qed.
Lemma load_val m p v : load m p = Val v -> m p <> None.
Proof. unfold load. destruct (m p); [discriminate|]. cbn. discriminate. Qed.

Ltac unbind := repeat match goal with H : rbind _ _ = Val _ |- _ => apply rbind_val in H; destruct H as (? & ? & ?) end.
Ltac stores := repeat match goal with H : store _ _ _ = Val _ |- _ => let A := fresh "A" in pose proof (store_dom _ _ _ _ H) as A; apply store_val in H; destruct H as (? & ? & ?) end;
  repeat match goal with H : load _ _ = Val _ |- _ => apply load_val in H end.
Ltac need := let i := fresh in let s := fresh in let m := fresh in let x := fresh in let H := fresh in let b := fresh in let Hb := fresh in intros i s m x H b Hb; unbind; stores; cbn in Hb; repeat match goal with H : forall q, _ q = None <-> _ q = None |- _ => rewrite <- H end;
  repeat match goal with H : _ \/ _ |- _ => destruct H end; subst; try contradiction;
  repeat match goal with H : forall q, _ q = None <-> _ q = None |- _ => rewrite H in * end; assumption.
Ltac dom := let i := fresh in let s := fresh in let m := fresh in let x := fresh in let H := fresh in let q := fresh in intros i s m x H q; unbind; stores; match goal with H : Val _ = Val _ |- _ => injection H as <- end; cbn [snd];
  repeat match goal with H : forall q, _ q = None <-> _ q = None |- _ => rewrite H end; tauto.

Section Each.
Context {S : Type}.

Ltac one_out C E v := let m' := fresh "m'" in let W := fresh "W" in
  match goal with |- context[store ?m ?p v] => destruct (store_ok m p v) as [m' W]; [apply C; cbn; auto|]; rewrite W; cbn [rbind];
    split; [reflexivity|]; exists m'; split; [reflexivity|]; apply store_val in W; destruct W as (_ & W1 & W2);
    split; [let k := fresh in let b := fresh in let y := fresh in let Eb := fresh in let Ey := fresh in intros [|[|k]] b y Eb Ey; cbn in Eb, Ey; try discriminate; injection Eb as <-; injection Ey as <-; exact W1
           |let q := fresh in let Hq := fresh in intros q Hq; apply W2; apply Hq; cbn; auto] end.

Lemma r_set (t : S -> res (S * f32)) p :
  round (fun i s m => x <~ t s ;; m <~ store m (p + 0 + i) (snd x) ;; Val (fst x, m)) [] [p] (row_set t).
Proof.
  rewrite Nat.add_0_r. split; [|dom|need].
  intros i s m C _. cbn [map row_set]. destruct (t s) as [[s1 y]| |]; cbn [rbind fst snd]; [|reflexivity|reflexivity].
  one_out C E y.
Qed.
Lemma r_acc op (t : S -> res (S * f32)) p :
  round (fun i s m => x <~ t s ;; old <~ load m (p + 0 + i) ;; m <~ store m (p + 0 + i) (op old (snd x)) ;; Val (fst x, m)) [p] [p] (row_acc op t).
Proof.
  rewrite Nat.add_0_r. split; [|dom|need].
  intros i s m C _. cbn [map row_acc]. destruct (t s) as [[s1 y]| |]; cbn [rbind fst snd]; [|reflexivity|reflexivity].
  rewrite load_ok by (apply C; cbn; auto). cbn [rbind].
  one_out C E (op (cell m (p + i)) y).
Qed.
Lemma r_map (t : S -> f32 -> res (S * f32)) a p :
  round (fun i s m => x <~ load m (a + 0 + i) ;; y <~ t s x ;; m <~ store m (p + 0 + i) (snd y) ;; Val (fst y, m)) [a] [p] (row_map t).
Proof.
  rewrite !Nat.add_0_r. split; [|dom|need].
  intros i s m C _. cbn [map row_map]. rewrite load_ok by (apply C; cbn; auto). cbn [rbind].
  destruct (t s (cell m (a + i))) as [[s1 y]| |]; cbn [rbind fst snd]; [|reflexivity|reflexivity].
  one_out C E y.
Qed.
Lemma r_map2 (t : S -> f32 -> f32 -> res (S * f32)) a b p :
  round (fun i s m => x <~ load m (a + 0 + i) ;; y <~ load m (b + 0 + i) ;; y <~ t s x y ;; m <~ store m (p + 0 + i) (snd y) ;; Val (fst y, m)) [a; b] [p] (row_map2 t).
Proof.
  rewrite !Nat.add_0_r. split; [|dom|need].
  intros i s m C _. cbn [map row_map2]. rewrite !load_ok by (apply C; cbn; auto). cbn [rbind].
  destruct (t s (cell m (a + i)) (cell m (b + i))) as [[s1 y]| |]; cbn [rbind fst snd]; [|reflexivity|reflexivity].
  one_out C E y.
Qed.

(** Two stores to different places. *)
Lemma two_out (s1 : S) m l r x y : NoDup [l; r] -> forall i, m (l + i) <> None -> m (r + i) <> None ->
  exists m1 m2, store m (l + i) x = Val m1 /\ store m1 (r + i) y = Val m2 /\ cell m1 (r + i) = cell m (r + i) /\ m1 (r + i) <> None /\
    (forall k b z, nth_error [l; r] k = Some b -> nth_error [x; y] k = Some z -> m2 (b + i) = Some z) /\
    (forall q, (forall b, In b [l; r] -> q <> b + i) -> m2 q = m q).
Proof.
  intros N i Hl Hr. destruct (store_ok m (l + i) x Hl) as [m1 W].
  assert (Hr1 : m1 (r + i) <> None) by (rewrite (store_dom _ _ _ _ W); exact Hr).
  destruct (store_ok m1 (r + i) y Hr1) as [m2 W']. exists m1, m2.
  split; [exact W|]. split; [exact W'|].
  apply store_val in W. destruct W as (_ & A1 & A2). apply store_val in W'. destruct W' as (_ & B1 & B2).
  assert (D : l <> r) by (inversion N as [|? ? H ?]; subst; intros ->; apply H; left; reflexivity).
  split; [unfold cell; rewrite A2 by lia; reflexivity|]. split; [exact Hr1|]. split.
  - intros [|[|[|k]]] b z Eb Ez; cbn in Eb, Ez; try discriminate; injection Eb as <-; injection Ez as <-; [rewrite B2 by lia|]; assumption.
  - intros q Hq. rewrite B2, A2; [reflexivity| |]; apply Hq; cbn; auto.
Qed.
Ltac two C N s1 m l r x y i :=
  destruct (two_out s1 m l r x y N i) as (m1 & m2 & W & W' & _ & _ & P & Q); [apply C; cbn; auto|apply C; cbn; auto|];
  rewrite W; cbn [rbind]; rewrite W'; cbn [rbind]; split; [reflexivity|]; exists m2; split; [reflexivity|exact (conj P Q)].
Lemma r_set2 (t : S -> res (S * (f32 * f32))) l r :
  round (fun i s m => x <~ t s ;; m <~ store m (l + 0 + i) (fst (snd x)) ;; m <~ store m (r + 0 + i) (snd (snd x)) ;; Val (fst x, m)) [] [l; r] (row_set2 t).
Proof.
  rewrite !Nat.add_0_r. split; [|dom|need].
  intros i s m C N. cbn [map row_set2]. destruct (t s) as [[s1 [x y]]| |]; cbn [rbind fst snd]; [|reflexivity|reflexivity].
  two C N s1 m l r x y i.
Qed.
Lemma r_split (t : S -> f32 -> res (S * (f32 * f32))) a l r :
  round (fun i s m => x <~ load m (a + 0 + i) ;; x <~ t s x ;; m <~ store m (l + 0 + i) (fst (snd x)) ;; m <~ store m (r + 0 + i) (snd (snd x)) ;; Val (fst x, m)) [a] [l; r] (row_split t).
Proof.
  rewrite !Nat.add_0_r. split; [|dom|need].
  intros i s m C N. cbn [map row_split]. rewrite load_ok by (apply C; cbn; auto). cbn [rbind].
  destruct (t s (cell m (a + i))) as [[s1 [x y]]| |]; cbn [rbind fst snd]; [|reflexivity|reflexivity].
  two C N s1 m l r x y i.
Qed.
Lemma r_stereo (t : S -> f32 * f32 -> res (S * (f32 * f32))) l r :
  round (fun i s m => x <~ load m (l + 0 + i) ;; y <~ load m (r + 0 + i) ;; x <~ t s (x, y) ;;
    m <~ store m (l + 0 + i) (fst (snd x)) ;; m <~ store m (r + 0 + i) (snd (snd x)) ;; Val (fst x, m)) [l; r] [l; r] (row_stereo t).
Proof.
  rewrite !Nat.add_0_r. split; [|dom|need].
  intros i s m C N. cbn [map row_stereo]. rewrite !load_ok by (apply C; cbn; auto). cbn [rbind].
  destruct (t s (cell m (l + i), cell m (r + i))) as [[s1 [x y]]| |]; cbn [rbind fst snd]; [|reflexivity|reflexivity].
  two C N s1 m l r x y i.
Qed.
Lemma r_acc2 op (t : S -> res (S * (f32 * f32))) l r :
  round (fun i s m => x <~ t s ;; a <~ load m (l + 0 + i) ;; m <~ store m (l + 0 + i) (op a (fst (snd x))) ;;
    b <~ load m (r + 0 + i) ;; m <~ store m (r + 0 + i) (op b (snd (snd x))) ;; Val (fst x, m)) [l; r] [l; r] (row_acc2 op t).
Proof.
  rewrite !Nat.add_0_r. split; [|dom|need].
  intros i s m C N. cbn [map row_acc2]. destruct (t s) as [[s1 [x y]]| |]; cbn [rbind fst snd]; [|reflexivity|reflexivity].
  rewrite load_ok by (apply C; cbn; auto). cbn [rbind].
  destruct (two_out s1 m l r (op (cell m (l + i)) x) (op (cell m (r + i)) y) N i) as (m1 & m2 & W & W' & V & H & P & Q); [apply C; cbn; auto|apply C; cbn; auto|].
  rewrite W. cbn [rbind]. rewrite load_ok, V by exact H. cbn [rbind]. rewrite W'. cbn [rbind]. split; [reflexivity|]. exists m2. split; [reflexivity|exact (conj P Q)].
Qed.

Lemma b_set (t : S -> res (S * f32)) p : is_block (fun d => loop_set t (p + d)) [] [p] (row_set t).
Proof.
  apply (block_ok _ (fun d i s m => x <~ t s ;; m <~ store m (p + d + i) (snd x) ;; Val (fst x, m))); [reflexivity| |apply r_set].
  intros d j s m. now rewrite Nat.add_0_r, Nat.add_assoc.
Qed.
Lemma b_acc op (t : S -> res (S * f32)) p : is_block (fun d => loop_acc op t (p + d)) [p] [p] (row_acc op t).
Proof.
  apply (block_ok _ (fun d i s m => x <~ t s ;; old <~ load m (p + d + i) ;; m <~ store m (p + d + i) (op old (snd x)) ;; Val (fst x, m))); [reflexivity| |apply r_acc].
  intros d j s m. now rewrite Nat.add_0_r, Nat.add_assoc.
Qed.
Lemma b_map (t : S -> f32 -> res (S * f32)) a p : is_block (fun d => loop_map t (a + d) (p + d)) [a] [p] (row_map t).
Proof.
  apply (block_ok _ (fun d i s m => x <~ load m (a + d + i) ;; y <~ t s x ;; m <~ store m (p + d + i) (snd y) ;; Val (fst y, m))); [reflexivity| |apply r_map].
  intros d j s m. now rewrite !Nat.add_0_r, !Nat.add_assoc.
Qed.
Lemma b_map2 (t : S -> f32 -> f32 -> res (S * f32)) a b p : is_block (fun d => loop_map2 t (a + d) (b + d) (p + d)) [a; b] [p] (row_map2 t).
Proof.
  apply (block_ok _ (fun d i s m => x <~ load m (a + d + i) ;; y <~ load m (b + d + i) ;; y <~ t s x y ;; m <~ store m (p + d + i) (snd y) ;; Val (fst y, m))); [reflexivity| |apply r_map2].
  intros d j s m. now rewrite !Nat.add_0_r, !Nat.add_assoc.
Qed.
Lemma b_set2 (t : S -> res (S * (f32 * f32))) l r : is_block (fun d => loop_set2 t (l + d) (r + d)) [] [l; r] (row_set2 t).
Proof.
  apply (block_ok _ (fun d i s m => x <~ t s ;; m <~ store m (l + d + i) (fst (snd x)) ;; m <~ store m (r + d + i) (snd (snd x)) ;; Val (fst x, m))); [reflexivity| |apply r_set2].
  intros d j s m. now rewrite !Nat.add_0_r, !Nat.add_assoc.
Qed.
Lemma b_split (t : S -> f32 -> res (S * (f32 * f32))) a l r : is_block (fun d => loop_split t (a + d) (l + d) (r + d)) [a] [l; r] (row_split t).
Proof.
  apply (block_ok _ (fun d i s m => x <~ load m (a + d + i) ;; x <~ t s x ;; m <~ store m (l + d + i) (fst (snd x)) ;; m <~ store m (r + d + i) (snd (snd x)) ;; Val (fst x, m))); [reflexivity| |apply r_split].
  intros d j s m. now rewrite !Nat.add_0_r, !Nat.add_assoc.
Qed.
Lemma b_stereo (t : S -> f32 * f32 -> res (S * (f32 * f32))) l r : is_block (fun d => loop_stereo t (l + d) (r + d)) [l; r] [l; r] (row_stereo t).
Proof.
  apply (block_ok _ (fun d i s m => x <~ load m (l + d + i) ;; y <~ load m (r + d + i) ;; x <~ t s (x, y) ;;
    m <~ store m (l + d + i) (fst (snd x)) ;; m <~ store m (r + d + i) (snd (snd x)) ;; Val (fst x, m))); [reflexivity| |apply r_stereo].
  intros d j s m. now rewrite !Nat.add_0_r, !Nat.add_assoc.
Qed.
Lemma b_acc2 op (t : S -> res (S * (f32 * f32))) l r : is_block (fun d => loop_acc2 op t (l + d) (r + d)) [l; r] [l; r] (row_acc2 op t).
Proof.
  apply (block_ok _ (fun d i s m => x <~ t s ;; a <~ load m (l + d + i) ;; m <~ store m (l + d + i) (op a (fst (snd x))) ;;
    b <~ load m (r + d + i) ;; m <~ store m (r + d + i) (op b (snd (snd x))) ;; Val (fst x, m))); [reflexivity| |apply r_acc2].
  intros d j s m. now rewrite !Nat.add_0_r, !Nat.add_assoc.
Qed.
End Each.
