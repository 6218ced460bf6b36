(** What a block-processing call must do, in terms of single ticks and of the memory before the call. *)
From Coq Require Import List Arith.
From Verif Require Import Flt Res BlkModel.
Import ListNotations.

(** The [Sample] in a cell; only used for cells that exist. *)
Definition cell (m : mem) (p : nat) : f32 := match m p with Some x => x | None => fzero end.
(** Successive ticks, each with its row of inputs: the final state and the rows of outputs. *)
Fixpoint feed {S} (tick : S -> list f32 -> res (S * list f32)) (s : S) (rows : list (list f32)) : res (S * list (list f32)) :=
  match rows with
  | [] => Val (s, [])
  | r :: rs => x <~ tick s r ;; y <~ feed tick (fst x) rs ;; Val (fst y, snd x :: snd y)
  end.
(** Row [j] (counted from [i]) of the input buffers before the call. *)
Definition rows (m : mem) (ins : list nat) (i n : nat) : list (list f32) := map (fun j => map (fun a => cell m (a + j)) ins) (seq i n).
(** Every buffer of the list has [n] samples from sample [i] on. *)
Definition room (m : mem) (bufs : list nat) (i n : nat) : Prop := forall b j, In b bufs -> i <= j < i + n -> m (b + j) <> None.
(** No output sample overwrites an input sample that a later round reads: the buffers are disjoint, or the same, or the output lies before the input. *)
Definition no_overwrite (ins outs : list nat) (i n : nat) : Prop := forall a b j k, In a ins -> In b outs -> i <= j -> j < k -> k < i + n -> b + j <> a + k.
(** Different output buffers do not overlap. *)
Definition apart (outs : list nat) (i n : nat) : Prop :=
  forall k k' b b' j j', nth_error outs k = Some b -> nth_error outs k' = Some b' -> k <> k' -> i <= j < i + n -> i <= j' < i + n -> b + j <> b' + j'.
(** The memory after the call: sample [i+j] of output buffer number [k] is the [k]-th output of tick [j], every other cell is as before. *)
Definition written (m : mem) (outs : list nat) (i : nat) (ys : list (list f32)) (m' : mem) : Prop :=
  (forall k b j row y, nth_error outs k = Some b -> nth_error ys j = Some row -> nth_error row k = Some y -> m' (b + (i + j)) = Some y) /\
  (forall q, (forall b j, In b outs -> j < length ys -> q <> b + (i + j)) -> m' q = m q).

(** A block call, [proc d n] being the call with all pointers advanced by [d] samples and length [n]:
    it is [n] ticks; a block of [n + k] samples is one of [n] and then one of [k] further on; buffers that are too short are undefined behaviour. *)
Definition is_block {S} (proc : nat -> nat -> S -> mem -> res (S * mem)) (ins outs : list nat) (tick : S -> list f32 -> res (S * list f32)) : Prop :=
  (forall n s m, room m ins 0 n -> room m outs 0 n -> no_overwrite ins outs 0 n -> apart outs 0 n ->
     match feed tick s (rows m ins 0 n) with
     | Val (s', ys) => length ys = n /\ Forall (fun row => length row = length outs) ys /\ exists m', proc 0 n s m = Val (s', m') /\ written m outs 0 ys m'
     | Undef => proc 0 n s m = Undef
     | Spin => proc 0 n s m = Spin
     end) /\
  (forall n k s m, proc 0 (n + k) s m = (x <~ proc 0 n s m ;; proc n k (fst x) (snd x))) /\
  (forall n s m b j, In b (ins ++ outs) -> j < n -> m (b + j) = None -> forall x, proc 0 n s m <> Val x).

(** Ticks by rows: no input and one output; the output combined with the sample already there; one input; two inputs; stereo outputs. *)
Section Rows.
Context {S : Type}.
Definition row_set (tick : S -> res (S * f32)) (s : S) (r : list f32) : res (S * list f32) :=
  match r with [] => t <~ tick s ;; Val (fst t, [snd t]) | _ => Undef end.
Definition row_acc (op : f32 -> f32 -> f32) (tick : S -> res (S * f32)) (s : S) (r : list f32) : res (S * list f32) :=
  match r with [x] => t <~ tick s ;; Val (fst t, [op x (snd t)]) | _ => Undef end.
Definition row_map (tick : S -> f32 -> res (S * f32)) (s : S) (r : list f32) : res (S * list f32) :=
  match r with [x] => t <~ tick s x ;; Val (fst t, [snd t]) | _ => Undef end.
Definition row_map2 (tick : S -> f32 -> f32 -> res (S * f32)) (s : S) (r : list f32) : res (S * list f32) :=
  match r with [x; y] => t <~ tick s x y ;; Val (fst t, [snd t]) | _ => Undef end.
Definition row_set2 (tick : S -> res (S * (f32 * f32))) (s : S) (r : list f32) : res (S * list f32) :=
  match r with [] => t <~ tick s ;; Val (fst t, [fst (snd t); snd (snd t)]) | _ => Undef end.
Definition row_acc2 (op : f32 -> f32 -> f32) (tick : S -> res (S * (f32 * f32))) (s : S) (r : list f32) : res (S * list f32) :=
  match r with [x; y] => t <~ tick s ;; Val (fst t, [op x (fst (snd t)); op y (snd (snd t))]) | _ => Undef end.
Definition row_split (tick : S -> f32 -> res (S * (f32 * f32))) (s : S) (r : list f32) : res (S * list f32) :=
  match r with [x] => t <~ tick s x ;; Val (fst t, [fst (snd t); snd (snd t)]) | _ => Undef end.
Definition row_stereo (tick : S -> f32 * f32 -> res (S * (f32 * f32))) (s : S) (r : list f32) : res (S * list f32) :=
  match r with [x; y] => t <~ tick s (x, y) ;; Val (fst t, [fst (snd t); snd (snd t)]) | _ => Undef end.
End Rows.
