(** Model of include/subcollider/BufferAllocator.h and
    include/subcollider/Buffer.h.

    Pointers into the allocator's pool are offsets; a pointer is null, into
    the pool, or foreign (points outside the pool).  [size_t] values are
    integers in [0,2^64), every arithmetic operation on them is written with
    its wrap-around.  [None] is undefined behaviour (an access outside an
    array). *)
From Coq Require Import ZArith Bool List Lia.
From Verif Require Import Flt.
Import ListNotations.
Local Open Scope Z_scope.

(** BufferAllocator.h:296-300 [struct Block]. *)
Record block := Block { b_off : Z; b_size : Z; b_used : bool }.

(** A [Sample*]: null, [&pool_[off]], or somewhere outside the pool. *)
Inductive ptr := PNull | PPool (off : Z) | PForeign.

(** Buffer.h:34-45 [struct Buffer]. *)
Record buffer := Buffer { data : ptr; channels : Z; bufRate : f32; numSamples : Z }.

(** types.h:24 DEFAULT_SAMPLE_RATE = 48000.0f *)
Definition DEFAULT_SR : f32 := fofZ 48000.

(** Buffer.h:48-52: default constructor. *)
Definition buffer0 : buffer := Buffer PNull 1 DEFAULT_SR 0.

(** Buffer.h:71-73 [isValid]. *)
Definition isValid (b : buffer) : bool :=
  match data b with PNull => false | _ => true end
  && (0 <? numSamples b) && ((channels b =? 1) || (channels b =? 2)).

(** Fixed-size C arrays: reads and writes outside are undefined. *)
Fixpoint aset {A} (l : list A) (i : nat) (x : A) : option (list A) :=
  match l, i with
  | [], _ => None
  | _ :: t, O => Some (x :: t)
  | h :: t, S i' => match aset t i' x with Some t' => Some (h :: t') | None => None end
  end.
Definition aget {A} (l : list A) (i : nat) : option A := nth_error l i.

Definition bind {A B} (x : option A) (f : A -> option B) : option B :=
  match x with Some a => f a | None => None end.
Notation "x <- e ;; f" := (bind e (fun x => f)) (at level 61, e at next level, right associativity).

(** BufferAllocator.h:325-329: data members. [blocks] is the array
    [blocks_[MaxBlocks]], [pool] the array [pool_[PoolSamples]]
    (a function; every model access checks 0 <= i < PoolSamples). *)
Record astate := AState {
  pool : Z -> f32;
  blocks : list block;
  srate : f32;
  bcount : nat;
  inited : bool }.

Section Allocator.
  (** Template parameters PoolSamples and MaxBlocks (BufferAllocator.h:51). *)
  Variable P : Z.

  (** BufferAllocator.h:55-59: constructor.  The arrays start with
      indeterminate contents [garbage] and [gpool]. *)
  Definition construct (garbage : list block) (gpool : Z -> f32) : astate :=
    AState gpool garbage DEFAULT_SR 0 false.

  (** BufferAllocator.h:68-78 [init]. *)
  Definition init (st : astate) (sr : f32) : option astate :=
    bs <- aset (blocks st) 0 (Block 0 P false) ;;
    Some (AState (fun i => if (0 <=? i) && (i <? P) then fzero else pool st i) bs sr 1 true).

  (** BufferAllocator.h:97-99: first-fit search, [i] from [0] to [blockCount_ - 1]. *)
  Fixpoint find_fit (bs : list block) (need : Z) (i todo : nat) : option (option nat) :=
    match todo with
    | O => Some None
    | S todo' =>
        b <- aget bs i ;;
        if negb (b_used b) && (need <=? b_size b) then Some (Some i)
        else find_fit bs need (S i) todo'
    end.

  (** BufferAllocator.h:110-112: [for (j = blockCount_; j > i + 1; --j) blocks_[j] = blocks_[j-1]];
      [todo] = [j - (i + 1)]. *)
  Fixpoint shift_up (bs : list block) (i todo : nat) : option (list block) :=
    match todo with
    | O => Some bs
    | S todo' =>
        b <- aget bs (i + 1 + todo') ;;
        bs' <- aset bs (i + 1 + todo) b ;;
        shift_up bs' i todo'
    end.

  (** BufferAllocator.h:89-125 [allocate]. *)
  Definition allocate (st : astate) (n ch : Z) : option (astate * buffer) :=
    if negb (inited st) || (n =? 0) || (negb (ch =? 1) && negb (ch =? 2)) then
      Some (st, buffer0)
    else
      let need := wrap64 (n * ch) in
      r <- find_fit (blocks st) need 0 (bcount st) ;;
      match r with
      | None => Some (st, buffer0)
      | Some i =>
          b <- aget (blocks st) i ;;
          let offset := b_off b in
          let remaining := wrap64 (b_size b - need) in
          bs' <-
            (if (0 <? remaining) && (bcount st <? length (blocks st))%nat then
               bs1 <- aset (blocks st) i (Block offset need true) ;;
               bs2 <- shift_up bs1 i (bcount st - (i + 1)) ;;
               bs3 <- aset bs2 (i + 1) (Block (wrap64 (offset + need)) remaining false) ;;
               Some (bs3, S (bcount st))
             else
               bs1 <- aset (blocks st) i (Block offset (b_size b) true) ;;
               Some (bs1, bcount st)) ;;
          if (0 <=? offset) && (offset <? P) then
            Some (AState (pool st) (fst bs') (srate st) (snd bs') (inited st),
                  Buffer (PPool offset) ch (srate st) n)
          else None
      end.

  (** BufferAllocator.h:314-316: [for (j = i+1; j < blockCount_-1; ++j) blocks_[j] = blocks_[j+1]]. *)
  Fixpoint shift_down (bs : list block) (j todo : nat) : option (list block) :=
    match todo with
    | O => Some bs
    | S todo' =>
        b <- aget bs (j + 1) ;;
        bs' <- aset bs j b ;;
        shift_down bs' (S j) todo'
    end.

  (** BufferAllocator.h:307-322: the [while (i < blockCount_ - 1)] loop.  The
      fuel is [blockCount_ - 1 - i], which drops by one in either branch, so
      the fuel runs out exactly when the loop condition fails. *)
  Fixpoint merge_loop (bs : list block) (cnt i fuel : nat) : option (list block * nat) :=
    match fuel with
    | O => Some (bs, cnt)
    | S fuel' =>
        a <- aget bs i ;;
        b <- aget bs (i + 1) ;;
        if negb (b_used a) && negb (b_used b) then
          bs1 <- aset bs i (Block (b_off a) (wrap64 (b_size a + b_size b)) (b_used a)) ;;
          bs2 <- shift_down bs1 (i + 1) (cnt - 1 - (i + 1)) ;;
          merge_loop bs2 (cnt - 1) i fuel'
        else merge_loop bs cnt (S i) fuel'
    end.

  (** BufferAllocator.h:303-323 [mergeAdjacentFreeBlocks]. *)
  Definition merge_adjacent (bs : list block) (cnt : nat) : option (list block * nat) :=
    if (cnt <=? 1)%nat then Some (bs, cnt) else merge_loop bs cnt 0 (cnt - 1).

  (** BufferAllocator.h:151-157: search for the used block at [offset]. *)
  Fixpoint find_used (bs : list block) (offset : Z) (i todo : nat) : option (option nat) :=
    match todo with
    | O => Some None
    | S todo' =>
        b <- aget bs i ;;
        if (b_off b =? offset) && b_used b then Some (Some i)
        else find_used bs offset (S i) todo'
    end.

  (** BufferAllocator.h:136-160 [release].  The comparison of a foreign
      pointer with the pool bounds is taken to fail (flat address space). *)
  Definition release (st : astate) (p : ptr) : option (astate * bool) :=
    if negb (inited st) then Some (st, false)
    else match p with
    | PNull | PForeign => Some (st, false)
    | PPool offset =>
        if (offset <? 0) || (P <=? offset) then Some (st, false)
        else
          r <- find_used (blocks st) offset 0 (bcount st) ;;
          match r with
          | None => Some (st, false)
          | Some i =>
              b <- aget (blocks st) i ;;
              bs1 <- aset (blocks st) i (Block (b_off b) (b_size b) false) ;;
              m <- merge_adjacent bs1 (bcount st) ;;
              Some (AState (pool st) (fst m) (srate st) (snd m) (inited st), true)
          end
    end.

  (** BufferAllocator.h:248-256 [freeSpace] (size_t sum). *)
  Definition freeSpace (st : astate) : Z :=
    fold_left (fun acc b => if b_used b then acc else wrap64 (acc + b_size b))
      (firstn (bcount st) (blocks st)) 0.

  (** BufferAllocator.h:262-264 [usedSpace]. *)
  Definition usedSpace (st : astate) : Z := wrap64 (P - freeSpace st).

  (** BufferAllocator.h:280-284 [reset]. *)
  Definition reset (st : astate) : option astate :=
    if inited st then init st (srate st) else Some st.

  (** ** Sample memory.  [base] is the pool offset of [buf.data]. *)

  Definition pget (m : Z -> f32) (i : Z) : option f32 :=
    if (0 <=? i) && (i <? P) then Some (m i) else None.
  Definition pset (m : Z -> f32) (i : Z) (x : f32) : option (Z -> f32) :=
    if (0 <=? i) && (i <? P) then Some (fun k => if k =? i then x else m k) else None.

  (** Source arrays passed by the caller: reading past their end is undefined.
      Simplification: a source array does not overlap the pool. *)
  Definition sget (src : list f32) (i : Z) : option f32 :=
    if i <? 0 then None else nth_error src (Z.to_nat i).

  (** BufferAllocator.h:177-180: copy loop [buf.data[i] = data[i]] for [i < todo]. *)
  Fixpoint copy_loop (m : Z -> f32) (base : Z) (src : list f32) (i : Z) (todo : nat) : option (Z -> f32) :=
    match todo with
    | O => Some m
    | S t => x <- sget src i ;; m' <- pset m (base + i) x ;; copy_loop m' base src (i + 1) t
    end.

  (** BufferAllocator.h:200-204: interleaving copy loop. *)
  Fixpoint copy2_loop (m : Z -> f32) (base : Z) (l r : list f32) (i : Z) (todo : nat) : option (Z -> f32) :=
    match todo with
    | O => Some m
    | S t =>
        x <- sget l i ;; m1 <- pset m (base + wrap64 (i * 2)) x ;;
        y <- sget r i ;; m2 <- pset m1 (base + wrap64 (wrap64 (i * 2) + 1)) y ;;
        copy2_loop m2 base l r (i + 1) t
    end.

  (** BufferAllocator.h:172-182 [fillMono].  [src = None] is a null pointer.
      Only buffers that point into the pool are modelled ([PForeign] memory
      is outside the model and reported as [None]). *)
  Definition fillMono (m : Z -> f32) (b : buffer) (src : option (list f32)) (count : Z)
    : option ((Z -> f32) * bool) :=
    match src with
    | Some s =>
        if isValid b && (channels b =? 1) then
          match data b with
          | PPool base =>
              let toCopy := if count <? numSamples b then count else numSamples b in
              m' <- copy_loop m base s 0 (Z.to_nat toCopy) ;; Some (m', true)
          | _ => None
          end
        else Some (m, false)
    | None => Some (m, false)
    end.

  (** BufferAllocator.h:195-206 [fillStereo]. *)
  Definition fillStereo (m : Z -> f32) (b : buffer) (left right : option (list f32)) (count : Z)
    : option ((Z -> f32) * bool) :=
    match left, right with
    | Some l, Some r =>
        if isValid b && (channels b =? 2) then
          match data b with
          | PPool base =>
              let toCopy := if count <? numSamples b then count else numSamples b in
              m' <- copy2_loop m base l r 0 (Z.to_nat toCopy) ;; Some (m', true)
          | _ => None
          end
        else Some (m, false)
    | _, _ => Some (m, false)
    end.

  (** BufferAllocator.h:215-226 [fillStereoInterleaved]. *)
  Definition fillStereoInterleaved (m : Z -> f32) (b : buffer) (src : option (list f32)) (count : Z)
    : option ((Z -> f32) * bool) :=
    match src with
    | Some s =>
        if isValid b && (channels b =? 2) then
          match data b with
          | PPool base =>
              let toCopy := if count <? numSamples b then count else numSamples b in
              let floats := wrap64 (toCopy * 2) in
              m' <- copy_loop m base s 0 (Z.to_nat floats) ;; Some (m', true)
          | _ => None
          end
        else Some (m, false)
    | None => Some (m, false)
    end.

  (** Buffer.h:107-112 [getSample]. *)
  Definition getSample (m : Z -> f32) (b : buffer) (index : Z) : option f32 :=
    match data b with
    | PNull => Some fzero
    | PForeign => if numSamples b <=? index then Some fzero else None
    | PPool base =>
        if numSamples b <=? index then Some fzero
        else pget m (base + wrap64 (index * channels b))
    end.

  (** Buffer.h:122-131 [getStereoSample]. *)
  Definition getStereoSample (m : Z -> f32) (b : buffer) (index : Z) : option (f32 * f32) :=
    match data b with
    | PNull => Some (fzero, fzero)
    | PForeign => if numSamples b <=? index then Some (fzero, fzero) else None
    | PPool base =>
        if numSamples b <=? index then Some (fzero, fzero)
        else if channels b =? 1 then x <- pget m (base + index) ;; Some (x, x)
        else
          let i := wrap64 (index * 2) in
          l <- pget m (base + i) ;; r <- pget m (base + wrap64 (i + 1)) ;; Some (l, r)
    end.

  (** ** Client histories: one constructor per public call. *)
  Inductive op :=
  | OInit (sr : f32)
  | OReset
  | OAlloc (n ch : Z)
  | ORelease (p : ptr)
  | OFillMono (b : buffer) (src : option (list f32)) (count : Z)
  | OFillStereo (b : buffer) (l r : option (list f32)) (count : Z)
  | OFillInter (b : buffer) (src : option (list f32)) (count : Z).

  Inductive out :=
  | RUnit
  | RBuffer (b : buffer)
  | RBool (b : bool).

  Definition setpool (st : astate) (m : Z -> f32) : astate :=
    AState m (blocks st) (srate st) (bcount st) (inited st).

  Definition step (st : astate) (o : op) : option (astate * out) :=
    match o with
    | OInit sr => st' <- init st sr ;; Some (st', RUnit)
    | OReset => st' <- reset st ;; Some (st', RUnit)
    | OAlloc n ch => r <- allocate st n ch ;; Some (fst r, RBuffer (snd r))
    | ORelease p => r <- release st p ;; Some (fst r, RBool (snd r))
    | OFillMono b s c => r <- fillMono (pool st) b s c ;; Some (setpool st (fst r), RBool (snd r))
    | OFillStereo b l r c => x <- fillStereo (pool st) b l r c ;; Some (setpool st (fst x), RBool (snd x))
    | OFillInter b s c => r <- fillStereoInterleaved (pool st) b s c ;; Some (setpool st (fst r), RBool (snd r))
    end.
End Allocator.
