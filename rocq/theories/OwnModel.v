(** Model of the memory that [FVerb] (ugens/FVerb.h, ugens/fverb/FVerb.cpp) and [CombC] (ugens/CombC.h) take with [new] and give back with [delete].
    A heap is a list of live blocks with never re-used names; giving back a block that is not live, using one, or looking at a pointer
    that was never set is an error ([Heap]). Calling a function of an object outside its life is another ([Life]).
    Sample values are left out (FvModel.v and CombModel.v have them); [new] is taken to succeed; sizes below 2^31 frames are meant for [compute]. *)
From Coq Require Import NArith Bool List.
Import ListNotations.

(** A pointer: null, never set, or to a block. *)
Inductive ptr := Null | Indet | At (b : nat).
(** What a block holds: a [FVerbDSP], a [Sample*[2]], a [Sample[n]], a [FVerbDSPSIG0]. *)
Inductive blk := Dsp | Ptrs (p0 p1 : ptr) | Smp (n : N) | Sig.
Definition heap := list (nat * blk).
Inductive err := Heap | Life.
Inductive out (A : Type) := Fine (a : A) | Wrong (e : err).
Arguments Fine {A}. Arguments Wrong {A}.
Definition bind {A B} (x : out A) (f : A -> out B) : out B := match x with Fine a => f a | Wrong e => Wrong e end.
Notation "x <~ m ;; k" := (bind m (fun x => k)) (at level 61, m at next level, right associativity).

(** The block named [b], if it is live. *)
Fixpoint look (h : heap) (b : nat) : option blk :=
  match h with [] => None | (c, v) :: t => if Nat.eqb c b then Some v else look t b end.
Fixpoint drop (h : heap) (b : nat) : heap :=
  match h with [] => [] | (c, v) :: t => if Nat.eqb c b then t else (c, v) :: drop t b end.
Fixpoint put (h : heap) (b : nat) (v : blk) : heap :=
  match h with [] => [] | (c, w) :: t => if Nat.eqb c b then (c, v) :: t else (c, w) :: put t b v end.
(** Memory: the next name and the live blocks. *)
Record mem := Mem { m_next : nat; m_live : heap }.
Definition m_new (m : mem) (v : blk) : ptr * mem := (At (m_next m), Mem (S (m_next m)) ((m_next m, v) :: m_live m)).
Definition same_kind (v w : blk) : bool :=
  match v, w with Dsp, Dsp | Ptrs _ _, Ptrs _ _ | Smp _, Smp _ | Sig, Sig => true | _, _ => false end.
(** Reading through a pointer. *)
Definition m_get (m : mem) (p : ptr) : out blk :=
  match p with At b => match look (m_live m) b with Some v => Fine v | None => Wrong Heap end | _ => Wrong Heap end.
(** [delete] or [delete[]] of the right form for [v]; nothing happens for null. *)
Definition m_del (m : mem) (p : ptr) (v : blk) : out mem :=
  match p with
  | Null => Fine m
  | Indet => Wrong Heap
  | At b => match look (m_live m) b with
            | Some w => if same_kind v w then Fine (Mem (m_next m) (drop (m_live m) b)) else Wrong Heap
            | None => Wrong Heap
            end
  end.
(** [if (p)]. *)
Definition m_test (p : ptr) : out bool := match p with Null => Fine false | Indet => Wrong Heap | At _ => Fine true end.

(** FVerb.h:139-142 and CombC.h:49, 64: the members that matter here. *)
Inductive obj := Verb (dsp inp outp : ptr) (cap : N) | Comb (buf : ptr).

(** The two pointers of a [Sample*[2]]. *)
Definition m_row (m : mem) (p : ptr) (i : bool) : out ptr :=
  v <~ m_get m p ;; match v with Ptrs a b => Fine (if i then b else a) | _ => Wrong Heap end.
Definition m_setrow (m : mem) (p : ptr) (i : bool) (q : ptr) : out mem :=
  v <~ m_get m p ;;
  match p, v with
  | At b, Ptrs x y => Fine (Mem (m_next m) (put (m_live m) b (if i then Ptrs x q else Ptrs q y)))
  | _, _ => Wrong Heap
  end.
(** FVerb.cpp:60-63 and 71-75: one row is given back and its pointer cleared. *)
Definition free_row (m : mem) (p : ptr) (i : bool) : out mem :=
  q <~ m_row m p i ;; t <~ m_test q ;;
  if t then m' <~ m_del m q (Smp 0) ;; m_setrow m' p i Null else Fine m.
(** FVerb.cpp:58-67 and 69-78. *)
Definition free_rows (m : mem) (p : ptr) : out mem :=
  t <~ m_test p ;;
  if t then m1 <~ free_row m p false ;; m2 <~ free_row m1 p true ;; m_del m2 p (Ptrs Null Null) else Fine m.
(** FVerb.cpp:57-81 [freeBuffers]. *)
Definition freeBuffers (m : mem) (i o : ptr) : out mem := m1 <~ free_rows m i ;; free_rows m1 o.
(** FVerb.cpp:47-52: row [r] of both arrays. The arrays themselves start with pointers that were never set. *)
Definition fill_rows (m : mem) (i o : ptr) (n : N) (r : bool) : out mem :=
  let (a, m1) := m_new m (Smp n) in
  m2 <~ m_setrow m1 i r a ;;
  let (b, m3) := m_new m2 (Smp n) in
  m_setrow m3 o r b.
(** FVerb.cpp:35-55 [allocateBuffers]; the answer is the memory, both arrays and the capacity. *)
Definition allocateBuffers (m : mem) (i o : ptr) (cap n : N) : out (mem * ptr * ptr * N) :=
  if (n <=? cap)%N then Fine (m, i, o, cap)
  else
    m1 <~ freeBuffers m i o ;;
    let (i', m2) := m_new m1 (Ptrs Indet Indet) in
    let (o', m3) := m_new m2 (Ptrs Indet Indet) in
    m4 <~ fill_rows m3 i' o' n false ;;
    m5 <~ fill_rows m4 i' o' n true ;;
    Fine (m5, i', o', n).
(** FVerb.cpp:92-100: [n] frames of row [r] of an array are touched. *)
Definition touch (m : mem) (p : ptr) (r : bool) (n : N) : out unit :=
  q <~ m_row m p r ;; v <~ m_get m q ;;
  match v with Smp k => if (n <=? k)%N then Fine tt else Wrong Heap | _ => Wrong Heap end.
(** A member function of the [FVerbDSP] is called: SetParamValue, instanceClear, compute. *)
Definition call_dsp (m : mem) (d : ptr) : out unit :=
  v <~ m_get m d ;; match v with Dsp => Fine tt | _ => Wrong Heap end.
(** FVerb.cpp:83-101 [process]. *)
Definition v_process (m : mem) (d i o : ptr) (cap n : N) : out (mem * obj) :=
  t <~ m_test d ;;
  if t then
    r <~ allocateBuffers m i o cap n ;;
    let '(m1, i1, o1, c1) := r in
    _ <~ touch m1 i1 false n ;; _ <~ touch m1 i1 true n ;;
    _ <~ call_dsp m1 d ;;
    _ <~ touch m1 o1 false n ;; _ <~ touch m1 o1 true n ;;
    Fine (m1, Verb d i1 o1 c1)
  else Fine (m, Verb d i o cap).
(** FVerb.cpp:14-33 [init]; FVerbDSP.h:338-343, 612-615: [classInit] makes a [FVerbDSPSIG0] and gives it back. *)
Definition v_init (m : mem) (d i o : ptr) (cap : N) : out (mem * obj) :=
  t <~ m_test d ;;
  m1 <~ (if t then m_del m d Dsp else Fine m) ;;
  let (d', m2) := m_new m1 Dsp in
  let (s, m3) := m_new m2 Sig in
  m4 <~ m_del m3 s Sig ;;
  _ <~ call_dsp m4 d' ;;
  Fine (m4, Verb d' i o cap).
(** FVerb.cpp:103-184: the setters and [reset]. *)
Definition v_call (m : mem) (d : ptr) : out unit := t <~ m_test d ;; if t then call_dsp m d else Fine tt.
(** FVerb.cpp:186-192 the destructor. *)
Definition v_del (m : mem) (d i o : ptr) : out mem :=
  m1 <~ freeBuffers m i o ;; t <~ m_test d ;; if t then m_del m1 d Dsp else Fine m1.
(** CombC.h:74-89 [init]: a line of [n] samples, the old pointer is overwritten. *)
Definition c_init (m : mem) (n : N) : out (mem * obj) := let (p, m1) := m_new m (Smp n) in Fine (m1, Comb p).
(** CombC.h:123-165 and 172-177: the line is read and written. *)
Definition c_tick (m : mem) (p : ptr) : out unit :=
  v <~ m_get m p ;; match v with Smp _ => Fine tt | _ => Wrong Heap end.
(** CombC.h:182-187 [reset]. *)
Definition c_reset (m : mem) (p : ptr) : out unit := t <~ m_test p ;; if t then c_tick m p else Fine tt.
(** CombC.h:93-98 the destructor. *)
Definition c_del (m : mem) (p : ptr) : out mem := t <~ m_test p ;; if t then m_del m p (Smp 0) else Fine m.

(** What a program does with objects it names by numbers. [NewComb k true] is an object of static storage or value-initialised ([CombC c{}]),
    whose members start as zero; [NewComb k false] is a plain [CombC c;]. Neither class declares copy operations, so copies take the members over. *)
Inductive op :=
| NewVerb (k : nat) | VInit (k : nat) | VProcess (k : nat) (n : N) | VSet (k : nat)
| NewComb (k : nat) (zeroed : bool) | CInit (k : nat) (n : N) | CTick (k : nat) | CReset (k : nat)
| Destroy (k : nat) | Copy (k j : nat) | Assign (k j : nat).

Record world := World { w_mem : mem; w_objs : list (nat * obj) }.
Definition empty_world := World (Mem 0 []) [].
Fixpoint find {A} (l : list (nat * A)) (k : nat) : option A :=
  match l with [] => None | (c, v) :: t => if Nat.eqb c k then Some v else find t k end.
Fixpoint del {A} (l : list (nat * A)) (k : nat) : list (nat * A) :=
  match l with [] => [] | (c, v) :: t => if Nat.eqb c k then t else (c, v) :: del t k end.
Fixpoint upd {A} (l : list (nat * A)) (k : nat) (v : A) : list (nat * A) :=
  match l with [] => [] | (c, w) :: t => if Nat.eqb c k then (c, v) :: t else (c, w) :: upd t k v end.

Definition fresh (w : world) (k : nat) (o : obj) : out world :=
  match find (w_objs w) k with Some _ => Wrong Life | None => Fine (World (w_mem w) ((k, o) :: w_objs w)) end.
Definition keep (w : world) (x : out unit) : out world := _ <~ x ;; Fine w.
Definition set (w : world) (k : nat) (x : out (mem * obj)) : out world :=
  r <~ x ;; Fine (World (fst r) (upd (w_objs w) k (snd r))).
Definition step (w : world) (x : op) : out world :=
  let m := w_mem w in
  match x with
  | NewVerb k => fresh w k (Verb Null Null Null 0)
  | NewComb k z => fresh w k (Comb (if z then Null else Indet))
  | VInit k => match find (w_objs w) k with Some (Verb d i o c) => set w k (v_init m d i o c) | _ => Wrong Life end
  | VProcess k n => match find (w_objs w) k with Some (Verb d i o c) => set w k (v_process m d i o c n) | _ => Wrong Life end
  | VSet k => match find (w_objs w) k with Some (Verb d _ _ _) => keep w (v_call m d) | _ => Wrong Life end
  | CInit k n => match find (w_objs w) k with Some (Comb _) => set w k (c_init m n) | _ => Wrong Life end
  | CTick k => match find (w_objs w) k with Some (Comb p) => keep w (c_tick m p) | _ => Wrong Life end
  | CReset k => match find (w_objs w) k with Some (Comb p) => keep w (c_reset m p) | _ => Wrong Life end
  | Destroy k =>
      match find (w_objs w) k with
      | Some (Verb d i o _) => m' <~ v_del m d i o ;; Fine (World m' (del (w_objs w) k))
      | Some (Comb p) => m' <~ c_del m p ;; Fine (World m' (del (w_objs w) k))
      | None => Wrong Life
      end
  | Copy k j =>
      match find (w_objs w) j with
      | Some (Comb Indet) => Wrong Heap
      | Some o => fresh w k o
      | None => Wrong Life
      end
  | Assign k j =>
      match find (w_objs w) k, find (w_objs w) j with
      | Some (Comb _), Some (Comb Indet) => Wrong Heap
      | Some (Verb _ _ _ _), Some (Verb d i o c) => Fine (World m (upd (w_objs w) k (Verb d i o c)))
      | Some (Comb _), Some (Comb p) => Fine (World m (upd (w_objs w) k (Comb p)))
      | _, _ => Wrong Life
      end
  end.
Fixpoint run (w : world) (xs : list op) : out world :=
  match xs with [] => Fine w | x :: t => w' <~ step w x ;; run w' t end.
