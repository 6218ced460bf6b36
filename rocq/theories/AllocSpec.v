(** What a client of BufferAllocator can observe and relies on.  Nothing here
    mentions the block table: the specification only looks at the calls made
    and the values returned. *)
From Coq Require Import ZArith Bool List Lia.
From Verif Require Import Flt AllocModel.
Import ListNotations.
Local Open Scope Z_scope.

(** A region [start, start+len) of the pool. *)
Definition region : Type := Z * Z.

Definition disjoint (a b : region) : Prop :=
  fst a + snd a <= fst b \/ fst b + snd b <= fst a.

Definition inside (P : Z) (a : region) : Prop :=
  0 <= fst a /\ 0 < snd a /\ fst a + snd a <= P.

Definition covers (a : region) (i : Z) : Prop := fst a <= i < fst a + snd a.

(** The buffers currently handed out, computed from calls and answers only:
    a successful allocate adds the requested region, a successful release
    removes the region starting at the released pointer, init/reset forget all. *)
Definition live_step (L : list region) (o : op) (r : out) : list region :=
  match o, r with
  | OInit _, _ => []
  | OReset, _ => []
  | OAlloc n ch, RBuffer b =>
      match data b with PPool off => (off, n * ch) :: L | _ => L end
  | ORelease (PPool off), RBool true => filter (fun a => negb (fst a =? off)) L
  | _, _ => L
  end.

(** Running a history from a state, with the set of live regions. *)
Fixpoint run (P : Z) (st : astate) (L : list region) (ops : list op)
  : option (astate * list region) :=
  match ops with
  | [] => Some (st, L)
  | o :: t =>
      r <- step P st o ;; run P (fst r) (live_step L o (snd r)) t
  end.

(** Argument ranges of the C++ types, and no overflow of numSamples*channels. *)
Definition args_ok (o : op) : Prop :=
  match o with
  | OAlloc n ch => 0 <= n /\ 0 <= ch < 256 /\ n * ch < 2 ^ 64
  | _ => True
  end.

(** The client contract for fills: the destination is a live pool buffer and the
    source arrays are long enough for the frames that will be copied.
    Returns [true]-able conditions only for calls that pass the guards. *)
Definition frames (b : buffer) (count : Z) : Z := Z.min count (numSamples b).
Definition long_enough (s : option (list f32)) (n : Z) : Prop :=
  match s with Some l => n <= Z.of_nat (length l) | None => True end.
Definition live_buffer (L : list region) (b : buffer) : Prop :=
  match data b with
  | PNull => True
  | PForeign => False
  | PPool off => In (off, numSamples b * channels b) L
  end.
Definition client_ok (L : list region) (o : op) : Prop :=
  args_ok o /\
  match o with
  | OFillMono b s c => live_buffer L b /\ 0 <= c < 2 ^ 64 /\ long_enough s (frames b c)
  | OFillStereo b l r c =>
      live_buffer L b /\ 0 <= c < 2 ^ 64 /\ long_enough l (frames b c) /\ long_enough r (frames b c)
  | OFillInter b s c => live_buffer L b /\ 0 <= c < 2 ^ 64 /\ long_enough s (2 * frames b c)
  | _ => True
  end.

(** A history in which every call respects the contract. *)
Fixpoint history_ok (P : Z) (st : astate) (L : list region) (ops : list op) : Prop :=
  match ops with
  | [] => True
  | o :: t =>
      client_ok L o /\
      forall st' r, step P st o = Some (st', r) -> history_ok P st' (live_step L o r) t
  end.

(** Pool cells reserved for clients in a state.  Which cells are reserved is an
    observable: exactly these can not be obtained by a further allocate. *)
Definition reserved (st : astate) (a : region) : Prop :=
  inited st = true /\ In (Block (fst a) (snd a) true) (firstn (bcount st) (blocks st)).
Definition free_cell (P : Z) (st : astate) (i : Z) : Prop :=
  inited st = true /\ 0 <= i < P /\ forall a, reserved st a -> ~ covers a i.
(** [n] consecutive free cells from [o]. *)
Definition free_run (P : Z) (st : astate) (o n : Z) : Prop :=
  0 <= o /\ o + n <= P /\ forall i, o <= i < o + n -> free_cell P st i.

(** States reachable from construction by contract-respecting histories. *)
Definition reachable (P : Z) (MB : nat) (st : astate) (L : list region) : Prop :=
  exists garbage gpool ops,
    length garbage = MB /\
    history_ok P (construct garbage gpool) [] ops /\
    run P (construct garbage gpool) [] ops = Some (st, L).

(** Histories in which the descriptor table has a free slot before every
    allocate (blockCount() < MaxBlocks). *)
Fixpoint roomy (P : Z) (MB : nat) (st : astate) (L : list region) (ops : list op) : Prop :=
  match ops with
  | [] => True
  | o :: t =>
      match o with OAlloc _ _ => (bcount st < MB)%nat | _ => True end /\
      forall st' r, step P st o = Some (st', r) -> roomy P MB st' (live_step L o r) t
  end.
Definition reachable_roomy (P : Z) (MB : nat) (st : astate) (L : list region) : Prop :=
  exists garbage gpool ops,
    length garbage = MB /\
    history_ok P (construct garbage gpool) [] ops /\
    roomy P MB (construct garbage gpool) [] ops /\
    run P (construct garbage gpool) [] ops = Some (st, L).

(** [n] consecutive pool cells that belong to no live region. *)
Definition unclaimed_run (P : Z) (L : list region) (o n : Z) : Prop :=
  0 <= o /\ o + n <= P /\ forall i a, o <= i < o + n -> In a L -> ~ covers a i.

Definition total (L : list region) : Z := fold_right Z.add 0 (map snd L).

(** A call answered with failure. *)
Definition failed (r : out) : Prop :=
  match r with RBuffer b => isValid b = false | RBool b => b = false | RUnit => False end.

(** The buffer handle a fill writes to. *)
Definition target (o : op) : option Z :=
  match o with
  | OFillMono b _ _ | OFillStereo b _ _ _ | OFillInter b _ _ =>
      match data b with PPool off => Some off | _ => None end
  | _ => None
  end.

(** Template arguments of any usable instantiation. *)
Definition params_ok (P : Z) (MB : nat) : Prop := 0 < P < 2 ^ 64 /\ (1 <= MB)%nat.

(** The sample rate a client expects on new buffers: that of the last init. *)
Definition rate_step (sr : f32) (o : op) : f32 := match o with OInit s => s | _ => sr end.
