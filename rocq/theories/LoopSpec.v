(** What double buffering means, stated on the steps alone. *)
From Coq Require Import ZArith Bool List.
From Verif Require Import Flt AllocModel LoopModel.
Import ListNotations.

(** The writer stores only through the pointer it fetched since the last
    swap or init, and only inside the block of [N] samples.  Loads are
    unconstrained in this predicate. *)
Fixpoint writer_ok (N : nat) (held : option side) (tr : list (lop * lres)) : Prop :=
  match tr with
  | [] => True
  | (LFetchP, RPtr p) :: t => writer_ok N (Some p) t
  | (LSwap, _) :: t | (LInit _, _) :: t => writer_ok N None t
  | (LStore p i _, _) :: t => held = Some p /\ (i < N)%nat /\ writer_ok N held t
  | _ :: t => writer_ok N held t
  end.

(** The sequential meaning: (block being prepared, block on show). *)
Definition upd (l : list f32) (i : nat) (x : f32) : list f32 :=
  firstn i l ++ x :: skipn (S i) l.
Definition silence (N : nat) : list f32 := repeat fzero N.
Definition sem (N : nat) (bf : list f32 * list f32) (o : lop) : list f32 * list f32 :=
  let (back, front) := bf in
  match o with
  | LInit _ => (silence N, silence N)
  | LStore _ i x => (upd back i x, front)
  | LClear => (silence N, front)
  | LSwap => (front, back)
  | LFetchP | LFetchO | LLoad _ _ => (back, front)
  end.
Definition sems (N : nat) (ops : list lop) : list f32 * list f32 :=
  fold_left (sem N) ops (silence N, silence N).

(** A loop object whose [init] has run. *)
Definition started (N : nat) (st : lstate) : Prop :=
  exists s0 sr, length (bufA s0) = N /\ length (bufB s0) = N /\ st = loop_init s0 sr.

(** Contents seen through a pointer. *)
Definition shows (st : lstate) (p : side) (l : list f32) : Prop :=
  forall i, load st p i = nth_error l i.

(** Steps taken after the output pointer was fetched that cannot reach the
    memory behind it: the writer is on the other side exactly while an even
    number of swaps has happened since. *)
Fixpoint undisturbed (odd : bool) (ops : list lop) : Prop :=
  match ops with
  | [] => True
  | LStore _ _ _ :: t | LClear :: t => odd = false /\ undisturbed odd t
  | LSwap :: t => undisturbed (negb odd) t
  | LInit _ :: _ => False
  | _ :: t => undisturbed odd t
  end.
Definition no_swap (o : lop) : Prop := match o with LSwap | LInit _ => False | _ => True end.

(** Storing a whole block through a pointer, sample by sample. *)
Definition stores (p : side) (xs : list f32) : list lop :=
  map (fun ix => LStore p (fst ix) (snd ix)) (combine (seq 0 (length xs)) xs).
