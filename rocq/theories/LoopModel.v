(** Model of include/subcollider/AudioLoop.h ([AudioLoop]) over
    include/subcollider/AudioBuffer.h.

    Simplifications: the [volatile uint8_t currentBuffer] is a boolean
    ([currentBuffer == 0] is the only test made of it and 0/1 the only values
    stored after [init]); an access is one atomic step, so an interleaving of
    the audio thread with the processing thread is a list of steps.
    [None] is undefined behaviour (a store or load outside [data[N]]). *)
From Coq Require Import ZArith Bool List.
From Verif Require Import Flt AllocModel.
Import ListNotations.

(** Which of the two member buffers a [Sample*] points into. *)
Inductive side := SA | SB.

(** AudioLoop.h:42-51: [bufferA], [bufferB], [currentBuffer] (true: 0), [sampleRate].
    AudioBuffer.h:26: [Sample data[N]]. *)
Record lstate := LState { bufA : list f32; bufB : list f32; cur0 : bool; lrate : f32 }.

(** AudioBuffer.h:37-41 [clear]: writes 0.0f to all N elements. *)
Fixpoint buf_clear (l : list f32) : list f32 :=
  match l with [] => [] | _ :: t => fzero :: buf_clear t end.

(** AudioLoop.h:60-65 [init]. *)
Definition loop_init (st : lstate) (sr : f32) : lstate :=
  LState (buf_clear (bufA st)) (buf_clear (bufB st)) true sr.

(** AudioLoop.h:71-73 [getOutputBuffer]. *)
Definition getOutputBuffer (st : lstate) : side := if cur0 st then SB else SA.

(** AudioLoop.h:79-81 [getProcessingBuffer]. *)
Definition getProcessingBuffer (st : lstate) : side := if cur0 st then SA else SB.

(** AudioLoop.h:86-92 [clearProcessingBuffer]. *)
Definition clearProcessingBuffer (st : lstate) : lstate :=
  if cur0 st then LState (buf_clear (bufA st)) (bufB st) (cur0 st) (lrate st)
  else LState (bufA st) (buf_clear (bufB st)) (cur0 st) (lrate st).

(** AudioLoop.h:100-102 [swapBuffers]. *)
Definition swapBuffers (st : lstate) : lstate :=
  LState (bufA st) (bufB st) (if cur0 st then false else true) (lrate st).

(** A store [p[i] = x] and a load [p[i]] by the client through a pointer it holds. *)
Definition store (st : lstate) (p : side) (i : nat) (x : f32) : option lstate :=
  match p with
  | SA => b <- aset (bufA st) i x ;; Some (LState b (bufB st) (cur0 st) (lrate st))
  | SB => b <- aset (bufB st) i x ;; Some (LState (bufA st) b (cur0 st) (lrate st))
  end.
Definition load (st : lstate) (p : side) (i : nat) : option f32 :=
  match p with SA => aget (bufA st) i | SB => aget (bufB st) i end.

(** One atomic step of either thread. *)
Inductive lop :=
| LInit (sr : f32) | LFetchP | LFetchO | LStore (p : side) (i : nat) (x : f32)
| LLoad (p : side) (i : nat) | LClear | LSwap.
Inductive lres := RUnit | RPtr (p : side) | RVal (x : f32).

Definition lstep (st : lstate) (o : lop) : option (lstate * lres) :=
  match o with
  | LInit sr => Some (loop_init st sr, RUnit)
  | LFetchP => Some (st, RPtr (getProcessingBuffer st))
  | LFetchO => Some (st, RPtr (getOutputBuffer st))
  | LStore p i x => st' <- store st p i x ;; Some (st', RUnit)
  | LLoad p i => x <- load st p i ;; Some (st, RVal x)
  | LClear => Some (clearProcessingBuffer st, RUnit)
  | LSwap => Some (swapBuffers st, RUnit)
  end.

Fixpoint lrun (st : lstate) (ops : list lop) : option (lstate * list lres) :=
  match ops with
  | [] => Some (st, [])
  | o :: t => s <- lstep st o ;; r <- lrun (fst s) t ;; Some (fst r, snd s :: snd r)
  end.
