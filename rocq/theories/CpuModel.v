(** Model of the load meter of examples/supersaw_example.cpp (67-71, 195-214): the share of the block time spent in the callback, averaged over the last 100 blocks.
    [None] is an access outside the ring. The clock readings are inputs: [t] is [end - start] in nanoseconds. *)
From Coq Require Import ZArith Bool List.
From Flocq Require Import BinarySingleNaN.
From Verif Require Import Flt Libm UtilModel MgModel.
Import ListNotations.
Local Open Scope flt_scope.

(** supersaw_example.cpp:67-71 the globals. *)
Record meter := Meter { cp_usage : f32; cp_ring : list f32; cp_size : nat; cp_idx : nat; cp_sum : f64 }.
Definition cp_start : meter := Meter zero (repeat (zero : f32) 100) 0 0 (dz 0).
(** [g_cpuRing[i] = x]. *)
Fixpoint cp_put (r : list f32) (i : nat) (x : f32) : option (list f32) :=
  match r, i with
  | [], _ => None
  | _ :: t, O => Some (x :: t)
  | y :: t, S j => match cp_put t j x with Some t' => Some (y :: t') | None => None end
  end.
(** supersaw_example.cpp:202-213: one sample enters the ring. *)
Definition cp_add (m : meter) (x : f32) : option meter :=
  match (if Nat.ltb (cp_size m) 100 then
           match cp_put (cp_ring m) (cp_idx m) x with
           | Some r => Some (r, S (cp_size m), cp_sum m + f2d x)
           | None => None
           end
         else
           match nth_error (cp_ring m) (cp_idx m), cp_put (cp_ring m) (cp_idx m) x with
           | Some old, Some r => Some (r, cp_size m, cp_sum m - f2d old + f2d x)
           | _, _ => None
           end) with
  | Some (r, n, s) => Some (Meter (d2f (s / dz (Z.of_nat n))) r n (Nat.modulo (S (cp_idx m)) 100) s)
  | None => None
  end.
(** supersaw_example.cpp:196-198. *)
Definition cp_time (rate : f32) (nframes : Z) : f64 := dz nframes / f2d rate * dz 1000000000.
(** supersaw_example.cpp:200-201. *)
Definition cp_sample (rate : f32) (nframes t : Z) : f32 := d2f (dz t / cp_time rate nframes * dz 100).
(** supersaw_example.cpp:195-214 the end of the callback. *)
Record turn := Turn { tn_rate : f32; tn_frames : Z; tn_ns : Z }.
Definition cp_block (m : meter) (b : turn) : option meter :=
  if cp_time (tn_rate b) (tn_frames b) >? dz 0 then cp_add m (cp_sample (tn_rate b) (tn_frames b) (tn_ns b)) else Some m.
Fixpoint cp_run (m : meter) (bs : list turn) : option meter :=
  match bs with [] => Some m | b :: t => match cp_block m b with Some m' => cp_run m' t | None => None end end.
