(** What BufRd is specified against. *)
From Coq Require Import ZArith Reals Bool List.
From Flocq Require Import Core BinarySingleNaN.
From Verif Require Import Flt FltFacts UtilModel RdModel.
Import ListNotations.
Local Open Scope R_scope.

(** A buffer that points to [numSamples] frames of one or two channels; no array has 2^62 floats. *)
Definition rb_ok (b : rbuf) : Prop :=
  exists d, rb_data b = Some d /\ (0 < rb_n b)%Z /\ (rb_ch b = 1%Z \/ rb_ch b = 2%Z) /\ (rb_n b * rb_ch b <= rb_len b < 2 ^ 62)%Z.
(** Stored frame [i], channel [c] (0 left, 1 right); a mono buffer has the same in both. *)
Definition smp (b : rbuf) (c i : Z) : f32 :=
  match rb_data b with Some d => d (if (rb_ch b =? 1)%Z then i else (2 * i + c)%Z) | None => zero end.
(** One channel taken out as a mono buffer. *)
Definition mono_of (b : rbuf) (c : Z) : rbuf := RBuf (Some (smp b c)) (rb_n b) 1 (rb_sr b) (rb_n b).
(** The position a phase stands for: reduced modulo the length, or clamped to the first and last frame. *)
Definition rd_pos (loop : bool) (n : Z) (p : R) : R :=
  if loop then p - IZR n * IZR (Zfloor (p / IZR n)) else Rmax 0 (Rmin (IZR n - 1) p).
(** The frame number [i] stands for. *)
Definition frame (loop : bool) (n i : Z) : Z := if loop then (i mod n)%Z else Z.max 0 (Z.min (n - 1) i).
Definition linear (t y0 y1 : R) : R := (1 - t) * y0 + t * y1.
(** All frames of channel [c] bounded by 2^j. *)
Definition loud (j : Z) (b : rbuf) (c : Z) : Prop :=
  forall i, (0 <= i < rb_n b)%Z -> fin (smp b c i) /\ Rabs (B2R (smp b c i)) <= bpow radix2 j.
