(** Model of ugens/Downsampler.h.
    Input blocks are lists; reading past the end of one is undefined ([None]). *)
From Coq Require Import ZArith Bool List.
From Flocq Require Import BinarySingleNaN.
From Verif Require Import Flt Libm UtilModel.
Import ListNotations.
Local Open Scope flt_scope.

(** Downsampler.h:57-81 data members; [ds_st] is [filterState], four samples. *)
Record ds := Ds { ds_rate : f32; ds_fac : Z; ds_acc : f32; ds_n : Z; ds_st : list f32; ds_c : f32 }.
(** Downsampler.h:92 clamped factor (a size_t). *)
Definition ds_factor (f : Z) : Z := if (f >? 16)%Z then 16 else if (f <? 1)%Z then 1 else f.
(** Downsampler.h:101-104 filter coefficient. *)
Definition ds_coeff (L : libm) (rate : f32) (f : Z) : f32 :=
  let inputRate := rate * fofZ f in
  let cutoff := rate * fdec 45 100 in
  let omega := TWO_PI * cutoff / inputRate in
  one - m_exp L (- omega).
(** Downsampler.h:90-105 [init]. *)
Definition ds_init (L : libm) (rate : f32) (f : Z) : ds :=
  Ds rate (ds_factor f) zero 0 [zero; zero; zero; zero] (ds_coeff L rate (ds_factor f)).
(** Downsampler.h:113-115 [setOversampleFactor]. *)
Definition ds_setFactor (L : libm) (d : ds) (f : Z) : ds := ds_init L (ds_rate d) f.
(** Downsampler.h:127-131: the filter loop; new states, the last one is the filtered sample. *)
Fixpoint ds_stages (c : f32) (st : list f32) (x : f32) : list f32 :=
  match st with [] => [] | s :: st => let s' := s + c * (x - s) in s' :: ds_stages c st s' end.
(** Downsampler.h:125-136 [write]. *)
Definition ds_write (d : ds) (x : f32) : ds :=
  let st := ds_stages (ds_c d) (ds_st d) x in
  Ds (ds_rate d) (ds_fac d) (ds_acc d + last st x) (wrap64 (ds_n d + 1)) st (ds_c d).
(** Downsampler.h:145-158 [read]. *)
Definition ds_read (d : ds) : ds * f32 :=
  if (ds_n d =? 0)%Z then (d, zero)
  else (Ds (ds_rate d) (ds_fac d) zero 0 (ds_st d) (ds_c d), ds_acc d / fofZ (ds_n d)).
(** Downsampler.h:168-171: write [k] samples of the input starting at [i]. *)
Fixpoint ds_writes (d : ds) (input : list f32) (i : Z) (k : nat) : option ds :=
  match k with O => Some d | S k => match nth_error input (Z.to_nat i) with Some x => ds_writes (ds_write d x) input (i + 1) k | None => None end end.
(** Downsampler.h:166-175 [process]: frames [i], [i+1], ..., [n] of them; the outputs. *)
Fixpoint ds_process_from (d : ds) (input : list f32) (i : Z) (n : nat) : option (ds * list f32) :=
  match n with
  | O => Some (d, [])
  | S n =>
    match ds_writes d input (i * ds_fac d) (Z.to_nat (ds_fac d)) with
    | Some d1 => let (d2, y) := ds_read d1 in
        match ds_process_from d2 input (i + 1) n with Some (d3, ys) => Some (d3, y :: ys) | None => None end
    | None => None
    end
  end.
Definition ds_process (d : ds) (input : list f32) (n : nat) : option (ds * list f32) := ds_process_from d input 0 n.
(** Downsampler.h:181-183 [isReady]. *)
Definition ds_ready (d : ds) : bool := (ds_fac d <=? ds_n d)%Z.
(** Downsampler.h:188-192 [reset]. *)
Definition ds_reset (d : ds) : ds := Ds (ds_rate d) (ds_fac d) zero 0 [zero; zero; zero; zero] (ds_c d).

(** Downsampler.h:217-297 [StereoDownsampler]. *)
Definition ds2 : Type := ds * ds.
Definition ds2_init (L : libm) (rate : f32) (f : Z) : ds2 := (ds_init L rate f, ds_init L rate f).
Definition ds2_setFactor (L : libm) (d : ds2) (f : Z) : ds2 := (ds_setFactor L (fst d) f, ds_setFactor L (snd d) f).
Definition ds2_write (d : ds2) (l r : f32) : ds2 := (ds_write (fst d) l, ds_write (snd d) r).
Definition ds2_read (d : ds2) : ds2 * (f32 * f32) := let (l, x) := ds_read (fst d) in let (r, y) := ds_read (snd d) in ((l, r), (x, y)).
Definition ds2_process (d : ds2) (il ir : list f32) (n : nat) : option (ds2 * (list f32 * list f32)) :=
  match ds_process (fst d) il n, ds_process (snd d) ir n with
  | Some (l, xs), Some (r, ys) => Some ((l, r), (xs, ys))
  | _, _ => None
  end.
Definition ds2_ready (d : ds2) : bool := ds_ready (fst d) && ds_ready (snd d).
Definition ds2_reset (d : ds2) : ds2 := (ds_reset (fst d), ds_reset (snd d)).

(** Calls after [init]. *)
Inductive ds_op := DsWrite (x : f32) | DsRead | DsFactor (f : Z) | DsReset.
Definition ds_call (L : libm) (d : ds) (o : ds_op) : ds * option f32 :=
  match o with
  | DsWrite x => (ds_write d x, None)
  | DsRead => let (d', y) := ds_read d in (d', Some y)
  | DsFactor f => (ds_setFactor L d f, None)
  | DsReset => (ds_reset d, None)
  end.
Inductive ds2_op := D2Write (l r : f32) | D2Read | D2Factor (f : Z) | D2Reset.
Definition ds2_call (L : libm) (d : ds2) (o : ds2_op) : ds2 * option (f32 * f32) :=
  match o with
  | D2Write l r => (ds2_write d l r, None)
  | D2Read => let (d', y) := ds2_read d in (d', Some y)
  | D2Factor f => (ds2_setFactor L d f, None)
  | D2Reset => (ds2_reset d, None)
  end.
