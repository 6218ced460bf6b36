(** Model of include/subcollider/types.h ([lerp], [clamp]),
    ugens/LinLin.h and ugens/Wrap.h in binary32. *)
From Coq Require Import ZArith Bool List.
From Verif Require Import Flt.
Local Open Scope flt_scope.

(** Decimal literals n/d (both exactly representable): one correctly rounded
    division, the value C++ gives the literal. *)
Definition fdec (n d : Z) : f32 := fofZ n / fofZ d.
Definition one : f32 := fofZ 1.
Definition two : f32 := fofZ 2.
Definition half : f32 := flit 1 (-1).
Definition zero : f32 := fzero.

(** types.h:30 PI = 3.14159265358979323846f (0x40490FDB), types.h:33 TWO_PI = 2.0f * PI. *)
Definition PIf : f32 := flit 13176795 (-22).
Definition TWO_PI : f32 := two * PIf.

(** types.h:42-44 [lerp]. *)
Definition lerp (a b t : f32) : f32 := a + t * (b - a).

(** types.h:53-55 [clamp]. *)
Definition clamp (value mn mx : f32) : f32 :=
  if value <? mn then mn else if value >? mx then mx else value.

(** ugens/LinLin.h:27-34. *)
Definition LinLin (input srcLo srcHi destLo destHi : f32) : f32 :=
  let denom := srcHi - srcLo in
  if denom =? zero then destLo
  else
    let normalized := (input - srcLo) / denom in
    destLo + normalized * (destHi - destLo).

(** ugens/Wrap.h:74-79 [wrapValue]. *)
Definition wrapValue (input low range : f32) : f32 :=
  let normalized := (input - low) / range in
  input - range * ffloor normalized.

(** ugens/Wrap.h:31-37 [process(input, low, high)]. *)
Definition wrap_direct (input low high : f32) : f32 :=
  let range := high - low in
  if range <=? zero then low else wrapValue input low range.

(** ugens/Wrap.h:81-82: cached bounds (defaults 0 and 1). *)
Record wrap_st := WrapSt { cachedLow : f32; cachedRange : f32 }.
Definition wrap0 : wrap_st := WrapSt zero one.

(** ugens/Wrap.h:65-71 [setRange]. *)
Definition wrap_setRange (low high : f32) : wrap_st :=
  let r := high - low in
  WrapSt low (if r <=? zero then zero else r).

(** ugens/Wrap.h:44-49 [tick]. *)
Definition wrap_tick (s : wrap_st) (input : f32) : f32 :=
  if cachedRange s <=? zero then cachedLow s
  else wrapValue input (cachedLow s) (cachedRange s).
