(** Model of ugens/Pan2.h, ugens/Balance2.h, ugens/XFade2.h and ugens/DBAmp.h. *)
From Coq Require Import ZArith Bool List.
From Verif Require Import Flt Libm UtilModel.
Local Open Scope flt_scope.

(** 0.78539816339f (0x3F490FDB). *)
Definition PI4 : f32 := flit 13176795 (-24).
(** 0.70710678118f (0x3F3504F3). *)
Definition SQ2 : f32 := flit 11863283 (-24).
(** 1e-10f and 1e-12f: both decimal exponents exceed what a single correctly
    rounded division gives, so the binary32 bit patterns are written out
    (0x2EDBE6FF, 0x2B8CBCCC). *)
Definition e10 : f32 := flit 14411519 (-57).
Definition e12 : f32 := flit 9223372 (-63).

(** Pan2.h:46-57, 76-79; Balance2.h:55-66, 87-90; XFade2.h:99-102: clamped
    position to angle to (cos, sin). *)
Definition pan_angle (pos : f32) : f32 := (clamp pos (fneg one) one + one) * PI4.

(** Pan2.h:83-84. *)
Record pan2 := Pan2 { p_left : f32; p_right : f32 }.
Definition pan2_0 : pan2 := Pan2 SQ2 SQ2.
(** Pan2.h:44-60 [process]. *)
Definition pan2_process (L : libm) (input pan : f32) : f32 * f32 :=
  let angle := pan_angle pan in
  let left := m_cos L angle in let right := m_sin L angle in
  (input * left, input * right).
(** Pan2.h:67-69 [tick]. *)
Definition pan2_tick (p : pan2) (input : f32) : f32 * f32 := (input * p_left p, input * p_right p).
(** Pan2.h:75-80 [setPan]. *)
Definition pan2_setPan (L : libm) (p : pan2) (pan : f32) : pan2 :=
  let angle := pan_angle pan in Pan2 (m_cos L angle) (m_sin L angle).

(** Balance2.h:106-107. *)
Record bal2 := Bal2 { b_left : f32; b_right : f32 }.
Definition bal2_0 : bal2 := Bal2 SQ2 SQ2.
(** Balance2.h:53-69 [process]. *)
Definition bal2_process (L : libm) (left right pos level : f32) : f32 * f32 :=
  let angle := pan_angle pos in
  let lg := m_cos L angle in let rg := m_sin L angle in
  (left * lg * level, right * rg * level).
(** Balance2.h:77-79 [tick]. *)
Definition bal2_tick (b : bal2) (left right : f32) : f32 * f32 := (left * b_left b, right * b_right b).
(** Balance2.h:86-91 [setPosition]. *)
Definition bal2_setPosition (L : libm) (b : bal2) (pos level : f32) : bal2 :=
  let angle := pan_angle pos in Bal2 (m_cos L angle * level) (m_sin L angle * level).
(** Balance2.h:97-103 [setLevel]. *)
Definition bal2_setLevel (L : libm) (b : bal2) (level : f32) : bal2 :=
  let ratio := b_right b / (b_left b + e10) in
  let angle := m_atan L ratio in
  Bal2 (m_cos L angle * level) (m_sin L angle * level).

(** XFade2.h:106-109. *)
Record xfade := XFade { x_baseA : f32; x_baseB : f32; x_gainA : f32; x_gainB : f32 }.
Definition xfade_0 : xfade := XFade SQ2 SQ2 SQ2 SQ2.
(** XFade2.h:98-104 [computeGains]. *)
Definition computeGains (L : libm) (pos level : f32) : f32 * f32 :=
  let angle := pan_angle pos in (m_cos L angle * level, m_sin L angle * level).
(** XFade2.h:32-37 [process] (mono). *)
Definition xf_process (L : libm) (inA inB pos level : f32) : f32 :=
  let (gA, gB) := computeGains L pos level in inA * gA + inB * gB.
(** XFade2.h:47-53 [process] (stereo). *)
Definition xf_process2 (L : libm) (inA inB : f32 * f32) (pos level : f32) : f32 * f32 :=
  let (gA, gB) := computeGains L pos level in
  (fst inA * gA + fst inB * gB, snd inA * gA + snd inB * gB).
(** XFade2.h:58-60, 65-68 [tick]. *)
Definition xf_tick (x : xfade) (inA inB : f32) : f32 := inA * x_gainA x + inB * x_gainB x.
Definition xf_tick2 (x : xfade) (inA inB : f32 * f32) : f32 * f32 :=
  (fst inA * x_gainA x + fst inB * x_gainB x, snd inA * x_gainA x + snd inB * x_gainB x).
(** XFade2.h:75-83 [setPosition]. *)
Definition xf_setPosition (L : libm) (x : xfade) (pos level : f32) : xfade :=
  let (gA, gB) := computeGains L pos level in
  XFade (gA / (level + e12)) (gB / (level + e12)) gA gB.
(** XFade2.h:89-92 [setLevel]. *)
Definition xf_setLevel (x : xfade) (level : f32) : xfade :=
  XFade (x_baseA x) (x_baseB x) (x_baseA x * level) (x_baseB x * level).

(** DBAmp.h:28-37 [process], [tick]. *)
Definition dbamp (L : libm) (db : f32) : f32 := m_pow L (fofZ 10) (db * fdec 5 100).
