(** Model of examples/jack_example.cpp.
    JACK and the terminal are outside.  The process callback reads each of the two control values once, at its start, so
    it runs to completion between two inputs.  Printing, shutting down and lines that are not numbers are left out. *)
From Coq Require Import ZArith Bool List.
From Verif Require Import Flt Libm UtilModel VcModel.
Import ListNotations.
Local Open Scope flt_scope.

(** jack_example.cpp:24-29 [g_voice], [g_noteOn], [g_frequency], and the static [lastNoteOn] of line 50. *)
Record keys := Keys { jx_v : voice; jx_last : bool; jx_on : bool; jx_f : f32 }.
(** jack_example.cpp:28-29, 50, 118-124: start of the program. *)
Definition jx_start (L : libm) (sr : Z) : keys :=
  let v := ev_setFrequency (ev_init L (fofZ sr)) (fofZ 440) in
  let v := ev_setRelease L (ev_setAttack L v (fdec 1 100)) (fdec 3 10) in
  let v := ev_setVibratoRate (ev_setVibratoDepth v (fdec 1 10)) (fofZ 5) in
  Keys (ev_setAmplitude v half) false false (fofZ 440).
(** ExampleVoice.h:217-223 [process]: one tick per frame. *)
Fixpoint jx_ticks (L : libm) (v : voice) (n : nat) : voice * list (f32 * f32) :=
  match n with
  | O => (v, [])
  | S n => let (v1, y) := ev_tick L v in let (v2, ys) := jx_ticks L v1 n in (v2, y :: ys)
  end.
(** jack_example.cpp:37-65 [jackProcessCallback]. *)
Definition jx_block (L : libm) (s : keys) (n : nat) : keys * list (f32 * f32) :=
  let v := ev_setFrequency (jx_v s) (jx_f s) in
  let v := if negb (Bool.eqb (jx_on s) (jx_last s)) then (if jx_on s then ev_trigger v else ev_release v) else v in
  let (v, ys) := jx_ticks L v n in
  (Keys v (jx_on s) (jx_on s) (jx_f s), ys).
(** What happens to a running program: sample-rate callback (70-74), an empty line (170-173), a number (177-180), the process callback. *)
Inductive jx_call := JRate (sr : Z) | JEnter | JNumber (f : f32) | JBlock (n : nat).
Definition jx_op (L : libm) (s : keys) (o : jx_call) : keys * list (f32 * f32) :=
  match o with
  | JRate sr => (Keys (ev_init L (fofZ sr)) (jx_last s) (jx_on s) (jx_f s), [])
  | JEnter => (Keys (jx_v s) (jx_last s) (negb (jx_on s)) (jx_f s), [])
  | JNumber f => (Keys (jx_v s) (jx_last s) (jx_on s) (if (f >? fofZ 20) && (f <? fofZ 20000) then f else jx_f s), [])
  | JBlock n => jx_block L s n
  end.
Fixpoint jx_run (L : libm) (s : keys) (os : list jx_call) : keys * list (f32 * f32) :=
  match os with
  | [] => (s, [])
  | o :: os => let (s1, ys) := jx_op L s o in let (s2, zs) := jx_run L s1 os in (s2, ys ++ zs)
  end.
