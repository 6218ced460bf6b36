(** How the theorems on the JACK example read off what was typed. *)
From Coq Require Import ZArith Reals Bool List.
From Flocq Require Import Core BinarySingleNaN.
From Verif Require Import Flt FltFacts Libm UtilModel VcModel JxModel.
Import ListNotations.
Local Open Scope R_scope.

(** Sample rates of JACK. *)
Definition jx_hz (sr : Z) : Prop := (1000 <= sr <= 262144)%Z.
(** Any numbers may be typed, NaN included. *)
Definition jx_ok (o : jx_call) : Prop := match o with JRate sr => jx_hz sr | _ => True end.
Definition no_rate (o : jx_call) : Prop := match o with JRate _ => False | _ => True end.
Definition no_enter (o : jx_call) : Prop := match o with JEnter => False | _ => True end.
(** The rate in force. *)
Definition rate_of (sr : Z) (os : list jx_call) : Z := fold_left (fun r o => match o with JRate q => q | _ => r end) os sr.
(** The note is on after an odd number of empty lines. *)
Definition held (os : list jx_call) : bool := fold_left (fun b o => match o with JEnter => negb b | _ => b end) os false.
(** The frequency asked for: 440 Hz, or the last number between 20 and 20000. *)
Definition asked (os : list jx_call) : f32 :=
  fold_left (fun g o => match o with JNumber f => if (flt (fofZ 20) f && flt f (fofZ 20000))%bool then f else g | _ => g end) os (fofZ 440).
(** The frames asked for. *)
Definition frames (os : list jx_call) : nat := fold_right (fun o n => match o with JBlock k => (k + n)%nat | _ => n end) 0%nat os.
(** The program after [os], and the samples it then plays during [more]. *)
Definition jx_after (L : libm) (sr : Z) (os : list jx_call) : keys := fst (jx_run L (jx_start L sr) os).
Definition jx_plays (L : libm) (sr : Z) (os more : list jx_call) : list (f32 * f32) := snd (jx_run L (jx_after L sr os) more).
