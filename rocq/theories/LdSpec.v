(** Which calls the theorems about the remaining ladders admit. *)
From Coq Require Import ZArith Reals List.
From Flocq Require Import Core BinarySingleNaN.
From Verif Require Import Flt FltFacts Libm MgSpec ObModel.
Import ListNotations.
Local Open Scope R_scope.

(** Oberheim: cutoffs from 1 Hz to the share [q] of the sample rate; a resonance and samples that are numbers (infinities included). *)
Definition ob_good (q : R) (sr : f32) (o : ob_op) : Prop :=
  match o with ObCut c => mg_cut q sr c | ObRes r => is_nan r = false | ObTick x => is_nan x = false | ObReset => True end.
(** The same, with samples that may be anything. *)
Definition ob_sane (q : R) (sr : f32) (o : ob_op) : Prop := match o with ObTick _ => True | _ => ob_good q sr o end.
Definition ob_no_cut (o : ob_op) : Prop := match o with ObCut _ => False | _ => True end.
Definition ob_no_reset (o : ob_op) : Prop := match o with ObReset => False | _ => True end.
