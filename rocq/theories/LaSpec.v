(** Which calls the theorems about the ladders admit. *)
From Coq Require Import ZArith Reals List.
From Flocq Require Import Core BinarySingleNaN.
From Verif Require Import Flt FltFacts Libm MgSpec KjModel StModel MtModel MdModel ImModel ObModel RkModel.
Import ListNotations.
Local Open Scope R_scope.

(** Calls that change settings. *)
Definition kj_sets (o : kj_op) : bool := match o with KjCut _ | KjRes _ => true | _ => false end.
Definition st_sets (o : st_op) : bool := match o with StCut _ | StRes _ => true | _ => false end.
Definition mt_sets (o : mt_op) : bool := match o with MtCut _ | MtRes _ => true | _ => false end.
Definition md_sets (o : md_op) : bool := match o with MdCut _ | MdRes _ => true | _ => false end.
Definition im_sets (o : im_op) : bool := match o with ImCut _ | ImRes _ | ImDrive _ => true | _ => false end.
Definition ob_sets (o : ob_op) : bool := match o with ObCut _ | ObRes _ => true | _ => false end.
Definition rk_sets (o : rk_op) : bool := match o with RkCut _ | RkRes _ | RkDrive _ | RkOver _ => true | _ => false end.

(** Calls other than [reset]. *)
Definition mt_on (o : mt_op) : Prop := match o with MtReset => False | _ => True end.
Definition md_on (o : md_op) : Prop := match o with MdReset => False | _ => True end.
Definition im_on (o : im_op) : Prop := match o with ImReset => False | _ => True end.
Definition rk_on (o : rk_op) : Prop := match o with RkReset => False | _ => True end.

(** Improved ladder: cutoffs and resonances that are numbers or infinities, finite drives and samples. *)
Definition im_good (o : im_op) : Prop :=
  match o with ImCut c => is_nan c = false | ImRes r => is_nan r = false | ImDrive d => fin d | ImTick x => fin x | ImReset => True end.
(** Runge-Kutta ladder: cutoffs from 0 to the share [q] of the sample rate, resonances that are numbers or infinities, finite drives and samples, any oversampling factor an [int] can hold. *)
Definition rk_good (q : R) (sr : f32) (o : rk_op) : Prop :=
  match o with RkCut c => fin c /\ 0 <= B2R c <= q * B2R sr | RkRes r => is_nan r = false | RkDrive d => fin d | RkOver n => (- 2 ^ 31 <= n < 2 ^ 31)%Z | RkTick x => fin x | RkReset => True end.
(** Microtracker ladder: cutoffs that are not negative, resonances up to 0.24, samples of magnitude up to [x]. *)
Definition mt_good (x : R) (o : mt_op) : Prop :=
  match o with MtCut c => is_nan c = false /\ flt c fzero = false | MtRes r => fin r /\ B2R r <= 24 / 100 | MtTick y => fin y /\ Rabs (B2R y) <= x | MtReset => True end.
